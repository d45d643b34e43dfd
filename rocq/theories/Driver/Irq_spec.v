(** Vocabulary for interrupt lines: waveforms and counts. *)
From Verif Require Import Base.Prelude Driver.Irq_model.
Local Open Scope Z_scope.

(** Line [i] of a signal value. *)
Definition line (v : Z) (i : nat) : bool := Z.testbit v (Z.of_nat i).

(** Rising edges of line [i] in the waveform [vs] starting from [u]. *)
Fixpoint rises (i : nat) (u : Z) (vs : list Z) : nat :=
  match vs with
  | [] => O
  | v :: vs' => ((if line v i && negb (line u i) then 1 else 0) + rises i v vs')%nat
  end.

(** Changes of the signal, of whichever line, that leave line [i] high. *)
Fixpoint high_changes (i : nat) (u : Z) (vs : list Z) : nat :=
  match vs with
  | [] => O
  | v :: vs' => ((if line v i && negb (v =? u)%Z then 1 else 0) + high_changes i v vs')%nat
  end.

(** No other line moves while line [i] stays high. *)
Fixpoint others_still (i : nat) (u : Z) (vs : list Z) : Prop :=
  match vs with
  | [] => True
  | v :: vs' => (line u i = true -> line v i = true -> v = u) /\ others_still i v vs'
  end.

(** The last value of a waveform. *)
Fixpoint level (u : Z) (vs : list Z) : Z :=
  match vs with [] => u | v :: vs' => level v vs' end.

(** Occurrences of [i] among the observations. *)
Fixpoint calls (i : nat) (os : list (option nat)) : nat :=
  match os with
  | [] => O
  | Some j :: os' => ((if Nat.eqb j i then 1 else 0) + calls i os')%nat
  | None :: os' => calls i os'
  end.

(** All values fit a signal of [count] lines. *)
Definition on_lines (count : nat) (v : Z) : Prop := 0 <= v < 2 ^ Z.of_nat count.

(** The waveform the design drives in a history. *)
Fixpoint wave (ops : list irq_op) : list Z :=
  match ops with
  | [] => []
  | IrqSignal v :: ops' => v :: wave ops'
  | _ :: ops' => wave ops'
  end.

(** Handler returns of interrupt [i] in a history. *)
Fixpoint returns (i : nat) (ops : list irq_op) : nat :=
  match ops with
  | [] => O
  | IrqDone j :: ops' => ((if Nat.eqb j i then 1 else 0) + returns i ops')%nat
  | _ :: ops' => returns i ops'
  end.

(** The task of interrupt [i] is given [n] turns with the lines quiet. *)
Fixpoint turns (n : nat) (i : nat) : list irq_op :=
  match n with O => [] | S m => IrqDone i :: IrqTake i :: turns m i end.

(** The same for one line. *)
Fixpoint rises1 (u : bool) (ops : list irq1_op) : nat :=
  match ops with
  | [] => O
  | F1Signal v :: ops' => ((if v && negb u then 1 else 0) + rises1 v ops')%nat
  | _ :: ops' => rises1 u ops'
  end.
