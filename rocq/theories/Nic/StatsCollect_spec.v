(** Vocabulary for the statistics collector, over observed cycles. *)
From Verif Require Import Base.Prelude Nic.StatsCollect_model.
Local Open Scope Z_scope.

Notation lcycle := (bool * slin * slout)%type.

Definition observe (c : slcfg) (mem0 : nat -> Z) (xs : list (bool * slin)) : list lcycle :=
  combine xs (snd (trace (sl_step c) (sl_init c mem0) xs)).

(** The cycles since the last reset. *)
Definition live (h : list lcycle) : list lcycle :=
  fold_left (fun acc (x : lcycle) => if fst (fst x) then [] else acc ++ [x]) h [].

(** Sum of the increments of channel [n] presented in some cycles, and sum of
    those the collector handed over. *)
Definition received (n : nat) (h : list lcycle) : Z :=
  fold_left (fun acc (x : lcycle) => let '(_, i, _) := x in acc + match li_inc i n with Some v => v | None => 0 end) h 0.
Definition delivered (n : nat) (h : list lcycle) : Z :=
  fold_left (fun acc (x : lcycle) => let '(_, i, o) := x in
    acc + if lo_tvalid o && li_tready i && Nat.eqb (lo_tid o) n then lo_tdata o else 0) h 0.
(** Number of hand-overs. *)
Definition reports (n : nat) (h : list lcycle) : Z :=
  fold_left (fun acc (x : lcycle) => let '(_, i, o) := x in
    acc + if lo_tvalid o && li_tready i && Nat.eqb (lo_tid o) n then 1 else 0) h 0.

Definition quiet (n : nat) (x : lcycle) : Prop := li_inc (snd (fst x)) n = None.

Definition cfg_ok (c : slcfg) : Prop := (2 <= sl_k c)%nat /\ 0 < sl_iw c /\ 0 < sl_sw c /\ 3 <= sl_up c.
(** Increments have INC_WIDTH bits. *)
Definition wires_ok (c : slcfg) (xs : list (bool * slin)) : Prop :=
  forall rst i n v, In (rst, i) xs -> li_inc i n = Some v -> 0 <= v < 2 ^ sl_iw c.

(** At no time since the last reset was more received and not handed over than
    the output has bits for. *)
Definition fits (c : slcfg) (n : nat) (l : list lcycle) : Prop :=
  forall q r, l = q ++ r -> received n q - delivered n q < 2 ^ sl_sw c.

(** A cycle without reset in which the sink is ready. *)
Definition ready_cycle (x : lcycle) : Prop := fst (fst x) = false /\ li_tready (snd (fst x)) = true.
