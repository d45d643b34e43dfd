(** C43: edge-triggered interrupts. *)
From Verif Require Import Base.Prelude Driver.Irq_model Driver.Irq_spec Driver.Irq_proof.
Local Open Scope Z_scope.

(** In every history, whatever the waveform and however long the handlers
    take, the handler of a line is called at most once for each change of the
    signal that leaves the line high, and once the lines are quiet and its
    task gets its turns it has been called exactly that often. *)
Theorem C43_calls_exact : forall count i v0 ops n, (i < count)%nat ->
  (calls i (snd (trace (irq_step count) (irq_init v0) ops)) <= high_changes i v0 (wave ops))%nat /\
  ((high_changes i v0 (wave ops) <= n)%nat ->
   calls i (snd (trace (irq_step count) (irq_init v0) (ops ++ turns n i))) =
   high_changes i v0 (wave ops)).
Proof.
  exact (fun count i v0 ops n Hi => conj (@calls_le count i v0 ops Hi) (@calls_flushed count i v0 ops n Hi)).
Qed.
Print Assumptions C43_calls_exact.

(** No rising edge is lost: at least one call per rising edge. *)
Theorem C43_no_edge_lost : forall count i v0 ops n, (i < count)%nat ->
  (high_changes i v0 (wave ops) <= n)%nat ->
  (rises i v0 (wave ops) <=
   calls i (snd (trace (irq_step count) (irq_init v0) (ops ++ turns n i))))%nat.
Proof.
  exact (fun count i v0 ops n Hi Hn =>
    eq_ind_r (fun c => (rises i v0 (wave ops) <= c)%nat) (rises_le_high i (wave ops) v0)
      (@calls_flushed count i v0 ops n Hi Hn)).
Qed.
Print Assumptions C43_no_edge_lost.

(** Exactly one call per rising edge when no other line changes while this
    one is high... *)
Theorem C43_exactly_once : forall count i v0 ops n, (i < count)%nat ->
  others_still i v0 (wave ops) -> (rises i v0 (wave ops) <= n)%nat ->
  calls i (snd (trace (irq_step count) (irq_init v0) (ops ++ turns n i))) = rises i v0 (wave ops) /\
  (calls i (snd (trace (irq_step count) (irq_init v0) ops)) <= rises i v0 (wave ops))%nat.
Proof.
  exact (fun count i v0 ops n Hi Ho Hn =>
    let E := @rises_eq_high i (wave ops) v0 Ho in
    conj (eq_trans (@calls_flushed count i v0 ops n Hi (eq_ind_r (fun c => (c <= n)%nat) Hn E)) E)
         (eq_ind (high_changes i v0 (wave ops)) (fun c => (_ <= c)%nat) (@calls_le count i v0 ops Hi) _ E)).
Qed.
Print Assumptions C43_exactly_once.

(** ... in particular with a single line. *)
Theorem C43_single_line : forall v0 ops n, on_lines 1 v0 -> Forall (on_lines 1) (wave ops) ->
  (rises 0 v0 (wave ops) <= n)%nat ->
  calls 0 (snd (trace (irq_step 1) (irq_init v0) (ops ++ turns n 0))) = rises 0 v0 (wave ops).
Proof.
  exact (fun v0 ops n Hv HF Hn =>
    proj1 (@C43_exactly_once 1 0 v0 ops n (Nat.lt_0_succ 0) (@single_line_still (wave ops) v0 Hv HF) Hn)).
Qed.
Print Assumptions C43_single_line.

(** Calls of one handler never overlap: each but the first follows a return
    of the previous one (for every history, hence for every prefix of one). *)
Theorem C43_calls_do_not_overlap : forall count i v0 ops,
  (calls i (snd (trace (irq_step count) (irq_init v0) ops)) <= 1 + returns i ops)%nat.
Proof. exact (fun count i v0 ops => proj2 (irq_order count i v0 ops)). Qed.
Print Assumptions C43_calls_do_not_overlap.

(** "Exactly once per rising edge" fails with two lines: line 0 rises once and
    stays high while line 1 pulses; the handler of line 0 is called three
    times. *)
Theorem C43_exactly_once_refuted :
  exists ops n, rises 0 0 (wave ops) = 1%nat /\
    calls 0 (snd (trace (irq_step 2) (irq_init 0) (ops ++ turns n 0))) = 3%nat.
Proof.
  exact (ex_intro _ [IrqSignal 1; IrqSignal 3; IrqSignal 1]
           (ex_intro _ 3%nat (conj eq_refl eq_refl))).
Qed.
Print Assumptions C43_exactly_once_refuted.

(** An interrupt created with [from_edge] never calls its handler, whatever
    its line does. *)
Theorem C43_from_edge_refuted : forall v0 ops,
  Forall (fun called => called = false) (snd (trace irq1_step (irq1_init v0) ops)).
Proof.
  exact (fun v0 ops =>
    @from_edge_silent ops (irq1_init v0) _ _ eq_refl (surjective_pairing _)).
Qed.
Print Assumptions C43_from_edge_refuted.

(** A history with several rising edges on two lines, handlers slow. *)
Definition c43_ops : list irq_op :=
  [IrqSignal 1; IrqTake 0; IrqSignal 0; IrqSignal 2; IrqTake 1; IrqSignal 0; IrqSignal 1;
   IrqTake 0; IrqDone 1; IrqSignal 0].

Example C43_nonvacuous :
  rises 0 0 (wave c43_ops) = 2%nat /\ rises 1 0 (wave c43_ops) = 1%nat /\
  others_still 0 0 (wave c43_ops) /\
  calls 0 (snd (trace (irq_step 2) (irq_init 0) c43_ops)) = 1%nat /\
  calls 0 (snd (trace (irq_step 2) (irq_init 0) (c43_ops ++ turns 2 0))) = 2%nat /\
  rises1 false [F1Signal true; F1Take; F1Signal false; F1Signal true; F1Take] = 2%nat.
Proof. vm_compute. intuition congruence. Qed.
