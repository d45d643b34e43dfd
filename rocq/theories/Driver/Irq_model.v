(** Edge-triggered interrupts of the mqnic driver, fpga/common/tb/mqnic.py
    lines 1584-1611 ([Interrupt]) and 1761-1769 ([Driver._run_edge_interrupts]). *)
From Verif Require Import Base.Prelude.
Local Open Scope Z_scope.

(** The interrupt machinery of one driver: the value of the interrupt signal,
    the local [last_val] of [_run_edge_interrupts] (mqnic.py:1762), the length
    of the queue of each [Interrupt] (1587), and whether its [_run] task is
    inside the handler (1605-1606) rather than waiting at [queue.get()].
    Simplification: the queued items are all [None], so only their number is
    kept; the handlers are an environment that may take any time to finish. *)
Record irqs := mkIrqs {
  iq_sig : Z;
  iq_last : Z;
  iq_queue : nat -> nat;
  iq_busy : nat -> bool }.

(** mqnic.py:1584-1590, 1762: nothing queued, every task at [queue.get()],
    the signal at whatever level the design starts with. *)
Definition irq_init (v0 : Z) : irqs := mkIrqs v0 0 (fun _ => O) (fun _ => false).

(** mqnic.py:1599-1600 [Interrupt.interrupt]: one item more. *)
Definition irq_put (q : nat -> nat) (i : nat) : nat -> nat := nupd q i (S (q i)).

(** mqnic.py:1768-1769: [for index in (x for x in range(count) if edge & (1 << x))];
    awaiting [interrupt()] never suspends, so the loop is atomic. *)
Definition irq_put_all (count : nat) (edge : Z) (q : nat -> nat) : nat -> nat :=
  fold_left (fun q x => if Z.land edge (Z.shiftl 1 (Z.of_nat x)) =? 0 then q else irq_put q x)
            (seq 0 count) q.

(** mqnic.py:1764-1769: one iteration of the loop, run when the simulator
    reports a change of the signal ([Edge]).  Note that [last_val] is never
    assigned in the loop. *)
Definition irq_edge (count : nat) (v : Z) (s : irqs) : irqs :=
  let edge := Z.land v (Z.lnot (iq_last s)) in
  mkIrqs v (iq_last s) (irq_put_all count edge (iq_queue s)) (iq_busy s).

Inductive irq_op :=
| IrqSignal (v : Z)    (* the design drives the signal to [v] *)
| IrqTake (i : nat)    (* task [i] is resumed from [queue.get()] if an item is there *)
| IrqDone (i : nat).   (* the handler of task [i] returns *)

(** What is observed: the handler called with index [i]. *)
Definition irq_step (count : nat) (s : irqs) (o : irq_op) : irqs * option nat :=
  match o with
  | IrqSignal v => (if v =? iq_sig s then s else irq_edge count v s, None)
  | IrqTake i =>
      (* mqnic.py:1603-1606 *)
      if iq_busy s i then (s, None)
      else match iq_queue s i with
           | O => (s, None)
           | S n => (mkIrqs (iq_sig s) (iq_last s) (nupd (iq_queue s) i n)
                       (nupd (iq_busy s) i true), Some i)
           end
  | IrqDone i => (mkIrqs (iq_sig s) (iq_last s) (iq_queue s) (nupd (iq_busy s) i false), None)
  end.

(** ** [Interrupt.from_edge] (mqnic.py:1592-1597): one interrupt on one signal *)

Record irq1 := mkIrq1 { f_sig : bool; f_queue : nat; f_busy : bool }.

Definition irq1_init (v0 : bool) : irq1 := mkIrq1 v0 O false.

Inductive irq1_op := F1Signal (v : bool) | F1Take | F1Done.

(** mqnic.py:1608-1611 [_run_edge]: on a rising edge, [self.interrupt()] builds
    a coroutine object that is never awaited, so its body does not run. *)
Definition irq1_rise (q : nat) : nat := q.

Definition irq1_step (s : irq1) (o : irq1_op) : irq1 * bool :=
  match o with
  | F1Signal v =>
      (mkIrq1 v (if v && negb (f_sig s) then irq1_rise (f_queue s) else f_queue s) (f_busy s), false)
  | F1Take =>
      if f_busy s then (s, false)
      else match f_queue s with
           | O => (s, false)
           | S n => (mkIrq1 (f_sig s) n true, true)
           end
  | F1Done => (mkIrq1 (f_sig s) (f_queue s) false, false)
  end.
