(** Closing queues and interfaces, fpga/common/tb/mqnic.py: [Cq.close]
    649-665, [Txq.close] 753-770, [Rxq.close] 935-952, [disable] 780-786 and
    962-968, [free_buf] 806-810 and 988-992, [Interface.close] 1451-1480. *)
From Verif Require Import Base.Prelude Driver.Ring_model.
Local Open Scope Z_scope.

(** Register writes, in the order in which they reach the device.  The kind of
    a queue is needed to tell the register windows apart. *)
Inductive qkind := QTx | QRx.

Inductive regwrite :=
| WQueueEnable (k : qkind) (index : Z) (on : bool)  (* MQNIC_QUEUE_CMD_SET_ENABLE *)
| WCqEnable (cqn : Z) (on : bool)                   (* MQNIC_CQ_CMD_SET_ENABLE *)
| WPortRxCtrl (val : Z)
| WPortTxCtrl (val : Z).

Inductive exn := AssertionError | TypeError.

Inductive outcome := Returned | Raised (e : exn).

(** ** Freeing the buffers of a ring *)

(** State left by [free_buf]: buffer pool, [tx_info]/[rx_info], consumer
    pointer, and whether it raised. *)
Record freed := mkFreed { fb_pool : pool; fb_info : Z -> option nat; fb_cons : Z; fb_out : outcome }.

(** mqnic.py:806-810, 988-992, with [free_desc] (801-804, 983-986) inlined:
    [n] is the number of iterations, [prod_ptr - cons_ptr] of them. *)
Fixpoint free_loop (n : nat) (k : Z) (p : pool) (info : Z -> option nat) (cons : Z) : freed :=
  match n with
  | O => mkFreed p info cons Returned
  | S m =>
      let i := slot k cons in
      match free_pkt p (info i) with
      | None => mkFreed p info cons (Raised AssertionError)
      | Some p' => free_loop m k p' (zupd info i None) (cons + 1)
      end
  end.

Definition free_buf (k : Z) (p : pool) (info : Z -> option nat) (prod cons : Z) : freed :=
  free_loop (Z.to_nat (prod - cons)) k p info cons.

(** ** Queues *)

(** A [Txq] or [Rxq] with its completion queue.  [dq_open]: [hw_regs] is set;
    [dq_enabled]: the attribute [enabled]; [dq_cqopen]: the completion queue's
    [hw_regs] is set. *)
Record dq := mkDq {
  dq_kind : qkind;
  dq_index : Z;
  dq_cqn : Z;
  dq_log : Z;
  dq_info : Z -> option nat;
  dq_prod : Z;
  dq_cons : Z;
  dq_open : bool;
  dq_enabled : bool;
  dq_cqopen : bool }.

(** mqnic.py:780-786, 962-968: when awaited. *)
Definition dq_disable (q : dq) : dq * list regwrite :=
  if dq_open q
  then (mkDq (dq_kind q) (dq_index q) (dq_cqn q) (dq_log q) (dq_info q) (dq_prod q) (dq_cons q)
          true false (dq_cqopen q),
        [WQueueEnable (dq_kind q) (dq_index q) false])
  else (q, []).

(** mqnic.py:753-770, 935-952; the third component is the index handed back to
    the resource manager, if any. *)
Definition dq_close (q : dq) : dq * list regwrite * option Z :=
  if dq_open q then
    let '(q', w) := dq_disable q in
    (mkDq (dq_kind q') (dq_index q') (dq_cqn q') (dq_log q') (dq_info q') (dq_prod q') (dq_cons q')
       false (dq_enabled q') (dq_cqopen q'), w, Some (dq_index q))
  else (q, [], None).

(** mqnic.py:649-665. *)
Definition dq_close_cq (q : dq) : dq * list regwrite * option Z :=
  if dq_cqopen q then
    (mkDq (dq_kind q) (dq_index q) (dq_cqn q) (dq_log q) (dq_info q) (dq_prod q) (dq_cons q)
       (dq_open q) (dq_enabled q) false, [WCqEnable (dq_cqn q) false], Some (dq_cqn q))
  else (q, [], None).

(** mqnic.py:1467-1468, 1473-1474: [await q.free_buf()].  [free_buf] is a plain
    function: its body runs at the call, and awaiting the [None] it returns
    raises [TypeError]. *)
Definition await_free_buf (p : pool) (q : dq) : pool * dq * outcome :=
  let f := free_buf (dq_log q) p (dq_info q) (dq_prod q) (dq_cons q) in
  (fb_pool f,
   mkDq (dq_kind q) (dq_index q) (dq_cqn q) (dq_log q) (fb_info f) (dq_prod q) (fb_cons f)
     (dq_open q) (dq_enabled q) (dq_cqopen q),
   match fb_out f with Returned => Raised TypeError | Raised e => Raised e end).

(** ** The interface *)

(** [if_free]: the indices handed back so far. *)
Record iface := mkIface {
  if_up : bool;
  if_tx : list dq;
  if_rx : list dq;
  if_pool : pool;
  if_free : list Z }.

(** mqnic.py:1466-1470, 1472-1476: the loop over the queues of one kind. *)
Fixpoint close_queues (p : pool) (free : list Z) (qs : list dq)
  : pool * list Z * list dq * list regwrite * outcome :=
  match qs with
  | [] => (p, free, [], [], Returned)
  | q :: qs' =>
      let '(p1, q1, r1) := await_free_buf p q in
      match r1 with
      | Raised e => (p1, free, q1 :: qs', [], Raised e)
      | Returned =>
          let '(q2, w2, f2) := dq_close q1 in
          let '(q3, w3, f3) := dq_close_cq q2 in
          let back o := match o with Some i => [i] | None => [] end in
          let '(p4, fr, qs4, w4, r4) := close_queues p1 (free ++ back f2 ++ back f3) qs' in
          (p4, fr, q3 :: qs4, w2 ++ w3 ++ w4, r4)
      end
  end.

(** mqnic.py:1451-1480.  [q.disable()] in 1456-1460 only builds a coroutine
    that is never awaited: no register write, [enabled] unchanged. *)
Definition iface_close (s : iface) : iface * list regwrite * outcome :=
  let w0 := [WPortRxCtrl 0] in
  let '(p1, f1, tx1, w1, r1) := close_queues (if_pool s) (if_free s) (if_tx s) in
  match r1 with
  | Raised e => (mkIface false tx1 (if_rx s) p1 f1, w0 ++ w1, Raised e)
  | Returned =>
      let '(p2, f2, rx2, w2, r2) := close_queues p1 f1 (if_rx s) in
      match r2 with
      | Raised e => (mkIface false tx1 rx2 p2 f2, w0 ++ w1 ++ w2, Raised e)
      | Returned => (mkIface false [] [] p2 f2, w0 ++ w1 ++ w2 ++ [WPortTxCtrl 0], Returned)
      end
  end.

(** [n] calls in a row, the exceptions being caught by the caller. *)
Fixpoint iface_close_again (n : nat) (s : iface) : iface * list regwrite * list outcome :=
  match n with
  | O => (s, [], [])
  | S m =>
      let '(s1, w1, r1) := iface_close s in
      let '(s2, w2, rs) := iface_close_again m s1 in
      (s2, w1 ++ w2, r1 :: rs)
  end.
