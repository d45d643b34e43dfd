(** C44: closing an interface. *)
From Verif Require Import Base.Prelude Driver.Ring_model Driver.Close_model Driver.Close_spec
  Driver.Close_proof.
Local Open Scope Z_scope.

(** Closing a queue switches it off in hardware, hands its index back exactly
    once, and closing it again does nothing. *)
Theorem C44_queue_close : forall q, dq_open q = true ->
  exists q', dq_close q = (q', [WQueueEnable (dq_kind q) (dq_index q) false], Some (dq_index q)) /\
    dq_open q' = false /\ dq_enabled q' = false /\ dq_close q' = (q', [], None).
Proof. exact queue_close_ok. Qed.
Print Assumptions C44_queue_close.

(** Closing the completion queue of a queue writes one register, switching off
    that completion queue, hands its number back, and leaves the ring alone;
    closing it again does nothing. *)
Theorem C44_completion_queue_close : forall q, dq_cqopen q = true ->
  exists q', dq_close_cq q = (q', [WCqEnable (dq_cqn q) false], Some (dq_cqn q)) /\
    dq_cqopen q' = false /\ dq_open q' = dq_open q /\ dq_enabled q' = dq_enabled q /\ dq_info q' = dq_info q /\ dq_close_cq q' = (q', [], None).
Proof. exact cq_close_ok. Qed.
Print Assumptions C44_completion_queue_close.

(** Freeing the buffers of a ring whose outstanding slots all hold a buffer
    returns every one of them to the pool, in ring order, empties the slots
    and the ring, and does not raise. *)
Theorem C44_free_buf : forall k bs p info prod cons, 0 <= k ->
  prod = cons + Z.of_nat (length bs) -> Z.of_nat (length bs) <= 2 ^ k ->
  holds_buffers k p info cons bs ->
  exists info', free_buf k p info prod cons =
    mkFreed (mkPool (p_n p) (p_free p ++ bs)) info' prod Returned /\
    (forall j, cons <= j < prod -> info' (j mod 2 ^ k) = None).
Proof. exact free_buf_all. Qed.
Print Assumptions C44_free_buf.

(** Closing an interface without queues succeeds and stops both directions of
    the port. *)
Theorem C44_idle_close : forall s, if_tx s = [] -> if_rx s = [] ->
  iface_close s = (mkIface false [] [] (if_pool s) (if_free s), [WPortRxCtrl 0; WPortTxCtrl 0], Returned).
Proof. exact close_idle. Qed.
Print Assumptions C44_idle_close.

(** With any queue at all, closing the interface raises; the only register it
    ever writes is the receive control of the port.  No queue is switched off,
    closed or handed back, however often the caller tries. *)
Theorem C44_close_refuted : forall n s, if_tx s ++ if_rx s <> [] ->
  exists s' ws rs, iface_close_again n s = (s', ws, rs) /\
    Forall (fun w => w = WPortRxCtrl 0) ws /\ Forall (fun r => r <> Returned) rs /\ length rs = n /\
    if_free s' = if_free s /\
    map dq_open (if_tx s' ++ if_rx s') = map dq_open (if_tx s ++ if_rx s) /\
    map dq_enabled (if_tx s' ++ if_rx s') = map dq_enabled (if_tx s ++ if_rx s).
Proof. exact close_again_stuck. Qed.
Print Assumptions C44_close_refuted.

(** A ring in which a later packet completed before an earlier one makes
    freeing the buffers raise as well: wherever the first slot without a
    buffer is. *)
Theorem C44_hole_refuted : forall k bs p info prod cons, 0 <= k ->
  Z.of_nat (length bs) < 2 ^ k -> cons + Z.of_nat (length bs) < prod ->
  holds_buffers k p info cons bs ->
  info ((cons + Z.of_nat (length bs)) mod 2 ^ k) = None ->
  fb_out (free_buf k p info prod cons) = Raised AssertionError.
Proof. exact free_buf_hole. Qed.
Print Assumptions C44_hole_refuted.

(** Such a ring is reached by the driver: three packets sent, the second one
    completed first. *)
Definition c44_P : rparams := mkRP 3 3 1 (fun b => Z.of_nat b * 16384) 9000.
Definition c44_ring : ring :=
  fst (trace (tx_step c44_P) (ring_init (fun _ => 0))
    [TxXmit [1;2]; TxXmit [3]; TxXmit [4;5;6]; TxDoorbell; TxComplete 1; TxPoll; TxClean]).

Example C44_nonvacuous :
  r_err c44_ring = false /\
  map (r_info c44_ring) [0; 1; 2] = [Some 0%nat; None; Some 2%nat] /\
  fb_out (free_buf 3 (r_pool c44_ring) (r_info c44_ring) (r_prod c44_ring) (r_cons c44_ring))
    = Raised AssertionError /\
  (let r := fst (trace (tx_step c44_P) (ring_init (fun _ => 0))
              [TxXmit [1;2]; TxXmit [3]; TxXmit [4;5;6]; TxDoorbell; TxComplete 0; TxPoll; TxClean]) in
   holds_buffers 3 (r_pool r) (r_info r) (r_cons r) [1%nat; 2%nat] /\
   r_prod r = r_cons r + 2 /\
   p_free (fb_pool (free_buf 3 (r_pool r) (r_info r) (r_prod r) (r_cons r))) = [0; 1; 2]%nat).
Proof. vm_compute. intuition lia. Qed.

(** An interface with one transmit queue and one receive queue. *)
Example C44_nonvacuous_interface :
  let q k i := mkDq k i i 3 (fun _ => None) 0 0 true true true in
  iface_close (mkIface true [q QTx 0] [q QRx 0] pool_init []) =
  (mkIface false [q QTx 0] [q QRx 0] pool_init [], [WPortRxCtrl 0], Raised TypeError).
Proof. reflexivity. Qed.
