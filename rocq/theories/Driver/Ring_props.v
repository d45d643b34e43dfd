(** C04-C10: host rings of the driver model. *)
From Verif Require Import Base.Prelude Driver.Ring_model Driver.Ring_spec Driver.Ring_cq_proof Driver.Ring_proof.
From Coq Require Import Permutation.
Local Open Scope Z_scope.

(** C04: the register shows the true pointer modulo 2^16 (in the low half for
    the producer pointer, in the high half for the consumer pointer). *)
Theorem C04_pointer_recovered_after_wrap : forall lag truth other,
  0 <= truth - lag < 65536 -> 0 <= other < 65536 ->
  read_prod_ptr lag (other * 65536 + truth mod 65536) = truth /\
  read_cons_ptr lag (truth mod 65536 * 65536 + other) = truth.
Proof. exact read_ptrs_correct. Qed.
Print Assumptions C04_pointer_recovered_after_wrap.

Example C04_nonvacuous :
  read_cons_ptr 65530 (131073 mod 65536 * 65536 + 7) = 65537 /\
  0 <= 65537 - 65530 < 65536.
Proof. split; [reflexivity|lia]. Qed.

(** C05 *)
Theorem C05_tx_ring_safe : forall P m ops, tx_ok P ->
  let '(r, outs) := trace (tx_step P) (ring_init m) ops in
  (* no assertion in start_xmit or free_pkt fired *)
  r_err r = false /\
  (* occupancy never exceeds half of the ring *)
  0 <= r_prod r - r_cons r <= 2 ^ rp_k P / 2 /\
  r_prod r = Z.of_nat (length (posted ops outs)) /\
  (* what hardware reads for the p-th descriptor is the p-th packet *)
  (forall p d, In (TxFetched p d) outs -> 0 <= p /\
     nth_error (posted ops outs) (Z.to_nat p) = Some d) /\
  (* once everything completed, one poll reclaims the ring and all buffers *)
  (completed outs = length (posted ops outs) ->
   let r' := fst (trace (tx_step P) r [TxPoll; TxClean]) in
   r_cons r' = r_prod r' /\
   Permutation (p_free (r_pool r')) (seq 0 (p_n (r_pool r')))).
Proof. exact tx_system_correct. Qed.
Print Assumptions C05_tx_ring_safe.

(** After CQ processing the ring is reclaimed up to the oldest descriptor the
    hardware has not completed. *)
Theorem C05_tx_ring_reclaimed_to_oldest_pending : forall P m ops, tx_ok P ->
  let r := fst (trace (tx_step P) (ring_init m) (ops ++ [TxPoll; TxClean])) in
  r_cons r = r_prod r \/ In (r_cons r) (r_pend r) \/ r_hwprod r <= r_cons r < r_prod r.
Proof. exact tx_progress. Qed.
Print Assumptions C05_tx_ring_reclaimed_to_oldest_pending.

Definition demo_tx : rparams := mkRP 2 3 2 (fun b => Z.of_nat b * 16384) 1500.

(** Two packets in a 4-slot ring (full), a third one blocked, out-of-order
    completion, reclaim and reuse of slot and buffer. *)
Example C05_nonvacuous :
  tx_ok demo_tx /\
  let ops := [TxXmit [1; 2; 3]; TxXmit [4; 5]; TxXmit [6]; TxDoorbell; TxFetch 1; TxComplete 1;
              TxPoll; TxClean; TxFetch 0; TxComplete 0; TxPoll; TxWriteCons; TxClean;
              TxXmit [7; 8]; TxDoorbell; TxFetch 2; TxComplete 2] in
  snd (trace (tx_step demo_tx) (ring_init (fun _ => 0)) ops) =
    [TxPosted; TxPosted; TxBlocked; TxNone; TxFetched 1 [4; 5]; TxCompleted 1;
     TxNone; TxNone; TxFetched 0 [1; 2; 3]; TxCompleted 0; TxNone; TxNone; TxNone;
     TxPosted; TxNone; TxFetched 2 [7; 8]; TxCompleted 2].
Proof.
  split; [|vm_compute; reflexivity].
  constructor; cbn; try lia; [|unfold pkt_buf_size; lia].
  intros b b' H. cbn. unfold pkt_buf_size. lia.
Qed.

(** C06 *)
Theorem C06_tx_descriptor_covers_packet : forall (m : memory) dbs len ptr,
  0 <= len -> (1 <= dbs)%nat ->
  let segs := tx_segs dbs len ptr in
  length segs = dbs /\ tiles segs ptr len /\ gather m segs = mem_read m ptr len.
Proof. exact tx_segs_correct. Qed.
Print Assumptions C06_tx_descriptor_covers_packet.

Theorem C06_checksum_command_encoding : forall start offset,
  0 <= start < 256 -> 0 <= offset < 128 ->
  let c := csum_cmd (Some start) (Some offset) in
  0 <= c < 65536 /\ Z.testbit c 15 = true /\
  (c / 256) mod 128 = offset /\ c mod 256 = start.
Proof. exact csum_cmd_decode. Qed.
Print Assumptions C06_checksum_command_encoding.

Example C06_nonvacuous :
  tx_segs 3 5000 1000 = [(42, 1000); (4096, 1042); (862, 5138)] /\
  csum_cmd (Some 34) (Some 6) = 34338.
Proof. split; reflexivity. Qed.

(** C07 *)
Theorem C07_rx_descriptor_tiles_buffer : forall dbs len ptr,
  0 <= len -> (1 <= dbs)%nat ->
  tiles (rx_segs dbs len ptr) ptr len /\ length (rx_segs dbs len ptr) = dbs.
Proof. exact tiles_rx. Qed.
Print Assumptions C07_rx_descriptor_tiles_buffer.

Example C07_nonvacuous :
  rx_segs 4 9000 4096 = [(4096, 4096); (4096, 8192); (808, 12288); (0, 0)].
Proof. reflexivity. Qed.

(** C08 *)
Theorem C08_packet_pool_history : forall ops,
  pool_well_used [] ops (snd (trace pool_step pool_init ops)) ->
  pool_history 0 [] ops (snd (trace pool_step pool_init ops)).
Proof. exact pool_correct. Qed.
Print Assumptions C08_packet_pool_history.

Example C08_nonvacuous :
  let ops := [PAlloc; PAlloc; PFree 0; PAlloc; PAlloc; PFree 1; PFree 2; PAlloc] in
  pool_well_used [] ops (snd (trace pool_step pool_init ops)) /\
  snd (trace pool_step pool_init ops) =
  [PGot 0; PGot 1; PFreed; PGot 0; PGot 2; PFreed; PFreed; PGot 1].
Proof. vm_compute. tauto. Qed.

(** C09: [k] is the log of the ring size; a record is written only when the
    ring is not full from the hardware's point of view (it knows the consumer
    pointer the driver last published). *)
Theorem C09_completion_ring_exactly_once : forall k ops, 0 <= k < 16 ->
  let '(q, os) := trace (cq_step k) cq_init ops in
  (* polling terminates *)
  ~ In ObsStuck os /\
  exists unread, produced os = consumed os ++ unread /\
    Z.of_nat (length unread) <= 2 ^ k /\
    (* one iteration reports "empty" exactly when the driver has caught up *)
    (fst (cq_step k q CqIter) = q <-> unread = []) /\
    (* a poll returns exactly the unread records *)
    exists rs, snd (cq_step k q CqPoll) = ObsGot rs /\
               map (fun r => (c_index r, c_len r)) rs = unread.
Proof. exact cq_exactly_once. Qed.
Print Assumptions C09_completion_ring_exactly_once.

Example C09_nonvacuous :
  snd (trace (cq_step 1) cq_init
    [CqHwWrite 5 0; CqHwWrite 6 0; CqHwWrite 7 0; CqIter; CqWriteCons; CqHwWrite 7 1;
     CqPoll; CqIter; CqWriteCons; CqHwWrite 8 0; CqPoll]) =
  [ObsProduced 5 0; ObsProduced 6 0; ObsFull; ObsGot [mkCpl 5 0 true]; ObsNone; ObsProduced 7 1;
   ObsGot [mkCpl 6 0 true; mkCpl 7 1 false]; ObsGot []; ObsNone; ObsProduced 8 0;
   ObsGot [mkCpl 8 0 false]].
Proof. vm_compute. reflexivity. Qed.

(** C10 *)
Theorem C10_rx_packets_delivered_exactly_once : forall P m ops, rx_ok P ->
  let '(r, outs) := trace (rx_step P) (rx_open P m) ops in
  r_err r = false /\
  0 <= r_prod r - r_cons r <= 2 ^ rp_k P /\
  exists pending, rx_received outs = rx_delivered outs ++ pending /\
    snd (rx_step P r RxPoll) = RxDelivered pending.
Proof. exact rx_system_correct. Qed.
Print Assumptions C10_rx_packets_delivered_exactly_once.

(** After CQ processing, counted from the oldest buffer the hardware still owns
    (or will own at the next doorbell), all but at most 7 slots are posted; the
    hardware owns nothing older. *)
Theorem C10_rx_refill_keeps_ring_full : forall P m ops, rx_ok P -> 3 <= rp_k P ->
  let '(r, outs) := trace (rx_step P) (rx_open P m) (ops ++ [RxPoll; RxClean]) in
  let owned p := In p (r_pend r) \/ r_hwprod r <= p < r_prod r in
  2 ^ rp_k P - 8 < r_prod r - r_cons r <= 2 ^ rp_k P /\
  owned (r_cons r) /\ (forall p, owned p -> r_cons r <= p < r_prod r) /\
  Z.of_nat (length (rx_received outs) + length (r_pend r)) = r_hwprod r.
Proof. exact rx_progress. Qed.
Print Assumptions C10_rx_refill_keeps_ring_full.

(** Finding: a ring of fewer than 8 slots is never filled, so it never
    receives anything. *)
Theorem C10_small_rings_receive_refuted : forall P m ops, 0 <= rp_k P < 3 ->
  let '(r, outs) := trace (rx_step P) (rx_open P m) ops in
  r_prod r = 0 /\ rx_received outs = [].
Proof. exact rx_small_ring. Qed.
Print Assumptions C10_small_rings_receive_refuted.

Definition demo_rx : rparams := mkRP 3 3 2 (fun b => Z.of_nat b * 16384) 1500.

Example C10_nonvacuous :
  rx_ok demo_rx /\
  snd (trace (rx_step demo_rx) (rx_open demo_rx (fun _ => 0))
    [RxDoorbell; RxReceive 1 [1; 2]; RxReceive 0 [3]; RxReceive 0 [9]; RxPoll; RxWriteCons;
     RxClean; RxReceive 2 [4; 5; 6]; RxPoll; RxClean]) =
  [RxNone; RxReceived [1; 2]; RxReceived [3]; RxNone; RxDelivered [[1; 2]; [3]]; RxNone; RxNone;
   RxReceived [4; 5; 6]; RxDelivered [[4; 5; 6]]; RxNone].
Proof.
  split; [|vm_compute; reflexivity].
  constructor; cbn; try lia. intros b b' H. cbn. unfold pkt_buf_size. lia.
Qed.
