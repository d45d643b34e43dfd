(** C11-C15: the descriptor queue manager (queue_manager.v). *)
From Verif Require Import Base.Prelude Base.Bits Rtl.OpTable_model Rtl.OpTable_spec Rtl.Handshake_spec
  Rtl.Pipe_proof Rtl.Qm_model Rtl.Qm_spec Rtl.Qm_proof Rtl.Qm_hist_proof Rtl.Qm_live_proof Rtl.Qm_top_proof.
Open Scope Z_scope.

(** A concrete run used by the non-vacuity examples: queue 3 is configured with
    16 entries and consumer pointer 0xfffe, enabled, three descriptors are
    published across the pointer wrap, a base address write while enabled is
    ignored, four dequeues (the last one empty), a dequeue on a disabled queue,
    out-of-order commits, and register reads. *)
Definition demo_idle : qin := mkIn None true None true None true None true.
Definition demo_wr q reg data : qin := mkIn (Some (q, reg, data, 15)) true None true None true None true.
Definition demo_rd q reg : qin := mkIn None true (Some (q, reg)) true None true None true.
Definition demo_rq q tag : qin := mkIn None true None true (Some (q, tag)) true None true.
Definition demo_cm tag : qin := mkIn None true None true None true (Some tag) true.
Definition demo_op i := [i; i; demo_idle; demo_idle].
Definition demo_cfg : list qin :=
  demo_op (demo_wr 3 0 0x12345000) ++ demo_op (demo_wr 3 1 7) ++ demo_op (demo_wr 3 2 0x80020004)
  ++ demo_op (demo_wr 3 2 0xC0000005) ++ demo_op (demo_wr 3 2 0x8090fffe).
Definition demo_use : list qin :=
  demo_op (demo_wr 3 2 0x8080ffff) ++ demo_op (demo_wr 3 2 0x40000101)
  ++ demo_op (demo_wr 3 2 0x80800001) ++ demo_op (demo_wr 3 0 0) ++ demo_op (demo_rq 3 10)
  ++ demo_op (demo_rq 3 11) ++ demo_op (demo_rq 3 12) ++ demo_op (demo_rq 3 13)
  ++ demo_op (demo_rq 5 14) ++ [demo_cm 1; demo_idle] ++ demo_op (demo_rd 3 4) ++ [demo_cm 0].
Definition demo_end : list qin :=
  [demo_idle; demo_idle; demo_idle; demo_idle; demo_idle] ++ demo_op (demo_rd 3 2) ++ demo_op (demo_rd 3 4).
Definition demo_es (is : list qin) : list qev := events (snd (trace (qm_step 4 4) (qm0 2) is)).

(** C11: for every schedule, the operations that leave the pipeline, with the
    results they produce, are a run of the atomic queue manager. *)
Theorem C11_queue_manager_linearizable : forall N cld d is,
  0 <= cld -> 0 < N <= 256 -> (1 <= d)%nat ->
  let os := snd (trace (qm_step N cld) (qm0 d) is) in
  commits_ok [] (events os) -> exists B, aruns N cld satom0 (events os) B.
Proof. exact top_sim. Qed.
Print Assumptions C11_queue_manager_linearizable.

(** ... and nothing is lost, duplicated or reordered between the ports and those
    operations: accepted operations leave in order of acceptance, every
    response, read value, write acknowledge and doorbell of the run is delivered
    in order, up to the ones still held in an output register. *)
Theorem C11_queue_manager_ports : forall N cld d is,
  0 <= cld -> 0 < N <= 256 -> (1 <= d)%nat ->
  let '(sf, os) := trace (qm_step N cld) (qm0 d) is in
  commits_ok [] (events os) ->
  ev_resps (events os) = somes (map o_resp os) ++ olist (m_resp sf) /\
  ev_reads (events os) = somes (map o_r os) ++ olist (m_r sf) /\
  (Z.of_nat (ev_writes (events os)) = Z.of_nat (count_true (map o_b os)) + b2z (m_b sf)) /\
  ev_doorbells (events os) = somes (map o_db os) ++ olist (m_db sf) /\
  somes (map o_acc os) = somes (map o_done os) ++ inflight (m_pipe sf) /\
  ev_ops (events os) = filter (fun p => negb (is_fin p)) (somes (map o_done os)).
Proof. exact top_out. Qed.
Print Assumptions C11_queue_manager_ports.

(** Each operation a master transfers (valid held until ready) enters the
    pipeline exactly once, in order; at most the one being acknowledged is
    ahead of its handshake. *)
Theorem C11_queue_manager_write_channel : forall N cld d is,
  let os := snd (trace (qm_step N cld) (qm0 d) is) in
  holds_until (map i_aw is) (map o_aw os) ->
  exists pend, somes (map acc_aw os) = somes (map o_aw os) ++ pend /\ (length pend <= 1)%nat.
Proof. exact chan_write. Qed.
Print Assumptions C11_queue_manager_write_channel.

Theorem C11_queue_manager_read_channel : forall N cld d is,
  let os := snd (trace (qm_step N cld) (qm0 d) is) in
  holds_until (map i_ar is) (map o_ar os) ->
  exists pend, somes (map acc_ar os) = somes (map o_ar os) ++ pend /\ (length pend <= 1)%nat.
Proof. exact chan_read. Qed.
Print Assumptions C11_queue_manager_read_channel.

Theorem C11_queue_manager_request_channel : forall N cld d is,
  let os := snd (trace (qm_step N cld) (qm0 d) is) in
  holds_until (map i_req is) (map o_req os) ->
  exists pend, somes (map acc_rq os) = somes (map o_req os) ++ pend /\ (length pend <= 1)%nat.
Proof. exact chan_req. Qed.
Print Assumptions C11_queue_manager_request_channel.

Example C11_nonvacuous :
  commits_ok [] (demo_es (demo_cfg ++ demo_use ++ demo_end)) /\
  map (fun r => (rs_queue r, rs_ptr r, rs_addr r, rs_empty r, rs_err r))
      (ev_resps (demo_es (demo_cfg ++ demo_use ++ demo_end))) =
    [(3, 0xfffe, 0x7123450e0, false, false);
     (3, 0xffff, 0x7123450f0, false, false); (3, 0, 0x712345000, false, false);
     (3, 1, 0x712345010, true, false); (5, 0, 0, false, true)] /\
  ev_reads (demo_es (demo_cfg ++ demo_use ++ demo_end)) = [0xfffe0001; 0x9; 0x1] /\
  holds_until (map i_req (demo_cfg ++ demo_use))
    (map o_req (snd (trace (qm_step 4 4) (qm0 2) (demo_cfg ++ demo_use)))) /\
  length (somes (map o_req (snd (trace (qm_step 4 4) (qm0 2) (demo_cfg ++ demo_use))))) = 5%nat.
Proof.
  splits; vm_compute; try reflexivity; auto 30.
  intros n. do 65 (destruct n as [|n]; [congruence|]). congruence.
Qed.

(** C12: which descriptor each dequeue response names.  [h0] is the consumer
    pointer at the start of the window, [handed q a] the number of descriptors
    of [q] already handed out in it. *)
Theorem C12_descriptors_in_order : forall N cld d is es1 es2 q h0,
  0 <= cld -> 0 < N <= 256 -> (1 <= d)%nat ->
  events (snd (trace (qm_step N cld) (qm0 d) is)) = es1 ++ es2 ->
  commits_ok [] (es1 ++ es2) ->
  window_start q es1 h0 -> no_cons_write q es2 ->
  forall a r b, es2 = a ++ EvReq r :: b -> rs_queue r = q ->
    let x := view (es1 ++ a) q in
    let h := (h0 + Z.of_nat (handed q a)) mod 2 ^ 16 in
    rs_ptr r = h /\
    rs_err r = negb (s_en x) /\
    rs_empty r = (s_en x && (s_prod x =? h))%bool /\
    rs_phase r = Z.even (h / 2 ^ s_lsz x) /\
    rs_addr r = (s_base x + (h mod 2 ^ s_lsz x) * (2 ^ cld * 2 ^ s_lblk x)) mod 2 ^ 64 /\
    rs_blk r = s_lblk x /\ rs_cpl r = s_cqn x.
Proof.
  exact (fun N cld d is es1 es2 q h0 Hc HN Hd He HO => @sim_then N cld d is _ _ Hc HN Hd He HO
           (fun C H => @top_order N cld es1 es2 C q h0 H)).
Qed.
Print Assumptions C12_descriptors_in_order.

(** Exactly once: as long as software never publishes 2^16 descriptors ahead,
    the number handed out never exceeds the number published, and a request is
    answered "empty" exactly when they are equal. *)
Theorem C12_descriptors_exactly_once : forall N cld d is es1 es2 q h0,
  0 <= cld -> 0 < N <= 256 -> (1 <= d)%nat ->
  events (snd (trace (qm_step N cld) (qm0 d) is)) = es1 ++ es2 ->
  commits_ok [] (es1 ++ es2) ->
  window_start q es1 h0 -> no_cons_write q es2 ->
  let p0 := s_prod (view es1 q) in
  let avail a := (p0 - h0) mod 2 ^ 16 + published q p0 a - Z.of_nat (handed q a) in
  (forall a b, es2 = a ++ b -> avail a < 2 ^ 16) ->
  (forall a b, es2 = a ++ b -> 0 <= avail a) /\
  (forall a r b, es2 = a ++ EvReq r :: b -> rs_queue r = q ->
     s_en (view (es1 ++ a) q) = true ->
     (rs_empty r = true <-> avail a = 0) /\ (ok_resp r = true <-> 0 < avail a)).
Proof.
  exact (fun N cld d is es1 es2 q h0 Hc HN Hd He HO => @sim_then N cld d is _ _ Hc HN Hd He HO
           (fun C H => @top_count N cld es1 es2 C q h0 H)).
Qed.
Print Assumptions C12_descriptors_exactly_once.

Definition demo_e1 := Eval vm_compute in demo_es demo_cfg.
Definition demo_e2 := Eval vm_compute in
  skipn (length demo_e1) (demo_es (demo_cfg ++ demo_use ++ demo_end)).

Example C12_nonvacuous :
  demo_es (demo_cfg ++ demo_use ++ demo_end) = demo_e1 ++ demo_e2 /\
  commits_ok [] (demo_e1 ++ demo_e2) /\
  window_start 3 demo_e1 0xfffe /\ no_cons_write 3 demo_e2 /\
  published 3 (s_prod (view demo_e1 3)) demo_e2 = 0x10001 /\ handed 3 demo_e2 = 3%nat.
Proof.
  split; [vm_compute; reflexivity|]. split; [vm_compute; auto 30|]. split.
  { right. exists (removelast demo_e1), 2, 0x8090fffe, 15, false. splits; vm_compute; reflexivity. }
  split; [|split; vm_compute; reflexivity].
  unfold no_cons_write, demo_e2.
  repeat (constructor; [cbn [cons_write]; try tauto; intros [_ H]; vm_compute in H; discriminate|]). constructor.
Qed.

(** C13: retirements are exactly the first operations handed out, in order, and
    only operations that have been committed are retired, whatever the order of
    the commits. *)
Theorem C13_retire_in_order : forall N cld d is a b,
  0 <= cld -> 0 < N <= 256 -> (1 <= d)%nat ->
  events (snd (trace (qm_step N cld) (qm0 d) is)) = a ++ b ->
  commits_ok [] (a ++ b) ->
  all_retired a = firstn (length (all_retired a)) (all_handed a) /\
  forall i, (i < length (all_retired a))%nat -> committed N a i.
Proof.
  exact (fun N cld d is a b Hc HN Hd He HO => @sim_then N cld d is _ _ Hc HN Hd He HO
           (fun C H => @top_retire N cld (a ++ b) C (proj1 HN) H a b eq_refl)).
Qed.
Print Assumptions C13_retire_in_order.

(** The consumer pointer register read by software moves by one per retirement. *)
Theorem C13_consumer_pointer_counts_retirements : forall N cld d is es1 es2 q h0,
  0 <= cld -> 0 < N <= 256 -> (1 <= d)%nat ->
  events (snd (trace (qm_step N cld) (qm0 d) is)) = es1 ++ es2 ->
  commits_ok [] (es1 ++ es2) ->
  window_start q es1 h0 -> no_cons_write q es2 ->
  forall a v b, es2 = a ++ EvRead q 4 v :: b ->
    v = s_prod (view (es1 ++ a) q) + 2 ^ 16 * ((h0 + Z.of_nat (retired q a)) mod 2 ^ 16).
Proof.
  exact (fun N cld d is es1 es2 q h0 Hc HN Hd He HO => @sim_then N cld d is _ _ Hc HN Hd He HO
           (fun C H => @top_cons N cld es1 es2 C q h0 H)).
Qed.
Print Assumptions C13_consumer_pointer_counts_retirements.

(** Progress: if the oldest operation is committed and the register port is idle
    for PIPELINE + 2 cycles, an operation is retired, whatever the request
    traffic and backpressure. *)
Theorem C13_committed_operation_is_retired : forall N cld d is1 is2,
  0 <= cld -> 0 < N <= 256 -> (1 <= d)%nat ->
  let es1 := events (snd (trace (qm_step N cld) (qm0 d) is1)) in
  let es := events (snd (trace (qm_step N cld) (qm0 d) (is1 ++ is2))) in
  commits_ok [] es ->
  Forall quiet is2 -> (d + 2 <= length is2)%nat ->
  (length (all_retired es1) < length (all_handed es1))%nat ->
  committed N es1 (length (all_retired es1)) ->
  (length (all_retired es1) < length (all_retired es))%nat.
Proof. exact top_live. Qed.
Print Assumptions C13_committed_operation_is_retired.

Example C13_nonvacuous :
  let es1 := demo_es (demo_cfg ++ demo_use) in
  let is2 := repeat demo_idle 5 in
  all_retired es1 = [] /\ all_handed es1 = [(3, 0xffff); (3, 0); (3, 1)] /\
  committed 4 es1 0 /\ committed 4 es1 1 /\ ~ committed 4 es1 2 /\
  Forall quiet is2 /\
  commits_ok [] (demo_es ((demo_cfg ++ demo_use) ++ is2)) /\
  all_retired (demo_es ((demo_cfg ++ demo_use) ++ is2)) = [(3, 0xffff); (3, 0)].
Proof.
  cbv zeta. do 2 (split; [vm_compute; reflexivity|]).
  do 2 (split; [vm_compute; reflexivity|]). split; [vm_compute; discriminate|].
  split; [repeat constructor|]. split; [vm_compute; auto 30|vm_compute; reflexivity].
Qed.

(** C14: reads return the register contents left by the preceding writes and
    retirements. *)
Theorem C14_queue_manager_reads : forall N cld d is a q reg v b,
  0 <= cld -> 0 < N <= 256 -> (1 <= d)%nat ->
  events (snd (trace (qm_step N cld) (qm0 d) is)) = a ++ EvRead q reg v :: b ->
  commits_ok [] (a ++ EvRead q reg v :: b) ->
  v = s_read (view a q) (negb (handed q a =? retired q a)%nat) reg.
Proof.
  exact (fun N cld d is a q reg v b Hc HN Hd He HO => @sim_then N cld d is _ _ Hc HN Hd He HO
           (fun C H => @top_read N cld _ C H a q reg v b eq_refl)).
Qed.
Print Assumptions C14_queue_manager_reads.

(** While a queue stays enabled its base address, sizes and completion queue
    number never change, and its consumer pointer only by retirement. *)
Theorem C14_queue_config_frozen_while_enabled : forall q es2 es1,
  s_en (view es1 q) = true -> Forall (fun e => ~ disables q e) es2 ->
  let x := view es1 q in let y := view (es1 ++ es2) q in
  s_en y = true /\ s_base y = s_base x /\ s_lsz y = s_lsz x /\ s_lblk y = s_lblk x /\ s_cqn y = s_cqn x /\
  (retired q es2 = 0%nat -> s_cons y = s_cons x).
Proof. exact top_frozen. Qed.
Print Assumptions C14_queue_config_frozen_while_enabled.

(** Base address writes: exactly the bytes selected by the strobes change, and
    the 12 low bits never do. *)
Theorem C14_base_address_bytes : forall base data strb n, 0 <= n ->
  Z.testbit (base_lo base data strb) n =
    (if ((12 <=? n) && (n <? 32) && Z.testbit strb (n / 8))%bool
     then Z.testbit data n else Z.testbit base n) /\
  Z.testbit (base_hi base data strb) n =
    (if ((32 <=? n) && (n <? 64) && Z.testbit strb ((n - 32) / 8))%bool
     then Z.testbit data (n - 32) else Z.testbit base n).
Proof. exact base_bits. Qed.
Print Assumptions C14_base_address_bytes.

(** Software view of a configuration: after writing base, size and completion
    queue number to a disabled queue, the registers read back what was written. *)
Theorem C14_readback : forall x act lo hi lsz lblk cqn, s_en x = false ->
  0 <= lo < 2 ^ 32 -> lo mod 4096 = 0 -> 0 <= hi < 2 ^ 32 -> 0 <= lsz < 16 -> 0 <= lblk < 4 ->
  0 <= cqn < 2 ^ 16 -> s_base x mod 4096 = 0 ->
  let y := s_write (s_write (s_write (s_write x 0 lo 15) 1 hi 15)
                            2 (0x80020000 + 256 * lblk + lsz) 15) 2 (0xC0000000 + cqn) 15 in
  s_read y act 0 = lo /\ s_read y act 1 = hi /\
  s_read y act 3 = cqn + 2 ^ 24 * lsz + 2 ^ 28 * lblk.
Proof. exact readback. Qed.
Print Assumptions C14_readback.

Example C14_nonvacuous :
  s_en (view (demo_e1 ++ firstn 3 demo_e2) 3) = true /\
  Forall (fun e => ~ disables 3 e) (skipn 3 demo_e2) /\
  (exists a v b, demo_e1 ++ demo_e2 = a ++ EvRead 3 4 v :: b /\ v = 0xfffe0001) /\
  s_base (view (demo_e1 ++ demo_e2) 3) = 0x712345000.
Proof.
  split; [vm_compute; reflexivity|]. split; [|split; [|vm_compute; reflexivity]].
  - unfold demo_e2. cbn [skipn].
    repeat (constructor; [cbn [disables]; try tauto; intros (_ & H & _); vm_compute in H; discriminate|]). constructor.
  - exists (firstn 15 (demo_e1 ++ demo_e2)), 0xfffe0001, (skipn 16 (demo_e1 ++ demo_e2)). split; vm_compute; reflexivity.
Qed.

(** C15: the doorbell output is one pulse per producer pointer write accepted
    while the queue is enabled, in order, for that queue, and nothing else
    (the last one may still be in the output register). *)
Theorem C15_doorbell_exact : forall N cld d is,
  0 <= cld -> 0 < N <= 256 -> (1 <= d)%nat ->
  let '(sf, os) := trace (qm_step N cld) (qm0 d) is in
  commits_ok [] (events os) ->
  due_doorbells (fun _ => mkS 0 0 0 0 0 false 0) (events os)
    = somes (map o_db os) ++ olist (m_db sf).
Proof. exact top_db. Qed.
Print Assumptions C15_doorbell_exact.

Example C15_nonvacuous :
  due_doorbells (fun _ => mkS 0 0 0 0 0 false 0) (demo_es (demo_cfg ++ demo_use)) = [3].
Proof. vm_compute. reflexivity. Qed.
