(** C66: the receive engine. *)
From Coq Require Import Permutation.
From Verif Require Import Base.Prelude Base.Bits Rtl.Handshake_spec Stream.Axis_model Nic.RxEngine_model Nic.RxEngine_spec Nic.RxEngine_check
  Nic.RxEngine_proof Nic.RxEngine_live_proof Nic.RxEngine_buf_proof.
From Coq Require Import Lia Arith ZArith.
Local Open Scope Z_scope.

(** Every accepted request has a packet received for it once, in order; at most the last command is still to be taken. *)
Theorem C66_receive : forall c s is, sane c -> started c s ->
  let os := snd (trace (g_step c) s is) in let L := ledger_of c is os in lawful c is os ->
  (length (over rx_out is os) <= l_n L <= S (length (over rx_out is os)))%nat /\
  forall k d, nth_error (over rx_out is os) k = Some d -> p_rxd (l_op L k) = Some d /\ x_tag d = (k mod g_n c)%nat.
Proof. exact rx_result. Qed.
Print Assumptions C66_receive.

(** Descriptors are asked for in the order of the requests, once for each, from the queue its packet was mapped to. *)
Theorem C66_descriptors : forall c s is, sane c -> started c s ->
  let os := snd (trace (g_step c) s is) in let L := ledger_of c is os in lawful c is os ->
  exists m rest, (m <= l_n L)%nat /\ seq 0 (l_n L) = seq 0 m ++ rest /\
    Forall2 (fun k d => p_rx (l_op L k) <> None /\ p_queue (l_op L k) = Some (fst d) /\ snd d = (k mod g_n c)%nat) (seq 0 m) (over dreq_out is os).
Proof. exact dreq_result. Qed.
Print Assumptions C66_descriptors.

(** Every DMA write belongs to a request; those of a request take its packet, piece by piece from where it was received
    to, to its descriptors. *)
Theorem C66_writes : forall c s is, sane c -> started c s ->
  let os := snd (trace (g_step c) s is) in let L := ledger_of c is os in lawful c is os ->
  Permutation (over write_out is os) (flat_map (fun k => p_writes (l_op L k)) (seq 0 (l_n L))) /\
  forall k, (k < l_n L)%nat -> exists rest, placed c k (l_op L k) = p_writes (l_op L k) ++ rest.
Proof. exact writes_result. Qed.
Print Assumptions C66_writes.

(** Completions come in the order of the requests that have descriptors, one for each, after all writes of the packet
    were handed over and one is done, and say what was received. *)
Theorem C66_completions : forall c s is, sane c -> started c s ->
  let os := snd (trace (g_step c) s is) in let L := ledger_of c is os in lawful c is os ->
  exists ks rest, packets L = ks ++ rest /\ Forall2 (cpl_as c L) ks (over cpl_out is os).
Proof. exact cpl_result. Qed.
Print Assumptions C66_completions.

(** Statuses come in the order of the requests, one for each, when it is over. *)
Theorem C66_status : forall c s is, sane c -> started c s ->
  let os := snd (trace (g_step c) s is) in let L := ledger_of c is os in lawful c is os ->
  let m := length (statuses os) in
  (m <= l_n L)%nat /\ statuses os = map (fun k => status_of (l_op L k)) (seq 0 m) /\ forall k, (k < m)%nat -> settled c k (l_op L k).
Proof. exact status_result. Qed.
Print Assumptions C66_status.

(** When a request is accepted, the one before it with the same tag is over. *)
Theorem C66_tag_reuse : forall c s is, sane c -> started c s ->
  let os := snd (trace (g_step c) s is) in let L := ledger_of c is os in lawful c is os ->
  forall i, let o := snd (g_step c (fst (trace (g_step c) s is)) i) in
  o_ready o = true -> forall k, (k + g_n c <= l_n L)%nat -> settled c k (l_op L k).
Proof. exact reuse_result. Qed.
Print Assumptions C66_tag_reuse.

(** With one MTU all along, every packet is received within the buffer, and not on top of one before it whose buffer is
    not released. *)
Theorem C66_buffers : forall c m s is, sane c -> roomy c m -> started c s -> Forall (fun i => i_mtu i = m) is ->
  let os := snd (trace (g_step c) s is) in let L := ledger_of c is os in lawful c is os ->
  (forall d, In d (over rx_out is os) -> g_off c <= x_addr d /\ x_addr d + x_room d <= g_off c + g_size c /\ x_room d = mtu_of c m) /\
  (forall j k d d', (j < k)%nat -> nth_error (over rx_out is os) j = Some d -> nth_error (over rx_out is os) k = Some d' ->
     ~ released c j (l_op L j) -> x_addr d + x_room d <= x_addr d' \/ x_addr d' + x_room d' <= x_addr d).
Proof. exact buf_result. Qed.
Print Assumptions C66_buffers.

(** Nothing gets stuck: once everything offered is taken for a while, the surroundings owe something, or every request
    is settled and everything due was handed over. *)
Theorem C66_progress : forall c s is1 is2, sane c -> started c s ->
  let os := snd (trace (g_step c) s (is1 ++ is2)) in let L := ledger_of c (is1 ++ is2) os in
  lawful c is1 (snd (trace (g_step c) s is1)) -> Forall idle is2 -> (6 * g_n c + 8 <= length is2)%nat ->
  (exists k, (k < l_n L)%nat /\ waits c L k) \/
  (forall k, (k < l_n L)%nat -> settled c k (l_op L k)) /\
  length (over rx_out (is1 ++ is2) os) = l_n L /\ length (over dreq_out (is1 ++ is2) os) = l_n L /\
  Forall2 (cpl_as c L) (packets L) (over cpl_out (is1 ++ is2) os) /\
  statuses os = map (fun k => status_of (l_op L k)) (seq 0 (l_n L)).
Proof. exact live_result. Qed.
Print Assumptions C66_progress.

(** With one MTU all along, the engine then takes the next request. *)
Theorem C66_ready : forall c m s is1 is2, sane c -> roomy c m -> started c s ->
  let os := snd (trace (g_step c) s (is1 ++ is2)) in let L := ledger_of c (is1 ++ is2) os in
  Forall (fun i => i_mtu i = m) (is1 ++ is2) ->
  lawful c is1 (snd (trace (g_step c) s is1)) -> Forall idle is2 -> (6 * g_n c + 8 <= length is2)%nat ->
  (forall k, (k < l_n L)%nat -> ~ waits c L k) -> forall i, o_ready (snd (g_step c (fst (trace (g_step c) s (is1 ++ is2))) i)) = true.
Proof. exact ready_result. Qed.
Print Assumptions C66_ready.

(* ----- cases ----- *)
Definition base m rq rx mp an ds wd ck ca := mkGin false true m rq true rx mp true an ds true wd ck true ca.
Definition tick := base 100 None None None None None None None None.
Definition req t := base 100 (Some t) None None None None None None None.
Definition rcv t r := base 100 None (Some (t, r)) None None None None None None.
Definition qmap t q := base 100 None None (Some (t, q)) None None None None None.
Definition ans t p q b := base 100 None None None (Some (t, p, q, b)) None None None None.
Definition dsc d t l := base 100 None None None None (Some (d, t, l)) None None None.
Definition wdn t := base 100 None None None None None (Some t) None None.
Definition cks v := base 100 None None None None None None (Some v) None.
Definition can t := base 100 None None None None None None None (Some t).
Definition at_mtu m i := mkGin (i_rst i) (i_en i) m (i_req i) (i_rxrdy i) (i_rx i) (i_map i) (i_drdy i) (i_ans i) (i_desc i) (i_wrdy i)
  (i_wdone i) (i_csum i) (i_crdy i) (i_cans i).

(** A packet to three descriptors, one of them empty, and one for which there is no descriptor. *)
Definition c1 := mkGc 1 4 112 1024 4 0 16 16 12 true true true.
Definition is1 : list gin :=
  [tick; tick; req 7; tick; tick; req 8; tick; rcv 0 (mkRxs 50 1 (5 * 2 ^ 16) 77 3); qmap 0 4; cks 99; tick; rcv 1 (mkRxs 60 0 0 0 0);
   qmap 1 5; cks 98; tick; tick; tick; ans 0 55 9 false; ans 1 0 0 true;
   dsc (mkDesc 20 1000) 0 false; dsc (mkDesc 0 1500) 0 false; dsc (mkDesc 40 2000) 0 true;
   tick; tick; wdn 0; wdn 0; tick; tick; tick; can 0; tick; tick; tick; tick].
Definition os1 := snd (trace (g_step c1) g_init is1).
Lemma sane1 : sane c1.
Proof. unfold sane. cbn. lia. Qed.
Lemma roomy1 : roomy c1 100.
Proof. unfold roomy, up, mtu_of. vm_compute. splits; intros; congruence. Qed.

Example C66_nonvacuous : sane c1 /\ started c1 g_init /\ lawful c1 is1 os1 /\
  over rx_out is1 os1 = [mkRxd 0 100 0; mkRxd 112 100 1] /\ over dreq_out is1 os1 = [(4, 0%nat); (5, 1%nat)] /\
  over write_out is1 os1 = [mkWr 1000 0 20 0; mkWr 2000 20 30 0] /\
  over cpl_out is1 os1 = [mkCpl 9 0 4 55 50 5 99 77 3 1] /\ statuses os1 = [(50, 7); (0, 8)] /\
  (let o := snd (g_step c1 (fst (trace (g_step c1) g_init is1)) tick) in o_ready o = true) /\ l_n (ledger_of c1 is1 os1) = 2%nat.
Proof.
  split; [exact sane1|]. split; [left; reflexivity|]. split; [apply lawfulb_ok; vm_compute; reflexivity|].
  splits; vm_compute; reflexivity.
Qed.
Lemma unreleased : forall c k p x, p_ans p = Some (Some x) -> p_whole p = false -> ~ released c k p.
Proof. intros c k p x A B [X|(_ & X & _)]; congruence. Qed.
(** Two packets at once in a roomy buffer. *)
Example C66_buffers_nonvacuous : let is := firstn 20 is1 in let os := snd (trace (g_step c1) g_init is) in
  roomy c1 100 /\ Forall (fun i => i_mtu i = 100) is /\ lawful c1 is os /\ over rx_out is os = [mkRxd 0 100 0; mkRxd 112 100 1] /\
  ~ released c1 0 (l_op (ledger_of c1 is os) 0).
Proof.
  cbv zeta. split; [exact roomy1|]. split; [apply Forall_forall; intros x Hx; cbn in Hx; decompose [or] Hx; subst; try reflexivity; contradiction|].
  split; [apply lawfulb_ok; vm_compute; reflexivity|]. split; [vm_compute; reflexivity|].
  apply unreleased with (55, 9); vm_compute; reflexivity.
Qed.
Lemma nothing_owed : forall L, length (l_cks L) = 2%nat ->
  (isnone (p_rx (l_op L 0)), isnone (p_queue (l_op L 0)), p_ans (l_op L 0), p_whole (l_op L 0), p_got (l_op L 0), p_written (l_op L 0)) =
    (false, false, Some (Some (55, 9)), true, 2%nat, true) ->
  (isnone (p_rx (l_op L 1)), isnone (p_queue (l_op L 1)), p_ans (l_op L 1), p_cpl (l_op L 1)) = (false, false, Some None, false) ->
  forall k, (k < 2)%nat -> ~ waits c1 L k.
Proof.
  intros L Ek E0 E1. injection E0 as A1 A2 A3 A4 A5 A6. injection E1 as B1 B2 B3 B4.
  intros k K W. unfold waits, has_packet in W. rewrite Ek in W. destruct k as [|[|k]]; [| |exfalso; clear - K; lia].
  - destruct W as [[_ W]|[[_ W]|[[_ W]|[[_ W]|[[_ W]|[[_ W]|[_ W]]]]]]].
    + rewrite W in A1. discriminate.
    + rewrite W in A2. discriminate.
    + clear - W. lia.
    + rewrite W in A3. discriminate.
    + rewrite W in A4. discriminate.
    + rewrite W in A5. discriminate.
    + rewrite W in A6. discriminate.
  - rewrite B3 in W. destruct W as [[_ W]|[[_ W]|[[_ W]|[[_ W]|[[W _]|[[W _]|[W _]]]]]]]; try discriminate.
    + rewrite W in B1. discriminate.
    + rewrite W in B2. discriminate.
    + clear - W. lia.
    + rewrite W in B4. discriminate.
Qed.
(** The idle window of the progress theorems: the same run ends with every request settled. *)
Example C66_progress_nonvacuous : lawful c1 is1 os1 /\ Forall idle (repeat tick 20) /\ (6 * g_n c1 + 8 <= length (repeat tick 20))%nat /\
  let os := snd (trace (g_step c1) g_init (is1 ++ repeat tick 20)) in
  l_n (ledger_of c1 (is1 ++ repeat tick 20) os) = 2%nat /\ statuses os = [(50, 7); (0, 8)] /\
  Forall (fun i => i_mtu i = 100) (is1 ++ repeat tick 20) /\
  forall k, (k < 2)%nat -> ~ waits c1 (ledger_of c1 (is1 ++ repeat tick 20) os) k.
Proof.
  split; [apply lawfulb_ok; vm_compute; reflexivity|]. split; [apply Forall_forall; intros x Hx; apply repeat_spec in Hx; subst x; unfold idle; cbn; auto 20|].
  split; [apply Nat.leb_le; vm_compute; reflexivity|]. cbv zeta. split; [vm_compute; reflexivity|]. split; [vm_compute; reflexivity|].
  split; [apply Forall_forall; intros x Hx; cbn in Hx; decompose [or] Hx; subst; try reflexivity; contradiction|].
  apply nothing_owed; vm_compute; reflexivity.
Qed.
(** After a reset in mid-flight the engine starts over. *)
Example C66_started_nonvacuous :
  let rst := mkGin true true 100 None true None None true None None true None None true None in
  let s := fst (trace (g_step c1) g_init (firstn 20 is1 ++ [rst])) in
  started c1 s /\ lawful c1 is1 (snd (trace (g_step c1) s is1)) /\ over rx_out is1 (snd (trace (g_step c1) s is1)) = [mkRxd 0 100 0; mkRxd 112 100 1] /\
  statuses (snd (trace (g_step c1) s is1)) = [(50, 7); (0, 8)].
Proof.
  cbv zeta. split; [right; exists (firstn 20 is1), (mkGin true true 100 None true None None true None None true None None true None); split; reflexivity|].
  split; [apply lawfulb_ok; vm_compute; reflexivity|]. split; vm_compute; reflexivity.
Qed.

(** A packet is completed, and its buffer used again, when the first of its writes is done (re 814-824, 857-866): the
    host is told of data that is not there yet, and the next packet may overwrite data still to be read. *)
Definition p50 := mkRxs 50 0 0 0 0.
Definition c2 := mkGc 2 4 96 256 4 0 16 16 12 false false false.
Definition isa : list gin := map (at_mtu 80)
  [tick; tick; req 0; tick; tick; req 1; tick; rcv 0 p50; qmap 0 0; rcv 1 p50; qmap 1 0; tick; tick; tick; ans 0 1 0 false; ans 1 0 0 true;
   dsc (mkDesc 20 1000) 0 false; dsc (mkDesc 30 2000) 0 true; tick; tick; wdn 0; tick; tick; tick; tick; req 2; tick; tick; tick; req 3; tick; tick].
Lemma sane2 : sane c2.
Proof. unfold sane. cbn. lia. Qed.
Lemma roomy2 : roomy c2 80.
Proof. unfold roomy, up, mtu_of. vm_compute. splits; intros; congruence. Qed.
Lemma mtu_a : Forall (fun i => i_mtu i = 80) isa.
Proof. apply Forall_forall; intros x Hx; cbn in Hx; decompose [or] Hx; subst; try reflexivity; contradiction. Qed.
Lemma half_done : forall L, p_cpl (l_op L 0) = true -> p_got (l_op L 0) = 1%nat -> length (p_writes (l_op L 0)) = 2%nat -> l_n L = 4%nat ->
  ~ (forall k, (k < l_n L)%nat -> p_cpl (l_op L k) = true -> p_got (l_op L k) = length (p_writes (l_op L k))).
Proof. intros L A B E N H. specialize (H 0%nat ltac:(lia) A). lia. Qed.
Theorem C66_all_written_refuted : ~ (forall c s is, sane c -> started c s ->
  let os := snd (trace (g_step c) s is) in let L := ledger_of c is os in lawful c is os ->
  forall k, (k < l_n L)%nat -> p_cpl (l_op L k) = true -> p_got (l_op L k) = length (p_writes (l_op L k))).
Proof.
  intros H. specialize (H c2 g_init isa sane2 (or_introl eq_refl)). cbv zeta in H.
  specialize (H ltac:(apply lawfulb_ok; vm_compute; reflexivity)). revert H. apply half_done; vm_compute; reflexivity.
Qed.
Print Assumptions C66_all_written_refuted.
Lemma on_top : forall L rx, rx = [mkRxd 0 80 0; mkRxd 80 80 1; mkRxd 160 80 2; mkRxd 0 80 3] -> p_got (l_op L 0) = 1%nat -> length (p_writes (l_op L 0)) = 2%nat ->
  ~ (forall j k d d', (j < k)%nat -> nth_error rx j = Some d -> nth_error rx k = Some d' ->
     (p_got (l_op L j) < length (p_writes (l_op L j)))%nat -> x_addr d + x_room d <= x_addr d' \/ x_addr d' + x_room d' <= x_addr d).
Proof.
  intros L rx -> A B H. specialize (H 0%nat 3%nat (mkRxd 0 80 0) (mkRxd 0 80 3) ltac:(lia) eq_refl eq_refl). rewrite A, B in H. specialize (H ltac:(lia)). cbn in H. lia.
Qed.
Theorem C66_overwrite_refuted : ~ (forall c m s is, sane c -> roomy c m -> started c s -> Forall (fun i => i_mtu i = m) is ->
  let os := snd (trace (g_step c) s is) in let L := ledger_of c is os in lawful c is os ->
  forall j k d d', (j < k)%nat -> nth_error (over rx_out is os) j = Some d -> nth_error (over rx_out is os) k = Some d' ->
     (p_got (l_op L j) < length (p_writes (l_op L j)))%nat -> x_addr d + x_room d <= x_addr d' \/ x_addr d' + x_room d' <= x_addr d).
Proof.
  intros H. specialize (H c2 80 g_init isa sane2 roomy2 (or_introl eq_refl) mtu_a). cbv zeta in H.
  specialize (H ltac:(apply lawfulb_ok; vm_compute; reflexivity)). revert H. apply on_top; vm_compute; reflexivity.
Qed.
Print Assumptions C66_overwrite_refuted.

(** If there is no descriptor for a packet and that is known before its checksum was taken, its checksum is taken for
    the next packet (re 827-841).  The law of a configuration without checksums does not ask for that order. *)
Definition plain c := mkGc (g_cl c) (g_req c) (g_max c) (g_size c) (g_sl c) (g_off c) (g_lw c) (g_dlw c) (g_raw c) (g_ptp c) (g_hash c) false.
Definition isc : list gin :=
  [tick; tick; req 7; tick; tick; req 8; tick; rcv 0 p50; qmap 0 4; tick; tick; ans 0 0 0 true; rcv 1 p50; qmap 1 5; cks 99; tick; tick; cks 98; tick; tick;
   ans 1 3 9 false; dsc (mkDesc 50 1000) 1 true; tick; tick; wdn 1; tick; tick; tick; tick].
Lemma wrong_sum : forall L ks rest x, packets L = [1%nat] -> l_cks L = [99] -> packets L = ks ++ rest -> ~ Forall2 (cpl_as c1 L) ks [x].
Proof.
  intros L ks rest x P K E F. rewrite P in E. inversion F as [|k y ks' xs' F1 F2 G1 G2]; subst. inversion F2; subst. cbn in E. injection E as <- _.
  destruct F1 as (_ & a & q & r & u & _ & _ & _ & X & _). rewrite K in X. specialize (X eq_refl). cbn in X. lia.
Qed.
Theorem C66_checksum_order_refuted : ~ (forall c s is, sane c -> started c s ->
  let os := snd (trace (g_step c) s is) in let L := ledger_of c is os in lawful (plain c) is os ->
  exists ks rest, packets L = ks ++ rest /\ Forall2 (cpl_as c L) ks (over cpl_out is os)).
Proof.
  intros H. specialize (H c1 g_init isc sane1 (or_introl eq_refl)). cbv zeta in H.
  specialize (H ltac:(apply lawfulb_ok; vm_compute; reflexivity)). destruct H as (ks & rest & E & F). revert F.
  replace (over cpl_out isc (snd (trace (g_step c1) g_init isc))) with [mkCpl 9 1 5 3 50 0 99 0 0 0] by (vm_compute; reflexivity).
  apply wrong_sum with rest; [vm_compute; reflexivity|vm_compute; reflexivity|exact E].
Qed.
Print Assumptions C66_checksum_order_refuted.

(** If the descriptors hold less than the packet, the completion still says the length of the packet. *)
Definition isd : list gin :=
  [tick; tick; req 7; tick; tick; rcv 0 p50; qmap 0 4; tick; tick; ans 0 1 9 false; dsc (mkDesc 20 1000) 0 true; tick; tick; wdn 0; tick; tick; tick].
Lemma sane3 : sane (plain c1).
Proof. exact sane1. Qed.
Lemma too_long : forall L ks rest x, packets L = [0%nat] -> p_writes (l_op L 0) = [mkWr 1000 0 20 0] -> c_len x = 50 -> packets L = ks ++ rest ->
  ~ Forall2 (fun k x => c_len x = fold_right Z.add 0 (map w_len (p_writes (l_op L k))) mod 2 ^ 16) ks [x].
Proof.
  intros L ks rest x P K X E F. rewrite P in E. inversion F as [|k y ks' xs' F1 F2 G1 G2]; subst. inversion F2; subst. cbn in E. injection E as <- _.
  rewrite K, X in F1. discriminate.
Qed.
Theorem C66_length_refuted : ~ (forall c s is, sane c -> started c s ->
  let os := snd (trace (g_step c) s is) in let L := ledger_of c is os in lawful c is os ->
  exists ks rest, packets L = ks ++ rest /\
    Forall2 (fun k x => c_len x = fold_right Z.add 0 (map w_len (p_writes (l_op L k))) mod 2 ^ 16) ks (over cpl_out is os)).
Proof.
  intros H. specialize (H (plain c1) g_init isd sane3 (or_introl eq_refl)). cbv zeta in H.
  specialize (H ltac:(apply lawfulb_ok; vm_compute; reflexivity)). destruct H as (ks & rest & E & F). revert F.
  replace (over cpl_out isd (snd (trace (g_step (plain c1)) g_init isd))) with [mkCpl 9 0 4 1 50 0 0 0 0 0] by (vm_compute; reflexivity).
  apply too_long with rest; [vm_compute; reflexivity|vm_compute; reflexivity|reflexivity|exact E].
Qed.
Print Assumptions C66_length_refuted.

(** A packet whose descriptors are all empty has nothing written, so it is never completed. *)
Definition isf : list gin :=
  [tick; tick; req 7; tick; tick; rcv 0 p50; qmap 0 4; tick; tick; ans 0 1 9 false; dsc (mkDesc 0 1000) 0 true; tick; tick].
Lemma never : forall L, l_n L = 1%nat -> p_ans (l_op L 0) = Some (Some (1, 9)) -> p_whole (l_op L 0) = true -> p_cpl (l_op L 0) = false ->
  p_got (l_op L 0) = length (p_writes (l_op L 0)) ->
  ~ (forall k, (k < l_n L)%nat -> has_packet (l_op L k) = true -> p_whole (l_op L k) = true -> p_got (l_op L k) = length (p_writes (l_op L k)) -> p_cpl (l_op L k) = true).
Proof. intros L N A B E G H. specialize (H 0%nat ltac:(lia)). unfold has_packet in H. rewrite A in H. rewrite (H eq_refl B G) in E. discriminate. Qed.
Theorem C66_empty_refuted : ~ (forall c s is1 is2, sane c -> started c s ->
  let os := snd (trace (g_step c) s (is1 ++ is2)) in let L := ledger_of c (is1 ++ is2) os in
  lawful c is1 (snd (trace (g_step c) s is1)) -> g_csum c = false -> Forall idle is2 -> (6 * g_n c + 8 <= length is2)%nat ->
  forall k, (k < l_n L)%nat -> has_packet (l_op L k) = true -> p_whole (l_op L k) = true -> p_got (l_op L k) = length (p_writes (l_op L k)) -> p_cpl (l_op L k) = true).
Proof.
  intros H. specialize (H (plain c1) g_init isf (repeat tick 20) sane3 (or_introl eq_refl)). cbv zeta in H.
  specialize (H ltac:(apply lawfulb_ok; vm_compute; reflexivity) eq_refl).
  assert (Id : Forall idle (repeat tick 20)) by (apply Forall_forall; intros x Hx; apply repeat_spec in Hx; subst x; unfold idle; cbn; auto 20).
  specialize (H Id ltac:(apply Nat.leb_le; vm_compute; reflexivity)). revert H. apply never; vm_compute; reflexivity.
Qed.
Print Assumptions C66_empty_refuted.

(** If the MTU is raised while a packet is in flight, the space of more than was taken is given back, and the engine
    accepts nothing any more, however long one waits (re 696-700, 851-866). *)
Definition isg : list gin :=
  map (at_mtu 20) [tick; tick; req 7; tick; tick; rcv 0 (mkRxs 10 0 0 0 0); qmap 0 4; tick; tick] ++ [tick; tick; ans 0 0 0 true].
Lemma over_and_done : forall L, l_n L = 1%nat -> (isnone (p_rx (l_op L 0)), isnone (p_queue (l_op L 0)), p_ans (l_op L 0), p_cpl (l_op L 0)) = (false, false, Some None, false) ->
  forall k, (k < l_n L)%nat -> ~ waits (plain c1) L k.
Proof.
  intros L N E k K W. rewrite N in K. destruct k as [|k]; [|exfalso; clear - K; lia]. injection E as B1 B2 B3 B4. unfold waits, has_packet in W. rewrite B3 in W.
  destruct W as [[_ W]|[[_ W]|[[W _]|[[_ W]|[[W _]|[[W _]|[W _]]]]]]]; try discriminate.
  - rewrite W in B1. discriminate.
  - rewrite W in B2. discriminate.
  - rewrite W in B4. discriminate.
Qed.
Lemma stuck : forall c, sane c -> forall is, Forall idle is -> forall s L D C F h j, idle j -> inv c s L D C F h -> still c s j ->
  g_size c - g_max c <= (x_wr s - x_rd s) mod 2 ^ (g_bl c + 1) -> x_ready s = false -> x_ready (fst (trace (g_step c) s is)) = false.
Proof.
  intros c Sn is H. induction H as [|i is Hi H IH]; intros s L D C F h j Hj I St Far R; [exact R|].
  pose proof (@still_any c s j i Hj Hi St) as Si. pose proof (@still_same c s L D C F h i I Hi Si) as (_ & _ & _ & _ & _ & _ & _ & E7 & E8 & E9).
  pose proof (@still_step c s L D C F h i i I Hi Hi Si) as S2. pose proof (@step_inv c s L D C F h i Sn I (@idle_owed c L i _ Hi)) as I2.
  cbn [trace]. destruct (g_step c s i) as [s' o] eqn:E. cbn [fst snd] in *. specialize (IH s' _ _ _ _ _ i Hi I2 S2). rewrite E7, E8 in IH. specialize (IH Far).
  destruct (trace (g_step c) s' is) as [s'' os] eqn:Et. cbn [fst] in *. apply IH. rewrite E9. destruct (Z.ltb_spec ((x_wr s - x_rd s) mod 2 ^ (g_bl c + 1)) (g_size c - g_max c)); [lia|reflexivity].
Qed.
Lemma stuck_run : forall c s is1 is2 j, sane c -> started c s -> lawful c is1 (snd (trace (g_step c) s is1)) -> Forall idle is2 -> idle j ->
  let s1 := fst (trace (g_step c) s is1) in
  still c s1 j -> g_size c - g_max c <= (x_wr s1 - x_rd s1) mod 2 ^ (g_bl c + 1) -> x_ready s1 = false ->
  ~ (forall i, o_ready (snd (g_step c (fst (trace (g_step c) s (is1 ++ is2))) i)) = true).
Proof.
  intros c s is1 is2 j Sn St W Id Hj s1 Stl Far R H. destruct (@final c s is1 Sn St W) as (D & C & F & I).
  pose proof (@stuck c Sn is2 Id _ _ _ _ _ _ j Hj I Stl Far R) as X. specialize (H j). change (x_ready (fst (trace (g_step c) s (is1 ++ is2))) = true) in H.
  rewrite trace_app in H. unfold s1 in *. destruct (trace (g_step c) s is1) as [a b]. cbn [fst] in *. destruct (trace (g_step c) a is2). cbn [fst] in *. congruence.
Qed.
Theorem C66_mtu_refuted : ~ (forall c s is1, sane c -> (forall i, In i is1 -> roomy c (i_mtu i)) -> started c s ->
  let os := snd (trace (g_step c) s is1) in let L := ledger_of c is1 os in lawful c is1 os ->
  (forall k, (k < l_n L)%nat -> ~ waits c L k) ->
  exists is2, Forall idle is2 /\ forall i, o_ready (snd (g_step c (fst (trace (g_step c) s (is1 ++ is2))) i)) = true).
Proof.
  intros H. specialize (H (plain c1) g_init (isg ++ repeat tick 20) sane3).
  assert (R1 : roomy (plain c1) 100) by exact roomy1.
  assert (R2 : roomy (plain c1) 20) by (unfold roomy, up, mtu_of; vm_compute; splits; intros; congruence).
  specialize (H ltac:(intros i Hi; cbn in Hi; decompose [or] Hi; subst; first [exact R1 | exact R2 | contradiction]) (or_introl eq_refl)). cbv zeta in H.
  assert (W : lawful (plain c1) (isg ++ repeat tick 20) (snd (trace (g_step (plain c1)) g_init (isg ++ repeat tick 20)))) by (apply lawfulb_ok; vm_compute; reflexivity).
  specialize (H W ltac:(apply over_and_done; vm_compute; reflexivity)). destruct H as (is2 & Id & H). revert H.
  apply (@stuck_run (plain c1) g_init (isg ++ repeat tick 20) is2 tick sane3 (or_introl eq_refl) W Id).
  - clear. unfold idle. splits; reflexivity.
  - unfold still. splits; vm_compute; reflexivity.
  - apply Z.leb_le. vm_compute. reflexivity.
  - vm_compute. reflexivity.
Qed.
Print Assumptions C66_mtu_refuted.

(** If the first write is reported done before the last descriptor has come, the request is over too early and the rest
    of the packet is dropped.  [hush] leaves the write reports out of the law. *)
Definition hush i := mkGin (i_rst i) (i_en i) (i_mtu i) (i_req i) (i_rxrdy i) (i_rx i) (i_map i) (i_drdy i) (i_ans i) (i_desc i) (i_wrdy i) None
  (i_csum i) (i_crdy i) (i_cans i).
Definition ish : list gin :=
  [tick; tick; req 7; tick; tick; rcv 0 p50; qmap 0 4; tick; tick; ans 0 1 9 false; dsc (mkDesc 20 1000) 0 false; tick; tick; wdn 0; tick; tick; can 0; tick; tick;
   dsc (mkDesc 30 2000) 0 true].
Lemma cut_off : forall L c, l_n L = 1%nat -> p_whole (l_op L 0) = true -> p_writes (l_op L 0) = [mkWr 1000 0 20 0] -> length (placed c 0 (l_op L 0)) = 2%nat ->
  ~ (forall k, (k < l_n L)%nat -> p_whole (l_op L k) = true -> p_writes (l_op L k) = placed c k (l_op L k)).
Proof. intros L c N A B E H. specialize (H 0%nat ltac:(lia) A). rewrite <- H, B in E. discriminate. Qed.
Theorem C66_early_report_refuted : ~ (forall c s is1 is2, sane c -> started c s ->
  let os := snd (trace (g_step c) s (is1 ++ is2)) in let L := ledger_of c (is1 ++ is2) os in
  lawful c (map hush is1) (snd (trace (g_step c) s is1)) -> Forall idle is2 -> (6 * g_n c + 8 <= length is2)%nat ->
  (forall k, (p_got (l_op L k) <= length (p_writes (l_op L k)))%nat) ->
  forall k, (k < l_n L)%nat -> p_whole (l_op L k) = true -> p_writes (l_op L k) = placed c k (l_op L k)).
Proof.
  intros H. specialize (H (plain c1) g_init ish (repeat tick 20) sane3 (or_introl eq_refl)). cbv zeta in H.
  specialize (H ltac:(apply lawfulb_ok; vm_compute; reflexivity)).
  assert (Id : Forall idle (repeat tick 20)) by (apply Forall_forall; intros x Hx; apply repeat_spec in Hx; subst x; unfold idle; cbn; auto 20).
  specialize (H Id ltac:(apply Nat.leb_le; vm_compute; reflexivity)).
  assert (G : forall k, (p_got (l_op (ledger_of (plain c1) (ish ++ repeat tick 20) (snd (trace (g_step (plain c1)) g_init (ish ++ repeat tick 20)))) k) <=
     length (p_writes (l_op (ledger_of (plain c1) (ish ++ repeat tick 20) (snd (trace (g_step (plain c1)) g_init (ish ++ repeat tick 20)))) k)))%nat).
  { intros [|k]; [apply Nat.leb_le; vm_compute; reflexivity|].
    assert (Z : forall c is os L k, (l_n (fold_left (keep c) (combine is os) L) <= k)%nat -> p_got (l_op L k) = 0%nat -> (l_n L <= k)%nat ->
      p_got (l_op (fold_left (keep c) (combine is os) L) k) = 0%nat).
    { clear. induction is as [|i is IH]; intros [|o os] L k A B N; cbn [combine fold_left] in *; auto. apply IH; [exact A| |].
      - unfold keep. destruct (req_in i o); cbn [l_op]; [destruct (k =? l_n L)%nat; [reflexivity|]|]; unfold op_next; cbn [p_got];
        (destruct (hit c (l_n L) k (i_wdone i)) eqn:E; [|exact B]); unfold hit, means in E; destruct (i_wdone i); try discriminate;
        destruct (Nat.ltb_spec k (l_n L)); try lia; discriminate.
      - assert (X : forall is os L, (l_n L <= l_n (fold_left (keep c) (combine is os) L))%nat).
        { clear. induction is as [|i is IH]; intros [|o os] L; cbn [combine fold_left]; auto. rewrite <- IH. unfold keep. destruct (req_in i o); cbn; lia. }
        etransitivity; [|exact A]. apply X. }
    unfold ledger_of. rewrite Z; [lia| |reflexivity|cbn; lia].
    replace (l_n (fold_left (keep (plain c1)) (combine (ish ++ repeat tick 20) (snd (trace (g_step (plain c1)) g_init (ish ++ repeat tick 20)))) l0)) with 1%nat by (vm_compute; reflexivity). lia. }
  specialize (H G). clear G. revert H. apply cut_off; vm_compute; reflexivity.
Qed.
Print Assumptions C66_early_report_refuted.
