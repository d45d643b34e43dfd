(** C62: the transmit engine. *)
From Coq Require Import Permutation.
From Verif Require Import Base.Prelude Base.Bits Rtl.Handshake_spec Stream.Axis_model Nic.TxEngine_model Nic.TxEngine_spec Nic.TxEngine_check
  Nic.TxEngine_proof Nic.TxEngine_live_proof Nic.TxEngine_reads_proof.
From Coq Require Import Lia Arith ZArith.
Local Open Scope Z_scope.

(** Transmit descriptors come in the order of the requests that have something to send, one each, and only when all
    descriptors of the packet are there and all of its data has been read to the place sent from. *)
Theorem C62_transmit : forall c s is, sane c -> started c s ->
  let os := snd (trace (e_step c) s is) in let L := ledger_of c is os in lawful c is os ->
  exists ks rest, packets L = ks ++ rest /\ Forall2 (fun k d => tx_as c k (l_op L k) d) ks (over tx_out is os).
Proof. exact tx_result. Qed.
Print Assumptions C62_transmit.

(** Checksum commands come in the same order, one for each packet, as its first descriptor says. *)
Theorem C62_checksum_commands : forall c s is, sane c -> started c s ->
  let os := snd (trace (e_step c) s is) in let L := ledger_of c is os in lawful c is os ->
  if e_csum c then exists ks rest, packets L = ks ++ rest /\ Forall2 (fun k d => ck_as (l_op L k) d) ks (over ck_out is os)
  else over ck_out is os = [].
Proof. exact ck_result. Qed.
Print Assumptions C62_checksum_commands.

(** Completions come in the same order, one for each packet, after it was sent, with its own queue, pointer, length
    and timestamp. *)
Theorem C62_completions : forall c s is, sane c -> started c s ->
  let os := snd (trace (e_step c) s is) in let L := ledger_of c is os in lawful c is os ->
  exists ks rest, packets L = ks ++ rest /\ Forall2 (fun k d => cpl_as c k (l_op L k) d) ks (over cpl_out is os).
Proof. exact cpl_result. Qed.
Print Assumptions C62_completions.

(** No request gets a second status, or a status it is not due. *)
Theorem C62_status : forall c s is, sane c -> started c s ->
  let os := snd (trace (e_step c) s is) in let L := ledger_of c is os in lawful c is os ->
  exists rest, Permutation (statuses os ++ rest) (flat_map (fun k => due (l_op L k)) (seq 0 (l_n L))).
Proof. exact status_result. Qed.
Print Assumptions C62_status.

(** Every accepted request asks for its descriptors once, in order; at most the last one is still to be taken. *)
Theorem C62_requests : forall c s is, sane c -> started c s ->
  let os := snd (trace (e_step c) s is) in let L := ledger_of c is os in lawful c is os ->
  exists w, (length w <= 1)%nat /\ over dreq_out is os ++ w = map (fun k => (p_queue (l_op L k), (k mod e_n c)%nat)) (seq 0 (l_n L)).
Proof. exact req_result. Qed.
Print Assumptions C62_requests.

(** Every DMA read belongs to a request. *)
Theorem C62_reads : forall c s is, sane c -> started c s ->
  let os := snd (trace (e_step c) s is) in let L := ledger_of c is os in lawful c is os ->
  Permutation (over read_out is os) (flat_map (fun k => p_reads (l_op L k)) (seq 0 (l_n L))).
Proof. exact reads_result. Qed.
Print Assumptions C62_reads.

(** When a request is accepted, the one before it with the same tag is over and done with. *)
Theorem C62_tag_reuse : forall c s is, sane c -> started c s ->
  let os := snd (trace (e_step c) s is) in let L := ledger_of c is os in lawful c is os ->
  forall i, let o := snd (e_step c (fst (trace (e_step c) s is)) i) in
  o_ready o = true -> forall k, (k + e_n c <= l_n L)%nat -> settled (l_op L k).
Proof. exact reuse_result. Qed.
Print Assumptions C62_tag_reuse.

(** Nothing gets stuck: once everything offered is taken for a while, the surroundings owe something, or every request
    is settled, everything due was handed over, and the engine takes the next request. *)
Theorem C62_progress : forall c s is1 is2, sane c -> started c s ->
  let os := snd (trace (e_step c) s (is1 ++ is2)) in let L := ledger_of c (is1 ++ is2) os in
  lawful c is1 (snd (trace (e_step c) s is1)) -> Forall idle is2 -> (7 * e_n c + 10 <= length is2)%nat ->
  (exists k, (k < l_n L)%nat /\ waits (l_op L k)) \/
  (forall k, (k < l_n L)%nat -> settled (l_op L k)) /\
  Forall2 (fun k d => tx_as c k (l_op L k) d) (packets L) (over tx_out (is1 ++ is2) os) /\
  (e_csum c = true -> Forall2 (fun k d => ck_as (l_op L k) d) (packets L) (over ck_out (is1 ++ is2) os)) /\
  Forall2 (fun k d => cpl_as c k (l_op L k) d) (packets L) (over cpl_out (is1 ++ is2) os) /\
  Permutation (statuses os) (flat_map (fun k => due (l_op L k)) (seq 0 (l_n L))) /\
  (forall i, o_ready (snd (e_step c (fst (trace (e_step c) s (is1 ++ is2))) i)) = true).
Proof. exact live_result. Qed.
Print Assumptions C62_progress.

(* ----- cases ----- *)
Definition tick := mkEin false true None true None None true None true None true None true None.
Definition req q t d := mkEin false true (Some (q, t, d)) true None None true None true None true None true None.
Definition ans t p q b := mkEin false true None true (Some (t, p, q, b)) None true None true None true None true None.
Definition dsc d t l := mkEin false true None true None (Some (d, t, l)) true None true None true None true None.
Definition rdn t := mkEin false true None true None None true None true (Some t) true None true None.
Definition tdn t := mkEin false true None true None None true None true None true (Some t) true None.
Definition tcp z ts := mkEin false true None true None None true None true None true None true (Some (z, ts)).
Definition can t := mkEin false true None true None None true (Some t) true None true None true None.

(** A packet of three descriptors, one of them empty, and a request with nothing to send. *)
Definition c1 := mkEc 1 4 100 512 4 0 16 16 12 4 4 true true.
Definition is1 : list ein :=
  [tick; req 3 7 1; tick; tick; req 4 8 1; tick; ans 0 55 9 false; ans 1 0 0 true;
   dsc (mkDesc 14 6 true 10 1000) 0 false; dsc (mkDesc 0 0 false 0 1500) 0 false; dsc (mkDesc 0 0 false 20 2000) 0 true;
   tick; tick; tick; rdn 0; rdn 0; tick; tick; tick; tdn 0; tick; tcp 8 (5 * 2 ^ 16); tick; tick; can 0; tick; tick; tick].
Definition os1 := snd (trace (e_step c1) e_init is1).
Lemma sane1 : sane c1.
Proof. unfold sane. cbn. lia. Qed.

Example C62_nonvacuous : sane c1 /\ started c1 e_init /\ lawful c1 is1 os1 /\
  over tx_out is1 os1 = [mkTxd 0 30 0 3 1 16] /\ over ck_out is1 os1 = [mkCk true 14 20] /\
  over cpl_out is1 os1 = [mkCpl 9 0 3 55 30 5 1] /\ statuses os1 = [(0, 8); (30, 7)] /\ over dreq_out is1 os1 = [(3, 0%nat); (4, 1%nat)] /\
  over read_out is1 os1 = [mkRd 1000 0 10 0; mkRd 2000 10 20 0] /\
  (let o := snd (e_step c1 (fst (trace (e_step c1) e_init is1)) tick) in o_ready o = true) /\ l_n (ledger_of c1 is1 os1) = 2%nat.
Proof.
  split; [exact sane1|]. split; [left; reflexivity|]. split; [apply lawfulb_ok; vm_compute; reflexivity|].
  splits; vm_compute; reflexivity.
Qed.
Lemma nothing_owed : forall L,
  (p_ans (l_op L 0), p_whole (l_op L 0), p_got (l_op L 0), length (p_reads (l_op L 0)), p_ts (l_op L 0), p_written (l_op L 0)) =
    (Some (Some (55, 9)), true, 2%nat, 2%nat, Some (5 * 2 ^ 16), true) ->
  (p_ans (l_op L 1), p_got (l_op L 1), length (p_reads (l_op L 1)), p_tx (l_op L 1), p_cpl (l_op L 1)) = (Some None, 0%nat, 0%nat, false, false) ->
  ~ exists k, (k < 2)%nat /\ waits (l_op L k).
Proof.
  intros L E0 E1. injection E0 as A1 A2 A3 A4 A5 A6. injection E1 as B1 B2 B3 B4 B5.
  intros (k & K & W). destruct W as [[_ W]|[[W1 W2]|[W|[[W1 W2]|[W1 W2]]]]]; unfold has_packet in *;
    (destruct k as [|[|k]]; [| |lia]); try congruence; try lia.
  rewrite B1 in W1. discriminate.
Qed.
(** The idle window of the progress theorem: the same run ends with every request settled. *)
Example C62_progress_nonvacuous : lawful c1 is1 os1 /\ Forall idle (repeat tick 24) /\ (7 * e_n c1 + 10 <= length (repeat tick 24))%nat /\
  let os := snd (trace (e_step c1) e_init (is1 ++ repeat tick 24)) in
  l_n (ledger_of c1 (is1 ++ repeat tick 24) os) = 2%nat /\ statuses os = [(0, 8); (30, 7)] /\
  ~ exists k, (k < 2)%nat /\ waits (l_op (ledger_of c1 (is1 ++ repeat tick 24) os) k).
Proof.
  split; [apply lawfulb_ok; vm_compute; reflexivity|]. split; [apply Forall_forall; intros x Hx; apply repeat_spec in Hx; subst x; unfold idle; cbn; auto 20|].
  split; [apply Nat.leb_le; vm_compute; reflexivity|]. cbv zeta. split; [vm_compute; reflexivity|]. split; [vm_compute; reflexivity|].
  apply nothing_owed; vm_compute; reflexivity.
Qed.
(** After a reset in mid-flight the engine starts over. *)
Example C62_started_nonvacuous :
  let rst := mkEin true true None true None None true None true None true None true None in
  let s := fst (trace (e_step c1) e_init (firstn 12 is1 ++ [rst])) in
  started c1 s /\ lawful c1 is1 (snd (trace (e_step c1) s is1)) /\ over tx_out is1 (snd (trace (e_step c1) s is1)) = [mkTxd 0 30 0 3 1 16] /\
  statuses (snd (trace (e_step c1) s is1)) = [(0, 8); (30, 7)].
Proof.
  cbv zeta. split; [right; exists (firstn 12 is1), (mkEin true true None true None None true None true None true None true None); split; reflexivity|].
  split; [apply lawfulb_ok; vm_compute; reflexivity|]. split; vm_compute; reflexivity.
Qed.

(** A descriptor can say that the checksum starts at byte 128 or later; the command then says a place 128 bytes
    earlier (te 541 keeps seven bits). *)
Definition isq : list ein :=
  [tick; req 3 7 1; tick; tick; ans 0 55 9 false; dsc (mkDesc 134 16 true 90 1000) 0 true; tick; tick; rdn 0; tick; tick; tick].
Lemma isq_starts : forall L ks rest, packets L = [0%nat] -> p_descs (l_op L 0) = [mkDesc 134 16 true 90 1000] -> packets L = ks ++ rest ->
  ~ Forall2 (fun k x => exists d ds, p_descs (l_op L k) = d :: ds /\ k_start x = d_start d) ks [mkCk true 6 22].
Proof.
  intros L ks rest P D E F. rewrite P in E. inversion F as [|k x ks' xs' F1 F2 G1 G2]; subst. inversion F2; subst. cbn in E. injection E as <- _.
  destruct F1 as (d & ds & F1 & F3). rewrite D in F1. injection F1 as <- <-. discriminate.
Qed.
Theorem C62_checksum_start_refuted : ~ (forall c s is, sane c -> started c s ->
  let os := snd (trace (e_step c) s is) in let L := ledger_of c is os in lawful c is os -> e_csum c = true ->
  exists ks rest, packets L = ks ++ rest /\
    Forall2 (fun k x => exists d ds, p_descs (l_op L k) = d :: ds /\ k_start x = d_start d) ks (over ck_out is os)).
Proof.
  intros H. specialize (H c1 e_init isq sane1 (or_introl eq_refl)). cbv zeta in H.
  specialize (H ltac:(apply lawfulb_ok; vm_compute; reflexivity) eq_refl). destruct H as (ks & rest & E & F).
  revert F. replace (over ck_out isq (snd (trace (e_step c1) e_init isq))) with [mkCk true 6 22] by (vm_compute; reflexivity).
  apply isq_starts with rest; [vm_compute; reflexivity|vm_compute; reflexivity|exact E].
Qed.
Print Assumptions C62_checksum_start_refuted.

(** Data is written over data that has not been sent: with a buffer of 32768 bytes and packets of up to 9214 bytes,
    the fourth of four packets of 9000 bytes is read to where the first still is, if its descriptor comes in the cycle
    after the one of the third (te 549 compares pointers that do not count the packet of the cycle before). *)
Definition c2 := mkEc 5 16 9214 32768 7 0 16 16 15 4 8 true true.
Definition big t := dsc (mkDesc 0 0 false 9000 (100000 * Z.of_nat t)) t true.
Definition is2 : list ein :=
  [tick; req 0 0 0; tick; tick; req 0 1 0; tick; tick; req 0 2 0; tick; tick; req 0 3 0; tick;
   ans 0 0 0 false; ans 1 1 0 false; ans 2 2 0 false; ans 3 3 0 false; big 0; tick; tick; big 1; tick; tick; big 2; big 3; tick; tick; tick].
Lemma same_place : forall L, l_n L = 4%nat -> p_reads (l_op L 0) = [mkRd 0 0 9000 0] -> p_reads (l_op L 3) = [mkRd 300000 0 9000 3] ->
  p_freed (l_op L 0) = false ->
  ~ (forall j k r r', (j < k < l_n L)%nat -> p_freed (l_op L j) = false -> In r (p_reads (l_op L j)) -> In r' (p_reads (l_op L k)) ->
     r_ram r + r_len r <= r_ram r' \/ r_ram r' + r_len r' <= r_ram r).
Proof.
  intros L N R0 R3 F0 H. specialize (H 0%nat 3%nat (mkRd 0 0 9000 0) (mkRd 300000 0 9000 3) ltac:(lia) F0).
  rewrite R0, R3 in H. specialize (H (or_introl eq_refl) (or_introl eq_refl)). cbn in H. lia.
Qed.
Theorem C62_overwrite_refuted : ~ (forall c s is, sane c -> started c s ->
  let os := snd (trace (e_step c) s is) in let L := ledger_of c is os in lawful c is os ->
  forall j k r r', (j < k < l_n L)%nat -> p_freed (l_op L j) = false -> In r (p_reads (l_op L j)) -> In r' (p_reads (l_op L k)) ->
  r_ram r + r_len r <= r_ram r' \/ r_ram r' + r_len r' <= r_ram r).
Proof.
  intros H. assert (S2 : sane c2) by (unfold sane; cbn; lia).
  specialize (H c2 e_init is2 S2 (or_introl eq_refl)). cbv zeta in H. specialize (H ltac:(apply lawfulb_ok; vm_compute; reflexivity)).
  revert H. apply same_place; vm_compute; reflexivity.
Qed.
Print Assumptions C62_overwrite_refuted.

(** With a TX_BUFFER_OFFSET other than 0 (no instance has one) data is read to one place and sent from another. *)
Definition c3 := mkEc 1 4 100 512 4 1024 16 16 12 4 4 true true.
Lemma isq_elsewhere : forall L ks rest, packets L = [0%nat] -> p_descs (l_op L 0) = [mkDesc 134 16 true 90 1000] ->
  p_reads (l_op L 0) = [mkRd 1000 1024 90 0] -> packets L = ks ++ rest ->
  ~ Forall2 (fun k d => p_reads (l_op L k) = places c3 (k mod e_n c3) (t_addr d) (p_descs (l_op L k))) ks [mkTxd 0 90 0 3 1 16].
Proof.
  intros L ks rest P D R E F. rewrite P in E. inversion F as [|k x ks' xs' F1 F2 G1 G2]; subst. inversion F2; subst. cbn in E. injection E as <- _.
  rewrite D, R in F1. discriminate.
Qed.
Theorem C62_offset_refuted : ~ (forall c s is, sane (mkEc (e_cl c) (e_req c) (e_max c) (e_size c) (e_sl c) 0 (e_lw c) (e_dlw c) (e_raw c) (e_cw c) (e_ttw c) (e_ptp c) (e_csum c)) ->
  started c s -> let os := snd (trace (e_step c) s is) in let L := ledger_of c is os in lawful c is os ->
  exists ks rest, packets L = ks ++ rest /\ Forall2 (fun k d => p_reads (l_op L k) = places c (k mod e_n c) (t_addr d) (p_descs (l_op L k))) ks (over tx_out is os)).
Proof.
  intros H. specialize (H c3 e_init isq sane1 (or_introl eq_refl)). cbv zeta in H.
  specialize (H ltac:(apply lawfulb_ok; vm_compute; reflexivity)). destruct H as (ks & rest & E & F).
  revert F. replace (over tx_out isq (snd (trace (e_step c3) e_init isq))) with [mkTxd 0 90 0 3 1 16] by (vm_compute; reflexivity).
  apply isq_elsewhere with rest; [vm_compute; reflexivity|vm_compute; reflexivity|vm_compute; reflexivity|exact E].
Qed.
Print Assumptions C62_offset_refuted.
