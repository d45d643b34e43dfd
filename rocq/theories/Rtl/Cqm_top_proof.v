(** The completion queue manager's port-level statements assembled from the pipeline
    simulation and the history lemmas. *)
From Verif Require Import Base.Prelude Base.Bits Rtl.OpTable_model Rtl.OpTable_spec Rtl.OpTable_proof
  Rtl.Pipe_proof Rtl.Handshake_spec Rtl.Handshake_proof Rtl.Cqm_model Rtl.Cqm_spec Rtl.Cqm_proof Rtl.Cqm_hist_proof Rtl.Cqm_live_proof.
Open Scope Z_scope.

Lemma tagsok0 N : tagsok N [] satom0.
Proof.
  unfold tagsok. simpl. first [tauto | split; [constructor|intros ? []]
    | intros t []].
Qed.

Lemma top_sim N csz d is : 0 <= csz -> 0 < N <= 256 -> (1 <= d)%nat ->
  let os := snd (trace (qm_step N csz) (qm0 d) is) in
  commits_ok [] (events os) -> exists B, aruns N csz satom0 (events os) B.
Proof.
  intros Hc HN Hd os HO.
  destruct (@trace_sim N csz Hc HN is (qm0 d) satom0 []) as (B & H & _ & _); eauto.
  - apply rel0; auto; lia.
  - apply tagsok0.
Qed.

Lemma inflight_none d : inflight (@repeat stage None d) = [].
Proof. apply inflight_repeat. Qed.

Lemma top_out N csz d is : 0 <= csz -> 0 < N <= 256 -> (1 <= d)%nat ->
  let '(sf, os) := trace (qm_step N csz) (qm0 d) is in
  commits_ok [] (events os) ->
  ev_resps (events os) = somes (map o_resp os) ++ olist (m_resp sf) /\
  ev_reads (events os) = somes (map o_r os) ++ olist (m_r sf) /\
  (Z.of_nat (ev_writes (events os)) = Z.of_nat (count_true (map o_b os)) + b2z (m_b sf)) /\
  somes (map o_acc os) = somes (map o_done os) ++ inflight (m_pipe sf) /\
  ev_ops (events os) = filter (fun p => negb (is_fin p)) (somes (map o_done os)).
Proof.
  intros Hc HN Hd. destruct (trace (qm_step N csz) (qm0 d) is) as [sf os] eqn:E. intros HO.
  destruct (@trace_out N csz Hc HN is (qm0 d) satom0 [] sf os) as (H1 & H2 & H3 & H5 & H6); auto.
  - apply rel0; auto; lia.
  - apply tagsok0.
  - cbn [qm0 m_pipe] in H5. rewrite inflight_none in H5. cbn in H1, H2, H3, H5. splits; auto.
Qed.

(** Windows. *)
Lemma window_head N csz es1 A q h0 :
  aruns N csz satom0 es1 A -> window_start q es1 h0 ->
  0 <= h0 < 2 ^ 16 /\ s_head A q = h0 /\ s_prod (a_q A q) = h0 /\ ptr_chain A q.
Proof.
  intros HA [[-> ->]|(es0 & reg & data & strb & db & -> & Hd & He & Hq & ->)].
  - inversion HA; subst. splits; try lia; try reflexivity. intros j Hj. simpl in Hj. lia.
  - destruct (aruns_split _ _ HA) as (A0 & H0 & H1).
    apply aruns_cons_inv in H1. destruct H1 as (A1 & H1 & H2). inversion H2; subst. clear H2.
    pose proof (nops_runs q H0) as Hno. cbn in Hno.
    pose proof (Z.mod_pos_bound data (2 ^ 16) ltac:(lia)).
    inversion H1; subst. unfold s_head, ptr_chain. cbn [a_ops a_q].
    assert (Hn0 : nops q (a_ops A0) = 0%nat) by lia.
    assert (Hb : busy q (a_ops A0) = false).
    { rewrite nops_busy. rewrite Hn0. reflexivity. }
    rewrite (proj2 (last_ptr_none _ _) Hb). rewrite zupd_same.
    rewrite <- (aruns0_view H0) in He.
    assert (s_prod (s_write (a_q A0 q) reg data strb) = data mod 2 ^ 16).
    { unfold s_write. rewrite Hd. destruct (a_q A0 q) as [pr0 co0 cq0 ls0 lb0 en0 ba0].
      cbn [s_en] in He. rewrite He. reflexivity. }
    splits; auto; try lia.
    intros j Hj. unfold nops in Hn0. rewrite Hn0 in Hj. lia.
Qed.

Lemma top_order N csz es1 es2 C q h0 :
  aruns N csz satom0 (es1 ++ es2) C -> window_start q es1 h0 -> no_cfg_write q es2 ->
  forall a r b, es2 = a ++ EvReq r :: b -> rs_queue r = q ->
    let x := view (es1 ++ a) q in
    let h := (h0 + Z.of_nat (handed q a)) mod 2 ^ 16 in
    rs_ptr r = h /\
    rs_err r = negb (s_en x) /\
    rs_full r = (s_en x && (2 ^ s_lsz x <=? (h - s_cons x) mod 2 ^ 16))%bool /\
    rs_phase r = Z.even (h / 2 ^ s_lsz x) /\
    rs_addr r = (s_base x + (h mod 2 ^ s_lsz x) * csz) mod 2 ^ 64 /\
    rs_event r = s_evt x.
Proof.
  intros H Hw Hn. destruct (aruns_split _ _ H) as (A & HA & HC).
  pose proof (rng_runs HA rng0) as HR.
  destruct (window_head HA Hw) as (_ & Hh & _).
  intros a r b -> Hq. cbv zeta.
  destruct (aruns_split _ _ HC) as (A1 & H1 & H2).
  apply aruns_cons_inv in H2. destruct H2 as (A2 & H2 & _).
  assert (Hna : no_cfg_write q a).
  { unfold no_cfg_write in *. apply Forall_app in Hn. tauto. }
  rewrite <- Hh. rewrite <- (head_runs H1 Hna HR).
  assert (Hv : view (es1 ++ a) q = a_q A1 q).
  { symmetry. rewrite <- (aruns0_view (aruns_app HA H1)). reflexivity. }
  rewrite Hv. inversion H2; subst; cbn [rs_queue s_resp rs_ptr rs_err rs_full rs_phase rs_addr rs_event] in *;
    subst; splits; reflexivity.
Qed.

Lemma window_nops N csz es1 A q h0 :
  aruns N csz satom0 es1 A -> window_start q es1 h0 -> nops q (a_ops A) = 0%nat.
Proof.
  intros HA [[-> ->]|(es0 & reg & data & strb & db & -> & Hd & He & Hq & ->)].
  - inversion HA; subst. reflexivity.
  - destruct (aruns_split _ _ HA) as (A0 & H0 & H1).
    apply aruns_cons_inv in H1. destruct H1 as (A1 & H1 & H2). inversion H2; subst. clear H2.
    pose proof (nops_runs q H0) as Hno. cbn in Hno. inversion H1; subst. cbn [a_ops]. lia.
Qed.

Lemma top_count N csz es1 es2 C q h0 :
  aruns N csz satom0 (es1 ++ es2) C -> window_start q es1 h0 -> no_cfg_write q es2 ->
  let c0 := s_cons (view es1 q) in
  let size := 2 ^ s_lsz (view es1 q) in
  let d0 := (h0 - c0) mod 2 ^ 16 in
  let held a := d0 + Z.of_nat (handed q a) - consumed q c0 a in
  d0 <= size ->
  (forall a b, es2 = a ++ b -> consumed q c0 a <= d0 + Z.of_nat (retired q a)) ->
  (forall a b, es2 = a ++ b -> 0 <= held a <= size) /\
  (forall a r b, es2 = a ++ EvReq r :: b -> rs_queue r = q ->
     s_en (view (es1 ++ a) q) = true ->
     (rs_full r = true <-> held a = size) /\ (ok_resp r = true <-> held a < size)).
Proof.
  intros H Hw Hn c0 size d0 held Hd0 Hb. destruct (aruns_split _ _ H) as (A & HA & HC).
  pose proof (rng_runs HA rng0) as HR.
  destruct (window_head HA Hw) as (_ & Hh & _).
  pose proof (window_nops HA Hw) as Hno.
  assert (HvA : a_q A q = view es1 q) by (rewrite (aruns0_view HA); reflexivity).
  assert (Hl : 0 <= s_lsz (a_q A q) < 16) by (apply (lsz_rng q HA); simpl; lia).
  assert (Hsz : 2 ^ s_lsz (a_q A q) < 2 ^ 16) by (apply Z.pow_lt_mono_r; lia).
  assert (Hge : forall a b, es2 = a ++ b -> 0 <= held a).
  { intros a b ->. destruct (aruns_split _ _ HC) as (A1 & H1 & _).
    pose proof (nops_runs q H1). pose proof (Hb a b eq_refl). unfold held. lia. }
  assert (Hall : forall a b, es2 = a ++ b -> forall A1, aruns N csz A a A1 ->
            held a <= size /\ (s_head A1 q - s_cons (a_q A1 q)) mod 2 ^ 16 = held a).
  { intros a b -> A1 H1.
    assert (Hna : no_cfg_write q a). { unfold no_cfg_write in *. apply Forall_app in Hn. tauto. }
    pose proof (@enq_count N csz A q a A1 H1 Hna HR Hsz d0) as D.
    rewrite Hh, HvA in D. apply D; auto.
    intros a1 b1 ->. apply (Hge a1 (b1 ++ b)). now rewrite app_assoc. }
  split.
  - intros a b E. split; [eapply Hge; eauto|]. subst es2. destruct (aruns_split _ _ HC) as (A1 & H1 & _).
    apply (Hall a b eq_refl A1 H1).
  - intros a r b E Hq He. pose proof E as E'. subst es2.
    destruct (aruns_split _ _ HC) as (A1 & H1 & H2).
    destruct (Hall a (EvReq r :: b) eq_refl A1 H1) as [Hle Hav].
    assert (Hna : no_cfg_write q a). { unfold no_cfg_write in *. apply Forall_app in Hn. tauto. }
    destruct (top_order H Hw Hn a r b eq_refl Hq) as (_ & Eerr & Eem & _).
    rewrite <- Hh in Eem. rewrite <- (head_runs H1 Hna HR) in Eem.
    assert (Hv : view (es1 ++ a) q = a_q A1 q).
    { symmetry. rewrite <- (aruns0_view (aruns_app HA H1)). reflexivity. }
    rewrite Hv in *. rewrite He in *. cbn [andb negb] in *.
    rewrite Hav in Eem. rewrite (lsz_runs H1 Hna), HvA in Eem. fold size in Eem.
    unfold ok_resp. rewrite Eem, Eerr. cbn [negb]. rewrite andb_true_r, negb_true_iff.
    rewrite Z.leb_le, Z.leb_gt. lia.
Qed.

(** A ring slot is written again only after its previous record was consumed. *)
Lemma top_reuse N csz es1 es2 C q h0 :
  aruns N csz satom0 (es1 ++ es2) C -> window_start q es1 h0 -> no_cfg_write q es2 ->
  let c0 := s_cons (view es1 q) in
  let size := 2 ^ s_lsz (view es1 q) in
  let d0 := (h0 - c0) mod 2 ^ 16 in
  d0 <= size ->
  (forall a b, es2 = a ++ b -> consumed q c0 a <= d0 + Z.of_nat (retired q a)) ->
  forall a1 r1 m r2 b, es2 = a1 ++ EvReq r1 :: m ++ EvReq r2 :: b ->
    rs_queue r1 = q -> rs_queue r2 = q -> ok_resp r1 = true -> ok_resp r2 = true ->
    rs_ptr r1 mod size = rs_ptr r2 mod size ->
    d0 + Z.of_nat (handed q a1) < consumed q c0 (a1 ++ EvReq r1 :: m).
Proof.
  intros H Hw Hn c0 size d0 Hd0 Hb a1 r1 m r2 b E Q1 Q2 O1 O2 Hs.
  destruct (top_count H Hw Hn Hd0 Hb) as [_ HC].
  assert (E2 : es2 = (a1 ++ EvReq r1 :: m) ++ EvReq r2 :: b) by (rewrite E, <- app_assoc; reflexivity).
  destruct (top_order H Hw Hn _ _ _ E Q1) as (P1 & _).
  destruct (top_order H Hw Hn _ _ _ E2 Q2) as (P2 & R2 & _).
  assert (He : s_en (view (es1 ++ a1 ++ EvReq r1 :: m) q) = true).
  { unfold ok_resp in O2. rewrite R2, andb_true_iff, !negb_true_iff in O2.
    destruct O2 as [_ O2]. now rewrite negb_false_iff in O2. }
  destruct (HC _ _ _ E2 Q2 He) as [_ H2]. apply H2 in O2. clear H2 HC.
  fold c0 size d0 in O2.
  rewrite P1, P2 in Hs. rewrite handed_app, handed_cons in Hs, O2. cbn [is_handed] in Hs, O2.
  rewrite O1, Q1, Z.eqb_refl in Hs, O2. cbn [andb] in Hs, O2.
  destruct (aruns_split _ _ H) as (A & HA & _).
  assert (Hl : 0 <= s_lsz (view es1 q) < 16) by (rewrite <- (aruns0_view HA); apply (lsz_rng q HA); simpl; lia).
  assert (Hmm : forall x, (x mod 2 ^ 16) mod size = x mod size).
  { intros x. unfold size. replace (2 ^ 16) with (2 ^ s_lsz (view es1 q) * 2 ^ (16 - s_lsz (view es1 q)))
      by (rewrite <- Z.pow_add_r by lia; f_equal; lia).
    rewrite Z.rem_mul_r by (try apply Z.pow_nonzero; lia).
    rewrite (Z.mul_comm (2 ^ s_lsz (view es1 q))), Z.mod_add by (apply Z.pow_nonzero; lia).
    apply Z.mod_mod. apply Z.pow_nonzero; lia. }
  rewrite !Hmm in Hs.
  assert (Hpos : 0 < size) by (apply Z.pow_pos_nonneg; lia).
  set (n1 := Z.of_nat (handed q a1)) in *.
  assert (n2 : exists k, Z.of_nat (handed q a1 + (1 + handed q m)) = n1 + k * size /\ 1 <= k).
  { pose proof (Z.div_mod (h0 + n1) size ltac:(lia)) as D1.
    pose proof (Z.div_mod (h0 + Z.of_nat (handed q a1 + (1 + handed q m))) size ltac:(lia)) as D2.
    rewrite <- Hs in D2.
    exists ((h0 + Z.of_nat (handed q a1 + (1 + handed q m))) / size - (h0 + n1) / size).
    split; [lia|]. unfold n1 in *. nia. }
  destruct n2 as (k & E3 & Hk). rewrite E3 in O2. nia.
Qed.

Lemma top_prod N csz es1 es2 C q h0 :
  aruns N csz satom0 (es1 ++ es2) C -> window_start q es1 h0 -> no_cfg_write q es2 ->
  forall a v b, es2 = a ++ EvRead q 3 v :: b ->
    v = (h0 + Z.of_nat (retired q a)) mod 2 ^ 16 + 2 ^ 16 * s_cons (view (es1 ++ a) q).
Proof.
  intros H Hw Hn a v b ->. destruct (aruns_split _ _ H) as (A & HA & HC).
  pose proof (rng_runs HA rng0) as HR.
  destruct (window_head HA Hw) as (_ & _ & Hh & Hch).
  destruct (aruns_split _ _ HC) as (A1 & H1 & H2).
  apply aruns_cons_inv in H2. destruct H2 as (A2 & H2 & _).
  assert (Hna : no_cfg_write q a). { unfold no_cfg_write in *. apply Forall_app in Hn. tauto. }
  destruct (prod_runs H1 Hna HR Hch) as [E _]. rewrite Hh in E. rewrite <- E.
  rewrite <- (aruns0_view (aruns_app HA H1)). inversion H2; subst. reflexivity.
Qed.

Lemma top_retire N csz es C : 0 < N -> aruns N csz satom0 es C ->
  forall a b, es = a ++ b ->
  all_retired a = firstn (length (all_retired a)) (all_handed a) /\
  forall i, (i < length (all_retired a))%nat -> committed N a i.
Proof.
  intros HN H a b ->. destruct (aruns_split _ _ H) as (A & HA & _). eapply retire_order; eauto.
Qed.

Lemma all_retired_in q p e es : In (EvFin q p e) es -> (1 <= length (all_retired es))%nat.
Proof.
  intros H. apply in_split in H. destruct H as (a & b & ->).
  rewrite all_retired_app, app_length. simpl. lia.
Qed.

Lemma top_live N csz d is1 is2 : 0 <= csz -> 0 < N <= 256 -> (1 <= d)%nat ->
  let es1 := events (snd (trace (qm_step N csz) (qm0 d) is1)) in
  let es := events (snd (trace (qm_step N csz) (qm0 d) (is1 ++ is2))) in
  commits_ok [] es ->
  Forall quiet is2 -> (2 * d + 1 <= length is2)%nat ->
  (length (all_retired es1) < length (all_handed es1))%nat ->
  committed N es1 (length (all_retired es1)) ->
  (length (all_retired es1) < length (all_retired es))%nat.
Proof.
  intros Hc HN Hd es1 es HO Hq Hl Hh Hcm.
  destruct (trace (qm_step N csz) (qm0 d) is1) as [s1 os1] eqn:E1.
  assert (Ees : es = es1 ++ events (snd (trace (qm_step N csz) s1 is2))).
  { unfold es, es1. rewrite trace_app, E1. cbn [fst snd].
    destruct (trace (qm_step N csz) s1 is2) as [s2 os2]. cbn [snd]. apply flat_map_app. }
  clearbody es.
  rewrite Ees in HO |- *. apply commits_ok_app in HO. destruct HO as [HO1 HO2].
  destruct (@trace_sim N csz Hc HN is1 (qm0 d) satom0 []) as (B & H & R & T).
  { apply rel0; auto; lia. } { apply tagsok0. } { rewrite E1. exact HO1. }
  rewrite E1 in H, R, T. cbn [fst snd] in *. fold es1 in H, T.
  pose proof (hinv_runs H (@hinv0 N ltac:(lia))) as [_ H1 _ _ H4 _]. cbn [app] in *.
  apply H4 in Hcm; auto. unfold done_at in Hcm. rewrite Nat.ltb_irrefl, Nat.sub_diag in Hcm.
  assert (exists o r, a_ops B = o :: r) as (o & r & Ho).
  { destruct (a_ops B) as [|o r]; eauto. simpl in H1. rewrite H1, app_nil_r in Hh. lia. }
  rewrite Ho in Hcm. simpl in Hcm.
  assert (Hlen : length (m_pipe s1) = d).
  { change s1 with (fst (s1, os1)). rewrite <- E1.
    assert (Hg : forall is s, length (m_pipe s) = d -> length (m_pipe (fst (trace (qm_step N csz) s is))) = d).
    { intros is. induction is as [|i is IH]; intros s Hs; auto.
      cbn [trace]. destruct (qm_step N csz s i) as [s' o'] eqn:Es.
      specialize (IH s'). destruct (trace (qm_step N csz) s' is) as [s'' os'']. cbn [fst] in *.
      apply IH. replace s' with (fst (qm_step N csz s i)) by (rewrite Es; auto).
      rewrite step_pipe. simpl. rewrite removelast_length'. lia. }
    apply Hg. simpl. apply repeat_length. }
  assert (Hin : has_fin (events (snd (trace (qm_step N csz) s1 is2)))).
  { eapply live; eauto. rewrite Hlen. auto. }
  destruct Hin as (q1 & p1 & e1 & Hin).
  rewrite all_retired_app, app_length. apply all_retired_in in Hin. lia.
Qed.

(** Register reads. *)
Lemma top_read N csz es C : aruns N csz satom0 es C ->
  forall a q reg v b, es = a ++ EvRead q reg v :: b ->
  v = s_read (view a q) (negb (handed q a =? retired q a)%nat) reg.
Proof.
  intros H a q reg v b ->. destruct (aruns_split _ _ H) as (A & HA & HC).
  apply aruns_cons_inv in HC. destruct HC as (A2 & H2 & _).
  pose proof (nops_runs q HA) as Hno. cbn in Hno.
  rewrite <- (aruns0_view HA). inversion H2; subst. f_equal. rewrite nops_busy. f_equal.
  destruct (Nat.eqb_spec (nops q (a_ops A2)) 0), (Nat.eqb_spec (handed q a) (retired q a)); auto; lia.
Qed.

Lemma s_write_en x reg data strb : s_en x = true ->
  let y := s_write x reg data strb in
  s_base y = s_base x /\ s_lsz y = s_lsz x /\ s_evt y = s_evt x /\ s_prod y = s_prod x.
Proof.
  unfold s_write. destruct x as [pr co cq ls lb en ba]. cbn [s_en]. intros ->.
  destruct (decode reg data); splits; reflexivity.
Qed.

Lemma top_frozen q es2 : forall es1,
  s_en (view es1 q) = true -> Forall (fun e => ~ disables q e) es2 ->
  let x := view es1 q in let y := view (es1 ++ es2) q in
  s_en y = true /\ s_base y = s_base x /\ s_lsz y = s_lsz x /\ s_evt y = s_evt x /\
  (retired q es2 = 0%nat -> s_prod y = s_prod x).
Proof.
  induction es2 as [|e es2 IH]; intros es1 He Hf; cbv zeta.
  - rewrite app_nil_r. splits; auto.
  - inversion Hf as [|? ? Hd Hf']; subst.
    replace (es1 ++ e :: es2) with ((es1 ++ [e]) ++ es2) by (rewrite <- app_assoc; reflexivity).
    assert (Hv : view (es1 ++ [e]) q = view1 (view es1) e q) by (unfold view; rewrite fold_left_app; reflexivity).
    assert (H1 : let x := view es1 q in let y := view1 (view es1) e q in
       s_en y = true /\ s_base y = s_base x /\ s_lsz y = s_lsz x /\ s_evt y = s_evt x /\
       (is_retired q e = false -> s_prod y = s_prod x)).
    { cbv zeta. destruct e as [q' p ev|tag|r|q' reg data strb db|q' reg v]; cbn [view1 is_retired]; try (splits; auto; fail).
      - unfold zupd. destruct (Z.eqb_spec q q') as [->|]; [|splits; auto].
        destruct (view es1 q') as [pr0 co0 cq0 ls0 lb0 en0 ba0]. cbn in *. rewrite Z.eqb_refl. splits; auto. discriminate.
      - unfold zupd. destruct (Z.eqb_spec q q') as [->|]; [|splits; auto].
        destruct (@s_write_en (view es1 q') reg data strb He) as (W1 & W2 & W3 & W4).
        cbn [disables] in Hd. splits; auto. apply s_write_en_keep; auto. }
    destruct H1 as (E1 & E2 & E3 & E4 & E6).
    destruct (IH (es1 ++ [e])) as (I1 & I2 & I3 & I4 & I6); auto.
    { rewrite Hv. auto. }
    rewrite Hv in *. splits; auto; try congruence.
    rewrite retired_cons. intros Hr. destruct (is_retired q e); [discriminate|].
    rewrite I6 by auto. auto.
Qed.

Lemma sim_then N csz d is es (P : Prop) :
  0 <= csz -> 0 < N <= 256 -> (1 <= d)%nat ->
  events (snd (trace (qm_step N csz) (qm0 d) is)) = es ->
  commits_ok [] es -> (forall C, aruns N csz satom0 es C -> P) -> P.
Proof.
  intros Hc HN Hd He HO HP. destruct (@top_sim N csz d is Hc HN Hd) as (B & HB).
  - rewrite He. exact HO.
  - rewrite He in HB. eauto.
Qed.

Lemma testbit_small x k n : 0 <= x < 2 ^ k -> k <= n -> 0 <= k -> Z.testbit x n = false.
Proof.
  intros Hx Hn Hk. destruct (Z.eq_dec x 0) as [->|]; [apply Z.bits_0|].
  apply Z.bits_above_log2; try lia. apply Z.log2_lt_pow2; try lia.
  apply Z.lt_le_trans with (2 ^ k); try lia. apply Z.pow_le_mono_r; lia.
Qed.

Lemma low_zero x n : x mod 4096 = 0 -> 0 <= n < 12 -> Z.testbit x n = false.
Proof.
  intros H Hn. change 4096 with (2 ^ 12) in H.
  rewrite <- (Z.mod_pow2_bits_low x 12 n) by lia. rewrite H. apply Z.bits_0.
Qed.

(** * Events *)

Lemma top_ev N csz d is q : 0 <= csz -> 0 < N <= 256 -> (1 <= d)%nat ->
  let os := snd (trace (qm_step N csz) (qm0 d) is) in
  commits_ok [] (events os) ->
  exists pend, raised q (events os) = from_queue q (somes (map o_gen os)) ++ pend /\
               (length pend <= 1)%nat.
Proof.
  intros Hc HN Hd os HO. destruct (trace (qm_step N csz) (qm0 d) is) as [sf os'] eqn:E.
  exists (pend_ev q sf). split; [|apply pend_ev_le].
  pose proof (@trace_ev N csz q Hc HN is (qm0 d) satom0 [] sf os') as H.
  unfold os in *. cbn [snd] in *. rewrite <- H; auto.
  - unfold pend_ev. cbn [qm0 m_pipe]. rewrite pend_fin_none; auto.
    clear. induction d; simpl; auto.
  - apply rel0; auto; lia.
  - apply tagsok0.
Qed.

Lemma top_arm N csz es1 q reg data strb ev es2 C :
  aruns N csz satom0 (es1 ++ EvWrite q reg data strb ev :: es2) C ->
  arms q (EvWrite q reg data strb ev) = true ->
  s_en (view es1 q) = true ->
  Forall (fun e => ~ arm_write q e) es2 ->
  let x := view es1 q in
  let cons' := match decode reg data with CConsArm => data mod 2 ^ 16 | _ => s_cons x end in
  (s_prod x <> cons' -> raised q (EvWrite q reg data strb ev :: es2) = [s_evt x]) /\
  (s_prod x = cons' ->
     (retired q es2 = 0%nat -> raised q (EvWrite q reg data strb ev :: es2) = [] /\
        s_arm (view (es1 ++ EvWrite q reg data strb ev :: es2) q) = true) /\
     (retired q es2 <> 0%nat -> exists v, raised q (EvWrite q reg data strb ev :: es2) = [v] /\
        (Forall (fun e => ~ disables q e) es2 -> v = s_evt x))) /\
  (s_prod x <> cons' \/ retired q es2 <> 0%nat ->
     s_arm (view (es1 ++ EvWrite q reg data strb ev :: es2) q) = false).
Proof.
  intros H Ha He Hn x cons'. rewrite <- (aruns0_view H).
  destruct (aruns_split _ _ H) as (A & HA & HC).
  apply aruns_cons_inv in HC. destruct HC as (B & Hs & HB).
  assert (Hx : x = a_q A q) by (unfold x; rewrite (aruns0_view HA); reflexivity).
  destruct (@arm_runs N csz B es2 C q HB Hn) as [R1 R2].
  assert (Hev : ev = (if negb (s_prod x =? cons') then Some (s_evt x) else None) /\
                s_arm (a_q B q) = (s_prod x =? cons')%bool /\ s_en (a_q B q) = true /\
                s_evt (a_q B q) = s_evt x).
  { fold x in He. inversion Hs; subst ev. subst B. cbn [a_q]. rewrite zupd_same, <- Hx.
    cbn [arms] in Ha. rewrite Z.eqb_refl in Ha. cbn [andb] in Ha.
    unfold cons', s_write, s_event. clear - He Ha.
    destruct x as [pr co cq ls lb en ba]. cbn [s_en s_prod s_cons s_evt s_arm] in *. subst en.
    destruct (decode reg data); try discriminate; cbn [andb]; rewrite ?Ha; cbn [andb];
      match goal with |- context [pr =? ?y] => destruct (pr =? y) end; cbn; splits; auto. }
  destruct Hev as (E1 & E2 & E3 & E4). rewrite E2 in R1, R2.
  change (EvWrite q reg data strb ev :: es2) with ([EvWrite q reg data strb ev] ++ es2).
  rewrite raised_app, raised_write, Z.eqb_refl, R2, E1.
  destruct (Z.eqb_spec (s_prod x) cons') as [Ep|Ep]; cbn [negb olist app andb].
  - splits; try tauto.
    + intros _. split.
      * intros Hr. rewrite Hr in *. cbn in R1. split; [|reflexivity].
        destruct (raised q es2); [reflexivity|discriminate].
      * intros Hr. assert (Hm : length (raised q es2) = 1%nat) by (rewrite R1; lia).
        destruct (raised q es2) as [|v [|]] eqn:Er; try discriminate.
        exists v. split; auto. intros Hdis.
        destruct (@evt_runs N csz B es2 C q HB Hdis E3) as [F _]. rewrite Er in F. inversion F; subst. auto.
    + intros [Hr|Hr]; [congruence|]. destruct (Nat.eqb_spec (retired q es2) 0); [congruence|reflexivity].
  - splits; try tauto. intros _. destruct (raised q es2); [reflexivity|discriminate].
Qed.

Lemma top_arms N csz es C q : aruns N csz satom0 es C ->
  forall a b, es = a ++ b -> (length (raised q a) <= length (filter (arms q) a))%nat.
Proof.
  intros H a b ->. destruct (aruns_split _ _ H) as (A & HA & _).
  pose proof (narms_runs q HA) as Hn. cbn in Hn. unfold narms in Hn. lia.
Qed.

(** The event output register. *)
Lemma step_gen N csz s i :
  let '(s', o) := qm_step N csz s i in
  m_ev s' = (match o_gen o with Some x => Some x | None => if i_evready i then None else m_ev s end) /\
  o_evt o = (if i_evready i then m_ev s else None) /\
  (forall p, o_gen o = Some p ->
     (exists q ptr d, last (m_pipe s) None = Some (PFin q ptr, d)) \/
     (exists q reg data strb e, In (EvWrite q reg data strb (Some e)) (o_ev o))).
Proof.
  unfold qm_step.
  destruct (last_stage N csz (m_ram s) (m_tab s) (last (m_pipe s) None))
    as [[[[[[ram' t1] rsp] b] r] db] evs] eqn:EL.
  destruct (match accept s i with
            | Some (PFin q ptr) => (tab_finish N t1, [EvFin q ptr (snd (do_fin (m_ram s q) ptr))])
            | _ => (t1, [])
            end) as [t2 ev1].
  destruct (match i_commit i with
            | Some tag => if m_crdy s then (tab_commit t2 tag, [EvCommit tag]) else (t2, [])
            | None => (t2, [])
            end) as [t3 ev2].
  cbn [m_ev o_gen o_evt o_ev]. splits; auto.
  intros p ->. destruct (last (m_pipe s) None) as [[[q reg data strb|q reg|q ptr|q tag] d]|];
    cbn [last_stage] in EL.
  - right. destruct (do_write d reg data strb) as [d' [e|]]; injection EL; intros; subst; try discriminate.
    exists q, reg, data, strb, e. left. reflexivity.
  - discriminate.
  - left. eauto.
  - destruct (do_req csz (m_tab s) q tag d) as [rr []]; discriminate.
  - discriminate.
Qed.

Definition no_overwrite (s : qm) (i : qin) (o : qobs) : Prop :=
  o_gen o <> None -> m_ev s = None \/ i_evready i = true.

Lemma step_ev_reg N csz s i s' o : qm_step N csz s i = (s', o) -> no_overwrite s i o ->
  olist (m_ev s) ++ olist (o_gen o) = olist (o_evt o) ++ olist (m_ev s').
Proof.
  intros E H. pose proof (step_gen N csz s i) as G. rewrite E in G. destruct G as (-> & -> & _).
  unfold no_overwrite in H. destruct (o_gen o) as [x|].
  - destruct H as [-> | ->]; try discriminate; destruct (i_evready i); try reflexivity.
  - destruct (i_evready i); cbn [olist app]; rewrite ?app_nil_r; reflexivity.
Qed.

(** If the sink is always ready nothing is lost. *)
Lemma ev_ready N csz is : forall s, Forall (fun i => i_evready i = true) is ->
  let '(sf, os) := trace (qm_step N csz) s is in
  olist (m_ev s) ++ somes (map o_gen os) = somes (map o_evt os) ++ olist (m_ev sf).
Proof.
  induction is as [|i is IH]; intros s Hf.
  - simpl. now rewrite app_nil_r.
  - inversion Hf; subst. cbn [trace]. destruct (qm_step N csz s i) as [s1 o] eqn:Es.
    specialize (IH s1 ltac:(auto)). destruct (trace (qm_step N csz) s1 is) as [s2 os].
    rewrite !map_cons, !somes_cons. rewrite app_assoc.
    rewrite (@step_ev_reg N csz s i s1 o Es) by (intros _; auto).
    rewrite <- !app_assoc. f_equal. exact IH.
Qed.

(** Only one finish is in flight, and only while the event register is free. *)
Definition fininv (s : qm) : Prop :=
  m_pipe s <> [] /\ (cnt is_fin (m_pipe s) <= 1)%nat /\
  (cnt is_fin (m_pipe s) = 1%nat -> m_ev s = None).

Definition no_write_ev (es : list qev) : Prop :=
  forall q reg data strb e, ~ In (EvWrite q reg data strb (Some e)) es.

Lemma acc_fin_cond s i q p : accept s i = Some (PFin q p) ->
  (m_ev s = None \/ i_evready i = true) /\ in_pipe is_fin (m_pipe s) = false.
Proof.
  unfold accept, orelse. intros H.
  destruct (acc_write s i) as [o1|] eqn:E1.
  { injection H as ->. unfold acc_write in E1. destruct (i_aw i) as [[[[? ?] ?] ?]|]; [|discriminate].
    destruct (_ && _)%bool; discriminate. }
  destruct (acc_read s i) as [o1|] eqn:E2.
  { injection H as ->. unfold acc_read in E2. destruct (i_ar i) as [[? ?]|]; [|discriminate].
    destruct (_ && _)%bool; discriminate. }
  destruct (acc_fin s i) as [o1|] eqn:E3.
  { unfold acc_fin in E3. cbv zeta in E3.
    match type of E3 with (if ?c then _ else _) = _ => destruct c eqn:Ec; [|discriminate] end.
    rewrite !andb_true_iff, !negb_true_iff, orb_true_iff in Ec. split; [|tauto].
    destruct (m_ev s); simpl in Ec; [right|left]; auto.
    destruct Ec as [[[_ [Ec|Ec]] _] _]; [discriminate|auto]. }
  unfold acc_req in H. destruct (i_req i) as [[? ?]|]; [|discriminate].
  destruct (_ && _)%bool in H; discriminate.
Qed.

Lemma fininv_step N csz s i s' o : qm_step N csz s i = (s', o) -> fininv s -> no_write_ev (o_ev o) ->
  fininv s' /\ no_overwrite s i o.
Proof.
  intros Es (Hp & Hc & He) Hw.
  pose proof (step_gen N csz s i) as G. rewrite Es in G. destruct G as (G1 & _ & G3).
  assert (Hp' : m_pipe s' = (match accept s i with Some o => Some (o, m_ram s (pop_q o)) | None => None end)
         :: removelast (m_pipe s)) by (rewrite <- (step_pipe N csz s i), Es; reflexivity).
  assert (Hgen : o_gen o <> None -> cnt is_fin [last (m_pipe s) None] = 1%nat).
  { intros Hg. destruct (o_gen o) as [p|]; [|congruence].
    destruct (G3 p eq_refl) as [(q & ptr & d & El)|(q & reg & data & strb & e & Hi)].
    - rewrite El. reflexivity.
    - exfalso. eapply Hw; eauto. }
  rewrite (cnt_split is_fin Hp) in Hc, He.
  split.
  - unfold fininv. rewrite Hp'.
    assert (Ecnt : cnt is_fin ((match accept s i with Some o => Some (o, m_ram s (pop_q o)) | None => None end)
         :: removelast (m_pipe s)) =
      ((match accept s i with Some o => if is_fin o then 1 else 0 | None => 0 end) + cnt is_fin (removelast (m_pipe s)))%nat).
    { unfold cnt. destruct (accept s i) as [x|]; cbn [filter length]; auto. destruct (is_fin x); reflexivity. }
    rewrite Ecnt. split; [discriminate|].
    destruct (accept s i) as [x|] eqn:Ea.
    + destruct (is_fin x) eqn:Ex.
      * destruct x; try discriminate. destruct (acc_fin_cond _ _ Ea) as [A1 A2].
        unfold in_pipe in A2. apply cnt_zero in A2. rewrite (cnt_split is_fin Hp) in A2.
        split; [lia|]. intros _. rewrite G1. destruct (o_gen o); [specialize (Hgen ltac:(discriminate)); lia|].
        destruct A1 as [-> | ->]; auto. destruct (i_evready i); auto.
      * split; [lia|]. intros Hx. rewrite G1.
        destruct (o_gen o); [specialize (Hgen ltac:(discriminate)); lia|].
        rewrite He by lia. destruct (i_evready i); auto.
    + split; [lia|]. intros Hx. rewrite G1.
      destruct (o_gen o); [specialize (Hgen ltac:(discriminate)); lia|].
      rewrite He by lia. destruct (i_evready i); auto.
  - intros Hg. left. apply He. specialize (Hgen Hg). lia.
Qed.

Lemma ev_commit N csz is : forall s, fininv s ->
  no_write_ev (events (snd (trace (qm_step N csz) s is))) ->
  let '(sf, os) := trace (qm_step N csz) s is in
  olist (m_ev s) ++ somes (map o_gen os) = somes (map o_evt os) ++ olist (m_ev sf).
Proof.
  induction is as [|i is IH]; intros s HI Hw.
  - simpl. now rewrite app_nil_r.
  - cbn [trace] in *. destruct (qm_step N csz s i) as [s1 o] eqn:Es.
    specialize (IH s1). destruct (trace (qm_step N csz) s1 is) as [s2 os].
    cbn [snd] in *. rewrite events_cons in Hw.
    assert (Hw1 : no_write_ev (o_ev o)) by (intros q reg data strb e Hi; eapply Hw; apply in_or_app; left; eauto).
    assert (Hw2 : no_write_ev (events os)) by (intros q reg data strb e Hi; eapply Hw; apply in_or_app; right; eauto).
    destruct (@fininv_step N csz s i s1 o Es HI Hw1) as [HI1 Hno].
    rewrite !map_cons, !somes_cons. rewrite app_assoc.
    rewrite (@step_ev_reg N csz s i s1 o Es Hno).
    rewrite <- !app_assoc. f_equal. apply IH; auto.
Qed.

Lemma top_ev_ready N csz d is : Forall (fun i => i_evready i = true) is ->
  let '(sf, os) := trace (qm_step N csz) (qm0 d) is in
  somes (map o_gen os) = somes (map o_evt os) ++ olist (m_ev sf).
Proof. intros H. apply (@ev_ready N csz is (qm0 d) H). Qed.

Lemma top_ev_commit N csz d is : (1 <= d)%nat ->
  (forall q reg data strb e, ~ In (EvWrite q reg data strb (Some e))
      (events (snd (trace (qm_step N csz) (qm0 d) is)))) ->
  let '(sf, os) := trace (qm_step N csz) (qm0 d) is in
  somes (map o_gen os) = somes (map o_evt os) ++ olist (m_ev sf).
Proof.
  intros Hd H. apply (@ev_commit N csz is (qm0 d)); auto.
  unfold fininv. cbn [qm0 m_pipe m_ev]. rewrite cnt_repeat. splits; auto.
  destruct d; [lia|discriminate].
Qed.

Lemma base_full base lo hi n : base mod 4096 = 0 -> lo mod 4096 = 0 -> 0 <= n < 64 ->
  Z.testbit (base_hi (base_lo base lo 15) hi 15) n =
  if n <? 32 then Z.testbit lo n else Z.testbit hi (n - 32).
Proof.
  intros Hb Hlo Hn. rewrite base_hi_bits, base_lo_bits by lia.
  assert (S15 : forall k, 0 <= k < 4 -> Z.testbit 15 k = true).
  { intros k Hk. assert (k = 0 \/ k = 1 \/ k = 2 \/ k = 3) as [->|[->|[->| ->]]] by lia; reflexivity. }
  destruct (Z.ltb_spec n 32).
  - rewrite (proj2 (Z.leb_gt 32 n)) by lia. cbn [andb].
    destruct (Z.leb_spec 12 n); cbn [andb].
    + rewrite S15; auto.
      assert (1 <= n / 8) by (apply Z.div_le_lower_bound; lia).
      assert (n / 8 < 4) by (apply Z.div_lt_upper_bound; lia). lia.
    + rewrite !low_zero; auto; lia.
  - rewrite (proj2 (Z.leb_le 32 n)) by lia. rewrite (proj2 (Z.ltb_lt n 64)) by lia. cbn [andb].
    rewrite S15; auto. split; [apply Z.div_pos; lia|apply Z.div_lt_upper_bound; lia].
Qed.
