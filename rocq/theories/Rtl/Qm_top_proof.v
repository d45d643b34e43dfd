(** The queue manager's port-level statements assembled from the pipeline
    simulation and the history lemmas. *)
From Verif Require Import Base.Prelude Base.Bits Rtl.OpTable_model Rtl.OpTable_spec Rtl.OpTable_proof
  Rtl.Pipe_proof Rtl.Handshake_spec Rtl.Qm_model Rtl.Qm_spec Rtl.Qm_proof Rtl.Qm_hist_proof Rtl.Qm_live_proof.
Open Scope Z_scope.

Lemma tagsok0 N : tagsok N [] satom0.
Proof.
  unfold tagsok. simpl. first [tauto | split; [constructor|intros ? []]
    | intros t []].
Qed.

Lemma top_sim N cld d is : 0 <= cld -> 0 < N <= 256 -> (1 <= d)%nat ->
  let os := snd (trace (qm_step N cld) (qm0 d) is) in
  commits_ok [] (events os) -> exists B, aruns N cld satom0 (events os) B.
Proof.
  intros Hc HN Hd os HO.
  destruct (@trace_sim N cld Hc HN is (qm0 d) satom0 []) as (B & H & _ & _); eauto.
  - apply rel0; auto; lia.
  - apply tagsok0.
Qed.

Lemma inflight_none d : inflight (@repeat stage None d) = [].
Proof. apply inflight_repeat. Qed.

Lemma top_out N cld d is : 0 <= cld -> 0 < N <= 256 -> (1 <= d)%nat ->
  let '(sf, os) := trace (qm_step N cld) (qm0 d) is in
  commits_ok [] (events os) ->
  ev_resps (events os) = somes (map o_resp os) ++ olist (m_resp sf) /\
  ev_reads (events os) = somes (map o_r os) ++ olist (m_r sf) /\
  (Z.of_nat (ev_writes (events os)) = Z.of_nat (count_true (map o_b os)) + b2z (m_b sf)) /\
  ev_doorbells (events os) = somes (map o_db os) ++ olist (m_db sf) /\
  somes (map o_acc os) = somes (map o_done os) ++ inflight (m_pipe sf) /\
  ev_ops (events os) = filter (fun p => negb (is_fin p)) (somes (map o_done os)).
Proof.
  intros Hc HN Hd. destruct (trace (qm_step N cld) (qm0 d) is) as [sf os] eqn:E. intros HO.
  destruct (@trace_out N cld Hc HN is (qm0 d) satom0 [] sf os) as (H1 & H2 & H3 & H4 & H5 & H6); auto.
  - apply rel0; auto; lia.
  - apply tagsok0.
  - cbn [qm0 m_pipe] in H5. rewrite inflight_none in H5. cbn in H1, H2, H3, H4, H5. splits; auto.
Qed.

(** Windows. *)
Lemma window_head N cld es1 A q h0 :
  aruns N cld satom0 es1 A -> window_start q es1 h0 ->
  0 <= h0 < 2 ^ 16 /\ s_head A q = h0 /\ s_cons (a_q A q) = h0 /\ ptr_chain A q.
Proof.
  intros HA [[-> ->]|(es0 & reg & data & strb & db & -> & Hd & He & Hq & ->)].
  - inversion HA; subst. splits; try lia; try reflexivity. intros j Hj. simpl in Hj. lia.
  - destruct (aruns_split _ _ HA) as (A0 & H0 & H1).
    apply aruns_cons_inv in H1. destruct H1 as (A1 & H1 & H2). inversion H2; subst. clear H2.
    pose proof (nops_runs q H0) as Hno. cbn in Hno.
    pose proof (Z.mod_pos_bound data (2 ^ 16) ltac:(lia)).
    inversion H1; subst. unfold s_head, ptr_chain. cbn [a_ops a_q].
    assert (Hn0 : nops q (a_ops A0) = 0%nat) by lia.
    assert (Hb : busy q (a_ops A0) = false).
    { rewrite nops_busy. rewrite Hn0. reflexivity. }
    rewrite (proj2 (last_ptr_none _ _) Hb). rewrite zupd_same.
    rewrite <- (aruns0_view H0) in He.
    assert (s_cons (s_write (a_q A0 q) reg data strb) = data mod 2 ^ 16).
    { unfold s_write. rewrite Hd. destruct (a_q A0 q) as [pr0 co0 cq0 ls0 lb0 en0 ba0].
      cbn [s_en] in He. rewrite He. reflexivity. }
    splits; auto; try lia.
    intros j Hj. unfold nops in Hn0. rewrite Hn0 in Hj. lia.
Qed.

Lemma top_order N cld es1 es2 C q h0 :
  aruns N cld satom0 (es1 ++ es2) C -> window_start q es1 h0 -> no_cons_write q es2 ->
  forall a r b, es2 = a ++ EvReq r :: b -> rs_queue r = q ->
    let x := view (es1 ++ a) q in
    let h := (h0 + Z.of_nat (handed q a)) mod 2 ^ 16 in
    rs_ptr r = h /\
    rs_err r = negb (s_en x) /\
    rs_empty r = (s_en x && (s_prod x =? h))%bool /\
    rs_phase r = Z.even (h / 2 ^ s_lsz x) /\
    rs_addr r = (s_base x + (h mod 2 ^ s_lsz x) * (2 ^ cld * 2 ^ s_lblk x)) mod 2 ^ 64 /\
    rs_blk r = s_lblk x /\ rs_cpl r = s_cqn x.
Proof.
  intros H Hw Hn. destruct (aruns_split _ _ H) as (A & HA & HC).
  pose proof (rng_runs HA rng0) as HR.
  destruct (window_head HA Hw) as (_ & Hh & _).
  intros a r b -> Hq. cbv zeta.
  destruct (aruns_split _ _ HC) as (A1 & H1 & H2).
  apply aruns_cons_inv in H2. destruct H2 as (A2 & H2 & _).
  assert (Hna : no_cons_write q a).
  { unfold no_cons_write in *. apply Forall_app in Hn. tauto. }
  rewrite <- Hh. rewrite <- (head_runs H1 Hna HR).
  assert (Hv : view (es1 ++ a) q = a_q A1 q).
  { symmetry. rewrite <- (aruns0_view (aruns_app HA H1)). reflexivity. }
  rewrite Hv. inversion H2; subst; cbn [rs_queue s_resp rs_ptr rs_err rs_empty rs_phase rs_addr rs_blk rs_cpl] in *;
    subst; splits; reflexivity.
Qed.

Lemma top_count N cld es1 es2 C q h0 :
  aruns N cld satom0 (es1 ++ es2) C -> window_start q es1 h0 -> no_cons_write q es2 ->
  let p0 := s_prod (view es1 q) in
  let avail a := (p0 - h0) mod 2 ^ 16 + published q p0 a - Z.of_nat (handed q a) in
  (forall a b, es2 = a ++ b -> avail a < 2 ^ 16) ->
  (forall a b, es2 = a ++ b -> 0 <= avail a) /\
  (forall a r b, es2 = a ++ EvReq r :: b -> rs_queue r = q ->
     s_en (view (es1 ++ a) q) = true ->
     (rs_empty r = true <-> avail a = 0) /\ (ok_resp r = true <-> 0 < avail a)).
Proof.
  intros H Hw Hn p0 avail Hb. destruct (aruns_split _ _ H) as (A & HA & HC).
  pose proof (rng_runs HA rng0) as HR.
  destruct (window_head HA Hw) as (_ & Hh & _).
  assert (Hp : s_prod (a_q A q) = p0) by (unfold p0; rewrite (aruns0_view HA); reflexivity).
  assert (Hall : forall a b, es2 = a ++ b -> forall A1, aruns N cld A a A1 ->
            0 <= avail a /\ (s_prod (a_q A1 q) - s_head A1 q) mod 2 ^ 16 = avail a).
  { intros a b -> A1 H1.
    assert (Hna : no_cons_write q a). { unfold no_cons_write in *. apply Forall_app in Hn. tauto. }
    pose proof (@deq_count N cld A q a A1 H1 Hna HR ((p0 - h0) mod 2 ^ 16)) as D.
    rewrite Hp, Hh in D. apply D; auto. intros a1 b1 ->. apply (Hb a1 (b1 ++ b)). now rewrite app_assoc. }
  split.
  - intros a b E. subst es2. destruct (aruns_split _ _ HC) as (A1 & H1 & _).
    apply (Hall a b eq_refl A1 H1).
  - intros a r b E Hq He. pose proof E as E'. subst es2.
    destruct (aruns_split _ _ HC) as (A1 & H1 & H2).
    destruct (Hall a (EvReq r :: b) eq_refl A1 H1) as [Hge Hav].
    pose proof (Hb a _ eq_refl) as Hlt.
    assert (Hna : no_cons_write q a). { unfold no_cons_write in *. apply Forall_app in Hn. tauto. }
    destruct (top_order H Hw Hn a r b eq_refl Hq) as (_ & Eerr & Eem & _).
    rewrite <- Hh in Eem. rewrite <- (head_runs H1 Hna HR) in Eem.
    assert (Hv : view (es1 ++ a) q = a_q A1 q).
    { symmetry. rewrite <- (aruns0_view (aruns_app HA H1)). reflexivity. }
    rewrite Hv in *. rewrite He in *. cbn [andb negb] in *.
    pose proof (rng_runs H1 HR) as HR1. pose proof (head_rng q HR1) as Rh.
    destruct HR1 as [R1 _]. destruct (R1 q) as [_ Rp].
    assert (Hz : s_prod (a_q A1 q) = s_head A1 q <-> avail a = 0).
    { rewrite <- Hav. split; [intros ->; rewrite Z.sub_diag; reflexivity|].
      intros E0. apply Z.mod_divide in E0; [|lia]. destruct E0 as [k Hk]. nia. }
    unfold ok_resp. rewrite Eem, Eerr. rewrite Z.eqb_eq. split; auto.
    rewrite andb_true_r, negb_true_iff, Z.eqb_neq. rewrite Hz. lia.
Qed.

Lemma top_cons N cld es1 es2 C q h0 :
  aruns N cld satom0 (es1 ++ es2) C -> window_start q es1 h0 -> no_cons_write q es2 ->
  forall a v b, es2 = a ++ EvRead q 4 v :: b ->
    v = s_prod (view (es1 ++ a) q) + 2 ^ 16 * ((h0 + Z.of_nat (retired q a)) mod 2 ^ 16).
Proof.
  intros H Hw Hn a v b ->. destruct (aruns_split _ _ H) as (A & HA & HC).
  pose proof (rng_runs HA rng0) as HR.
  destruct (window_head HA Hw) as (_ & _ & Hh & Hch).
  destruct (aruns_split _ _ HC) as (A1 & H1 & H2).
  apply aruns_cons_inv in H2. destruct H2 as (A2 & H2 & _).
  assert (Hna : no_cons_write q a). { unfold no_cons_write in *. apply Forall_app in Hn. tauto. }
  destruct (cons_runs H1 Hna HR Hch) as [E _]. rewrite Hh in E. rewrite <- E.
  rewrite <- (aruns0_view (aruns_app HA H1)). inversion H2; subst. reflexivity.
Qed.

Lemma top_retire N cld es C : 0 < N -> aruns N cld satom0 es C ->
  forall a b, es = a ++ b ->
  all_retired a = firstn (length (all_retired a)) (all_handed a) /\
  forall i, (i < length (all_retired a))%nat -> committed N a i.
Proof.
  intros HN H a b ->. destruct (aruns_split _ _ H) as (A & HA & _). eapply retire_order; eauto.
Qed.

Lemma all_retired_in q p es : In (EvFin q p) es -> (1 <= length (all_retired es))%nat.
Proof.
  intros H. apply in_split in H. destruct H as (a & b & ->).
  rewrite all_retired_app, app_length. simpl. lia.
Qed.

Lemma top_live N cld d is1 is2 : 0 <= cld -> 0 < N <= 256 -> (1 <= d)%nat ->
  let es1 := events (snd (trace (qm_step N cld) (qm0 d) is1)) in
  let es := events (snd (trace (qm_step N cld) (qm0 d) (is1 ++ is2))) in
  commits_ok [] es ->
  Forall quiet is2 -> (d + 2 <= length is2)%nat ->
  (length (all_retired es1) < length (all_handed es1))%nat ->
  committed N es1 (length (all_retired es1)) ->
  (length (all_retired es1) < length (all_retired es))%nat.
Proof.
  intros Hc HN Hd es1 es HO Hq Hl Hh Hcm.
  destruct (trace (qm_step N cld) (qm0 d) is1) as [s1 os1] eqn:E1.
  assert (Ees : es = es1 ++ events (snd (trace (qm_step N cld) s1 is2))).
  { unfold es, es1. rewrite trace_app, E1. cbn [fst snd].
    destruct (trace (qm_step N cld) s1 is2) as [s2 os2]. cbn [snd]. apply flat_map_app. }
  clearbody es.
  rewrite Ees in HO |- *. apply commits_ok_app in HO. destruct HO as [HO1 HO2].
  destruct (@trace_sim N cld Hc HN is1 (qm0 d) satom0 []) as (B & H & R & T).
  { apply rel0; auto; lia. } { apply tagsok0. } { rewrite E1. exact HO1. }
  rewrite E1 in H, R, T. cbn [fst snd] in *. fold es1 in H, T.
  pose proof (hinv_runs H (@hinv0 N ltac:(lia))) as [_ H1 _ _ H4 _]. cbn [app] in *.
  apply H4 in Hcm; auto. unfold done_at in Hcm. rewrite Nat.ltb_irrefl, Nat.sub_diag in Hcm.
  assert (exists o r, a_ops B = o :: r) as (o & r & Ho).
  { destruct (a_ops B) as [|o r]; eauto. simpl in H1. rewrite H1, app_nil_r in Hh. lia. }
  rewrite Ho in Hcm. simpl in Hcm.
  assert (Hlen : length (m_pipe s1) = d).
  { change s1 with (fst (s1, os1)). rewrite <- E1.
    assert (Hg : forall is s, length (m_pipe s) = d -> length (m_pipe (fst (trace (qm_step N cld) s is))) = d).
    { intros is. induction is as [|i is IH]; intros s Hs; auto.
      cbn [trace]. destruct (qm_step N cld s i) as [s' o'] eqn:Es.
      specialize (IH s'). destruct (trace (qm_step N cld) s' is) as [s'' os'']. cbn [fst] in *.
      apply IH. replace s' with (fst (qm_step N cld s i)) by (rewrite Es; auto).
      rewrite step_pipe. simpl. rewrite removelast_length'. lia. }
    apply Hg. simpl. apply repeat_length. }
  assert (Hin : In (EvFin (so_q o) (so_ptr o)) (events (snd (trace (qm_step N cld) s1 is2)))).
  { eapply live; eauto. rewrite Hlen. auto. }
  rewrite all_retired_app, app_length. apply all_retired_in in Hin. lia.
Qed.

(** Register reads. *)
Lemma top_read N cld es C : aruns N cld satom0 es C ->
  forall a q reg v b, es = a ++ EvRead q reg v :: b ->
  v = s_read (view a q) (negb (handed q a =? retired q a)%nat) reg.
Proof.
  intros H a q reg v b ->. destruct (aruns_split _ _ H) as (A & HA & HC).
  apply aruns_cons_inv in HC. destruct HC as (A2 & H2 & _).
  pose proof (nops_runs q HA) as Hno. cbn in Hno.
  rewrite <- (aruns0_view HA). inversion H2; subst. f_equal. rewrite nops_busy. f_equal.
  destruct (Nat.eqb_spec (nops q (a_ops A2)) 0), (Nat.eqb_spec (handed q a) (retired q a)); auto; lia.
Qed.

Lemma s_write_en x reg data strb : s_en x = true ->
  s_write x reg data strb =
  match decode reg data with
  | CProd => mkS (data mod 2 ^ 16) (s_cons x) (s_cqn x) (s_lsz x) (s_lblk x) true (s_base x)
  | CEnable => mkS (s_prod x) (s_cons x) (s_cqn x) (s_lsz x) (s_lblk x) (Z.odd data) (s_base x)
  | _ => x
  end.
Proof.
  unfold s_write. destruct x as [pr co cq ls lb en ba]. cbn. intros ->.
  destruct (decode reg data); reflexivity.
Qed.

Lemma top_frozen q es2 : forall es1,
  s_en (view es1 q) = true -> Forall (fun e => ~ disables q e) es2 ->
  let x := view es1 q in let y := view (es1 ++ es2) q in
  s_en y = true /\ s_base y = s_base x /\ s_lsz y = s_lsz x /\ s_lblk y = s_lblk x /\ s_cqn y = s_cqn x /\
  (retired q es2 = 0%nat -> s_cons y = s_cons x).
Proof.
  induction es2 as [|e es2 IH]; intros es1 He Hf; cbv zeta.
  - rewrite app_nil_r. splits; auto.
  - inversion Hf as [|? ? Hd Hf']; subst.
    replace (es1 ++ e :: es2) with ((es1 ++ [e]) ++ es2) by (rewrite <- app_assoc; reflexivity).
    assert (Hv : view (es1 ++ [e]) q = view1 (view es1) e q) by (unfold view; rewrite fold_left_app; reflexivity).
    assert (H1 : let x := view es1 q in let y := view1 (view es1) e q in
       s_en y = true /\ s_base y = s_base x /\ s_lsz y = s_lsz x /\ s_lblk y = s_lblk x /\ s_cqn y = s_cqn x /\
       (is_retired q e = false -> s_cons y = s_cons x)).
    { cbv zeta. destruct e as [q' p|tag|r|q' reg data strb db|q' reg v]; cbn [view1 is_retired]; try (splits; auto; fail).
      - unfold zupd. destruct (Z.eqb_spec q q') as [->|]; [|splits; auto].
        destruct (view es1 q') as [pr0 co0 cq0 ls0 lb0 en0 ba0]. cbn in *. rewrite Z.eqb_refl. splits; auto. discriminate.
      - unfold zupd. destruct (Z.eqb_spec q q') as [->|]; [|splits; auto].
        rewrite s_write_en by auto. cbn [disables] in Hd.
        destruct (decode reg data) eqn:Edc; cbn; splits; auto.
        destruct (Z.odd data); auto; tauto. }
    destruct H1 as (E1 & E2 & E3 & E4 & E5 & E6).
    destruct (IH (es1 ++ [e])) as (I1 & I2 & I3 & I4 & I5 & I6); auto.
    { rewrite Hv. auto. }
    rewrite Hv in *. splits; auto; try congruence.
    rewrite retired_cons. intros Hr. destruct (is_retired q e); [discriminate|].
    rewrite I6 by auto. auto.
Qed.

Lemma top_doorbell N cld es C : aruns N cld satom0 es C ->
  ev_doorbells es = due_doorbells (fun _ => mkS 0 0 0 0 0 false 0) es.
Proof. intros H. apply (due_runs H). reflexivity. Qed.

Lemma top_db N cld d is : 0 <= cld -> 0 < N <= 256 -> (1 <= d)%nat ->
  let '(sf, os) := trace (qm_step N cld) (qm0 d) is in
  commits_ok [] (events os) ->
  due_doorbells (fun _ => mkS 0 0 0 0 0 false 0) (events os)
    = somes (map o_db os) ++ olist (m_db sf).
Proof.
  intros Hc HN Hd. pose proof (@top_out N cld d is Hc HN Hd) as H.
  pose proof (@top_sim N cld d is Hc HN Hd) as H'.
  destruct (trace (qm_step N cld) (qm0 d) is) as [sf os]. cbn [snd] in H'. intros HO.
  destruct (H HO) as (_ & _ & _ & <- & _). destruct (H' HO) as (B & HB).
  symmetry. eapply top_doorbell; eauto.
Qed.

Lemma sim_then N cld d is es (P : Prop) :
  0 <= cld -> 0 < N <= 256 -> (1 <= d)%nat ->
  events (snd (trace (qm_step N cld) (qm0 d) is)) = es ->
  commits_ok [] es -> (forall C, aruns N cld satom0 es C -> P) -> P.
Proof.
  intros Hc HN Hd He HO HP. destruct (@top_sim N cld d is Hc HN Hd) as (B & HB).
  - rewrite He. exact HO.
  - rewrite He in HB. eauto.
Qed.

Lemma base_bits base data strb n : 0 <= n ->
  Z.testbit (base_lo base data strb) n =
    (if ((12 <=? n) && (n <? 32) && Z.testbit strb (n / 8))%bool
     then Z.testbit data n else Z.testbit base n) /\
  Z.testbit (base_hi base data strb) n =
    (if ((32 <=? n) && (n <? 64) && Z.testbit strb ((n - 32) / 8))%bool
     then Z.testbit data (n - 32) else Z.testbit base n).
Proof. intros. split; [apply base_lo_bits|apply base_hi_bits]; auto. Qed.

Lemma testbit_small x k n : 0 <= x < 2 ^ k -> k <= n -> 0 <= k -> Z.testbit x n = false.
Proof.
  intros Hx Hn Hk. destruct (Z.eq_dec x 0) as [->|]; [apply Z.bits_0|].
  apply Z.bits_above_log2; try lia. apply Z.log2_lt_pow2; try lia.
  apply Z.lt_le_trans with (2 ^ k); try lia. apply Z.pow_le_mono_r; lia.
Qed.

Lemma low_zero x n : x mod 4096 = 0 -> 0 <= n < 12 -> Z.testbit x n = false.
Proof.
  intros H Hn. change 4096 with (2 ^ 12) in H.
  rewrite <- (Z.mod_pow2_bits_low x 12 n) by lia. rewrite H. apply Z.bits_0.
Qed.

Lemma readback x act lo hi lsz lblk cqn : s_en x = false ->
  0 <= lo < 2 ^ 32 -> lo mod 4096 = 0 -> 0 <= hi < 2 ^ 32 -> 0 <= lsz < 16 -> 0 <= lblk < 4 ->
  0 <= cqn < 2 ^ 16 -> s_base x mod 4096 = 0 ->
  let y := s_write (s_write (s_write (s_write x 0 lo 15) 1 hi 15)
                            2 (0x80020000 + 256 * lblk + lsz) 15) 2 (0xC0000000 + cqn) 15 in
  s_read y act 0 = lo /\ s_read y act 1 = hi /\
  s_read y act 3 = cqn + 2 ^ 24 * lsz + 2 ^ 28 * lblk.
Proof.
  intros He Hlo Hlo0 Hhi Hlsz Hlblk Hcqn Hb.
  destruct x as [pr co cq ls lb en ba]. cbn [s_en s_base] in *. subst en.
  assert (D1 : decode 2 (0x80020000 + 256 * lblk + lsz) = CSize).
  { unfold decode, bits. cbn [Z.eqb Z.leb Z.compare Pos.compare Pos.compare_cont andb].
    replace ((0x80020000 + 256 * lblk + lsz) / 2 ^ 16 mod 2 ^ 16) with 0x8002; [reflexivity|].
    replace ((0x80020000 + 256 * lblk + lsz) / 2 ^ 16) with 0x8002; [reflexivity|].
    apply (Z.div_unique _ _ _ (256 * lblk + lsz)); lia. }
  assert (D2 : decode 2 (0xC0000000 + cqn) = CCqn).
  { unfold decode, bits. cbn [Z.eqb Z.leb Z.compare Pos.compare Pos.compare_cont andb].
    replace ((0xC0000000 + cqn) / 2 ^ 16) with 0xC000; [reflexivity|].
    apply (Z.div_unique _ _ _ cqn); lia. }
  cbv zeta. unfold s_write at 4 3. cbn [decode Z.eqb]. unfold s_write. rewrite D1, D2.
  set (B := base_hi (base_lo ba lo 15) hi 15).
  assert (HB : forall n, 0 <= n < 64 -> Z.testbit B n = if n <? 32 then Z.testbit lo n else Z.testbit hi (n - 32)).
  { intros n Hn. unfold B. rewrite base_hi_bits, base_lo_bits by lia.
    assert (S15 : forall k, 0 <= k < 4 -> Z.testbit 15 k = true).
    { intros k Hk. assert (k = 0 \/ k = 1 \/ k = 2 \/ k = 3) as [->|[->|[->| ->]]] by lia; reflexivity. }
    destruct (Z.ltb_spec n 32).
    - rewrite (proj2 (Z.leb_gt 32 n)) by lia. cbn [andb].
      destruct (Z.leb_spec 12 n); cbn [andb].
      + rewrite S15; auto. split; [apply Z.div_pos; lia|apply Z.div_lt_upper_bound; lia].
      + rewrite !low_zero; auto; lia.
    - rewrite (proj2 (Z.leb_le 32 n)) by lia. rewrite (proj2 (Z.ltb_lt n 64)) by lia. cbn [andb].
      rewrite S15; auto. split; [apply Z.div_pos; lia|apply Z.div_lt_upper_bound; lia]. }
  cbn [s_read s_base s_cqn s_lsz s_lblk].
  split; [|split].
  - assert (E : B mod 2 ^ 32 = lo).
    { apply Z.bits_inj'. intros n Hn. destruct (Z.ltb_spec n 32).
      - rewrite Z.mod_pow2_bits_low, HB by lia. rewrite (proj2 (Z.ltb_lt n 32)) by lia. reflexivity.
      - rewrite Z.mod_pow2_bits_high by lia. symmetry. apply (@testbit_small lo 32); lia. }
    change (B mod 2 ^ 32 / 4096 * 4096 = lo). rewrite E. pose proof (Z.div_mod lo 4096). lia.
  - change ((B / 2 ^ 32) mod 2 ^ 32 = hi).
    apply Z.bits_inj'. intros n Hn. destruct (Z.ltb_spec n 32).
    + rewrite Z.mod_pow2_bits_low, Z.div_pow2_bits, HB by lia.
      rewrite (proj2 (Z.ltb_ge (n + 32) 32)) by lia. f_equal. lia.
    + rewrite Z.mod_pow2_bits_high by lia. symmetry. apply (@testbit_small hi 32); lia.
  - assert (E1 : (0xC0000000 + cqn) mod 2 ^ 16 = cqn).
    { symmetry. apply (Z.mod_unique _ _ 0xC000); lia. }
    assert (E2 : (0x80020000 + 256 * lblk + lsz) mod 16 = lsz).
    { symmetry. apply (Z.mod_unique _ _ (0x8002000 + 16 * lblk)); lia. }
    assert (E3 : (0x80020000 + 256 * lblk + lsz) / 256 = 0x800200 + lblk).
    { symmetry. apply (Z.div_unique _ _ _ lsz); lia. }
    assert (E4 : (0x800200 + lblk) mod 4 = lblk).
    { symmetry. apply (Z.mod_unique _ _ 0x200080); lia. }
    change (decode 1 hi) with CBaseHi. change (decode 0 lo) with CBaseLo. cbn [s_cqn s_lsz s_lblk].
    rewrite E1, E2, E3, E4. change (2 ^ 24) with 16777216; change (2 ^ 28) with 268435456. lia.
Qed.
