(** The transmit checksum unit: delivery. *)
From Verif Require Import Base.Prelude Base.Bits Rtl.Handshake_spec Rtl.Handshake_proof Stream.Axis_model Stream.Fifo_model
  Stream.Axis_proof Stream.Plain_proof Net.Codec_spec
  Nic.RxCsum_model Nic.RxCsum_spec Nic.RxCsum_proof Nic.TxCsum_model Nic.TxCsum_spec Nic.TxCsumSum_proof Nic.TxCsum_proof Nic.TxCsumRun_proof.
Local Open Scope nat_scope.
#[local] Unset Implicit Arguments.

Fixpoint pos (l : list bool) : nat := match l with [] => 0 | true :: _ => 0 | false :: l => S (pos l) end.
Lemma pos_app l x : In true l -> pos (l ++ x) = pos l.
Proof. induction l as [|[|] l IH]; cbn; intros H; [tauto|reflexivity|]. destruct H; [discriminate|]. rewrite IH; auto. Qed.
Lemma pos_le l : pos l <= length l.
Proof. induction l as [|[|] l IH]; cbn; lia. Qed.

Lemma flags_step c s i a0 g Tk CL : goodl c -> ti_rst i = false -> finv c s a0 (fst g) (snd g) Tk CL -> ci_ready c s = true ->
  exists x, flags (fst (tc_step c s i)) = x :: map lf (x_stages s).
Proof.
  intros HL HR F RDY. destruct F as [V1 V2 _ _ _ _ _ _ _ _]. unfold flags. rewrite step_eq. cbn [fst x_stages x_civ]. unfold nstages, go. rewrite HR, RDY, andb_true_r. cbn [negb andb].
  destruct (x_stages s) as [|h t] eqn:ES; [cbn in V1; unfold goodl in HL; lia|]. cbn [length] in V1.
  destruct (shift_ok c HL t h 0 ltac:(lia) V2 (mkTs false false false false false 0 0 [])) as (_ & _ & S3).
  cbn [map app] in S3 |- *. eexists. f_equal. fold (lf (topst s)). rewrite <- S3. unfold topst. rewrite ES. reflexivity.
Qed.

Lemma no_last_run c : forall l a, Forall (fun k => k_last k = false) l -> snd (trun c a l) = [].
Proof. induction l as [|k l IH]; intros a H; [reflexivity|]. apply Forall_cons_iff in H. destruct H as [H1 H2]. cbn [trun snd]. rewrite H1, IH by auto. reflexivity. Qed.
Lemma pt_no_last l : ~ In true (map lf l) -> Forall (fun k => k_last k = false) (pt l).
Proof.
  induction l as [|s l IH]; intros H; cbn [pt]; [constructor|]. cbn [map In] in H. apply Forall_app. split; [apply IH; tauto|].
  unfold vt. destruct (ts_valid s) eqn:V; [|constructor]. constructor; [|constructor]. cbn [stok k_last]. unfold lf in H. rewrite V in H. cbn in H. destruct (ts_last s); auto. tauto.
Qed.
Lemma last_in_pipe c s a0 D C Tk CL : goodl c -> a0_ok c a0 -> finv c s a0 D C Tk CL -> CL = [] -> x_civ s = false -> length Tk < length D ->
  In true (map lf (x_stages s)).
Proof.
  intros HL HA F -> EC HT. destruct (in_dec Bool.bool_dec true (map lf (x_stages s))) as [H|H]; auto. exfalso.
  destruct F as [_ _ V3 V4 _ (X & W & P1 & P2 & P3) _ _ _ _].
  pose proof (run_all' c a0 D C HL HA V3 V4) as E. rewrite P1, trun_app, P2 in E. cbn [fst snd] in E.
  rewrite (no_last_run c (pt (x_stages s)) (x_acc s) (pt_no_last _ H)), app_nil_r in E. rewrite P3, EC in E. cbn in E. rewrite app_nil_r in E.
  apply (f_equal (@length Z)) in E. rewrite map_length in E. lia.
Qed.

Definition nbeats (D : list frame) : nat := length (concat (map fr_beats D)).
Lemma nbeats_app a b : nbeats (a ++ b) = nbeats a + nbeats b.
Proof. unfold nbeats. rewrite map_app, concat_app, app_length. reflexivity. Qed.
Lemma nbeats_cons f D : nbeats (f :: D) = length (fr_beats f) + nbeats D.
Proof. unfold nbeats. cbn [map concat]. rewrite app_length. reflexivity. Qed.
Lemma complete_pos f : complete f -> 0 < length (fr_beats f).
Proof. intros (_ & pre & b & -> & _). rewrite app_length. cbn. lia. Qed.

(* beats that have left the data FIFO *)
Definition np (g : list frame * option frame) (DL : list beat) : nat := length (allbeats (fst g) (snd g)) - length DL.

Definition mu (c : tccfg) (s : tcst) (CL : list beat) : nat :=
  if x_frame s then tc_l c + 8 + pdist (x_data s) + (if k_rdy (x_skid s) then 0 else 1)
  else match CL with [] => 3 + pos (rev (flags s)) | _ => pdist (x_csum s) end.
Definition M (c : tccfg) (s : tcst) (D0 : list frame) (Tk : list Z) (CL : list beat) (n : nat) : nat :=
  if n <? nbeats D0 then 4 * (nbeats D0 - n) + (tc_l c + 20) * (length D0 - length Tk) + mu c s CL else 0.

Lemma mu_bound c s CL : goodl c -> length (x_stages s) = tc_l c - 1 -> mu c s CL <= tc_l c + 11.
Proof.
  intros HL H. unfold goodl in HL. unfold mu. pose proof (pdist2 (x_data s)). pose proof (pdist2 (x_csum s)).
  pose proof (pos_le (rev (flags s))) as P. rewrite rev_length in P. unfold flags in P. rewrite app_length, map_length, H in P. cbn in P. fold (flags s) in P.
  destruct (x_frame s), (k_rdy (x_skid s)), CL; lia.
Qed.
Lemma mu_idle c s CL : goodl c -> length (x_stages s) = tc_l c - 1 -> x_frame s = false -> mu c s CL <= tc_l c + 3.
Proof.
  intros HL H E. unfold goodl in HL. unfold mu. rewrite E. pose proof (pdist2 (x_csum s)).
  pose proof (pos_le (rev (flags s))) as P. rewrite rev_length in P. unfold flags in P. rewrite app_length, map_length, H in P. cbn in P. fold (flags s) in P.
  destruct CL; lia.
Qed.

Lemma np_oinv c s a0 g out Tk CL DL : II c a0 s g out Tk CL DL ->
  np g DL = length (out ++ skid_content (x_skid s)) /\ np g DL + length DL = length (allbeats (fst g) (snd g)).
Proof.
  intros [F (_ & _ & D1 & Fs & pre & P & O1 & O2 & O3 & O4)].
  apply (f_equal (@length beat)) in O3. rewrite app_length, !map_length, app_length in O3. unfold np.
  assert (L1 : length (concat Fs) = length (concat (map fr_beats D1))).
  { clear - O1. induction O1 as [|f F D Fs [H _] O IH]; [reflexivity|]. cbn [map concat]. rewrite !app_length, IH, H. reflexivity. }
  assert (L2 : length P = length pre).
  { destruct (x_frame s); [destruct O4 as (f & D2 & suf & _ & _ & _ & [Q _] & _); exact Q|destruct O4 as (D2 & _ & -> & -> & _); reflexivity]. }
  rewrite O2, app_length. lia.
Qed.

Lemma np_step c s i g a0 out Tk CL DL : goodl c -> a0_ok c a0 -> ninputs i -> II c a0 s g out Tk CL DL ->
  np (feed g (i, snd (tc_step c s i))) (DL' c s i DL) = np g DL + match dpop c s with Some _ => 1 | None => 0 end.
Proof.
  intros HL HA Hi H. pose proof (II_step c a0 s i g out Tk CL DL HL HA Hi H) as H1.
  destruct (np_oinv c _ _ _ _ _ _ _ H) as [_ E0]. destruct (np_oinv c _ _ _ _ _ _ _ H1) as [_ E1].
  assert (HC : im c s i <> None -> ib c s i = None /\ snd g = None).
  { intros N. split; [apply im_ib; exact N|]. destruct H as [F _]. pose proof (v_cur _ _ _ _ _ _ _ F) as V5. unfold cinv in V5. destruct (snd g) as [f|]; auto.
    destruct (im c s i) eqn:E; [|congruence]. apply im_some in E. destruct V5, E. congruence. }
  assert (HB : snd g = None -> ib c s i = None).
  { intros EN. destruct H as [F _]. pose proof (v_cur _ _ _ _ _ _ _ F) as V5. rewrite EN in V5. destruct (ib c s i) eqn:E; auto. apply ib_some in E. unfold cinv in V5. destruct E. congruence. }
  pose proof (feed_beats (fst g) (snd g) (im c s i) (ib c s i) HC HB) as EB. rewrite <- (feed_eq c s i g) in EB.
  rewrite EB, app_length in E1. unfold DL' in E1 at 2. rewrite app_length, map_length in E1.
  destruct (dpop c s) as [d|] eqn:ED; [|lia].
  destruct H as [_ (V1 & _)]. unfold dpop in ED. destruct (k_rdy (x_skid s) && x_frame s); [|discriminate].
  destruct (phead_holds (tc_daw c) (dax c) (x_data s) DL d V1 ED) as [DLt ->]. cbn [tl length] in *. lia.
Qed.

Lemma live_step c s i g a0 out Tk CL DL D0 : goodl c -> a0_ok c a0 -> ninputs i -> ti_mready i = true -> II c a0 s g out Tk CL DL ->
  (exists E, fst g = D0 ++ E) -> np g DL < nbeats D0 ->
  M c (fst (tc_step c s i)) D0 (Tk' c s Tk) (CL' c s CL) (np (feed g (i, snd (tc_step c s i))) (DL' c s i DL)) < M c s D0 Tk CL (np g DL).
Proof.
  intros HL HA Hi HMR H [E0 EG] ND.
  rewrite (np_step c s i g a0 out Tk CL DL HL HA Hi H).
  pose proof (II_step c a0 s i g out Tk CL DL HL HA Hi H) as H1.
  pose proof H as [F (V1 & V2 & D1 & Fs & pre & P & O1 & O2 & O3 & O4)].
  pose proof (v_len _ _ _ _ _ _ _ (proj1 H1)) as L1.
  destruct Hi as [HR HM].
  unfold M at 2. rewrite (proj2 (Nat.ltb_lt _ _) ND).
  destruct (x_frame s) eqn:EF.
  - assert (EW : wpop c s = None) by (unfold wpop; rewrite EF; reflexivity).
    assert (ET : Tk' c s Tk = Tk) by (unfold Tk'; rewrite EW, app_nil_r; reflexivity). rewrite ET.
    destruct O4 as (f & D2 & suf & Q1 & Q2 & Q3 & Q4 & Q5 & Q6 & Q7).
    destruct (dpop c s) as [d|] eqn:ED.
    + unfold M. destruct (Nat.ltb_spec (np g DL + 1) (nbeats D0)) as [L|L]; [|unfold goodl in HL; nia].
      assert (mu c (fst (tc_step c s i)) (CL' c s CL) <= tc_l c + 10 /\ tc_l c + 8 <= mu c s CL).
      { split; [|unfold mu; rewrite EF; lia]. destruct (x_frame (fst (tc_step c s i))) eqn:EF'.
        - unfold mu. rewrite EF'. rewrite step_eq, HR, HMR. cbn [fst x_data x_skid]. rewrite oskid_early. pose proof (pdist2 (fst (f_step (data_cfg c) (x_data s) (dfin c s i)))). lia.
        - pose proof (mu_idle c _ (CL' c s CL) HL L1 EF'). lia. }
      nia.
    + rewrite Nat.add_0_r. unfold M. rewrite (proj2 (Nat.ltb_lt _ _) ND).
      assert (EF' : x_frame (fst (tc_step c s i)) = true).
      { rewrite step_eq, HR. cbn [fst x_frame negb andb]. unfold xout. rewrite EF, ED. reflexivity. }
      assert (NL : DL <> []).
      { intros ->. unfold allbeats in O3. rewrite Q1, (map_app fr_beats), concat_app in O3. cbn [map concat] in O3. rewrite Q2 in O3.
        apply (f_equal (@length beat)) in O3. rewrite app_nil_r, !map_length, !app_length in O3. destruct suf; [congruence|]. cbn [length] in O3. lia. }
      assert (mu c (fst (tc_step c s i)) (CL' c s CL) < mu c s CL).
      { unfold mu. rewrite EF, EF'. rewrite step_eq, HR, HMR. cbn [fst x_data x_skid]. rewrite oskid_early.
        unfold dpop in ED. rewrite EF, andb_true_r in ED. destruct (k_rdy (x_skid s)) eqn:EK.
        - assert (PD : pdist (x_data s) <> 0) by (intros Z0; apply (pdist0 (tc_daw c) (dax c)) in Z0; apply Z0; exact ED).
          pose proof (pdist_step (tc_daw c) (dax c) (x_data s) DL (dfin c s i) V1 HR NL PD) as PS. change (mkFcfg (tc_daw c) 1 false false 1 1 false false false false false false (dax c)) with (data_cfg c) in PS. lia.
        - destruct (Nat.eq_dec (pdist (x_data s)) 0) as [Z0|PD].
          + assert (XM : x_mready (dfin c s i) = false) by (cbn [dfin x_mready]; rewrite EK; reflexivity).
            pose proof (pdist_keep (tc_daw c) (dax c) (x_data s) (dfin c s i) HR XM Z0) as PK.
            change (mkFcfg (tc_daw c) 1 false false 1 1 false false false false false false (dax c)) with (data_cfg c) in PK. rewrite PK. lia.
          + pose proof (pdist_step (tc_daw c) (dax c) (x_data s) DL (dfin c s i) V1 HR NL PD) as PS. change (mkFcfg (tc_daw c) 1 false false 1 1 false false false false false false (dax c)) with (data_cfg c) in PS. lia. }
      lia.
  - assert (ED : dpop c s = None) by (unfold dpop; rewrite EF, andb_false_r; reflexivity). rewrite ED, Nat.add_0_r.
    unfold M. rewrite (proj2 (Nat.ltb_lt _ _) ND).
    destruct O4 as (D2 & Q1 & -> & -> & Q4).
    assert (NF : length Tk < length D0).
    { rewrite Q4, map_length. destruct (Nat.lt_ge_cases (length D1) (length D0)) as [L|L]; auto. exfalso.
      assert (exists Y, D1 = D0 ++ Y) as [Y EY].
      { exists (skipn (length D0) D1). rewrite <- (firstn_skipn (length D0) D1) at 1. f_equal.
        rewrite EG in Q1. apply (f_equal (firstn (length D0))) in Q1. rewrite !firstn_app, Nat.sub_diag in Q1. cbn [firstn] in Q1.
        replace (length D0 - length D1) with 0 in Q1 by lia. cbn [firstn] in Q1. rewrite !app_nil_r, firstn_all in Q1. auto. }
      apply (f_equal (@length beat)) in O3. unfold np in ND. rewrite app_length, !map_length, app_nil_r in O3. fold (nbeats D1) in O3. rewrite EY, nbeats_app in O3. lia. }
    destruct (wpop c s) as [w|] eqn:EW.
    + assert (ET : length (Tk' c s Tk) = S (length Tk)) by (unfold Tk'; rewrite EW, app_length; cbn; lia). rewrite ET.
      pose proof (mu_bound c _ (CL' c s CL) HL L1). nia.
    + assert (ET : Tk' c s Tk = Tk) by (unfold Tk'; rewrite EW, app_nil_r; reflexivity). rewrite ET.
      assert (EF' : x_frame (fst (tc_step c s i)) = false).
      { rewrite step_eq, HR. cbn [fst x_frame negb andb]. unfold xout. rewrite EF, EW. reflexivity. }
      assert (mu c (fst (tc_step c s i)) (CL' c s CL) < mu c s CL); [|lia].
      unfold mu. rewrite EF, EF'. unfold CL'. rewrite EW.
      assert (EV : m_vis (csum_cfg c) (x_csum s) = None) by (unfold wpop in EW; rewrite EF in EW; exact EW).
      pose proof (v_csum _ _ _ _ _ _ _ F) as VC.
      destruct CL as [|w CL].
      * cbn [app]. destruct (x_civ s) eqn:EC.
        -- pose proof (pdist2 (x_csum (fst (tc_step c s i)))). lia.
        -- assert (RDY : ci_ready c s = true).
           { apply (holdsp_ready (tc_caw c) cax (x_csum s) [] VC). cbn. pose proof (Nat.pow_nonzero 2 (tc_caw c)). lia. }
           destruct (flags_step c s i a0 g Tk [] HL HR F RDY) as [x EX]. rewrite EX. unfold flags. rewrite EC, rev_app_distr. cbn [rev app pos].
           rewrite pos_app; [lia|]. apply -> in_rev. apply (last_in_pipe c s a0 (fst g) (snd g) Tk [] HL HA F eq_refl EC).
           rewrite EG, app_length. lia.
      * cbn [app]. assert (PD : pdist (x_csum s) <> 0) by (intros Z0; apply (pdist0 (tc_caw c) cax) in Z0; apply Z0; exact EV).
        pose proof (pdist_step (tc_caw c) cax (x_csum s) (w :: CL) (cfin s i) VC HR ltac:(discriminate) PD) as PS.
        change (mkFcfg (tc_caw c) 1 false false 1 1 false false false false false false cax) with (csum_cfg c) in PS.
        rewrite step_eq. cbn [fst x_csum]. exact PS.
Qed.

(* measure with what is still to be taken at the output *)
Definition M2 c s D0 Tk CL n (out : list beat) : nat := M c s D0 Tk CL n + (nbeats D0 - length out).
Definition N0 (c : tccfg) (D0 : list frame) : nat := 5 * nbeats D0 + (tc_l c + 20) * S (length D0).

Lemma M2_bound c a0 s g out Tk CL DL D0 : goodl c -> II c a0 s g out Tk CL DL -> M2 c s D0 Tk CL (np g DL) out <= N0 c D0.
Proof.
  intros HL [F _]. pose proof (mu_bound c s CL HL (v_len _ _ _ _ _ _ _ F)) as B. unfold M2, M, N0. destruct (np g DL <? nbeats D0); [nia|nia].
Qed.

Lemma live2 c s i g a0 out Tk CL DL D0 : goodl c -> a0_ok c a0 -> ninputs i -> ti_mready i = true -> II c a0 s g out Tk CL DL ->
  (exists E, fst g = D0 ++ E) -> length out < nbeats D0 ->
  M2 c (fst (tc_step c s i)) D0 (Tk' c s Tk) (CL' c s CL) (np (feed g (i, snd (tc_step c s i))) (DL' c s i DL)) (out ++ olist (gv c s i)) < M2 c s D0 Tk CL (np g DL) out.
Proof.
  intros HL HA Hi HMR H HE HO. unfold M2. rewrite app_length.
  destruct (Nat.lt_ge_cases (np g DL) (nbeats D0)) as [L|L].
  - pose proof (live_step c s i g a0 out Tk CL DL D0 HL HA Hi HMR H HE L). lia.
  - destruct (np_oinv c s a0 g out Tk CL DL H) as [EN _].
    assert (GV : gv c s i = k_out (x_skid s)) by (unfold gv, beat_given; rewrite step_eq, HMR; reflexivity). rewrite GV.
    assert (k_out (x_skid s) <> None).
    { destruct H as [_ (_ & OK & _)]. apply oskid_head; auto. intros EZ. rewrite EZ, app_nil_r in EN. lia. }
    destruct (k_out (x_skid s)); [|congruence]. cbn [olist length]. unfold M.
    rewrite (np_step c s i g a0 out Tk CL DL HL HA Hi H).
    assert (np g DL + match dpop c s with Some _ => 1 | None => 0 end <? nbeats D0 = false) as -> by (apply Nat.ltb_ge; lia).
    assert (np g DL <? nbeats D0 = false) as -> by (apply Nat.ltb_ge; lia). lia.
Qed.

Lemma live_run c a0 D0 : goodl c -> a0_ok c a0 -> forall is s g out Tk CL DL, Forall ninputs is -> Forall (fun i => ti_mready i = true) is ->
  II c a0 s g out Tk CL DL -> (exists E, fst g = D0 ++ E) -> M2 c s D0 Tk CL (np g DL) out <= length is ->
  nbeats D0 <= length (out ++ sent is (snd (trace (tc_step c) s is))).
Proof.
  intros HL HA. induction is as [|i is IH]; intros s g out Tk CL DL HI HMR H HE HB.
  - cbn [length] in HB. unfold M2 in HB. rewrite app_length. lia.
  - apply Forall_cons_iff in HI. destruct HI as [Hi HI]. apply Forall_cons_iff in HMR. destruct HMR as [Hm HMR].
    destruct (Nat.le_gt_cases (nbeats D0) (length out)) as [L|L]; [rewrite app_length; lia|].
    pose proof (II_step c a0 s i g out Tk CL DL HL HA Hi H) as H1.
    pose proof (live2 c s i g a0 out Tk CL DL D0 HL HA Hi Hm H HE L) as ML.
    assert (HE' : exists E, fst (feed g (i, snd (tc_step c s i))) = D0 ++ E).
    { destruct HE as [E1 HE]. destruct (feed_mono [(i, snd (tc_step c s i))] g) as [E2 HE2]. cbn [fold_left] in HE2. rewrite HE2, HE, <- app_assoc. eauto. }
    specialize (IH _ _ _ _ _ _ HI HMR H1 HE' ltac:(cbn [length] in HB; lia)).
    cbn [trace]. unfold gv in IH. destruct (tc_step c s i) as [s1 o1] eqn:E1. cbn [fst snd] in *. destruct (trace (tc_step c) s1 is) as [s2 os] eqn:E2. cbn [fst snd] in *.
    unfold sent. cbn [combine map]. rewrite somes_cons. cbn [fst snd]. unfold sent in IH. rewrite app_assoc. exact IH.
Qed.

(* ----- readiness ----- *)
Definition cbeats (C : option frame) : list beat := match C with Some f => fr_beats f | None => [] end.
Definition wants (C : option frame) (o : tout) : bool := match C with Some _ => to_sready o | None => to_cmdready o end.

Lemma done_ready c a0 s i g out Tk CL DL : goodl c -> a0_ok c a0 -> II c a0 s g out Tk CL DL -> nbeats (fst g) <= np g DL ->
  length (cbeats (snd g)) < 2 ^ tc_daw c -> wants (snd g) (snd (tc_step c s i)) = true.
Proof.
  intros HL HA H HN HC. pose proof H as [F (V1 & V2 & D1 & Fs & pre & P & O1 & O2 & O3 & O4)].
  apply (f_equal (@length beat)) in O3. rewrite app_length, !map_length, app_length in O3. unfold allbeats in O3. rewrite app_length in O3.
  unfold np, allbeats in HN. rewrite app_length in HN. fold (nbeats (fst g)) in *. fold (cbeats (snd g)) in *. fold (nbeats D1) in O3.
  pose proof (v_D _ _ _ _ _ _ _ F) as VD.
  assert (EF : x_frame s = false).
  { destruct (x_frame s) eqn:EF; auto. exfalso. destruct O4 as (f & D2 & suf & Q1 & Q2 & Q3 & _). rewrite Q1, nbeats_app, nbeats_cons, Q2, app_length in *.
    destruct suf; [congruence|]. cbn [length] in *. lia. }
  rewrite EF in O4. destruct O4 as (D2 & Q1 & -> & -> & Q4). rewrite Q1 in VD. apply Forall_app in VD. destruct VD as [_ VD].
  assert (D2 = []) as ->.
  { destruct D2 as [|f D2]; auto. exfalso. apply Forall_cons_iff in VD. destruct VD as [Vf _]. apply complete_pos in Vf. rewrite Q1, nbeats_app, nbeats_cons in *. cbn [length] in *. lia. }
  rewrite app_nil_r in Q1. rewrite Q1 in *.
  destruct (words_prefix c s a0 _ _ _ _ HL HA F) as [R ER]. rewrite Q4 in ER.
  assert (CE : CL = []).
  { apply (f_equal (@length Z)) in ER. rewrite !app_length, !map_length in ER. destruct CL; auto. cbn [length] in ER. lia. }
  subst CL. assert (RDY : ci_ready c s = true).
  { apply (holdsp_ready (tc_caw c) cax (x_csum s) [] (v_csum _ _ _ _ _ _ _ F)). cbn. pose proof (Nat.pow_nonzero 2 (tc_caw c)). lia. }
  assert (DR : sready (data_cfg c) (z_w (x_data s)) (z_rd (x_data s)) = true).
  { apply (holdsp_ready (tc_daw c) (dax c) (x_data s) DL V1). cbn [length] in *. lia. }
  pose proof (v_cur _ _ _ _ _ _ _ F) as V5. unfold cinv in V5. rewrite step_eq. unfold wants. cbn [snd to_sready to_cmdready]. unfold t_sready, t_cmdready. rewrite RDY, DR.
  destruct (snd g); [destruct V5 as [-> _]|rewrite V5]; reflexivity.
Qed.

Lemma not_wanted c s i g a0 out Tk CL DL : II c a0 s g out Tk CL DL -> wants (snd g) (snd (tc_step c s i)) = false ->
  feed g (i, snd (tc_step c s i)) = g.
Proof.
  intros [F _] W. rewrite feed_eq. rewrite step_eq in W. unfold wants in W. cbn [snd to_sready to_cmdready] in W.
  pose proof (v_cur _ _ _ _ _ _ _ F) as V5. unfold cinv in V5. destruct g as [D C]. cbn [fst snd] in *. unfold feed1.
  destruct C as [f|].
  - unfold ib. rewrite W. unfold im, t_cmdready. destruct V5 as [-> _]. rewrite andb_false_r. reflexivity.
  - unfold im. rewrite W. destruct (ib c s i); reflexivity.
Qed.

Lemma ready_run c a0 : goodl c -> a0_ok c a0 -> forall is s g out Tk CL DL, Forall ninputs is -> Forall (fun i => ti_mready i = true) is ->
  II c a0 s g out Tk CL DL -> length (cbeats (snd g)) < 2 ^ tc_daw c -> M c s (fst g) Tk CL (np g DL) < length is ->
  existsb (wants (snd g)) (snd (trace (tc_step c) s is)) = true.
Proof.
  intros HL HA. induction is as [|i is IH]; intros s g out Tk CL DL HI HMR H HC HB; [cbn in HB; lia|].
  apply Forall_cons_iff in HI. destruct HI as [Hi HI]. apply Forall_cons_iff in HMR. destruct HMR as [Hm HMR].
  destruct (wants (snd g) (snd (tc_step c s i))) eqn:EW.
  - cbn [trace]. destruct (tc_step c s i) as [s1 o1]. destruct (trace (tc_step c) s1 is). cbn [snd existsb] in *. rewrite EW. reflexivity.
  - destruct (Nat.le_gt_cases (nbeats (fst g)) (np g DL)) as [L|L].
    { rewrite (done_ready c a0 s i g out Tk CL DL HL HA H L HC) in EW. discriminate. }
    pose proof (II_step c a0 s i g out Tk CL DL HL HA Hi H) as H1.
    pose proof (live_step c s i g a0 out Tk CL DL (fst g) HL HA Hi Hm H ltac:(exists []; rewrite app_nil_r; reflexivity) L) as ML.
    rewrite (not_wanted c s i g a0 out Tk CL DL H EW) in *.
    specialize (IH _ _ _ _ _ _ HI HMR H1 HC ltac:(cbn [length] in HB; lia)).
    cbn [trace]. destruct (tc_step c s i) as [s1 o1]. cbn [fst] in *. destruct (trace (tc_step c) s1 is). cbn [snd existsb] in *. rewrite IH, orb_true_r. reflexivity.
Qed.

(* ----- the limit on the length of a frame ----- *)
Lemma limit c a0 s g out Tk CL DL f : II c a0 s g out Tk CL DL -> snd g = Some f -> length (fr_beats f) <= 2 ^ tc_daw c + 2.
Proof.
  intros [F (V1 & V2 & D1 & Fs & pre & P & O1 & O2 & O3 & O4)] E. rewrite E in O3.
  pose proof (holdsp_bound (tc_daw c) (dax c) (x_data s) DL V1) as B.
  apply (f_equal (@length beat)) in O3. rewrite app_length, !map_length, app_length in O3. unfold allbeats in O3. rewrite app_length in O3.
  fold (nbeats (fst g)) in *. fold (nbeats D1) in O3.
  destruct (x_frame s).
  - destruct O4 as (f' & D2 & suf & Q1 & Q2 & Q3 & _). rewrite Q1, nbeats_app, nbeats_cons, Q2, app_length in *. lia.
  - destruct O4 as (D2 & Q1 & -> & -> & Q4). rewrite Q1, nbeats_app in *. cbn [length] in *. lia.
Qed.

(* ----- from power-up ----- *)
Definition tc_run (c : tccfg) (m1 m2 m3 m4 : Z -> beat) (is : list tin) : tcst * list tout := trace (tc_step c) (tc_init_st c m1 m2 m3 m4) is.

Lemma run_II c m1 m2 m3 m4 is : goodl c -> inputs_ok is -> exists Tk CL DL,
  II c 0 (fst (tc_run c m1 m2 m3 m4 is)) (received is (snd (tc_run c m1 m2 m3 m4 is))) (sent is (snd (tc_run c m1 m2 m3 m4 is))) Tk CL DL.
Proof.
  intros HL HI. exact (II_run c 0 HL (or_intror eq_refl) is _ ([], None) [] [] [] [] HI (quiet_II c _ HL (init_quiet c m1 m2 m3 m4))).
Qed.

Lemma in_order c m1 m2 m3 m4 is : goodl c -> inputs_ok is -> let os := snd (tc_run c m1 m2 m3 m4 is) in
  exists Fs rest, Forall2 (sent_as c) (fst (received is os)) Fs /\ concat Fs = sent is os ++ rest.
Proof. intros HL HI os. destruct (run_II c m1 m2 m3 m4 is HL HI) as (Tk & CL & DL & H). exact (II_order c 0 _ _ _ _ _ _ H). Qed.

Lemma combine_cat {A B} (a : list A) : forall (b : list B) c d, length b = length a -> combine (a ++ c) (b ++ d) = combine a b ++ combine c d.
Proof. induction a as [|x a IH]; intros [|y b] c d H; try discriminate; [reflexivity|]. cbn [app combine]. rewrite IH; auto. Qed.
Lemma sent_app c s is1 is2 : sent (is1 ++ is2) (snd (trace (tc_step c) s (is1 ++ is2))) =
  sent is1 (snd (trace (tc_step c) s is1)) ++ sent is2 (snd (trace (tc_step c) (fst (trace (tc_step c) s is1)) is2)).
Proof.
  rewrite trace_app. pose proof (trace_length (tc_step c) is1 s) as L. destruct (trace (tc_step c) s is1) as [s1 o1]. cbn [fst snd] in *.
  destruct (trace (tc_step c) s1 is2) as [s2 o2]. cbn [snd]. unfold sent. rewrite combine_cat by auto. rewrite map_app, somes_app. reflexivity.
Qed.
Lemma received_app c s is1 is2 : received (is1 ++ is2) (snd (trace (tc_step c) s (is1 ++ is2))) =
  fold_left feed (combine is2 (snd (trace (tc_step c) (fst (trace (tc_step c) s is1)) is2))) (received is1 (snd (trace (tc_step c) s is1))).
Proof.
  rewrite trace_app. pose proof (trace_length (tc_step c) is1 s) as L. destruct (trace (tc_step c) s is1) as [s1 o1]. cbn [fst snd] in *.
  destruct (trace (tc_step c) s1 is2) as [s2 o2]. cbn [snd]. unfold received. rewrite combine_cat by auto. rewrite fold_left_app. reflexivity.
Qed.

Lemma sent_length c D Fs : Forall2 (sent_as c) D Fs -> length (concat Fs) = nbeats D.
Proof. induction 1 as [|f F D Fs [H _] O IH]; [reflexivity|]. rewrite nbeats_cons. cbn [concat]. rewrite app_length, IH, H. reflexivity. Qed.

Lemma delivered_all c m1 m2 m3 m4 is tail : goodl c -> inputs_ok (is ++ tail) -> Forall (fun i => ti_mready i = true) tail ->
  let D := fst (received is (snd (tc_run c m1 m2 m3 m4 is))) in
  5 * nbeats D + (tc_l c + 20) * S (length D) <= length tail ->
  exists Fs rest, Forall2 (sent_as c) D Fs /\ sent (is ++ tail) (snd (tc_run c m1 m2 m3 m4 (is ++ tail))) = concat Fs ++ rest.
Proof.
  intros HL HI HM D HN. pose proof HI as HI'. apply Forall_app in HI'. destruct HI' as [HI1 HI2].
  destruct (run_II c m1 m2 m3 m4 is HL HI1) as (Tk & CL & DL & H).
  pose proof (live_run c 0 D HL (or_intror eq_refl) tail _ _ _ _ _ _ HI2 HM H ltac:(exists []; rewrite app_nil_r; reflexivity)) as LR.
  specialize (LR ltac:(pose proof (M2_bound c 0 _ _ _ _ _ _ D HL H) as B; unfold N0 in B; lia)).
  unfold tc_run in LR. rewrite <- sent_app in LR.
  destruct (in_order c m1 m2 m3 m4 (is ++ tail) HL HI) as (Fs & rest & O1 & O2).
  unfold tc_run in O1. rewrite received_app in O1. destruct (feed_mono (combine tail (snd (trace (tc_step c) (fst (trace (tc_step c) (tc_init_st c m1 m2 m3 m4) is)) tail))) (received is (snd (tc_run c m1 m2 m3 m4 is)))) as [E HE].
  unfold tc_run in HE. rewrite HE in O1. apply Forall2_app_inv_l in O1. destruct O1 as (F1 & F2 & G1 & G2 & ->).
  change (Forall2 (sent_as c) D F1) in G1.
  pose proof (sent_length c D F1 G1) as L1. rewrite concat_app in O2. unfold tc_run in O2 |- *.
  set (st := sent (is ++ tail) (snd (trace (tc_step c) (tc_init_st c m1 m2 m3 m4) (is ++ tail)))) in *.
  exists F1, (skipn (nbeats D) st). split; [exact G1|].
  rewrite <- (firstn_skipn (nbeats D) st) at 1. f_equal.
  apply (f_equal (firstn (nbeats D))) in O2. rewrite !firstn_app, L1, Nat.sub_diag in O2. replace (nbeats D - length st) with 0 in O2 by lia.
  cbn [firstn] in O2. rewrite !app_nil_r, <- L1, firstn_all in O2. rewrite <- L1. auto.
Qed.

Lemma becomes_ready c m1 m2 m3 m4 is tail : goodl c -> inputs_ok (is ++ tail) -> Forall (fun i => ti_mready i = true) tail ->
  let g := received is (snd (tc_run c m1 m2 m3 m4 is)) in
  length (cbeats (snd g)) < 2 ^ tc_daw c ->
  5 * nbeats (fst g) + (tc_l c + 20) * S (length (fst g)) < length tail ->
  existsb (wants (snd g)) (skipn (length is) (snd (tc_run c m1 m2 m3 m4 (is ++ tail)))) = true.
Proof.
  intros HL HI HM g HC HN. apply Forall_app in HI. destruct HI as [HI1 HI2].
  destruct (run_II c m1 m2 m3 m4 is HL HI1) as (Tk & CL & DL & H).
  pose proof (M2_bound c 0 _ _ _ _ _ _ (fst g) HL H) as B. unfold N0, M2 in B.
  pose proof (ready_run c 0 HL (or_intror eq_refl) tail _ _ _ _ _ _ HI2 HM H HC ltac:(fold g in B |- *; lia)) as R.
  unfold tc_run in *. rewrite trace_app. pose proof (trace_length (tc_step c) is (tc_init_st c m1 m2 m3 m4)) as L.
  destruct (trace (tc_step c) (tc_init_st c m1 m2 m3 m4) is) as [s1 o1]. cbn [fst snd] in *. destruct (trace (tc_step c) s1 tail) as [s2 o2]. cbn [snd] in *.
  rewrite <- L, skipn_app, Nat.sub_diag, skipn_all. exact R.
Qed.

Lemma frame_limit c m1 m2 m3 m4 is f : goodl c -> inputs_ok is -> snd (received is (snd (tc_run c m1 m2 m3 m4 is))) = Some f ->
  length (fr_beats f) <= 2 ^ tc_daw c + 2.
Proof. intros HL HI E. destruct (run_II c m1 m2 m3 m4 is HL HI) as (Tk & CL & DL & H). exact (limit c 0 _ _ _ _ _ _ f H E). Qed.

Lemma framing c m1 m2 m3 m4 is i : goodl c -> inputs_ok is ->
  let r := tc_run c m1 m2 m3 m4 is in
  let o := snd (tc_step c (fst r) i) in
  match snd (received is (snd r)) with Some _ => to_cmdready o = false | None => to_sready o = false end.
Proof.
  intros HL HI r o. destruct (run_II c m1 m2 m3 m4 is HL HI) as (Tk & CL & DL & H & _). pose proof (v_cur _ _ _ _ _ _ _ H) as V5.
  unfold o. rewrite step_eq. cbn [snd to_cmdready to_sready]. unfold t_cmdready, t_sready. fold r in V5. unfold cinv in V5.
  destruct (snd (received is (snd r))); [destruct V5 as [-> _]|rewrite V5]; rewrite andb_false_r; reflexivity.
Qed.

Lemma out_stable c s i b : ti_rst i = false -> ti_mready i = false -> to_m (snd (tc_step c s i)) = Some b ->
  forall i', to_m (snd (tc_step c (fst (tc_step c s i)) i')) = Some b.
Proof.
  intros HR HM H i'. rewrite step_eq in H. cbn [snd to_m] in H. rewrite !step_eq. cbn [fst snd to_m x_skid]. rewrite HR, HM.
  unfold oskid_step. rewrite H. cbn [isnone orb andb]. destruct (k_rdy (x_skid s)); cbn [k_out]; exact H || reflexivity.
Qed.

(* ----- after a reset ----- *)
Lemma after_reset c m1 m2 m3 m4 pre i is : goodl c -> tc_init c = true -> ti_rst i = true -> inputs_ok is ->
  let s := fst (tc_run c m1 m2 m3 m4 (pre ++ [i])) in
  let os := snd (trace (tc_step c) s is) in
  exists Fs rest, Forall2 (sent_as c) (fst (received is os)) Fs /\ concat Fs = sent is os ++ rest.
Proof.
  intros HL HT HR HI s os.
  assert (Q : quiet c s).
  { unfold s, tc_run. rewrite trace_app. pose proof (wfs_run c pre _ (quiet_wfs c _ (init_quiet c m1 m2 m3 m4))) as W.
    destruct (trace (tc_step c) (tc_init_st c m1 m2 m3 m4) pre) as [s1 o1]. cbn [trace fst] in *. pose proof (reset_quiet c s1 i W HR) as RQ.
    destruct (tc_step c s1 i). exact RQ. }
  destruct (II_run c (x_acc s) HL (or_introl HT) is s ([], None) [] [] [] [] HI (quiet_II c s HL Q)) as (Tk & CL & DL & H).
  exact (II_order c _ _ _ _ _ _ _ H).
Qed.

(* everything sent, none begun: the accumulator is zero *)
Lemma all_sent_acc c s g out Tk CL DL : goodl c -> II c 0 s g out Tk CL DL -> snd g = None -> length out = nbeats (fst g) ->
  x_acc s = 0%Z /\ pt (x_stages s) = [].
Proof.
  intros HL H EC EO. destruct (np_oinv c s 0 g out Tk CL DL H) as [N1 N2]. rewrite app_length in N1.
  pose proof H as [F (V1 & V2 & D1 & Fs & pre & P & O1 & O2 & O3 & O4)].
  assert (NB : length (allbeats (fst g) (snd g)) = nbeats (fst g)) by (unfold allbeats; rewrite EC, app_nil_r; reflexivity).
  assert (DL = []) as -> by (destruct DL; auto; cbn [length] in N2; lia).
  apply (f_equal (@length beat)) in O3. rewrite app_nil_r, !map_length, app_length in O3. rewrite NB in O3. fold (nbeats D1) in O3.
  pose proof (v_D _ _ _ _ _ _ _ F) as VD.
  assert (D1 = fst g /\ Tk = map (fword c) (fst g)) as [E1 E2].
  { destruct (x_frame s).
    - exfalso. destruct O4 as (f & D2 & suf & Q1 & Q2 & Q3 & _). rewrite Q1, nbeats_app, nbeats_cons, Q2, app_length in *. destruct suf; [congruence|]. cbn [length] in *. lia.
    - destruct O4 as (D2 & Q1 & -> & -> & Q4). rewrite Q1 in VD. apply Forall_app in VD. destruct VD as [_ VD].
      assert (D2 = []) as ->.
      { destruct D2 as [|f D2]; auto. exfalso. apply Forall_cons_iff in VD. destruct VD as [Vf _]. apply complete_pos in Vf. rewrite Q1, nbeats_app, nbeats_cons in *. cbn [length] in *. lia. }
      rewrite app_nil_r in Q1. rewrite Q1. auto. }
  destruct F as [_ _ V3 V4 _ (X & W & P1 & P2 & P3) _ _ _ _]. rewrite EC in *. rewrite E2 in P3.
  assert (G : trun c 0 (alltoks c (fst g) None) = (0%Z, map (fword c) (fst g))).
  { unfold alltoks. cbn [ctoks]. rewrite app_nil_r. clear - HL V3. induction V3 as [|f D Hf HD IH]; [reflexivity|]. cbn [map concat]. rewrite trun_app, run_frame by auto. cbn [fst snd]. rewrite IH. reflexivity. }
  assert (PT : pt (x_stages s) = []).
  { destruct (pt (x_stages s)) as [|k l] eqn:EP; auto. exfalso. destruct (@exists_last _ (k :: l) ltac:(discriminate)) as (l' & z & EL). rewrite EL in P1.
    assert (LZ : k_last z = true).
    { unfold alltoks in P1. cbn [ctoks] in P1. rewrite app_nil_r in P1. clear - P1 V3. destruct (fst g) as [|f D] using rev_ind; [destruct X; [destruct l'|]; discriminate|].
      apply Forall_app in V3. destruct V3 as [_ V3]. apply Forall_cons_iff in V3. destruct V3 as [(_ & pre & b & EB & _ & LB) _].
      rewrite map_app, concat_app in P1. cbn [map concat] in P1. rewrite app_nil_r in P1. unfold ftoks in P1 at 2. rewrite EB, btoks_app in P1. cbn [btoks] in P1.
      rewrite !app_assoc in P1. apply app_inj_tail in P1. destruct P1 as [_ <-]. exact LB. }
    rewrite P1, trun_app, P2 in G. cbn [fst snd] in G. apply (f_equal snd) in G. cbn [snd] in G. rewrite trun_app in G. cbn [fst snd trun] in G. rewrite LZ in G.
    apply (f_equal (@length Z)) in G. rewrite P3, !app_length in G. cbn [length] in G. lia. }
  rewrite PT, app_nil_r in P1. rewrite <- P1, G in P2. split; [congruence|exact PT].
Qed.

Lemma pt_nil l : pt l = [] -> Forall (fun st => ts_valid st = false) l.
Proof.
  induction l as [|s l IH]; intros H; constructor; cbn [pt] in H; apply app_eq_nil in H; destruct H as [H1 H2]; auto.
  unfold vt in H2. destruct (ts_valid s); [discriminate|reflexivity].
Qed.

Lemma clean_reset c m1 m2 m3 m4 pre i is : goodl c -> inputs_ok pre -> ti_rst i = true -> inputs_ok is ->
  let r := tc_run c m1 m2 m3 m4 pre in
  snd (received pre (snd r)) = None -> length (sent pre (snd r)) = nbeats (fst (received pre (snd r))) ->
  let s := fst (tc_run c m1 m2 m3 m4 (pre ++ [i])) in
  let os := snd (trace (tc_step c) s is) in
  exists Fs rest, Forall2 (sent_as c) (fst (received is os)) Fs /\ concat Fs = sent is os ++ rest.
Proof.
  intros HL HP HR HI r EC EO s os. destruct (run_II c m1 m2 m3 m4 pre HL HP) as (Tk & CL & DL & H).
  destruct (all_sent_acc c _ _ _ _ _ _ HL H EC EO) as [A PT]. apply pt_nil in PT.
  assert (Q : quiet c s /\ x_acc s = 0%Z).
  { unfold s, tc_run. rewrite trace_app. pose proof (wfs_run c pre _ (quiet_wfs c _ (init_quiet c m1 m2 m3 m4))) as W. unfold tc_run in A, PT.
    destruct (trace (tc_step c) (tc_init_st c m1 m2 m3 m4) pre) as [s1 o1]. cbn [trace fst] in *. pose proof (reset_quiet c s1 i W HR) as RQ.
    assert (x_acc (fst (tc_step c s1 i)) = 0%Z).
    { rewrite step_eq. cbn [fst x_acc]. unfold go. assert (ts_valid (topst s1) = false) as ->; [|exact A].
      unfold topst. clear - PT. induction (x_stages s1) as [|a [|b l] IH]; [reflexivity|inversion PT; auto|]. apply IH. inversion PT; auto. }
    destruct (tc_step c s1 i). split; [exact RQ|exact H0]. }
  destruct Q as [Q QA]. pose proof (quiet_II c s HL Q) as QI. rewrite QA in QI.
  destruct (II_run c 0 HL (or_intror eq_refl) is s ([], None) [] [] [] [] HI QI) as (T2 & C2 & D2 & H2).
  exact (II_order c _ _ _ _ _ _ _ H2).
Qed.
