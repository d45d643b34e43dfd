(** The transmit checksum unit: runs. *)
From Verif Require Import Base.Prelude Base.Bits Rtl.Handshake_spec Rtl.Handshake_proof Stream.Axis_model Stream.Fifo_model
  Stream.Axis_proof Stream.Plain_proof Net.Codec_spec
  Nic.RxCsum_model Nic.RxCsum_spec Nic.RxCsum_proof Nic.TxCsum_model Nic.TxCsum_spec Nic.TxCsumSum_proof Nic.TxCsum_proof.
Local Open Scope nat_scope.
#[local] Unset Implicit Arguments.

Definition ninputs (i : tin) : Prop := ti_rst i = false /\ forall m, ti_cmd i = Some m -> cmd_ok m.
Definition II (c : tccfg) (a0 : Z) (s : tcst) (g : list frame * option frame) (out : list beat) (Tk : list Z) (CL DL : list beat) : Prop :=
  finv c s a0 (fst g) (snd g) Tk CL /\ oinv c s (fst g) (snd g) Tk DL out.

Lemma feed_eq c s i g : feed g (i, snd (tc_step c s i)) = feed1 (fst g) (snd g) (im c s i) (ib c s i).
Proof.
  rewrite step_eq. unfold feed, feed1, cmd_taken, beat_taken. cbn [fst snd to_cmdready to_sready]. fold (im c s i). fold (ib c s i).
  destruct g as [D C]. cbn [fst snd]. destruct (im c s i); [reflexivity|]. destruct (ib c s i), C; reflexivity.
Qed.
Definition Tk' c s Tk : list Z := Tk ++ match wpop c s with Some w => [tdata w] | None => [] end.
Definition CL' c s (CL : list beat) : list beat := (match wpop c s with Some _ => tl CL | None => CL end) ++ (if x_civ s then [present cax (wbeat (x_ci s))] else []).
Definition DL' c s i (DL : list beat) : list beat := (match dpop c s with Some _ => tl DL | None => DL end) ++ map (present (dax c)) (olist (ib c s i)).
Definition gv c s i : option beat := beat_given i (snd (tc_step c s i)).

Lemma II_step c a0 s i g out Tk CL DL : goodl c -> a0_ok c a0 -> ninputs i -> II c a0 s g out Tk CL DL ->
  II c a0 (fst (tc_step c s i)) (feed g (i, snd (tc_step c s i))) (out ++ olist (gv c s i)) (Tk' c s Tk) (CL' c s CL) (DL' c s i DL).
Proof.
  intros HL HA [HR HM] [F O]. rewrite feed_eq. split.
  - exact (finv_step c s i a0 _ _ Tk CL HL HR HM F).
  - pose proof (oinv_step c s i a0 _ _ Tk CL DL out HL HA HR F O) as Q. unfold gv, beat_given. rewrite step_eq. cbn [snd to_m]. rewrite step_eq in Q. exact Q.
Qed.

Lemma II_run c a0 : goodl c -> a0_ok c a0 -> forall is s g out Tk CL DL, Forall ninputs is -> II c a0 s g out Tk CL DL ->
  exists T2 C2 D2, II c a0 (fst (trace (tc_step c) s is)) (fold_left feed (combine is (snd (trace (tc_step c) s is))) g)
     (out ++ sent is (snd (trace (tc_step c) s is))) T2 C2 D2.
Proof.
  intros HL HA. induction is as [|i is IH]; intros s g out Tk CL DL HI H.
  - exists Tk, CL, DL. cbn. rewrite app_nil_r. exact H.
  - apply Forall_cons_iff in HI. destruct HI as [Hi HI]. pose proof (II_step c a0 s i g out Tk CL DL HL HA Hi H) as H1.
    destruct (IH _ _ _ _ _ _ HI H1) as (T2 & C2 & D2 & H2). exists T2, C2, D2. cbn [trace]. unfold gv in H2.
    destruct (tc_step c s i) as [s1 o1] eqn:E1. cbn [fst snd] in *. destruct (trace (tc_step c) s1 is) as [s2 os] eqn:E2. cbn [fst snd combine fold_left] in *.
    unfold sent. cbn [combine map]. rewrite somes_cons. cbn [fst snd]. rewrite app_assoc. exact H2.
Qed.

Lemma feed_mono : forall ios g, exists E, fst (fold_left feed ios g) = fst g ++ E.
Proof.
  induction ios as [|[i o] ios IH]; intros g; cbn [fold_left].
  - exists []. rewrite app_nil_r. reflexivity.
  - destruct (IH (feed g (i, o))) as [E1 ->]. 
    assert (exists E2, fst (feed g (i, o)) = fst g ++ E2) as [E2 ->].
    { unfold feed. cbn [fst snd]. destruct (cmd_taken i o); [exists []; rewrite app_nil_r; reflexivity|].
      destruct (beat_taken i o) as [b|]; [|exists []; rewrite app_nil_r; reflexivity]. destruct (snd g); [|exists []; rewrite app_nil_r; reflexivity].
      destruct (tlast b); [eexists; reflexivity|exists []; rewrite app_nil_r; reflexivity]. }
    rewrite <- app_assoc. eexists. reflexivity.
Qed.

(* ----- states to start from ----- *)
Definition wfs (c : tccfg) (s : tcst) : Prop :=
  length (x_stages s) = tc_l c - 1 /\ (exists L, holdsp (tc_daw c) (dax c) (x_data s) L) /\ (exists L, holdsp (tc_caw c) cax (x_csum s) L).
Definition quiet (c : tccfg) (s : tcst) : Prop :=
  length (x_stages s) = tc_l c - 1 /\ Forall (fun st => ts_valid st = false) (x_stages s) /\ x_xfer s = false /\ x_civ s = false /\ x_frame s = false /\
  holdsp (tc_daw c) (dax c) (x_data s) [] /\ holdsp (tc_caw c) cax (x_csum s) [] /\ x_skid s = skid0.

Lemma quiet_II c s : goodl c -> quiet c s -> II c (x_acc s) s ([], None) [] [] [] [].
Proof.
  intros HL (Q1 & Q2 & Q3 & Q4 & Q5 & Q6 & Q7 & Q8).
  assert (PT : pt (x_stages s) = []).
  { clear - Q2. induction Q2 as [|st l H Q IH]; [reflexivity|]. cbn [pt]. rewrite IH. unfold vt. rewrite H. reflexivity. }
  assert (LF : map lf (x_stages s) = repeat false (length (x_stages s))).
  { clear - Q2. induction Q2 as [|st l H Q IH]; [reflexivity|]. cbn [map length repeat]. rewrite IH. unfold lf. rewrite H. reflexivity. }
  split; cbn [fst snd].
  - constructor; auto.
    + clear - Q2. generalize 0. induction Q2 as [|st l H Q IH]; intros n; cbn [soks]; [exact I|]. split; [|apply IH]. intros E. congruence.
    + intros f E. discriminate.
    + exists [], []. rewrite PT, Q4. splits; reflexivity.
    + unfold flags. rewrite LF, Q4. generalize (length (x_stages s)). induction n as [|n IH]; [exact I|].
      destruct n; cbn [repeat app]; apply sepl_cons; (split; [discriminate|]); [exact I|exact IH].
    + rewrite Q4. discriminate.
  - unfold oinv. rewrite Q5, Q8. splits; auto.
    + split; reflexivity.
    + exists [], [], [], []. splits; auto. exists []. splits; reflexivity.
Qed.

Lemma init_quiet c m1 m2 m3 m4 : quiet c (tc_init_st c m1 m2 m3 m4).
Proof.
  unfold quiet, tc_init_st. cbn [x_stages x_xfer x_civ x_frame x_data x_csum x_skid]. splits; auto.
  - apply repeat_length.
  - apply Forall_forall. intros st H. apply repeat_spec in H. subst. reflexivity.
  - apply (holdsp_init (tc_daw c) (dax c)).
  - apply (holdsp_init (tc_caw c) cax).
Qed.
Lemma quiet_wfs c s : quiet c s -> wfs c s.
Proof. intros (Q1 & Q2 & Q3 & Q4 & Q5 & Q6 & Q7 & Q8). unfold wfs. splits; eauto. Qed.

Lemma nstages_length c s i : length (nstages c s i) = length (x_stages s).
Proof. unfold nstages. destruct (x_stages s); cbn [length]; auto. rewrite next_length. reflexivity. Qed.

Lemma reset_quiet c s i : wfs c s -> ti_rst i = true -> quiet c (fst (tc_step c s i)).
Proof.
  intros (W1 & W2 & W3) HR. rewrite step_eq. unfold quiet. cbn [fst x_stages x_xfer x_civ x_frame x_data x_csum x_skid]. rewrite HR. splits; auto.
  - rewrite nstages_length. exact W1.
  - unfold nstages. rewrite HR. destruct (x_stages s) as [|h t]; constructor.
    + unfold stage0. destruct (ib c s i); reflexivity.
    + clear. revert h. generalize 1 as l. intros l h. revert l h. induction t as [|a t IH]; intros l h; cbn [stages_next]; constructor; auto.
      unfold stage_next. destruct (ts_valid h && ci_ready c s); reflexivity.
  - apply (holdsp_reset (tc_daw c) (dax c)); auto.
  - apply (holdsp_reset (tc_caw c) cax); auto.
Qed.
Lemma wfs_step c s i : wfs c s -> wfs c (fst (tc_step c s i)).
Proof.
  intros H. destruct (ti_rst i) eqn:HR; [apply quiet_wfs, reset_quiet; auto|].
  destruct H as (W1 & [L2 W2] & [L3 W3]). rewrite step_eq. unfold wfs. cbn [fst x_stages x_data x_csum]. splits.
  - rewrite nstages_length. exact W1.
  - eexists. apply (holdsp_step (tc_daw c) (dax c) _ _ (dfin c s i) W2 HR).
  - eexists. apply (holdsp_step (tc_caw c) cax _ _ (cfin s i) W3 HR).
Qed.
Lemma wfs_run c : forall is s, wfs c s -> wfs c (fst (trace (tc_step c) s is)).
Proof.
  induction is as [|i is IH]; intros s H; [exact H|]. cbn [trace]. pose proof (wfs_step c s i H) as H1. destruct (tc_step c s i) as [s1 o1]. cbn [fst] in H1.
  specialize (IH s1 H1). destruct (trace (tc_step c) s1 is). exact IH.
Qed.

(* ----- every frame has a form to be sent in ----- *)
Definition patch (c : tccfg) (f : frame) (n : nat) (d : Z) : Z :=
  let m := fr_cmd f in
  let p0 := (Z.to_nat (cm_off m) - n * tc_k c) in
  let p1 := (Z.to_nat (cm_off m) + 1 - n * tc_k c) in
  let d1 := if cm_en m && (n * tc_k c <=? Z.to_nat (cm_off m)) && (p0 <? tc_k c) then set_byte d (Z.of_nat p0) (checksum c f / 256) else d in
  if cm_en m && (n * tc_k c <=? Z.to_nat (cm_off m) + 1) && (p1 <? tc_k c) then set_byte d1 (Z.of_nat p1) (checksum c f mod 256) else d1.
Lemma patch_ok c f n b : cmd_ok (fr_cmd f) -> beat_as c f n b (set_data (present (dax c) b) (patch c f n (tdata b))).
Proof.
  intros HM. pose proof (checksum_range c f HM) as R. unfold beat_as. cbn [set_data tkeep tlast tid tdest tuser tdata present dax keep_en last_en id_en dest_en user_en].
  splits; auto. intros j. cbv zeta. unfold patch. cbv zeta.
  destruct HM as (_ & HO & _).
  assert (VH : (0 <= checksum c f / 256 < 256)%Z) by (split; [apply Z.div_pos; lia|apply Z.div_lt_upper_bound; lia]).
  pose proof (Z.mod_pos_bound (checksum c f) 256 ltac:(lia)) as VL.
  set (o := Z.to_nat (cm_off (fr_cmd f))). assert (EO : cm_off (fr_cmd f) = Z.of_nat o) by (unfold o; lia). rewrite EO. clearbody o.
  set (k := tc_k c). set (v := checksum c f) in *. clearbody v.
  destruct (cm_en (fr_cmd f)); cbn [andb]; [|reflexivity].
  assert (E1 : byte (if (n * k <=? o + 1) && (o + 1 - n * k <? k)
     then set_byte (if (n * k <=? o) && (o - n * k <? k) then set_byte (tdata b) (Z.of_nat (o - n * k)) (v / 256) else tdata b) (Z.of_nat (o + 1 - n * k)) (v mod 256)
     else if (n * k <=? o) && (o - n * k <? k) then set_byte (tdata b) (Z.of_nat (o - n * k)) (v / 256) else tdata b) j =
     if (n * k <=? o + 1) && (o + 1 - n * k <? k) && (j =? o + 1 - n * k) then (v mod 256)%Z
     else if (n * k <=? o) && (o - n * k <? k) && (j =? o - n * k) then (v / 256)%Z else byte (tdata b) j).
  { destruct ((n * k <=? o + 1) && (o + 1 - n * k <? k)), ((n * k <=? o) && (o - n * k <? k)); rewrite ?byte_set by lia; cbn [andb]; reflexivity. }
  rewrite E1. clear E1.
  destruct (Nat.ltb_spec j k); cbn [andb].
  - destruct (Z.eqb_spec (Z.of_nat (n * k + j)) (Z.of_nat o)).
    + assert (j =? o + 1 - n * k = false) as -> by (apply Nat.eqb_neq; lia). rewrite andb_false_r.
      assert (n * k <=? o = true) as -> by (apply Nat.leb_le; lia). assert (o - n * k <? k = true) as -> by (apply Nat.ltb_lt; lia). assert (j =? o - n * k = true) as -> by (apply Nat.eqb_eq; lia). reflexivity.
    + destruct (Z.eqb_spec (Z.of_nat (n * k + j)) (Z.of_nat o + 1)).
      * assert (n * k <=? o + 1 = true) as -> by (apply Nat.leb_le; lia). assert (o + 1 - n * k <? k = true) as -> by (apply Nat.ltb_lt; lia). assert (j =? o + 1 - n * k = true) as -> by (apply Nat.eqb_eq; lia). reflexivity.
      * destruct (Nat.leb_spec (n * k) (o + 1)), (Nat.leb_spec (n * k) o), (Nat.eqb_spec j (o + 1 - n * k)), (Nat.eqb_spec j (o - n * k)); cbn [andb]; rewrite ?andb_false_r; try reflexivity; try lia.
  - destruct (Nat.ltb_spec (o + 1 - n * k) k), (Nat.ltb_spec (o - n * k) k), (Nat.eqb_spec j (o + 1 - n * k)), (Nat.eqb_spec j (o - n * k)); cbn [andb]; rewrite ?andb_false_r; cbn [andb]; rewrite ?andb_false_r; try reflexivity; try lia.
Qed.
Lemma as_extend c f suf : cmd_ok (fr_cmd f) -> forall pre P, as_list c f pre P -> exists P', as_list c f (pre ++ suf) (P ++ P').
Proof.
  intros HM. induction suf as [|b suf IH]; intros pre P H.
  - exists []. rewrite !app_nil_r. exact H.
  - destruct (IH (pre ++ [b]) (P ++ [set_data (present (dax c) b) (patch c f (length pre) (tdata b))])) as [P' HP].
    + apply as_snoc; auto. apply patch_ok. exact HM.
    + exists (set_data (present (dax c) b) (patch c f (length pre) (tdata b)) :: P'). rewrite <- !app_assoc in HP. exact HP.
Qed.
Lemma frame_form c f : cmd_ok (fr_cmd f) -> exists F, sent_as c f F.
Proof. intros HM. destruct (as_extend c f (fr_beats f) HM [] []) as [P HP]; [split; [reflexivity|intros n ? ? N; destruct n; discriminate]|]. exists P. exact HP. Qed.
Lemma frames_form c D : Forall complete D -> exists Fs, Forall2 (sent_as c) D Fs.
Proof.
  induction 1 as [|f D [Hf _] HD [Fs IH]]; [exists []; constructor|]. destruct (frame_form c f Hf) as [F HF]. exists (F :: Fs). constructor; auto.
Qed.

Lemma II_order c a0 s g out Tk CL DL : II c a0 s g out Tk CL DL ->
  exists Fs rest, Forall2 (sent_as c) (fst g) Fs /\ concat Fs = out ++ rest.
Proof.
  intros [F (_ & _ & D1 & Fs & pre & P & O1 & O2 & O3 & O4)]. pose proof (v_D _ _ _ _ _ _ _ F) as VD.
  destruct (x_frame s).
  - destruct O4 as (f & D2 & suf & Q1 & Q2 & Q3 & Q4 & _). rewrite Q1 in VD |- *. apply Forall_app in VD. destruct VD as [_ VD]. apply Forall_cons_iff in VD. destruct VD as [[Vf _] VD].
    destruct (as_extend c f suf Vf pre P Q4) as [P' HP]. rewrite <- Q2 in HP. destruct (frames_form c D2 VD) as [F2 HF2].
    exists (Fs ++ (P ++ P') :: F2), (skid_content (x_skid s) ++ P' ++ concat F2). split.
    + apply Forall2_app; auto.
    + rewrite concat_app. cbn [concat]. rewrite (app_assoc out), O2, <- !app_assoc. reflexivity.
  - destruct O4 as (D2 & Q1 & -> & -> & _). rewrite Q1 in VD |- *. apply Forall_app in VD. destruct VD as [_ VD]. destruct (frames_form c D2 VD) as [F2 HF2].
    exists (Fs ++ F2), (skid_content (x_skid s) ++ concat F2). split.
    + apply Forall2_app; auto.
    + rewrite concat_app, app_assoc, O2, <- !app_assoc. reflexivity.
Qed.
