(** Frame mode of the stream FIFO: every frame is kept whole or dropped whole. *)
From Verif Require Import Base.Prelude Base.Bits Rtl.Handshake_spec Rtl.Handshake_proof
  Stream.Axis_model Stream.Axis_spec Stream.Axis_proof Stream.Fifo_model Stream.Fifo_spec Stream.Fifo_ring
  Stream.Fifo_proof Stream.Fifo_hist_proof Stream.Fifo_live_proof.
Local Open Scope nat_scope.

Lemma some_bit x : x <> 0%Z -> exists n, (0 <= n)%Z /\ Z.testbit x n = true.
Proof.
  intros H. destruct (Z_lt_le_dec x 0) as [Hn|Hp].
  - exists (Z.log2 (Z.pred (- x)) + 1)%Z. pose proof (Z.log2_nonneg (Z.pred (- x))). split; [lia|].
    apply Z.bits_above_log2_neg; lia.
  - exists (Z.log2 x). split; [apply Z.log2_nonneg|]. apply Z.bit_log2. lia.
Qed.

Lemma bad_user_iff c b : bad_user c b = true <-> marked_bad c b.
Proof.
  unfold bad_user, marked_bad. rewrite negb_true_iff, Z.eqb_neq. split.
  - intros H. destruct (some_bit H) as (n & Hn & Hb). exists n. split; auto.
    rewrite Z.land_spec, Z.lnot_spec, Z.lxor_spec in Hb by auto.
    apply andb_true_iff in Hb. destruct Hb as [H1 H2]. split; auto.
    destruct (Z.testbit (tuser b) n), (Z.testbit (f_badv c) n); cbn in H2; congruence.
  - intros (n & Hn & H1 & H2) E. apply (f_equal (fun x => Z.testbit x n)) in E.
    rewrite Z.land_spec, Z.lnot_spec, Z.lxor_spec, H1, H2, xorb_nilpotent, Z.bits_0 in E by auto. discriminate.
Qed.

Section Frame.
  Variable c : fcfg.
  Hypothesis Hf : f_frame c = true.
  Hypothesis Hd : f_drop_over c = true.
  Notation M := (2 ^ f_aw c).
  Notation P := (present (f_ax c)).

  Definition dropping (s : fifo) (U : list beat) (Q : list beat) : bool :=
    ((length Q + length U =? M) && f_drop_full c) || (length U =? M) || w_drop (z_w s).

  Definition flags_of (s : fifo) : option fate * bool * bool :=
    (pulse (view c s), w_drop (z_w s), w_mark (z_w s)).

  (** What one cycle does on the write side. *)
  Inductive fcase (s : fifo) (i : fin) (Q U : list beat) : action -> option fate * bool * bool -> Prop :=
  | fc_idle : sready c (z_w s) (z_rd s) && x_v i = false -> fcase s i Q U Keep (None, w_drop (z_w s), w_mark (z_w s))
  | fc_over : sready c (z_w s) (z_rd s) && x_v i = true -> dropping s U Q = true -> tlast (x_b i) = true ->
      fcase s i Q U Rollback (Some Over, false, w_mark (z_w s))
  | fc_skip : sready c (z_w s) (z_rd s) && x_v i = true -> dropping s U Q = true -> tlast (x_b i) = false ->
      fcase s i Q U Keep (None, true, w_mark (z_w s))
  | fc_bad : sready c (z_w s) (z_rd s) && x_v i = true -> dropping s U Q = false -> tlast (x_b i) = true ->
      f_drop_bad c = true -> bad_user c (x_b i) = true ->
      fcase s i Q U Scratch (Some Bad, false, w_mark (z_w s))
  | fc_good : sready c (z_w s) (z_rd s) && x_v i = true -> dropping s U Q = false -> tlast (x_b i) = true ->
      (f_drop_bad c = true -> bad_user c (x_b i) = false) ->
      fcase s i Q U PushCommit (Some Good, false, w_mark (z_w s))
  | fc_push : sready c (z_w s) (z_rd s) && x_v i = true -> dropping s U Q = false -> tlast (x_b i) = false ->
      fcase s i Q U Push (None, false, w_mark (z_w s)).

  Lemma frame_case s i Q U O : x_rst i = false -> inv c s Q U O ->
    fcase s i Q U (act c s i) (flags_of (fst (f_step c s i))).
  Proof.
    intros Hr HI. unfold flags_of. rewrite f_step_next by auto. cbn [z_w view].
    unfold act, wact, act_of, w_step, view, pulse. cbn [z_w y_ovf y_bad y_good]. rewrite Hf, Hd. cbn [negb andb].
    set (xf := sready c (z_w s) (z_rd s) && x_v i).
    assert (Ed : dropping s U Q = pfull (f_aw c) (w_wr (z_w s)) (z_rd s) && f_drop_full c
      || pfull (f_aw c) (w_wr (z_w s)) (w_cm (z_w s)) && true || w_drop (z_w s)).
    { unfold dropping. rewrite (ring_full (iv_ring HI)), (ring_full_wr (iv_ring HI)), depth_nat, andb_true_r.
      f_equal. f_equal.
      - f_equal. destruct (Nat.eqb_spec (length Q + length U) M), (Z.eqb_spec (Z.of_nat (length Q) + Z.of_nat (length U)) (Z.of_nat M)); auto; lia.
      - destruct (Nat.eqb_spec (length U) M), (Z.eqb_spec (Z.of_nat (length U)) (Z.of_nat M)); auto; lia. }
    rewrite <- Ed.
    destruct xf eqn:Ex.
    - destruct (dropping s U Q) eqn:Edr.
      + destruct (tlast (x_b i)) eqn:El; cbn [w_ovf w_bad w_good w_drop w_mark].
        * apply fc_over; auto.
        * apply fc_skip; auto.
      + assert (Hwd : w_drop (z_w s) = false).
        { unfold dropping in Edr. destruct (w_drop (z_w s)); auto. rewrite orb_true_r in Edr. discriminate. }
        destruct (tlast (x_b i)) eqn:El; cbn [orb andb].
        * destruct (f_drop_bad c && bad_user c (x_b i)) eqn:Eb; cbn [w_ovf w_bad w_good w_drop w_mark]; rewrite Hwd.
          -- apply andb_true_iff in Eb. destruct Eb. apply fc_bad; auto.
          -- apply fc_good; auto. intros Hb. rewrite Hb in Eb. exact Eb.
        * cbn [w_ovf w_bad w_good w_drop w_mark]. rewrite Hwd. apply fc_push; auto.
    - rewrite andb_false_r. cbn [w_ovf w_bad w_good w_drop w_mark]. apply fc_idle; auto.
  Qed.

  Definition why (os : list fout) (part : list beat) : Prop :=
    M < length part \/ (f_drop_full c = true /\ exists o, In o os /\ y_depth o = Z.of_nat M).

  Definition Iframe (A D : list beat) (F : list fout) (s : fifo) : Prop :=
    exists Q U O fs part,
      inv c s Q U O /\ w_mark (z_w s) = false /\
      A = concat (map fst fs) ++ part /\
      Forall (fun p => is_frame (fst p)) fs /\ Forall (fun b => tlast b = false) part /\
      D ++ content c s Q O = map P (concat (with_fate Good fs)) /\
      pulses (F ++ [view c s]) = map snd fs /\
      Forall (justified c (F ++ [view c s])) fs /\
      (if w_drop (z_w s) then why (F ++ [view c s]) part else U = part).

  Lemma justified_mono F v p : justified c F p -> justified c (F ++ [v]) p.
  Proof.
    unfold justified. destruct (snd p); auto. intros [H|(H & o & Ho & Hy)]; auto.
    right. split; auto. exists o. split; auto. apply in_or_app. auto.
  Qed.
  Lemma why_mono F v part x : why F part -> why (F ++ [v]) (part ++ x).
  Proof.
    unfold why. intros [H|(H & o & Ho & Hy)].
    - left. rewrite app_length. lia.
    - right. split; auto. exists o. split; auto. apply in_or_app. auto.
  Qed.

  Lemma depth_view s i Q U O : x_rst i = false -> inv c s Q U O ->
    y_depth (view c (fst (f_step c s i))) = Z.of_nat (length Q + length U).
  Proof.
    intros Hr HI. rewrite f_step_next by auto. unfold view. cbn [z_depth y_depth].
    destruct (ring_diff (iv_ring HI)) as [-> _]. lia.
  Qed.

  Lemma with_fate_app t a b : with_fate t (a ++ b) = with_fate t a ++ with_fate t b.
  Proof. unfold with_fate. rewrite filter_app, map_app. reflexivity. Qed.

  Lemma frame_close part b : Forall (fun b => tlast b = false) part -> tlast b = true -> is_frame (part ++ [b]).
  Proof. intros. exists part, b. auto. Qed.

  Lemma pulses_snoc F v : pulses (F ++ [v]) = pulses F ++ olist (pulse v).
  Proof. unfold pulses. rewrite map_app, somes_app. cbn. destruct (pulse v); reflexivity. Qed.

  Lemma last_inj (a : list beat) z part b : part ++ [b] = a ++ [z] -> z = b.
  Proof. intros H. apply app_inj_tail in H. destruct H; auto. Qed.

  Lemma frame_step A D F s i : x_rst i = false -> Iframe A D F s ->
    Iframe (A ++ olist (taken (sin_of i) (sout_of (snd (f_step c s i)))))
      (D ++ olist (given (sin_of i) (sout_of (snd (f_step c s i)))))
      (F ++ [snd (f_step c s i)]) (fst (f_step c s i)).
  Proof.
    intros Hr (Q & U & O & fs & part & HI & HM & HA & HF & HP & HD & HS & HJ & HW).
    pose proof (@inv_step c s i Q U O Hr HI) as HI'. pose proof (@content_step c s i Q U O Hr HI) as HC.
    pose proof (@frame_case s i Q U O Hr HI) as HK. pose proof (@depth_view s i Q U O Hr HI) as HV.
    pose proof (ring_bound (iv_ring HI)) as HB. rewrite depth_nat in HB.
    rewrite taken_eq. rewrite step_view in *. unfold nU, sb in *. rewrite (@stored_plain c _ (x_b i) HM) in *.
    set (s' := fst (f_step c s i)) in *.
    assert (HD' : (D ++ olist (given (sin_of i) (sout_of (view c s)))) ++ content c s' (nQ c s i Q U) (nO c s i O)
                  = map P (concat (with_fate Good fs)) ++ map P (dQ (act c s i) U (x_b i))).
    { rewrite <- app_assoc, <- HC, app_assoc, HD. reflexivity. }
    assert (HS' : pulses ((F ++ [view c s]) ++ [view c s']) = map snd fs ++ olist (pulse (view c s')))
      by (rewrite pulses_snoc, HS; reflexivity).
    assert (HJ' : Forall (justified c ((F ++ [view c s]) ++ [view c s'])) fs)
      by (eapply Forall_impl; [|exact HJ]; intros; apply justified_mono; assumption).
    assert (HW' : dropping s U Q = true -> why ((F ++ [view c s]) ++ [view c s']) (part ++ [x_b i])).
    { unfold dropping. intros Hdr. destruct (w_drop (z_w s)) eqn:Ewd; [apply why_mono; auto|].
      rewrite orb_false_r in Hdr. apply orb_true_iff in Hdr. destruct Hdr as [Hdr|Hdr].
      - apply andb_true_iff in Hdr. destruct Hdr as [H1 H2]. apply Nat.eqb_eq in H1.
        right. split; auto. exists (view c s'). split; [apply in_or_app; right; left; auto|]. rewrite HV, H1. reflexivity.
      - apply Nat.eqb_eq in Hdr. left. subst part. rewrite app_length. cbn. lia. }
    assert (HN : dropping s U Q = false -> w_drop (z_w s) = false /\ length U < M).
    { unfold dropping. intros H. apply orb_false_iff in H. destruct H as [H ->]. apply orb_false_iff in H.
      destruct H as [_ H]. apply Nat.eqb_neq in H. split; auto. lia. }
    unfold flags_of in HK. fold s' in HK.
    remember (pulse (view c s'), w_drop (z_w s'), w_mark (z_w s')) as fl eqn:Efl.
    remember (act c s i) as a eqn:Ea.
    unfold Iframe.
    destruct HK as [Hx|Hx Hdr Hl|Hx Hdr Hl|Hx Hdr Hl Hb1 Hb2|Hx Hdr Hl Hb|Hx Hdr Hl]; rewrite Hx in *;
      inversion Efl as [[E1 E2 E3]]; clear Efl; rewrite <- E1 in HS'; cbn [olist dQ dU map] in *; rewrite ?app_nil_r in *.
    - exists (nQ c s i Q U), U, (nO c s i O), fs, part. rewrite <- ?E2, <- ?E3. splits; auto.
      destruct (w_drop (z_w s)); auto. rewrite <- (app_nil_r part). apply why_mono. auto.
    - exists (nQ c s i Q U), [], (nO c s i O), (fs ++ [(part ++ [x_b i], Over)]), []. rewrite <- ?E2, <- ?E3.
      rewrite !map_app, concat_app, with_fate_app. cbn [map fst snd concat with_fate filter]. rewrite !app_nil_r.
      splits; auto.
      + rewrite HA, <- app_assoc. reflexivity.
      + apply Forall_app. split; auto. constructor; auto. apply frame_close; auto.
      + apply Forall_app. split; auto. constructor; auto. cbn. apply HW'. auto.
    - exists (nQ c s i Q U), U, (nO c s i O), fs, (part ++ [x_b i]). rewrite <- ?E2, <- ?E3. splits; auto.
      + rewrite HA, <- app_assoc. reflexivity.
      + apply Forall_app. split; auto.
    - destruct (HN Hdr) as [N1 N2]. rewrite N1 in HW. subst U.
      exists (nQ c s i Q part), [], (nO c s i O), (fs ++ [(part ++ [x_b i], Bad)]), []. rewrite <- ?E2, <- ?E3.
      rewrite !map_app, concat_app, with_fate_app. cbn [map fst snd concat with_fate filter]. rewrite !app_nil_r.
      splits; auto.
      + rewrite HA, <- app_assoc. reflexivity.
      + apply Forall_app. split; auto. constructor; auto. apply frame_close; auto.
      + apply Forall_app. split; auto. constructor; auto. unfold justified. cbn [fst snd]. rewrite app_length. cbn [length].
        splits; auto; [clear - N2; lia|]. intros a0 z Hz. rewrite (@last_inj _ _ _ _ Hz). apply bad_user_iff. auto.
    - destruct (HN Hdr) as [N1 N2]. rewrite N1 in HW. subst U.
      exists (nQ c s i Q part), [], (nO c s i O), (fs ++ [(part ++ [x_b i], Good)]), []. rewrite <- ?E2, <- ?E3.
      rewrite !map_app, concat_app, with_fate_app. cbn [map fst snd concat with_fate filter]. rewrite !app_nil_r.
      splits; auto.
      + rewrite HA, <- app_assoc. reflexivity.
      + apply Forall_app. split; auto. constructor; auto. apply frame_close; auto.
      + rewrite ?concat_app. cbn [concat app]. rewrite ?app_nil_r, map_app. exact HD'.
      + apply Forall_app. split; auto. constructor; auto. unfold justified. cbn [fst snd]. rewrite app_length. cbn [length].
        splits; auto; [clear - N2; lia|]. intros Hb' a0 z Hz. rewrite (@last_inj _ _ _ _ Hz), <- bad_user_iff, Hb by auto. discriminate.
    - destruct (HN Hdr) as [N1 N2]. rewrite N1 in HW. subst U.
      exists (nQ c s i Q part), (part ++ [x_b i]), (nO c s i O), fs, (part ++ [x_b i]). rewrite <- ?E2, <- ?E3. splits; auto.
      + rewrite HA, <- app_assoc. reflexivity.
      + apply Forall_app. split; auto.
  Qed.

  Lemma fresh_view s : fresh c s -> pulse (view c s) = None.
  Proof. intros H. unfold pulse, view. cbn. rewrite (fr_ovf H), (fr_bad H), (fr_good H). reflexivity. Qed.

  Lemma frame_run s is : started c s -> no_reset is ->
    Iframe (got is (outs c s is)) (sent is (outs c s is)) (outs c s is) (after c s is).
  Proof.
    intros Hs Hr. apply (@hist c Iframe frame_step is [] [] [] s Hr). apply started_fresh in Hs.
    exists [], [], [], [], []. splits; auto.
    - apply (fr_inv Hs).
    - apply (fr_mark Hs).
    - rewrite (fresh_content Hs). reflexivity.
    - cbn [app]. unfold pulses. cbn [map]. rewrite (fresh_view Hs). reflexivity.
    - rewrite (fr_drop Hs). auto.
  Qed.

  Lemma run_pinv s is : started c s -> no_reset is -> pinv c (after c s is).
  Proof. intros Hs Hr. apply pinv_run; auto. apply fresh_pinv. apply started_fresh. auto. Qed.

  Lemma frame_top s is j : started c s -> no_reset is ->
    let os := outs c s (is ++ [j]) in
    exists fs part rest,
      got is os = concat (map fst fs) ++ part /\
      Forall (fun p => is_frame (fst p)) fs /\ Forall (fun b => tlast b = false) part /\
      pulses os = map snd fs /\ Forall (justified c os) fs /\
      map P (concat (with_fate Good fs)) = sent is os ++ rest /\ length rest <= room c /\
      (forall tail, no_reset tail -> sinking tail -> silent tail -> S (drain_time c) <= length tail ->
        sent (is ++ tail) (outs c s (is ++ tail)) = map P (concat (with_fate Good fs))).
  Proof.
    intros Hs Hr os. unfold os. rewrite outs_snoc.
    rewrite got_more, sent_more by (symmetry; apply outs_length).
    destruct (frame_run Hs Hr) as (Q & U & O & fs & part & HI & HM & HA & HF & HP & HD & HS & HJ & HW).
    exists fs, part, (content c (after c s is) Q O). splits; auto.
    - pose proof (content_bound HI). lia.
    - intros tail Hrt Hk Hsi Hl. rewrite outs_app, sent_app by (rewrite outs_length; auto).
      rewrite (@drain_all c tail _ Q U O); auto using run_pinv. right; auto.
  Qed.
End Frame.

(** * Frame mode without dropping *)
Section NoDrop.
  Variable c : fcfg.
  Hypothesis Hok : fcfg_ok c = true.
  Hypothesis Hf : f_frame c = true.
  Hypothesis Hd : f_drop_over c = false.
  Notation P := (present (f_ax c)).

  Lemma nodrop_cfg : f_drop_bad c = false /\ f_drop_full c = false.
  Proof.
    unfold fcfg_ok in Hok. rewrite Hf, Hd in Hok.
    destruct (f_drop_bad c), (f_drop_full c), (last_en (f_ax c)), (f_mark c); cbn in Hok; auto; discriminate.
  Qed.

  Definition Inod (A D : list beat) (F : list fout) (s : fifo) : Prop :=
    exists Q U O, inv c s Q U O /\ w_mark (z_w s) = false /\ w_drop (z_w s) = false /\
      map P A = D ++ content c s Q O ++ map P U /\ Forall (fun b => tlast b = false) U /\
      pulses (F ++ [view c s]) = map (fun _ => Good) (filter tlast A).

  Lemma nodrop_step A D F s i : x_rst i = false -> Inod A D F s ->
    Inod (A ++ olist (taken (sin_of i) (sout_of (snd (f_step c s i)))))
      (D ++ olist (given (sin_of i) (sout_of (snd (f_step c s i)))))
      (F ++ [snd (f_step c s i)]) (fst (f_step c s i)).
  Proof.
    intros Hr (Q & U & O & HI & HM & HD & HE & HU & HS). destruct nodrop_cfg as [Hb Hfu].
    pose proof (@inv_step c s i Q U O Hr HI) as HI'. pose proof (@content_step c s i Q U O Hr HI) as HC.
    rewrite taken_eq. rewrite step_view in *. unfold nU, sb in *. rewrite (@stored_plain c _ (x_b i) HM) in *.
    set (s' := fst (f_step c s i)) in *.
    assert (HX : forall U' T, map P U ++ map P T = map P (dQ (act c s i) U (x_b i)) ++ map P U' ->
      map P (A ++ T) = (D ++ olist (given (sin_of i) (sout_of (view c s)))) ++
         content c s' (nQ c s i Q U) (nO c s i O) ++ map P U').
    { intros U' T E. rewrite map_app, HE, <- !app_assoc, E. rewrite (app_assoc (olist _)), <- HC, <- !app_assoc. reflexivity. }
    assert (HSv : pulses ((F ++ [view c s]) ++ [view c s']) = map (fun _ => Good) (filter tlast A) ++ olist (pulse (view c s')))
      by (rewrite pulses_snoc, HS; reflexivity).
    assert (Hflags : w_mark (z_w s') = false /\ w_drop (z_w s') = false /\
      pulse (view c s') = if sready c (z_w s) (z_rd s) && x_v i && tlast (x_b i) then Some Good else None).
    { unfold s'. rewrite f_step_next by auto. unfold view, pulse. cbn [z_w y_ovf y_bad y_good]. unfold w_step.
      rewrite Hf, Hd, Hb, Hfu, HD, HM, !andb_false_r, ?andb_true_r. cbn [orb andb negb].
      destruct (sready c (z_w s) (z_rd s) && x_v i).
      - destruct (tlast (x_b i)); cbn [orb andb].
        + cbn. auto.
        + destruct (pfull _ _ _ || w_send _); cbn; auto.
      - destruct (x_v i && _); cbn; auto. }
    destruct Hflags as (HM' & HD' & HP').
    assert (Ha : act c s i = if sready c (z_w s) (z_rd s) && x_v i
      then if tlast (x_b i) || (pfull (f_aw c) (w_wr (z_w s)) (w_cm (z_w s)) || w_send (z_w s)) then PushCommit else Push
      else if x_v i && pfull (f_aw c) (w_wr (z_w s)) (w_cm (z_w s)) then Commit else Keep).
    { unfold act, wact, act_of. rewrite Hf, Hd, Hb, Hfu, HD, !andb_false_r, ?andb_true_r. cbn [orb andb negb]. reflexivity. }
    destruct (sready c (z_w s) (z_rd s) && x_v i); cbn [andb olist] in *.
    - destruct (tlast (x_b i) || _) eqn:El; rewrite Ha in *; cbn [dQ dU] in *.
      + exists (nQ c s i Q U), [], (nO c s i O). splits; auto.
        * apply HX. rewrite map_app, app_nil_r. reflexivity.
        * rewrite HSv, HP', filter_app, map_app. f_equal. cbn [filter]. destruct (tlast (x_b i)); reflexivity.
      + apply orb_false_iff in El. destruct El as [El _].
        exists (nQ c s i Q U), (U ++ [x_b i]), (nO c s i O). splits; auto.
        * apply HX. cbn [map app]. rewrite map_app. reflexivity.
        * apply Forall_app. auto.
        * rewrite HSv, HP', El, filter_app, map_app. cbn [filter]. rewrite El. reflexivity.
    - destruct (x_v i && _); rewrite Ha in *; cbn [dQ dU] in *.
      + exists (nQ c s i Q U), [], (nO c s i O). splits; auto.
        rewrite HSv, HP', app_nil_r. cbn [olist]. rewrite app_nil_r. reflexivity.
      + exists (nQ c s i Q U), U, (nO c s i O). splits; auto.
        * apply HX. cbn [map app]. rewrite app_nil_r. reflexivity.
        * rewrite HSv, HP', app_nil_r. cbn [olist]. rewrite app_nil_r. reflexivity.
  Qed.

  Lemma nodrop_run s is : started c s -> no_reset is ->
    Inod (got is (outs c s is)) (sent is (outs c s is)) (outs c s is) (after c s is).
  Proof.
    intros Hs Hr. apply (@hist c Inod nodrop_step is [] [] [] s Hr). apply started_fresh in Hs.
    exists [], [], []. splits; auto.
    - apply (fr_inv Hs).
    - apply (fr_mark Hs).
    - apply (fr_drop Hs).
    - rewrite (fresh_content Hs). reflexivity.
    - cbn [app]. unfold pulses. cbn [map]. rewrite (fresh_view Hs). reflexivity.
  Qed.

  Lemma nodrop_top s is j : started c s -> no_reset is ->
    let os := outs c s (is ++ [j]) in
    exists rest part,
      map P (got is os) = sent is os ++ rest ++ map P part /\
      length rest + length part <= room c /\
      Forall (fun b => tlast b = false) part /\
      pulses os = map (fun _ => Good) (filter tlast (got is os)) /\
      (forall tail, no_reset tail -> sinking tail -> silent tail -> S (drain_time c) <= length tail ->
        map P (got is os) = sent (is ++ tail) (outs c s (is ++ tail)) ++ map P part).
  Proof.
    intros Hs Hr os. unfold os. rewrite outs_snoc.
    rewrite got_more, sent_more by (symmetry; apply outs_length).
    destruct (nodrop_run Hs Hr) as (Q & U & O & HI & HM & HD & HE & HU & HS).
    exists (content c (after c s is) Q O), U. splits; auto.
    - apply (content_bound HI).
    - intros tail Hrt Hk Hsi Hl. rewrite outs_app, sent_app by (rewrite outs_length; auto).
      rewrite (@drain_all c tail _ Q U O); auto using run_pinv.
      + rewrite HE, app_assoc. reflexivity.
      + right; auto.
  Qed.
End NoDrop.

(** * Draining and accepting, normal mode and all modes *)
Lemma norm_drain c s is tail : f_frame c = false -> f_mark c = false -> started c s -> no_reset is ->
  no_reset tail -> sinking tail -> silent tail -> S (drain_time c) <= length tail ->
  sent (is ++ tail) (outs c s (is ++ tail)) = map (present (f_ax c)) (got is (outs c s is)).
Proof.
  intros Hf Hm Hs Hr Hrt Hk Hsi Hl. destruct (norm_run Hf Hm Hs Hr) as (Q & O & HI & HM & HE).
  rewrite outs_app, sent_app by (rewrite outs_length; auto).
  rewrite (@drain_all c tail _ Q [] O); auto using run_pinv. right; auto.
Qed.

Lemma run_inv c is : forall s Q U O, (f_frame c = false -> U = []) -> inv c s Q U O -> no_reset is ->
  exists Q' U' O', inv c (after c s is) Q' U' O' /\ (f_frame c = false -> U' = []).
Proof.
  induction is as [|i is IH]; intros s Q U O HU HI Hr; [exists Q, U, O; auto|].
  inversion Hr as [|? ? R1 Hr1]; subst. rewrite after_cons.
  eapply IH; [|apply inv_step; eauto|auto].
  intros Hf. unfold nU, act, wact, act_of. rewrite Hf, (HU Hf).
  repeat match goal with |- context [if ?b then _ else _] => destruct b end; reflexivity.
Qed.

Lemma accept_top c s is b tail : started c s -> no_reset (is ++ tail) -> sinking tail -> offering b tail ->
  S (S (drain_time c)) <= length tail ->
  exists t o, nth_error (outs c s (is ++ tail)) (length is + t) = Some o /\ y_sready o = true.
Proof.
  intros Hs Hr Hk Ho Hl. apply Forall_app in Hr. destruct Hr as [Hr1 Hr2].
  pose proof (fr_inv (started_fresh Hs)) as HI.
  destruct (@run_inv c is s [] [] [] (fun _ => eq_refl) HI Hr1) as (Q & U & O & HI2 & HU).
  destruct (@accept_all c b tail _ Q U O HI2) as (t & o & Ht & Hy); auto using run_pinv.
  exists t, o. split; auto. rewrite outs_app, nth_error_app2, outs_length by (rewrite outs_length; lia).
  replace (length is + t - length is) with t by lia. exact Ht.
Qed.

Lemma stable_top c s is : f_pause c = false -> started c s -> no_reset is ->
  stable_output (map sin_of is) (map sout_of (outs c s is)).
Proof. intros Hp Hs Hr. eapply fifo_stable; eauto. apply (fr_inv (started_fresh Hs)). Qed.

Lemma one_pulse_top c s is : started c s -> no_reset is -> Forall one_pulse (outs c s is).
Proof.
  intros Hs Hr. apply started_fresh in Hs.
  assert (H0 : one_pulse (view c s)).
  { unfold one_pulse, view. cbn. rewrite (fr_ovf Hs), (fr_bad Hs). splits; intros [? ?]; discriminate. }
  clear Hs. revert s H0. induction is as [|i is IH]; intros s H0; [constructor|].
  inversion Hr as [|? ? R1 Hr1]; subst. rewrite outs_cons, step_view. constructor; auto. apply IH; auto.
  rewrite f_step_next by auto. unfold one_pulse, view. cbn [z_w y_ovf y_bad y_good]. unfold w_step.
  repeat match goal with |- context [if ?b then mkW _ _ _ _ _ _ _ _ _ _ else _] => destruct b end;
    cbn; splits; intros [? ?]; discriminate.
Qed.
