(** A frame FIFO without the output FIFO sends a frame without gaps. *)
From Verif Require Import Base.Prelude Base.Bits Rtl.Handshake_spec Rtl.Handshake_proof
  Stream.Axis_model Stream.Axis_spec Stream.Axis_proof Stream.Fifo_model Stream.Fifo_spec Stream.Fifo_ring
  Stream.Fifo_proof Stream.Fifo_hist_proof Stream.Fifo_live_proof Stream.Fifo_frame_proof.
Local Open Scope nat_scope.

(** Behind a beat that is not the last of its frame there is another one. *)
Fixpoint chain (l : list (option beat)) (ne : bool) : Prop :=
  match l with
  | [] => True
  | e :: t =>
      match e with
      | Some b => tlast b = false -> match t with [] => ne = true | p :: _ => p <> None end
      | None => True
      end /\ chain t ne
  end.

Lemma chain_snoc t x (ne ne' : bool) : chain t ne -> (ne = true -> x <> None) ->
  (forall b, x = Some b -> tlast b = false -> ne' = true) -> chain (t ++ [x]) ne'.
Proof.
  intros H Hx Hb. induction t as [|e t IH].
  - cbn. split; auto. destruct x as [b|]; auto. intros. eapply Hb; eauto.
  - destruct H as [H1 H2]. cbn [app chain]. split; auto.
    destruct e as [b|]; auto. intros Hl. specialize (H1 Hl). destruct t as [|p t]; cbn; auto.
Qed.

Lemma chain_pshift (adv : bool) l x (ne ne' : bool) : chain l ne ->
  (ne = true -> pipe_adv adv l = true -> x <> None) ->
  (pipe_adv adv l = false -> x = None /\ (ne = true -> ne' = true)) ->
  (forall b, x = Some b -> tlast b = false -> ne' = true) ->
  chain (pshift adv l x) ne'.
Proof.
  intros HC Hx Hn Hb. destruct l as [|e t]; [exact Logic.I|].
  destruct adv.
  - rewrite pshift_true. apply chain_snoc with (ne := ne); auto. apply HC.
  - unfold pipe_adv in *. cbn [orb] in *.
    revert e HC Hx Hn. induction t as [|p t IH]; intros e HC Hx Hn.
    + destruct e as [b|]; cbn in *.
      * split; auto. intros Hl. apply Hn; auto. apply HC. auto.
      * split; auto. destruct x as [b|]; auto. intros. eapply Hb; eauto.
    + destruct e as [b|].
      * cbn [existsb isnone orb] in *. change (pshift false (Some b :: p :: t) x) with (Some b :: pshift false (p :: t) x).
        destruct HC as [H1 H2]. cbn [chain]. split; [|apply IH; auto].
        intros Hl. specialize (H1 Hl). destruct p as [q|]; [|easy]. cbn. discriminate.
      * rewrite (pshift_none None), pshift_true. apply chain_snoc with (ne := ne); auto. apply HC.
Qed.

Section Gap.
  Variable c : fcfg.
  Hypothesis Hok : fcfg_ok c = true.
  Hypothesis Hf : f_frame c = true.
  Hypothesis Hd : f_drop_over c = true.
  Hypothesis Ho : f_ofifo c = false.
  Hypothesis Hp : f_pause c = true -> f_fpause c = true.

  Definition ends_last (Q : list beat) : Prop := forall a z, Q = a ++ [z] -> tlast z = true.
  Definition nonempty (Q : list beat) : bool := match Q with [] => false | _ => true end.

  Definition Igap (s : fifo) : Prop :=
    exists Q U O, inv c s Q U O /\ w_mark (z_w s) = false /\ ends_last Q /\ chain (z_pipe s) (nonempty Q).

  Lemma ends_last_app Q a : ends_last Q -> ends_last a -> ends_last (Q ++ a).
  Proof.
    intros H1 H2. destruct a as [|y a _] using rev_ind; [rewrite app_nil_r; auto|].
    intros u z E. rewrite app_assoc in E. apply app_inj_tail in E. destruct E as [_ <-]. eapply H2; eauto.
  Qed.
  Lemma ends_last_tl x Q : ends_last (x :: Q) -> ends_last Q.
  Proof. intros H a z E. eapply (H (x :: a)). rewrite E. reflexivity. Qed.

  Lemma nonempty_app a b : nonempty (a ++ b) = nonempty a || nonempty b.
  Proof. destruct a; auto. Qed.

  Lemma gap_step s i : x_rst i = false -> Igap s -> Igap (fst (f_step c s i)).
  Proof.
    intros Hr (Q & U & O & HI & HM & HL & HC).
    pose proof (@inv_step c s i Q U O Hr HI) as HI'.
    pose proof (@frame_case c Hf Hd s i Q U O Hr HI) as HK.
    assert (HM' : w_mark (z_w (fst (f_step c s i))) = false).
    { unfold flags_of in HK. inversion HK; congruence. }
    assert (HD : ends_last (dQ (act c s i) U (sb c s i))).
    { unfold sb. rewrite (@stored_plain c _ (x_b i) HM). unfold flags_of in HK.
      inversion HK; cbn [dQ]; try (intros [|? [|? ?]] ? E; discriminate).
      intros a z E. apply app_inj_tail in E. destruct E as [_ <-]. auto. }
    exists (nQ c s i Q U), (nU c s i U), (nO c s i O). splits; auto.
    - unfold nQ, nQr. apply ends_last_app; auto. destruct (takes c s i); auto. destruct Q; auto. eapply ends_last_tl; eauto.
    - rewrite f_step_next by auto. cbn [z_pipe]. fold (takenb c s i).
      assert (HT : takes c s i = pipe_adv (rdyp c s i) (z_pipe s) && nonempty Q).
      { unfold takes. rewrite (ring_empty (iv_ring HI)), Ho, andb_true_r. destruct Q; reflexivity. }
      apply chain_pshift with (ne := nonempty Q); auto.
      + intros H1 H2. unfold takenb. rewrite HT, H1, H2. discriminate.
      + intros H1. unfold takenb, nQ, nQr. rewrite HT, H1. cbn [andb]. split; auto.
        intros H2. rewrite nonempty_app, H2. reflexivity.
      + intros b Hb Hlast. unfold takenb in Hb. destruct (takes c s i) eqn:Et; [|discriminate].
        destruct (takes_head i HI Et) as (x & EQ & Em). rewrite Em in Hb. inversion Hb; subst x.
        unfold nQ, nQr. rewrite Et, nonempty_app. destruct (tl Q) as [|y q] eqn:E; [|reflexivity].
        rewrite H0 in EQ. rewrite (HL [] b EQ) in Hlast. discriminate.
  Qed.

  Lemma gap_next s i b : x_rst i = false -> Igap s -> x_mready i = true -> m_vis c s = Some b -> tlast b = false ->
    m_vis c (fst (f_step c s i)) <> None.
  Proof.
    intros Hr (Q & U & O & HI & HM & HL & HC) Hx Hm Hlast.
    pose proof (m_vis_unpaused _ _ Hm) as Hup.
    assert (Hup' : paused c (fst (f_step c s i)) = false).
    { rewrite f_step_next by auto. unfold paused in *. cbn [z_pause]. destruct (f_pause c) eqn:Ep; auto. cbn [andb] in *.
      unfold pause_step. rewrite (Hp eq_refl), Hx, Hm, Hlast. exact Hup. }
    unfold m_vis in *. rewrite Hup'. rewrite Hup in Hm. unfold m_out in *. rewrite Ho in *.
    rewrite f_step_next by auto. cbn [z_pipe]. fold (takenb c s i).
    assert (Hrdy : rdyp c s i = true) by (unfold rdyp, rdyo; rewrite Ho, Hx, Hup; reflexivity). rewrite Hrdy.
    pose proof (iv_len HI) as HLn. destruct (z_pipe s) as [|e t] eqn:Ep; [discriminate|].
    cbn [hd] in Hm. destruct e as [b0|]; [|discriminate]. cbn in Hm. inversion Hm; subst b. clear Hm.
    assert (Hle : last_en (f_ax c) = true).
    { unfold fcfg_ok in Hok. rewrite Hf in Hok. destruct (last_en (f_ax c)); auto. }
    unfold present in Hlast. cbn [tlast] in Hlast. rewrite Hle in Hlast.
    destruct HC as [H1 _]. specialize (H1 Hlast). rewrite pshift_true.
    destruct t as [|p t]; cbn [app hd].
    - unfold takenb, takes. rewrite Hrdy, (ring_empty (iv_ring HI)), Ho. unfold nonempty in H1.
      destruct Q; [discriminate|]. cbn. discriminate.
    - destruct p; [discriminate|easy].
  Qed.

  Lemma gap_top s is : started c s -> no_reset is -> no_gap is (outs c s is).
  Proof.
    intros Hs Hr. apply started_fresh in Hs.
    assert (H0 : Igap s).
    { exists [], [], []. splits; [apply (fr_inv Hs)|apply (fr_mark Hs)| |].
      - intros [|? [|? ?]] ? E; discriminate.
      - pose proof (fr_pipe Hs) as E. revert E. generalize (z_pipe s). clear.
        induction l as [|[b|] l IH]; intros E; [exact Logic.I|discriminate E|]. split; auto. }
    clear Hs. revert s H0. induction is as [|i is IH]; intros s H0.
    - intros t i o b H. destruct t; discriminate.
    - inversion Hr as [|? ? R1 Hr1]; subst. rewrite outs_cons.
      specialize (IH Hr1 _ (@gap_step s i R1 H0)).
      intros [|t] i0 o0 b H1 H2 H3 H4 H5 o' H6.
      + cbn in H1, H2. inversion H1; inversion H2; subst i0 o0. rewrite step_view in H4. cbn in H4, H6.
        destruct is as [|i' is']; [discriminate|]. rewrite outs_cons in H6. cbn in H6. inversion H6; subst.
        rewrite step_view. cbn. eapply gap_next; eauto.
      + exact (IH t i0 o0 b H1 H2 H3 H4 H5 o' H6).
  Qed.
End Gap.

(** * Pausing *)
Section Pause.
  Variable c : fcfg.
  Hypothesis Hf : f_fpause c = true.

  Definition Ipause (A D : list beat) (F : list fout) (s : fifo) : Prop :=
    exists Q U O, inv c s Q U O /\ pinv c s /\ (z_pframe s = true <-> mid_frame D).

  Lemma mid_snoc D b : mid_frame (D ++ [b]) <-> tlast b = false.
  Proof.
    split.
    - intros (a & z & E & Hz). apply app_inj_tail in E. destruct E as [_ ->]. auto.
    - intros H. exists D, b. auto.
  Qed.

  Lemma pause_istep A D F s i : x_rst i = false -> Ipause A D F s ->
    Ipause (A ++ olist (taken (sin_of i) (sout_of (snd (f_step c s i)))))
      (D ++ olist (given (sin_of i) (sout_of (snd (f_step c s i)))))
      (F ++ [snd (f_step c s i)]) (fst (f_step c s i)).
  Proof.
    intros Hr (Q & U & O & HI & HP & HM).
    exists (nQ c s i Q U), (nU c s i U), (nO c s i O). splits; auto using inv_step, pinv_step.
    rewrite step_view, f_step_next by auto. unfold given, sin_of, sout_of, view. cbn [i_mready o_m y_m z_pframe].
    unfold pause_step. rewrite Hf.
    destruct (x_mready i); [destruct (m_vis c s) as [b|]|]; cbn [olist].
    - rewrite mid_snoc. destruct (tlast b); cbn [snd]; split; auto; discriminate.
    - rewrite app_nil_r. exact HM.
    - rewrite app_nil_r. exact HM.
  Qed.

  Lemma pause_run s is : started c s -> no_reset is ->
    Ipause (got is (outs c s is)) (sent is (outs c s is)) (outs c s is) (after c s is).
  Proof.
    intros Hs Hr. apply (@hist c Ipause pause_istep is [] [] [] s Hr). apply started_fresh in Hs.
    exists [], [], []. splits; auto using fresh_pinv.
    - apply (fr_inv Hs).
    - rewrite (fr_pframe Hs). split; [discriminate|]. intros ([|? ?] & z & E & _); discriminate.
  Qed.

  Lemma pause_top s is j : started c s -> no_reset is -> mid_frame (sent is (outs c s is)) ->
    exists o, nth_error (outs c s (is ++ [j])) (length is) = Some o /\ y_pack o = false.
  Proof.
    intros Hs Hr Hm. destruct (pause_run Hs Hr) as (Q & U & O & HI & HP & HM). apply HM in Hm.
    exists (view c (after c s is)). rewrite outs_snoc, nth_error_app2, outs_length, Nat.sub_diag by (rewrite outs_length; auto).
    split; auto. unfold view. cbn [y_pack]. unfold paused. destruct (f_pause c) eqn:Ep; auto.
  Qed.

  Lemma mid_stable s is i j o o' b : started c s -> no_reset (is ++ [i]) -> mid_frame (sent is (outs c s is)) ->
    nth_error (outs c s (is ++ [i; j])) (length is) = Some o ->
    nth_error (outs c s (is ++ [i; j])) (S (length is)) = Some o' ->
    y_m o = Some b -> x_mready i = false -> y_m o' = Some b.
  Proof.
    intros Hs Hr Hm Ho Ho' Hb Hx. apply Forall_app in Hr. destruct Hr as [Hr Hi]. inversion Hi as [|? ? Hri _]; subst.
    destruct (pause_run Hs Hr) as (Q & U & O & HI & HP & HM). apply HM in Hm.
    rewrite outs_app, nth_error_app2, outs_length, Nat.sub_diag in Ho by (rewrite outs_length; auto).
    rewrite outs_app, nth_error_app2, outs_length, (Nat.sub_succ_l (length is) (length is)), Nat.sub_diag in Ho'
      by (rewrite ?outs_length; auto).
    rewrite !outs_cons, step_view in Ho, Ho'. cbn in Ho. inversion Ho; subst o. clear Ho.
    cbn [nth_error] in Ho'. rewrite step_view in Ho'. inversion Ho'; subst o'. clear Ho'.
    cbn [view y_m] in *. eapply out_held; eauto.
    rewrite f_step_next by auto. unfold paused. cbn [z_pause]. destruct (f_pause c) eqn:Ep; auto.
    cbn [andb]. unfold pause_step. rewrite Hf, Hx, Hm. cbn. apply HP; auto.
  Qed.
End Pause.
