(** Progress of the stream FIFO: a ready sink empties it, and it accepts again. *)
From Verif Require Import Base.Prelude Base.Bits Rtl.Handshake_spec Rtl.Handshake_proof
  Stream.Axis_model Stream.Axis_spec Stream.Axis_proof Stream.Fifo_model Stream.Fifo_spec Stream.Fifo_ring
  Stream.Fifo_proof Stream.Fifo_hist_proof.
Local Open Scope nat_scope.

(** Distance of the pipeline's beats from the output. *)
Fixpoint pw (k : nat) (l : list (option beat)) : nat :=
  match l with [] => 0 | None :: t => pw (S k) t | Some _ :: t => k + pw (S k) t end.

Lemma pw_S l : forall k, pw (S k) l = pw k l + length (somes l).
Proof.
  induction l as [|[b|] l IH]; intros k; auto; rewrite ?somes_cons; cbn [olist app length pw].
  - rewrite (IH (S k)). lia.
  - rewrite (IH (S k)). reflexivity.
Qed.

Lemma pw_app l x : forall k, pw k (l ++ [x]) = pw k l + (k + length l) * length (olist x).
Proof.
  induction l as [|[b|] l IH]; intros k; cbn [app pw length].
  - destruct x; cbn; lia.
  - rewrite IH. lia.
  - rewrite IH. lia.
Qed.

Lemma pw_bound l : forall k, pw k l <= (k + length l) * length l.
Proof. induction l as [|[b|] l IH]; intros k; cbn [pw length]; try specialize (IH (S k)); nia. Qed.

Section Live.
  Variable c : fcfg.
  Notation K := (f_pipe c + 5).

  Definition wt (s : fifo) (Q U O : list beat) : nat :=
    2 * ((if f_ofifo c then length (olist (q_out (z_q s))) + 2 * length O else 0)
         + pw 3 (z_pipe s) + K * length Q + (K + 1) * length U)
    + (if f_ofifo c && q_half (z_q s) then 1 else 0).

  (** [drain_time] bounds [wt] over all states. *)
  Notation wmax := (drain_time c).

  Lemma wt_bound s Q U O : inv c s Q U O -> wt s Q U O <= wmax.
  Proof.
    intros HI. pose proof (ring_bound (iv_ring HI)) as HB. rewrite depth_nat in HB.
    pose proof (iv_len HI) as HL. pose proof (pw_bound (z_pipe s) 3) as HP. rewrite HL in HP.
    pose proof (iv_o HI) as HO. unfold wt, drain_time.
    assert (H1 : (if f_ofifo c then length (olist (q_out (z_q s))) + 2 * length O else 0) <= 1 + 2 * 2 ^ ofaw c).
    { destruct (f_ofifo c); [|lia]. destruct HO as (HR & _). apply ring_bound in HR. rewrite depth_nat in HR.
      cbn [length] in HR. assert (length (olist (q_out (z_q s))) <= 1) by (destruct (q_out (z_q s)); cbn; lia). lia. }
    assert (H2 : (if f_ofifo c && q_half (z_q s) then 1 else 0) <= 1) by (destruct (_ && _); lia).
    assert (H3 : K * length Q + (K + 1) * length U <= (K + 1) * 2 ^ f_aw c).
    { assert (length Q + length U <= 2 ^ f_aw c) by lia. nia. }
    replace (3 + (f_pipe c + 1)) with (f_pipe c + 4) in HP by lia.
    lia.
  Qed.

  Lemma wt_step s i Q U O : x_rst i = false -> inv c s Q U O -> rdyo c s i = true ->
    act c s i = Keep \/ act c s i = Commit ->
    wt (fst (f_step c s i)) (nQ c s i Q U) (nU c s i U) (nO c s i O) <= wt s Q U O /\
    (content c s Q O <> [] \/ (act c s i = Commit /\ U <> []) ->
     wt (fst (f_step c s i)) (nQ c s i Q U) (nU c s i U) (nO c s i O) < wt s Q U O).
  Proof.
    intros Hr HI Hrdy Hact.
    assert (HUQ : K * length (nQ c s i Q U) + (K + 1) * length (nU c s i U)
      + (if match act c s i with Commit => true | _ => false end then length U else 0)
      = K * length (nQr c s i Q) + (K + 1) * length U).
    { unfold nQ, nU. destruct Hact as [-> | ->]; cbn [dQ dU]; rewrite app_length; cbn [length]; nia. }
    assert (Hcom : act c s i = Commit /\ U <> [] ->
      1 <= (if match act c s i with Commit => true | _ => false end then length U else 0)).
    { intros [-> HU]. destruct U; [easy|]. cbn. lia. }
    pose proof (takenb_Q i HI) as EQ. pose proof (iv_len HI) as HL.
    assert (HP : rdyp c s i = true) by (unfold rdyp; rewrite Hrdy; destruct (f_ofifo c); auto).
    destruct (z_pipe s) as [|e t] eqn:Ep; [cbn in HL; lia|].
    assert (EW : pw 3 (z_pipe (fst (f_step c s i))) + length (somes (e :: t)) + 2 * length (olist e)
                 = pw 3 (e :: t) + (f_pipe c + 3) * length (olist (takenb c s i))).
    { rewrite f_step_next by auto. cbn [z_pipe]. fold (takenb c s i).
      rewrite HP, Ep, pshift_true, pw_app. cbn [length] in HL. replace (length t) with (f_pipe c) by lia.
      rewrite somes_cons, app_length. destruct e as [b|]; cbn [pw olist length]; rewrite (pw_S t 3); lia. }
    apply (f_equal (@length beat)) in EQ. rewrite app_length in EQ.
    unfold wt. rewrite Ep.
    set (s' := fst (f_step c s i)) in *.
    set (n := length (nQr c s i Q)) in *.
    destruct (f_ofifo c) eqn:Ho.
    - destruct (o_step_ring i HI Ho) as (_ & Eh & Eo).
      assert (Eq' : z_q s' = o_step c (z_q s) (hd None (z_pipe s)) (rdyo c s i))
        by (unfold s'; rewrite f_step_next by auto; reflexivity).
      rewrite Eq', Eh, Eo, Hrdy.
      assert (HO' : exists p, popq c s i = p /\ p = match O with [] => false | _ => true end).
      { eexists. split; [reflexivity|]. unfold popq. pose proof (iv_o HI) as HO. rewrite Ho in HO.
        destruct HO as (HR & _). rewrite (ring_empty HR), Hrdy, orb_true_r, andb_true_r. destruct O; reflexivity. }
      destruct HO' as (p & Hp & Hp2).
      assert (EO : length (nO c s i O) = length O - (if p then 1 else 0) + length (olist e)).
      { unfold nO. rewrite Ho, Hp, Ep. cbn [hd]. rewrite app_length.
        replace (length (olist (option_map (present (f_ax c)) e))) with (length (olist e)) by (destruct e; auto).
        destruct p; [destruct O; cbn; lia|lia]. }
      rewrite EO, Hp.
      assert (Hhd : length (olist (if p then hd_error O else None)) = if p then 1 else 0).
      { destruct p; auto. destruct O; [discriminate|reflexivity]. }
      rewrite Hhd.
      assert (Hlen : (if p then 1 else 0) <= length O) by (rewrite Hp2; destruct O; cbn; lia).
      assert (Hhalf : (if (half c <=? length O) then 1 else 0) <= (if p then 1 else 0)).
      { pose proof (half_big c). rewrite Hp2. destruct O; cbn [length].
        - destruct (Nat.leb_spec (half c) 0); lia.
        - destruct (_ <=? _); lia. }
      cbn [andb]. cbv [wt] in *.
      set (h' := if half c <=? length O then 1 else 0) in *.
      set (pn := if p then 1 else 0) in *.
      remember (length (olist (q_out (z_q s)))) as q0 eqn:Hq.
      set (x := length (olist (takenb c s i))) in *.
      set (cm := if match act c s i with Commit => true | _ => false end then length U else 0) in *.
      clearbody h'.
      assert (Hkey : (content c s Q O <> [] -> 1 <= q0 + pn + length (somes (e :: t)) + x \/
                      (q_half (z_q s) = true /\ h' = 0)) ).
      { intros Hne. destruct (Nat.eq_dec (q0 + pn + length (somes (e :: t)) + x) 0) as [Z|Z]; [|lia].
        right. (* nothing moves: only the half full flag holds the memory back *)
        assert (pn = 0) by lia. assert (h' = 0) by lia. split; auto.
        assert (HO0 : O = []) by (subst pn; rewrite Hp2 in *; destruct O; auto; lia). rewrite HO0 in *.
        unfold content in Hne. rewrite Ho, Ep in Hne.
        assert (Hs0 : somes (e :: t) = []) by (destruct (somes (e :: t)); auto; cbn in Z; lia).
        rewrite Hs0 in Hne.
        destruct (q_half (z_q s)) eqn:Eq; auto. exfalso.
        assert (Hq0 : q_out (z_q s) = None) by (destruct (q_out (z_q s)); [exfalso; cbn in Hq; clear - Hq Z; lia|reflexivity]).
        rewrite Hq0 in Hne. cbn [olist app] in Hne.
        assert (Ht : takes c s i = true).
        { unfold takes. rewrite HP, Ho, Eq. cbn [pipe_adv orb andb negb].
          rewrite (ring_empty (iv_ring HI)). destruct Q; auto. }
        subst x. unfold takenb in Z. rewrite Ht in Z. cbn in Z. lia. }
      assert (Hh1 : (if q_half (z_q s) then 1 else 0) <= 1) by (destruct (q_half (z_q s)); lia).
      clearbody pn x cm n.
      assert (HA : K * length (nQ c s i Q U) + (K + 1) * length (nU c s i U) + cm + (f_pipe c + 3) * x + 2 * x
                   = K * length Q + (K + 1) * length U).
      { rewrite EQ. clear - HUQ. nia. }
      set (y := (f_pipe c + 3) * x) in *.
      rewrite <- !(Nat.add_assoc _ (K * _) ((K + 1) * _)).
      set (a1 := K * length (nQ c s i Q U) + (K + 1) * length (nU c s i U)) in *.
      set (a0 := K * length Q + (K + 1) * length U) in *.
      set (p1 := pw 3 (z_pipe s')) in *. set (p0 := pw 3 (e :: t)) in *.
      set (m := length (somes (e :: t))) in *. set (eo := length (olist e)) in *. set (lo := length O) in *.
      clearbody y a1 a0 p1 p0 m eo lo. clear HUQ HI Hr EQ HL.
      split.
      + clear Hkey Hcom. lia.
      + intros [Hne|Hc].
        * destruct (Hkey Hne) as [G|[G1 G2]]; [clear - EW Hlen Hhalf HA Hh1 G; lia|rewrite G1, G2 in *; clear - EW Hlen HA; lia].
        * specialize (Hcom Hc). clear - EW Hlen Hhalf HA Hh1 Hcom. lia.
    - cbn [andb].
      assert (Hkey : content c s Q O <> [] -> 1 <= length (somes (e :: t)) + length (olist (takenb c s i))).
      { intros Hne. unfold content in Hne. rewrite Ho, Ep in Hne. cbn [app] in Hne.
        destruct (somes (e :: t)) eqn:Es; [|cbn; lia]. cbn [app] in Hne.
        assert (Ht : takes c s i = true).
        { unfold takes. rewrite HP, Ho. cbn [pipe_adv orb andb negb].
          rewrite (ring_empty (iv_ring HI)). destruct Q; auto. }
        unfold takenb. rewrite Ht. cbn. lia. }
      set (x := length (olist (takenb c s i))) in *.
      set (cm := if match act c s i with Commit => true | _ => false end then length U else 0) in *.
      clearbody x cm n.
      assert (HA : K * length (nQ c s i Q U) + (K + 1) * length (nU c s i U) + cm + (f_pipe c + 3) * x + 2 * x
                   = K * length Q + (K + 1) * length U).
      { rewrite EQ. clear - HUQ. nia. }
      set (y := (f_pipe c + 3) * x) in *.
      rewrite <- !(Nat.add_assoc _ (K * _) ((K + 1) * _)).
      set (a1 := K * length (nQ c s i Q U) + (K + 1) * length (nU c s i U)) in *.
      set (a0 := K * length Q + (K + 1) * length U) in *.
      set (p1 := pw 3 (z_pipe s')) in *. set (p0 := pw 3 (e :: t)) in *.
      set (m := length (somes (e :: t))) in *. set (eo := length (olist e)) in *.
      clearbody y a1 a0 p1 p0 m eo. clear HUQ HI Hr EQ HL.
      split; [clear - EW HA; lia|].
      intros [Hne|Hc]; [specialize (Hkey Hne); clear - EW HA Hkey; lia|specialize (Hcom Hc); clear - EW HA Hcom; lia].
  Qed.

  (** * Pause *)
  Definition pinv (s : fifo) : Prop :=
    f_pause c = true -> f_fpause c = true -> z_pframe s = true -> z_pause s = false.

  Lemma m_vis_unpaused s b : m_vis c s = Some b -> paused c s = false.
  Proof. unfold m_vis. destruct (paused c s); [discriminate|auto]. Qed.

  Lemma pinv_step s i : x_rst i = false -> pinv s -> pinv (fst (f_step c s i)).
  Proof.
    intros Hr H. rewrite f_step_next by auto. unfold pinv. cbn [z_pframe z_pause]. intros Hp Hf.
    specialize (H Hp Hf). unfold pause_step. rewrite Hf.
    destruct (x_mready i); [destruct (m_vis c s) as [b|] eqn:Em|].
    - apply m_vis_unpaused in Em. unfold paused in Em. rewrite Hp in Em. destruct (tlast b); cbn; [discriminate|auto].
    - destruct (z_pframe s); cbn; [auto|discriminate].
    - destruct (z_pframe s); cbn; [auto|discriminate].
  Qed.

  Lemma unpause s i : x_rst i = false -> pinv s -> x_preq i = false -> paused c (fst (f_step c s i)) = false.
  Proof.
    intros Hr H Hq. rewrite f_step_next by auto. unfold paused. cbn [z_pause].
    destruct (f_pause c) eqn:Hp; auto. cbn [andb]. unfold pause_step. rewrite Hq.
    destruct (f_fpause c) eqn:Hf; auto. specialize (H Hp Hf).
    destruct (x_mready i); [destruct (m_vis c s) as [b|] eqn:Em|].
    - apply m_vis_unpaused in Em. unfold paused in Em. rewrite Hp in Em. destruct (tlast b); cbn; auto.
    - destruct (z_pframe s); cbn; auto.
    - destruct (z_pframe s); cbn; auto.
  Qed.

  Lemma pinv_run is : forall s, no_reset is -> pinv s -> pinv (after c s is).
  Proof.
    induction is as [|i is IH]; intros s Hr H; auto. inversion Hr; subst. rewrite after_cons.
    apply IH; auto using pinv_step.
  Qed.

  Lemma fresh_pinv s : fresh c s -> pinv s.
  Proof. intros H _ _ E. apply (fr_pause H). Qed.

  (** * Draining *)
  Definition calm (s : fifo) : Prop := f_frame c = true \/ w_mark (z_w s) = false.

  Lemma calm_act s i : calm s -> x_v i = false -> act c s i = Keep.
  Proof.
    unfold calm, act, wact, act_of. intros H Hv. rewrite Hv, !andb_false_r. cbn [andb].
    destruct H as [-> | ->]; auto. rewrite andb_false_r. cbn [andb]. destruct (f_frame c); reflexivity.
  Qed.

  Lemma calm_step s i : x_rst i = false -> calm s -> x_v i = false -> calm (fst (f_step c s i)).
  Proof.
    unfold calm. intros Hr H Hv. destruct (f_frame c) eqn:Ef; auto. destruct H as [H|H]; [discriminate|]. right.
    rewrite f_step_next by auto. cbn [z_w]. unfold w_step. rewrite Ef, Hv, !andb_false_r, H.
    rewrite andb_false_r. reflexivity.
  Qed.

  Lemma drain_run tail : forall s Q U O, inv c s Q U O -> pinv s -> paused c s = false -> calm s ->
    no_reset tail -> sinking tail -> silent tail -> wt s Q U O <= length tail ->
    sent tail (outs c s tail) = content c s Q O.
  Proof.
    induction tail as [|i tail IH]; intros s Q U O HI HP Hp Hc Hr Hk Hs Hw.
    - cbn [length] in Hw. unfold outs, f_trace, sent, delivered. cbn.
      (* an empty FIFO has weight zero *)
      unfold wt in Hw. unfold content.
      destruct Q; [|cbn [length] in Hw; nia].
      assert (E : somes (z_pipe s) = []).
      { assert (Hz : pw 3 (z_pipe s) = 0) by nia. clear - Hz.
        assert (G : forall l k, pw (S k) l = 0 -> somes l = []).
        { induction l as [|[b|] l IH]; intros k H; auto; cbn [pw] in H; [lia|]. rewrite somes_cons. cbn. eapply IH; eauto. }
        eapply G; eauto. }
      rewrite E. destruct (f_ofifo c); auto.
      destruct (q_out (z_q s)); [cbn in Hw; nia|]. destruct O; [reflexivity|cbn in Hw; nia].
    - inversion Hr as [|? ? R1 Hr1]; subst. inversion Hk as [|? ? [K1 K2] Hk1]; subst. inversion Hs as [|? ? S1 Hs1]; subst.
      assert (Hrdy : rdyo c s i = true) by (unfold rdyo; rewrite K1, Hp; reflexivity).
      pose proof (calm_act _ Hc S1) as Ha.
      destruct (@wt_step s i Q U O R1 HI Hrdy (or_introl Ha)) as [W1 W2].
      pose proof (@inv_step c s i Q U O R1 HI) as HI'. pose proof (@content_step c s i Q U O R1 HI) as HC.
      rewrite Ha in HC. cbn [dQ map] in HC. rewrite app_nil_r in HC.
      rewrite outs_cons, sent_cons, HC. f_equal.
      destruct (content c s Q O) as [|y l] eqn:Ec.
      + (* empty already: it stays empty *)
        assert (Ec' : content c (fst (f_step c s i)) (nQ c s i Q U) (nO c s i O) = []).
        { destruct (olist (given (sin_of i) (sout_of (snd (f_step c s i))))); [auto|discriminate]. }
        rewrite Ec'.
        assert (G : forall tail s Q U O, inv c s Q U O -> calm s -> no_reset tail -> silent tail ->
                    content c s Q O = [] -> sent tail (outs c s tail) = []).
        { clear. induction tail as [|i tail IH]; intros s Q U O HI Hc Hr Hs E; auto.
          inversion Hr as [|? ? R1 Hr1]; subst. inversion Hs as [|? ? S1 Hs1]; subst.
          pose proof (@inv_step c s i Q U O R1 HI) as HI'. pose proof (@content_step c s i Q U O R1 HI) as HC.
          rewrite (calm_act _ Hc S1), E in HC. cbn in HC.
          rewrite outs_cons, sent_cons.
          destruct (olist (given (sin_of i) (sout_of (snd (f_step c s i))))); [|discriminate].
          eapply IH; eauto using calm_step. }
        eapply G; eauto using calm_step.
      + eapply IH; eauto using calm_step, pinv_step, unpause.
        assert (Hne : y :: l <> []) by discriminate. specialize (W2 (or_introl Hne)).
        cbn [length] in Hw. clear - W2 Hw. lia.
  Qed.

  Lemma drain_all tail s Q U O : inv c s Q U O -> pinv s -> calm s ->
    no_reset tail -> sinking tail -> silent tail -> S wmax <= length tail ->
    sent tail (outs c s tail) = content c s Q O.
  Proof.
    intros HI HP Hc Hr Hk Hs Hl. destruct tail as [|i tail]; [cbn in Hl; lia|].
    inversion Hr as [|? ? R1 Hr1]; subst. inversion Hk as [|? ? [K1 K2] Hk1]; subst. inversion Hs as [|? ? S1 Hs1]; subst.
    pose proof (@inv_step c s i Q U O R1 HI) as HI'. pose proof (@content_step c s i Q U O R1 HI) as HC.
    rewrite (calm_act _ Hc S1) in HC. cbn [dQ map] in HC. rewrite app_nil_r in HC.
    rewrite outs_cons, sent_cons, HC. f_equal.
    eapply drain_run; eauto using calm_step, pinv_step, unpause.
    pose proof (wt_bound HI'). cbn [length] in Hl. lia.
  Qed.

  (** * Accepting *)
  Lemma refuse_acts s i Q U O : inv c s Q U O -> (f_frame c = false -> U = []) -> x_v i = true ->
    sready c (z_w s) (z_rd s) = false ->
    (act c s i = Keep \/ act c s i = Commit) /\ (f_frame c = false -> act c s i = Keep) /\
    (content c s Q O <> [] \/ (act c s i = Commit /\ U <> [])).
  Proof.
    intros HI HU Hv Hs. unfold act, wact, act_of. rewrite Hs, Hv. cbn [andb].
    unfold sready in Hs. pose proof (iv_ring HI) as HR.
    rewrite (ring_full HR), (ring_full_wr HR) in *.
    destruct (f_frame c) eqn:Ef.
    - apply orb_false_iff in Hs. destruct Hs as [Hs Hs3]. apply orb_false_iff in Hs. destruct Hs as [Hs1 Hs2].
      apply negb_false_iff in Hs1. split; [|split; [discriminate|]].
      + destruct ((Z.of_nat (length U) =? depth_of (f_aw c))%Z && negb (f_drop_over c)); auto.
      + destruct (content c s Q O) eqn:Ec; [|left; discriminate]. right.
        assert (EQ : Q = []).
        { unfold content in Ec. apply map_eq_nil in Ec. apply app_eq_nil in Ec. destruct Ec as [_ Ec].
          apply app_eq_nil in Ec. tauto. }
        subst Q. cbn [length] in Hs1. rewrite Z.add_0_l in Hs1. rewrite Hs1 in *. cbn [andb] in *. rewrite Hs2.
        split; auto. intros ->. apply Z.eqb_eq in Hs1. pose proof (depth_pos (f_aw c)). cbn in Hs1. lia.
    - apply orb_false_iff in Hs. destruct Hs as [Hs1 Hs2]. rewrite Hs2, andb_false_r. splits; auto.
      left. apply negb_false_iff in Hs1. rewrite (HU eq_refl) in Hs1. intros Ec.
      unfold content in Ec. apply map_eq_nil in Ec. apply app_eq_nil in Ec. destruct Ec as [_ Ec].
      apply app_eq_nil in Ec. destruct Ec as [_ ->]. apply Z.eqb_eq in Hs1. pose proof (depth_pos (f_aw c)). cbn in Hs1. lia.
  Qed.

  Lemma accept_run b tail : forall s Q U O, inv c s Q U O -> pinv s -> paused c s = false ->
    (f_frame c = false -> U = []) ->
    no_reset tail -> sinking tail -> offering b tail -> wt s Q U O < length tail ->
    exists t o, nth_error (outs c s tail) t = Some o /\ y_sready o = true.
  Proof.
    induction tail as [|i tail IH]; intros s Q U O HI HP Hp HU Hr Hk Ho Hw; [cbn in Hw; lia|].
    inversion Hr as [|? ? R1 Hr1]; subst. inversion Hk as [|? ? [K1 K2] Hk1]; subst. inversion Ho as [|? ? [O1 O2] Ho1]; subst.
    rewrite outs_cons.
    destruct (sready c (z_w s) (z_rd s)) eqn:Es.
    - exists 0. eexists. split; [reflexivity|]. rewrite step_view. exact Es.
    - assert (Hrdy : rdyo c s i = true) by (unfold rdyo; rewrite K1, Hp; reflexivity).
      destruct (refuse_acts i HI HU O1 Es) as (A1 & A2 & A3).
      destruct (@wt_step s i Q U O R1 HI Hrdy A1) as [_ W2]. specialize (W2 A3).
      destruct (IH (fst (f_step c s i)) _ _ _ (@inv_step c s i Q U O R1 HI)) as (t & o & Ht & Hy);
        eauto using pinv_step, unpause.
      + intros Ef. unfold nU. rewrite (A2 Ef). cbn. auto.
      + cbn [length] in Hw. lia.
      + exists (S t), o. auto.
  Qed.

  Lemma accept_all b tail s Q U O : inv c s Q U O -> pinv s -> (f_frame c = false -> U = []) ->
    no_reset tail -> sinking tail -> offering b tail -> S (S wmax) <= length tail ->
    exists t o, nth_error (outs c s tail) t = Some o /\ y_sready o = true.
  Proof.
    intros HI HP HU Hr Hk Ho Hl. destruct tail as [|i tail]; [cbn in Hl; lia|].
    inversion Hr as [|? ? R1 Hr1]; subst. inversion Hk as [|? ? [K1 K2] Hk1]; subst. inversion Ho as [|? ? [O1 O2] Ho1]; subst.
    rewrite outs_cons.
    destruct (sready c (z_w s) (z_rd s)) eqn:Es.
    - exists 0. eexists. split; [reflexivity|]. rewrite step_view. exact Es.
    - destruct (refuse_acts i HI HU O1 Es) as (A1 & A2 & A3).
      pose proof (@inv_step c s i Q U O R1 HI) as HI'.
      destruct (@accept_run (x_b i) tail _ _ _ _ HI') as (t & o & Ht & Hy); eauto using pinv_step, unpause.
      + intros Ef. unfold nU. rewrite (A2 Ef). cbn. auto.
      + pose proof (wt_bound HI'). cbn [length] in Hl. lia.
      + exists (S t), o. auto.
  Qed.

  (** * The output holds until taken *)
  Lemma out_held s i Q U O b : x_rst i = false -> inv c s Q U O -> paused c (fst (f_step c s i)) = false ->
    m_vis c s = Some b -> x_mready i = false -> m_vis c (fst (f_step c s i)) = Some b.
  Proof.
    intros Hr HI Hp Hm Hx. assert (Hrdy : rdyo c s i = false) by (unfold rdyo; rewrite Hx; reflexivity).
    pose proof (m_vis_unpaused _ Hm) as Hp0.
    unfold m_vis, m_out in *. rewrite Hp. rewrite Hp0 in Hm. clear Hp Hp0.
    destruct (f_ofifo c) eqn:Ho.
    - destruct (o_step_ring i HI Ho) as (_ & _ & Eo).
      rewrite f_step_next by auto. cbn [z_q]. rewrite Eo, Hrdy.
      unfold popq. rewrite Hrdy. destruct (q_out (z_q s)); [|discriminate]. cbn. rewrite andb_false_r. exact Hm.
    - rewrite f_step_next by auto. cbn [z_pipe]. unfold rdyp. rewrite Ho, Hrdy.
      destruct (hd None (z_pipe s)) eqn:Eh; [|discriminate].
      rewrite (@pshift_head_kept _ _ _ Eh). exact Hm.
  Qed.

  Lemma fifo_stable is : forall s Q U O, f_pause c = false -> inv c s Q U O -> no_reset is ->
    stable_output (map sin_of is) (map sout_of (outs c s is)).
  Proof.
    induction is as [|i is IH]; intros s Q U O Hp HI Hr.
    - intros t i o b H. destruct t; discriminate.
    - inversion Hr as [|? ? R1 Hr1]; subst. rewrite outs_cons. cbn [map].
      specialize (IH _ _ _ _ Hp (@inv_step c s i Q U O R1 HI) Hr1).
      intros [|t] i0 o0 b H1 H2 H3 H4 o' H5.
      + cbn in H1, H2. inversion H1; inversion H2; subst i0 o0. cbn in H5, H4.
        rewrite step_view in H3. cbn in H3.
        destruct is as [|i' is']; [discriminate|]. rewrite outs_cons in H5. cbn in H5. inversion H5; subst.
        rewrite step_view. cbn. eapply out_held; eauto. unfold paused. rewrite Hp. reflexivity.
      + exact (IH t i0 o0 b H1 H2 H3 H4 o' H5).
  Qed.
End Live.
