From Verif Require Import Base.Prelude Rtl.Handshake_spec Rtl.Handshake_proof
  Stream.Axis_model Stream.Axis_spec.

Lemma accepted_cons i o is os : accepted (i :: is) (o :: os) = olist (taken i o) ++ accepted is os.
Proof. unfold accepted. simpl. apply somes_cons. Qed.
Lemma delivered_cons i o is os : delivered (i :: is) (o :: os) = olist (given i o) ++ delivered is os.
Proof. unfold delivered. simpl. apply somes_cons. Qed.

Lemma accepted_app is1 os1 is2 os2 : length is1 = length os1 ->
  accepted (is1 ++ is2) (os1 ++ os2) = accepted is1 os1 ++ accepted is2 os2.
Proof.
  revert os1; induction is1 as [|i is1 IH]; intros [|o os1] H; simpl in H; try discriminate; auto.
  cbn [app]. rewrite !accepted_cons, IH, app_assoc by lia. reflexivity.
Qed.
Lemma delivered_app is1 os1 is2 os2 : length is1 = length os1 ->
  delivered (is1 ++ is2) (os1 ++ os2) = delivered is1 os1 ++ delivered is2 os2.
Proof.
  revert os1; induction is1 as [|i is1 IH]; intros [|o os1] H; simpl in H; try discriminate; auto.
  cbn [app]. rewrite !delivered_cons, IH, app_assoc by lia. reflexivity.
Qed.

(** A machine whose contents account for every step accounts for every run. *)
Section Sim.
  Variables (S : Type) (step : S -> sin -> S * sout) (inv : S -> Prop) (content : S -> list beat).
  Variable f : beat -> beat.
  Hypothesis Hinv : forall s i, i_rst i = false -> inv s -> inv (fst (step s i)).
  Hypothesis Hstep : forall s i, i_rst i = false -> inv s ->
    content s ++ olist (option_map f (taken i (snd (step s i))))
    = olist (given i (snd (step s i))) ++ content (fst (step s i)).

  Lemma sim_run is : forall s, running is -> inv s ->
    inv (fst (trace step s is)) /\
    content s ++ map f (accepted is (snd (trace step s is)))
    = delivered is (snd (trace step s is)) ++ content (fst (trace step s is)).
  Proof.
    induction is as [|i is IH]; intros s Hr Hi.
    - simpl. rewrite app_nil_r. auto.
    - inversion Hr as [|? ? Hi1 Hr1]; subst.
      pose proof (@Hinv s i Hi1 Hi) as Hi2. pose proof (@Hstep s i Hi1 Hi) as Hs.
      cbn [trace]. destruct (step s i) as [s1 o]. cbn [fst snd] in *.
      destruct (IH s1 Hr1 Hi2) as [A B].
      destruct (trace step s1 is) as [s2 os]. cbn [fst snd] in *.
      split; auto. rewrite accepted_cons, delivered_cons, map_app, app_assoc.
      replace (map f (olist (taken i o))) with (olist (option_map f (taken i o)))
        by (destruct (taken i o); reflexivity).
      rewrite Hs, <- !app_assoc, B. reflexivity.
  Qed.

  (** Output stability from a one-step statement. *)
  Hypothesis Hstab : forall s i b, i_rst i = false -> inv s ->
    o_m (snd (step s i)) = Some b -> i_mready i = false ->
    forall i', o_m (snd (step (fst (step s i)) i')) = Some b.

  Lemma sim_stable is : forall s, running is -> inv s ->
    stable_output is (snd (trace step s is)).
  Proof.
    induction is as [|i is IH]; intros s Hr Hi.
    - intros t i o b H. destruct t; discriminate.
    - inversion Hr as [|? ? Hi1 Hr1]; subst.
      pose proof (@Hinv s i Hi1 Hi) as Hi2.
      pose proof (fun b => @Hstab s i b Hi1 Hi) as Hst.
      cbn [trace]. destruct (step s i) as [s1 o] eqn:E. cbn [fst snd] in *.
      specialize (IH s1 Hr1 Hi2).
      destruct (trace step s1 is) as [s2 os] eqn:Et. cbn [fst snd] in *.
      intros [|t] i0 o0 b H1 H2 H3 H4 o' H5.
      + cbn in H1, H2. inversion H1; inversion H2; subst i0 o0. cbn in H5.
        destruct is as [|i' is']; [cbn in Et; inversion Et; subst; discriminate|].
        cbn [trace] in Et. destruct (step s1 i') as [s3 o3] eqn:E3.
        destruct (trace step s3 is') as [s4 os4]. inversion Et; subst.
        inversion H5; subst. specialize (Hst _ H3 H4 i'). rewrite E3 in Hst. exact Hst.
      + exact (IH t i0 o0 b H1 H2 H3 H4 o' H5).
  Qed.
End Sim.

(** * Skid buffer *)
Definition skid_inv {A} (s : skid A) : Prop :=
  (k_rdy s = true -> k_tmp s = None) /\ (k_out s = None -> k_tmp s = None).

Definition skid_content {A} (s : skid A) : list A := olist (k_out s) ++ olist (k_tmp s).

Lemma skid_step_inv (A : Type) (s : skid A) (x : option A) (m : bool) : skid_inv s -> skid_inv (skid_step s x m).
Proof.
  destruct s as [r o t]. unfold skid_inv, skid_step. cbn [k_rdy k_out k_tmp].
  intros [H1 H2]. destruct r, m, o, t, x; cbn in *; split; intros; try discriminate; auto;
    try (specialize (H1 eq_refl); discriminate); try (specialize (H2 eq_refl); discriminate).
Qed.

Lemma skid_step_content (A : Type) (s : skid A) (x : option A) (m : bool) : skid_inv s ->
  skid_content s ++ olist (if k_rdy s then x else None)
  = olist (if m then k_out s else None) ++ skid_content (skid_step s x m).
Proof.
  destruct s as [r o t]. unfold skid_inv, skid_step, skid_content. cbn [k_rdy k_out k_tmp].
  intros [H1 H2]. destruct r, m, o, t, x; cbn in *; auto;
    try (specialize (H1 eq_refl); discriminate); try (specialize (H2 eq_refl); discriminate).
Qed.

Lemma skid_out_stable (A : Type) (s : skid A) x b : k_out s = Some b -> k_out (skid_step s x false) = Some b.
Proof.
  destruct s as [r o t]. unfold skid_step. cbn [k_rdy k_out k_tmp]. intros ->.
  destruct r; reflexivity.
Qed.

Lemma skid_len (A : Type) (s : skid A) : length (skid_content s) <= 2.
Proof. unfold skid_content. destruct (k_out s), (k_tmp s); simpl; lia. Qed.

Lemma skid0_inv (A : Type) : skid_inv (@skid0 A).
Proof. split; auto. Qed.

Section Reg2.
  Variable c : axcfg.
  Definition c2 (s : skid beat) : list beat := map (present c) (skid_content s).

  Lemma reg2_inv s i : i_rst i = false -> skid_inv s -> skid_inv (fst (reg2_step c s i)).
  Proof. unfold reg2_step. intros -> H. apply skid_step_inv; auto. Qed.

  Lemma reg2_content s i : i_rst i = false -> skid_inv s ->
    c2 s ++ olist (option_map (present c) (taken i (snd (reg2_step c s i))))
    = olist (given i (snd (reg2_step c s i))) ++ c2 (fst (reg2_step c s i)).
  Proof.
    intros Hr H. unfold reg2_step. rewrite Hr. cbn [fst snd]. unfold taken, given, c2.
    cbn [o_sready o_m].
    pose proof (skid_step_content (i_s i) (i_mready i) H) as E.
    apply (f_equal (map (present c))) in E. rewrite !map_app in E.
    replace (olist (option_map (present c) (if k_rdy s then i_s i else None)))
      with (map (present c) (olist (if k_rdy s then i_s i else None)))
      by (destruct (if k_rdy s then i_s i else None); reflexivity).
    replace (olist (if i_mready i then option_map (present c) (k_out s) else None))
      with (map (present c) (olist (if i_mready i then k_out s else None)))
      by (destruct (i_mready i), (k_out s); reflexivity).
    exact E.
  Qed.

  Lemma reg2_stab s i b : i_rst i = false -> skid_inv s ->
    o_m (snd (reg2_step c s i)) = Some b -> i_mready i = false ->
    forall i', o_m (snd (reg2_step c (fst (reg2_step c s i)) i')) = Some b.
  Proof.
    intros Hr H Ho Hm i'. unfold reg2_step in *. rewrite Hr. cbn [fst snd o_m] in *.
    destruct (k_out s) as [y|] eqn:E; [|discriminate].
    rewrite Hm, (@skid_out_stable _ s (i_s i) _ E). exact Ho.
  Qed.

  Lemma reg2_preserved is :
    running is ->
    exists held, map (present c) (accepted is (snd (trace (reg2_step c) skid0 is)))
      = delivered is (snd (trace (reg2_step c) skid0 is)) ++ held /\ length held <= 2.
  Proof.
    intros Hr.
    destruct (@sim_run _ (reg2_step c) skid_inv c2 (present c) reg2_inv reg2_content is skid0 Hr (@skid0_inv _))
      as [_ E].
    exists (c2 (fst (trace (reg2_step c) skid0 is))). split; [exact E|].
    unfold c2. rewrite map_length. apply skid_len.
  Qed.

  Lemma reg2_stable is : running is -> stable_output is (snd (trace (reg2_step c) skid0 is)).
  Proof.
    intros. apply (@sim_stable _ (reg2_step c) skid_inv); auto using reg2_inv, skid0_inv.
    intros. apply reg2_stab; auto.
  Qed.

  (** Two ready cycles empty whatever was inside. *)
  Lemma reg2_drain is tail : running (is ++ tail) -> draining tail -> 2 <= length tail ->
    exists late,
      delivered (is ++ tail) (snd (trace (reg2_step c) skid0 (is ++ tail)))
      = map (present c) (accepted is (snd (trace (reg2_step c) skid0 is))) ++ late.
  Proof.
    intros Hr Hd Hl. apply Forall_app in Hr. destruct Hr as [Hr1 Hr2].
    destruct (@sim_run _ (reg2_step c) skid_inv c2 (present c) reg2_inv reg2_content is skid0 Hr1 (@skid0_inv _))
      as [I1 E1].
    pose proof (trace_length (reg2_step c) is skid0) as L1.
    rewrite trace_app.
    destruct (trace (reg2_step c) skid0 is) as [s1 o1]. cbn [fst snd] in *.
    destruct tail as [|a [|b tail]]; cbn [length] in Hl; try lia.
    inversion Hd as [|? ? D1 Hd']; subst. inversion Hd' as [|? ? D2 _]; subst.
    inversion Hr2 as [|? ? R1 Hr']; subst. inversion Hr' as [|? ? R2 _]; subst.
    cbn [trace]. unfold reg2_step at 1 2. rewrite R1, R2. cbn [fst snd].
    destruct (trace (reg2_step c) (skid_step (skid_step s1 (i_s a) (i_mready a)) (i_s b) (i_mready b)) tail)
      as [s4 o4] eqn:E4. cbn [fst snd].
    rewrite delivered_app by (rewrite L1; reflexivity). rewrite !delivered_cons.
    cbn [app] in E1. unfold c2 in E1 at 1. cbn in E1. rewrite E1.
    unfold given. cbn [o_m]. rewrite D1, D2.
    unfold c2, skid_content. unfold skid_inv in I1.
    destruct s1 as [r [x|] [y|]]; cbn [k_rdy k_out k_tmp] in *; unfold skid_step; cbn [k_rdy k_out k_tmp];
      destruct I1 as [I1 I2]; try (specialize (I2 eq_refl); discriminate);
      destruct r; try (specialize (I1 eq_refl); discriminate); cbn.
    - eexists. rewrite <- !app_assoc. cbn. reflexivity.
    - eexists. rewrite <- !app_assoc. cbn. reflexivity.
    - eexists. rewrite <- !app_assoc. cbn. reflexivity.
    - eexists. rewrite <- !app_assoc. cbn. reflexivity.
    - eexists. rewrite <- !app_assoc. cbn. reflexivity.
  Qed.

  (** Full throughput. *)
  Lemma reg2_throughput is : running is -> draining is ->
    forall t o, nth_error (snd (trace (reg2_step c) skid0 is)) (S t) = Some o -> o_sready o = true.
  Proof.
    assert (G : forall is s, running is -> draining is -> k_rdy s = true ->
      forall t o, nth_error (snd (trace (reg2_step c) s is)) t = Some o -> o_sready o = true).
    { clear is. induction is as [|i is IH]; intros s Hr Hd Hk t o H.
      - destruct t; discriminate.
      - inversion Hr; inversion Hd; subst. cbn [trace] in H.
        unfold reg2_step in H at 1. rewrite H2 in H.
        destruct (trace (reg2_step c) (skid_step s (i_s i) (i_mready i)) is) as [s2 os] eqn:E.
        destruct t as [|t].
        + cbn in H. inversion H; subst. exact Hk.
        + cbn in H. eapply (IH (skid_step s (i_s i) (i_mready i))); eauto.
          * unfold skid_step. rewrite H6, Hk. reflexivity.
          * rewrite E. cbn. exact H. }
    intros Hr Hd t o H. destruct is as [|i is]; [destruct t; discriminate|].
    inversion Hr; inversion Hd; subst. cbn [trace] in H.
    unfold reg2_step in H at 1. rewrite H2 in H.
    destruct (trace (reg2_step c) (skid_step skid0 (i_s i) (i_mready i)) is) as [s2 os] eqn:E.
    cbn in H. eapply (G is (skid_step skid0 (i_s i) (i_mready i))); eauto.
    - unfold skid_step. rewrite H6. reflexivity.
    - rewrite E. exact H.
  Qed.

  (** After the first cycle s_axis_tready is low only while two beats are inside. *)
  Lemma reg2_ready_when_room is i : running is -> is <> [] ->
    o_sready (snd (reg2_step c (fst (trace (reg2_step c) skid0 is)) i)) = false ->
    length (accepted is (snd (trace (reg2_step c) skid0 is)))
    = length (delivered is (snd (trace (reg2_step c) skid0 is))) + 2.
  Proof.
    intros Hr Hne Hi.
    destruct (@sim_run _ (reg2_step c) skid_inv c2 (present c) reg2_inv reg2_content is skid0 Hr (@skid0_inv _))
      as [_ E].
    assert (G : forall is s, running is -> (k_rdy s = false -> k_tmp s <> None \/ k_out s = None) -> skid_inv s ->
      is <> [] -> k_rdy (fst (trace (reg2_step c) s is)) = false ->
      k_tmp (fst (trace (reg2_step c) s is)) <> None /\ k_out (fst (trace (reg2_step c) s is)) <> None).
    { clear. assert (K : forall (s : skid beat) (x : option beat) (m : bool), skid_inv s ->
        (k_rdy s = false -> k_tmp s <> None \/ k_out s = None) ->
        k_rdy (skid_step s x m) = false -> k_tmp (skid_step s x m) <> None /\ k_out (skid_step s x m) <> None).
      { intros [r o t] x m [H1 H2] H. unfold skid_step. cbn [k_rdy k_out k_tmp] in *.
        destruct r, m, o, t, x; cbn in *; intros; split; try discriminate;
          try (specialize (H1 eq_refl); discriminate); try (specialize (H2 eq_refl); discriminate);
          destruct H; congruence. }
      induction is as [|i is IH]; intros s Hr Hs Hi Hne; [easy|].
      inversion Hr as [|? ? R1 Hr1]; subst.
      assert (Es : fst (trace (reg2_step c) s (i :: is))
        = fst (trace (reg2_step c) (skid_step s (i_s i) (i_mready i)) is)).
      { cbn [trace]. unfold reg2_step at 1. rewrite R1.
        destruct (trace (reg2_step c) (skid_step s (i_s i) (i_mready i)) is); reflexivity. }
      rewrite !Es. destruct is as [|i2 is2]; [apply K; auto|].
      apply IH; auto using skid_step_inv; [|easy]. intros Hk. left. apply K; auto. }
    specialize (G is skid0 Hr (fun _ => or_intror eq_refl) (@skid0_inv _) Hne).
    destruct G as [G1 G2]; [exact Hi|].
    apply (f_equal (@length beat)) in E. rewrite !app_length, map_length in E. unfold c2 in E.
    rewrite !map_length in E. unfold skid_content in E.
    destruct (k_tmp (fst (trace (reg2_step c) skid0 is))); [|easy]. destruct (k_out (fst (trace (reg2_step c) skid0 is))); [|easy]. cbn in E. lia.
  Qed.
End Reg2.

Lemma present_shows c b : shows c b (present c b).
Proof.
  unfold shows, present. cbn. splits; auto; intros ->; auto.
Qed.

(** * Simple register *)
Section Reg1.
  Variable c : axcfg.
  Definition c1 (s : sreg) : list beat := olist (option_map (present c) (g_out s)).
  Definition reg1_inv (s : sreg) : Prop := g_rdy s = true -> g_out s = None.

  Lemma reg1_inv_step s i : i_rst i = false -> reg1_inv s -> reg1_inv (fst (reg1_step c s i)).
  Proof.
    unfold reg1_step, reg1_inv. intros -> H. cbn [fst g_rdy g_out].
    destruct (if g_rdy s then _ else _); cbn; congruence.
  Qed.

  Lemma reg1_content s i : i_rst i = false -> reg1_inv s ->
    c1 s ++ olist (option_map (present c) (taken i (snd (reg1_step c s i))))
    = olist (given i (snd (reg1_step c s i))) ++ c1 (fst (reg1_step c s i)).
  Proof.
    destruct s as [r o]. unfold reg1_inv, reg1_step, c1, taken, given. intros -> H.
    cbn [fst snd g_rdy g_out o_sready o_m] in *.
    destruct r; [rewrite H by auto|]; destruct (i_mready i), o, (i_s i); cbn; auto.
  Qed.

  Lemma reg1_preserved is :
    running is ->
    exists held, map (present c) (accepted is (snd (trace (reg1_step c) sreg0 is)))
      = delivered is (snd (trace (reg1_step c) sreg0 is)) ++ held /\ length held <= 1.
  Proof.
    intros Hr.
    destruct (@sim_run _ (reg1_step c) reg1_inv c1 (present c) reg1_inv_step reg1_content is sreg0 Hr)
      as [_ E]; [easy|].
    exists (c1 (fst (trace (reg1_step c) sreg0 is))). split; [exact E|].
    unfold c1. destruct (g_out _); simpl; lia.
  Qed.

  Lemma reg1_stable is : running is -> stable_output is (snd (trace (reg1_step c) sreg0 is)).
  Proof.
    intros. apply (@sim_stable _ (reg1_step c) reg1_inv); auto using reg1_inv_step; [|easy].
    intros s i b Hr Hi Ho Hm i'. unfold reg1_step in *. rewrite Hr, Hm. cbn [fst snd o_m g_out g_rdy] in *.
    destruct (g_out s) as [y|] eqn:E; [|discriminate].
    destruct (g_rdy s) eqn:Er; [rewrite Hi in E by auto; discriminate|]. exact Ho.
  Qed.

  Lemma reg1_drain is tail : running (is ++ tail) -> draining tail -> 1 <= length tail ->
    exists late,
      delivered (is ++ tail) (snd (trace (reg1_step c) sreg0 (is ++ tail)))
      = map (present c) (accepted is (snd (trace (reg1_step c) sreg0 is))) ++ late.
  Proof.
    intros Hr Hd Hl. apply Forall_app in Hr. destruct Hr as [Hr1 Hr2].
    destruct (@sim_run _ (reg1_step c) reg1_inv c1 (present c) reg1_inv_step reg1_content is sreg0 Hr1)
      as [_ E1]; [easy|].
    pose proof (trace_length (reg1_step c) is sreg0) as L1.
    rewrite trace_app.
    destruct (trace (reg1_step c) sreg0 is) as [s1 o1]. cbn [fst snd] in *.
    destruct tail as [|a tail]; cbn [length] in Hl; try lia.
    inversion Hd as [|? ? D1 Hd']; subst.
    cbn [trace]. destruct (reg1_step c s1 a) as [s2 o2] eqn:E2.
    destruct (trace (reg1_step c) s2 tail) as [s4 o4] eqn:E4. cbn [fst snd].
    rewrite delivered_app by (rewrite L1; reflexivity). rewrite !delivered_cons.
    cbn [app] in E1. unfold c1 in E1 at 1. cbn in E1. rewrite E1.
    unfold reg1_step in E2. inversion E2. unfold given. cbn [o_m]. rewrite D1.
    unfold c1. eexists. rewrite <- app_assoc. reflexivity.
  Qed.

  (** The simple register accepts again after at most two cycles with a ready sink. *)
  Lemma reg1_accepts is a b z : running (is ++ [a; b; z]) -> draining [a; b] ->
    exists t o, (t < 3)%nat /\
      nth_error (snd (trace (reg1_step c) sreg0 (is ++ [a; b; z]))) (length is + t) = Some o /\
      o_sready o = true.
  Proof.
    intros Hr Hd. apply Forall_app in Hr. destruct Hr as [Hr1 Hr2].
    pose proof (trace_length (reg1_step c) is sreg0) as L1.
    rewrite trace_app. destruct (trace (reg1_step c) sreg0 is) as [s1 o1]. cbn [fst snd] in *.
    inversion Hd as [|? ? D1 Hd1]; subst. inversion Hd1 as [|? ? D2 _]; subst.
    inversion Hr2 as [|? ? R1 Hr3]; subst. inversion Hr3 as [|? ? R2 Hr4]; subst.
    cbn [trace]. unfold reg1_step. rewrite R1, R2, D1, D2. cbn.
    destruct (g_rdy s1) eqn:E.
    - exists 0, (mkSout true (option_map (present c) (g_out s1))). split; [lia|].
      rewrite nth_error_app2, <- L1 by lia. replace (length o1 + 0 - length o1)%nat with 0 by lia.
      split; auto.
    - exists 1, (mkSout true None). split; [lia|].
      rewrite nth_error_app2, <- L1 by lia. replace (length o1 + 1 - length o1)%nat with 1 by lia.
      split; auto.
  Qed.
End Reg1.

(** * Bypass *)
Lemma reg0_preserved c is :
  map (present c) (accepted is (snd (trace (reg0_step c) tt is)))
  = delivered is (snd (trace (reg0_step c) tt is)).
Proof.
  induction is as [|i is IH]; auto. cbn [trace reg0_step].
  destruct (trace (reg0_step c) tt is) as [s os]. cbn [fst snd] in *.
  rewrite accepted_cons, delivered_cons, map_app, IH. f_equal.
  unfold taken, given. cbn. destruct (i_mready i), (i_s i); reflexivity.
Qed.
