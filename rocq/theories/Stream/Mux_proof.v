From Verif Require Import Base.Prelude Base.Bits Rtl.Handshake_spec Rtl.Handshake_proof
  Stream.Axis_model Stream.Axis_spec Stream.Axis_proof Stream.Arb_model Stream.Arb_spec Stream.Arb_proof
  Stream.Mux_model Stream.Mux_spec.
Local Open Scope nat_scope.

Lemma maccepted_cons p i o is os : maccepted p (i :: is) (o :: os) = olist (mtaken p i o) ++ maccepted p is os.
Proof. unfold maccepted. simpl. apply somes_cons. Qed.
Lemma mdelivered_cons i o is os : mdelivered (i :: is) (o :: os) = olist (mgiven i o) ++ mdelivered is os.
Proof. unfold mdelivered. simpl. apply somes_cons. Qed.

Lemma from_app p a b : from p (a ++ b) = from p a ++ from p b.
Proof. unfold from. rewrite filter_app, map_app. reflexivity. Qed.

(** Frame structure by a running owner. *)
Fixpoint owned (a : axcfg) (cur : option nat) (l : list (nat * beat)) : Prop :=
  match l with
  | [] => True
  | (p, b) :: r =>
      match cur with Some q => p = q | None => True end /\
      owned a (if ends a b then None else Some p) r
  end.

Lemma owned_frames a l : forall cur, owned a cur l ->
  exists q0 h fs q part,
    match cur with Some q => q0 = q | None => h = [] end /\
    ((exists body b, h = body ++ [b] /\ ends a b = true /\ Forall (fun x => ends a x = false) body) \/
     (Forall (fun x => ends a x = false) h /\ (h <> [] -> fs = [] /\ part = []))) /\
    l = map (pair q0) h ++ concat (map (fun f => map (pair (fst f)) (snd f)) fs) ++ map (pair q) part /\
    Forall (fun f => frame a (snd f)) fs /\ Forall (fun b => ends a b = false) part /\
    (cur <> None -> (exists body b, h = body ++ [b] /\ ends a b = true /\ Forall (fun x => ends a x = false) body) \/ (fs = [] /\ part = [])).
Proof.
  induction l as [|[p b] l IH]; intros cur H.
  - exists (match cur with Some q => q | None => 0 end), [], [], 0, []. cbn.
    split; [destruct cur; auto|]. split; [right; split; auto|]. repeat (split; auto).
  - destruct H as [H1 H2]. specialize (IH _ H2).
    destruct IH as (q0 & h & fs & q & part & A & B & C & D & E & F).
    destruct (ends a b) eqn:Eb.
    + subst h. cbn in C.
      destruct cur as [q'|].
      * subst q'. exists p, [b], fs, q, part. split; auto.
        assert (X : exists body b0, [b] = body ++ [b0] /\ ends a b0 = true /\ Forall (fun x => ends a x = false) body)
          by (exists [], b; auto).
        split; [left; exact X|]. split; [cbn; rewrite C; reflexivity|]. auto.
      * exists p, [], ((p, [b]) :: fs), q, part. split; auto. split; [right; split; auto; congruence|].
        split; [cbn; rewrite C; reflexivity|]. split; [|split; auto; congruence].
        constructor; auto. exists [], b. auto.
    + subst q0.
      destruct F as [(body & b0 & -> & F2 & F3)|[-> ->]]; [discriminate| |].
      * destruct cur as [q'|].
        -- subst q'. exists p, (b :: body ++ [b0]), fs, q, part. split; auto.
           assert (X : exists body1 b1, b :: body ++ [b0] = body1 ++ [b1] /\ ends a b1 = true /\ Forall (fun x => ends a x = false) body1)
             by (exists (b :: body), b0; auto).
           split; [left; exact X|]. split; [cbn; rewrite C; reflexivity|]. auto.
        -- exists p, [], ((p, b :: body ++ [b0]) :: fs), q, part. split; auto.
           split; [right; split; auto; congruence|].
           split; [cbn; rewrite C, <- app_assoc; reflexivity|]. split; [|split; auto; congruence].
           constructor; auto. exists (b :: body), b0. auto.
      * cbn in C. rewrite app_nil_r in C.
        destruct B as [(body & b0 & -> & F2 & F3)|[B _]].
        -- destruct cur as [q'|].
           ++ subst q'. exists p, (b :: body ++ [b0]), [], q, []. split; auto.
              assert (X : exists body1 b1, b :: body ++ [b0] = body1 ++ [b1] /\ ends a b1 = true /\ Forall (fun x => ends a x = false) body1)
                by (exists (b :: body), b0; auto).
              split; [left; exact X|]. split; [cbn; rewrite app_nil_r, C; reflexivity|]. auto.
           ++ exists p, [], [(p, b :: body ++ [b0])], q, []. split; auto.
              split; [right; split; auto; congruence|].
              split; [cbn; rewrite !app_nil_r, C; reflexivity|]. split; [|split; auto; congruence].
              constructor; auto. exists (b :: body), b0. auto.
        -- destruct cur as [q'|].
           ++ subst q'. exists p, (b :: h), [], q, []. split; auto.
              split; [right; split; auto|]. split; [cbn; rewrite app_nil_r, C; reflexivity|]. auto.
           ++ exists p, [], [], p, (b :: h). split; auto.
              split; [right; split; auto; congruence|].
              split; [cbn; rewrite C; reflexivity|]. split; auto. split; auto; congruence.
Qed.

Lemma owned_whole a l : owned a None l -> whole_frames a l.
Proof.
  intros H. destruct (owned_frames a l None H) as (q0 & h & fs & q & part & A & _ & C & D & E & _).
  subst h. cbn in C. exists fs, q, part. auto.
Qed.

Section Mux.
  Variable c : muxcfg.
  Hypothesis Hc : 0 < m_count c.

  Definition minv (s : mux) : Prop := inv (m_arb c) (x_arb s) /\ skid_inv (x_skid s).

  Lemma mux0_inv : minv mux0.
  Proof. split; [apply inv0; auto|apply skid0_inv]. Qed.

  Lemma mux_inv_step s i : minv s -> minv (fst (mux_step c s i)).
  Proof.
    intros [A B]. unfold mux_step. cbn [fst]. destruct (mi_rst i); [apply mux0_inv|].
    split; [apply step_inv; auto|apply skid_step_inv; auto].
  Qed.

  (** The owner of an unfinished frame holds the grant. *)
  Definition keeps (s : mux) (cur : option nat) : Prop :=
    match cur with Some q => a_valid (x_arb s) = true /\ a_enc (x_arb s) = q | None => True end /\
    (a_valid (x_arb s) = true -> x_in s (a_enc (x_arb s)) = None -> cur = Some (a_enc (x_arb s))).

  Definition step_moved (s : mux) : list (nat * beat) :=
    match mux_int c s with
    | Some _ => map (pair (a_enc (x_arb s))) (olist (x_in s (a_enc (x_arb s))))
    | None => []
    end.

  Definition next_cur (cur : option nat) (l : list (nat * beat)) : option nat :=
    match l with
    | (p, b) :: _ => if ends (m_ax c) b then None else Some p
    | [] => cur
    end.

  Lemma step_moved_cases s :
    (step_moved s = [] /\ mux_int c s = None /\
      (k_rdy (x_skid s) = false \/ a_valid (x_arb s) = false \/ x_in s (a_enc (x_arb s)) = None)) \/
    (exists b, step_moved s = [(a_enc (x_arb s), b)] /\ x_in s (a_enc (x_arb s)) = Some b /\
      mux_int c s = Some (mux_beat c (a_enc (x_arb s)) b) /\ k_rdy (x_skid s) = true /\ a_valid (x_arb s) = true).
  Proof.
    unfold step_moved, mux_int. destruct (k_rdy (x_skid s)), (a_valid (x_arb s)); cbn [andb]; auto 6.
    destruct (x_in s (a_enc (x_arb s))) as [b|]; cbn; [|auto 6]. right. exists b. auto 6.
  Qed.

  Lemma no_ack_held s i : minv s -> a_valid (x_arb s) = true ->
    mux_ack c s (a_enc (x_arb s)) = false -> mi_rst i = false ->
    x_arb (fst (mux_step c s i)) = x_arb s.
  Proof.
    intros [A _] V N R. unfold mux_step. rewrite R. cbn [fst x_arb].
    apply step_held; auto. unfold held. cbn [m_arb block block_ack ar_ack].
    rewrite V, N. reflexivity.
  Qed.

  Lemma x_in_stays s i p b : minv s -> mi_rst i = false -> x_in s p = Some b ->
    (k_rdy (x_skid s) = false \/ a_valid (x_arb s) = false \/ p <> a_enc (x_arb s)) ->
    x_in (fst (mux_step c s i)) p = Some b.
  Proof.
    intros [[G _] _] R Hb W. unfold mux_step. rewrite R. cbn [fst x_in]. unfold mux_sready.
    rewrite Hb, G. cbn [isnone orb].
    destruct (Nat.eqb_spec p (a_enc (x_arb s))) as [->|]; [|rewrite !andb_false_r; auto].
    destruct W as [-> | [-> | W]]; rewrite ?andb_false_r; cbn; auto. congruence.
  Qed.

  (** A new grant goes to a port whose input register is full in the next cycle. *)
  Lemma new_grant_full s i : minv s -> mi_rst i = false ->
    (a_valid (x_arb s) = true -> mux_ack c s (a_enc (x_arb s)) = true) ->
    a_valid (x_arb (fst (mux_step c s i))) = true ->
    x_in (fst (mux_step c s i)) (a_enc (x_arb (fst (mux_step c s i)))) <> None.
  Proof.
    intros I R Hk. pose proof I as [Ia Is].
    set (x := mkArbIn false (mux_req s i) (mux_ack c s)).
    assert (EA : x_arb (fst (mux_step c s i)) = arb_step (m_arb c) (x_arb s) x)
      by (unfold mux_step; rewrite R; reflexivity).
    rewrite EA. intros V.
    assert (Hh : held (m_arb c) (x_arb s) x = false).
    { unfold held. destruct (a_valid (x_arb s)); [|reflexivity].
      cbn. rewrite Hk; auto. }
    destruct (@step_free (m_arb c) Hc (x_arb s) x Ia eq_refl Hh) as (_ & Hq & _).
    specialize (Hq V). cbn [x ar_req] in Hq. unfold mux_req in Hq.
    set (k := a_enc (arb_step (m_arb c) (x_arb s) x)) in *.
    destruct Ia as [G _]. rewrite G in Hq.
    destruct (a_valid (x_arb s)) eqn:Ev; cbn [andb] in Hq.
    - destruct (Nat.eqb_spec k (a_enc (x_arb s))) as [E|Hne].
      + rewrite andb_false_r, andb_true_r in Hq. cbn [orb] in Hq.
        assert (S : mux_sready s k = true).
        { unfold mux_sready. specialize (Hk eq_refl). unfold mux_ack in Hk. rewrite <- E in Hk.
          apply andb_prop in Hk. destruct Hk as [Hk _]. apply andb_prop in Hk. destruct Hk as [-> ->].
          apply orb_true_r. }
        unfold mux_step. rewrite R. cbn [fst x_in]. rewrite S. destruct (mi_s i k); [discriminate|discriminate Hq].
      + rewrite andb_true_r, andb_false_r, orb_false_r in Hq.
        destruct (x_in s k) as [y|] eqn:Ey; [|discriminate].
        rewrite (@x_in_stays s i k y); auto. discriminate.
    - rewrite andb_true_r, andb_false_r, orb_false_r in Hq.
      destruct (x_in s k) as [y|] eqn:Ey; [|discriminate].
      rewrite (@x_in_stays s i k y); auto. discriminate.
  Qed.

  Lemma mux_keeps s i cur : minv s -> mi_rst i = false -> keeps s cur ->
    owned (m_ax c) cur (step_moved s) /\ keeps (fst (mux_step c s i)) (next_cur cur (step_moved s)).
  Proof.
    intros I R [K1 K2].
    destruct (mux_ack c s (a_enc (x_arb s))) eqn:Ek.
    - (* the last beat of a frame moves *)
      assert (X : exists b, step_moved s = [(a_enc (x_arb s), b)] /\ ends (m_ax c) b = true).
      { unfold mux_ack in Ek. destruct I as [[G _] _]. rewrite G in Ek.
        destruct (step_moved_cases s) as [(E & _ & W)|(b & E & Eb & _ & Er & Ev)].
        - destruct W as [W | [W | W]]; rewrite W in Ek; rewrite ?andb_false_r in Ek; discriminate.
        - exists b. split; auto. rewrite Eb in Ek. apply andb_prop in Ek. apply Ek. }
      destruct X as (b & E & Ee). rewrite E. cbn [owned next_cur]. rewrite Ee.
      split; [split; auto; destruct cur; auto; destruct K1; auto|].
      split; auto. intros V N. exfalso. apply (@new_grant_full s i); auto.
    - destruct (a_valid (x_arb s)) eqn:Ev.
      + assert (HA : x_arb (fst (mux_step c s i)) = x_arb s) by (apply no_ack_held; auto).
        unfold keeps. rewrite HA, Ev.
        destruct (step_moved_cases s) as [(E & _ & W)|(b & E & Eb & _ & Er & _)]; rewrite E; cbn [owned next_cur].
        * split; auto. split; [destruct cur; auto; destruct K1; auto|].
          intros _ N. apply K2; auto.
          destruct (x_in s (a_enc (x_arb s))) as [y|] eqn:Ey; auto. exfalso.
          rewrite (@x_in_stays s i (a_enc (x_arb s)) y) in N; auto; [discriminate|].
          destruct W as [W | [W | W]]; auto; congruence.
        * split; [split; auto; destruct cur; auto; destruct K1; auto|].
          destruct (ends (m_ax c) b) eqn:Ee.
          -- exfalso. unfold mux_ack in Ek. destruct I as [[G _] _]. rewrite G, Ev, Nat.eqb_refl, Er, Eb in Ek.
             unfold ends in Ee. rewrite Ee in Ek. discriminate.
          -- split; auto.
      + destruct (step_moved_cases s) as [(E & _ & W)|(b & E & Eb & _ & Er & Ev')]; [|congruence].
        rewrite E. cbn [owned next_cur]. split; auto.
        destruct cur as [q|]; [destruct K1; congruence|]. split; auto.
        intros V N. exfalso. apply (@new_grant_full s i); auto. congruence.
  Qed.

  Lemma owned_app cur l1 l2 : (length l1 <= 1)%nat ->
    owned (m_ax c) cur l1 -> owned (m_ax c) (next_cur cur l1) l2 -> owned (m_ax c) cur (l1 ++ l2).
  Proof.
    intros L. destruct l1 as [|[p b] [|x l1]]; cbn in *; try lia; tauto.
  Qed.

  Lemma step_moved_len s : (length (step_moved s) <= 1)%nat.
  Proof. destruct (step_moved_cases s) as [(E & _)|(b & E & _)]; rewrite E; cbn; lia. Qed.

  Lemma cur_app cur l1 l2 : (length l1 <= 1)%nat ->
    unfinished_from (m_ax c) cur (l1 ++ l2) = unfinished_from (m_ax c) (next_cur cur l1) l2.
  Proof. destruct l1 as [|[p b] [|x l1]]; cbn in *; try lia; reflexivity. Qed.

  (** Accounting for one step. *)
  Lemma step_port s i p : minv s -> mi_rst i = false ->
    olist (x_in s p) ++ olist (mtaken p i (snd (mux_step c s i)))
    = from p (step_moved s) ++ olist (x_in (fst (mux_step c s i)) p).
  Proof.
    intros [[G _] _] R. unfold mux_step. rewrite R. cbn [fst snd x_in]. unfold mtaken. cbn [mo_sready].
    unfold mux_sready. rewrite G.
    destruct (step_moved_cases s) as [(E & _ & W)|(b & E & Eb & _ & Er & Ev)]; rewrite E.
    - cbn [from filter map app].
      destruct (x_in s p) as [x|] eqn:Ex; cbn [isnone orb olist app].
      + destruct (Nat.eqb_spec p (a_enc (x_arb s))) as [->|].
        * destruct W as [-> | [-> | W]]; [| |congruence]; rewrite ?andb_false_r; cbn; reflexivity.
        * rewrite !andb_false_r. reflexivity.
      + reflexivity.
    - unfold from. cbn [filter fst].
      destruct (Nat.eqb_spec (a_enc (x_arb s)) p) as [<-|Hne].
      + rewrite Eb, Er, Ev, Nat.eqb_refl. cbn. reflexivity.
      + destruct (Nat.eqb_spec p (a_enc (x_arb s))); [congruence|].
        rewrite !andb_false_r, orb_false_r. cbn.
        destruct (x_in s p); cbn; auto.
  Qed.

  Lemma step_out s i : minv s -> mi_rst i = false ->
    map (present (m_ax c)) (skid_content (x_skid s)) ++ map (shown c) (step_moved s)
    = olist (mgiven i (snd (mux_step c s i)))
      ++ map (present (m_ax c)) (skid_content (x_skid (fst (mux_step c s i)))).
  Proof.
    intros [_ I] R. unfold mux_step. rewrite R. cbn [fst snd x_skid].
    pose proof (skid_step_content (mux_int c s) (mi_mready i) I) as E.
    apply (f_equal (map (present (m_ax c)))) in E. rewrite !map_app in E.
    assert (M : map (shown c) (step_moved s)
      = map (present (m_ax c)) (olist (if k_rdy (x_skid s) then mux_int c s else None))).
    { destruct (step_moved_cases s) as [(Em & Ei & W)|(b & Em & Eb & Ei & Er & Ev)]; rewrite Em, Ei.
      - destruct (k_rdy (x_skid s)); reflexivity.
      - rewrite Er. reflexivity. }
    rewrite M, E. f_equal. unfold mgiven. cbn [mo_m].
    destruct (mi_mready i), (k_out (x_skid s)); reflexivity.
  Qed.

  Lemma mux_run is : forall s cur, mrunning is -> minv s -> keeps s cur ->
    let s' := fst (trace (mux_step c) s is) in
    let os := snd (trace (mux_step c) s is) in
    minv s' /\ keeps s' (unfinished_from (m_ax c) cur (moved c s is)) /\ owned (m_ax c) cur (moved c s is) /\
    (forall p, olist (x_in s p) ++ maccepted p is os = from p (moved c s is) ++ olist (x_in s' p)) /\
    map (present (m_ax c)) (skid_content (x_skid s)) ++ map (shown c) (moved c s is)
      = mdelivered is os ++ map (present (m_ax c)) (skid_content (x_skid s')).
  Proof.
    induction is as [|i is IH]; intros s cur Hr I K; cbn zeta.
    - cbn. split; auto. split; auto. split; auto. split; [intros; apply app_nil_r|apply app_nil_r].
    - inversion Hr as [|? ? R Hr']; subst.
      pose proof (@mux_inv_step s i I) as I1.
      destruct (@mux_keeps s i cur I R K) as [O1 K1].
      pose proof (fun p => @step_port s i p I R) as P1.
      pose proof (@step_out s i I R) as Q1.
      cbn [trace moved]. fold (step_moved s).
      destruct (mux_step c s i) as [s1 o]. cbn [fst snd] in *.
      specialize (IH s1 _ Hr' I1 K1). cbn zeta in IH.
      destruct (trace (mux_step c) s1 is) as [s2 os]. cbn [fst snd] in *.
      destruct IH as (A & A2 & B & C & D). split; auto. split; [|split; [|split]].
      + rewrite cur_app; auto. apply step_moved_len.
      + apply owned_app; auto. apply step_moved_len.
      + intros p. rewrite maccepted_cons, from_app, app_assoc, P1, <- !app_assoc, C. reflexivity.
      + rewrite mdelivered_cons, map_app, app_assoc, Q1, <- !app_assoc, D. reflexivity.
  Qed.

  Lemma keeps0 : keeps mux0 None.
  Proof. split; cbn; auto; discriminate. Qed.

  Lemma mux_top is : mrunning is ->
    let os := snd (trace (mux_step c) mux0 is) in
    let l := moved c mux0 is in
    whole_frames (m_ax c) l /\
    (exists inside, map (shown c) l = mdelivered is os ++ inside /\ length inside <= 2) /\
    (forall p, exists waiting, maccepted p is os = from p l ++ waiting /\ length waiting <= 1).
  Proof.
    intros Hr. cbn zeta.
    destruct (@mux_run is mux0 None Hr mux0_inv keeps0) as (_ & _ & A & B & C). cbn zeta in *.
    split; [apply owned_whole; auto|]. split.
    - eexists. split; [exact C|]. rewrite map_length. apply skid_len.
    - intros p. eexists. split; [exact (B p)|]. destruct (x_in _ p); cbn; lia.
  Qed.

  (** * Every input is served *)

  (** Round robin: while [p] waits, each finished frame brings it closer. *)
  Notation lasts := (lasts (m_ax c)).
  Lemma lasts_app a b : lasts (a ++ b) = (lasts a + lasts b)%nat.
  Proof. unfold Mux_spec.lasts. rewrite filter_app, app_length. reflexivity. Qed.

  Lemma wait_gen is p : m_rr c = true -> p < m_count c ->
    forall s b, mrunning is -> minv s -> x_in s p = Some b ->
    (a_valid (x_arb s) = true /\ a_enc (x_arb s) = p /\ 1 <= lasts (moved c s is)) \/
    (exists last, mask_is (m_arb c) (x_arb s) last /\ dist (m_arb c) last p + 2 <= lasts (moved c s is)) ->
    In (p, b) (moved c s is).
  Proof.
    intros Rr Hp. induction is as [|i is IH]; intros s b Hr I Hb H.
    - cbn in H. unfold Mux_spec.lasts in H. cbn in H. destruct H as [(_ & _ & H)|(l & _ & H)]; lia.
    - inversion Hr as [|? ? R Hr']; subst.
      pose proof (@mux_inv_step s i I) as I1.
      cbn [moved] in *. fold (step_moved s) in *. rewrite lasts_app in H.
      apply in_or_app.
      destruct (step_moved_cases s) as [(E & _ & W)|(b0 & E & Eb & _ & Er & Ev)]; rewrite E in *.
      + (* nothing moves: p keeps its beat *)
        right. change (lasts []) with 0 in H. cbn [Nat.add] in H.
        assert (Hb1 : x_in (fst (mux_step c s i)) p = Some b).
        { destruct I as [[G _] _]. unfold mux_step. rewrite R. cbn [fst x_in]. unfold mux_sready.
          rewrite Hb, G. cbn [isnone orb].
          destruct (Nat.eqb_spec p (a_enc (x_arb s))) as [->|]; [|rewrite !andb_false_r; auto].
          destruct W as [-> | [-> | W]]; rewrite ?andb_false_r; cbn; auto. congruence. }
        apply IH; auto.
        destruct (a_valid (x_arb s)) eqn:Ev.
        * assert (N : mux_ack c s (a_enc (x_arb s)) = false).
          { unfold mux_ack. destruct W as [-> | [W | ->]]; rewrite ?andb_false_r; auto. congruence. }
          rewrite (@no_ack_held s i I Ev N R), Ev. exact H.
        * destruct H as [(? & _)|(last & M & H)]; [congruence|].
          (* idle arbiter: a decision *)
          destruct I as [Ia Is].
          set (x := mkArbIn false (mux_req s i) (mux_ack c s)).
          assert (EA : x_arb (fst (mux_step c s i)) = arb_step (m_arb c) (x_arb s) x)
            by (unfold mux_step; rewrite R; reflexivity).
          rewrite EA.
          assert (Hh : held (m_arb c) (x_arb s) x = false) by (unfold held; rewrite Ev; reflexivity).
          assert (Hq : ar_req x p = true).
          { cbn. unfold mux_req. destruct Ia as [G _]. rewrite G, Ev, Hb. reflexivity. }
          destruct (@step_dist (m_arb c) Hc (x_arb s) x p last Ia eq_refl Rr Hh Hp Hq M) as (V & M' & [Q|Q]).
          -- left. split; auto. split; auto. lia.
          -- right. exists (a_enc (arb_step (m_arb c) (x_arb s) x)). split; auto. lia.
      + (* a beat of the granted port moves *)
        set (q := a_enc (x_arb s)) in *.
        destruct (Nat.eq_dec q p) as [Eq|Hne].
        { left. rewrite Eq in *. rewrite Hb in Eb. inversion Eb. left. reflexivity. }
        right.
        assert (Hb1 : x_in (fst (mux_step c s i)) p = Some b).
        { destruct I as [[G _] _]. unfold mux_step. rewrite R. cbn [fst x_in]. unfold mux_sready.
          rewrite Hb, G. cbn [isnone orb]. fold q.
          destruct (Nat.eqb_spec p q); [congruence|]. rewrite !andb_false_r. auto. }
        apply IH; auto.
        destruct H as [(_ & ? & _)|(last & M & H)]; [congruence|].
        destruct (ends (m_ax c) b0) eqn:Ee.
        * assert (L1 : lasts [(q, b0)] = 1) by (unfold Mux_spec.lasts; cbn; rewrite Ee; reflexivity).
          rewrite L1 in H. destruct I as [Ia Is].
          set (x := mkArbIn false (mux_req s i) (mux_ack c s)).
          assert (EA : x_arb (fst (mux_step c s i)) = arb_step (m_arb c) (x_arb s) x)
            by (unfold mux_step; rewrite R; reflexivity).
          rewrite EA.
          assert (Hh : held (m_arb c) (x_arb s) x = false).
          { unfold held. cbn [m_arb block block_ack ar_ack x]. rewrite Ev. cbn [andb].
            unfold x. cbn [ar_ack]. unfold mux_ack. fold q. rewrite Eb, Er.
            destruct Ia as [G _]. rewrite G, Ev. fold q. rewrite Nat.eqb_refl.
            unfold ends in Ee. rewrite Ee. reflexivity. }
          assert (Hq : ar_req x p = true).
          { cbn. unfold mux_req. destruct Ia as [G _]. rewrite G, Hb. fold q.
            destruct (Nat.eqb_spec p q); [congruence|]. rewrite andb_false_r. reflexivity. }
          destruct (@step_dist (m_arb c) Hc (x_arb s) x p last Ia eq_refl Rr Hh Hp Hq M) as (V & M' & [Q|Q]).
          -- left. split; auto. split; auto. lia.
          -- right. exists (a_enc (arb_step (m_arb c) (x_arb s) x)). split; auto. lia.
        * right. exists last.
          assert (L0 : lasts [(q, b0)] = 0) by (unfold Mux_spec.lasts; cbn; rewrite Ee; reflexivity).
          rewrite L0 in H.
          assert (N : mux_ack c s (a_enc (x_arb s)) = false).
          { unfold mux_ack. fold q. rewrite Eb. unfold ends in Ee. rewrite Ee, andb_false_r. auto. }
          rewrite (@no_ack_held s i I Ev N R). auto.
  Qed.

  Lemma mux_fair is1 is2 p : m_rr c = true -> p < m_count c -> mrunning (is1 ++ is2) ->
    let os := snd (trace (mux_step c) mux0 is1) in
    let s1 := fst (trace (mux_step c) mux0 is1) in
    length (from p (moved c mux0 is1)) < length (maccepted p is1 os) ->
    m_count c < lasts (moved c s1 is2) ->
    from p (moved c s1 is2) <> [].
  Proof.
    intros Rr Hp Hr. cbn zeta. intros Hw Hl.
    apply Forall_app in Hr. destruct Hr as [Hr1 Hr2].
    destruct (@mux_run is1 mux0 None Hr1 mux0_inv keeps0) as (I1 & _ & _ & B & _). cbn zeta in *.
    set (s1 := fst (trace (mux_step c) mux0 is1)) in *.
    specialize (B p). cbn [mux0 x_in olist app] in B. rewrite B, app_length in Hw.
    destruct (x_in s1 p) as [b|] eqn:Eb; [|cbn in Hw; lia].
    assert (Hin : In (p, b) (moved c s1 is2)).
    { apply wait_gen; auto. right.
      destruct I1 as [(_ & _ & last & M) _]. exists last. split; auto.
      pose proof (@dist_lt (m_arb c) Hc last p (proj1 M) Hp). cbn [m_arb ports] in *. lia. }
    intros E. unfold from in E. apply map_eq_nil in E.
    assert (X : In (p, b) (filter (fun x => fst x =? p) (moved c s1 is2)))
      by (apply filter_In; split; auto; cbn; apply Nat.eqb_refl).
    rewrite E in X. contradiction.
  Qed.

  (** With a ready sink, a waiting beat and no source stalling in mid-frame, a beat moves
      within two cycles. *)
  Lemma mux_progress is a b p : mrunning (is ++ [a; b]) ->
    let os := snd (trace (mux_step c) mux0 is) in
    let s1 := fst (trace (mux_step c) mux0 is) in
    p < m_count c ->
    length (from p (moved c mux0 is)) < length (maccepted p is os) ->
    mi_mready a = true ->
    (forall q, unfinished (m_ax c) (moved c mux0 is) = Some q -> mi_s a q <> None) ->
    moved c s1 [a; b] <> [].
  Proof.
    intros Hr. cbn zeta. intros Hp Hw Hm Hs.
    apply Forall_app in Hr. destruct Hr as [Hr1 Hr2].
    inversion Hr2 as [|? ? Ra Hr3]; subst. inversion Hr3 as [|? ? Rb _]; subst.
    destruct (@mux_run is mux0 None Hr1 mux0_inv keeps0) as (I1 & K & _ & B & _). cbn zeta in *.
    set (s1 := fst (trace (mux_step c) mux0 is)) in *.
    specialize (B p). cbn [mux0 x_in olist app] in B. rewrite B, app_length in Hw.
    destruct (x_in s1 p) as [y|] eqn:Ey; [|cbn in Hw; lia]. clear Hw B.
    cbn [moved]. fold (step_moved s1). fold (step_moved (fst (mux_step c s1 a))).
    destruct (step_moved_cases s1) as [(E & _ & W)|(b0 & E & _)]; rewrite E; [|discriminate].
    cbn [app]. rewrite app_nil_r.
    assert (Hrdy : k_rdy (x_skid (fst (mux_step c s1 a))) = true).
    { unfold mux_step. rewrite Ra, Hm. cbn [fst x_skid]. unfold skid_step.
      destruct (k_rdy (x_skid s1)); reflexivity. }
    set (s2 := fst (mux_step c s1 a)) in *.
    assert (X : a_valid (x_arb s2) = true /\ x_in s2 (a_enc (x_arb s2)) <> None).
    { destruct (a_valid (x_arb s1)) eqn:Ev.
      - assert (N : mux_ack c s1 (a_enc (x_arb s1)) = false).
        { unfold mux_ack. destruct W as [-> | [W | ->]]; rewrite ?andb_false_r; auto. congruence. }
        unfold s2. rewrite (@no_ack_held s1 a); auto. split; auto.
        destruct (x_in s1 (a_enc (x_arb s1))) as [z|] eqn:Ez.
        + rewrite (@x_in_stays s1 a _ z); auto; [discriminate|].
          destruct W as [W | [W | W]]; auto; congruence.
        + destruct K as [_ K]. specialize (K Ev Ez). specialize (Hs _ K).
          unfold mux_step. rewrite Ra. cbn [fst x_in]. unfold mux_sready. rewrite Ez. cbn [isnone orb]. exact Hs.
      - assert (V : a_valid (x_arb s2) = true).
        { pose proof I1 as [Ia Is].
          set (x := mkArbIn false (mux_req s1 a) (mux_ack c s1)).
          assert (EA : x_arb s2 = arb_step (m_arb c) (x_arb s1) x)
            by (unfold s2, mux_step; rewrite Ra; reflexivity).
          rewrite EA.
          assert (Hh : held (m_arb c) (x_arb s1) x = false) by (unfold held; rewrite Ev; reflexivity).
          destruct (@step_free (m_arb c) Hc (x_arb s1) x Ia eq_refl Hh) as (Hq & _).
          apply Hq. exists p. split; auto. cbn. unfold mux_req. destruct Ia as [G _].
          rewrite G, Ev, Ey. reflexivity. }
        split; auto. apply (@new_grant_full s1 a); auto. congruence. }
    destruct X as [V X].
    destruct (step_moved_cases s2) as [(_ & _ & [W2 | [W2 | W2]])|(b0 & E2 & _)]; try congruence.
  Qed.
End Mux.

(** The port number in tid. *)
Lemma mux_tid_port c p t :
  m_upd c = true -> 1 < m_count c -> p < m_count c -> (m_cl c <= m_idw c)%Z ->
  bits (mux_tid c p t) (m_idw c - m_cl c) (m_cl c) = Z.of_nat p.
Proof.
  intros Hu H1 Hp Hw. unfold mux_tid. apply Nat.ltb_lt in H1. rewrite Hu, H1. cbn [andb].
  assert (Hcl : (0 <= m_cl c)%Z) by (unfold m_cl; lia).
  assert (Hpp : (0 <= Z.of_nat p < 2 ^ m_cl c)%Z).
  { split; [lia|]. unfold m_cl. change 2%Z with (Z.of_nat 2). rewrite <- Nat2Z.inj_pow.
    apply Nat.ltb_lt in H1. pose proof (Nat.log2_up_spec (m_count c) H1). lia. }
  apply Z.bits_inj'. intros n Hn.
  rewrite bits_testbit by lia. rewrite setbits_testbit by lia.
  destruct (Z.ltb_spec n (m_cl c)).
  - rewrite andb_true_r.
    destruct (Z.leb_spec (m_idw c - m_cl c) (n + (m_idw c - m_cl c))); [|lia].
    destruct (Z.ltb_spec (n + (m_idw c - m_cl c)) (m_idw c - m_cl c + m_cl c)); [|lia].
    cbn [andb]. f_equal. lia.
  - rewrite andb_false_r. symmetry. 
    rewrite <- (Z.mod_small (Z.of_nat p) (2 ^ m_cl c)) by lia.
    apply Z.mod_pow2_bits_high. lia.
Qed.

Lemma mux_tid_low c p t n :
  (0 <= n < m_idw c - m_cl c)%Z -> Z.testbit (mux_tid c p t) n = Z.testbit t n.
Proof.
  intros Hn. unfold mux_tid.
  assert (Hcl : (0 <= m_cl c)%Z) by (unfold m_cl; lia).
  assert (T : Z.testbit (bits t 0 (m_idw c)) n = Z.testbit t n).
  { rewrite bits_testbit by lia. rewrite Z.add_0_r. destruct (Z.ltb_spec n (m_idw c)); [|lia].
    apply andb_true_r. }
  destruct (m_upd c && (1 <? m_count c))%bool; auto.
  rewrite setbits_testbit by lia.
  destruct (Z.leb_spec (m_idw c - m_cl c) n); [lia|]. exact T.
Qed.

Lemma shown_fields c p b :
  tdata (shown c (p, b)) = tdata b /\
  (keep_en (m_ax c) = true -> tkeep (shown c (p, b)) = tkeep b) /\
  (last_en (m_ax c) = true -> tlast (shown c (p, b)) = tlast b) /\
  (dest_en (m_ax c) = true -> tdest (shown c (p, b)) = tdest b) /\
  (user_en (m_ax c) = true -> tuser (shown c (p, b)) = tuser b) /\
  (id_en (m_ax c) = true -> m_upd c = false -> (0 <= tid b < 2 ^ m_idw c)%Z ->
     (0 <= m_idw c)%Z -> tid (shown c (p, b)) = tid b).
Proof.
  unfold shown, present, mux_beat. cbn [tdata tkeep tlast tid tdest tuser fst snd].
  repeat (split; [now auto || (intros ->; reflexivity)|]).
  intros -> Hu Ht Hw. unfold mux_tid. rewrite Hu. cbn [andb]. apply bits_full; auto.
Qed.
