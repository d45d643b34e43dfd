From Verif Require Import Base.Prelude Stream.Arb_model Stream.Arb_spec.

Lemma field_lt e base n : field e base n < 2 ^ n.
Proof. induction n; simpl; [lia|]. destruct (e (base + n)); lia. Qed.

Lemma field_ext e f b1 b2 n : (forall j, j < n -> e (b1 + j) = f (b2 + j)) -> field e b1 n = field f b2 n.
Proof.
  induction n; intros H; simpl; auto. rewrite IHn by (intros; apply H; lia).
  rewrite (H n) by lia. reflexivity.
Qed.

Definition block_ok (lsb : bool) (inp : nat -> bool) (l : nat) : Prop :=
  let v := fst (stage lsb inp l) in
  let e := snd (stage lsb inp l) in
  forall n,
    (v n = true <-> exists o, o < 2 ^ (l + 1) /\ inp (n * 2 ^ (l + 1) + o) = true) /\
    (v n = true ->
     let x := field e (n * (l + 1)) (l + 1) in
     x < 2 ^ (l + 1) /\ inp (n * 2 ^ (l + 1) + x) = true /\
     forall o, o < 2 ^ (l + 1) -> inp (n * 2 ^ (l + 1) + o) = true -> if lsb then x <= o else o <= x).

Lemma field_shift e n l :
  (l <> 0) ->
  forall (e' : nat -> bool) hi b,
  (forall j, j < l + 1 -> e' (n * (l + 1) + j) = if j =? l then hi else e (b * l + j)) ->
  field e' (n * (l + 1)) (l + 1) = field e (b * l) l + (if hi then 2 ^ l else 0).
Proof.
  intros Hl e' hi b H. replace (l + 1) with (S l) in * by lia. cbn [field].
  rewrite (H l) by lia. rewrite Nat.eqb_refl. f_equal. apply field_ext. intros j Hj.
  rewrite H by lia. destruct (Nat.eqb_spec j l); [lia|reflexivity].
Qed.

Lemma divmod_field n l j : j < l + 1 -> (n * (l + 1) + j) / (l + 1) = n /\ (n * (l + 1) + j) mod (l + 1) = j.
Proof.
  intros H. split.
  - rewrite Nat.add_comm, Nat.div_add by lia. rewrite Nat.div_small by lia. lia.
  - rewrite Nat.add_comm, Nat.mod_add by lia. apply Nat.mod_small. lia.
Qed.

Lemma stage_ok lsb inp l : block_ok lsb inp l.
Proof.
  induction l as [|m IH].
  - intros n. cbn [stage fst snd]. change (2 ^ (0 + 1)) with 2. split.
    + rewrite orb_true_iff. split.
      * intros [H|H]; [exists 0|exists 1]; rewrite ?Nat.add_0_r; split; auto.
      * intros (o & Ho & H). destruct o as [|[|o]]; [left|right|lia]; rewrite ?Nat.add_0_r in H; auto.
    + intros Hv. cbn [Nat.add field]. rewrite Nat.mul_1_r, Nat.add_0_r.
      destruct lsb.
      * destruct (inp (n * 2)) eqn:E; cbn.
        -- split; [lia|]. rewrite Nat.add_0_r. split; auto. intros. lia.
        -- cbn in Hv. split; [lia|]. split; auto. intros [|o] Ho H; [|lia].
           rewrite Nat.add_0_r in H. congruence.
      * destruct (inp (n * 2 + 1)) eqn:E; cbn.
        -- split; [lia|]. split; auto. intros. lia.
        -- rewrite orb_false_r in Hv. split; [lia|]. rewrite Nat.add_0_r. split; auto.
           intros [|[|o]] Ho H; try lia.
  - intros n. unfold block_ok in IH. cbn [stage].
    destruct (stage lsb inp m) as [v e]. cbn [fst snd] in *.
    set (l := S m) in *. replace (m + 1) with l in IH by (subst l; lia).
    assert (HP : 2 ^ (l + 1) = 2 * 2 ^ l) by (rewrite Nat.add_1_r; reflexivity).
    rewrite HP.
    destruct (IH (n * 2)) as [V0 X0]. destruct (IH (n * 2 + 1)) as [V1 X1].
    replace (n * 2 * 2 ^ l) with (n * (2 * 2 ^ l)) in * by lia.
    replace ((n * 2 + 1) * 2 ^ l) with (n * (2 * 2 ^ l) + 2 ^ l) in * by lia.
    set (B := n * (2 * 2 ^ l)) in *. set (P := 2 ^ l) in *.
    assert (Split : forall o, o < 2 * P -> inp (B + o) = true ->
      (o < P /\ v (n * 2) = true) \/ (P <= o /\ v (n * 2 + 1) = true)).
    { intros o Ho H. destruct (Nat.lt_ge_cases o P) as [Hlt|Hge].
      - left. split; auto. apply V0. exists o. auto.
      - right. split; auto. apply V1. exists (o - P). split; [lia|].
        replace (B + P + (o - P)) with (B + o) by lia. auto. }
    split.
    + rewrite orb_true_iff. split.
      * intros [H|H].
        -- apply V0 in H. destruct H as (o & Ho & H). exists o. split; [lia|auto].
        -- apply V1 in H. destruct H as (o & Ho & H). exists (P + o). split; [lia|].
           replace (B + (P + o)) with (B + P + o) by lia. auto.
      * intros (o & Ho & H). destruct (Split o Ho H) as [[_ ?]|[_ ?]]; auto.
    + intros Hv.
      cbv zeta. match goal with |- context [field ?F (n * (l + 1)) (l + 1)] => set (E := F) end.
      assert (Sel : forall hi : bool,
        (if lsb then negb (v (n * 2)) else v (n * 2 + 1)) = hi ->
        field E (n * (l + 1)) (l + 1)
        = field e ((if hi then n * 2 + 1 else n * 2) * l) l + (if hi then P else 0)).
      { intros hi Hhi. apply field_shift; [subst l; lia|].
        intros j Hj. destruct (divmod_field n l Hj) as [D M]. unfold E. cbv beta zeta. rewrite D, M.
        destruct lsb.
        - destruct (v (n * 2)); cbn in Hhi; subst hi; reflexivity.
        - destruct (v (n * 2 + 1)); subst hi; reflexivity. }
      rewrite (Sel _ eq_refl). clear Sel.
      destruct lsb.
      * destruct (v (n * 2)) eqn:E0; cbn [negb].
        -- destruct (X0 eq_refl) as (Y1 & Y2 & Y3).
           replace (n * 2 * l) with ((n * 2) * l) in * by lia.
           rewrite Nat.add_0_r. split; [lia|]. split; auto.
           intros o Ho H. destruct (Nat.lt_ge_cases o P); [apply Y3; auto|lia].
        -- cbn in Hv. destruct (X1 Hv) as (Y1 & Y2 & Y3).
           split; [lia|]. split.
           ++ replace (B + (field e ((n * 2 + 1) * l) l + P)) with (B + P + field e ((n * 2 + 1) * l) l) by lia. auto.
           ++ intros o Ho H. destruct (Split o Ho H) as [[_ ?]|[Hge _]]; [congruence|].
              assert (field e ((n * 2 + 1) * l) l <= o - P).
              { apply Y3; [lia|]. replace (B + P + (o - P)) with (B + o) by lia. auto. }
              lia.
      * destruct (v (n * 2 + 1)) eqn:E1.
        -- destruct (X1 eq_refl) as (Y1 & Y2 & Y3).
           split; [lia|]. split.
           ++ replace (B + (field e ((n * 2 + 1) * l) l + P)) with (B + P + field e ((n * 2 + 1) * l) l) by lia. auto.
           ++ intros o Ho H. destruct (Nat.lt_ge_cases o P); [lia|].
              assert (o - P <= field e ((n * 2 + 1) * l) l).
              { apply Y3; [lia|]. replace (B + P + (o - P)) with (B + o) by lia. auto. }
              lia.
        -- rewrite orb_false_r in Hv. destruct (X0 Hv) as (Y1 & Y2 & Y3).
           rewrite Nat.add_0_r. split; [lia|]. split; auto.
           intros o Ho H. destruct (Split o Ho H) as [[Hlt _]|[_ ?]]; [|congruence].
           apply Y3; auto.
Qed.

Lemma levels_big w : w <= 2 ^ levels w.
Proof.
  unfold levels. destruct (Nat.ltb_spec 2 w).
  - apply Nat.log2_up_spec. lia.
  - simpl. lia.
Qed.
Lemma levels_pos w : 1 <= levels w.
Proof.
  unfold levels. destruct (Nat.ltb_spec 2 w); [|lia].
  change 1 with (Nat.log2_up 2). apply Nat.log2_up_le_mono. lia.
Qed.

Lemma pe_valid_spec w lsb inp : pe_valid w lsb inp = true <-> exists i, i < w /\ inp i = true.
Proof.
  unfold pe_valid.
  destruct (stage_ok lsb (padded w inp) (levels w - 1) 0) as [V _].
  rewrite V. pose proof (levels_big w) as HB. pose proof (levels_pos w) as HP.
  replace (levels w - 1 + 1) with (levels w) by lia.
  unfold padded. split.
  - intros (o & Ho & H). simpl in H. apply andb_prop in H. destruct H as [H1 H2].
    apply Nat.ltb_lt in H1. eauto.
  - intros (i & Hi & H). exists i. split; [lia|]. simpl. apply Nat.ltb_lt in Hi. rewrite Hi. auto.
Qed.

Lemma pe_encoded_spec w lsb inp :
  pe_valid w lsb inp = true -> extreme_bit lsb w inp (pe_encoded w lsb inp).
Proof.
  unfold pe_valid, pe_encoded. intros Hv.
  destruct (stage_ok lsb (padded w inp) (levels w - 1) 0) as [_ X].
  specialize (X Hv). cbv zeta in X.
  pose proof (levels_big w) as HB. pose proof (levels_pos w) as HP.
  replace (levels w - 1 + 1) with (levels w) in X by lia.
  rewrite !Nat.mul_0_l in X. cbn [Nat.add] in X.
  destruct X as (X1 & X2 & X3). unfold padded in X2 at 1. apply andb_prop in X2.
  destruct X2 as [X2 X4]. apply Nat.ltb_lt in X2.
  split; auto. split; auto. intros j Hj H. apply X3; [lia|].
  unfold padded. apply Nat.ltb_lt in Hj. rewrite Hj. auto.
Qed.

Lemma extreme_unique b w f i j : extreme_bit b w f i -> extreme_bit b w f j -> i = j.
Proof.
  intros (A1 & A2 & A3) (B1 & B2 & B3).
  specialize (A3 j B1 B2). specialize (B3 i A1 A2). destruct b; lia.
Qed.

Lemma any_true n f : any n f = true <-> exists k, k < n /\ f k = true.
Proof.
  unfold any. rewrite existsb_exists. split; intros (k & H & E).
  - apply in_seq in H. exists k. split; auto; lia.
  - exists k. split; auto. apply in_seq. lia.
Qed.

Lemma in_firstn_mono (A : Type) (a b : nat) (l : list A) p :
  a <= b -> In p (firstn a l) -> In p (firstn b l).
Proof.
  revert a b. induction l as [|y l IHl]; intros a b Hle H; [destruct a; contradiction|].
  destruct a as [|a]; [contradiction|]. destruct b as [|b]; [lia|].
  cbn in *. destruct H; auto. right. apply (IHl a b); auto. lia.
Qed.

(** * Arbiter *)
Section Arb.
  Variable c : arbcfg.
  Hypothesis Hp : 0 < ports c.

  (** The position after which the round-robin search starts: the mask is the set of
      ports behind it. *)
  Definition mask_is (s : arb) (last : nat) : Prop :=
    last < ports c /\
    forall k, k < ports c -> a_mask s k = if lsb_high c then last <? k else k <? last.

  Definition inv (s : arb) : Prop :=
    (forall k, a_grant s k = (a_valid s && (k =? a_enc s))%bool) /\
    (a_valid s = true -> a_enc s < ports c) /\
    (exists last, mask_is s last).

  Lemma inv0 : inv arb0.
  Proof.
    split; [|split]; cbn; auto; try discriminate.
    exists (if lsb_high c then ports c - 1 else 0). split; [destruct (lsb_high c); lia|].
    intros k Hk. cbn [arb0 a_mask]. destruct (lsb_high c); symmetry; apply Nat.ltb_ge; lia.
  Qed.

  Lemma unenc_enc l f k : pe_valid (ports c) l f = true ->
    pe_unencoded (ports c) l f k = (true && (k =? pe_encoded (ports c) l f))%bool.
  Proof.
    intros H. apply pe_encoded_spec in H. destruct H as [H _]. unfold pe_unencoded.
    destruct (Nat.eqb_spec k (pe_encoded (ports c) l f)).
    - subst k. apply Nat.ltb_lt in H. rewrite H. reflexivity.
    - rewrite !andb_false_r. reflexivity.
  Qed.

  Lemma mask_after_is i g v e : i < ports c -> mask_is (mkArbSt g v e (mask_after c i)) i.
  Proof.
    intros Hi. split; auto. intros k Hk. cbn [a_mask]. unfold mask_after.
    destruct (lsb_high c).
    - destruct (Nat.ltb_spec i k), (Nat.ltb_spec k (ports c)), (Nat.leb_spec (i + 1) k); cbn; auto; lia.
    - destruct (Nat.ltb_spec k i), (Nat.ltb_spec (k + (ports c - i)) (ports c)); auto; lia.
  Qed.

  Lemma held_eq s x : inv s -> ar_rst x = false ->
    held c s x = (block c && negb (block_ack c) && any (ports c) (fun k => a_grant s k && ar_req x k)
      || block c && block_ack c && a_valid s && negb (any (ports c) (fun k => a_grant s k && ar_ack x k)))%bool.
  Proof.
    intros (G & V & _) _. unfold held.
    assert (A : forall f, any (ports c) (fun k => (a_grant s k && f k)%bool) = (a_valid s && f (a_enc s))%bool).
    { intros f. apply eq_true_iff_eq. rewrite any_true, andb_true_iff. split.
      - intros (k & Hk & H). rewrite G in H. apply andb_prop in H. destruct H as [H1 H2].
        apply andb_prop in H1. destruct H1 as [H1 H3]. apply Nat.eqb_eq in H3. subst k. auto.
      - intros [H1 H2]. exists (a_enc s). rewrite G, H1, H2, Nat.eqb_refl. auto. }
    rewrite !A. destruct (block c), (block_ack c), (a_valid s); cbn; auto;
      rewrite ?orb_false_r; auto.
  Qed.

  Lemma step_inv s x : inv s -> inv (arb_step c s x).
  Proof.
    intros H. unfold arb_step. destruct (ar_rst x); [apply inv0|].
    destruct (block c && negb (block_ack c) && _)%bool; auto.
    destruct (block c && block_ack c && a_valid s && _)%bool; auto.
    destruct H as (G & V & M).
    destruct (pe_valid (ports c) (lsb_high c) (ar_req x)) eqn:Ev.
    - destruct (rr c); [destruct (pe_valid _ _ (fun k => ar_req x k && a_mask s k)%bool) eqn:Em|].
      + pose proof (@pe_encoded_spec _ _ _ Em) as (L & _).
        split; [|split]; cbn [a_grant a_valid a_enc]; auto.
        * intros k. apply unenc_enc; auto.
        * eexists. apply mask_after_is; auto.
      + pose proof (@pe_encoded_spec _ _ _ Ev) as (L & _).
        split; [|split]; cbn [a_grant a_valid a_enc]; auto.
        * intros k. apply unenc_enc; auto.
        * eexists. apply mask_after_is; auto.
      + pose proof (@pe_encoded_spec _ _ _ Ev) as (L & _).
        split; [|split]; cbn [a_grant a_valid a_enc]; auto.
        intros k. apply unenc_enc; auto.
    - split; [|split]; cbn [a_grant a_valid a_enc]; auto; discriminate.
  Qed.

  Lemma reach_inv s : arb_reach c s -> inv s.
  Proof. intros (xs & ->). apply run_invariant; [intros; apply step_inv; auto|apply inv0]. Qed.

  Lemma step_held s x : inv s -> ar_rst x = false -> held c s x = true -> arb_step c s x = s.
  Proof.
    intros I R H. rewrite (held_eq _ I R) in H. unfold arb_step. rewrite R.
    destruct (block c && negb (block_ack c) && _)%bool; auto.
    destruct (block c && block_ack c && a_valid s && _)%bool; auto. discriminate.
  Qed.

  (** One decision. *)
  Lemma step_free s x : inv s -> ar_rst x = false -> held c s x = false ->
    (a_valid (arb_step c s x) = true <-> exists p, p < ports c /\ ar_req x p = true) /\
    (a_valid (arb_step c s x) = true -> ar_req x (a_enc (arb_step c s x)) = true) /\
    (a_valid (arb_step c s x) = true -> rr c = false ->
       extreme_bit (lsb_high c) (ports c) (ar_req x) (a_enc (arb_step c s x))) /\
    (a_valid (arb_step c s x) = true -> rr c = true ->
       forall last, mask_is s last ->
       mask_is (arb_step c s x) (a_enc (arb_step c s x)) /\
       ((exists p, p < ports c /\ ar_req x p = true /\ a_mask s p = true) ->
          extreme_bit (lsb_high c) (ports c) (fun k => ar_req x k && a_mask s k)%bool (a_enc (arb_step c s x))) /\
       (~ (exists p, p < ports c /\ ar_req x p = true /\ a_mask s p = true) ->
          extreme_bit (lsb_high c) (ports c) (ar_req x) (a_enc (arb_step c s x)))).
  Proof.
    intros I R H. rewrite (held_eq _ I R) in H. apply orb_false_elim in H. destruct H as [H1 H2].
    unfold arb_step. rewrite R, H1, H2.
    destruct (pe_valid (ports c) (lsb_high c) (ar_req x)) eqn:Ev.
    - assert (EX : exists p, p < ports c /\ ar_req x p = true) by (apply (pe_valid_spec (ports c) (lsb_high c)); auto).
      destruct (rr c) eqn:Er; [destruct (pe_valid _ _ (fun k => ar_req x k && a_mask s k)%bool) eqn:Em|];
        cbn [a_valid a_enc].
      + pose proof (@pe_encoded_spec _ _ _ Em) as X. split; [tauto|]. split; [|split; [discriminate|]].
        * intros _. destruct X as (_ & X & _). apply andb_prop in X. tauto.
        * intros _ _ last Hm. split; [apply mask_after_is; apply X|]. split; [auto|].
          intros N. exfalso. apply N. destruct X as (X1 & X2 & _). apply andb_prop in X2.
          eexists. split; [exact X1|]. tauto.
      + pose proof (@pe_encoded_spec _ _ _ Ev) as X. split; [tauto|]. split; [|split; [discriminate|]].
        * intros _. apply X.
        * intros _ _ last Hm. split; [apply mask_after_is; apply X|]. split; [|auto].
          intros (p & P1 & P2 & P3). exfalso.
          assert (pe_valid (ports c) (lsb_high c) (fun k => ar_req x k && a_mask s k)%bool = true).
          { apply pe_valid_spec. exists p. rewrite P2, P3. auto. }
          congruence.
      + pose proof (@pe_encoded_spec _ _ _ Ev) as X. split; [tauto|]. split; [|split; [|discriminate]].
        * intros _. apply X.
        * auto.
    - cbn [a_valid]. split; [|split; [discriminate|split; discriminate]].
      split; [discriminate|]. intros E. apply (pe_valid_spec (ports c) (lsb_high c)) in E. congruence.
  Qed.

  (** Round-robin distance from the last granted port to [p]: how many ports come
      before it in the search order. *)
  Definition dist (last p : nat) : nat :=
    if lsb_high c then (if last <? p then p - last - 1 else ports c - 1 - last + p)
    else (if p <? last then last - p - 1 else last + (ports c - 1 - p)).

  Lemma dist_lt last p : last < ports c -> p < ports c -> dist last p < ports c.
  Proof.
    intros. unfold dist. destruct (lsb_high c).
    - destruct (Nat.ltb_spec last p); lia.
    - destruct (Nat.ltb_spec p last); lia.
  Qed.

  Lemma step_dist s x p last : inv s -> ar_rst x = false -> rr c = true -> held c s x = false ->
    p < ports c -> ar_req x p = true -> mask_is s last ->
    a_valid (arb_step c s x) = true /\
    mask_is (arb_step c s x) (a_enc (arb_step c s x)) /\
    (a_enc (arb_step c s x) = p \/ dist (a_enc (arb_step c s x)) p < dist last p).
  Proof.
    intros I R Rr Hh Hpp Hr M.
    destruct (@step_free _ _ I R Hh) as (V & _ & _ & D).
    assert (Va : a_valid (arb_step c s x) = true) by (apply V; eauto).
    destruct (D Va Rr last M) as (D1 & D2 & D3).
    split; auto. split; auto.
    set (q := a_enc (arb_step c s x)) in *.
    destruct (Nat.eq_dec q p) as [->|Hne]; auto. right.
    destruct M as [M1 M2].
    assert (Q : (exists p0, p0 < ports c /\ ar_req x p0 = true /\ a_mask s p0 = true) \/
                ~ (exists p0, p0 < ports c /\ ar_req x p0 = true /\ a_mask s p0 = true)).
    { destruct (any (ports c) (fun k => ar_req x k && a_mask s k)%bool) eqn:E.
      - left. apply any_true in E. destruct E as (k & Hk & E). apply andb_prop in E. exists k. tauto.
      - right. intros (k & Hk & E1 & E2).
        assert (any (ports c) (fun k => ar_req x k && a_mask s k)%bool = true)
          by (apply any_true; exists k; rewrite E1, E2; auto). congruence. }
    destruct Q as [Q|Q].
    - destruct (D2 Q) as (X1 & X2 & X3). apply andb_prop in X2. destruct X2 as [X2 X4].
      rewrite M2 in X4 by auto.
      specialize (X3 p Hpp). rewrite Hr, (M2 p Hpp) in X3. cbn [andb] in X3.
      unfold dist. destruct (lsb_high c).
      + apply Nat.ltb_lt in X4.
        destruct (Nat.ltb_spec last p), (Nat.ltb_spec q p); try lia;
          try (specialize (X3 eq_refl); lia).
      + apply Nat.ltb_lt in X4.
        destruct (Nat.ltb_spec p last), (Nat.ltb_spec p q); try lia;
          try (specialize (X3 eq_refl); lia).
    - destruct (D3 Q) as (X1 & X2 & X3). specialize (X3 p Hpp Hr).
      assert (NP : a_mask s p = false).
      { destruct (a_mask s p) eqn:E; auto. exfalso. apply Q. eauto. }
      assert (NQ : a_mask s q = false).
      { destruct (a_mask s q) eqn:E; auto. exfalso. apply Q. eauto. }
      rewrite M2 in NP, NQ by auto.
      unfold dist. destruct (lsb_high c).
      + apply Nat.ltb_ge in NP, NQ. rewrite <- Nat.ltb_ge in NP. rewrite NP.
        apply Nat.ltb_ge in NP. destruct (Nat.ltb_spec q p); lia.
      + apply Nat.ltb_ge in NP, NQ. rewrite <- Nat.ltb_ge in NP. rewrite NP.
        apply Nat.ltb_ge in NP. destruct (Nat.ltb_spec p q); lia.
  Qed.

  Lemma fair_gen p xs : rr c = true -> p < ports c ->
    forall s last, inv s -> mask_is s last ->
    Forall (fun x => ar_rst x = false /\ ar_req x p = true) xs ->
    dist last p < length (grants c s xs) ->
    In p (firstn (S (dist last p)) (grants c s xs)).
  Proof.
    intros Rr Hpp. induction xs as [|x xs IH]; intros s last I M F L.
    - cbn in L. lia.
    - inversion F as [|? ? [R Hr] F']; subst. cbn [grants] in *.
      destruct (held c s x) eqn:Hh.
      + rewrite (@step_held _ _ I R Hh) in *. cbn [negb andb app] in *. eapply IH; eauto.
      + destruct (@step_dist _ _ _ _ I R Rr Hh Hpp Hr M) as (V & M' & [E|Dd]); rewrite V in *; cbn [negb andb app] in *.
        * rewrite E. left. reflexivity.
        * set (q := a_enc (arb_step c s x)) in *.
          destruct (dist last p) as [|d] eqn:Ed; [lia|].
          pose proof (IH (arb_step c s x) q (@step_inv _ x I) M' F') as IH'.
          cbn [length] in L. specialize (IH' ltac:(lia)).
          apply (@in_firstn_mono _ (S (S (dist q p)))); [lia|]. right. exact IH'.
  Qed.

  Lemma fair s p xs : rr c = true -> p < ports c -> arb_reach c s ->
    Forall (fun x => ar_rst x = false /\ ar_req x p = true) xs ->
    ports c <= length (grants c s xs) ->
    In p (firstn (ports c) (grants c s xs)).
  Proof.
    intros Rr Hpp Hs F L. pose proof (@reach_inv _ Hs) as I.
    destruct I as (G & V & last & M). assert (I : inv s) by (split; [|split]; eauto).
    pose proof (@dist_lt _ _ (proj1 M) Hpp) as Hd.
    pose proof (@fair_gen _ _ Rr Hpp _ _ I M F) as H. specialize (H ltac:(lia)).
    apply (@in_firstn_mono _ (S (dist last p))); [lia|exact H].
  Qed.
End Arb.

Lemma pe_unencoded_spec w lsb inp :
  (exists i, i < w /\ inp i = true) ->
  forall k, pe_unencoded w lsb inp k = true <-> extreme_bit lsb w inp k.
Proof.
  intros H k. apply (pe_valid_spec w lsb) in H. apply pe_encoded_spec in H.
  unfold pe_unencoded. rewrite andb_true_iff, Nat.ltb_lt, Nat.eqb_eq. split.
  - intros [_ ->]. auto.
  - intros E. split; [apply E|]. eapply extreme_unique; eauto.
Qed.

Lemma pe_ext w lsb f g :
  (forall i, i < w -> f i = g i) ->
  pe_valid w lsb f = pe_valid w lsb g /\
  ((exists i, i < w /\ f i = true) -> pe_encoded w lsb f = pe_encoded w lsb g).
Proof.
  intros E. split.
  - apply eq_true_iff_eq. rewrite !pe_valid_spec. split; intros (i & Hi & H); exists i; split; auto.
    + rewrite <- E; auto.
    + rewrite E; auto.
  - intros H. assert (H2 : exists i, i < w /\ g i = true).
    { destruct H as (i & Hi & H). exists i. rewrite <- E; auto. }
    apply (pe_valid_spec w lsb) in H. apply pe_encoded_spec in H.
    apply (pe_valid_spec w lsb) in H2. apply pe_encoded_spec in H2.
    destruct H2 as (A & B & C). eapply extreme_unique; eauto.
    split; auto. split; [rewrite E; auto|]. intros j Hj Hf. apply C; auto. rewrite <- E; auto.
Qed.

Lemma one_hot c s : 0 < ports c -> arb_reach c s ->
  (forall k, a_grant s k = true <-> (a_valid s = true /\ k = a_enc s)) /\
  (a_valid s = true -> a_enc s < ports c).
Proof.
  intros Hp Hs. destruct (@reach_inv c Hp s Hs) as (G & V & _). split; auto.
  intros k. rewrite G, andb_true_iff, Nat.eqb_eq. tauto.
Qed.

Lemma to_requester c s x : 0 < ports c -> arb_reach c s ->
  ar_rst x = false -> held c s x = false ->
  (a_valid (arb_step c s x) = true <-> exists p, p < ports c /\ ar_req x p = true) /\
  (a_valid (arb_step c s x) = true -> ar_req x (a_enc (arb_step c s x)) = true).
Proof.
  intros Hp Hs R H. destruct (@step_free c Hp s x (@reach_inv c Hp s Hs) R H) as (A & B & _). auto.
Qed.

Lemma fixed_priority c s x : 0 < ports c -> arb_reach c s ->
  ar_rst x = false -> held c s x = false -> rr c = false ->
  (exists p, p < ports c /\ ar_req x p = true) ->
  extreme_bit (lsb_high c) (ports c) (ar_req x) (a_enc (arb_step c s x)).
Proof.
  intros Hp Hs R H Hr E. destruct (@step_free c Hp s x (@reach_inv c Hp s Hs) R H) as (A & _ & C & _).
  apply C; auto. apply A; auto.
Qed.

Lemma stays_held c s x : 0 < ports c -> arb_reach c s ->
  ar_rst x = false -> held c s x = true ->
  a_valid (arb_step c s x) = true /\ a_enc (arb_step c s x) = a_enc s /\
  forall k, a_grant (arb_step c s x) k = a_grant s k.
Proof.
  intros Hp Hs R H. rewrite (@step_held c s x (@reach_inv c Hp s Hs) R H). split; auto.
  unfold held in H. destruct (block c), (a_valid s); cbn in H; auto; discriminate.
Qed.

Lemma starves n :
  exists xs, Forall (fun x => ar_rst x = false /\ ar_req x 1 = true) xs /\
    grants (mkArb 2 false false false true) arb0 xs = repeat 0 n.
Proof.
  set (x := mkArbIn false (fun _ => true) (fun _ => false)).
  exists (repeat x n). split.
  - apply Forall_forall. intros y Hy. apply repeat_spec in Hy. subst y. auto.
  - generalize arb0. induction n as [|n IH]; intros s; [reflexivity|].
    cbn [repeat grants]. rewrite IH. reflexivity.
Qed.
