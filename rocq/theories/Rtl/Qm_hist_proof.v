(** History properties of the atomic queue manager. *)
From Verif Require Import Base.Prelude Base.Bits Rtl.OpTable_spec Rtl.OpTable_proof
  Rtl.Handshake_spec Rtl.Qm_model Rtl.Qm_spec Rtl.Qm_proof.
Open Scope Z_scope.

Lemma view_app a b : view (a ++ b) = fold_left view1 b (view a).
Proof. unfold view. apply fold_left_app. Qed.

Lemma astep_view N cld A e B q : astep N cld A e B -> a_q B q = view1 (a_q A) e q.
Proof. intros H. destruct H; reflexivity. Qed.

Lemma view1_ext f g e : (forall q, f q = g q) -> forall q, view1 f e q = view1 g e q.
Proof.
  intros H q. destruct e; simpl; auto; unfold zupd; destruct (q =? q0); auto; rewrite H; auto.
Qed.

Lemma fold_view_ext es : forall f g, (forall q, f q = g q) ->
  forall q, fold_left view1 es f q = fold_left view1 es g q.
Proof.
  induction es as [|e es IH]; simpl; auto. intros f g H q. apply IH. apply view1_ext; auto.
Qed.

Lemma aruns_view N cld A es B : aruns N cld A es B ->
  forall q, a_q B q = fold_left view1 es (a_q A) q.
Proof.
  induction 1 as [|A e B es C Hs Hr IH]; simpl; auto.
  intros q. rewrite IH. apply fold_view_ext. intros k. eapply astep_view; eauto.
Qed.

Lemma aruns0_view N cld es B : aruns N cld satom0 es B -> forall q, a_q B q = view es q.
Proof. intros H q. rewrite (aruns_view H). reflexivity. Qed.

Lemma aruns_split N cld A a b C : aruns N cld A (a ++ b) C ->
  exists B, aruns N cld A a B /\ aruns N cld B b C.
Proof.
  revert A; induction a as [|e a IH]; simpl; intros A H.
  - exists A. split; auto. constructor.
  - inversion H as [|A0 e0 B es C0 Hs Hr]; subst. destruct (IH _ Hr) as (B' & H1 & H2).
    exists B'. split; auto. econstructor; eauto.
Qed.

Lemma aruns_cons_inv N cld A e es C : aruns N cld A (e :: es) C ->
  exists B, astep N cld A e B /\ aruns N cld B es C.
Proof. inversion 1; subst; eauto. Qed.

(** Pointers stay 16 bit. *)
Definition rng (A : satom) : Prop :=
  (forall q, 0 <= s_cons (a_q A q) < 2 ^ 16 /\ 0 <= s_prod (a_q A q) < 2 ^ 16) /\
  Forall (fun o => 0 <= so_ptr o < 2 ^ 16) (a_ops A).

Lemma rng0 : rng satom0.
Proof. split; simpl; auto. intros; lia. Qed.

Lemma s_write_rng x reg data strb :
  0 <= s_cons x < 2 ^ 16 /\ 0 <= s_prod x < 2 ^ 16 ->
  0 <= s_cons (s_write x reg data strb) < 2 ^ 16 /\ 0 <= s_prod (s_write x reg data strb) < 2 ^ 16.
Proof.
  intros H. pose proof (Z.mod_pos_bound data (2 ^ 16) ltac:(lia)).
  unfold s_write. destruct x as [pr co cq ls lb en ba]. cbn [s_cons s_prod] in *.
  destruct (decode reg data); try destruct en; cbn [s_cons s_prod]; auto; tauto.
Qed.

Lemma mark_forall (P : sop -> Prop) l : (forall o, P o -> P (mkOp (so_q o) (so_ptr o) true)) ->
  forall j, Forall P l -> Forall P (mark l j).
Proof.
  intros HP. induction l as [|o l IH]; intros j H; [destruct j; auto|].
  inversion H; subst. destruct j; simpl; constructor; auto.
Qed.

Lemma rng_step N cld A e B : astep N cld A e B -> rng A -> rng B.
Proof.
  intros Hs [H1 H2]. destruct Hs as [q reg data strb|q reg|q tag Ho|q tag Ho Hl|j Hj Hd|o rest El Hd];
    split; cbn [a_q a_ops]; auto.
  - intros k. unfold zupd. destruct (k =? q); auto. apply s_write_rng; auto.
  - apply Forall_app. split; auto. constructor; auto. cbn [so_ptr]. apply Z.mod_pos_bound. lia.
  - apply mark_forall; auto.
  - rewrite El in H2. inversion H2; subst. intros k. unfold zupd.
    destruct (k =? so_q o); auto. specialize (H1 (so_q o)).
    destruct (a_q A (so_q o)) as [pr0 co0 cq0 ls0 lb0 en0 ba0]. cbn [s_cons s_prod] in *. tauto.
  - rewrite El in H2. inversion H2; auto.
Qed.

Lemma rng_runs N cld A es B : aruns N cld A es B -> rng A -> rng B.
Proof. induction 1; auto. intros. apply IHaruns. eapply rng_step; eauto. Qed.

Lemma last_ptr_in q l p : last_ptr q l = Some p -> exists o, In o l /\ so_ptr o = p.
Proof.
  induction l as [|o l IH]; simpl; [discriminate|].
  destruct (last_ptr q l) as [p'|].
  - intros E. destruct (IH E) as (x & Hx & Ex). eauto.
  - destruct (so_q o =? q); [|discriminate]. intros E; injection E as <-. eauto.
Qed.

Lemma head_rng A q : rng A -> 0 <= s_head A q < 2 ^ 16.
Proof.
  intros [H1 H2]. unfold s_head. destruct (last_ptr q (a_ops A)) as [p|] eqn:E.
  - destruct (last_ptr_in _ _ E) as (o & Ho & <-). rewrite Forall_forall in H2. auto.
  - apply H1.
Qed.

Lemma s_write_cons x reg data strb :
  decode reg data <> CCons -> s_cons (s_write x reg data strb) = s_cons x.
Proof.
  unfold s_write. destruct x as [pr co cq ls lb en ba].
  destruct (decode reg data); try destruct en; try reflexivity. congruence.
Qed.

(** The head moves by one per operation handed out, and by nothing else. *)
Lemma head_step N cld A e B q :
  astep N cld A e B -> ~ cons_write q e ->
  s_head B q = if is_handed q e then (s_head A q + 1) mod 2 ^ 16 else s_head A q.
Proof.
  intros Hs Hn. destruct Hs as [q' reg data strb|q' reg|q' tag Ho|q' tag Ho Hl|j Hj Hd|o rest El Hd];
    cbn [is_handed cons_write] in *; auto.
  - unfold s_head. cbn [a_ops a_q]. destruct (last_ptr q (a_ops A)); auto.
    unfold zupd. destruct (Z.eqb_spec q q') as [->|]; auto.
    apply s_write_cons. intro; apply Hn; auto.
  - rewrite Ho. reflexivity.
  - rewrite Ho. unfold s_head. cbn [a_ops a_q rs_queue s_resp].
    rewrite last_ptr_app. cbn [so_q so_ptr]. destruct (Z.eqb_spec q' q) as [->|]; auto.
  - unfold s_head. cbn [a_ops a_q]. rewrite mark_last_ptr. reflexivity.
  - unfold s_head. cbn [a_ops a_q]. rewrite El. cbn [last_ptr].
    destruct (last_ptr q rest); auto. unfold zupd.
    destruct (Z.eqb_spec q (so_q o)) as [->|].
    + rewrite Z.eqb_refl. destruct (a_q A (so_q o)) as [pr0 co0 cq0 ls0 lb0 en0 ba0]; reflexivity.
    + destruct (Z.eqb_spec (so_q o) q); [congruence|reflexivity].
Qed.

Lemma handed_cons q e es : handed q (e :: es) = ((if is_handed q e then 1 else 0) + handed q es)%nat.
Proof. unfold handed. simpl. destruct (is_handed q e); reflexivity. Qed.
Lemma handed_app q a b : handed q (a ++ b) = (handed q a + handed q b)%nat.
Proof. unfold handed. rewrite filter_app, app_length. reflexivity. Qed.
Lemma retired_app q a b : retired q (a ++ b) = (retired q a + retired q b)%nat.
Proof. unfold retired. rewrite filter_app, app_length. reflexivity. Qed.
Lemma retired_cons q e es : retired q (e :: es) = ((if is_retired q e then 1 else 0) + retired q es)%nat.
Proof. unfold retired. simpl. destruct (is_retired q e); reflexivity. Qed.

Lemma head_runs N cld A es B q :
  aruns N cld A es B -> no_cons_write q es -> rng A ->
  s_head B q = (s_head A q + Z.of_nat (handed q es)) mod 2 ^ 16.
Proof.
  induction 1 as [A|A e B es C Hs Hr IH]; intros Hn HR.
  - simpl. rewrite Z.add_0_r, Z.mod_small; auto. apply head_rng; auto.
  - inversion Hn; subst. rewrite IH; auto; [|eapply rng_step; eauto].
    rewrite (head_step q Hs) by auto. rewrite handed_cons.
    destruct (is_handed q e); [|f_equal; lia].
    rewrite Z.add_mod_idemp_l by lia. f_equal. lia.
Qed.

(** Outstanding operations of a queue = handed out minus retired. *)
Definition nops (q : Z) (l : list sop) : nat := length (filter (fun o => (so_q o =? q)%Z) l).

Lemma nops_busy q l : busy q l = negb (nops q l =? 0)%nat.
Proof.
  unfold busy, nops. induction l as [|o l IH]; simpl; auto.
  destruct (so_q o =? q); simpl; auto.
Qed.

Lemma nops_mark q l : forall j, nops q (mark l j) = nops q l.
Proof.
  unfold nops. induction l as [|o l IH]; intros [|j]; simpl; auto.
  - destruct (so_q o =? q); auto.
  - destruct (so_q o =? q); simpl; rewrite IH; auto.
Qed.

Lemma nops_runs N cld A es B q : aruns N cld A es B ->
  (nops q (a_ops B) + retired q es = nops q (a_ops A) + handed q es)%nat.
Proof.
  induction 1 as [A|A e B es C Hs Hr IH]; auto.
  rewrite handed_cons, retired_cons.
  enough (nops q (a_ops B) + (if is_retired q e then 1 else 0) =
          nops q (a_ops A) + (if is_handed q e then 1 else 0))%nat by lia.
  clear IH Hr. destruct Hs as [q' reg data strb|q' reg|q' tag Ho|q' tag Ho Hl|j Hj Hd|o rest El Hd];
    cbn [is_handed is_retired a_ops]; auto.
  - rewrite Ho. auto.
  - rewrite Ho. unfold nops. rewrite filter_app, app_length. cbn [filter so_q rs_queue s_resp].
    destruct (q' =? q); simpl; lia.
  - rewrite nops_mark. auto.
  - rewrite El. unfold nops. simpl. destruct (so_q o =? q); simpl; lia.
Qed.

(** C12: what a dequeue response says. *)
Lemma deq_window N cld es1 es2 C q :
  aruns N cld satom0 (es1 ++ es2) C -> no_cons_write q es2 ->
  exists h0, 0 <= h0 < 2 ^ 16 /\
    (es1 = [] -> h0 = 0) /\
    (forall es0 reg data strb db, es1 = es0 ++ [EvWrite q reg data strb db] ->
       decode reg data = CCons -> s_en (view es0 q) = false -> handed q es0 = retired q es0 ->
       h0 = data mod 2 ^ 16) /\
    forall a r b, es2 = a ++ EvReq r :: b -> rs_queue r = q ->
      let x := view (es1 ++ a) q in
      let h := (h0 + Z.of_nat (handed q a)) mod 2 ^ 16 in
      rs_ptr r = h /\
      rs_err r = negb (s_en x) /\
      rs_empty r = (s_en x && (s_prod x =? h))%bool /\
      rs_phase r = Z.even (h / 2 ^ s_lsz x) /\
      rs_addr r = (s_base x + (h mod 2 ^ s_lsz x) * (2 ^ cld * 2 ^ s_lblk x)) mod 2 ^ 64 /\
      rs_blk r = s_lblk x /\ rs_cpl r = s_cqn x.
Proof.
  intros H Hn. destruct (aruns_split _ _ H) as (A & HA & HC).
  pose proof (rng_runs HA rng0) as HR.
  exists (s_head A q). splits.
  - apply head_rng; auto.
  - apply head_rng; auto.
  - intros ->. inversion HA; subst. reflexivity.
  - intros es0 reg data strb db -> Hd He Hq.
    destruct (aruns_split _ _ HA) as (A0 & H0 & H1).
    apply aruns_cons_inv in H1. destruct H1 as (A1 & H1 & H2). inversion H2; subst. clear H2.
    pose proof (nops_runs q H0) as Hno. cbn in Hno.
    inversion H1; subst. unfold s_head. cbn [a_ops a_q].
    assert (Hb : busy q (a_ops A0) = false).
    { rewrite nops_busy. replace (nops q (a_ops A0)) with 0%nat by lia. reflexivity. }
    rewrite (proj2 (last_ptr_none _ _) Hb). rewrite zupd_same.
    rewrite <- (aruns0_view H0) in He.
    unfold s_write. rewrite Hd. destruct (a_q A0 q) as [pr0 co0 cq0 ls0 lb0 en0 ba0]. cbn [s_en] in He. rewrite He. reflexivity.
  - intros a r b -> Hq. cbv zeta.
    destruct (aruns_split _ _ HC) as (A1 & H1 & H2).
    apply aruns_cons_inv in H2. destruct H2 as (A2 & H2 & _).
    assert (Hna : no_cons_write q a).
    { unfold no_cons_write in *. apply Forall_app in Hn. tauto. }
    rewrite <- (head_runs H1 Hna HR).
    assert (Hv : view (es1 ++ a) q = a_q A1 q).
    { symmetry. rewrite <- (aruns0_view (aruns_app HA H1)). reflexivity. }
    rewrite Hv. inversion H2; subst; cbn [rs_queue s_resp rs_ptr rs_err rs_empty rs_phase rs_addr rs_blk rs_cpl] in *;
      subst; splits; reflexivity.
Qed.

Lemma s_write_prod x reg data strb :
  s_prod (s_write x reg data strb) =
  match decode reg data with CProd => data mod 2 ^ 16 | _ => s_prod x end.
Proof.
  unfold s_write. destruct x as [pr co cq ls lb en ba].
  destruct (decode reg data); try destruct en; reflexivity.
Qed.

(** C12, counting form. *)
Lemma deq_count N cld A q : forall es B,
  aruns N cld A es B -> no_cons_write q es -> rng A ->
  forall d0, d0 = (s_prod (a_q A q) - s_head A q) mod 2 ^ 16 ->
  (forall a b, es = a ++ b -> d0 + published q (s_prod (a_q A q)) a - Z.of_nat (handed q a) < 2 ^ 16) ->
  0 <= d0 + published q (s_prod (a_q A q)) es - Z.of_nat (handed q es) /\
  (s_prod (a_q B q) - s_head B q) mod 2 ^ 16 =
    d0 + published q (s_prod (a_q A q)) es - Z.of_nat (handed q es).
Proof.
  intros es B H. induction H as [A|A e B es C Hs Hr IH]; intros Hn HR d0 Hd0 Hb.
  - simpl. rewrite Hd0. pose proof (Z.mod_pos_bound (s_prod (a_q A q) - s_head A q) (2 ^ 16) ltac:(lia)).
    rewrite Z.add_0_r, Z.sub_0_r. split; [lia|reflexivity].
  - inversion Hn as [|x y Hne Hnes]; subst x y.
    pose proof (rng_step Hs HR) as HRB.
    pose proof (@head_step N cld A e B q Hs Hne) as Hh.
    set (D := d0 + published q (s_prod (a_q A q)) [e] - Z.of_nat (handed q [e])).
    assert (Hsplit : forall l, published q (s_prod (a_q A q)) (e :: l) =
              published q (s_prod (a_q A q)) [e] + published q (s_prod (a_q B q)) l).
    { intros l. rewrite (astep_view q Hs). destruct e as [q' p'|tg|r|q' reg data strb db|q' reg v];
        cbn [published view1]; auto.
      - unfold zupd. destruct (Z.eqb_spec q q') as [->|]; auto. destruct (a_q A q') as [pr0 co0 cq0 ls0 lb0 en0 ba0]; auto.
      - unfold zupd. destruct (Z.eqb_spec q q') as [->|Hq].
        + rewrite s_write_prod, Z.eqb_refl. destruct (decode reg data); cbn [published]; lia.
        + destruct (Z.eqb_spec q' q); [congruence|]. destruct (decode reg data); reflexivity. }
    pose proof (Hb [e] es eq_refl) as HbD. fold D in HbD.
    assert (HD : 0 <= D /\ (s_prod (a_q B q) - s_head B q) mod 2 ^ 16 = D).
    { unfold D. rewrite handed_cons. cbn [handed filter length].
      pose proof (Z.mod_pos_bound (s_prod (a_q A q) - s_head A q) (2 ^ 16) ltac:(lia)) as Hd1.
      rewrite <- Hd0 in Hd1.
      destruct (is_handed q e) eqn:Eh.
      - (* handed out: head <> producer *)
        destruct e as [| |r| |]; try discriminate. cbn [is_handed] in Eh.
        rewrite andb_true_iff, Z.eqb_eq in Eh. destruct Eh as [Eok Eq].
        cbn [published]. 
        assert (Hne0 : s_prod (a_q A q) <> s_head A q /\ s_prod (a_q B q) = s_prod (a_q A q)).
        { inversion Hs; subst; cbn [rs_queue s_resp] in *.
          - congruence.
          - unfold ok_resp, s_resp in Eok. cbn [rs_empty rs_err] in Eok.
            rewrite andb_true_iff, !negb_true_iff in Eok. destruct Eok as [E1 E2].
            rewrite negb_false_iff in E2. rewrite E2 in E1. simpl in E1.
            rewrite Z.eqb_neq in E1. split; auto. }
        destruct Hne0 as [Hne0 Hp]. rewrite Hp, Hh.
        assert (Hd2 : d0 <> 0).
        { intro E0. apply Hne0. pose proof (head_rng q HR) as R1. destruct HR as [R2 _].
          destruct (R2 q) as [_ R3]. rewrite E0 in Hd0. symmetry in Hd0.
          apply Z.mod_divide in Hd0; [|lia]. destruct Hd0 as [k Hk]. nia. }
        split; [lia|].
        rewrite Zminus_mod_idemp_r.
        replace (s_prod (a_q A q) - (s_head A q + 1)) with (s_prod (a_q A q) - s_head A q - 1) by lia.
        rewrite <- Zminus_mod_idemp_l, <- Hd0.
        rewrite Z.mod_small by lia. lia.
      - rewrite Hh. cbn [Nat.add Z.of_nat]. rewrite Z.sub_0_r.
        assert (Hpp : published q (s_prod (a_q A q)) [e] >= 0 /\
                   s_prod (a_q B q) mod 2 ^ 16 = (s_prod (a_q A q) + published q (s_prod (a_q A q)) [e]) mod 2 ^ 16).
        { rewrite (astep_view q Hs). destruct e as [q' p'|tg|r|q' reg data strb db|q' reg v];
            cbn [published view1]; rewrite ?Z.add_0_r; try (split; [lia|reflexivity]).
          - unfold zupd. destruct (Z.eqb_spec q q') as [->|]; split; try lia; auto.
            destruct (a_q A q') as [pr0 co0 cq0 ls0 lb0 en0 ba0]; auto.
          - unfold zupd. destruct (Z.eqb_spec q q') as [->|Hq].
            + rewrite s_write_prod, Z.eqb_refl. destruct (decode reg data); cbn [published];
                rewrite ?Z.add_0_r; try (split; [lia|reflexivity]).
              pose proof (Z.mod_pos_bound (data - s_prod (a_q A q')) (2 ^ 16) ltac:(lia)).
              split; [lia|]. rewrite Z.add_mod_idemp_r by lia.
              rewrite Z.mod_mod by lia. f_equal. lia.
            + destruct (Z.eqb_spec q' q); [congruence|].
              destruct (decode reg data); rewrite ?Z.add_0_r; split; try lia; reflexivity. }
        destruct Hpp as [Hp0 Hp]. split; [lia|].
        unfold D in HbD. rewrite handed_cons, Eh in HbD. cbn [handed filter length Nat.add Z.of_nat] in HbD.
        rewrite <- Zminus_mod_idemp_l, Hp, Zminus_mod_idemp_l.
        replace (s_prod (a_q A q) + published q (s_prod (a_q A q)) [e] - s_head A q)
          with (s_prod (a_q A q) - s_head A q + published q (s_prod (a_q A q)) [e]) by lia.
        rewrite <- Z.add_mod_idemp_l by lia. rewrite <- Hd0.
        apply Z.mod_small. lia. }
    destruct HD as [HD1 HD2].
    destruct (IH Hnes HRB D (eq_sym HD2)) as [I1 I2].
    { intros a b Hab. specialize (Hb (e :: a) b). rewrite Hab in Hb. specialize (Hb eq_refl).
      rewrite Hsplit in Hb. change (e :: a) with ([e] ++ a) in Hb. rewrite handed_app in Hb. unfold D. lia. }
    change (e :: es) with ([e] ++ es). rewrite handed_app. cbn [app]. rewrite Hsplit.
    unfold D in *. split; [lia|]. rewrite I2. lia.
Qed.

(** C13: retirement order. *)
Definition ops_pairs (l : list sop) : list (Z * Z) := map (fun o => (so_q o, so_ptr o)) l.

Lemma ops_pairs_mark l : forall j, ops_pairs (mark l j) = ops_pairs l.
Proof.
  unfold ops_pairs. induction l as [|o l IH]; intros [|j]; simpl; auto. rewrite IH. reflexivity.
Qed.

Definition done_at (l : list sop) (R i : nat) : bool :=
  if (i <? R)%nat then true else so_done (nth (i - R) l op0).

Record hinv (N : Z) (es : list qev) (A : satom) : Prop := mkH {
  h_N : 0 < N;
  h_hand : all_handed es = all_retired es ++ ops_pairs (a_ops A);
  h_fin : a_fin A = Z.of_nat (length (all_retired es)) mod N;
  h_len : zlen (a_ops A) <= N;
  h_com : forall i, (i < length (all_handed es))%nat ->
     (done_at (a_ops A) (length (all_retired es)) i = true <-> committed N es i);
  h_fresh : forall i, (length (all_handed es) <= i)%nat -> ~ committed N es i }.

Lemma commits_app tag a b : commits tag (a ++ b) = commits tag a + commits tag b.
Proof. unfold commits. rewrite filter_app, app_length. lia. Qed.
Lemma all_handed_app a b : all_handed (a ++ b) = all_handed a ++ all_handed b.
Proof. apply flat_map_app. Qed.
Lemma all_retired_app a b : all_retired (a ++ b) = all_retired a ++ all_retired b.
Proof. apply flat_map_app. Qed.
Lemma ops_pairs_length l : length (ops_pairs l) = length l.
Proof. apply map_length. Qed.

Lemma hinv0 N : 0 < N -> hinv N [] satom0.
Proof.
  intros HN. constructor; simpl; auto.
  - unfold zlen; simpl; lia.
  - intros; lia.
  - intros i _ H. unfold committed, commits in H. simpl in H.
    pose proof (Z.div_pos (Z.of_nat i) N ltac:(lia) HN). lia.
Qed.

Lemma committed_nocommit N es e i :
  (forall t, e <> EvCommit t) -> (committed N (es ++ [e]) i <-> committed N es i).
Proof.
  intros H. unfold committed. rewrite commits_app.
  replace (commits (Z.of_nat i mod N) [e]) with 0.
  - rewrite Z.add_0_r. tauto.
  - destruct e; try reflexivity. exfalso. eapply H; eauto.
Qed.

Lemma hinv_step N cld es A e B : astep N cld A e B -> hinv N es A -> hinv N (es ++ [e]) B.
Proof.
  intros Hs [HN H1 H2 H3 H4 H5].
  destruct Hs as [q reg data strb|q reg|q tag Ho|q tag Ho Hl|j Hj Hd|o rest El Hd].
  - constructor; rewrite ?all_handed_app, ?all_retired_app; cbn [all_handed all_retired flat_map app];
      rewrite ?app_nil_r; auto; intros i Hi; rewrite committed_nocommit by discriminate; auto.
  - constructor; rewrite ?all_handed_app, ?all_retired_app; cbn [all_handed all_retired flat_map app];
      rewrite ?app_nil_r; auto; intros i Hi; rewrite committed_nocommit by discriminate; auto.
  - constructor; rewrite ?all_handed_app, ?all_retired_app; cbn [all_handed all_retired flat_map app];
      rewrite ?Ho; cbn [app]; rewrite ?app_nil_r; auto; intros i Hi; rewrite committed_nocommit by discriminate; auto.
  - assert (Hlen : length (all_handed es) = (length (all_retired es) + length (a_ops A))%nat).
    { rewrite H1, app_length, ops_pairs_length. reflexivity. }
    constructor; rewrite ?all_handed_app, ?all_retired_app; cbn [all_handed all_retired flat_map app];
      rewrite ?Ho; cbn [app a_ops a_fin a_q]; rewrite ?app_nil_r; auto.
    + rewrite H1. unfold ops_pairs. rewrite map_app, app_assoc. reflexivity.
    + rewrite zlen_app. unfold zlen in *. simpl. lia.
    + intros i Hi. rewrite committed_nocommit by discriminate.
      rewrite app_length in Hi. simpl in Hi.
      unfold done_at. destruct (Nat.ltb_spec i (length (all_retired es))) as [Hlt|Hge].
      * rewrite <- H4 by lia. unfold done_at. destruct (Nat.ltb_spec i (length (all_retired es))); [tauto|lia].
      * destruct (Nat.eq_dec i (length (all_handed es))) as [->|Hne].
        -- rewrite app_nth2 by lia. rewrite Hlen.
           replace (length (all_retired es) + length (a_ops A) - length (all_retired es) - length (a_ops A))%nat with 0%nat by lia.
           simpl. split; [discriminate|]. intros Hc. exfalso. apply (H5 _ (le_n _)).
           rewrite Hlen. exact Hc.
        -- rewrite app_nth1 by lia. rewrite <- H4 by lia.
           unfold done_at. destruct (Nat.ltb_spec i (length (all_retired es))); [lia|tauto].
    + intros i Hi. rewrite committed_nocommit by discriminate. apply H5.
      rewrite app_length in Hi. lia.
  - (* commit *)
    assert (Hlen : length (all_handed es) = (length (all_retired es) + length (a_ops A))%nat).
    { rewrite H1, app_length, ops_pairs_length. reflexivity. }
    set (R := length (all_retired es)) in *.
    set (i0 := (R + j)%nat).
    assert (Etag : (a_fin A + Z.of_nat j) mod N = Z.of_nat i0 mod N).
    { rewrite H2. rewrite Z.add_mod_idemp_l by lia. f_equal. unfold i0. lia. }
    rewrite Etag. unfold zlen in H3.
    (* number of commits of this tag so far *)
    assert (Hc0 : commits (Z.of_nat i0 mod N) es = Z.of_nat i0 / N).
    { assert (~ committed N es i0) as Hn0.
      { rewrite <- H4 by (unfold i0; lia). unfold done_at, i0.
        destruct (Nat.ltb_spec (R + j) R); [lia|].
        replace (R + j - R)%nat with j by lia. fold op0 in Hd. rewrite Hd. discriminate. }
      unfold committed in Hn0.
      destruct (Z_lt_ge_dec (Z.of_nat i0) N) as [Hlt|Hge].
      - rewrite Z.div_small in * by lia. unfold commits in *. lia.
      - assert (Hp : committed N es (i0 - Z.to_nat N)).
        { apply H4; [unfold i0; lia|]. unfold done_at.
          destruct (Nat.ltb_spec (i0 - Z.to_nat N) R); auto. exfalso. unfold i0 in *. lia. }
        unfold committed in Hp.
        replace (Z.of_nat (i0 - Z.to_nat N)) with (Z.of_nat i0 + (-1) * N) in Hp by lia.
        rewrite Z.div_add, Z.mod_add in Hp by lia. lia. }
    assert (Hkey : forall i, (committed N (es ++ [EvCommit (Z.of_nat i0 mod N)]) i <->
                              committed N es i \/ i = i0)).
    { intros i. unfold committed. rewrite commits_app.
      unfold commits at 2. cbn [filter]. destruct (Z.eqb_spec (Z.of_nat i0 mod N) (Z.of_nat i mod N)) as [Em|Em].
      - cbn [length Z.of_nat]. rewrite <- Em, Hc0.
        pose proof (Z.div_mod (Z.of_nat i) N ltac:(lia)). pose proof (Z.div_mod (Z.of_nat i0) N ltac:(lia)).
        split.
        + intros Hlt. assert (Z.of_nat i / N <= Z.of_nat i0 / N) by lia.
          destruct (Z.eq_dec (Z.of_nat i / N) (Z.of_nat i0 / N)) as [Eq|Ne]; [right|left]; [|lia].
          rewrite Em, Eq in *. lia.
        + intros [Hlt| ->]; lia.
      - cbn [length Z.of_nat]. rewrite Z.add_0_r. split; [tauto|].
        intros [Hlt| ->]; [auto|congruence]. }
    constructor; rewrite ?all_handed_app, ?all_retired_app; cbn [all_handed all_retired flat_map app];
      rewrite ?app_nil_r; cbn [a_ops a_fin a_q]; auto.
    + rewrite ops_pairs_mark. auto.
    + unfold zlen. rewrite mark_length. auto.
    + intros i Hi. rewrite Hkey, <- H4 by auto. fold R. unfold done_at.
      destruct (Nat.ltb_spec i R); [split; auto|].
      rewrite mark_nth by auto. destruct (Nat.eqb_spec (i - R) j) as [E|E].
      * cbn [so_done]. split; auto. intros _. right. unfold i0. lia.
      * split; auto. intros [?| ->]; auto. exfalso. apply E. unfold i0. lia.
    + intros i Hi. rewrite Hkey. intros [Hc| ->]; [apply (H5 i); auto|]. unfold i0 in Hi. lia.
  - (* finish *)
    assert (Hlen : length (all_handed es) = (length (all_retired es) + S (length rest))%nat).
    { rewrite H1, El, app_length, ops_pairs_length. reflexivity. }
    constructor; rewrite ?all_handed_app, ?all_retired_app; cbn [all_handed all_retired flat_map app];
      rewrite ?app_nil_r; cbn [a_ops a_fin a_q]; auto.
    + rewrite H1, El. unfold ops_pairs. simpl. rewrite <- app_assoc. reflexivity.
    + rewrite app_length. simpl length. rewrite H2, Z.add_mod_idemp_l by lia. f_equal. lia.
    + rewrite El in H3. unfold zlen in *. simpl length in H3. lia.
    + intros i Hi. rewrite committed_nocommit by discriminate. rewrite <- H4 by auto.
      rewrite app_length. simpl length. unfold done_at. rewrite El.
      destruct (Nat.ltb_spec i (length (all_retired es) + 1)), (Nat.ltb_spec i (length (all_retired es)));
        try lia; try tauto.
      * replace (i - length (all_retired es))%nat with 0%nat by lia. simpl. rewrite Hd. tauto.
      * replace (i - length (all_retired es))%nat with (S (i - (length (all_retired es) + 1))) by lia.
        simpl. tauto.
    + intros i Hi. rewrite committed_nocommit by discriminate. auto.
Qed.

Lemma hinv_runs N cld A es2 B : aruns N cld A es2 B -> forall es1, hinv N es1 A -> hinv N (es1 ++ es2) B.
Proof.
  induction 1 as [A|A e B es C Hs Hr IH]; intros es1 H1.
  - rewrite app_nil_r. auto.
  - replace (es1 ++ e :: es) with ((es1 ++ [e]) ++ es) by (rewrite <- app_assoc; reflexivity).
    apply IH. eapply hinv_step; eauto.
Qed.

Lemma retire_order N cld es B : 0 < N -> aruns N cld satom0 es B ->
  all_retired es = firstn (length (all_retired es)) (all_handed es) /\
  forall i, (i < length (all_retired es))%nat -> committed N es i.
Proof.
  intros HN H. pose proof (hinv_runs H (hinv0 HN)) as [_ H1 H2 H3 H4 _]. simpl in *.
  split.
  - rewrite H1, firstn_app, Nat.sub_diag, firstn_all. simpl. rewrite app_nil_r. reflexivity.
  - intros i Hi. apply H4.
    + rewrite H1, app_length. lia.
    + unfold done_at. destruct (Nat.ltb_spec i (length (all_retired es))); [auto|lia].
Qed.

(** The consumer pointer counts retirements. *)
Definition ptr_chain (A : satom) (q : Z) : Prop :=
  forall j, (j < length (filter (fun o => (so_q o =? q)%Z) (a_ops A)))%nat ->
    so_ptr (nth j (filter (fun o => (so_q o =? q)%Z) (a_ops A)) op0)
      = (s_cons (a_q A q) + Z.of_nat j + 1) mod 2 ^ 16.

Lemma filter_mark_ptr q l : forall j k,
  so_ptr (nth k (filter (fun o => (so_q o =? q)%Z) (mark l j)) op0) =
  so_ptr (nth k (filter (fun o => (so_q o =? q)%Z) l) op0).
Proof.
  induction l as [|o l IH]; intros [|j] k; simpl; auto.
  - destruct (so_q o =? q); auto. destruct k; reflexivity.
  - destruct (so_q o =? q); auto. destruct k; simpl; auto.
Qed.

Lemma last_ptr_filter q l :
  last_ptr q l = match filter (fun o => (so_q o =? q)%Z) l with
                 | [] => None
                 | x => Some (so_ptr (last x op0))
                 end.
Proof.
  induction l as [|o l IH]; cbn [last_ptr filter]; auto. rewrite IH.
  destruct (filter (fun o => (so_q o =? q)%Z) l) as [|y r] eqn:E.
  - destruct (so_q o =? q); reflexivity.
  - destruct (so_q o =? q); reflexivity.
Qed.

Lemma last_nth (l : list sop) : l <> [] -> last l op0 = nth (length l - 1) l op0.
Proof.
  intros H. rewrite (app_removelast_last op0 H) at 2 3. rewrite app_length. simpl.
  rewrite app_nth2 by lia.
  replace (length (removelast l) + 1 - 1 - length (removelast l))%nat with 0%nat by lia.
  reflexivity.
Qed.

Lemma chain_head A q : rng A -> ptr_chain A q ->
  s_head A q = (s_cons (a_q A q) + Z.of_nat (nops q (a_ops A))) mod 2 ^ 16.
Proof.
  intros HR H. unfold s_head, nops. rewrite last_ptr_filter.
  destruct (filter (fun o => (so_q o =? q)%Z) (a_ops A)) as [|y r] eqn:E.
  - simpl. rewrite Z.add_0_r, Z.mod_small; auto. apply HR.
  - rewrite last_nth by discriminate. unfold ptr_chain in H. rewrite E in H.
    rewrite H by (simpl; lia). f_equal. simpl length. lia.
Qed.

Lemma chain_step N cld A e B q :
  astep N cld A e B -> ~ cons_write q e -> rng A -> ptr_chain A q -> ptr_chain B q.
Proof.
  intros Hs Hn HR H.
  destruct Hs as [q' reg data strb|q' reg|q' tag Ho|q' tag Ho Hl|j Hj Hd|o rest El Hd];
    cbn [cons_write] in *; auto.
  - unfold ptr_chain in *. cbn [a_ops a_q]. unfold zupd.
    destruct (Z.eqb_spec q q') as [->|]; auto.
    rewrite s_write_cons; auto.
  - unfold ptr_chain in *. cbn [a_ops a_q]. intros j Hj. rewrite filter_app in *. cbn [filter so_q] in *.
    destruct (Z.eqb_spec q' q) as [->|].
    + rewrite app_length in Hj. simpl in Hj.
      destruct (Nat.eq_dec j (length (filter (fun o => (so_q o =? q)%Z) (a_ops A)))) as [->|].
      * rewrite app_nth2, Nat.sub_diag by lia. simpl.
        rewrite (chain_head HR H). rewrite Z.add_mod_idemp_l by lia. unfold nops. reflexivity.
      * rewrite app_nth1 by lia. apply H. lia.
    + rewrite app_nil_r in *. auto.
  - unfold ptr_chain in *. cbn [a_ops a_q]. intros k Hk. rewrite filter_mark_ptr. apply H.
    pose proof (nops_mark q (a_ops A) j) as Hm. unfold nops in Hm. lia.
  - unfold ptr_chain in *. cbn [a_ops a_q]. rewrite El in *. cbn [filter] in H.
    unfold zupd. destruct (Z.eqb_spec q (so_q o)) as [->|].
    + rewrite Z.eqb_refl in H.
      intros j Hj. pose proof (H 0%nat ltac:(simpl; lia)) as H0. cbn [nth] in H0.
      pose proof (H (S j) ltac:(simpl; lia)) as H1. cbn [nth] in H1.
      rewrite H1. destruct (a_q A (so_q o)) as [pr co cq ls lb en ba]. cbn [s_cons] in *.
      rewrite H0. rewrite Z.add_0_r.
      replace ((co + 1) mod 2 ^ 16 + Z.of_nat j + 1) with ((co + 1) mod 2 ^ 16 + (Z.of_nat j + 1)) by lia.
      rewrite Z.add_mod_idemp_l by lia. f_equal. lia.
    + destruct (Z.eqb_spec (so_q o) q); [congruence|auto].
Qed.

Lemma cons_runs N cld A es B q :
  aruns N cld A es B -> no_cons_write q es -> rng A -> ptr_chain A q ->
  s_cons (a_q B q) = (s_cons (a_q A q) + Z.of_nat (retired q es)) mod 2 ^ 16 /\ ptr_chain B q.
Proof.
  induction 1 as [A|A e B es C Hs Hr IH]; intros Hn HR HC.
  - split; auto. simpl. rewrite Z.add_0_r, Z.mod_small; auto. apply HR.
  - inversion Hn; subst.
    destruct IH as [I1 I2]; auto.
    { eapply rng_step; eauto. } { eapply chain_step; eauto. }
    split; auto. rewrite I1, retired_cons.
    enough (s_cons (a_q B q) = if is_retired q e then (s_cons (a_q A q) + 1) mod 2 ^ 16 else s_cons (a_q A q)) as ->.
    { destruct (is_retired q e); [|f_equal; lia]. rewrite Z.add_mod_idemp_l by lia. f_equal. lia. }
    clear I1 I2 Hr Hn.
    destruct Hs as [q' reg data strb|q' reg|q' tag Ho|q' tag Ho Hl|j Hj Hd|o rest El Hd];
      cbn [is_retired cons_write a_q] in *; auto.
    + unfold zupd. destruct (Z.eqb_spec q q') as [->|]; auto. apply s_write_cons. auto.
    + unfold zupd. destruct (Z.eqb_spec q (so_q o)) as [->|].
      * rewrite Z.eqb_refl. unfold ptr_chain in HC. rewrite El in HC. cbn [filter] in HC.
        rewrite Z.eqb_refl in HC. specialize (HC 0%nat ltac:(simpl; lia)). cbn [nth] in HC.
        destruct (a_q A (so_q o)) as [pr0 co0 cq0 ls0 lb0 en0 ba0]. cbn [s_cons] in *. rewrite HC. f_equal. lia.
      * destruct (Z.eqb_spec (so_q o) q); [congruence|auto].
Qed.

(** C15 *)
Lemma due_runs N cld A es B : aruns N cld A es B ->
  forall f, (forall q, f q = a_q A q) -> ev_doorbells es = due_doorbells f es.
Proof.
  induction 1 as [A|A e B es C Hs Hr IH]; intros f Hf; auto.
  cbn [due_doorbells]. change (e :: es) with ([e] ++ es).
  unfold ev_doorbells. rewrite flat_map_app. fold (ev_doorbells es).
  rewrite (IH (view1 f e)).
  - f_equal. destruct e; simpl; auto. rewrite app_nil_r. inversion Hs; subst.
    unfold s_doorbell. rewrite Hf. destruct (decode reg data); auto.
  - intros q. rewrite (astep_view q Hs). apply view1_ext; auto.
Qed.
