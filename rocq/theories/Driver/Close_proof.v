(** Proofs about closing queues and interfaces. *)
From Verif Require Import Base.Prelude Base.Bits Driver.Ring_model Driver.Close_model Driver.Close_spec.
Local Open Scope Z_scope.

Lemma slot_mod k c : 0 <= k -> slot k c = c mod 2 ^ k.
Proof.
  intros H. unfold slot, ring_size.
  replace (2 ^ k - 1) with (Z.ones k) by (rewrite Z.ones_equiv; lia).
  apply Z.land_ones. exact H.
Qed.

Lemma holds_weaken k : forall bs p p' info c, p_n p' = p_n p ->
  holds_buffers k p info c bs -> holds_buffers k p' info c bs.
Proof.
  induction bs as [|b bs IH]; intros p p' info c E H; cbn in *; auto.
  destruct H as (A & B & C). rewrite E. split; [|split]; eauto.
Qed.

Lemma holds_upd k i v : forall bs p info c, 0 <= k ->
  (forall j, (j < length bs)%nat -> (c + Z.of_nat j) mod 2 ^ k <> i) ->
  holds_buffers k p info c bs -> holds_buffers k p (zupd info i v) c bs.
Proof.
  induction bs as [|b bs IH]; intros p info c Hk D H; cbn in *; auto.
  destruct H as (A & B & C). split; [|split]; auto.
  - rewrite zupd_other; auto. specialize (D O ltac:(lia)).
    rewrite Z.add_0_r in D. exact D.
  - apply IH; auto. intros j Hj. specialize (D (S j) ltac:(lia)).
    replace (c + 1 + Z.of_nat j) with (c + Z.of_nat (S j)) by lia. exact D.
Qed.

Lemma mod_far k c j : 0 <= k -> 0 < j < 2 ^ k -> (c + j) mod 2 ^ k <> c mod 2 ^ k.
Proof.
  intros Hk Hj E.
  assert (P : 0 < 2 ^ k) by (apply Z.pow_pos_nonneg; lia).
  assert (((c + j) - c) mod 2 ^ k = 0) as D.
  { rewrite Zminus_mod, E, Z.sub_diag. reflexivity. }
  replace (c + j - c) with j in D by lia.
  rewrite Z.mod_small in D by lia. lia.
Qed.

Lemma free_loop_all k : 0 <= k -> forall bs p info c,
  Z.of_nat (length bs) <= 2 ^ k -> holds_buffers k p info c bs ->
  exists info', free_loop (length bs) k p info c =
    mkFreed (mkPool (p_n p) (p_free p ++ bs)) info' (c + Z.of_nat (length bs)) Returned /\
    (forall j, 0 <= j < Z.of_nat (length bs) -> info' ((c + j) mod 2 ^ k) = None) /\
    (forall i, (forall j, 0 <= j < Z.of_nat (length bs) -> (c + j) mod 2 ^ k <> i) -> info' i = info i).
Proof.
  intros Hk. induction bs as [|b bs IH]; intros p info c L H.
  - cbn. exists info. rewrite app_nil_r, Z.add_0_r. destruct p. split; [reflexivity|].
    split; [intros; lia|auto].
  - cbn [length free_loop]. cbn [holds_buffers] in H. destruct H as (A & B & C).
    rewrite slot_mod by exact Hk. rewrite A. cbn [free_pkt].
    assert ((b <? p_n p)%nat = true) as -> by (apply Nat.ltb_lt; exact B).
    assert (L' : Z.of_nat (length bs) <= 2 ^ k) by (cbn [length] in L; lia).
    destruct (IH (mkPool (p_n p) (p_free p ++ [b])) (zupd info (c mod 2 ^ k) None) (c + 1)) as (info' & E & N & O).
    + exact L'.
    + apply holds_upd; auto.
      * intros j Hj. replace (c + 1 + Z.of_nat j) with (c + (1 + Z.of_nat j)) by lia.
        apply mod_far; auto. cbn [length] in L. lia.
      * eapply holds_weaken; [|exact C]. reflexivity.
    + exists info'. rewrite E. cbn [p_n p_free]. rewrite <- app_assoc. cbn [app].
      split; [f_equal; lia|]. split.
      * intros j Hj. destruct (Z.eq_dec j 0) as [->|Hne].
        -- rewrite Z.add_0_r.
           rewrite O.
           ++ apply zupd_same.
           ++ intros j Hj'. replace (c + 1 + j) with (c + (1 + j)) by lia. apply mod_far; auto.
              cbn [length] in L. lia.
        -- replace (c + j) with (c + 1 + (j - 1)) by lia. apply N. lia.
      * intros i Hi. rewrite O.
        -- apply zupd_other. specialize (Hi 0 ltac:(lia)). rewrite Z.add_0_r in Hi. auto.
        -- intros j Hj. replace (c + 1 + j) with (c + (1 + j)) by lia. apply Hi. lia.
Qed.

Lemma free_buf_all k bs p info prod cons : 0 <= k ->
  prod = cons + Z.of_nat (length bs) -> Z.of_nat (length bs) <= 2 ^ k ->
  holds_buffers k p info cons bs ->
  exists info', free_buf k p info prod cons =
    mkFreed (mkPool (p_n p) (p_free p ++ bs)) info' prod Returned /\
    (forall j, cons <= j < prod -> info' (j mod 2 ^ k) = None).
Proof.
  intros Hk -> L H. unfold free_buf.
  replace (Z.to_nat (cons + Z.of_nat (length bs) - cons)) with (length bs) by lia.
  destruct (@free_loop_all k Hk bs p info cons L H) as (info' & E & N & _).
  exists info'. split; auto. intros j Hj. replace j with (cons + (j - cons)) by lia. apply N. lia.
Qed.

Lemma free_loop_hole k : 0 <= k -> forall bs n p info c,
  Z.of_nat (length bs) < 2 ^ k -> (length bs < n)%nat -> holds_buffers k p info c bs ->
  info ((c + Z.of_nat (length bs)) mod 2 ^ k) = None ->
  fb_out (free_loop n k p info c) = Raised AssertionError /\
  fb_cons (free_loop n k p info c) = c + Z.of_nat (length bs).
Proof.
  intros Hk. induction bs as [|b bs IH]; intros n p info c L Hn H X.
  - destruct n as [|n]; [cbn in Hn; lia|]. cbn [free_loop length].
    cbn [length] in X. rewrite slot_mod by exact Hk. change (Z.of_nat 0) with 0 in *. rewrite Z.add_0_r in X.
    rewrite X. cbn. split; auto; lia.
  - destruct n as [|n]; [cbn in Hn; lia|]. cbn [length] in *. cbn [holds_buffers] in H.
    destruct H as (A & B & C). cbn [free_loop].
    rewrite slot_mod by exact Hk. rewrite A. cbn [free_pkt].
    assert ((b <? p_n p)%nat = true) as -> by (apply Nat.ltb_lt; exact B).
    assert (D : forall j, (j < S (length bs))%nat -> (c + 1 + Z.of_nat j) mod 2 ^ k <> c mod 2 ^ k).
    { intros j Hj. replace (c + 1 + Z.of_nat j) with (c + (1 + Z.of_nat j)) by lia.
      apply mod_far; auto. lia. }
    destruct (IH n (mkPool (p_n p) (p_free p ++ [b])) (zupd info (c mod 2 ^ k) None) (c + 1)) as (P & Q).
    + lia.
    + lia.
    + apply holds_upd; auto. eapply holds_weaken; [|exact C]. reflexivity.
    + replace (c + 1 + Z.of_nat (length bs)) with (c + Z.of_nat (S (length bs))) by lia.
      rewrite zupd_other; auto.
      specialize (D (length bs) ltac:(lia)).
      replace (c + 1 + Z.of_nat (length bs)) with (c + Z.of_nat (S (length bs))) in D by lia. auto.
    + rewrite P, Q. split; auto. lia.
Qed.

Lemma free_buf_hole k bs p info prod cons : 0 <= k ->
  Z.of_nat (length bs) < 2 ^ k -> cons + Z.of_nat (length bs) < prod ->
  holds_buffers k p info cons bs ->
  info ((cons + Z.of_nat (length bs)) mod 2 ^ k) = None ->
  fb_out (free_buf k p info prod cons) = Raised AssertionError.
Proof.
  intros Hk L P H X. unfold free_buf.
  apply (@free_loop_hole k Hk bs); auto. lia.
Qed.

Lemma await_raises p q : exists e, snd (await_free_buf p q) = Raised e.
Proof. unfold await_free_buf. cbn. destruct (fb_out _); eauto. Qed.

Lemma close_queues_cons p free q qs :
  exists p' q' e, close_queues p free (q :: qs) = (p', free, q' :: qs, [], Raised e) /\
    dq_open q' = dq_open q /\ dq_enabled q' = dq_enabled q /\ dq_cqopen q' = dq_cqopen q.
Proof.
  cbn [close_queues]. destruct (await_raises p q) as [e E].
  destruct (await_free_buf p q) as [[p1 q1] r1] eqn:A. cbn in E. subst r1.
  exists p1, q1, e. split; auto.
  unfold await_free_buf in A. injection A as _ <- _. auto.
Qed.

(** What every close of an interface with queues does. *)
Lemma close_stuck s : if_tx s ++ if_rx s <> [] ->
  exists s' e, iface_close s = (s', [WPortRxCtrl 0], Raised e) /\
    if_up s' = false /\ if_free s' = if_free s /\
    map dq_open (if_tx s' ++ if_rx s') = map dq_open (if_tx s ++ if_rx s) /\
    map dq_enabled (if_tx s' ++ if_rx s') = map dq_enabled (if_tx s ++ if_rx s).
Proof.
  intros H. unfold iface_close.
  destruct (if_tx s) as [|q qs] eqn:T.
  - destruct (if_rx s) as [|q qs] eqn:R; [cbn in H; congruence|].
    change (close_queues (if_pool s) (if_free s) []) with
      (if_pool s, if_free s, @nil dq, @nil regwrite, Returned). cbv iota beta.
    destruct (close_queues_cons (if_pool s) (if_free s) q qs) as (p' & q' & e & E & O & N & C).
    rewrite E. eexists _, e. split; [reflexivity|]. cbn. rewrite O, N. auto.
  - destruct (close_queues_cons (if_pool s) (if_free s) q qs) as (p' & q' & e & E & O & N & C).
    rewrite E. eexists _, e. split; [reflexivity|]. cbn. rewrite O, N. auto.
Qed.

Lemma map_nonempty {A B} (f : A -> B) l l' : map f l' = map f l -> l <> [] -> l' <> [].
Proof. destruct l', l; cbn; congruence. Qed.

Lemma close_again_stuck : forall n s, if_tx s ++ if_rx s <> [] ->
  exists s' ws rs, iface_close_again n s = (s', ws, rs) /\
    Forall (fun w => w = WPortRxCtrl 0) ws /\ Forall (fun r => r <> Returned) rs /\ length rs = n /\
    if_free s' = if_free s /\
    map dq_open (if_tx s' ++ if_rx s') = map dq_open (if_tx s ++ if_rx s) /\
    map dq_enabled (if_tx s' ++ if_rx s') = map dq_enabled (if_tx s ++ if_rx s).
Proof.
  induction n as [|n IH]; intros s H.
  - cbn. exists s, [], []. auto 10.
  - cbn [iface_close_again].
    destruct (close_stuck s H) as (s1 & e & E & _ & F & O & N). rewrite E.
    destruct (IH s1) as (s2 & ws & rs & E2 & A & B & L & F2 & O2 & N2).
    { eapply map_nonempty; eauto. }
    rewrite E2. exists s2, ([WPortRxCtrl 0] ++ ws), (Raised e :: rs).
    split; [reflexivity|]. cbn [app]. split; [constructor; auto|].
    split; [constructor; [discriminate|auto]|]. split; [cbn; auto|].
    rewrite F2, O2, N2. auto.
Qed.

Lemma close_idle s : if_tx s = [] -> if_rx s = [] ->
  iface_close s = (mkIface false [] [] (if_pool s) (if_free s), [WPortRxCtrl 0; WPortTxCtrl 0], Returned).
Proof. intros A B. unfold iface_close. rewrite A, B. reflexivity. Qed.

Lemma queue_close_ok q : dq_open q = true ->
  exists q', dq_close q = (q', [WQueueEnable (dq_kind q) (dq_index q) false], Some (dq_index q)) /\
    dq_open q' = false /\ dq_enabled q' = false /\ dq_close q' = (q', [], None).
Proof.
  intros H. unfold dq_close, dq_disable. rewrite H. cbn.
  eexists. split; [reflexivity|]. auto.
Qed.

Lemma cq_close_ok q : dq_cqopen q = true ->
  exists q', dq_close_cq q = (q', [WCqEnable (dq_cqn q) false], Some (dq_cqn q)) /\
    dq_cqopen q' = false /\ dq_open q' = dq_open q /\ dq_enabled q' = dq_enabled q /\ dq_info q' = dq_info q /\ dq_close_cq q' = (q', [], None).
Proof.
  intros H. unfold dq_close_cq. rewrite H. cbn.
  eexists. split; [reflexivity|]. auto 10.
Qed.
