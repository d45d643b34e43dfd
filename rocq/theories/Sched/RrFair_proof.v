(** The round-robin order: proofs for C21. *)
From Coq Require Import Permutation.
From Verif Require Import Base.Prelude Rtl.Handshake_spec Rtl.Handshake_proof Rtl.Pipe_proof
  Stream.Axis_model Stream.Fifo_model Stream.Arb_model Sched.Rr_model Sched.Rr_spec Sched.FifoUse_proof Sched.Rr_proof.
Local Open Scope Z_scope.

(** Clearing comes before anything else, also in the pipe. *)
Definition isi (o : pop) : Prop := exists q, o = PInit q.
Definition pio (s : sst) : Prop := exists A B, ops (m_pipe s) = A ++ B /\ Forall (fun o => ~ isi o) A /\ Forall isi B.

Lemma isi_dec o : isi o \/ ~ isi o.
Proof. destruct o; [left; eexists; eauto|right..]; intros [q9 E]; discriminate. Qed.

Lemma pio_step c s L D i : cfg_ok c -> sinv c s L D -> i_rst i = false -> pio s -> pio (nx c s i).
Proof.
  intros CO IV R (A & B & E & FA & FB). pose proof (pne CO IV) as PN.
  assert (H : exists A B, ops (removelast (m_pipe s)) = A ++ B /\ Forall (fun o => ~ isi o) A /\ Forall isi B /\ (Forall isi (ops (m_pipe s)) -> A = [])).
  { rewrite (ops_split PN) in *. set (x := ops (removelast (m_pipe s))) in *. clearbody x.
    assert (NI : forall A0 B0, x = A0 ++ B0 -> Forall (fun o => ~ isi o) A0 -> Forall isi (x ++ olist (option_map fst (last (m_pipe s) None))) -> A0 = []).
    { intros A0 B0 -> F0 F1. destruct A0 as [|y A0]; auto. inversion F0; subst. cbn in F1. inversion F1; subst. tauto. }
    destruct (option_map fst (last (m_pipe s) None)) as [o|]; cbn [olist] in *.
    - destruct B as [|b B] using rev_ind.
      + rewrite app_nil_r in E. subst A. apply Forall_app in FA. exists x, []. rewrite app_nil_r. splits; auto; try apply FA.
        intros Hi. apply (NI x []); auto; [now rewrite app_nil_r|apply FA].
      + clear IHB. rewrite app_assoc in E. apply app_inj_tail in E. destruct E as [E _]. apply Forall_app in FB. exists A, B. splits; auto; try apply FB.
        intros Hi. apply (NI A B); auto.
    - rewrite app_nil_r in *. exists A, B. splits; auto. intros Hi. apply (NI A B); auto. }
  destruct H as (A' & B' & E' & FA' & FB' & Hn). unfold pio. rewrite f_pipe by auto. rewrite ops_cons, E'. unfold new.
  destruct (accept c s i) as [o|] eqn:Ea; cbn [option_map fst olist app]; [|exists A', B'; auto].
  destruct (isi_dec o) as [Hi|Hi].
  - destruct Hi as [q ->]. apply accept_cases in Ea. destruct Ea as (_ & Ea & _).
    assert (X : A' = []).
    { apply Hn. apply Forall_forall. intros o Ho. destruct (proj2 (proj2 (v_ini IV Ea)) _ Ho) as (q' & -> & _). eexists; eauto. }
    subst A'. exists [], (PInit q :: B'). splits; auto. constructor; auto. eexists; eauto.
  - exists (o :: A'), B'. splits; auto.
Qed.

Lemma run_pio c s xs : cfg_ok c -> power_on c s -> Forall (in_ok c) xs -> Forall strobed xs ->
  exists L D, sinv c (after c s xs) L D /\ rvinv (after c s xs) /\ pio (after c s xs).
Proof.
  intros CO PO. induction xs as [|x xs IH] using rev_ind; intros F1 F2.
  - exists [], []. splits; [apply sinv_init; auto|..]; destruct PO as (m1 & m2 & ft & fs & ->).
    + intros _. reflexivity.
    + exists [], []. cbn [app]. splits; auto. unfold after. cbn [trace fst s_init m_pipe]. apply ops_nil.
  - apply Forall_app in F1, F2. destruct F1 as [F1 F1'], F2 as [F2 F2']. inversion F1'; inversion F2'; subst.
    destruct (IH F1 F2) as (L & D & IV & RV & PI). rewrite after_snoc. destruct (i_rst x) eqn:R.
    + exists [], []. splits; [eapply sinv_reset; eauto|..].
      * intros _. unfold nx, s_step. cbn [fst m_rv]. now rewrite R.
      * exists [], []. splits; auto. unfold nx, s_step. cbn [fst m_pipe]. rewrite R. apply ops_nones.
    + do 2 eexists. splits; [eapply sinv_step; eauto|eapply rvinv_step; eauto|eapply pio_step; eauto].
Qed.

Lemma req_ready c s L D q k d : cfg_ok c -> sinv c s L D -> pio s -> lst s = Some (PReq q k, d) -> forall r, ready s r.
Proof.
  intros CO IV (A & B & E & FA & FB) El r. pose proof (pne CO IV) as PN.
  assert (G : In (PReq q k) (ops (m_pipe s))).
  { rewrite (ops_split PN). apply in_or_app. right. unfold lst in El. rewrite El. left. reflexivity. }
  split.
  - left. destruct (m_init s) eqn:Ei; auto. destruct (proj2 (proj2 (v_ini IV Ei)) _ G) as (q' & X & _). discriminate.
  - unfold pipe_ops. assert (X : B = []).
    { destruct B as [|b B] using rev_ind; auto. exfalso. rewrite (ops_split PN) in E. unfold lst in El. rewrite El in E. cbn [option_map fst olist] in E.
      rewrite app_assoc in E. apply app_inj_tail in E. destruct E as [_ E]. apply Forall_app in FB. destruct FB as [_ FB]. inversion FB as [|y z [q' Y] _]; subst. congruence. }
    subst B. rewrite app_nil_r in E. rewrite E. intros H. rewrite Forall_forall in FA. apply (FA _ H). eexists; eauto.
Qed.

(** * Between two requests *)
Section Between.
  Variables (c : scfg) (q : Z).
  Hypothesis CO : cfg_ok c.

  Definition good (x : sin) : Prop := in_ok c x /\ strobed x /\ i_rst x = false.

  Lemma gone_lst s x : In x (gone s) -> gone s = [x] /\ exists k d, lst s = Some (PReq x k, d).
  Proof.
    unfold gone. destruct (lst s) as [[[] d]|]; cbn; try easy. intros [->|[]]. eauto.
  Qed.
  Lemma gone_nil s : gone s = [] \/ exists x, gone s = [x].
  Proof. unfold gone. destruct (lst s) as [[[] d]|]; cbn; eauto. Qed.

  (** A queue whose turn it is, enabled and active, begins a request. *)
  Lemma turn_begins s L D i r : sinv c s L D -> rvinv s -> i_rst i = false -> gone s = [r] -> enabled c s r -> active s r ->
    exists k, begins c s i = Some (r, k).
  Proof.
    intros IV RV R G En Ac. destruct (@gone_lst s r) as (_ & k & d & El); [rewrite G; left; auto|].
    destruct (lst_req_pipe CO IV El) as (E1 & _ & ->). exists k.
    destruct (@port_step c s L D i CO IV RV R) as (E & _). rewrite E. unfold ef. rewrite El. cbn [effect]. unfold do_req.
    unfold active in Ac. rewrite (proj2 (may_enabled c s r) En), Ac.
    assert (X : q_sd (m_ram s r) = true). { apply (v_W IV). rewrite E1. apply in_or_app. right. left. auto. }
    rewrite X. cbn [andb e_issue e_req]. reflexivity.
  Qed.

  Lemma begins_gone s L D i x k : sinv c s L D -> rvinv s -> i_rst i = false -> begins c s i = Some (x, k) -> gone s = [x] /\ e_push (ef c s) = Some x.
  Proof.
    intros IV RV R B. destruct (@begins_lst c s L D i (x, k) CO IV RV R B) as (E & _ & _ & _ & _ & P). cbn [fst snd] in *. split; auto. unfold gone. rewrite E. reflexivity.
  Qed.

  Definition names (c : scfg) s xs := map fst (begun c s xs).

  Lemma during_cons s x xs P : during c s (x :: xs) P <-> P s /\ during c (nx c s x) xs P.
  Proof.
    unfold during. split.
    - intros H. split; [exact (H 0%nat)|]. intros n. specialize (H (S n)). cbn [firstn] in H. unfold after in *. cbn [trace] in H. unfold nx.
      destruct (s_step c s x) as [s1 o1]. cbn [fst]. destruct (trace (s_step c) s1 (firstn n xs)) as [s2 o2]. exact H.
    - intros [H1 H2] [|n]; [exact H1|]. specialize (H2 n). cbn [firstn]. unfold after in *. cbn [trace]. unfold nx in H2.
      destruct (s_step c s x) as [s1 o1]. cbn [fst] in *. destruct (trace (s_step c) s1 (firstn n xs)) as [s2 o2]. exact H2.
  Qed.

  Lemma after_cons s x xs : after c s (x :: xs) = after c (nx c s x) xs.
  Proof. unfold after. cbn [trace]. unfold nx. destruct (s_step c s x) as [s1 o1]. cbn [fst]. destruct (trace (s_step c) s1 xs). reflexivity. Qed.

  (** Every queue ahead of [q] is served before [q]. *)
  Lemma served_before r xs : r <> q -> forall s L D, sinv c s L D -> rvinv s -> Forall good xs ->
    (exists A B, order s L = A ++ r :: B /\ ~ In q A) -> during c s xs (fun u => enabled c u r /\ active u r) ->
    exists L' D', sinv c (after c s xs) L' D' /\ rvinv (after c s xs) /\
      (In r (names c s xs) \/ exists A B, order (after c s xs) L' = A ++ r :: B /\ ~ In q A).
  Proof.
    intros Nr. induction xs as [|x xs IH]; intros s L D IV RV F O Du.
    - exists L, D. auto.
    - inversion F as [|? ? (H1 & H2 & H3) F']; subst. apply during_cons in Du. destruct Du as [(En & Ac) Du].
      pose proof (sinv_step CO IV H1 H2 H3) as IV'. pose proof (@rvinv_step c s L D x CO IV H3 RV) as RV'.
      destruct (@order_step c s L D x CO IV H3) as (rest & E1 & E2). destruct O as (A & B & EO & NA).
      assert (X : In r (olist (option_map fst (begins c s x))) \/ exists A B, order (nx c s x) (@L2 c s L x) = A ++ r :: B /\ ~ In q A).
      { destruct (gone_nil s) as [G|[y G]]; rewrite G in E1; cbn [app] in E1.
        - right. exists A, (B ++ olist (e_push (ef c s))). rewrite E2, <- E1, EO, <- app_assoc. auto.
        - rewrite EO in E1. destruct A as [|a A]; cbn [app] in E1; injection E1 as <- E1.
          + left. destruct (@turn_begins s L D x r IV RV H3 G En Ac) as [k Ek]. rewrite Ek. left. reflexivity.
          + right. exists A, (B ++ olist (e_push (ef c s))). rewrite E2, <- E1, <- app_assoc. split; auto. intros H. apply NA. right. auto. }
      rewrite after_cons. unfold names. cbn [begun]. rewrite map_app.
      assert (Y : map fst (olist (begins c s x)) = olist (option_map fst (begins c s x))) by (destruct (begins c s x); reflexivity).
      rewrite Y. destruct X as [X|X].
      + assert (W : exists L' D', sinv c (after c (nx c s x) xs) L' D' /\ rvinv (after c (nx c s x) xs)).
        { clear - CO IV' RV' F'. revert IV' RV'. generalize (nx c s x) (@L2 c s L x) (@D1 c s D x). clear s L D. induction xs as [|y xs IH]; intros s L D IV RV; [exists L, D; auto|].
          inversion F' as [|? ? (H1 & H2 & H3) F'']; subst. rewrite after_cons. eapply IH; auto; [eapply sinv_step|eapply rvinv_step]; eauto. }
        destruct W as (L' & D' & W1 & W2). exists L', D'. splits; auto. left. apply in_or_app. auto.
      + destruct (IH _ _ _ IV' RV' F' X Du) as (L' & D' & W1 & W2 & W3). exists L', D'. splits; auto. destruct W3 as [W3|W3]; [left; apply in_or_app|]; auto.
  Qed.

  (** While [q] waits, nobody is served twice. *)
  Lemma once_before xs : forall s L D N, sinv c s L D -> rvinv s -> Forall good xs -> ~ In q (names c s xs) ->
    during c s xs (fun u => enabled c u q /\ active u q) -> NoDup N ->
    (exists A B, order s L = A ++ q :: B /\ forall x, In x A -> ~ In x N) ->
    NoDup (N ++ names c s xs).
  Proof.
    induction xs as [|x xs IH]; intros s L D N IV RV F NQ Du ND (A & B & EO & NA).
    - unfold names. cbn. now rewrite app_nil_r.
    - inversion F as [|? ? (H1 & H2 & H3) F']; subst. apply during_cons in Du. destruct Du as [(En & Ac) Du].
      pose proof (sinv_step CO IV H1 H2 H3) as IV'. pose proof (@rvinv_step c s L D x CO IV H3 RV) as RV'.
      destruct (@order_step c s L D x CO IV H3) as (rest & E1 & E2).
      unfold names in *. cbn [begun] in *. rewrite map_app in *.
      assert (NDo : NoDup (order s L)). { eapply Permutation_NoDup; [apply Permutation_app_comm|]. apply (v_nd IV). }
      assert (NQ' : ~ In q (map fst (begun c (fst (s_step c s x)) xs))) by (intros H; apply NQ, in_or_app; auto).
      rewrite app_assoc. destruct (begins c s x) as [[y k]|] eqn:Eb.
      + destruct (@begins_gone s L D x y k IV RV H3 Eb) as (G & _). cbn [olist map fst] in *. rewrite G, EO in E1. rewrite EO in NDo.
        destruct A as [|a A]; cbn [app] in E1; injection E1 as <- E1.
        { exfalso. apply NQ. left. auto. }
        eapply (IH _ _ _ (N ++ [a]) IV' RV'); auto.
        * apply (Permutation_NoDup (l := a :: N)); [apply Permutation_cons_append|]. constructor; auto. apply NA. left. auto.
        * exists A, (B ++ olist (e_push (ef c s))). split; [rewrite E2, <- E1, <- app_assoc; auto|].
          intros z Hz Hn. apply in_app_iff in Hn. destruct Hn as [Hn|[<-|[]]]; [apply (NA z); auto; right; auto|].
          cbn in NDo. inversion NDo; subst. apply H4. apply in_or_app. auto.
      + cbn [olist map] in *. rewrite app_nil_r. eapply (IH _ _ _ N IV' RV'); auto.
        destruct (gone_nil s) as [G|[y G]]; rewrite G in E1; cbn [app] in E1.
        * exists A, (B ++ olist (e_push (ef c s))). split; [rewrite E2, <- E1, EO, <- app_assoc; auto|auto].
        * rewrite EO in E1. destruct A as [|a A]; cbn [app] in E1; injection E1 as <- E1.
          { destruct (@turn_begins s L D x q IV RV H3 G En Ac) as [k Ek]. congruence. }
          exists A, (B ++ olist (e_push (ef c s))). split; [rewrite E2, <- E1, <- app_assoc; auto|]. intros z Hz. apply NA. right. auto.
  Qed.
End Between.

Theorem fair c s pre x0 mid x1 q k0 k1 : cfg_ok c -> power_on c s ->
  Forall (in_ok c) (pre ++ x0 :: mid ++ [x1]) -> Forall strobed (pre ++ x0 :: mid ++ [x1]) ->
  Forall (fun x => i_rst x = false) (x0 :: mid ++ [x1]) ->
  let t := after c s (pre ++ [x0]) in
  begins c (after c s pre) x0 = Some (q, k0) ->
  begins c (after c t mid) x1 = Some (q, k1) ->
  ~ In q (map fst (begun c t mid)) ->
  (forall r, r <> q -> in_range c r -> scheduled t r -> during c t mid (fun u => enabled c u r /\ active u r) ->
     In r (map fst (begun c t mid))) /\
  (during c t mid (fun u => enabled c u q /\ active u q) -> NoDup (map fst (begun c t mid))).
Proof.
  intros CO PO F1 F2 F3 t B0 B1 NQ.
  assert (F1' := F1). assert (F2' := F2). apply Forall_app in F1', F2'. destruct F1' as [Fa Fb], F2' as [Ga Gb].
  inversion Fb as [|? ? Fx Fm]; subst. inversion Gb as [|? ? Gx Gm]; subst. inversion F3 as [|? ? Rx Rm]; subst.
  apply Forall_app in Fm, Gm, Rm. destruct Fm as [Fm F1x], Gm as [Gm G1x], Rm as [Rm R1x].
  inversion F1x; inversion G1x; inversion R1x; subst.
  assert (GM : Forall (good c) mid). { apply Forall_forall. intros y Hy. rewrite Forall_forall in Fm, Gm, Rm. unfold good. auto. }
  destruct (run_pio CO PO Fa Ga) as (L & D & IV & RV & PI). set (s0 := after c s pre) in *.
  assert (Et : t = nx c s0 x0) by apply after_snoc.
  destruct (@begins_lst c s0 L D x0 (q, k0) CO IV RV Rx B0) as (El & _ & _ & _ & Rq & Ep). cbn [fst snd] in *.
  assert (G : gone s0 = [q]) by (unfold gone; rewrite El; reflexivity).
  destruct (@order_step c s0 L D x0 CO IV Rx) as (rest & E1 & E2). rewrite G in E1. rewrite Ep in E2. cbn [olist] in E2.
  pose proof (sinv_step CO IV Fx Gx Rx) as IV'. pose proof (@rvinv_step c s0 L D x0 CO IV Rx RV) as RV'. rewrite <- Et in *.
  assert (NDo : NoDup (order t (@L2 c s0 L x0))). { eapply Permutation_NoDup; [apply Permutation_app_comm|]. apply (v_nd IV'). }
  assert (Qr : ~ In q rest). { rewrite E2 in NDo. apply NoDup_remove_2 in NDo. rewrite app_nil_r in NDo. exact NDo. }
  split.
  - intros r Nr Rr Sr Du.
    assert (X : In r rest).
    { assert (Y : In r (order t (@L2 c s0 L x0))).
      { unfold order. apply in_app_iff. apply or_comm, in_app_iff. apply (v_W IV'). splits; auto. rewrite Et. apply (@ready_other c s0 L D x0 CO IV Rx); auto.
        - intros d. rewrite El. discriminate.
        - eapply req_ready; eauto. }
      rewrite E2 in Y. apply in_app_iff in Y. destruct Y as [Y|[Y|[]]]; auto. congruence. }
    apply in_split in X. destruct X as (A & B & ->).
    destruct (@served_before c q CO r mid Nr t _ _ IV' RV' GM) as (L' & D' & W1 & W2 & W3); auto.
    + exists A, (B ++ [q]). rewrite E2, <- app_assoc. split; auto. intros H'. apply Qr, in_or_app. auto.
    + destruct W3 as [W3|(A' & B' & E' & N')]; auto. exfalso.
      destruct (@begins_gone c CO _ L' D' x1 q k1 W1 W2) as (G' & _); auto.
      destruct (@order_step c (after c t mid) L' D' x1 CO W1) as (rest' & E1' & _); auto. rewrite G', E' in E1'.
      destruct A' as [|a A']; cbn in E1'; injection E1' as E1' _; [congruence|]. apply N'. left. auto.
  - intros Du. apply (@once_before c q CO mid t _ _ [] IV' RV' GM NQ Du); [constructor|].
    exists rest, []. rewrite E2. split; auto.
Qed.
