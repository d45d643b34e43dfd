(** The outstanding operations as a ghost list, and the doorbell they owe: the
    invariant behind C20. *)
From Coq Require Import Permutation.
From Verif Require Import Base.Prelude Rtl.Handshake_spec Rtl.Handshake_proof Rtl.Pipe_proof
  Stream.Axis_model Stream.Fifo_model Stream.Arb_model Stream.Arb_spec Stream.Arb_proof Sched.Rr_model Sched.Rr_spec Sched.RrOwe_spec
  Sched.FifoUse_proof Sched.Rr_proof Sched.RrFair_proof Sched.RrOwe_proof.
Local Open Scope Z_scope.
#[local] Unset Implicit Arguments.

(** An operation issued and not yet completed: what the observer knows of it, its
    answer if it has one, and whether a doorbell has been noted in it. *)
Record gop := mkG { g_p : pend; g_ans : option bool; g_db : bool }.
Definition gk (g : gop) := p_k (g_p g).
Definition gq (g : gop) := p_q (g_p g).
Definition gn (g : gop) := p_n (g_p g).
Definition gnew (g : gop) := p_new (g_p g).
Definition gover (g : gop) := p_over (g_p g).
Definition unans (g : gop) : bool := match g_ans g with None => true | Some _ => false end.

Definition fk (o : pop) : list nat := match o with PFin _ k _ => [k] | _ => [] end.
Definition fins (p : list stage) : list nat := flat_map fk (rev (ops p)).
Definition Aof (s : sst) (F : list (nat * bool)) : list nat :=
  fins (m_pipe s) ++ (if m_fv s then [m_fp s] else []) ++ map fst F.
Definition rk (o : pop) : list nat := match o with PReq _ k => [k] | _ => [] end.
Definition reqk (p : list stage) : list nat := flat_map rk (ops p).
Definition before (A : list nat) (a b : nat) : Prop := exists A1 A2, A = A1 ++ a :: A2 /\ In b A2.

Lemma before_tl h A a b : before (h :: A) a b -> a <> h -> before A a b.
Proof. intros (A1 & A2 & E & H) N. destruct A1 as [|x A1]; cbn in E; injection E as E1 E2; [congruence|]. exists A1, A2. auto. Qed.
Lemma before_app A B a b : before A a b -> before (A ++ B) a b.
Proof. intros (A1 & A2 & -> & H). exists A1, (A2 ++ B). rewrite <- app_assoc. split; auto. apply in_or_app. auto. Qed.
Lemma before_new A a b : In a A -> before (A ++ [b]) a b.
Proof. intros H. apply in_split in H. destruct H as (A1 & A2 & ->). exists A1, (A2 ++ [b]). rewrite <- app_assoc. split; auto. apply in_or_app. right. left. auto. Qed.
Lemma before_head h A a : NoDup (h :: A) -> before (h :: A) a h -> False.
Proof.
  intros N (A1 & A2 & E & H). inversion N; subst. destruct A1 as [|x A1]; cbn in E; injection E as E1 E2.
  - subst. auto.
  - subst. apply H2. apply in_or_app. right. right. auto.
Qed.

Lemma flat_map_rev_in A B (f : A -> list B) l x : In x (flat_map f (rev l)) <-> In x (flat_map f l).
Proof. rewrite !in_flat_map. split; intros (y & H1 & H2); exists y; split; auto; [apply in_rev in H1|apply -> in_rev]; auto. Qed.

Lemma find_key (O : list gop) g : NoDup (map gk O) -> In g O -> find (fun x => Nat.eqb (gk x) (gk g)) O = Some g.
Proof.
  induction O as [|x O IH]; intros N H; [destruct H|]. cbn in N. inversion N; subst. cbn [find]. destruct (Nat.eqb_spec (gk x) (gk g)) as [E|E].
  - destruct H as [->|H]; auto. exfalso. apply H2. rewrite E. apply in_map. auto.
  - destruct H as [->|H]; [congruence|auto].
Qed.
Lemma key_inj (O : list gop) g h : NoDup (map gk O) -> In g O -> In h O -> gk g = gk h -> g = h.
Proof. intros N Hg Hh E. pose proof (find_key O g N Hg) as A. pose proof (find_key O h N Hh) as B. rewrite E in A. congruence. Qed.

Lemma NoDup_app_disj A (a b : list A) x : NoDup (a ++ b) -> In x a -> In x b -> False.
Proof.
  induction a as [|y a IH]; cbn; intros N Ha Hb; [destruct Ha|]. inversion N; subst. destruct Ha as [->|Ha]; auto. apply H1. apply in_or_app. auto.
Qed.
Lemma NoDup_app_make A (a b : list A) : NoDup a -> NoDup b -> (forall x, In x a -> In x b -> False) -> NoDup (a ++ b).
Proof.
  induction a as [|y a IH]; cbn; intros Na Nb H; auto. inversion Na; subst. constructor.
  - intros X. apply in_app_iff in X. destruct X; [auto|]. eapply H; eauto.
  - apply IH; auto. intros x Hx. apply H. auto.
Qed.
Lemma NoDup_suffix A (a b : list A) : NoDup (a ++ b) -> NoDup b.
Proof. induction a; auto. intros N. inversion N; auto. Qed.

Section Owe.
  Variables (c : scfg) (q : Z).
  Hypothesis CO : cfg_ok c.
  Hypothesis QR : in_range c q.

  Record oinv (s : sst) (m : mon) (D : list Z) (O : list gop) (F : list (nat * bool)) : Prop := mkO {
    o_nd : NoDup (map gk O ++ reqk (m_pipe s));
    o_act : forall g, In g O -> t_act (m_tab s) (gk g) = true /\ t_q (m_tab s) (gk g) = gq g /\ (gk g < s_n c)%nat /\
              (g_db g = true -> t_db (m_tab s) (gk g) = true);
    o_req : forall r k, In (PReq r k) (ops (m_pipe s)) -> t_act (m_tab s) k = true /\ t_q (m_tab s) k = r /\ (k < s_n c)%nat;
    o_mon : n_ops m = map g_p (filter unans O);
    o_A1 : NoDup (Aof s F);
    o_A2 : forall k, In k (Aof s F) <-> exists g, In g O /\ gk g = k /\ g_ans g <> None;
    o_F : forall k ne, In (k, ne) F \/ (m_fv s = true /\ k = m_fp s /\ ne = m_fs s) -> exists g, In g O /\ gk g = k /\ g_ans g = Some ne;
    o_fin : forall r k more, In (PFin r k more) (ops (m_pipe s)) ->
              exists g, In g O /\ gk g = k /\ gq g = r /\ (more = false -> g_ans g = Some false /\ g_db g = false);
    o_ring : fring c s F;
    o_n : (forall g, In g O -> (gn g < n_cnt m)%nat) /\ NoDup (map gn O);
    o_Q : forall i j, In i O -> In j O -> gq i = q -> gq j = q -> (gn i < gn j)%nat -> g_ans j <> None ->
              gover i = true \/ before (Aof s F) (gk i) (gk j);
    o_E : forall g, In g O -> gq g = q -> g_ans g = Some false -> gover g = false /\ (n_owed m = true -> gnew g = false);
    o_T : (exists e, In e O /\ gq e = q /\ q_tail (m_ram s q) = gk e /\ forall g, In g O -> gq g = q -> (gn g <= gn e)%nat) \/
          (forall g, In g O -> gq g = q -> gover g = true);
    o_K0 : n_owed m = true -> ~ ready s q -> In q D;
    o_K : n_owed m = true -> In q D \/ In (PDoor q) (ops (m_pipe s)) \/
          ((q_act (m_ram s q) = true \/ exists g, In g O /\ gq g = q /\ g_db g = true) /\
           forall i, In i O -> gq i = q -> gnew i = false -> gover i = false ->
             exists j, In j O /\ gq j = q /\ (gn i <= gn j)%nat /\ g_db j = true) }.

  (** * One step of the ghost *)
  Definition ans_of (i : sin) (O : list gop) : option (gop * bool) :=
    match i_st i with
    | Some (tag, ne) => option_map (fun a => (a, ne)) (find (fun g => Nat.eqb (gk g) (Z.to_nat tag)) O)
    | None => None
    end.
  Definition dbh (s : sst) (g : gop) : bool :=
    match lst s with Some (PDoor r, d) => (r =? gq g) && Nat.eqb (tail_ix c d) (gk g) | _ => false end.
  Definition uover (i : sin) (O : list gop) (g : gop) : bool :=
    match ans_of i O with
    | Some (a, _) => gover g || (negb (Nat.eqb (gk g) (gk a)) && unans g && (gq g =? gq a) && Nat.ltb (gn g) (gn a))
    | None => gover g
    end.
  Definition uans (i : sin) (O : list gop) (g : gop) : option bool :=
    match ans_of i O with
    | Some (a, ne) => if Nat.eqb (gk g) (gk a) then Some ne else g_ans g
    | None => g_ans g
    end.
  Definition upd (s : sst) (i : sin) (O : list gop) (g : gop) : gop :=
    mkG (mkP (gq g) (gk g) (gn g) (gnew g && negb (rings q s i)) (uover i O g)) (uans i O g) (g_db g || dbh s g).
  Definition kept (s : sst) (g : gop) : bool :=
    match lst s with Some (PFin _ k _, _) => negb (Nat.eqb (gk g) k) | _ => true end.
  Definition newg (s : sst) (i : sin) (m : mon) : list gop :=
    match begins c s i with Some (r, k) => [mkG (mkP r k (n_cnt m) true false) None false] | None => [] end.
  Definition nO (s : sst) (i : sin) (m : mon) (O : list gop) : list gop := map (upd s i O) (filter (kept s) O) ++ newg s i m.
  Definition nF (s : sst) (i : sin) (F : list (nat * bool)) : list (nat * bool) := (if fload s then tl F else F) ++ st_k i.

  Section Step.
    Variables (s : sst) (m : mon) (L D : list Z) (O : list gop) (F : list (nat * bool)) (i : sin).
    Hypothesis IV : sinv c s L D.
    Hypothesis RV : rvinv s.
    Hypothesis PI : pio s.
    Hypothesis OI : oinv s m D O F.
    Hypothesis IO : in_ok c i.
    Hypothesis IS : strobed i.
    Hypothesis NR : i_rst i = false.
    Hypothesis EV : env_ok q m i.
    Notation s' := (nx c s i).
    Notation O' := (nO s i m O).
    Notation F' := (nF s i F).
    Notation m' := (mon_step c q s i m).

    Lemma PN : m_pipe s <> [].
    Proof. exact (pne CO IV). Qed.
    Lemma ndO : NoDup (map gk O).
    Proof. exact (NoDup_prefix _ _ (o_nd _ _ _ _ _ OI)). Qed.

    Lemma lst_ops o d : lst s = Some (o, d) -> In o (ops (m_pipe s)).
    Proof. intros E. rewrite (ops_split PN). apply in_or_app. right. unfold lst in E. rewrite E. left. reflexivity. Qed.

    (** The answer of this cycle. *)
    Lemma st_cases : i_st i = None \/ exists a ne, In a O /\ g_ans a = None /\ i_st i = Some (Z.of_nat (gk a), ne) /\
      ans_of i O = Some (a, ne) /\ (ne = false -> gq a = q -> gover a = false) /\ In (g_p a) (n_ops m).
    Proof.
      destruct (i_st i) as [[tag ne]|] eqn:E; [right|auto]. destruct (EV tag ne NR E) as (p & Hp & -> & He).
      rewrite (o_mon _ _ _ _ _ OI) in Hp. apply in_map_iff in Hp. destruct Hp as (a & <- & Ha). apply filter_In in Ha. destruct Ha as [Ha Hu].
      exists a, ne. splits; auto.
      - unfold unans in Hu. destruct (g_ans a); [discriminate|auto].
      - unfold ans_of. rewrite E, Nat2Z.id. change (p_k (g_p a)) with (gk a). rewrite (find_key O a ndO Ha). reflexivity.
      - rewrite (o_mon _ _ _ _ _ OI). apply in_map, filter_In. auto.
    Qed.

    (** * The list of answered operations *)
    Definition lfin : list nat := match lst s with Some (PFin _ k _, _) => [k] | _ => [] end.
    Definition Rest : list nat := fins (removelast (m_pipe s)) ++ (if m_fv s then [m_fp s] else []) ++ map fst F.

    Lemma f_fv : m_fv s' = fload s || (m_fv s && negb (match accept c s i with Some o => is_fin o | None => false end)).
    Proof. unfold nx, s_step. cbn [fst m_fv]. rewrite NR. reflexivity. Qed.

    Lemma A_old : Aof s F = lfin ++ Rest.
    Proof.
      unfold Aof, Rest, fins. rewrite (ops_split PN), rev_app_distr, flat_map_app, <- app_assoc. f_equal. unfold lfin, lst.
      destruct (last (m_pipe s) None) as [[[] d]|]; reflexivity.
    Qed.

    Lemma tag_small : forall tag ne, i_st i = Some (tag, ne) -> 0 <= tag < 2 ^ Z.of_nat (cl c) /\ Z.of_nat (length F) < 2 ^ Z.of_nat (cl c).
    Proof.
      intros tag ne E. destruct st_cases as [H|(a & ne' & Ha & Hu & Hs & _)]; [congruence|]. rewrite E in Hs. injection Hs as -> ->.
      assert (N : Z.of_nat (s_n c) <= 2 ^ Z.of_nat (cl c)).
      { unfold cl. destruct CO as ((C1 & C2) & _). pose proof (Nat.log2_up_spec (s_n c) ltac:(lia)) as [_ H].
        change 2 with (Z.of_nat 2). rewrite <- Nat2Z.inj_pow. lia. }
      destruct (o_act _ _ _ _ _ OI a Ha) as (_ & _ & Hk & _). split; [lia|].
      (* the answered slots and [a] are different numbers below [s_n c] *)
      assert (ND : NoDup (gk a :: Aof s F)).
      { constructor; [|apply (o_A1 _ _ _ _ _ OI)]. intros H. apply (o_A2 _ _ _ _ _ OI) in H. destruct H as (g & Hg & E1 & E2).
        rewrite (key_inj O g a ndO Hg Ha E1) in E2. auto. }
      assert (IN : incl (gk a :: Aof s F) (seq 0 (s_n c))).
      { intros k [<-|H]; [apply in_seq; lia|]. apply (o_A2 _ _ _ _ _ OI) in H. destruct H as (g & Hg & <- & _).
        destruct (o_act _ _ _ _ _ OI g Hg) as (_ & _ & Hk' & _). apply in_seq. lia. }
      pose proof (NoDup_incl_length ND IN) as X. rewrite seq_length in X. unfold Aof in X. cbn [length] in X. rewrite !app_length, map_length in X. lia.
    Qed.

    Lemma ring_new : fring c s' F'.
    Proof. exact (proj1 (fring_step c s i F NR (o_ring _ _ _ _ _ OI) tag_small)). Qed.

    Lemma A_new : Aof s' F' = Rest ++ map fst (st_k i).
    Proof.
      destruct (fring_step c s i F NR (o_ring _ _ _ _ _ OI) tag_small) as (_ & X1 & X2).
      unfold Aof, Rest, nF. rewrite f_pipe by auto. unfold fins at 1. rewrite ops_cons, rev_app_distr, flat_map_app. fold (fins (removelast (m_pipe s))).
      rewrite map_app, <- !app_assoc. f_equal. rewrite !app_assoc. f_equal. rewrite f_fv. unfold new.
      destruct (accept c s i) as [o|] eqn:Ea.
      - cbn [option_map fst olist rev app flat_map]. rewrite app_nil_r. destruct (is_fin o) eqn:Ef.
        + destruct o; try discriminate. destruct (accept_cases _ _ _ Ea) as (_ & E1 & E2 & _). rewrite E1. cbn [negb andb fk].
          assert (FL : fload s = false) by (unfold fload; rewrite E1; reflexivity). rewrite FL. cbn [orb]. subst. reflexivity.
        + assert (fk o = []) as -> by (destruct o; auto; discriminate). cbn [negb app]. rewrite andb_true_r. destruct (fload s) eqn:FL.
          * destruct (X1 eq_refl) as (k & ne & F1 & -> & E1 & _). unfold fload in FL. apply andb_true_iff in FL. destruct FL as [FL _]. apply negb_true_iff in FL. rewrite FL. cbn [orb]. rewrite E1. reflexivity.
          * destruct (X2 eq_refl) as (E1 & _). rewrite E1. reflexivity.
      - cbn [option_map olist rev flat_map app negb]. rewrite andb_true_r. destruct (fload s) eqn:FL.
        + destruct (X1 eq_refl) as (k & ne & F1 & -> & E1 & _). unfold fload in FL. apply andb_true_iff in FL. destruct FL as [FL _]. apply negb_true_iff in FL. rewrite FL. cbn [orb]. rewrite E1. reflexivity.
        + destruct (X2 eq_refl) as (E1 & _). rewrite E1. reflexivity.
    Qed.

    (** The operation that completes is the first answered one. *)
    Lemma fin_entry r k more d : lst s = Some (PFin r k more, d) -> exists g, In g O /\ gk g = k /\ gq g = r /\ (more = false -> g_ans g = Some false /\ g_db g = false) /\
      g_ans g <> None /\ Aof s F = k :: Rest.
    Proof.
      intros E. destruct (o_fin _ _ _ _ _ OI _ _ _ (lst_ops _ _ E)) as (g & H1 & H2 & H3 & H4). exists g. splits; auto.
      - assert (X : In k (Aof s F)) by (rewrite A_old; unfold lfin; rewrite E; left; auto). apply (o_A2 _ _ _ _ _ OI) in X. destruct X as (h & Hh & E1 & E2).
        rewrite (key_inj O g h ndO H1 Hh) by congruence. auto.
      - rewrite A_old. unfold lfin. rewrite E. reflexivity.
    Qed.

    Lemma kept_un g : In g O -> g_ans g = None -> kept s g = true.
    Proof.
      intros Hg Hu. unfold kept. destruct (lst s) as [[[| | | |r k more| |] d]|] eqn:E; auto. destruct (fin_entry _ _ _ _ E) as (h & Hh & Ek & _ & _ & Ha & _).
      apply negb_true_iff, Nat.eqb_neq. intros X. rewrite (key_inj O g h ndO Hg Hh) in Hu by congruence. auto.
    Qed.

    Lemma kept_no g : In g O -> kept s g = false -> exists r more d, lst s = Some (PFin r (gk g) more, d) /\ gq g = r /\ Aof s F = gk g :: Rest /\ g_ans g <> None.
    Proof.
      unfold kept. destruct (lst s) as [[[| | | |r k more| |] d]|] eqn:E; try discriminate. intros Hg H. apply negb_false_iff, Nat.eqb_eq in H. subst k.
      destruct (fin_entry _ _ _ _ E) as (h & Hh & Ek & Eq & _ & Ha & EA). rewrite <- (key_inj O g h ndO Hg Hh) in * by congruence. exists r, more, d. auto.
    Qed.

    Lemma kept_rest g : In g O -> kept s g = true -> In (gk g) (Aof s F) -> In (gk g) Rest.
    Proof.
      intros Hg K H. rewrite A_old in H. unfold lfin in H. unfold kept in K. destruct (lst s) as [[[| | | |r k more| |] d]|]; auto.
      destruct H as [->|H]; auto. rewrite Nat.eqb_refl in K. discriminate.
    Qed.

    Lemma inO' g' : In g' O' <-> (exists g, In g O /\ kept s g = true /\ g' = upd s i O g) \/ In g' (newg s i m).
    Proof.
      unfold nO. rewrite in_app_iff, in_map_iff. split; (intros [H|H]; [left|right; auto]).
      - destruct H as (g & <- & H). apply filter_In in H. exists g. tauto.
      - destruct H as (g & H1 & H2 & ->). exists g. split; auto. apply filter_In. auto.
    Qed.

    (** * What the step does, in terms of the last operation *)
    Lemma upd_ans g : In g O -> g_ans g <> None -> uans i O g = g_ans g /\ uover i O g = gover g.
    Proof.
      intros Hg Ha. unfold uans, uover. destruct st_cases as [E|(a & ne & H1 & H2 & H3 & H4 & _)].
      - unfold ans_of. rewrite E. auto.
      - rewrite H4. assert (N : gk g <> gk a) by (intros X; rewrite (key_inj O g a ndO Hg H1 X) in Ha; auto).
        apply Nat.eqb_neq in N. rewrite N. split; auto. unfold unans. destruct (g_ans g); [|congruence]. rewrite andb_false_r. cbn. apply orb_false_r.
    Qed.
    Lemma upd_un g : In g O -> g_ans g = None -> uans i O g <> None ->
      exists ne, i_st i = Some (Z.of_nat (gk g), ne) /\ ans_of i O = Some (g, ne) /\ uans i O g = Some ne /\ (ne = false -> gq g = q -> gover g = false) /\ In (g_p g) (n_ops m).
    Proof.
      intros Hg Ha. unfold uans. destruct st_cases as [E|(a & ne & H1 & H2 & H3 & H4 & H5 & H6)].
      - unfold ans_of. rewrite E. congruence.
      - rewrite H4. destruct (Nat.eqb_spec (gk g) (gk a)) as [X|X]; [|congruence]. intros _. pose proof (key_inj O g a ndO Hg H1 X). subst a. exists ne. splits; auto.
    Qed.
    Lemma uover_mono g : gover g = true -> uover i O g = true.
    Proof. intros H. unfold uover. destruct (ans_of i O) as [[a ne]|]; rewrite H; auto. Qed.

    Lemma begins_req r k : begins c s i = Some (r, k) -> lst s = Some (PReq r k, m_ram s r) /\ e_rel (ef c s) = None /\ e_tail (ef c s) = Some (k mod 2 ^ 8)%nat /\ in_range c r.
    Proof.
      intros B. destruct (@begins_lst c s L D i (r, k) CO IV RV NR B) as (E & En & Ac & Sd & Rg & _). cbn [fst snd] in *. split; auto.
      unfold ef. rewrite E. cbn [effect]. unfold do_req. unfold active, scheduled in *. rewrite (proj2 (may_enabled c s r) En), Ac, Sd. cbn [andb e_rel e_tail]. auto.
    Qed.

    Lemma rel_cases k : e_rel (ef c s) = Some k -> (exists r d, lst s = Some (PReq r k, d) /\ begins c s i = None) \/ exists r more d, lst s = Some (PFin r k more, d).
    Proof.
      intros H. destruct (@port_step c s L D i CO IV RV NR) as (B & _). rewrite B. unfold ef in *.
      destruct (lst s) as [[[] d]|] eqn:E; cbn [effect] in *; try discriminate.
      - unfold do_fin in H. cbn in H. injection H as <-. eauto.
      - destruct (s_ctl c); discriminate.
      - left. unfold do_req in *. destruct (_ && _ && _); cbn in *; [discriminate|]. injection H as <-. eauto.
    Qed.

    Lemma reqk_split : reqk (m_pipe s) = reqk (removelast (m_pipe s)) ++ match lst s with Some (PReq _ k, _) => [k] | _ => [] end.
    Proof. unfold reqk. rewrite (ops_split PN), flat_map_app. f_equal. unfold lst. destruct (last (m_pipe s) None) as [[[] d]|]; reflexivity. Qed.
    Lemma reqk_new : reqk (m_pipe s') = match accept c s i with Some (PReq _ k) => [k] | _ => [] end ++ reqk (removelast (m_pipe s)).
    Proof. rewrite f_pipe by auto. unfold reqk at 1. rewrite ops_cons, flat_map_app. f_equal. unfold new. destruct (accept c s i) as [[]|]; reflexivity. Qed.
    Lemma reqk_in k p : In k (reqk p) <-> exists r, In (PReq r k) (ops p).
    Proof.
      unfold reqk. rewrite in_flat_map. split.
      - intros (o & H & Hq). destruct o; cbn in Hq; try tauto. destruct Hq as [->|[]]. eauto.
      - intros [r H]. exists (PReq r k). split; auto. cbn. auto.
    Qed.

    Lemma acc_req_free r k : accept c s i = Some (PReq r k) -> t_act (m_tab s) k = false /\ (k < s_n c)%nat /\ (forall g, In g O -> gk g <> k) /\ reqk (m_pipe s) = [].
    Proof.
      intros E. destruct (accept_cases _ _ _ E) as (_ & _ & E1 & E2 & E3 & _). unfold start_valid in E2. apply pe_encoded_spec in E2. destruct E2 as (H1 & H2 & _).
      fold (start_ptr c (m_tab s)) in *. rewrite <- E1 in *. apply negb_true_iff in H2. splits; auto.
      - intros g Hg X. destruct (o_act _ _ _ _ _ OI g Hg) as (H3 & _). congruence.
      - apply no_rq in E3. destruct (reqk (m_pipe s)) as [|k0 l] eqn:E4; auto. assert (X : In k0 (reqk (m_pipe s))) by (rewrite E4; left; auto).
        apply reqk_in in X. destruct X as [r0 X]. assert (Y : In r0 (rq (ops (m_pipe s)))) by (apply rq_in; eauto). rewrite E3 in Y. destruct Y.
    Qed.

    Lemma t_act' k : t_act (m_tab s') k = match e_rel (ef c s) with Some j => if Nat.eqb k j then false else (match accept c s i with Some (PReq _ j) => if Nat.eqb k j then true else t_act (m_tab s) k | _ => t_act (m_tab s) k end)
                                      | None => match accept c s i with Some (PReq _ j) => if Nat.eqb k j then true else t_act (m_tab s) k | _ => t_act (m_tab s) k end end.
    Proof. rewrite f_tab by auto. unfold tab_write. cbn [t_act]. destruct (e_rel (ef c s)), (accept c s i) as [[]|]; unfold nupd; reflexivity. Qed.
    Lemma t_q' k : t_q (m_tab s') k = match accept c s i with Some (PReq r j) => if Nat.eqb k j then r else t_q (m_tab s) k | _ => t_q (m_tab s) k end.
    Proof. rewrite f_tab by auto. rewrite tab_q. destruct (accept c s i) as [[]|]; reflexivity. Qed.
    Lemma t_db' k : t_db (m_tab s') k = match e_door (ef c s) with Some j => if Nat.eqb k j then true else (match accept c s i with Some (PReq _ j) => if Nat.eqb k j then false else t_db (m_tab s) k | _ => t_db (m_tab s) k end)
                                      | None => match accept c s i with Some (PReq _ j) => if Nat.eqb k j then false else t_db (m_tab s) k | _ => t_db (m_tab s) k end end.
    Proof. rewrite f_tab by auto. unfold tab_write. cbn [t_db]. destruct (e_door (ef c s)), (accept c s i) as [[]|]; unfold nupd; reflexivity. Qed.

    Lemma n_mon : n_ops m' = (if rings q s i then map old else (fun l => l)) (match i_st i with Some (tag, _) => answer (Z.to_nat tag) (n_ops m) | None => n_ops m end)
        ++ match begins c s i with Some (r, k) => [mkP r k (n_cnt m) true false] | None => [] end.
    Proof. unfold mon_step. rewrite NR. destruct (begins c s i) as [[r k]|]; cbn [n_ops]; rewrite ?app_nil_r; destruct (rings q s i); reflexivity. Qed.
    Lemma n_owed' : n_owed m' = true -> rings q s i = true \/ (n_owed m = true /\ rings q s i = false /\ forall a, In a O -> i_st i = Some (Z.of_nat (gk a), false) -> gq a = q -> In (g_p a) (n_ops m) -> gnew a = false).
    Proof.
      unfold mon_step. rewrite NR. destruct (rings q s i) eqn:Er; [auto|]. intros H. right.
      assert (X : n_owed m && negb (match i_st i with Some (tag, false) => existsb (fun p => Nat.eqb (p_k p) (Z.to_nat tag) && (p_q p =? q) && p_new p) (n_ops m) | _ => false end) = true).
      { destruct (begins c s i) as [[r k]|]; exact H. }
      apply andb_true_iff in X. destruct X as [X1 X2]. splits; auto. intros a Ha E Eq Hi. rewrite E in X2. apply negb_true_iff in X2.
      destruct (gnew a) eqn:Ea; auto. exfalso. rewrite <- not_true_iff_false in X2. apply X2. apply existsb_exists. exists (g_p a). split; auto.
      rewrite Nat2Z.id. unfold gk, gq, gnew in *. rewrite Nat.eqb_refl, Eq, Z.eqb_refl, Ea. reflexivity.
    Qed.

    Lemma key_req g : In g O -> forall k, In k (reqk (m_pipe s)) -> gk g <> k.
    Proof. intros Hg k Hk E. pose proof (o_nd _ _ _ _ _ OI) as N. eapply NoDup_app_disj; [exact N| |exact Hk]. rewrite <- E. apply in_map. auto. Qed.

    Lemma kept_fin k : In k Rest -> forall g, In g O -> gk g = k -> kept s g = true.
    Proof.
      intros H g Hg E. destruct (kept s g) eqn:K; auto. destruct (kept_no g Hg K) as (r & more & d & _ & _ & EA & _).
      pose proof (o_A1 _ _ _ _ _ OI) as N. rewrite EA in N. inversion N; subst. contradiction.
    Qed.
    Lemma rest_in k : In k Rest -> In k (Aof s F).
    Proof. intros H. rewrite A_old. apply in_or_app. auto. Qed.

    (** * The clauses *)
    Lemma n_nd : NoDup (map gk O' ++ reqk (m_pipe s')).
    Proof.
      rewrite reqk_new. pose proof (o_nd _ _ _ _ _ OI) as N. rewrite reqk_split in N.
      unfold nO. rewrite map_app, map_map. rewrite (map_ext (fun g => gk (upd s i O g)) gk) by reflexivity.
      assert (NF : forall X, NoDup (map gk O ++ X) -> NoDup (map gk (filter (kept s) O) ++ X)).
      { intros X. generalize O. induction O0 as [|g l IH]; cbn; auto. intros H. inversion H; subst. destruct (kept s g); cbn; auto. constructor; auto.
        intros Y. apply H2. apply in_app_iff in Y. apply in_or_app. destruct Y as [Y|Y]; auto. left. apply in_map_iff in Y. destruct Y as (h & E & Y). apply filter_In in Y. rewrite <- E. apply in_map. tauto. }
      destruct (accept c s i) as [[| | | | | |r k]|] eqn:Ea.
      all: try (assert (X : NoDup ((map gk (filter (kept s) O)) ++ map gk (newg s i m) ++ reqk (removelast (m_pipe s)))); [apply NF|rewrite <- app_assoc; exact X];
        unfold newg; destruct (begins c s i) as [[r0 k0]|] eqn:B; cbn [map app gk g_p p_k];
        [destruct (begins_req _ _ B) as (El & _); rewrite El in N; eapply Permutation_NoDup; [|exact N]; apply Permutation_app_head; symmetry; apply (Permutation_app_comm [k0])
        |rewrite app_assoc in N; eapply NoDup_prefix, N]).
      destruct (acc_req_free _ _ Ea) as (H1 & H2 & H3 & H4). rewrite reqk_split in H4. apply app_eq_nil in H4. destruct H4 as [H4 H5]. rewrite H4.
      unfold newg. destruct (begins c s i) as [[r0 k0]|] eqn:B; [destruct (begins_req _ _ B) as (El & _); rewrite El in H5; discriminate|].
      cbn [map app]. rewrite app_nil_r. apply NoDup_app_make.
      - rewrite <- (app_nil_r (map gk _)). apply NF. rewrite app_nil_r. apply ndO.
      - repeat constructor; auto.
      - intros x Hx [<-|[]]. apply in_map_iff in Hx. destruct Hx as (g & E & Hg). apply filter_In in Hg. apply (H3 g); tauto.
    Qed.

    Lemma old_rel g : In g O -> kept s g = true -> e_rel (ef c s) <> Some (gk g).
    Proof.
      intros Hg K E. destruct (rel_cases _ E) as [(r & d & El & _)|(r & more & d & El)].
      - apply (key_req g Hg (gk g)); auto. rewrite reqk_split, El. apply in_or_app. right. left. auto.
      - unfold kept in K. rewrite El, Nat.eqb_refl in K. discriminate.
    Qed.
    Lemma old_start g : In g O -> match accept c s i with Some (PReq _ j) => Nat.eqb (gk g) j = false | _ => True end.
    Proof.
      intros Hg. destruct (accept c s i) as [[| | | | | |r k]|] eqn:Ea; auto. destruct (acc_req_free _ _ Ea) as (_ & _ & H & _). apply Nat.eqb_neq. auto.
    Qed.

    Lemma small_tail d k : q_tail d = k -> (k < s_n c)%nat -> tail_ix c d = k.
    Proof.
      intros E H. unfold tail_ix, cl. rewrite E. destruct CO as ((C1 & C2) & _). pose proof (Nat.log2_up_spec (s_n c) ltac:(lia)) as [_ X]. apply Nat.mod_small. lia.
    Qed.

    Lemma n_act g' : In g' O' -> t_act (m_tab s') (gk g') = true /\ t_q (m_tab s') (gk g') = gq g' /\ (gk g' < s_n c)%nat /\
              (g_db g' = true -> t_db (m_tab s') (gk g') = true).
    Proof.
      intros H. apply inO' in H. destruct H as [(g & Hg & K & ->)|H].
      - destruct (o_act _ _ _ _ _ OI g Hg) as (A1 & A2 & A3 & A4). change (gk (upd s i O g)) with (gk g). change (gq (upd s i O g)) with (gq g). change (g_db (upd s i O g)) with (g_db g || dbh s g).
        pose proof (old_start g Hg) as S. pose proof (old_rel g Hg K) as R. splits; auto.
        + rewrite t_act'. assert (X : match accept c s i with Some (PReq _ j) => if Nat.eqb (gk g) j then true else t_act (m_tab s) (gk g) | _ => t_act (m_tab s) (gk g) end = true) by (destruct (accept c s i) as [[| | | | | |r k]|]; auto; rewrite S; auto).
          rewrite X. destruct (e_rel (ef c s)) as [j|]; [|reflexivity]. destruct (Nat.eqb_spec (gk g) j) as [Y|Y]; [exfalso; subst; auto|reflexivity].
        + rewrite t_q'. destruct (accept c s i) as [[| | | | | |r k]|]; auto. rewrite S. auto.
        + intros Db. rewrite t_db'. apply orb_true_iff in Db. destruct Db as [Db|Db].
          * assert (X : match accept c s i with Some (PReq _ j) => if Nat.eqb (gk g) j then false else t_db (m_tab s) (gk g) | _ => t_db (m_tab s) (gk g) end = true) by (destruct (accept c s i) as [[| | | | | |r k]|]; auto; rewrite S; auto).
            rewrite X. destruct (e_door (ef c s)) as [j|]; auto. destruct (Nat.eqb (gk g) j); auto.
          * unfold dbh in Db. unfold ef. destruct (lst s) as [[[] d]|]; try discriminate. apply andb_true_iff in Db. destruct Db as [D1 D2]. apply Z.eqb_eq in D1. apply Nat.eqb_eq in D2.
            cbn [effect]. unfold do_door. cbn [e_door]. unfold tail_active. rewrite D2, A1, A2, D1, Z.eqb_refl. cbn [andb guard]. rewrite Nat.eqb_refl. reflexivity.
      - unfold newg in H. destruct (begins c s i) as [[r k]|] eqn:B; [|destruct H]. destruct H as [<-|[]]. destruct (begins_req _ _ B) as (El & Er & _).
        cbn [gk gq g_db g_p p_k p_q]. destruct (o_req _ _ _ _ _ OI r k (lst_ops _ _ El)) as (A1 & A2 & A3).
        assert (S : match accept c s i with Some (PReq _ j) => False | _ => True end).
        { destruct (accept c s i) as [[| | | | | |r0 k0]|] eqn:Ea; auto. destruct (acc_req_free _ _ Ea) as (_ & _ & _ & X). rewrite reqk_split, El in X. apply app_eq_nil in X. destruct X. discriminate. }
        splits; auto; [rewrite t_act', Er|rewrite t_q'|discriminate]; destruct (accept c s i) as [[| | | | | |r0 k0]|]; auto; contradiction.
    Qed.

    Lemma n_req r k : In (PReq r k) (ops (m_pipe s')) -> t_act (m_tab s') k = true /\ t_q (m_tab s') k = r /\ (k < s_n c)%nat.
    Proof.
      rewrite f_pipe by auto. rewrite ops_cons. intros H. apply in_app_iff in H. destruct H as [H|H].
      - unfold new in H. destruct (accept c s i) as [o|] eqn:Ea; [|destruct H]. destruct H as [H|[]]. cbn in H. subst o.
        destruct (acc_req_free _ _ Ea) as (A1 & A2 & A3 & A4). splits; auto.
        + rewrite t_act', Ea, Nat.eqb_refl. destruct (e_rel (ef c s)) as [j|] eqn:Er; auto. destruct (Nat.eqb_spec k j); auto. subst j. exfalso.
          destruct (rel_cases _ Er) as [(r0 & d & El & _)|(r0 & more & d & El)].
          * rewrite reqk_split, El in A4. apply app_eq_nil in A4. destruct A4. discriminate.
          * destruct (fin_entry _ _ _ _ El) as (g & Hg & Ek & _). apply (A3 g Hg Ek).
        + rewrite t_q', Ea, Nat.eqb_refl. reflexivity.
      - assert (H' : In (PReq r k) (ops (m_pipe s))) by (rewrite (ops_split PN); apply in_or_app; auto).
        destruct (o_req _ _ _ _ _ OI r k H') as (A1 & A2 & A3).
        assert (Hk : In k (reqk (removelast (m_pipe s)))) by (apply reqk_in; eauto).
        assert (S : match accept c s i with Some (PReq _ j) => False | _ => True end).
        { destruct (accept c s i) as [[| | | | | |r0 k0]|] eqn:Ea; auto. destruct (acc_req_free _ _ Ea) as (_ & _ & _ & X). rewrite reqk_split in X. apply app_eq_nil in X. destruct X as [X _]. rewrite X in Hk. destruct Hk. }
        assert (R : e_rel (ef c s) <> Some k).
        { intros Er. destruct (rel_cases _ Er) as [(r0 & d & El & _)|(r0 & more & d & El)].
          - pose proof (o_nd _ _ _ _ _ OI) as N. apply NoDup_suffix in N. rewrite reqk_split, El in N. eapply NoDup_app_disj; [exact N|exact Hk|left; auto].
          - destruct (fin_entry _ _ _ _ El) as (g & Hg & Ek & _). apply (key_req g Hg k); auto. rewrite reqk_split. apply in_or_app. auto. }
        splits; auto.
        + rewrite t_act'. destruct (e_rel (ef c s)) as [j|]; [destruct (Nat.eqb_spec k j); [subst; congruence|]|]; destruct (accept c s i) as [[| | | | | |r0 k0]|]; auto; contradiction.
        + rewrite t_q'. destruct (accept c s i) as [[| | | | | |r0 k0]|]; auto; contradiction.
    Qed.

    Lemma ops_none : i_st i = None -> forall l, (forall g, In g l -> In g O) -> map g_p (filter unans (map (upd s i O) (filter (kept s) l))) =
      (if rings q s i then map old else (fun l => l)) (map g_p (filter unans l)).
    Proof.
      intros E l. induction l as [|g l IH]; intros HO; [destruct (rings q s i); reflexivity|]. cbn [filter].
      assert (Hg : In g O) by (apply HO; left; auto). specialize (IH (fun g H => HO g (or_intror H))).
      assert (U : unans (upd s i O g) = unans g) by (unfold unans, upd, uans, ans_of; rewrite E; reflexivity).
      destruct (unans g) eqn:Eu.
      - rewrite kept_un; auto; [|unfold unans in Eu; destruct (g_ans g); auto; discriminate]. cbn [map filter]. rewrite U. cbn [map]. rewrite IH.
        destruct (rings q s i) eqn:Er; cbn [map]; f_equal; unfold upd, uover, ans_of; cbn [g_p]; rewrite E, Er; unfold old, gq, gk, gn, gnew, gover; cbn [negb]; rewrite ?andb_false_r, ?andb_true_r; destruct (g_p g); reflexivity.
      - destruct (kept s g); cbn [map filter]; rewrite ?U; exact IH.
    Qed.

    Lemma ops_some a ne : ans_of i O = Some (a, ne) -> In a O -> forall l, (forall g, In g l -> In g O) -> map g_p (filter unans (map (upd s i O) (filter (kept s) l))) =
      (if rings q s i then map old else (fun l => l)) (map (fun p => if (p_q p =? p_q (g_p a)) && Nat.ltb (p_n p) (p_n (g_p a)) then over p else p)
                  (filter (fun p => negb (Nat.eqb (p_k p) (gk a))) (map g_p (filter unans l)))).
    Proof.
      intros E Ha l. induction l as [|g l IH]; intros HO; [destruct (rings q s i); reflexivity|]. cbn [filter].
      assert (Hg : In g O) by (apply HO; left; auto). specialize (IH (fun g H => HO g (or_intror H))).
      assert (U : unans (upd s i O g) = unans g && negb (Nat.eqb (gk g) (gk a))) by (unfold unans, upd, uans; rewrite E; cbn [g_ans]; destruct (Nat.eqb (gk g) (gk a)), (g_ans g); reflexivity).
      destruct (unans g) eqn:Eu.
      - rewrite kept_un; auto; [|unfold unans in Eu; destruct (g_ans g); auto; discriminate]. cbn [map filter]. rewrite U. cbn [andb]. change (p_k (g_p g)) with (gk g). destruct (Nat.eqb (gk g) (gk a)) eqn:Ek; cbn [negb map]; auto. rewrite IH.
        unfold upd at 1, uover. cbn [g_p]. rewrite E, Ek, Eu. cbn [negb andb]. unfold gq, gn, gk, gnew, gover.
        destruct (rings q s i); cbn [map]; f_equal; unfold old, over; destruct (g_p g) as [x1 x2 x3 x4 x5]; cbn [p_q p_k p_n p_new p_over negb]; destruct ((x1 =? p_q (g_p a)) && Nat.ltb x3 (p_n (g_p a))); cbn [p_q p_k p_n p_new p_over negb]; rewrite ?orb_true_r, ?orb_false_r, ?andb_true_r, ?andb_false_r; reflexivity.
      - destruct (kept s g); cbn [map filter]; rewrite ?U; exact IH.
    Qed.

    Lemma find_mon a : In a O -> g_ans a = None -> find (fun p => Nat.eqb (p_k p) (gk a)) (map g_p (filter unans O)) = Some (g_p a).
    Proof.
      intros Ha Hu. pose proof ndO as N. revert Ha N. generalize O. induction O0 as [|g l IH]; intros Ha N; [destruct Ha|]. cbn in N. inversion N; subst. cbn [filter].
      destruct Ha as [->|Ha].
      - assert (unans a = true) as -> by (unfold unans; rewrite Hu; auto). cbn [map find]. change (p_k (g_p a)) with (gk a). rewrite Nat.eqb_refl. reflexivity.
      - assert (X : gk g <> gk a) by (intros E; apply H1; rewrite E; apply in_map; auto). apply Nat.eqb_neq in X. destruct (unans g); cbn [map find]; auto. change (p_k (g_p g)) with (gk g). rewrite X. auto.
    Qed.

    Lemma n_mon' : n_ops m' = map g_p (filter unans O').
    Proof.
      rewrite n_mon. unfold nO. rewrite filter_app, map_app. f_equal.
      - rewrite (o_mon _ _ _ _ _ OI). destruct st_cases as [E|(a & ne & H1 & H2 & H3 & H4 & _)].
        + rewrite E. rewrite (ops_none E); auto.
        + rewrite H3, Nat2Z.id. rewrite (ops_some _ _ H4); auto. unfold answer. rewrite (find_mon a H1 H2). reflexivity.
      - unfold newg. destruct (begins c s i) as [[r k]|]; reflexivity.
    Qed.

    Lemma n_A1 : NoDup (Aof s' F').
    Proof.
      rewrite A_new. pose proof (o_A1 _ _ _ _ _ OI) as N. rewrite A_old in N. apply NoDup_app_make.
      - eapply NoDup_suffix, N.
      - unfold st_k. destruct (i_st i) as [[]|]; repeat constructor; auto.
      - intros k Hk. unfold st_k. destruct st_cases as [E|(a & ne & H1 & H2 & H3 & _)]; [rewrite E; auto|]. rewrite H3, Nat2Z.id. cbn. intros [<-|[]].
        apply rest_in in Hk. apply (o_A2 _ _ _ _ _ OI) in Hk. destruct Hk as (g & Hg & E1 & E2). rewrite (key_inj O g a ndO Hg H1 E1) in E2. auto.
    Qed.

    Lemma uans_some g : In g O -> g_ans g <> None -> uans i O g <> None.
    Proof. intros Hg H. rewrite (proj1 (upd_ans g Hg H)). auto. Qed.

    Lemma n_A2 k : In k (Aof s' F') <-> exists g, In g O' /\ gk g = k /\ g_ans g <> None.
    Proof.
      rewrite A_new. split.
      - intros H. apply in_app_iff in H. destruct H as [H|H].
        + pose proof (proj1 (o_A2 _ _ _ _ _ OI k) (rest_in _ H)) as (g & Hg & E & Ha). exists (upd s i O g). splits; auto.
          * apply inO'. left. exists g. splits; auto. eapply kept_fin; eauto.
          * apply uans_some; auto.
        + unfold st_k in H. destruct st_cases as [E|(a & ne & H1 & H2 & H3 & H4 & _)]; [rewrite E in H; destruct H|]. rewrite H3, Nat2Z.id in H. destruct H as [<-|[]].
          exists (upd s i O a). splits; auto.
          * apply inO'. left. exists a. splits; auto. apply kept_un; auto.
          * cbn [upd g_ans]. unfold uans. rewrite H4, Nat.eqb_refl. discriminate.
      - intros (g' & Hg & <- & Ha). apply inO' in Hg. destruct Hg as [(g & Hg & K & ->)|H].
        + change (gk (upd s i O g)) with (gk g). destruct (g_ans g) eqn:Eg.
          * apply in_or_app. left. apply kept_rest; auto. apply (o_A2 _ _ _ _ _ OI). exists g. splits; auto. congruence.
          * destruct (upd_un g Hg Eg Ha) as (ne & E & _). apply in_or_app. right. unfold st_k. rewrite E, Nat2Z.id. left. auto.
        + unfold newg in H. destruct (begins c s i) as [[]|]; [|destruct H]. destruct H as [<-|[]]. cbn in Ha. congruence.
    Qed.

    Lemma n_F k ne : In (k, ne) F' \/ (m_fv s' = true /\ k = m_fp s' /\ ne = m_fs s') -> exists g, In g O' /\ gk g = k /\ g_ans g = Some ne.
    Proof.
      destruct (fring_step c s i F NR (o_ring _ _ _ _ _ OI) tag_small) as (_ & X1 & X2).
      assert (OLD : In (k, ne) F \/ (m_fv s = true /\ k = m_fp s /\ ne = m_fs s) -> exists g, In g O' /\ gk g = k /\ g_ans g = Some ne).
      { intros H. destruct (o_F _ _ _ _ _ OI k ne H) as (g & Hg & E & Ha). exists (upd s i O g). splits; auto.
        - apply inO'. left. exists g. splits; auto. apply (kept_fin k); auto. unfold Rest. apply in_or_app. right. destruct H as [H|(H1 & H2 & _)].
          + apply in_or_app. right. apply (in_map fst _ _ H).
          + rewrite H1. subst k. left. auto.
        - cbn [upd g_ans]. rewrite (proj1 (upd_ans g Hg ltac:(congruence))). auto. }
      intros [H|(H1 & H2 & H3)].
      - unfold nF in H. apply in_app_iff in H. destruct H as [H|H].
        + apply OLD. left. destruct (fload s); auto. destruct F; [destruct H|right; auto].
        + unfold st_k in H. destruct st_cases as [E|(a & ne' & A1 & A2 & A3 & A4 & _)]; [rewrite E in H; destruct H|]. rewrite A3, Nat2Z.id in H. destruct H as [H|[]]. injection H as <- <-.
          exists (upd s i O a). splits; auto.
          * apply inO'. left. exists a. splits; auto. apply kept_un; auto.
          * cbn [upd g_ans]. unfold uans. rewrite A4, Nat.eqb_refl. reflexivity.
      - rewrite f_fv in H1. destruct (fload s) eqn:FL.
        + destruct (X1 eq_refl) as (k0 & ne0 & F0 & -> & E1 & E2). apply OLD. left. left. congruence.
        + cbn [orb] in H1. apply andb_true_iff in H1. destruct H1 as [H1 _]. destruct (X2 eq_refl) as (E1 & E2). apply OLD. right. splits; auto; congruence.
    Qed.

    Lemma n_fin r k more : In (PFin r k more) (ops (m_pipe s')) ->
              exists g, In g O' /\ gk g = k /\ gq g = r /\ (more = false -> g_ans g = Some false /\ g_db g = false).
    Proof.
      rewrite f_pipe by auto. rewrite ops_cons. intros H. apply in_app_iff in H.
      assert (X : exists g, In g O /\ gk g = k /\ gq g = r /\ (more = false -> g_ans g = Some false /\ g_db g = false) /\ In k Rest /\ dbh s g = false).
      { destruct H as [H|H].
        - unfold new in H. destruct (accept c s i) as [o|] eqn:Ea; [|destruct H]. destruct H as [H|[]]. cbn in H. subst o.
          destruct (accept_cases _ _ _ Ea) as (HZ & E1 & E2 & E3 & E4). destruct (o_F _ _ _ _ _ OI k (m_fs s) (or_intror (conj E1 (conj E2 eq_refl)))) as (g & Hg & Ek & Ha).
          destruct (o_act _ _ _ _ _ OI g Hg) as (A1 & A2 & A3 & A4). exists g. splits; auto.
          + congruence.
          + intros ->. symmetry in E4. apply orb_false_iff in E4. destruct E4 as [E4 E5]. split; [congruence|]. rewrite <- Ek in E5. destruct (g_db g); auto. rewrite A4 in E5; auto.
          + unfold Rest. apply in_or_app. right. rewrite E1. left. auto.
          + unfold dbh. destruct (lst s) as [[[] d]|] eqn:El; auto. destruct (Z.eqb_spec q0 (gq g)); auto. exfalso. apply HZ. apply in_map_iff. exists (PDoor q0). split; [cbn; congruence|]. eapply lst_ops; eauto.
        - assert (H' : In (PFin r k more) (ops (m_pipe s))) by (rewrite (ops_split PN); apply in_or_app; auto).
          destruct (o_fin _ _ _ _ _ OI _ _ _ H') as (g & Hg & Ek & Eq & Hm). exists g. splits; auto; try apply Hm; auto.
          + unfold Rest. apply in_or_app. left. unfold fins. apply flat_map_rev_in. apply in_flat_map. exists (PFin r k more). split; auto. left. auto.
          + unfold dbh. destruct (lst s) as [[[] d]|] eqn:El; auto. destruct (Z.eqb_spec q0 (gq g)); auto. exfalso.
            destruct (@lst_in c s L D i CO IV NR _ _ El) as (_ & _ & N). apply N. apply in_map_iff. exists (PFin r k more). split; auto. cbn. congruence. }
      destruct X as (g & Hg & Ek & Eq & Hm & Hr & Hd). exists (upd s i O g). splits; auto.
      - apply inO'. left. exists g. splits; auto. eapply kept_fin; eauto.
      - intros M. destruct (Hm M) as [Ha Hdb]. cbn [upd g_ans g_db]. rewrite (proj1 (upd_ans g Hg ltac:(congruence))), Hd, Hdb. auto.
    Qed.

    Lemma n_n : (forall g, In g O' -> (gn g < n_cnt m')%nat) /\ NoDup (map gn O').
    Proof.
      destruct (o_n _ _ _ _ _ OI) as [N1 N2].
      assert (NF : NoDup (map gn (filter (kept s) O))).
      { revert N2. generalize O. induction O0 as [|g l IH]; cbn; auto. intros H. inversion H; subst. destruct (kept s g); cbn; auto. constructor; auto.
        intros Y. apply H2. apply in_map_iff in Y. destruct Y as (h & E & Y). apply filter_In in Y. rewrite <- E. apply in_map. tauto. }
      assert (CN : n_cnt m' = match begins c s i with Some _ => S (n_cnt m) | None => n_cnt m end) by (unfold mon_step; rewrite NR; destruct (begins c s i) as [[]|]; reflexivity).
      split.
      - intros g' H. rewrite CN. apply inO' in H. destruct H as [(g & Hg & K & ->)|H].
        + change (gn (upd s i O g)) with (gn g). specialize (N1 g Hg). destruct (begins c s i); lia.
        + unfold newg in H. destruct (begins c s i) as [[]|]; [|destruct H]. destruct H as [<-|[]]. cbn [gn g_p p_n]. lia.
      - unfold nO. rewrite map_app, map_map. rewrite (map_ext (fun g => gn (upd s i O g)) gn) by reflexivity. apply NoDup_app_make; auto.
        + unfold newg. destruct (begins c s i) as [[]|]; cbn; repeat constructor; auto.
        + intros x Hx H. unfold newg in H. destruct (begins c s i) as [[]|]; [|destruct H]. destruct H as [<-|[]]. cbn [gn g_p p_n] in Hx.
          apply in_map_iff in Hx. destruct Hx as (g & E & Hg). apply filter_In in Hg. destruct Hg as [Hg _]. specialize (N1 g Hg). lia.
    Qed.

    Lemma new_n g' : In g' (newg s i m) -> gn g' = n_cnt m /\ g_ans g' = None /\ gnew g' = true /\ gover g' = false /\ begins c s i = Some (gq g', gk g').
    Proof. unfold newg. destruct (begins c s i) as [[r k]|]; [|intros []]. intros [<-|[]]. cbn. auto. Qed.

    Lemma n_Q a b : In a O' -> In b O' -> gq a = q -> gq b = q -> (gn a < gn b)%nat -> g_ans b <> None ->
              gover a = true \/ before (Aof s' F') (gk a) (gk b).
    Proof.
      intros Ha Hb Qa Qb Lt An. destruct (o_n _ _ _ _ _ OI) as [N1 _]. apply inO' in Ha, Hb.
      destruct Hb as [(b0 & Hb & Kb & ->)|Hb]; [|destruct (new_n _ Hb) as (_ & X & _); congruence].
      destruct Ha as [(a0 & Ha & Ka & ->)|Ha]; [|destruct (new_n _ Ha) as (X & _); rewrite X in Lt; change (gn (upd s i O b0)) with (gn b0) in Lt; specialize (N1 b0 Hb); lia].
      change (gk (upd s i O a0)) with (gk a0). change (gk (upd s i O b0)) with (gk b0). change (gn (upd s i O a0)) with (gn a0) in Lt. change (gn (upd s i O b0)) with (gn b0) in Lt.
      change (gq (upd s i O a0)) with (gq a0) in Qa. change (gq (upd s i O b0)) with (gq b0) in Qb. cbn [upd g_ans] in An. change (gover (upd s i O a0)) with (uover i O a0). rewrite A_new.
      destruct (g_ans b0) eqn:Eb.
      - destruct (o_Q _ _ _ _ _ OI a0 b0 Ha Hb Qa Qb Lt ltac:(congruence)) as [H|H]; [left; apply uover_mono; auto|right].
        apply before_app. rewrite A_old in H. unfold lfin in H. unfold kept in Ka. destruct (lst s) as [[[| | | |r k more| |] d]|]; auto.
        apply before_tl in H; auto. apply negb_true_iff, Nat.eqb_neq in Ka. auto.
      - destruct (upd_un b0 Hb Eb An) as (ne & E & E2 & _). destruct (g_ans a0) eqn:Ea.
        + right. unfold st_k. rewrite E, Nat2Z.id. apply before_new. apply kept_rest; auto. apply (o_A2 _ _ _ _ _ OI). exists a0. splits; auto. congruence.
        + left. unfold uover. rewrite E2. unfold unans. rewrite Ea, Qa, Qb, Z.eqb_refl. apply Nat.ltb_lt in Lt. rewrite Lt.
          destruct (Nat.eqb_spec (gk a0) (gk b0)) as [X|X]; [|apply orb_true_r]. rewrite (key_inj O a0 b0 ndO Ha Hb X) in Lt. rewrite Nat.ltb_irrefl in Lt. discriminate.
    Qed.

    Lemma n_E g' : In g' O' -> gq g' = q -> g_ans g' = Some false -> gover g' = false /\ (n_owed m' = true -> gnew g' = false).
    Proof.
      intros H Q An. apply inO' in H. destruct H as [(g & Hg & K & ->)|H]; [|destruct (new_n _ H) as (_ & X & _); congruence].
      change (gq (upd s i O g)) with (gq g) in Q. cbn [upd g_ans] in An. change (gover (upd s i O g)) with (uover i O g). change (gnew (upd s i O g)) with (gnew g && negb (rings q s i)).
      destruct (g_ans g) eqn:Eg.
      - destruct (upd_ans g Hg ltac:(congruence)) as [U1 U2]. rewrite U1, Eg in An. injection An as ->. destruct (o_E _ _ _ _ _ OI g Hg Q Eg) as [E1 E2].
        split; [congruence|]. intros Ow. destruct (n_owed' Ow) as [->|(Ow' & _)]; [apply andb_false_r|]. rewrite E2; auto.
      - destruct (upd_un g Hg Eg ltac:(congruence)) as (ne & E & E2 & E3 & E4 & E5). rewrite E3 in An. injection An as ->. split.
        + unfold uover. rewrite E2, Nat.eqb_refl. cbn. rewrite orb_false_r. auto.
        + intros Ow. destruct (n_owed' Ow) as [->|(Ow' & _ & X)]; [apply andb_false_r|]. rewrite (X g Hg E Q E5). reflexivity.
    Qed.

    Lemma tail' : (forall k, begins c s i <> Some (q, k)) -> q_tail (m_ram s' q) = q_tail (m_ram s q).
    Proof.
      intros B. rewrite f_ram. destruct (lst s) as [[o d]|] eqn:El; [|reflexivity]. rewrite ram_write_eq. unfold zupd. destruct (Z.eqb_spec q (pop_q o)) as [E|E]; auto.
      unfold new_word. cbn [q_tail]. rewrite <- E. destruct (e_tail (ef c s)) as [x|] eqn:Et; auto. exfalso.
      destruct (@port_step c s L D i CO IV RV NR) as (Bq & _). unfold ef in *. rewrite El in *. destruct o; cbn [effect] in *; try discriminate; try (destruct (s_ctl c); discriminate).
      cbn [pop_q] in E. subst. unfold do_req in *. destruct (_ && _ && _); cbn [e_tail e_issue e_req] in *; [|discriminate]. eapply B, Bq.
    Qed.

    Lemma n_T : (exists e, In e O' /\ gq e = q /\ q_tail (m_ram s' q) = gk e /\ forall g, In g O' -> gq g = q -> (gn g <= gn e)%nat) \/
          (forall g, In g O' -> gq g = q -> gover g = true).
    Proof.
      destruct (o_n _ _ _ _ _ OI) as [N1 N2].
      assert (BD : (exists k, begins c s i = Some (q, k)) \/ forall k, begins c s i <> Some (q, k)).
      { destruct (begins c s i) as [[r k]|]; [|right; discriminate]. destruct (Z.eq_dec r q) as [->|N]; [left; eauto|right; congruence]. }
      destruct BD as [[k B]|B].
      - left. destruct (begins_req _ _ B) as (El & _ & Et & _). destruct (o_req _ _ _ _ _ OI _ _ (lst_ops _ _ El)) as (_ & _ & A3).
        exists (mkG (mkP q k (n_cnt m) true false) None false). splits; auto.
        + apply inO'. right. unfold newg. rewrite B. left. auto.
        + rewrite f_ram, El, ram_write_eq. cbn [pop_q]. rewrite zupd_same. unfold new_word. rewrite Et. cbn [q_tail gk g_p p_k]. apply Nat.mod_small. destruct CO as ((C1 & C2) & _). change (2 ^ 8)%nat with 256%nat. lia.
        + intros g' H _. cbn [gn g_p p_n]. apply inO' in H. destruct H as [(g & Hg & K & ->)|H]; [|destruct (new_n _ H) as (X & _); fold (gn g'); lia]. specialize (N1 g Hg). unfold gn in *. cbn [upd g_p p_n]. unfold gn. lia.
      - rewrite (tail' B). assert (NN : forall g', In g' O' -> gq g' = q -> exists g, In g O /\ kept s g = true /\ g' = upd s i O g).
        { intros g' H Q. apply inO' in H. destruct H as [H|H]; auto. destruct (new_n _ H) as (_ & _ & _ & _ & X). rewrite Q in X. exfalso. eapply B, X. }
        destruct (o_T _ _ _ _ _ OI) as [(e & He & Qe & Te & Me)|Ov].
        + destruct (kept s e) eqn:K.
          * left. exists (upd s i O e). splits; auto. { apply inO'. left. eauto. } intros g' H Q. destruct (NN g' H Q) as (g & Hg & _ & ->). apply (Me g Hg Q).
          * right. intros g' H Q. destruct (NN g' H Q) as (g & Hg & Kg & ->). apply uover_mono. change (gq (upd s i O g)) with (gq g) in Q.
            destruct (kept_no e He K) as (r & more & d & El & _ & EA & Ha).
            assert (Lt : (gn g < gn e)%nat).
            { specialize (Me g Hg Q). assert (gn g <> gn e); [|lia]. intros X. assert (g = e); [|congruence].
              clear - N2 Hg He X. induction O as [|h l IH]; [destruct Hg|]. cbn in N2. inversion N2; subst. destruct Hg as [->|Hg], He as [->|He]; auto.
              - exfalso. apply H1. rewrite X. apply in_map. auto.
              - exfalso. apply H1. rewrite <- X. apply in_map. auto. }
            destruct (o_Q _ _ _ _ _ OI g e Hg He Q Qe Lt Ha) as [X|X]; auto. exfalso. pose proof (o_A1 _ _ _ _ _ OI) as N. rewrite EA in X, N. eapply before_head; eauto.
        + right. intros g' H Q. destruct (NN g' H Q) as (g & Hg & Kg & ->). apply uover_mono. apply (Ov g Hg Q).
    Qed.

    Notation D' := (@D1 c s D i).
    Lemma ring_in : rings q s i = true -> In q D'.
    Proof.
      unfold rings, D1. destruct (i_door i) as [q'|]; [|discriminate]. intros H. apply andb_true_iff in H. destruct H as [H1 H2]. apply Z.eqb_eq in H1. subst q'.
      unfold room in H2. rewrite (doorbells_eq IV) in H2. apply Nat.ltb_lt in H2. change 256%nat with (2 ^ 8)%nat in H2.
      rewrite (holds_ready (v_db IV) H2). apply in_or_app. right. left. auto.
    Qed.

    Lemma D_pop : In q D -> In q D' \/ accept c s i = Some (PDoor q).
    Proof.
      intros H. unfold D1. destruct (accept c s i) as [[| | |r| | |]|] eqn:Ea; try (left; apply in_or_app; auto; fail).
      destruct (accept_cases _ _ _ Ea) as (_ & E). destruct (holds_head (v_db IV) E) as [t Et]. rewrite Et in *. destruct H as [->|H]; auto. left. apply in_or_app. auto.
    Qed.

    Lemma n_K0 : n_owed m' = true -> ~ ready s' q -> In q D'.
    Proof.
      intros Ow NRd. destruct (n_owed' Ow) as [H|(Ow' & _)]; [apply ring_in; auto|].
      assert (NI : forall d, lst s <> Some (PInit q, d)).
      { intros d El. destruct (@init_word c s L D i CO IV NR q d El) as (_ & X & _). auto. }
      assert (NR' : ~ ready s q) by (rewrite <- (@ready_other c s L D i CO IV NR q QR NI); auto).
      destruct (D_pop (o_K0 _ _ _ _ _ OI Ow' NR')) as [H|H]; auto. exfalso. apply NR'.
      destruct (accept_cases _ _ _ H) as (HZ & _). split.
      - left. destruct (m_init s) eqn:Ei; auto. rewrite (@a_init c s L D i IV NR Ei) in H. discriminate.
      - intros X. apply HZ. apply in_map_iff. exists (PInit q). auto.
    Qed.

    Lemma act_new : q_act (m_ram s' q) = match lst s with
      | Some (PInit r, _) => if q =? r then false else q_act (m_ram s q)
      | Some (PDoor r, _) => if q =? r then true else q_act (m_ram s q)
      | Some (PFin r _ more, _) => if q =? r then more else q_act (m_ram s q)
      | _ => q_act (m_ram s q) end.
    Proof.
      rewrite f_ram. destruct (lst s) as [[o d]|] eqn:El; [|reflexivity]. rewrite ram_write_eq. unfold zupd. unfold ef. rewrite El.
      pose proof (@lst_ram c s L D o d CO IV El) as Ed. destruct (Z.eqb_spec q (pop_q o)) as [E|E].
      - subst d. unfold new_word. destruct o; cbn [pop_q effect] in *; subst; cbn [q_act]; rewrite ?Z.eqb_refl; try reflexivity.
        + unfold do_write. cbn [e_low]. destruct (Z.testbit strb 0); reflexivity.
        + destruct (s_ctl c); reflexivity.
        + unfold do_req. destruct (_ && _ && _); reflexivity.
      - apply Z.eqb_neq in E. destruct o; cbn [pop_q] in *; rewrite ?E; reflexivity.
    Qed.

    Lemma in_pipe o : In o (ops (m_pipe s)) -> (exists d, lst s = Some (o, d)) \/ In o (ops (m_pipe s')).
    Proof.
      rewrite (ops_split PN), f_pipe, ops_cons by auto. intros H. apply in_app_iff in H. destruct H as [H|H]; [right; apply in_or_app; auto|left].
      unfold lst. destruct (last (m_pipe s) None) as [[o' d]|]; cbn in H; [|destruct H]. destruct H as [->|[]]. eauto.
    Qed.

    Lemma n_K : n_owed m' = true -> In q D' \/ In (PDoor q) (ops (m_pipe s')) \/
          ((q_act (m_ram s' q) = true \/ exists g, In g O' /\ gq g = q /\ g_db g = true) /\
           forall i, In i O' -> gq i = q -> gnew i = false -> gover i = false ->
             exists j, In j O' /\ gq j = q /\ (gn i <= gn j)%nat /\ g_db j = true).
    Proof.
      intros Ow. destruct (n_owed' Ow) as [H|(Ow' & Rg & _)]; [left; apply ring_in; auto|]. destruct (o_n _ _ _ _ _ OI) as [N1 N2].
      assert (DC : In q D -> In q D' \/ In (PDoor q) (ops (m_pipe s'))).
      { intros H. destruct (D_pop H) as [X|X]; auto. right. rewrite f_pipe by auto. rewrite ops_cons. apply in_or_app. left. unfold new. rewrite X. left. auto. }
      assert (OLD : forall g', In g' O' -> gnew g' = false -> exists g, In g O /\ kept s g = true /\ g' = upd s i O g /\ gnew g = false /\ (gover g' = false -> gover g = false)).
      { intros g' H Hn. apply inO' in H. destruct H as [(g & Hg & K & ->)|H]; [|destruct (new_n _ H) as (_ & _ & X & _); congruence]. exists g. splits; auto.
        - change (gnew (upd s i O g)) with (gnew g && negb (rings q s i)) in Hn. rewrite Rg, andb_true_r in Hn. auto.
        - intros X. destruct (gover g) eqn:E; auto. change (gover (upd s i O g)) with (uover i O g) in X. rewrite uover_mono in X; auto. }
      assert (KEEP : forall g, In g O -> kept s g = true -> In (upd s i O g) O') by (intros g Hg K; apply inO'; left; eauto).
      assert (DBK : forall g, g_db g = true -> g_db (upd s i O g) = true) by (intros g H; cbn [upd g_db]; rewrite H; reflexivity).
      assert (NE : forall g h, In g O -> In h O -> g <> h -> gn g <> gn h).
      { intros g h Hg Hh X E. apply X. clear - N2 Hg Hh E. induction O as [|y l IH]; [destruct Hg|]. cbn in N2. inversion N2; subst. destruct Hg as [->|Hg], Hh as [->|Hh]; auto.
        - exfalso. apply H1. rewrite E. apply in_map. auto.
        - exfalso. apply H1. rewrite <- E. apply in_map. auto. }
      destruct (o_K _ _ _ _ _ OI Ow') as [H|[H|(H1 & H2)]].
      - destruct (DC H); auto.
      - destruct (in_pipe _ H) as [[d El]|X]; [|auto]. right. right.
        assert (KK : forall g, kept s g = true) by (intros g; unfold kept; rewrite El; auto). split.
        + left. rewrite act_new, El, Z.eqb_refl. reflexivity.
        + intros g' Hg' Q Nw Ov. destruct (OLD g' Hg' Nw) as (g & Hg & K & -> & Nw' & Ov'). specialize (Ov' Ov). change (gq (upd s i O g)) with (gq g) in Q.
          destruct (o_T _ _ _ _ _ OI) as [(e & He & Qe & Te & Me)|All]; [|rewrite All in Ov' by auto; discriminate].
          exists (upd s i O e). splits; auto.
          * apply (Me g Hg Q).
          * cbn [upd g_db]. unfold dbh. rewrite El. pose proof (@lst_ram c s L D _ d CO IV El) as Ed. cbn [pop_q] in Ed. subst d.
            destruct (o_act _ _ _ _ _ OI e He) as (_ & _ & Hk & _). rewrite (small_tail _ _ Te Hk), Qe, Z.eqb_refl, Nat.eqb_refl. apply orb_true_r.
      - assert (LS : (exists d, lst s = Some (PInit q, d)) \/ (exists k more d, lst s = Some (PFin q k more, d)) \/
                     ((q_act (m_ram s q) = true -> q_act (m_ram s' q) = true) /\ forall g, In g O -> gq g = q -> kept s g = true)).
        { rewrite act_new. destruct (lst s) as [[o d]|] eqn:El; [|right; right; split; auto; intros; unfold kept; rewrite El; auto].
          destruct o as [r|r dd sb|r|r|r k more|r e|r k]; try (right; right; split; auto; intros; unfold kept; rewrite El; auto; fail).
          - destruct (Z.eqb_spec q r) as [->|N]; [left; eauto|]. right. right. split; auto. intros; unfold kept; rewrite El; auto.
          - right. right. split; [destruct (q =? r); auto|]. intros; unfold kept; rewrite El; auto.
          - destruct (Z.eqb_spec q r) as [->|N]; [right; left; eauto|]. right. right. split; auto. intros g Hg Q. destruct (kept s g) eqn:K; auto.
            destruct (kept_no g Hg K) as (r' & more' & d' & El' & Qr & _). rewrite El in El'. injection El' as -> -> -> ->. congruence. }
        destruct LS as [[d El]|[(k & more & d & El)|(LS1 & LS2)]].
        + destruct (@init_word c s L D i CO IV NR q d El) as (_ & _ & _ & X). destruct (DC (o_K0 _ _ _ _ _ OI Ow' X)); auto.
        + destruct (fin_entry _ _ _ _ El) as (h & Hh & Ek & Qh & Hm & Ha & EA). right. right. rewrite act_new, El, Z.eqb_refl.
          assert (KH : forall g, In g O -> g <> h -> kept s g = true).
          { intros g Hg X. unfold kept. rewrite El. apply negb_true_iff, Nat.eqb_neq. intros E. apply X. apply (key_inj O); auto using ndO. congruence. }
          split.
          * destruct more; [left; auto|right]. destruct (Hm eq_refl) as [Ha' Hd]. destruct (o_E _ _ _ _ _ OI h Hh Qh Ha') as [E1 E2].
            destruct (H2 h Hh Qh (E2 Ow') E1) as (j & Hj & Qj & _ & Dj). exists (upd s i O j). splits; auto. apply KEEP; auto. apply KH; auto. congruence.
          * intros g' Hg' Q Nw Ov. destruct (OLD g' Hg' Nw) as (g & Hg & K & -> & Nw' & Ov'). specialize (Ov' Ov). change (gq (upd s i O g)) with (gq g) in Q.
            destruct (H2 g Hg Q Nw' Ov') as (j & Hj & Qj & Lj & Dj). exists (upd s i O j). splits; auto. apply KEEP; auto. apply KH; auto. intros ->.
            assert (GH : g <> h) by (intros ->; unfold kept in K; rewrite El, Ek, Nat.eqb_refl in K; discriminate).
            assert (Lt : (gn g < gn h)%nat) by (specialize (NE g h Hg Hh GH); clear - NE Lj; lia).
            destruct (o_Q _ _ _ _ _ OI g h Hg Hh Q Qh Lt Ha) as [X|X]; [congruence|]. pose proof (o_A1 _ _ _ _ _ OI) as N. rewrite EA, Ek in *. eapply before_head; eauto.
        + right. right. split.
          * destruct H1 as [H1|(g & Hg & Qg & Dg)]; [left; auto|]. right. exists (upd s i O g). splits; auto.
          * intros g' Hg' Q Nw Ov. destruct (OLD g' Hg' Nw) as (g & Hg & K & -> & Nw' & Ov'). specialize (Ov' Ov). change (gq (upd s i O g)) with (gq g) in Q.
            destruct (H2 g Hg Q Nw' Ov') as (j & Hj & Qj & Lj & Dj). exists (upd s i O j). splits; auto.
    Qed.

    Lemma oinv_step : oinv s' m' D' O' F'.
    Proof.
      constructor.
      - apply n_nd. - apply n_act. - apply n_req. - apply n_mon'. - apply n_A1. - apply n_A2. - apply n_F. - apply n_fin. - apply ring_new.
      - apply n_n. - apply n_Q. - apply n_E. - apply n_T. - apply n_K0. - apply n_K.
    Qed.
  End Step.

  Lemma fring_start s : m_fw s = 0 -> m_fr s = 0 -> fring c s [].
  Proof.
    intros E1 E2. pose proof (cap_pos c). unfold fring. rewrite E1, E2. cbn [length]. splits; try lia.
    - rewrite Z.mod_0_l; lia.
    - intros j k ne H'. destruct j; discriminate.
  Qed.

  Lemma oinv_start s m D : ops (m_pipe s) = [] -> m_fv s = false -> m_fw s = 0 -> m_fr s = 0 -> n_ops m = [] -> n_owed m = false -> oinv s m D [] [].
  Proof.
    intros E1 E2 E3 E4 E5 E6.
    assert (EA : Aof s [] = []) by (unfold Aof, fins; rewrite E1, E2; reflexivity).
    constructor; rewrite ?EA; cbn [In map filter app]; rewrite ?E1; try congruence; try (intros; contradiction).
    - unfold reqk. rewrite E1. constructor.
    - constructor.
    - intros k. split; [intros []|]. intros (g & [] & _).
    - intros k ne [[]|(X & _)]. congruence.
    - apply fring_start; auto.
    - split; [intros g []|constructor].
    - right. intros g [].
  Qed.

  Lemma run_oinv xs : forall s m L D O F, sinv c s L D -> rvinv s -> pio s -> oinv s m D O F ->
    Forall (in_ok c) xs -> Forall strobed xs -> env_run c q s m xs ->
    exists L D O F, sinv c (after c s xs) L D /\ oinv (after c s xs) (watch c q s m xs) D O F.
  Proof.
    induction xs as [|x xs IH]; intros s m L D O F IV RV PI OI F1 F2 EV.
    - exists L, D, O, F. auto.
    - inversion F1; inversion F2; subst. destruct EV as [EV EV']. rewrite after_cons. cbn [watch]. fold (nx c s x).
      destruct (i_rst x) eqn:R.
      + assert (P : m_pipe (nx c s x) = map (fun _ => None) (m_pipe s)) by (unfold nx, s_step; cbn [fst m_pipe]; rewrite R; reflexivity).
        apply (IH (nx c s x) (mon_step c q s x m) [] [] [] []); auto.
        * eapply sinv_reset; eauto.
        * intros _. unfold nx, s_step. cbn [fst m_rv]. now rewrite R.
        * exists [], []. rewrite P, ops_nones. auto.
        * apply oinv_start; try (unfold nx, s_step; cbn [fst m_fv m_fw m_fr]; rewrite R; reflexivity).
          -- rewrite P. apply ops_nones.
          -- unfold mon_step. rewrite R. reflexivity.
          -- unfold mon_step. rewrite R. reflexivity.
      + eapply (IH (nx c s x) (mon_step c q s x m)); eauto.
        * eapply sinv_step; eauto.
        * eapply rvinv_step; eauto.
        * eapply pio_step; eauto.
        * eapply oinv_step; eauto.
  Qed.

  Lemma power_oinv s xs : power_on c s -> Forall (in_ok c) xs -> Forall strobed xs -> env_run c q s mon0 xs ->
    exists L D O F, sinv c (after c s xs) L D /\ oinv (after c s xs) (watch c q s mon0 xs) D O F.
  Proof.
    intros PO F1 F2 EV. pose proof (@sinv_init c s CO PO) as IV. destruct PO as (m1 & m2 & ft & fs & ->).
    apply (run_oinv xs (s_init c m1 m2 ft fs) mon0 [] [] [] []); auto.
    - intros _. reflexivity.
    - exists [], []. cbn [m_pipe s_init]. rewrite ops_nil. auto.
    - apply oinv_start; auto. cbn [m_pipe s_init]. apply ops_nil.
  Qed.

  (** A doorbell that is owed is waiting, under way, noted in the queue's word, or noted in an
      operation that is outstanding. *)
  Lemma owed_kept s xs : power_on c s -> Forall (in_ok c) xs -> Forall strobed xs -> env_run c q s mon0 xs ->
    let t := after c s xs in n_owed (watch c q s mon0 xs) = true ->
    In q (doorbells t) \/ In (PDoor q) (pipe_ops t) \/ active t q \/
    exists k, (k < s_n c)%nat /\ t_act (m_tab t) k = true /\ t_q (m_tab t) k = q /\ t_db (m_tab t) k = true.
  Proof.
    intros PO F1 F2 EV t Ow. destruct (power_oinv s xs PO F1 F2 EV) as (L & D & O & F & IV & OI). fold t in IV, OI.
    rewrite (doorbells_eq IV). destruct (o_K _ _ _ _ _ OI Ow) as [H|[H|([H|(g & Hg & Q & Db)] & _)]]; auto.
    right. right. right. destruct (o_act _ _ _ _ _ OI g Hg) as (A1 & A2 & A3 & A4). exists (gk g). splits; auto. congruence.
  Qed.

  Lemma owed_quiet s xs : power_on c s -> Forall (in_ok c) xs -> Forall strobed xs -> env_run c q s mon0 xs ->
    let t := after c s xs in n_owed (watch c q s mon0 xs) = true -> quiet c t q ->
    active t q /\ (permitted c t q -> In q (waiting c t ++ turn t)).
  Proof.
    intros PO F1 F2 EV t Ow (Q1 & Q2 & Q3).
    assert (Ac : active t q).
    { destruct (owed_kept s xs PO F1 F2 EV Ow) as [H|[H|[H|(k & H0 & H1 & H2 & _)]]].
      - contradiction.
      - exfalso. apply (Q2 _ H). reflexivity.
      - auto.
      - exfalso. apply (Q3 k H0 H1 H2). }
    split; auto. intros (P1 & P2). destruct (power_oinv s xs PO F1 F2 EV) as (L & D & O & F & IV & OI). fold t in IV, OI.
    rewrite (waiting_eq IV), turn_eq. apply (v_W IV). splits; auto.
    - split; [|intros X; apply (Q2 _ X); reflexivity]. destruct (m_init t) eqn:Ei; [auto|]. right. destruct (Z_lt_dec q (m_ix t)) as [Hlt|Hlt]; [auto|]. exfalso.
      apply Q1. rewrite (doorbells_eq IV). apply (o_K0 _ _ _ _ _ OI Ow). intros [[X|X] _]; [|exact (Hlt X)]. exact (diff_true_false (eq_trans (eq_sym X) Ei)).
    - apply (allowed3_run c s xs q CO PO F1 F2); auto.
  Qed.
End Owe.
