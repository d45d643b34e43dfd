(** Doorbells and outstanding operations: proofs for C20. *)
From Coq Require Import Permutation.
From Verif Require Import Base.Prelude Rtl.Handshake_spec Rtl.Handshake_proof Rtl.Pipe_proof
  Stream.Axis_model Stream.Fifo_model Stream.Arb_model Stream.Arb_spec Stream.Arb_proof Sched.Rr_model Sched.Rr_spec Sched.RrOwe_spec
  Sched.FifoUse_proof Sched.Rr_proof Sched.RrFair_proof.
Local Open Scope Z_scope.
#[local] Unset Implicit Arguments.

(** * Active, enabled queues are scheduled *)
Definition allowed3 (c : scfg) (d : qrec) : Prop := q_en d = true -> (s_ctl c = true -> q_sch d = true) -> q_act d = true -> q_sd d = true.

Lemma allowed3_word c t ram o : wr_ok o -> allowed3 c (ram (pop_q o)) ->
  allowed3 c (new_word ram (pop_q o) (effect c t (Some (o, ram (pop_q o))))).
Proof.
  unfold allowed3, new_word. intros W H. generalize dependent (ram (pop_q o)). intros d H.
  destruct o as [q|q dd sb|q|q|q k more|q e|q k]; cbn [effect pop_q].
  - cbn. discriminate.
  - unfold do_write. cbn [wr_ok] in W. cbn [e_low]. destruct (Z.testbit sb 0); cbn [guard q_en q_act q_sd q_sch]; auto.
    intros E1 E2 E3. rewrite E1, E3. cbn [andb]. destruct (q_sd d); [destruct (_ && _); reflexivity|].
    destruct (s_ctl c); [rewrite E2 by auto; rewrite !orb_true_r|]; reflexivity.
  - cbn. auto.
  - unfold do_door. cbn [e_low q_en q_act q_sd q_sch]. intros E1 E2 _. unfold may. rewrite E1. destruct (q_sd d); cbn [andb negb].
    + rewrite andb_false_r. reflexivity.
    + destruct (s_ctl c); [rewrite E2 by auto; rewrite orb_true_r|]; reflexivity.
  - unfold do_fin. cbn [e_low q_en q_act q_sd q_sch]. intros E1 E2 ->. destruct (q_sd d); cbn [andb negb].
    + rewrite andb_false_r. reflexivity.
    + destruct (s_ctl c); [rewrite E2 by auto|]; reflexivity.
  - destruct (s_ctl c) eqn:Ec; [|cbn; auto]. unfold do_ctl. cbn [e_low q_en q_act q_sd q_sch]. intros E1 E2 E3. rewrite E1, E3, (E2 eq_refl). rewrite orb_true_r.
    destruct (q_sd d); reflexivity.
  - unfold do_req. destruct (may c d && q_act d && q_sd d) eqn:E; cbn [e_low q_en q_act q_sd q_sch]; auto.
    intros E1 E2 E3. exfalso. rewrite (H E1 E2 E3), E3 in E. unfold may in E. rewrite E1 in E. destruct (s_ctl c); [rewrite E2 in E by auto; rewrite orb_true_r in E|]; discriminate.
Qed.

Lemma allowed3_run c s xs q : cfg_ok c -> power_on c s -> Forall (in_ok c) xs -> Forall strobed xs -> allowed3 c (m_ram (after c s xs) q).
Proof.
  intros CO PO. induction xs as [|x xs IH] using rev_ind; intros F1 F2.
  - destruct PO as (m1 & m2 & ft & fs & ->). unfold allowed3. cbn. discriminate.
  - apply Forall_app in F1, F2. destruct F1 as [F1 F1'], F2 as [F2 F2'].
    destruct (run_sinv CO PO F1 F2) as (L & D & IV). rewrite after_snoc, f_ram. unfold ef.
    destruct (lst (after c s xs)) as [[o d]|] eqn:E; [|cbn [ram_write]; apply IH; auto].
    rewrite (lst_ram CO IV E). rewrite ram_write_eq. unfold zupd. destruct (Z.eqb_spec q (pop_q o)) as [->|N]; [|apply IH; auto].
    apply allowed3_word; [|apply IH; auto].
    pose proof (v_wr IV) as F. rewrite Forall_forall in F. apply F. apply ops_in. exists d. unfold lst in E.
    pose proof (pne CO IV) as PN. rewrite (pipe_split PN), E. apply in_or_app. right. left. reflexivity.
Qed.

(** * The finish FIFO *)
Section Fin.
  Variable c : scfg.
  Notation cap := (2 ^ Z.of_nat (cl c)).

  Definition fring (s : sst) (F : list (nat * bool)) : Prop :=
    Z.of_nat (length F) <= cap /\ 0 <= m_fr s < 2 * cap /\ m_fw s = (m_fr s + Z.of_nat (length F)) mod (2 * cap) /\
    forall j k ne, nth_error F j = Some (k, ne) ->
      m_ftag s ((m_fr s + Z.of_nat j) mod cap) mod cap = Z.of_nat k /\ m_fst s ((m_fr s + Z.of_nat j) mod cap) = ne.

  Definition fload (s : sst) : bool := negb (m_fv s) && negb (m_fw s =? m_fr s).

  Lemma cap_pos : 0 < cap.
  Proof. lia. Qed.

  Lemma fring_empty s F : fring s F -> (m_fw s =? m_fr s) = match F with [] => true | _ => false end.
  Proof.
    intros (H1 & H2 & H3 & _). pose proof cap_pos. rewrite H3. destruct F as [|f F].
    - cbn [length]. rewrite Z.add_0_r, Z.mod_small by lia. apply Z.eqb_refl.
    - apply Z.eqb_neq. cbn [length] in *. intros E.
      assert (X : (m_fr s + Z.of_nat (S (length F))) mod (2 * cap) = m_fr s mod (2 * cap)) by (rewrite E, Z.mod_small; lia).
      rewrite Z.mod_eq in X by lia. rewrite (Z.mod_small (m_fr s)) in X by lia.
      assert (Z.of_nat (S (length F)) = 2 * cap * ((m_fr s + Z.of_nat (S (length F))) / (2 * cap))) by lia.
      assert (0 <= (m_fr s + Z.of_nat (S (length F))) / (2 * cap)) by (apply Z.div_pos; lia).
      set (z := (m_fr s + Z.of_nat (S (length F))) / (2 * cap)) in *. clearbody z. set (K := cap) in *. clearbody K.
      assert (z = 0 \/ 1 <= z) as [->|?] by lia; nia.
  Qed.

  Definition st_k (i : sin) : list (nat * bool) := match i_st i with Some (tag, ne) => [(Z.to_nat tag, ne)] | None => [] end.

  Lemma modmod a : (a mod (2 * cap)) mod cap = a mod cap.
  Proof. pose proof cap_pos. rewrite (Z.mul_comm 2). rewrite Z.rem_mul_r by lia. rewrite (Z.mul_comm cap), Z.mod_add by lia. apply Z.mod_mod. lia. Qed.

  Lemma fring_step s i F : i_rst i = false -> fring s F ->
    (forall tag ne, i_st i = Some (tag, ne) -> 0 <= tag < cap /\ Z.of_nat (length F) < cap) ->
    fring (nx c s i) ((if fload s then tl F else F) ++ st_k i) /\
    (fload s = true -> exists k ne F', F = (k, ne) :: F' /\ m_fp (nx c s i) = k /\ m_fs (nx c s i) = ne) /\
    (fload s = false -> m_fp (nx c s i) = m_fp s /\ m_fs (nx c s i) = m_fs s).
  Proof.
    intros R FR Hs. pose proof cap_pos as CP. pose proof (fring_empty _ _ FR) as E. destruct FR as (H1 & H2 & H3 & H4).
    assert (W : m_fw (nx c s i) = match i_st i with Some _ => (m_fw s + 1) mod (2 * cap) | None => m_fw s end) by (unfold nx, s_step; cbn [fst m_fw]; now rewrite R).
    assert (Rd : m_fr (nx c s i) = if fload s then (m_fr s + 1) mod (2 * cap) else m_fr s) by (unfold nx, s_step; cbn [fst m_fr]; now rewrite R).
    assert (Ft : m_ftag (nx c s i) = match i_st i with Some (tag, _) => zupd (m_ftag s) (m_fw s mod cap) tag | None => m_ftag s end) by reflexivity.
    assert (Fs : m_fst (nx c s i) = match i_st i with Some (_, ne) => zupd (m_fst s) (m_fw s mod cap) ne | None => m_fst s end) by reflexivity.
    assert (Fp : m_fp (nx c s i) = if fload s then Z.to_nat (m_ftag s (m_fr s mod cap) mod cap) else m_fp s) by reflexivity.
    assert (Fq : m_fs (nx c s i) = if fload s then m_fst s (m_fr s mod cap) else m_fs s) by reflexivity.
    assert (LF : fload s = true -> exists k ne F', F = (k, ne) :: F').
    { unfold fload. rewrite E. destruct F as [|[k ne] F']; [rewrite andb_false_r; discriminate|]. eauto. }
    splits.
    - assert (LL : exists d, (d = 0%nat \/ d = 1%nat) /\ m_fr (nx c s i) = (m_fr s + Z.of_nat d) mod (2 * cap) /\ (forall j, nth_error (if fload s then tl F else F) j = nth_error F (d + j)) /\
                   (length (if fload s then tl F else F) + d = length F)%nat).
      { destruct (fload s) eqn:El.
        - destruct (LF eq_refl) as (k & ne & F' & ->). exists 1%nat. rewrite Rd. splits; auto. cbn. lia.
        - exists 0%nat. rewrite Rd, Z.add_0_r, Z.mod_small by lia. splits; auto; lia. }
      destruct LL as (d & Hd & Er & En & Len). set (F1 := if fload s then tl F else F) in *. clearbody F1.
      assert (Hl : Z.of_nat (length (F1 ++ st_k i)) <= cap).
      { clear - Hs Len H1. rewrite app_length. unfold st_k. destruct (i_st i) as [[tag ne]|]; cbn [length]; [destruct (Hs tag ne eq_refl)|]; lia. }
      split; [exact Hl|]. split; [rewrite Er; apply Z.mod_pos_bound; clear - CP; lia|]. split.
      + rewrite W, Er, app_length, Zplus_mod_idemp_l. unfold st_k. clear - H3 Len.
        destruct (i_st i) as [[tag ne]|]; cbn [length]; rewrite H3; rewrite ?Zplus_mod_idemp_l; f_equal; clear - Len; lia.
      + intros j k ne Hj. rewrite Er.
        assert (IX : ((m_fr s + Z.of_nat d) mod (2 * cap) + Z.of_nat j) mod cap = (m_fr s + Z.of_nat (d + j)) mod cap).
        { clear - CP. rewrite <- (Z.add_mod_idemp_l ((m_fr s + Z.of_nat d) mod (2 * cap))) by lia. rewrite modmod, Z.add_mod_idemp_l by lia. f_equal. clear; lia. }
        rewrite IX, Ft, Fs.
        destruct (Nat.lt_ge_cases j (length F1)) as [Lt|Ge].
        * rewrite nth_error_app1 in Hj by auto. rewrite En in Hj. destruct (H4 _ _ _ Hj) as [A B].
          unfold st_k in Hl. destruct (i_st i) as [[tag ne']|]; [|auto].
          destruct (Hs tag ne' eq_refl) as [_ Hc].
          assert (NE : (m_fr s + Z.of_nat (d + j)) mod cap <> m_fw s mod cap).
          { rewrite H3, modmod. intros X. assert (Y : (d + j < length F)%nat) by (clear - Lt Len; lia). clear - X Y Hc CP.
            assert (Z0 : (Z.of_nat (length F) - Z.of_nat (d + j)) mod cap = 0).
            { replace (Z.of_nat (length F) - Z.of_nat (d + j)) with ((m_fr s + Z.of_nat (length F)) - (m_fr s + Z.of_nat (d + j))) by lia.
              rewrite Zminus_mod, X, Z.sub_diag, Z.mod_0_l; lia. }
            rewrite Z.mod_small in Z0 by lia. lia. }
          rewrite !zupd_other by auto. auto.
        * rewrite nth_error_app2 in Hj by auto. unfold st_k in Hj. destruct (i_st i) as [[tag ne']|]; [|destruct (j - length F1)%nat; discriminate].
          destruct (j - length F1)%nat as [|x] eqn:Ej; [|destruct x; discriminate]. cbn in Hj. injection Hj as <- <-.
          assert (X : (m_fr s + Z.of_nat (d + j)) mod cap = m_fw s mod cap).
          { rewrite H3, modmod. f_equal. clear - Ej Ge Len. lia. }
          rewrite X, !zupd_same. destruct (Hs tag ne' eq_refl) as [Ht _]. clear - Ht. rewrite Z.mod_small by lia. split; auto. lia.
    - intros El. destruct (LF El) as (k & ne & F' & ->). exists k, ne, F'. rewrite Fp, Fq, El.
      destruct (H4 0%nat k ne eq_refl) as [A B]. change (Z.of_nat 0) with 0 in *. rewrite Z.add_0_r in *. rewrite A, B. rewrite Nat2Z.id. auto.
    - intros El. rewrite Fp, Fq, El. auto.
  Qed.
End Fin.
