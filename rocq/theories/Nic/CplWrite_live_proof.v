From Verif Require Import Base.Prelude Base.Bits Rtl.Handshake_spec Rtl.Handshake_proof Stream.Axis_model Nic.CplWrite_model Nic.CplWrite_spec Nic.CplWrite_proof
  Nic.CplWrite_data_proof.
From Coq Require Import Lia Arith ZArith.
Local Open Scope Z_scope.
#[local] Unset Implicit Arguments.

(** An answer that is offered is taken: each answer processed before it is of another request, and its own request keeps
    the table from turning round. *)
Section Starve.
  Variables (c : wcfg) (p : nat).
  Hypothesis Sane : sane c.
  Hypothesis Pp : (p < w_ports c)%nat.
  Definition wt {X} (x : option X) : nat := match x with Some _ => 1 | None => 0 end.
  Definition waiting (L : ledger) (hold : nat -> option resp) (F k : nat) : Prop :=
    (F <= k < l_n L)%nat /\ q_sel (p_req (l_op L k)) = p /\ p_ans (l_op L k) = None /\ exists r, hold p = Some r /\ r_tag r = wslot c k.
  Definition mu (s : wst) (A : list nat) (k : nat) : nat := (2 * (k + w_n c - length A) + wt (x_write s))%nat.

  Lemma A_bound s L hold A F h k : inv c s L hold A F h -> (F <= k < l_n L)%nat -> va c L (pend s hold) k = None -> (F <= length A < k + w_n c)%nat.
  Proof.
    intros I K V. pose proof (A_in _ _ _ _ _ _ _ I) as In_. pose proof (A_nodup _ _ _ _ _ _ _ I) as ND. pose proof (iv_cnt _ _ _ _ _ _ _ I). split.
    - rewrite <- (seq_length F 0). apply NoDup_incl_length; [apply seq_NoDup|]. intros x X. apply in_seq in X. apply In_. split; [lia|].
      destruct (old_ans _ _ _ _ _ _ _ I x ltac:(lia)) as (r & E). rewrite (va_ans _ _ _ _ _ E). discriminate.
    - assert (Q : (length (k :: A) <= length (seq 0 (l_n L)))%nat).
      { apply NoDup_incl_length.
        - constructor; [|exact ND]. rewrite In_. tauto.
        - intros x [<-|X]; apply in_seq; [lia|]. apply In_ in X. lia. }
      rewrite seq_length in Q. cbn [length] in Q. lia.
  Qed.

  Lemma takes : forall is s L hold A F h k, inv c s L hold A F h -> lawful_from c L hold is (snd (trace (w_step c) s is)) ->
    Forall (fun i => i_wrdy i = true) is -> waiting L hold F k -> (mu s A k < length is)%nat ->
    exists o, In o (snd (trace (w_step c) s is)) /\ o_rrdy o = Some p.
  Proof.
    induction is as [|i is IH]; intros s L hold A F h k I W Wr Q Mu; [cbn in Mu; lia|].
    rewrite trace_cons' in *. cbn [snd lawful_from] in *. destruct W as (W1 & W2). apply Forall_cons_iff in Wr. destruct Wr as (Wi & Wr).
    destruct Q as (K & Qs & An & r & Hr & Tg).
    assert (Dec : x_rrdy s = Some p \/ x_rrdy s <> Some p) by (destruct (x_rrdy s) as [q|]; [destruct (Nat.eq_dec q p); [left|right]; congruence|right; congruence]).
    destruct Dec as [Xr|Xr].
    { exists (snd (w_step c s i)). split; [left; reflexivity|exact Xr]. }
    assert (V : va c L (pend s hold) k = None).
    { destruct (va c L (pend s hold) k) as [r'|] eqn:V; [|reflexivity]. exfalso. destruct (v_new _ _ _ _ _ _ An V) as (P1 & P2).
      destruct (pend_some _ _ _ _ _ _ _ I _ P1) as (k' & K' & S' & _ & XR & _).
      assert (k' = k) by (eapply live_slot; [exact I|exact K'|exact K|congruence]). subst k'. congruence. }
    destruct (step_inv c s L hold A F h i Sane I W1) as (A1 & I1).
    pose proof (A_bound _ _ _ _ _ _ _ I K V) as B.
    assert (Ri : i_resp i p = Some r) by (destruct W1 as (_ & _ & W3 & _); apply W3; assumption).
    assert (In1 : forall x, In x A -> In x A1).
    { intros x X. apply (A_in _ _ _ _ _ _ _ I) in X. destruct X as (X1 & X2). apply (A_in _ _ _ _ _ _ _ I1). split.
      - pose proof (n_next c s L i) as Nn. unfold L' in *. rewrite Nn. destruct (v_req s i); lia.
      - destruct (va c L (pend s hold) x) as [y|] eqn:E; [|congruence]. pose proof (va_keep c s L hold A F h i I W1 x y X1 E) as Vn. unfold L', s', hold' in *. congruence. }
    assert (Le : (length A <= length A1)%nat) by (apply NoDup_incl_length; [exact (A_nodup _ _ _ _ _ _ _ I)|exact In1]).
    assert (Wx : forall d, x_write s = Some d -> v_resp c s i = None) by (intros d E; unfold v_resp; rewrite E; reflexivity).
    assert (Wn : v_resp c s i = None -> x_write (fst (w_step c s i)) = None).
    { intros E. pose proof (wr_next c s L hold i W1) as X. unfold s' in X. rewrite X, E, Wi. reflexivity. }
    assert (Vs : x_write s = None -> exists q r', v_resp c s i = Some (q, r')).
    { intros E. unfold v_resp. rewrite E. cbn [isnone]. destruct (find _ _) as [q|] eqn:Fi.
      - apply find_some in Fi. destruct Fi as (_ & Fi). apply andb_true_iff in Fi. destruct Fi as (Fi & _). destruct (i_resp i q); [eauto|discriminate].
      - exfalso. pose proof (find_none _ _ Fi p ltac:(apply in_seq; lia)) as X. cbn beta in X. rewrite Ri in X. cbn in X. apply negb_false_iff in X.
        destruct (x_rrdy s) as [q|]; [|discriminate]. apply Nat.eqb_eq in X. congruence. }
    assert (Kn : (F' c s F <= k)%nat) by (eapply still_live; [exact I|lia|left; exact V]).
    assert (Qn : waiting (keep c L (i, snd (w_step c s i))) (still i (snd (w_step c s i))) (F' c s F) k).
    { split; [|splits].
      - split; [exact Kn|]. pose proof (n_next c s L i) as Nn. unfold L' in *. rewrite Nn. destruct (v_req s i); lia.
      - pose proof (req_old c s L i k ltac:(lia)) as E. unfold L' in E. rewrite E. exact Qs.
      - pose proof (ans_old c s L hold A F h i I W1 k ltac:(lia)) as E. unfold L' in E. rewrite E. exact V.
      - exists r. split; [|exact Tg]. unfold still. change (o_rrdy (snd (w_step c s i))) with (x_rrdy s). destruct (x_rrdy s) as [q|]; [|exact Ri].
        destruct (Nat.eqb_spec q p); [congruence|exact Ri]. }
    assert (Next : (mu (fst (w_step c s i)) A1 k < length is)%nat -> exists o, In o (snd (w_step c s i) :: snd (trace (w_step c) (fst (w_step c s i)) is)) /\ o_rrdy o = Some p).
    { intros M. destruct (IH _ _ _ _ _ _ k I1 W2 Wr Qn M) as (o & O1 & O2). exists o. split; [right; exact O1|exact O2]. }
    unfold mu in *. cbn [length] in Mu. destruct (x_write s) as [d|] eqn:X.
    - apply Next. rewrite (Wn (Wx d eq_refl)). cbn [wt] in *. clear - Mu Le B. lia.
    - destruct (Vs eq_refl) as (q & r' & Vr). destruct (Nat.eq_dec q p) as [->|Nq].
      + destruct is as [|j is]; [cbn [length wt] in Mu; clear - Mu B; lia|]. rewrite trace_cons'. eexists. split; [right; left; reflexivity|].
        change (x_rrdy (fst (w_step c s i)) = Some p). unfold w_step. rewrite (w_rst _ _ _ _ _ W1). cbn [fst x_rrdy]. rewrite Vr. reflexivity.
      + apply Next. destruct (resp_some _ _ _ _ _ _ _ _ I W1 _ _ Vr) as (k' & K' & S' & V' & _ & _ & Q' & _).
        assert (Lt : (length (k' :: A) <= length A1)%nat).
        { apply NoDup_incl_length.
          - constructor; [|exact (A_nodup _ _ _ _ _ _ _ I)]. rewrite (A_in _ _ _ _ _ _ _ I). tauto.
          - intros x [<-|Y]; [|auto]. apply (A_in _ _ _ _ _ _ _ I1). split.
            + pose proof (n_next c s L i) as Nn. unfold L' in *. rewrite Nn. destruct (v_req s i); lia.
            + pose proof (va_next c s L hold A F h i I W1 k' ltac:(lia)) as E. unfold L', s', hold' in *. rewrite E, V', Vr, S', Nat.eqb_refl. discriminate. }
        cbn [length wt] in *. destruct (x_write (fst (w_step c s i))); cbn [wt]; clear - Mu Lt B; lia.
  Qed.

  Lemma starve_result s is1 is2 : started c s -> lawful c (is1 ++ is2) (snd (trace (w_step c) s (is1 ++ is2))) ->
    Forall (fun i => i_wrdy i = true) is2 -> (forall i is3, is2 = i :: is3 -> i_resp i p <> None) -> (4 * w_n c <= length is2)%nat ->
    exists o, In o (snd (trace (w_step c) (fst (trace (w_step c) s is1)) is2)) /\ o_rrdy o = Some p.
  Proof.
    intros St W Wr Of Ln. apply lawful_app in W. destruct W as (W1 & W2).
    destruct (run c s is1 Sane St W1) as (A & F & I). change (ledger_of c is1 (snd (trace (w_step c) s is1))) with (ledger_from c l0 is1 (snd (trace (w_step c) s is1))) in I.
    revert W2 I. generalize (ledger_from c l0 is1 (snd (trace (w_step c) s is1))) as L. generalize (hold_end (fun _ => None) is1 (snd (trace (w_step c) s is1))) as hold.
    generalize (hplus (mkH [] [] [] []) is1 (snd (trace (w_step c) s is1))) as h. generalize (fst (trace (w_step c) s is1)) as s1. intros s1 h hold L W2 I.
    pose proof (N_pos c) as Np. destruct is2 as [|i is]; [cbn in Ln; lia|]. specialize (Of _ _ eq_refl). destruct (i_resp i p) as [r|] eqn:R; [clear Of|congruence].
    assert (Dec : x_rrdy s1 = Some p \/ x_rrdy s1 <> Some p) by (destruct (x_rrdy s1) as [q|]; [destruct (Nat.eq_dec q p); [left|right]; congruence|right; congruence]).
    destruct Dec as [Xr|Xr].
    { rewrite trace_cons'. eexists. split; [left; reflexivity|exact Xr]. }
    (* the answer was there already, as far as the invariant is concerned *)
    set (hold2 := fun q => if (q =? p)%nat then Some r else hold q).
    assert (Pd : pend s1 hold2 = pend s1 hold).
    { unfold pend, hold2. destruct (x_rrdy s1) as [q|]; [|reflexivity]. destruct (Nat.eqb_spec q p); [congruence|reflexivity]. }
    assert (I2 : inv c s1 L hold2 A F h).
    { destruct I. constructor; rewrite ?Pd; try assumption. destruct (x_rrdy s1) as [q|]; [|assumption]. unfold hold2. destruct (Nat.eqb_spec q p); [congruence|assumption]. }
    assert (W3 : lawful_from c L hold2 (i :: is) (snd (trace (w_step c) s1 (i :: is)))).
    { rewrite trace_cons' in *. cbn [snd lawful_from] in *. destruct W2 as (O & W2). split; [|exact W2]. destruct O as (O1 & O2 & O3 & O4 & O5).
      split; [exact O1|]. split; [exact O2|]. split; [|split; [exact O4|exact O5]].
      intros q x Qp. unfold hold2. destruct (Nat.eqb_spec q p) as [->|]; [congruence|apply O3; exact Qp]. }
    assert (O : owed c L hold2 i (snd (w_step c s1 i))) by (rewrite trace_cons' in W3; apply W3).
    destruct O as (_ & _ & _ & O4 & _). destruct (O4 p r Pp R) as (k & M & Qs & _ & An). apply means_iff in M. destruct M as (M1 & M2 & M3).
    assert (K : (F <= k < l_n L)%nat).
    { split; [|exact M1]. destruct (Nat.le_gt_cases F k) as [|X]; [assumption|]. destruct (old_ans _ _ _ _ _ _ _ I2 k X) as (x & E). congruence. }
    apply (takes _ _ _ _ _ _ _ k I2 W3 Wr).
    - split; [exact K|]. splits; auto. exists r. split; [|congruence]. unfold hold2. rewrite Nat.eqb_refl. reflexivity.
    - assert (V : va c L (pend s1 hold2) k = None).
      { destruct (va c L (pend s1 hold2) k) as [r'|] eqn:V; [|reflexivity]. exfalso. destruct (v_new _ _ _ _ _ _ An V) as (P1 & P2).
        destruct (pend_some _ _ _ _ _ _ _ I2 _ P1) as (k' & K' & S' & _ & XR & _).
        assert (k' = k) by (eapply live_slot; [exact I2|exact K'|exact K|congruence]). subst k'. congruence. }
      pose proof (A_bound _ _ _ _ _ _ _ I2 K V) as B. pose proof (iv_cnt _ _ _ _ _ _ _ I2). unfold mu. destruct (x_write s1); cbn [wt]; lia.
  Qed.
End Starve.

(** Idle cycles. *)
Section Idle.
  Variables (c : wcfg) (s : wst) (L : ledger) (hold : nat -> option resp) (A : list nat) (F : nat) (h : logs) (i : win).
  Hypothesis Sane : sane c.
  Hypothesis I : inv c s L hold A F h.
  Hypothesis W : owed c L hold i (snd (w_step c s i)).
  Hypothesis Id : idle c i.
  Notation s1 := (fst (w_step c s i)).
  Notation L1 := (keep c L (i, snd (w_step c s i))).
  Definition work (s : wst) (L : ledger) (F : nat) : nat := (2 * (l_n L - F) + wt (x_commit s) + wt (x_write s) + wt (x_enq s) + wt (x_rrdy s))%nat.
  Definition quiet (s : wst) : Prop := v_fin c s = Wait /\ x_commit s = None /\ x_write s = None /\ x_enq s = None /\ x_rrdy s = None.

  Lemma id_req : v_req s i = None.
  Proof. destruct Id as (_ & _ & R & _). unfold v_req. rewrite R. destruct (x_ready s); reflexivity. Qed.
  Lemma id_n : l_n L1 = l_n L.
  Proof. pose proof (n_next c s L i) as E. unfold L' in E. rewrite E, id_req. reflexivity. Qed.
  Lemma id_resp : v_resp c s i = None.
  Proof.
    destruct (v_resp c s i) as [[p r]|] eqn:E; [|reflexivity]. destruct (resp_some _ _ _ _ _ _ _ _ I W _ _ E) as (k & _ & _ & _ & _ & P & _ & R & _).
    destruct Id as (_ & _ & _ & _ & _ & H). destruct (H p P) as (_ & X & _). congruence.
  Qed.
  Lemma id_write : x_write s1 = None.
  Proof. pose proof (wr_next c s L hold i W) as E. unfold s' in E. rewrite E, id_resp. destruct Id as (_ & _ & _ & _ & -> & _). reflexivity. Qed.
  Lemma id_rrdy : x_rrdy s1 = None.
  Proof. unfold w_step. rewrite (w_rst _ _ _ _ _ W). cbn [fst x_rrdy]. rewrite id_resp. reflexivity. Qed.
  Lemma enq_port p q t : x_enq s = Some (p, q, t) -> (p < w_ports c)%nat.
  Proof.
    intros E. pose proof (iv_enq _ _ _ _ _ _ _ I) as H. rewrite E in H. cbn [olist] in H.
    assert (In (p, q, t) (h_enq h ++ [(p, q, t)])) as X by (apply in_app_iff; right; left; reflexivity). rewrite H in X. apply in_map_iff in X.
    destruct X as (k & X & K). apply in_seq in K. injection X as <- _ _. apply (iv_sel _ _ _ _ _ _ _ I). lia.
  Qed.
  Lemma commit_port p t : x_commit s = Some (p, t) -> (p < w_ports c)%nat.
  Proof.
    intros E. pose proof (iv_cm _ _ _ _ _ _ _ I) as H. rewrite E in H. cbn [olist] in H. apply Forall2_app_inv_r in H. destruct H as (a & b & _ & H & Eq).
    inversion H as [|k x l m H1 H2]; subst. destruct H1 as (_ & r & _ & X). injection X as -> _.
    assert (In k (filter (fun k => goes (l_op L k)) (seq 0 F))) as K by (rewrite Eq; apply in_app_iff; right; left; reflexivity).
    apply filter_In in K. destruct K as (K & _). apply in_seq in K. pose proof (iv_cnt _ _ _ _ _ _ _ I). apply (iv_sel _ _ _ _ _ _ _ I). lia.
  Qed.
  Lemma id_enq : x_enq s1 = None.
  Proof.
    pose proof (enq_next c s L hold A F h i I W) as E. unfold s' in E. rewrite E, id_req. destruct (x_enq s) as [[[p q] t]|] eqn:X; [|reflexivity].
    destruct Id as (_ & _ & _ & _ & _ & H). destruct (H p (enq_port _ _ _ X)) as (-> & _). reflexivity.
  Qed.
  Lemma id_commit : x_commit s1 = None \/ v_fin c s = Go /\ x_commit s = None.
  Proof.
    pose proof (commit_next c s L hold A F h i I W) as E. unfold s' in E. destruct (v_fin c s) eqn:V; [left|left|right].
    1, 2: rewrite E; destruct (x_commit s) as [[p t]|] eqn:X; [|reflexivity]; destruct Id as (_ & _ & _ & _ & _ & H); destruct (H p (commit_port _ _ X)) as (_ & _ & ->); reflexivity.
    split; [reflexivity|]. destruct (fin_go _ _ _ _ _ _ _ I V) as (_ & _ & X & _). exact X.
  Qed.
  Lemma id_work : quiet s \/ (work s1 L1 (F' c s F) < work s L F)%nat.
  Proof.
    unfold work. rewrite id_n, id_write, id_rrdy, id_enq. cbn [wt]. unfold F'.
    pose proof (fin_moves _ _ _ _ _ _ _ I) as Mv. pose proof id_commit as Cm. destruct (v_fin c s) eqn:V; cbn [moves] in *.
    - destruct Cm as [Cm|(X & _)]; [|discriminate]. rewrite Cm. cbn [wt]. unfold quiet. rewrite V.
      destruct (x_commit s), (x_write s), (x_enq s), (x_rrdy s); cbn [wt]; try (right; lia). left. tauto.
    - right. specialize (Mv eq_refl). destruct Cm as [Cm|(X & _)]; [|discriminate]. rewrite Cm. cbn [wt]. lia.
    - right. specialize (Mv eq_refl). destruct (fin_go _ _ _ _ _ _ _ I V) as (_ & _ & Cn & _). rewrite Cn. destruct (x_commit s1); cbn [wt]; lia.
  Qed.
  Lemma id_quiet : quiet s -> quiet s1 /\ F' c s F = F /\
    x_ready s1 = negb (n_act (x_tab s (wslot c (l_n L)))) && (l_n L - F <? w_n c)%nat.
  Proof.
    intros (V & C & Wx & E & R). pose proof (iv_cnt _ _ _ _ _ _ _ I) as Cn. pose proof (iv_ptr _ _ _ _ _ _ _ I) as (P1 & P2). split; [|split].
    - split; [|split; [|split; [exact id_write|split; [exact id_enq|exact id_rrdy]]]].
      + assert (T : forall k, x_tab s1 k = x_tab s k).
        { intros k. pose proof (tab_next c s L hold i W k) as T. unfold s' in T. rewrite T. unfold wentry_upd. rewrite id_req, id_resp, V. destruct Id as (_ & _ & _ & -> & _).
          cbn. destruct (x_tab s k). reflexivity. }
        assert (P : x_sp s1 = x_sp s /\ x_fp s1 = x_fp s). { unfold w_step. rewrite (w_rst _ _ _ _ _ W). cbn [fst x_sp x_fp]. rewrite id_req, V. auto. }
        destruct P as (Ps & Pf). rewrite <- V. unfold v_fin. rewrite T, Ps, Pf. destruct id_commit as [->|(X & _)]; [rewrite C; reflexivity|congruence].
      + destruct id_commit as [X|(X & _)]; [exact X|congruence].
    - unfold F'. rewrite V. reflexivity.
    - unfold w_step. rewrite (w_rst _ _ _ _ _ W). cbn [fst x_ready]. rewrite id_req, E. destruct Id as (_ & -> & _). rewrite andb_true_r. cbn [andb].
      rewrite (sp_slot _ _ _ _ _ _ _ I). rewrite P1, P2, diff_ok by lia. reflexivity.
  Qed.
  Lemma quiet_means : quiet s -> (exists k, (k < l_n L)%nat /\ waits (l_op L k)) \/ F = l_n L.
  Proof.
    intros (V & C & Wx & E & R). pose proof (iv_cnt _ _ _ _ _ _ _ I) as Cn. destruct (Nat.eq_dec F (l_n L)) as [|Ne]; [right; assumption|left]. exists F. split; [lia|].
    pose proof (iv_live _ _ _ _ _ _ _ I F ltac:(lia)) as Ag. pose proof (iv_ptr _ _ _ _ _ _ _ I) as (P1 & P2).
    unfold v_fin in V. rewrite (fp_slot _ _ _ _ _ _ _ I), P1, P2, ptr_eqb in V by lia. rewrite (iv_on _ _ _ _ _ _ _ I F ltac:(lia)) in V.
    destruct (Nat.eqb_spec F (l_n L)); [lia|]. cbn [andb negb] in V. rewrite (ag_inv _ _ _ Ag), (ag_done _ _ _ Ag), C in V. cbn [isnone] in V. rewrite andb_true_r in V.
    assert (Pd : pend s hold = None) by (unfold pend; rewrite R; reflexivity). unfold waits.
    destruct (p_ans (l_op L F)) as [r|] eqn:An.
    - rewrite (va_ans _ _ _ _ _ An) in V. destruct (bad r) eqn:B; [discriminate|]. destruct (p_done (l_op L F)); [discriminate|]. right. split; [|reflexivity].
      destruct (iv_wq _ _ _ _ _ _ _ I F r ltac:(lia) (va_ans _ _ _ _ _ An) B) as [X|(d & X & _)]; [exact X|congruence].
    - left. split; [|reflexivity]. destruct (iv_ask _ _ _ _ _ _ _ I F ltac:(lia)) as [X|(_ & X)]; [exact X|congruence].
  Qed.
End Idle.

Definition ends (c : wcfg) (is : list win) (s : wst) (L : ledger) (hold : nat -> option resp) (h : logs) : Prop :=
  let os := snd (trace (w_step c) s is) in
  exists A F, inv c (fst (trace (w_step c) s is)) (ledger_from c L is os) (hold_end hold is os) A F (hplus h is os) /\
    quiet c (fst (trace (w_step c) s is)) /\ (F = l_n (ledger_from c L is os) -> x_ready (fst (trace (w_step c) s is)) = true).
Lemma ends_cons c i is s L hold h : ends c is (fst (w_step c s i)) (keep c L (i, snd (w_step c s i))) (still i (snd (w_step c s i))) (h' c s h i) ->
  ends c (i :: is) s L hold h.
Proof.
  unfold ends. cbv zeta. rewrite trace_cons'. cbn [fst snd hold_end]. unfold ledger_from. cbn [combine fold_left].
  intros (A & F & I & Q). exists A, F. split; [|exact Q].
  replace (hplus h (i :: is) _) with (hplus (h' c s h i) is (snd (trace (w_step c) (fst (w_step c s i)) is))); [exact I|].
  unfold hplus. rewrite !over_cons. cbn [map]. rewrite somes_cons. unfold h'. cbn [h_enq h_st h_wr h_cm]. rewrite !app_assoc. reflexivity.
Qed.
Lemma hplus_nil h : hplus h [] [] = h.
Proof. destruct h. unfold hplus, over. cbn. rewrite !app_nil_r. reflexivity. Qed.
Lemma quiet_run c : sane c -> forall is s L hold A F h, inv c s L hold A F h -> lawful_from c L hold is (snd (trace (w_step c) s is)) -> Forall (idle c) is ->
  quiet c s -> (0 < length is)%nat -> ends c is s L hold h.
Proof.
  intros Sane. induction is as [|i is IH]; intros s L hold A F h I W Id Q Ln; [cbn in Ln; lia|]. rewrite trace_cons' in *. cbn [snd fst lawful_from] in *.
  destruct W as (W1 & W2). apply Forall_cons_iff in Id. destruct Id as (Id & Ids). destruct (step_inv c s L hold A F h i Sane I W1) as (A1 & I1).
  destruct (id_quiet c s L hold A F h i I W1 Id Q) as (Q1 & EF & Rd). apply ends_cons. destruct is as [|j is].
  - exists A1, (F' c s F). cbn [trace fst snd hold_end]. unfold ledger_from. cbn [combine fold_left]. rewrite hplus_nil. split; [exact I1|].
    split; [exact Q1|]. rewrite (id_n c s L i Id), EF, Rd. intros ->. rewrite Nat.sub_diag. pose proof (N_pos c) as Np.
    rewrite (iv_off _ _ _ _ _ _ _ I (l_n L)) by lia. apply Nat.ltb_lt in Np. rewrite Np. reflexivity.
  - apply (IH _ _ _ _ _ _ I1 W2 Ids Q1). cbn; lia.
Qed.
Lemma idle_run c : sane c -> forall is s L hold A F h, inv c s L hold A F h -> lawful_from c L hold is (snd (trace (w_step c) s is)) -> Forall (idle c) is ->
  (work s L F < length is)%nat -> ends c is s L hold h.
Proof.
  intros Sane. induction is as [|i is IH]; intros s L hold A F h I W Id Le; [cbn in Le; lia|].
  destruct (id_work c s L hold A F h i I) as [Q|Q].
  - rewrite trace_cons' in W. apply W.
  - apply Forall_inv in Id. exact Id.
  - apply (quiet_run c Sane _ _ _ _ _ _ _ I W Id Q). cbn; lia.
  - rewrite trace_cons' in *. cbn [snd fst lawful_from] in *. destruct W as (W1 & W2). apply Forall_cons_iff in Id. destruct Id as (Id & Ids).
    destruct (step_inv c s L hold A F h i Sane I W1) as (A1 & I1). apply ends_cons. apply (IH _ _ _ _ _ _ I1 W2 Ids). cbn [length] in Le. unfold L', s' in *. lia.
Qed.

Lemma combine_app' {X Y} (a b : list X) (c d : list Y) : length a = length c -> combine (a ++ b) (c ++ d) = combine a c ++ combine b d.
Proof. revert c. induction a as [|x a IH]; intros [|y c] E; try discriminate; [reflexivity|]. cbn. rewrite IH; [reflexivity|]. cbn in E. lia. Qed.
Lemma hold_app is1 os1 is2 os2 : length is1 = length os1 -> forall hold, hold_end hold (is1 ++ is2) (os1 ++ os2) = hold_end (hold_end hold is1 os1) is2 os2.
Proof. revert os1. induction is1 as [|i is1 IH]; intros [|o os1] E hold; try discriminate; [reflexivity|]. cbn. apply IH. cbn in E. lia. Qed.

Section Progress.
  Variables (c : wcfg) (s : wst) (is1 is2 : list win).
  Hypothesis Sane : sane c.
  Hypothesis St : started c s.
  Notation is := (is1 ++ is2).
  Notation os := (snd (trace (w_step c) s is)).
  Notation L := (ledger_of c is os).
  Notation Sf := (fst (trace (w_step c) s is)).
  Hypothesis W : lawful c is os.
  Hypothesis Id : Forall (idle c) is2.
  Hypothesis Ln : (2 * w_n c + 5 <= length is2)%nat.

  Lemma end_state : exists A F, inv c Sf L (hold_end (fun _ => None) is os) A F (hplus (mkH [] [] [] []) is os) /\ quiet c Sf /\ (F = l_n L -> x_ready Sf = true).
  Proof.
    destruct (lawful_app _ _ _ _ _ _ W) as (W1 & W2). destruct (run c s is1 Sane St W1) as (A1 & F1 & I1).
    assert (E : ends c is2 (fst (trace (w_step c) s is1)) (ledger_of c is1 (snd (trace (w_step c) s is1))) (hold_end (fun _ => None) is1 (snd (trace (w_step c) s is1)))
      (hplus (mkH [] [] [] []) is1 (snd (trace (w_step c) s is1)))).
    { apply (idle_run c Sane is2 _ _ _ _ _ _ I1 W2 Id). pose proof (iv_cnt _ _ _ _ _ _ _ I1) as Cn. unfold work. set (s1 := fst (trace (w_step c) s is1)) in *.
      destruct (x_commit s1), (x_write s1), (x_enq s1), (x_rrdy s1); cbn [wt]; lia. }
    clear I1 W1 W2. pose proof (trace_length (w_step c) is1 s) as TL. rewrite trace_app. unfold ends in E. cbv zeta in E. destruct (trace (w_step c) s is1) as [s1 os1]. cbn [fst snd] in *.
    destruct (trace (w_step c) s1 is2) as [s2 os2]. cbn [fst snd] in *. unfold ledger_of, ledger_from in *. rewrite combine_app', fold_left_app by (symmetry; exact TL).
    rewrite hold_app by (symmetry; exact TL). destruct E as (A & F & I & Q). exists A, F. split; [|exact Q].
    replace (hplus (mkH [] [] [] []) (is1 ++ is2) (os1 ++ os2)) with (hplus (hplus (mkH [] [] [] []) is1 os1) is2 os2); [exact I|].
    unfold hplus. cbn [h_enq h_st h_wr h_cm app]. rewrite !over_app, map_app, somes_app by (symmetry; exact TL). reflexivity.
  Qed.
  Lemma progress_result i :
    (exists k, (k < l_n L)%nat /\ waits (l_op L k)) \/
    (forall k, (k < l_n L)%nat -> settled (l_op L k)) /\
    over enq_out is os = map (fun k => (q_sel (p_req (l_op L k)), q_queue (p_req (l_op L k)), (k mod w_n c)%nat)) (seq 0 (l_n L)) /\
    over write_out is os = flat_map (fun k => write_of c k (l_op L k)) (l_ans L) /\
    Forall2 (fun k x => commit_as (l_op L k) x) (passed L) (over commit_out is os) /\
    o_ready (snd (w_step c Sf i)) = true.
  Proof.
    destruct end_state as (A & F & I & Q & Rd). destruct (quiet_means _ _ _ _ _ _ _ I Q) as [X|X]; [left; exact X|right].
    destruct Q as (V & Cm & Wx & En & Rr). splits.
    - intros k K. apply (iv_old _ _ _ _ _ _ _ I). lia.
    - pose proof (iv_enq _ _ _ _ _ _ _ I) as E. rewrite En in E. cbn [olist hplus h_enq app] in E. rewrite app_nil_r in E. exact E.
    - pose proof (iv_wr _ _ _ _ _ _ _ I) as E. rewrite Wx in E. cbn [olist hplus h_wr app] in E. rewrite app_nil_r in E. rewrite E.
      destruct (pend_none _ _ _ _ _ _ _ I) as (_ & EA & _); [unfold pend; rewrite Rr; reflexivity|]. rewrite EA. apply flat_map_same. intros k K.
      apply (iv_set _ _ _ _ _ _ _ I) in K. destruct K as (_ & K). unfold wof, va, write_of. rewrite goes_bad.
      destruct (p_ans (l_op L k)) as [r|]; [|congruence]. destruct (bad r); reflexivity.
    - pose proof (iv_cm _ _ _ _ _ _ _ I) as E. rewrite Cm in E. cbn [olist hplus h_cm app] in E. rewrite app_nil_r in E. unfold passed. rewrite <- X. exact E.
    - exact (Rd X).
  Qed.
End Progress.
