(** The schedule of the round-robin scheduler: invariant. *)
From Coq Require Import Permutation.
From Verif Require Import Base.Prelude Rtl.Handshake_spec Rtl.Handshake_proof Rtl.Pipe_proof
  Stream.Axis_model Stream.Fifo_model Stream.Arb_model Sched.Rr_model Sched.Rr_spec Sched.FifoUse_proof.
Local Open Scope Z_scope.

(** * One step, field by field *)
Definition lst (s : sst) : stage := last (m_pipe s) None.
Definition ef (c : scfg) (s : sst) : eff := effect c (m_tab s) (lst s).
Definition new (c : scfg) (s : sst) (i : sin) : stage :=
  match accept c s i with Some o => Some (o, m_ram s (pop_q o)) | None => None end.
Definition nx (c : scfg) (s : sst) (i : sin) : sst := fst (s_step c s i).
Definition is_pinit (o : option pop) := match o with Some (PInit _) => true | _ => false end.

Section Fields.
  Variables (c : scfg) (s : sst) (i : sin).
  Hypothesis R : i_rst i = false.
  Lemma f_ram : m_ram (nx c s i) = ram_write (m_ram s) (lst s) (ef c s).
  Proof. reflexivity. Qed.
  Lemma f_pipe : m_pipe (nx c s i) = new c s i :: removelast (m_pipe s).
  Proof. unfold nx, s_step. cbn [fst m_pipe]. now rewrite R. Qed.
  Lemma f_tab : m_tab (nx c s i) = tab_write (m_tab s) (match accept c s i with Some (PReq q k) => Some (k, q) | _ => None end) (ef c s).
  Proof. unfold nx, s_step. cbn [fst m_tab]. now rewrite R. Qed.
  Lemma f_cnt : m_cnt (nx c s i) = (m_cnt s + e_cnt (ef c s)) mod 2 ^ (Z.of_nat (s_qw c) + 1).
  Proof. unfold nx, s_step. cbn [fst m_cnt]. now rewrite R. Qed.
  Lemma f_init' : m_init (nx c s i) = m_init s || match accept c s i with Some (PInit q) => q =? 2 ^ Z.of_nat (s_qw c) - 1 | _ => false end.
  Proof. unfold nx, s_step. cbn [fst m_init]. now rewrite R. Qed.
  Lemma f_ix : m_ix (nx c s i) = match accept c s i with Some (PInit q) => (q + 1) mod 2 ^ Z.of_nat (s_qw c) | _ => m_ix s end.
  Proof. unfold nx, s_step. cbn [fst m_ix]. now rewrite R. Qed.
  Definition rr_in : fin := mkFin false (match e_push (ef c s) with Some _ => true | None => false end)
          (qbeat (match e_push (ef c s) with Some q => q | None => 0 end))
          (match accept c s i with Some (PReq _ _) => true | _ => false end) false.
  Lemma f_rr : m_rr (nx c s i) = fst (f_step (rr_cfg c) (m_rr s) rr_in).
  Proof. unfold nx, s_step, rr_in. cbn [fst m_rr]. rewrite R. reflexivity. Qed.
  Definition db_in : fin := mkFin false (match i_door i with Some _ => true | None => false end)
          (qbeat (match i_door i with Some q => q | None => 0 end))
          (match accept c s i with Some (PDoor _) => true | _ => false end) false.
  Lemma f_db : m_db (nx c s i) = fst (f_step db_cfg (m_db s) db_in).
  Proof. unfold nx, s_step, db_in. cbn [fst m_db]. rewrite R. reflexivity. Qed.
End Fields.

(** * Operations in the pipe *)
Notation ops p := (map fst (somes p)).
Definition rq (l : list pop) : list Z := flat_map (fun o => match o with PReq q _ => [q] | _ => [] end) l.
Lemma rq_app a b : rq (a ++ b) = rq a ++ rq b.
Proof. apply flat_map_app. Qed.

Lemma ops_split (p : list stage) : p <> [] -> ops p = ops (removelast p) ++ olist (option_map fst (last p None)).
Proof.
  intros H. rewrite (pipe_split H) at 1. rewrite somes_app, map_app. f_equal.
  cbn. destruct (last p None); reflexivity.
Qed.
Lemma ops_cons (x : stage) p : ops (x :: p) = olist (option_map fst x) ++ ops p.
Proof. destruct x; reflexivity. Qed.
Lemma ops_in (p : list stage) o : In o (ops p) <-> exists d, In (Some (o, d)) p.
Proof.
  induction p as [|[[o' d']|] p IH].
  - split; [easy|intros [d []]].
  - rewrite ops_cons. cbn [option_map fst olist app In]. rewrite IH. split.
    + intros [<-|[d H]]; eauto.
    + intros [d [H|H]]; [injection H as -> _; auto|eauto].
  - rewrite ops_cons. cbn [option_map olist app In]. rewrite IH. split.
    + intros [d H]; eauto.
    + intros [d [H|H]]; [discriminate|eauto].
Qed.
Lemma keys_ops (p : list stage) : keys pop_q p = map pop_q (ops p).
Proof.
  induction p as [|[[o d]|] p IH]; auto. rewrite ops_cons. cbn [option_map fst olist app map]. rewrite <- IH. reflexivity.
Qed.
Lemma hazard_ops p q : hazard p q = false <-> ~ In q (map pop_q (ops p)).
Proof.
  unfold hazard. induction p as [|[[o d]|] p IH]; cbn [existsb orb].
  - cbn. split; auto.
  - rewrite ops_cons. cbn [option_map fst olist app map In]. destruct (Z.eqb_spec (pop_q o) q); cbn [orb].
    + split; [discriminate|intros H; exfalso; auto].
    + rewrite IH. tauto.
  - exact IH.
Qed.
Lemma holds_ops f p : existsb (holds_op f) p = existsb f (ops p).
Proof. induction p as [|[[o d]|] p IH]; cbn in *; auto. now rewrite IH. Qed.
Lemma no_rq p : existsb (holds_op is_req) p = false -> rq (ops p) = [].
Proof.
  rewrite holds_ops. generalize (ops p). induction l as [|o l IH]; auto. cbn [existsb]. intros H.
  apply orb_false_iff in H. destruct H as [H1 H2]. destruct o; try exact (IH H2). discriminate.
Qed.
Lemma rq_in l q : In q (rq l) <-> exists k, In (PReq q k) l.
Proof.
  unfold rq. rewrite in_flat_map. split.
  - intros (o & H & Hq). destruct o; cbn in Hq; try tauto. destruct Hq as [->|[]]. eauto.
  - intros [k H]. exists (PReq q k). split; auto. cbn. auto.
Qed.

(** * What may enter the pipe *)
Lemma guard_some A (b : bool) (x y : A) : guard b x = Some y -> b = true /\ x = y.
Proof. unfold guard. destruct b; [intros E; injection E; auto|discriminate]. Qed.

Lemma accept_cases c s i o : accept c s i = Some o ->
  ~ In (pop_q o) (map pop_q (ops (m_pipe s))) /\
  match o with
  | PInit q => m_init s = false /\ q = m_ix s
  | PWrite q d sb => exists a, i_aw i = Some (a, d, sb) /\ q = queue_of c a
  | PRead q => exists a, i_ar i = Some a /\ q = queue_of c a
  | PDoor q => fhead 8 (m_db s) = Some q
  | PFin q k more => m_fv s = true /\ k = m_fp s /\ q = t_q (m_tab s) k /\ more = m_fs s || t_db (m_tab s) k
  | PCtl q e => s_ctl c = true /\ i_ctl i = Some (q, e)
  | PReq q k => fhead (s_qw c) (m_rr s) = Some q /\ k = start_ptr c (m_tab s) /\ start_valid c (m_tab s) = true /\
      existsb (holds_op is_req) (m_pipe s) = false /\ (m_rv s = false \/ i_reqrdy i = true) /\ i_enable i = true
  end.
Proof.
  unfold accept. intros H.
  assert (X : acc_init c s = Some o \/ acc_write c s i = Some o \/ acc_read c s i = Some o \/ acc_door c s = Some o \/
              acc_fin c s = Some o \/ acc_ctl c s i = Some o \/ acc_req c s i = Some o).
  { unfold orelse in H. repeat match type of H with match ?x with _ => _ end = _ => destruct x eqn:? end; try injection H as <-; auto 10. }
  clear H. destruct X as [H|[H|[H|[H|[H|[H|H]]]]]].
  - apply guard_some in H. destruct H as [H <-]. apply andb_true_iff in H. destruct H as [H1 H2].
    apply negb_true_iff in H1, H2. apply hazard_ops in H2. cbn [pop_q]. auto.
  - unfold acc_write in H. destruct (i_aw i) as [[[a d] sb]|]; [|discriminate]. apply guard_some in H. destruct H as [H <-].
    apply andb_true_iff in H. destruct H as [H H2]. apply negb_true_iff in H2. apply hazard_ops in H2. cbn [pop_q]. eauto.
  - unfold acc_read in H. destruct (i_ar i) as [a|]; [|discriminate]. apply guard_some in H. destruct H as [H <-].
    apply andb_true_iff in H. destruct H as [H H2]. apply negb_true_iff in H2. apply hazard_ops in H2. cbn [pop_q]. eauto.
  - unfold acc_door in H. unfold fhead. fold db_cfg. destruct (fifo_head db_cfg (m_db s)) as [q|]; [|discriminate].
    apply guard_some in H. destruct H as [H2 <-]. apply negb_true_iff in H2. apply hazard_ops in H2. auto.
  - apply guard_some in H. destruct H as [H <-]. apply andb_true_iff in H. destruct H as [H H2]. apply negb_true_iff in H2. apply hazard_ops in H2.
    apply andb_true_iff in H. destruct H as [H _]. cbn [pop_q]. auto 10.
  - unfold acc_ctl in H. destruct (i_ctl i) as [[q e]|]; [|discriminate]. apply guard_some in H. destruct H as [H <-].
    apply andb_true_iff in H. destruct H as [H H2]. apply negb_true_iff in H2. apply hazard_ops in H2. apply andb_true_iff in H. destruct H as [H _]. cbn [pop_q]. auto.
  - unfold acc_req in H. unfold fhead. fold (rr_cfg c). destruct (fifo_head (rr_cfg c) (m_rr s)) as [q|]; [|discriminate].
    apply guard_some in H. destruct H as [H <-]. apply andb_true_iff in H. destruct H as [H H2]. apply negb_true_iff in H2. apply hazard_ops in H2.
    apply andb_true_iff in H. destruct H as [H H3]. apply negb_true_iff in H3. apply andb_true_iff in H. destruct H as [H H4].
    apply andb_true_iff in H. destruct H as [H5 H6]. apply orb_true_iff in H4. rewrite negb_true_iff in H4. cbn [pop_q]. splits; auto.
Qed.

(** While the queues are being cleared nothing else enters. *)
Lemma accept_init c s i : m_init s = false -> ~ In (m_ix s) (map pop_q (ops (m_pipe s))) -> accept c s i = Some (PInit (m_ix s)).
Proof.
  intros H1 H2. apply hazard_ops in H2. unfold accept, acc_init. rewrite H1, H2. reflexivity.
Qed.

(** * Effects *)
Lemma queue_of_range c a : in_range c (queue_of c a).
Proof. unfold in_range, queue_of. apply Z.mod_pos_bound. lia. Qed.

(** What an operation on queue [q] does to the schedule: the flag before and
    after, the push and the count. *)
Definition wr_ok (o : pop) : Prop := match o with PWrite _ d sb => Z.testbit d 0 = true -> Z.testbit sb 0 = true | _ => True end.

Definition new_word (ram : Z -> qrec) (q : Z) (e : eff) : qrec :=
  let low := match e_low e with Some x => x | None => ram q end in
  mkQ (q_en low) (q_gl low) (q_sch low) (q_act low) (q_sd low) (match e_tail e with Some x => x | None => q_tail (ram q) end).

Lemma ram_write_eq ram o d e : ram_write ram (Some (o, d)) e = zupd ram (pop_q o) (new_word ram (pop_q o) e).
Proof. reflexivity. Qed.

(** The schedule flag against what is pushed and counted. *)
Lemma effect_sd c t ram o : wr_ok o ->
  let e := effect c t (Some (o, ram (pop_q o))) in
  let old := q_sd (ram (pop_q o)) in
  let w := new_word ram (pop_q o) e in
  match o with
  | PInit _ => q_sd w = false /\ e_push e = None /\ e_cnt e = 0
  | PReq q _ =>
      if q_sd w then e_push e = Some q /\ e_cnt e = 0 /\ old = true
      else e_push e = None /\ e_cnt e = (if old then -1 else 0)
  | _ =>
      if old then q_sd w = true /\ e_push e = None /\ e_cnt e = 0
      else if q_sd w then e_push e = Some (pop_q o) /\ e_cnt e = 1 else e_push e = None /\ e_cnt e = 0
  end.
Proof.
  intros W. cbv zeta. destruct o as [q|q d sb|q|q|q k more|q e|q k]; cbn [effect pop_q]; unfold new_word.
  - cbn. auto.
  - unfold do_write. cbn [wr_ok] in W. destruct (Z.testbit d 0) eqn:Ed.
    + rewrite (W eq_refl). cbn [guard e_low e_push e_cnt q_sd].
      destruct (q_sd (ram q)), (q_act (ram q)); cbn [andb negb guard]; rewrite ?andb_false_r, ?andb_true_r; cbn [guard]; auto.
      destruct (negb (s_ctl c) || Z.testbit d 1 || q_sch (ram q)); cbn; auto.
    + cbn [andb guard e_low e_push e_cnt]. destruct (Z.testbit sb 0); cbn [guard q_sd]; destruct (q_sd (ram q)); auto.
  - cbn. destruct (q_sd (ram q)); auto.
  - unfold do_door. cbn [e_low e_push e_cnt q_sd]. destruct (q_sd (ram q)); cbn [andb negb]; rewrite ?andb_false_r, ?andb_true_r; cbn [guard]; auto.
    destruct (may c (ram q)); cbn; auto.
  - unfold do_fin. cbn [e_low e_push e_cnt q_sd]. destruct (q_sd (ram q)); cbn [andb negb]; rewrite ?andb_false_r, ?andb_true_r; cbn [guard]; auto.
    destruct (more && _); cbn; auto.
  - destruct (s_ctl c).
    + unfold do_ctl. cbn [e_low e_push e_cnt q_sd]. destruct (q_sd (ram q)); cbn [andb negb]; rewrite ?andb_false_r, ?andb_true_r; cbn [guard]; auto.
      destruct (_ && _ && _); cbn; auto.
    + cbn. destruct (q_sd (ram q)); auto.
  - unfold do_req. destruct (q_sd (ram q)) eqn:E; rewrite ?andb_false_r, ?andb_true_r.
    + destruct (may c (ram q) && q_act (ram q)); cbn; auto.
    + cbn. auto.
Qed.

(** * The invariant *)
Record sinv (c : scfg) (s : sst) (L D : list Z) : Prop := mkSinv {
  v_len : length (m_pipe s) = s_pl c;
  v_coh : coh pop_q (m_ram s) (m_pipe s);
  v_rng : Forall (fun o => in_range c (pop_q o)) (ops (m_pipe s));
  v_ini : m_init s = false -> in_range c (m_ix s) /\ L = [] /\
            forall o, In o (ops (m_pipe s)) -> exists q, o = PInit q /\ q < m_ix s;
  v_tq : forall k, in_range c (t_q (m_tab s) k);
  v_rr : holds (s_qw c) (m_rr s) L;
  v_db : holds 8 (m_db s) D;
  v_D : Forall (in_range c) D;
  v_nd : NoDup (L ++ rq (ops (m_pipe s)));
  v_W : forall q, In q (L ++ rq (ops (m_pipe s))) <-> in_range c q /\ ready s q /\ q_sd (m_ram s q) = true;
  v_cnt : m_cnt s = Z.of_nat (length (L ++ rq (ops (m_pipe s))));
  v_one : (length (rq (ops (m_pipe s))) <= 1)%nat;
  v_wr : Forall wr_ok (ops (m_pipe s)) }.

Lemma range_count c l : NoDup l -> Forall (in_range c) l -> (length l <= 2 ^ s_qw c)%nat.
Proof.
  intros N F. assert (X : NoDup (map Z.to_nat l)).
  { clear -N F. induction l as [|x l IH]; [constructor|]. inversion N; subst. inversion F; subst. cbn. constructor; auto.
    intros H. apply in_map_iff in H. destruct H as (y & E & Hy). apply H1.
    rewrite Forall_forall in H4. specialize (H4 _ Hy). unfold in_range in *. replace x with y by lia. auto. }
  assert (Y : incl (map Z.to_nat l) (seq 0 (2 ^ s_qw c))).
  { intros k H. apply in_map_iff in H. destruct H as (y & <- & Hy). rewrite Forall_forall in F. specialize (F _ Hy).
    unfold in_range in F. apply in_seq.
    assert (E : 2 ^ Z.of_nat (s_qw c) = Z.of_nat (2 ^ s_qw c)) by (rewrite Nat2Z.inj_pow; reflexivity). lia. }
  pose proof (NoDup_incl_length X Y) as H. rewrite map_length, seq_length in H. exact H.
Qed.

Lemma tab_q t st e0 k : t_q (tab_write t st e0) k = match st with Some (j, q) => if Nat.eqb k j then q else t_q t k | None => t_q t k end.
Proof. unfold tab_write. cbn [t_q]. destruct st as [[j q]|]; reflexivity. Qed.

Section Step.
  Variables (c : scfg) (s : sst) (L D : list Z) (i : sin).
  Hypothesis CO : cfg_ok c.
  Hypothesis IV : sinv c s L D.
  Hypothesis IO : in_ok c i.
  Hypothesis IS : strobed i.
  Hypothesis NR : i_rst i = false.

  Notation p := (m_pipe s).
  Notation e := (ef c s).
  Notation a := (accept c s i).
  Definition R1 : list Z := L ++ rq (ops (removelast p)).
  Definition gone : list Z := rq (olist (option_map fst (lst s))).

  Lemma p_ne : p <> [].
  Proof. pose proof (v_len IV) as H. destruct CO as (_ & _ & C). destruct p; [cbn in H; lia|discriminate]. Qed.
  Lemma W_split : L ++ rq (ops p) = R1 ++ gone.
  Proof. rewrite (ops_split p_ne), rq_app, app_assoc. reflexivity. Qed.

  Lemma lst_in o d : lst s = Some (o, d) -> In o (ops p) /\ d = m_ram s (pop_q o) /\ ~ In (pop_q o) (map pop_q (ops (removelast p))).
  Proof.
    intros E. destruct (coh_last p_ne (v_coh IV) E) as [E1 E2]. rewrite keys_ops in E2. splits; auto.
    rewrite (ops_split p_ne). apply in_or_app. right. unfold lst in E. rewrite E. cbn. auto.
  Qed.

  Lemma a_rng o : a = Some o -> in_range c (pop_q o).
  Proof.
    intros E. destruct (accept_cases _ _ _ E) as [_ H]. destruct o as [q|q d sb|q|q|q k more|q e0|q k]; cbn [pop_q].
    - destruct H as [H ->]. apply (v_ini IV H).
    - destruct H as (a & _ & ->). apply queue_of_range.
    - destruct H as (a & _ & ->). apply queue_of_range.
    - destruct (holds_head (v_db IV) H) as [t Et]. pose proof (v_D IV) as F. rewrite Et in F. inversion F; auto.
    - destruct H as (_ & _ & -> & _). apply (v_tq IV).
    - destruct H as (_ & H). apply (proj2 IO) in H. exact H.
    - destruct H as (H & _). destruct (holds_head (v_rr IV) H) as [t Et].
      apply (v_W IV). rewrite Et. cbn. auto.
  Qed.

  Lemma a_init : m_init s = false -> a = Some (PInit (m_ix s)).
  Proof.
    intros H. apply accept_init; auto. intros X. apply in_map_iff in X. destruct X as (o & E & Ho).
    destruct (proj2 (proj2 (v_ini IV H)) _ Ho) as (q & -> & Hq). cbn in E. lia.
  Qed.

  (** The schedule after the step, before sorting. *)
  Definition popped : list Z := match a with Some (PReq q _) => [q] | _ => [] end.
  Definition L1 : list Z := match a with Some (PReq _ _) => tl L | _ => L end.
  Definition L2 : list Z := L1 ++ olist (e_push e).

  Lemma L_popped : L = popped ++ L1.
  Proof.
    unfold popped, L1. destruct a as [o|] eqn:E; auto. destruct o; auto.
    destruct (accept_cases _ _ _ E) as (_ & H & _). destruct (holds_head (v_rr IV) H) as [t ->]. reflexivity.
  Qed.

  Lemma rq_new : rq (ops (m_pipe (nx c s i))) = popped ++ rq (ops (removelast p)).
  Proof. rewrite f_pipe by auto. rewrite ops_cons, rq_app. f_equal. unfold new, popped. destruct a as [[]|]; reflexivity. Qed.

  Lemma W_new : Permutation (L2 ++ rq (ops (m_pipe (nx c s i)))) (R1 ++ olist (e_push e)).
  Proof.
    rewrite rq_new. unfold R1, L2. rewrite L_popped. generalize popped (olist (e_push e)) (rq (ops (removelast p))). intros P E X.
    rewrite <- !app_assoc. rewrite (Permutation_app_comm E), (Permutation_app_swap_app P L1). now rewrite <- !app_assoc.
  Qed.

  Lemma R1_nd : NoDup R1.
  Proof. pose proof (v_nd IV) as H. rewrite W_split in H. eapply NoDup_prefix, H. Qed.

  Lemma other_ram q : (forall o d, lst s = Some (o, d) -> pop_q o <> q) -> m_ram (nx c s i) q = m_ram s q.
  Proof.
    intros H. rewrite f_ram. destruct (lst s) as [[o d]|] eqn:E; [|reflexivity]. rewrite ram_write_eq. apply zupd_other.
    specialize (H _ _ eq_refl). auto.
  Qed.

  (** Other queues are as ready as before. *)
  Lemma ready_other q : in_range c q -> (forall d, lst s <> Some (PInit q, d)) -> (ready (nx c s i) q <-> ready s q).
  Proof.
    intros Rq H. unfold ready, pipe_ops. rewrite f_pipe by auto. rewrite ops_cons, (ops_split p_ne).
    rewrite f_init', f_ix by auto.
    assert (X : ~ In (PInit q) (olist (option_map fst (lst s)))).
    { destruct (lst s) as [[o d]|]; cbn; [|tauto]. intros [->|[]]. exact (H d eq_refl). }
    rewrite !in_app_iff. fold (lst s).
    destruct (m_init s) eqn:Ei.
    - cbn [orb]. assert (Y : ~ In (PInit q) (olist (option_map fst (new c s i)))).
      { unfold new. destruct a as [o|] eqn:E; cbn; [|tauto]. intros [->|[]]. apply accept_cases in E. destruct E as (_ & E & _). congruence. }
      tauto.
    - rewrite (a_init Ei). unfold new. rewrite (a_init Ei). cbn [option_map fst olist app In orb].
      destruct (v_ini IV Ei) as (Hr & _ & Ho). unfold in_range in *.
      assert (Z1 : m_ix s = 2 ^ Z.of_nat (s_qw c) - 1 -> (q < m_ix s \/ q = m_ix s)) by lia.
      assert (Z2 : PInit (m_ix s) = PInit q <-> q = m_ix s) by (split; [intros E; injection E; auto|intros ->; auto]).
      destruct (Z.eqb_spec (m_ix s) (2 ^ Z.of_nat (s_qw c) - 1)) as [E|E].
      + assert (N : ~ false = true) by discriminate. assert (T : true = true) by reflexivity.
        assert (q <> m_ix s <-> q < m_ix s) by lia. tauto.
      + rewrite Z.mod_small by lia. assert (N : ~ false = true) by discriminate.
        assert (q < m_ix s + 1 <-> q < m_ix s \/ q = m_ix s) by lia. assert (q = m_ix s -> ~ q < m_ix s) by lia. tauto.
  Qed.

  Lemma op_ready o d : lst s = Some (o, d) -> (forall q, o <> PInit q) -> ready s (pop_q o) /\ in_range c (pop_q o).
  Proof.
    intros E N. destruct (lst_in E) as (E1 & E2 & E3). split; [split|].
    - destruct (m_init s) eqn:Ei; auto. destruct (proj2 (proj2 (v_ini IV Ei)) _ E1) as (q & -> & _). exfalso. eapply N; reflexivity.
    - intros H. unfold pipe_ops in H. rewrite (ops_split p_ne) in H. apply in_app_iff in H. destruct H as [H|H].
      + apply E3. apply in_map_iff. exists (PInit (pop_q o)). auto.
      + unfold lst in E. rewrite E in H. cbn in H. destruct H as [H|[]]. exact (N _ H).
    - pose proof (v_rng IV) as F. rewrite Forall_forall in F. auto.
  Qed.

  Lemma gone_in q : In q gone <-> exists k d, lst s = Some (PReq q k, d).
  Proof.
    unfold gone. rewrite rq_in. destruct (lst s) as [[o d]|]; cbn.
    - split; [intros [k [->|[]]]; eauto|intros (k & d' & E); injection E as -> ->; eauto].
    - split; [intros [k []]|intros (k & d & E); discriminate].
  Qed.

  Lemma init_word q d : lst s = Some (PInit q, d) -> q_sd (m_ram (nx c s i) q) = false /\ ready (nx c s i) q /\ in_range c q /\ ~ ready s q.
  Proof.
    intros E. destruct (lst_in E) as (E1 & E2 & E3). splits.
    - rewrite f_ram, E, ram_write_eq. cbn [pop_q]. rewrite zupd_same. unfold ef. rewrite E. subst d.
      apply (@effect_sd c (m_tab s) (m_ram s) (PInit q) I).
    - assert (Q : in_range c q) by (pose proof (v_rng IV) as F; rewrite Forall_forall in F; apply (F _ E1)).
      unfold ready, pipe_ops. rewrite f_pipe by auto. rewrite ops_cons, f_init', f_ix by auto.
      assert (X : ~ In (PInit q) (ops (removelast p))).
      { intros H. apply E3. apply in_map_iff. exists (PInit q). auto. }
      rewrite in_app_iff. unfold new. destruct (m_init s) eqn:Ei.
      + split; [auto|]. intros [H|H]; auto. destruct a as [o|] eqn:Ea; cbn in H; [|tauto]. destruct H as [->|[]].
        apply accept_cases in Ea. destruct Ea as (_ & Ea & _). congruence.
      + rewrite (a_init Ei). cbn [option_map fst olist In]. destruct (v_ini IV Ei) as (Hr & _ & Ho).
        destruct (Ho _ E1) as (q' & Eq & Hq). injection Eq as <-. unfold in_range in *. split.
        * destruct (Z.eqb_spec (m_ix s) (2 ^ Z.of_nat (s_qw c) - 1)); auto. right. rewrite Z.mod_small by lia. lia.
        * intros [[H|[]]|H]; auto. injection H as H. lia.
    - pose proof (v_rng IV) as F; rewrite Forall_forall in F; apply (F _ E1).
    - intros [_ H]. apply H. exact E1.
  Qed.

  Lemma effect_lst o d : lst s = Some (o, d) -> wr_ok o -> e = effect c (m_tab s) (Some (o, m_ram s (pop_q o))) /\
    m_ram (nx c s i) (pop_q o) = new_word (m_ram s) (pop_q o) e.
  Proof.
    intros E W. destruct (lst_in E) as (_ & -> & _). split.
    - unfold ef. now rewrite E.
    - rewrite f_ram, E, ram_write_eq. apply zupd_same.
  Qed.

  Lemma lst_wr o d : lst s = Some (o, d) -> wr_ok o.
  Proof. intros E. destruct (lst_in E) as (H & _). pose proof (v_wr IV) as F. rewrite Forall_forall in F. auto. Qed.

  (** Push, count and flag of the leaving operation. *)
  Lemma push_char q : e_push e = Some q -> exists o d, lst s = Some (o, d) /\ pop_q o = q /\ (forall q, o <> PInit q) /\
     q_sd (m_ram (nx c s i) q) = true /\ ((exists k, o = PReq q k /\ q_sd (m_ram s q) = true /\ e_cnt e = 0) \/ ((forall k, o <> PReq q k) /\ q_sd (m_ram s q) = false /\ e_cnt e = 1)).
  Proof.
    intros H. destruct (lst s) as [[o d]|] eqn:E; [|unfold ef in H; rewrite E in H; discriminate].
    exists o, d. pose proof (lst_wr E) as W. destruct (effect_lst E W) as (E1 & E2). pose proof (@effect_sd c (m_tab s) (m_ram s) o W) as X.
    cbv zeta in X. rewrite <- E1 in X. rewrite <- E2 in X. split; auto.
    destruct o as [q0|q0 dd sb|q0|q0|q0 k more|q0 e0|q0 k]; cbn [pop_q] in *.
    1: { destruct X as (_ & X & _). congruence. }
    6: { destruct (q_sd (m_ram (nx c s i) q0)) eqn:Eq.
         - destruct X as (X1 & X2 & X3). assert (q0 = q) by congruence. subst q0. splits; auto; [discriminate|]. left. eauto.
         - destruct X as (X & _). congruence. }
    all: destruct (q_sd (m_ram s q0)) eqn:Eo; [destruct X as (_ & X & _); congruence|];
      destruct (q_sd (m_ram (nx c s i) q0)) eqn:Eq; [|destruct X as (X & _); congruence];
      destruct X as (X1 & X2); assert (q0 = q) by congruence; subst q0; splits; auto; try discriminate;
      right; splits; auto; discriminate.
  Qed.

  Lemma W2 q : In q (R1 ++ olist (e_push e)) <-> in_range c q /\ ready (nx c s i) q /\ q_sd (m_ram (nx c s i) q) = true.
  Proof.
    assert (RG : forall q, In q R1 \/ In q gone -> in_range c q /\ ready s q /\ q_sd (m_ram s q) = true).
    { intros q' H. apply (v_W IV). rewrite W_split. apply in_or_app. tauto. }
    assert (RC : in_range c q -> ready s q -> q_sd (m_ram s q) = true -> In q R1 \/ In q gone).
    { intros A B C. apply in_app_iff. rewrite <- W_split. apply (v_W IV). auto. }
    destruct (lst s) as [[o d]|] eqn:E.
    2: { assert (G : gone = []) by (unfold gone; rewrite E; reflexivity).
         assert (P : e_push e = None) by (unfold ef; rewrite E; reflexivity).
         rewrite P, app_nil_r. rewrite other_ram by congruence. split.
         - intros H. destruct (RG _ (or_introl H)) as (A & B & C). splits; auto. apply ready_other; auto. congruence.
         - intros (A & B & C). rewrite G in RC. apply ready_other in B; auto; [|congruence]. destruct (RC A B C) as [H|[]]; auto. }
    destruct (Z.eq_dec (pop_q o) q) as [Eq|Nq].
    2: { assert (P : In q (olist (e_push e)) -> False).
         { destruct (e_push e) as [q'|] eqn:Ep; cbn; [|tauto]. intros [->|[]]. destruct (push_char Ep) as (o' & d' & Eo & X & _).
           rewrite E in Eo. injection Eo as <- <-. congruence. }
         assert (G : In q gone -> False).
         { intros H. apply gone_in in H. destruct H as (k & d' & H). rewrite E in H. injection H as -> ->. cbn in Nq. congruence. }
         rewrite other_ram. 2: { intros o' d' E'. rewrite E in E'. injection E' as <- <-. auto. }
         assert (RO : in_range c q -> (ready (nx c s i) q <-> ready s q)).
         { intros A. apply ready_other; auto. intros d' E'. rewrite E in E'. injection E' as -> ->. cbn in Nq. congruence. }
         rewrite in_app_iff. split.
         - intros [H|H]; [|tauto]. destruct (RG _ (or_introl H)) as (A & B & C). splits; auto. apply RO; auto.
         - intros (A & B & C). apply RO in B; auto. destruct (RC A B C) as [H|H]; tauto. }
    subst q. pose proof (lst_wr E) as W. destruct (effect_lst E W) as (E1 & E2).
    pose proof (@effect_sd c (m_tab s) (m_ram s) o W) as X. cbv zeta in X. rewrite <- E1 in X. rewrite <- E2 in X.
    assert (NI : (forall q, o <> PInit q) -> (ready (nx c s i) (pop_q o) <-> ready s (pop_q o)) /\ ready s (pop_q o) /\ in_range c (pop_q o)).
    { intros N. destruct (op_ready E N) as (A & B). splits; auto; apply ready_other; auto; intros d' E'; rewrite E in E'; injection E' as E' _; exact (N _ E'). }
    assert (GN : (forall k, o <> PReq (pop_q o) k) -> gone = []).
    { intros N. unfold gone. rewrite E. cbn. destruct o; auto. exfalso. eapply N; reflexivity. }
    assert (GR : forall k, o = PReq (pop_q o) k -> In (pop_q o) gone /\ ~ In (pop_q o) R1).
    { intros k Ek. assert (G : gone = [pop_q o]) by (unfold gone; rewrite E, Ek; reflexivity). split; [rewrite G; cbn; auto|].
      pose proof (v_nd IV) as N. rewrite W_split, G in N. apply NoDup_remove_2 in N. rewrite app_nil_r in N. exact N. }
    rewrite in_app_iff.
    destruct o as [q0|q0 dd sb|q0|q0|q0 k more|q0 e0|q0 k]; cbn [pop_q] in *.
    - destruct X as (X1 & X2 & X3). rewrite X2. cbn [olist In]. destruct (init_word E) as (_ & _ & _ & H). rewrite X1.
      split; [|intros (_ & _ & ?); discriminate]. intros [A|[]]. destruct (RG _ (or_introl A)) as (_ & B & _). tauto.
    - rewrite GN in * by discriminate. destruct NI as (N1 & N2 & N3); [discriminate|]. cbn [In] in *.
      destruct (q_sd (m_ram s q0)) eqn:Eo; [destruct X as (-> & -> & _)|destruct (q_sd (m_ram (nx c s i) q0)); [destruct X as (-> & _)|destruct X as (-> & _)]];
        cbn [olist In]; try tauto.
      split; [|intros (_ & _ & ?); discriminate]. intros [A|[]]. destruct (RG _ (or_introl A)) as (_ & _ & B). congruence.
    - rewrite GN in * by discriminate. destruct NI as (N1 & N2 & N3); [discriminate|]. cbn [In] in *.
      destruct (q_sd (m_ram s q0)) eqn:Eo; [destruct X as (-> & -> & _)|destruct (q_sd (m_ram (nx c s i) q0)); [destruct X as (-> & _)|destruct X as (-> & _)]];
        cbn [olist In]; try tauto.
      split; [|intros (_ & _ & ?); discriminate]. intros [A|[]]. destruct (RG _ (or_introl A)) as (_ & _ & B). congruence.
    - rewrite GN in * by discriminate. destruct NI as (N1 & N2 & N3); [discriminate|]. cbn [In] in *.
      destruct (q_sd (m_ram s q0)) eqn:Eo; [destruct X as (-> & -> & _)|destruct (q_sd (m_ram (nx c s i) q0)); [destruct X as (-> & _)|destruct X as (-> & _)]];
        cbn [olist In]; try tauto.
      split; [|intros (_ & _ & ?); discriminate]. intros [A|[]]. destruct (RG _ (or_introl A)) as (_ & _ & B). congruence.
    - rewrite GN in * by discriminate. destruct NI as (N1 & N2 & N3); [discriminate|]. cbn [In] in *.
      destruct (q_sd (m_ram s q0)) eqn:Eo; [destruct X as (-> & -> & _)|destruct (q_sd (m_ram (nx c s i) q0)); [destruct X as (-> & _)|destruct X as (-> & _)]];
        cbn [olist In]; try tauto.
      split; [|intros (_ & _ & ?); discriminate]. intros [A|[]]. destruct (RG _ (or_introl A)) as (_ & _ & B). congruence.
    - rewrite GN in * by discriminate. destruct NI as (N1 & N2 & N3); [discriminate|]. cbn [In] in *.
      destruct (q_sd (m_ram s q0)) eqn:Eo; [destruct X as (-> & -> & _)|destruct (q_sd (m_ram (nx c s i) q0)); [destruct X as (-> & _)|destruct X as (-> & _)]];
        cbn [olist In]; try tauto.
      split; [|intros (_ & _ & ?); discriminate]. intros [A|[]]. destruct (RG _ (or_introl A)) as (_ & _ & B). congruence.
    - destruct (GR k eq_refl) as (G1 & G2). destruct NI as (N1 & N2 & N3); [discriminate|].
      destruct (q_sd (m_ram (nx c s i) q0)); destruct X as (-> & _); cbn [olist In]; [tauto|].
      split; [|intros (_ & _ & ?); discriminate]. tauto.
  Qed.

  Lemma R2_nd : NoDup (R1 ++ olist (e_push e)).
  Proof.
    destruct (e_push e) as [q|] eqn:E; [|rewrite app_nil_r; apply R1_nd]. cbn [olist].
    apply (Permutation_NoDup (l := q :: R1)); [apply Permutation_cons_append|].
    constructor; [|apply R1_nd]. intros H. destruct (push_char E) as (o & d & El & Eq & NI & _ & [ (k & -> & _)|(N & F & _)]).
    - pose proof (v_nd IV) as Nd. rewrite W_split in Nd.
      assert (G : gone = [q]) by (unfold gone; rewrite El; reflexivity). rewrite G in Nd. apply NoDup_remove_2 in Nd. rewrite app_nil_r in Nd. auto.
    - assert (X : In q (L ++ rq (ops p))) by (rewrite W_split; apply in_or_app; auto). apply (v_W IV) in X. destruct X as (_ & _ & X). congruence.
  Qed.

  Lemma push_ready : (length L1 < 2 ^ s_qw c)%nat \/ e_push e = None.
  Proof.
    destruct (e_push e) as [q|] eqn:E; auto. left.
    assert (X : (length (R1 ++ [q]) <= 2 ^ s_qw c)%nat).
    { apply range_count.
      - pose proof R2_nd as N. rewrite E in N. exact N.
      - apply Forall_forall. intros x Hx. apply W2. rewrite E. exact Hx. }
    unfold R1 in X. rewrite !app_length in X. cbn [length] in X. pose proof (f_equal (@length Z) L_popped) as Y. rewrite app_length in Y. lia.
  Qed.

Definition D1 : list Z :=
  (match accept c s i with Some (PDoor _) => tl D | _ => D end) ++
  (if frdy 8 (m_db s) then olist (i_door i) else []).

Lemma sinv_step : sinv c (nx c s i) L2 D1.
Proof.
  pose proof p_ne as PN.
  assert (LEN : length (m_pipe (nx c s i)) = s_pl c).
  { rewrite f_pipe by auto. cbn [length]. pose proof (v_len IV) as H. rewrite (pipe_split PN), app_length in H. cbn in H. lia. }
  assert (NEW : forall o d, new c s i = Some (o, d) -> accept c s i = Some o /\ d = m_ram s (pop_q o)).
  { unfold new. intros o d. destruct (accept c s i); [|discriminate]. intros E. injection E as <- <-. auto. }
  assert (OPS : forall P : pop -> Prop, Forall P (ops (m_pipe s)) -> (forall o, accept c s i = Some o -> P o) -> Forall P (ops (m_pipe (nx c s i)))).
  { intros P F H. rewrite f_pipe by auto. rewrite ops_cons. apply Forall_app. split.
    - destruct (new c s i) as [[o d]|] eqn:E; cbn; [|constructor]. constructor; [|constructor]. apply H. apply (NEW _ _ eq_refl).
    - rewrite (ops_split PN) in F. apply Forall_app in F. apply F. }
  constructor; auto.
  - rewrite f_pipe by auto. apply coh_step with (ram := m_ram s); auto.
    + apply (v_coh IV).
    + intros k H. apply (other_ram). intros o d E X. apply (H _ _ E). auto.
    + intros o d E. destruct (NEW _ _ E) as (E1 & E2). split; auto. rewrite keys_ops. apply (accept_cases _ _ _ E1).
  - apply OPS; [apply (v_rng IV)|]. intros o E. apply (a_rng E).
  - rewrite f_init', f_ix by auto. destruct (m_init s) eqn:Ei; [discriminate|]. cbn [orb].
    pose proof (a_init Ei) as Ea. rewrite Ea. destruct (v_ini IV Ei) as (Hr & HL & Ho). intros Hx. apply Z.eqb_neq in Hx.
    unfold in_range in *. rewrite Z.mod_small by lia. splits; try lia.
    + unfold L2, L1. rewrite Ea, HL. cbn [app]. destruct (lst s) as [[o d]|] eqn:El.
      * destruct (lst_in El) as (E1 & _). destruct (Ho _ E1) as (q & -> & _). unfold ef. rewrite El. reflexivity.
      * unfold ef. rewrite El. reflexivity.
    + intros o Ho'. rewrite f_pipe in Ho' by auto. rewrite ops_cons in Ho'. apply in_app_iff in Ho'. destruct Ho' as [H|H].
      * unfold new in H. rewrite Ea in H. cbn in H. destruct H as [<-|[]]. eexists. split; [reflexivity|lia].
      * assert (X : In o (ops (m_pipe s))) by (rewrite (ops_split PN); apply in_or_app; auto).
        destruct (Ho _ X) as (q & -> & Hq). eexists. split; [reflexivity|lia].
  - intros k. rewrite f_tab by auto. rewrite tab_q. destruct (accept c s i) as [[]|] eqn:E; try apply (v_tq IV).
    destruct (Nat.eqb k i0); [|apply (v_tq IV)]. apply (a_rng E).
  - rewrite f_rr by auto. pose proof (@holds_step (s_qw c) (m_rr s) L (rr_in c s i) eq_refl (v_rr IV)) as H.
    assert (E1 : match (if x_mready (rr_in c s i) then fhead (s_qw c) (m_rr s) else None) with Some _ => tl L | None => L end = L1).
    { unfold rr_in, L1. cbn [x_mready]. destruct (accept c s i) as [[]|] eqn:E; auto.
      destruct (accept_cases _ _ _ E) as (_ & -> & _). reflexivity. }
    rewrite E1 in H.
    assert (E2 : (if frdy (s_qw c) (m_rr s) && x_v (rr_in c s i) then [tdata (x_b (rr_in c s i))] else []) = olist (e_push (ef c s))).
    { unfold rr_in. cbn [x_v x_b]. destruct (e_push (ef c s)) as [q|] eqn:Ep; [|rewrite andb_false_r; reflexivity].
      assert (F : frdy (s_qw c) (m_rr s) = true).
      { apply (holds_ready (v_rr IV)). destruct (push_char Ep) as (o & d & El & Eq & NI & _ & X).
        assert (Y : (length (L ++ [q]) <= 2 ^ s_qw c)%nat).
        { pose proof (R2_nd) as N. rewrite Ep in N. cbn [olist] in N. unfold R1 in N.
          apply range_count.
          - apply (Permutation_NoDup (l := q :: L)); [apply Permutation_cons_append|].
            apply (Permutation_NoDup (l' := q :: L ++ rq (ops (removelast (m_pipe s))))) in N; [|apply Permutation_sym, Permutation_cons_append].
            inversion N; subst. constructor; [intros H'; apply H2, in_or_app; auto|eapply NoDup_prefix; eauto].
          - apply Forall_forall. intros x Hx. apply W2. rewrite Ep. unfold R1. cbn [olist]. rewrite !in_app_iff in *. tauto. }
        rewrite app_length in Y. cbn in Y. lia. }
      rewrite F. reflexivity. }
    rewrite E2 in H. exact H.
  - rewrite f_db by auto. pose proof (@holds_step 8 (m_db s) D (db_in c s i) eq_refl (v_db IV)) as H.
    assert (E1 : match (if x_mready (db_in c s i) then fhead 8 (m_db s) else None) with Some _ => tl D | None => D end
             = match accept c s i with Some (PDoor _) => tl D | _ => D end).
    { unfold db_in. cbn [x_mready]. destruct (accept c s i) as [[]|] eqn:E; auto. destruct (accept_cases _ _ _ E) as (_ & ->). reflexivity. }
    rewrite E1 in H.
    assert (E2 : (if frdy 8 (m_db s) && x_v (db_in c s i) then [tdata (x_b (db_in c s i))] else []) = if frdy 8 (m_db s) then olist (i_door i) else []).
    { unfold db_in. cbn [x_v x_b]. destruct (frdy 8 (m_db s)), (i_door i); reflexivity. }
    rewrite E2 in H. exact H.
  - unfold D1. apply Forall_app. split.
    + pose proof (v_D IV) as F. destruct (accept c s i) as [[]|]; auto. destruct D; cbn; auto. inversion F; auto.
    + destruct (frdy 8 (m_db s)); auto. destruct (i_door i) as [q|] eqn:E; cbn; auto. constructor; auto. apply IO; auto.
  - eapply Permutation_NoDup; [apply Permutation_sym, W_new|]. apply R2_nd.
  - intros q. rewrite <- W2. split; intros H; (eapply Permutation_in; [|exact H]); [|apply Permutation_sym]; apply W_new.
  - rewrite f_cnt by auto. rewrite (Permutation_length W_new).
    assert (X : (length (R1 ++ olist (e_push (ef c s))) <= 2 ^ s_qw c)%nat).
    { apply range_count; [apply R2_nd|]. apply Forall_forall. intros x Hx. apply W2. exact Hx. }
    assert (Y : m_cnt s + e_cnt (ef c s) = Z.of_nat (length (R1 ++ olist (e_push (ef c s))))).
    { rewrite (v_cnt IV), W_split, !app_length.
      destruct (lst s) as [[o d]|] eqn:El.
      - pose proof (lst_wr El) as W. destruct (effect_lst El W) as (E1 & E2). pose proof (@effect_sd c (m_tab s) (m_ram s) o W) as X'.
        cbv zeta in X'. rewrite <- E1, <- E2 in X'. unfold gone. rewrite El. cbn [option_map fst olist].
        destruct o as [q0|q0 dd sb|q0|q0|q0 k more|q0 e0|q0 k]; cbn [rq flat_map app length pop_q] in *.
        7: { assert (Z1 : q_sd (m_ram s q0) = true).
             { assert (In q0 (L ++ rq (ops (m_pipe s)))) by (apply in_or_app; right; apply rq_in; exists k; apply (lst_in El)).
               apply (v_W IV) in H. apply H. }
             rewrite Z1 in X'. destruct (q_sd (m_ram (nx c s i) q0)); destruct X' as (-> & Z2); cbn [olist length]; [destruct Z2 as (-> & _)|rewrite Z2]; lia. }
        1: destruct X' as (_ & -> & ->); cbn; lia.
        all: destruct (q_sd (m_ram s q0)); [destruct X' as (_ & -> & ->); cbn; lia|];
          destruct (q_sd (m_ram (nx c s i) q0)); destruct X' as (-> & ->); cbn; lia.
      - unfold gone, ef. rewrite El. cbn. lia. }
    rewrite Y. apply Z.mod_small. rewrite Z.pow_add_r by lia. rewrite <- (Nat2Z.inj_pow 2). change (2 ^ 1) with 2. lia.
  - rewrite rq_new. unfold popped. pose proof (v_one IV) as O. rewrite (ops_split PN), rq_app, app_length in O.
    destruct (accept c s i) as [[]|] eqn:E; cbn [app length]; try lia.
    destruct (accept_cases _ _ _ E) as (_ & _ & _ & _ & H & _). apply no_rq in H. rewrite (ops_split PN), rq_app in H.
    apply app_eq_nil in H. destruct H as [-> _]. cbn. lia.
  - apply OPS; [apply (v_wr IV)|]. intros o E. apply accept_cases in E. destruct E as (_ & E). destruct o; cbn; auto.
    destruct E as (a & E & _). intros H. eapply IS; eauto.
Qed.
End Step.

Lemma ops_nones A (l : list A) : ops (map (fun _ => @None (pop * qrec)) l) = [].
Proof. induction l; auto. Qed.
Lemma ops_nil n : ops (repeat (@None (pop * qrec)) n) = [].
Proof. induction n; auto. Qed.

Lemma qw_pos c : 0 < 2 ^ Z.of_nat (s_qw c).
Proof. lia. Qed.

Lemma sinv_reset c s L D i : cfg_ok c -> sinv c s L D -> i_rst i = true -> in_ok c i -> sinv c (nx c s i) [] [].
Proof.
  intros CO IV R IO.
  assert (P : m_pipe (nx c s i) = map (fun _ => None) (m_pipe s)) by (unfold nx, s_step; cbn [fst m_pipe]; now rewrite R).
  assert (I1 : m_init (nx c s i) = false) by (unfold nx, s_step; cbn [fst m_init]; now rewrite R).
  assert (I2 : m_ix (nx c s i) = 0) by (unfold nx, s_step; cbn [fst m_ix]; now rewrite R).
  assert (X : ops (m_pipe (nx c s i)) = []) by (rewrite P; apply ops_nones).
  pose proof (qw_pos c).
  constructor; rewrite ?X; auto.
  - rewrite P, map_length. apply (v_len IV).
  - rewrite P. replace (map (fun _ : stage => None) (m_pipe s)) with (repeat (@None (pop * qrec)) (length (m_pipe s))); [apply coh_init|].
    generalize (m_pipe s). induction l; cbn; congruence.
  - intros _. rewrite I2. unfold in_range. splits; auto; try lia. easy.
  - intros k. assert (T : t_q (m_tab (nx c s i)) k = t_q (tab_write (m_tab s) (match accept c s i with Some (PReq q k) => Some (k, q) | _ => None end) (ef c s)) k)
      by (unfold nx, s_step; cbn [fst m_tab]; rewrite R; reflexivity).
    rewrite T, tab_q. destruct (accept c s i) as [[]|] eqn:E; try apply (v_tq IV). destruct (Nat.eqb k i0); [|apply (v_tq IV)]. change q with (pop_q (PReq q i0)). eapply a_rng; eauto.
  - unfold nx, s_step. cbn [fst m_rr]. rewrite R. apply holds_reset; auto. eexists. apply (v_rr IV).
  - unfold nx, s_step. cbn [fst m_db]. rewrite R. apply (@holds_reset 8); auto. eexists. apply (v_db IV).
  - cbn. constructor.
  - intros q. cbn [app rq flat_map In]. split; [easy|]. intros (A & [[B|B] _] & _); [congruence|]. rewrite I2 in B. unfold in_range in A. lia.
  - cbn. unfold nx, s_step. cbn [fst m_cnt]. now rewrite R.
Qed.

Lemma sinv_init c s : cfg_ok c -> power_on c s -> sinv c s [] [].
Proof.
  intros CO (m1 & m2 & ft & fs & ->). pose proof (qw_pos c).
  constructor; cbn [s_init m_pipe m_ram m_init m_ix m_tab t_q m_rr m_db m_cnt]; rewrite ?ops_nil; auto.
  - apply repeat_length.
  - apply coh_init.
  - intros _. unfold in_range. splits; auto; try lia. easy.
  - intros _. unfold in_range. lia.
  - apply holds_init.
  - apply (holds_init 8).
  - constructor.
  - intros q. cbn. split; [easy|]. intros (_ & _ & A). discriminate.
Qed.

(** * Runs *)
Lemma after_snoc c s xs x : after c s (xs ++ [x]) = nx c (after c s xs) x.
Proof.
  unfold after, nx. rewrite trace_app. destruct (trace (s_step c) s xs) as [s1 o1]. cbn [fst trace].
  destruct (s_step c s1 x) as [s2 o2]. reflexivity.
Qed.
Lemma after_app c s a b : after c s (a ++ b) = after c (after c s a) b.
Proof.
  unfold after. rewrite trace_app. destruct (trace (s_step c) s a) as [s1 o1]. cbn [fst].
  destruct (trace (s_step c) s1 b). reflexivity.
Qed.
Lemma outs_snoc c s xs x : outs c s (xs ++ [x]) = outs c s xs ++ [snd (s_step c (after c s xs) x)].
Proof.
  unfold outs, after. rewrite trace_app. destruct (trace (s_step c) s xs) as [s1 o1]. cbn [fst snd trace].
  destruct (s_step c s1 x) as [s2 o2]. reflexivity.
Qed.

Lemma run_sinv c s xs : cfg_ok c -> power_on c s -> Forall (in_ok c) xs -> Forall strobed xs ->
  exists L D, sinv c (after c s xs) L D.
Proof.
  intros CO PO. induction xs as [|x xs IH] using rev_ind; intros F1 F2.
  - exists [], []. apply sinv_init; auto.
  - apply Forall_app in F1, F2. destruct F1 as [F1 F1'], F2 as [F2 F2']. inversion F1'; inversion F2'; subst.
    destruct (IH F1 F2) as (L & D & IV). rewrite after_snoc. destruct (i_rst x) eqn:R.
    + exists [], []. eapply sinv_reset; eauto.
    + do 2 eexists. eapply sinv_step; eauto.
Qed.

Lemma waiting_eq c s L D : sinv c s L D -> waiting c s = L.
Proof. intros IV. apply holds_contents, (v_rr IV). Qed.
Lemma doorbells_eq c s L D : sinv c s L D -> doorbells s = D.
Proof. intros IV. apply holds_contents, (v_db IV). Qed.
Lemma turn_eq s : turn s = rq (ops (m_pipe s)).
Proof. reflexivity. Qed.

(** * C19 *)
Theorem schedule_once c s xs : cfg_ok c -> power_on c s -> Forall (in_ok c) xs -> Forall strobed xs ->
  let t := after c s xs in
  NoDup (waiting c t ++ turn t) /\
  (forall q, In q (waiting c t ++ turn t) <-> in_range c q /\ ready t q /\ q_sd (m_ram t q) = true) /\
  (o_active (snd (s_step c t (mkIn false None None None None false None false false false))) = true <-> waiting c t ++ turn t <> []) /\
  m_cnt t = Z.of_nat (length (waiting c t ++ turn t)).
Proof.
  intros CO PO F1 F2 t. destruct (run_sinv CO PO F1 F2) as (L & D & IV). fold t in IV. rewrite (waiting_eq IV), turn_eq. splits.
  - apply (v_nd IV).
  - apply (v_W IV).
  - cbn [s_step snd o_active]. rewrite negb_true_iff, Z.eqb_neq, (v_cnt IV). destruct (L ++ rq (ops (m_pipe t))); cbn; split; intros; congruence || lia.
  - apply (v_cnt IV).
Qed.

(** * Requests *)
Lemma pne c s L D : cfg_ok c -> sinv c s L D -> m_pipe s <> [].
Proof. intros (_ & _ & C) IV. pose proof (v_len IV) as H. destruct (m_pipe s); [cbn in H; lia|discriminate]. Qed.

Definition rvinv (s : sst) : Prop := rq (ops (m_pipe s)) <> [] -> m_rv s = false.

Lemma f_rv c s i : i_rst i = false -> m_rv (nx c s i) = e_issue (ef c s) || (m_rv s && negb (i_reqrdy i)).
Proof. intros R. unfold nx, s_step. cbn [fst m_rv]. now rewrite R. Qed.

Lemma issue_lst c s : e_issue (ef c s) = true \/ e_req (ef c s) <> None -> exists q k d, lst s = Some (PReq q k, d).
Proof.
  unfold ef. destruct (lst s) as [[[] d]|]; cbn [effect]; eauto; intros [H|H]; try discriminate H; try (exfalso; apply H; reflexivity).
  all: destruct (s_ctl c); try discriminate H; exfalso; apply H; reflexivity.
Qed.

Lemma lst_req_pipe c s L D q k d : cfg_ok c -> sinv c s L D -> lst s = Some (PReq q k, d) ->
  rq (ops (m_pipe s)) = [q] /\ rq (ops (removelast (m_pipe s))) = [] /\ d = m_ram s q.
Proof.
  intros CO IV E. pose proof (pne CO IV) as PN. pose proof (v_one IV) as O. rewrite (ops_split PN), rq_app in *.
  unfold lst in E. destruct (coh_last PN (v_coh IV) E) as (-> & _). rewrite E in *. cbn [option_map fst olist rq flat_map app] in *. rewrite app_length in O. cbn [length] in O.
  destruct (rq (ops (removelast (m_pipe s)))) eqn:X; cbn [length] in O; [|lia]. auto.
Qed.

Lemma rvinv_step c s L D i : cfg_ok c -> sinv c s L D -> i_rst i = false -> rvinv s -> rvinv (nx c s i).
Proof.
  intros CO IV R RV H. rewrite f_rv by auto. rewrite (@rq_new c s i R) in H.
  destruct (e_issue (ef c s)) eqn:Ei.
  - exfalso. destruct (@issue_lst c s (or_introl Ei)) as (q & k & d & El). destruct (lst_req_pipe CO IV El) as (E1 & E2 & _). rewrite E2, app_nil_r in H.
    unfold popped in H. destruct (accept c s i) as [[]|] eqn:Ea; try congruence. destruct (accept_cases _ _ _ Ea) as (_ & _ & _ & _ & X & _).
    apply no_rq in X. congruence.
  - cbn [orb]. unfold popped in H. destruct (accept c s i) as [[]|] eqn:Ea.
    7: { destruct (accept_cases _ _ _ Ea) as (_ & _ & _ & _ & _ & [->| ->] & _); [reflexivity|]. apply andb_false_r. }
    all: rewrite RV; auto; intros X; apply H; cbn [app];
      pose proof (pne CO IV) as PN;
      rewrite (ops_split PN), rq_app in X; apply app_eq_nil in X; apply X.
Qed.

Lemma run_inv c s xs : cfg_ok c -> power_on c s -> Forall (in_ok c) xs -> Forall strobed xs ->
  exists L D, sinv c (after c s xs) L D /\ rvinv (after c s xs).
Proof.
  intros CO PO. induction xs as [|x xs IH] using rev_ind; intros F1 F2.
  - exists [], []. split; [apply sinv_init; auto|]. destruct PO as (m1 & m2 & ft & fs & ->). intros _. reflexivity.
  - apply Forall_app in F1, F2. destruct F1 as [F1 F1'], F2 as [F2 F2']. inversion F1'; inversion F2'; subst.
    destruct (IH F1 F2) as (L & D & IV & RV). rewrite after_snoc. destruct (i_rst x) eqn:R.
    + exists [], []. split; [eapply sinv_reset; eauto|]. intros _. unfold nx, s_step. cbn [fst m_rv]. now rewrite R.
    + do 2 eexists. split; [eapply sinv_step; eauto|eapply rvinv_step; eauto].
Qed.

Lemma port_step c s L D i : cfg_ok c -> sinv c s L D -> rvinv s -> i_rst i = false ->
  begins c s i = (if e_issue (ef c s) then e_req (ef c s) else None) /\
  (m_rv s = true -> i_reqrdy i = false -> port (nx c s i) = port s /\ begins c s i = None).
Proof.
  intros CO IV RV R.
  assert (X : m_rv s = true -> e_issue (ef c s) = false /\ e_req (ef c s) = None).
  { intros H. assert (N : forall q k d, lst s <> Some (PReq q k, d)).
    { intros q k d E. destruct (lst_req_pipe CO IV E) as (E1 & _). rewrite RV in H; [discriminate|congruence]. }
    split.
    - destruct (e_issue (ef c s)) eqn:E; auto. destruct (@issue_lst c s (or_introl E)) as (? & ? & ? & E2). exfalso. eapply N; eauto.
    - destruct (e_req (ef c s)) eqn:E; auto. assert (Y : e_req (ef c s) <> None) by congruence. destruct (@issue_lst c s (or_intror Y)) as (? & ? & ? & E2). exfalso. eapply N; eauto. }
  assert (P : port (nx c s i) = guard (e_issue (ef c s) || (m_rv s && negb (i_reqrdy i)))
               (match e_req (ef c s) with Some (q, _) => q | None => m_rq s end, match e_req (ef c s) with Some (_, k) => k | None => m_rt s end)).
  { unfold port. rewrite f_rv by auto. reflexivity. }
  assert (Y : e_issue (ef c s) = true -> e_req (ef c s) <> None).
  { intros H. destruct (@issue_lst c s (or_introl H)) as (q & k & d & E). unfold ef in *. rewrite E in *. cbn [effect] in *. unfold do_req in *.
    destruct (_ && _); cbn in *; discriminate. }
  unfold begins. fold (nx c s i). rewrite P. destruct (m_rv s) eqn:Ev.
  - destruct (X eq_refl) as (-> & ->). cbn [orb andb]. unfold port. rewrite Ev. cbn [guard].
    destruct (i_reqrdy i); cbn [negb guard]; split; auto; discriminate.
  - unfold port. rewrite Ev. cbn [andb guard]. rewrite orb_false_r. split; [|discriminate].
    destruct (e_issue (ef c s)); cbn [guard]; auto. specialize (Y eq_refl). destruct (e_req (ef c s)) as [[]|]; congruence.
Qed.

Lemma may_enabled c s q : may c (m_ram s q) = true <-> enabled c s q.
Proof.
  unfold may, enabled. rewrite andb_true_iff, !orb_true_iff, negb_true_iff. destruct (s_ctl c); split; intros [A B]; split; auto.
  - intros _. destruct B as [[B|B]|B]; auto. discriminate.
  - destruct (B eq_refl); auto.
  - discriminate.
Qed.

Lemma begins_lst c s L D i r : cfg_ok c -> sinv c s L D -> rvinv s -> i_rst i = false -> begins c s i = Some r ->
  lst s = Some (PReq (fst r) (snd r), m_ram s (fst r)) /\ enabled c s (fst r) /\ active s (fst r) /\ scheduled s (fst r) /\
  in_range c (fst r) /\ e_push (ef c s) = Some (fst r).
Proof.
  intros CO IV RV R H. destruct (@port_step c s L D i CO IV RV R) as (E & _). rewrite E in H. destruct (e_issue (ef c s)) eqn:Ei; [|discriminate].
  destruct (@issue_lst c s (or_introl Ei)) as (q & k & d & El). destruct (lst_req_pipe CO IV El) as (_ & _ & ->).
  unfold ef in *. rewrite El in *. cbn [effect] in *. unfold do_req in *.
  destruct (may c (m_ram s q) && q_act (m_ram s q) && q_sd (m_ram s q)) eqn:Em; [|discriminate]. cbn in H. injection H as <-. cbn [fst snd].
  apply andb_true_iff in Em. destruct Em as [Em E3]. apply andb_true_iff in Em. destruct Em as [E1 E2]. splits; auto.
  - apply (proj1 (may_enabled c s q) E1).
  - assert (G : In (PReq q k) (ops (m_pipe s))).
    { apply ops_in. exists (m_ram s q). unfold lst in El. assert (PN : m_pipe s <> []) by (intros N; rewrite N in El; discriminate). rewrite (pipe_split PN), El. apply in_or_app. right. left. auto. }
    pose proof (v_rng IV) as F. rewrite Forall_forall in F. apply (F _ G).
Qed.

(** * The order of service *)
Definition order (s : sst) (L : list Z) : list Z := rq (ops (m_pipe s)) ++ L.

Lemma order_step c s L D i : cfg_ok c -> sinv c s L D -> i_rst i = false ->
  exists rest, order s L = gone s ++ rest /\ order (nx c s i) (@L2 c s L i) = rest ++ olist (e_push (ef c s)).
Proof.
  intros CO IV R. exists (rq (ops (removelast (m_pipe s))) ++ L).
  pose proof (pne CO IV) as PN.
  unfold order. split.
  - pose proof (v_one IV) as O. rewrite (ops_split PN), rq_app in *. unfold gone, lst. rewrite app_length in O.
    set (g := rq (olist (option_map fst (last (m_pipe s) None)))) in *. set (x := rq (ops (removelast (m_pipe s)))) in *.
    destruct g as [|y g]; [now rewrite app_nil_r|]. destruct x as [|z x]; [reflexivity|]. cbn in O. lia.
  - rewrite (@rq_new c s i R). unfold L2. rewrite app_assoc. f_equal. rewrite <- app_assoc.
    pose proof (@L_popped c s L D i IV) as E. unfold popped, L1 in *. destruct (accept c s i) as [[]|] eqn:Ea; auto.
    destruct (accept_cases _ _ _ Ea) as (_ & _ & _ & _ & H & _). apply no_rq in H. rewrite (ops_split PN), rq_app in H. apply app_eq_nil in H. destruct H as [-> _].
    cbn [app] in *. rewrite E at 2. reflexivity.
Qed.

(** * The queue registers *)
Lemma lst_ram c s L D o d : cfg_ok c -> sinv c s L D -> lst s = Some (o, d) -> d = m_ram s (pop_q o).
Proof. intros CO IV E. apply (coh_last (pne CO IV) (v_coh IV) E). Qed.

Lemma en_step c s L D i q : cfg_ok c -> sinv c s L D ->
  q_en (m_ram (nx c s i) q) = en_after q (q_en (m_ram s q)) (o_done (snd (s_step c s i))).
Proof.
  intros CO IV. change (o_done (snd (s_step c s i))) with (option_map fst (lst s)). rewrite f_ram. unfold ef.
  destruct (lst s) as [[o d]|] eqn:E; [|reflexivity]. rewrite (lst_ram CO IV E). cbn [option_map fst].
  rewrite ram_write_eq. unfold zupd. destruct (Z.eqb_spec q (pop_q o)) as [->|N].
  - unfold new_word. destruct o as [q0|q0 dd sb|q0|q0|q0 k more|q0 e0|q0 k]; cbn [effect pop_q en_after]; rewrite ?Z.eqb_refl; try reflexivity.
    + unfold do_write. cbn [e_low andb]. destruct (Z.testbit sb 0); reflexivity.
    + destruct (s_ctl c); reflexivity.
    + unfold do_req. destruct (_ && _); reflexivity.
  - destruct o; cbn [en_after pop_q] in *; auto; destruct (Z.eqb_spec q0 q); auto; congruence.
Qed.

Lemma en_run c s xs q : cfg_ok c -> power_on c s -> Forall (in_ok c) xs -> Forall strobed xs ->
  q_en (m_ram (after c s xs) q) = fold_left (en_after q) (map o_done (outs c s xs)) false.
Proof.
  intros CO PO. induction xs as [|x xs IH] using rev_ind; intros F1 F2.
  - destruct PO as (m1 & m2 & ft & fs & ->). reflexivity.
  - apply Forall_app in F1, F2. destruct F1 as [F1 F1'], F2 as [F2 F2'].
    destruct (run_sinv CO PO F1 F2) as (L & D & IV). rewrite after_snoc, outs_snoc, map_app, fold_left_app. cbn [map fold_left].
    rewrite <- IH by auto. eapply en_step; eauto.
Qed.

Lemma status_ok c d : exists w, e_r (do_read c d) = Some w /\ status_word c d w.
Proof. eexists. split; [reflexivity|]. unfold status_word. destruct (s_ctl c), d as [[] [] [] [] [] t]; cbn; splits; auto; lia. Qed.

Lemma read_step c s xs q x : cfg_ok c -> power_on c s -> Forall (in_ok c) xs -> Forall strobed xs -> i_rst x = false ->
  let t := after c s xs in
  o_done (snd (s_step c t x)) = Some (PRead q) ->
  forall y, exists w, o_r (snd (s_step c (fst (s_step c t x)) y)) = Some w /\ status_word c (m_ram t q) w.
Proof.
  intros CO PO F1 F2 R t H y. destruct (run_sinv CO PO F1 F2) as (L & D & IV). fold t in IV.
  change (o_done (snd (s_step c t x))) with (option_map fst (lst t)) in H. destruct (lst t) as [[o d]|] eqn:E; [|discriminate]. cbn in H. injection H as ->.
  destruct (status_ok c d) as (w & E1 & E2). exists w. rewrite (lst_ram CO IV E) in E2. split; auto.
  assert (X : m_r (fst (s_step c t x)) = true /\ m_rd (fst (s_step c t x)) = w).
  { unfold s_step. cbn [fst m_r m_rd]. fold (lst t). rewrite E, R. cbn [effect negb andb]. rewrite E1. auto. }
  destruct X as [X1 X2]. cbn [s_step snd o_r]. rewrite X1, X2. reflexivity.
Qed.

Lemma allowed c s xs x q k : cfg_ok c -> power_on c s -> Forall (in_ok c) xs -> Forall strobed xs -> i_rst x = false ->
  let t := after c s xs in begins c t x = Some (q, k) ->
  in_range c q /\ enabled c t q /\ active t q /\ scheduled t q /\ port (fst (s_step c t x)) = Some (q, k).
Proof.
  intros CO PO F1 F2 R t B. destruct (run_inv CO PO F1 F2) as (L & D & IV & RV). fold t in IV, RV.
  destruct (@begins_lst c t L D x (q, k) CO IV RV R B) as (_ & H1 & H2 & H3 & H4 & _). cbn [fst] in *. splits; auto.
  unfold begins in B. destruct (port (fst (s_step c t x))) as [p|]; [|discriminate]. destruct (port t); [destruct (i_reqrdy x)|]; congruence.
Qed.

Lemma port_stable c s xs x r : cfg_ok c -> power_on c s -> Forall (in_ok c) xs -> Forall strobed xs -> i_rst x = false ->
  let t := after c s xs in port t = Some r -> i_reqrdy x = false -> port (fst (s_step c t x)) = Some r.
Proof.
  intros CO PO F1 F2 R t P Y. destruct (run_inv CO PO F1 F2) as (L & D & IV & RV). fold t in IV, RV.
  destruct (@port_step c t L D x CO IV RV R) as (_ & H). rewrite <- P. apply H; auto. unfold port in P. destruct (m_rv t); [reflexivity|discriminate].
Qed.

(** * Operations through the pipe *)
Lemma removelast_nth A (l : list A) n : (S n < length l)%nat -> nth_error (removelast l) n = nth_error l n.
Proof.
  revert n. induction l as [|x l IH]; intros n H; [cbn in H; lia|]. destruct l as [|y l]; [cbn in H; lia|].
  change (removelast (x :: y :: l)) with (x :: removelast (y :: l)). destruct n as [|n]; [reflexivity|]. cbn [nth_error]. apply IH. cbn in *. lia.
Qed.

Lemma pipe_delay c s L D x xs o : cfg_ok c -> sinv c s L D -> Forall (fun i => i_rst i = false) (x :: xs) -> Forall (in_ok c) (x :: xs) -> Forall strobed (x :: xs) ->
  o_acc (snd (s_step c s x)) = Some o -> (length xs < s_pl c)%nat ->
  exists d, nth_error (m_pipe (after c s (x :: xs))) (length xs) = Some (Some (o, d)).
Proof.
  intros CO IV. revert s L D IV x. induction xs as [|y xs IH] using rev_ind; intros s L D IV x F1 F2 F3 E Hl.
  - inversion F1; subst. exists (m_ram s (pop_q o)). unfold after. cbn [trace length nth_error]. change (o_acc (snd (s_step c s x))) with (accept c s x) in E.
    pose proof (@f_pipe c s x H1) as P. unfold nx in P. destruct (s_step c s x) as [s1 o1]. cbn [fst] in *. rewrite P. unfold new. rewrite E. reflexivity.
  - rewrite app_comm_cons in *. apply Forall_app in F1, F2, F3. destruct F1 as [F1 F1'], F2 as [F2 F2'], F3 as [F3 F3']. inversion F1'; subst.
    rewrite app_length in *. cbn [length] in *.
    destruct (IH s L D IV x F1 F2 F3 E) as (d & Hd); [lia|].
    assert (LEN : length (m_pipe (after c s (x :: xs))) = s_pl c).
    { clear - CO IV F1. revert s IV F1. generalize (x :: xs). intros l s IV F1. clear x xs.
      assert (G : length (m_pipe s) = s_pl c) by apply (v_len IV). assert (P : (1 <= s_pl c)%nat) by (destruct CO as (_ & _ & ?); lia). clear IV.
      induction l as [|x l IH] using rev_ind; [exact G|]. apply Forall_app in F1. destruct F1 as [F1 F1']. inversion F1'; subst. rewrite after_snoc, f_pipe by auto.
      specialize (IH F1). destruct (m_pipe (after c s l)) as [|a l'] eqn:El using rev_ind; [cbn in IH; lia|]. rewrite removelast_last. rewrite app_length in IH. cbn in *. lia. }
    rewrite after_snoc, f_pipe by auto. exists d. rewrite Nat.add_1_r. cbn [nth_error]. rewrite removelast_nth by lia. exact Hd.
Qed.

Lemma done_after c s pre x xs y o : cfg_ok c -> power_on c s -> Forall (in_ok c) (pre ++ x :: xs) -> Forall strobed (pre ++ x :: xs) ->
  Forall (fun i => i_rst i = false) (x :: xs) -> length xs = (s_pl c - 1)%nat ->
  o_acc (snd (s_step c (after c s pre) x)) = Some o ->
  o_done (snd (s_step c (after c s (pre ++ x :: xs)) y)) = Some o.
Proof.
  intros CO PO F1 F2 F3 Hl E. apply Forall_app in F1, F2. destruct F1 as [F1 F1'], F2 as [F2 F2'].
  destruct (run_sinv CO PO F1 F2) as (L & D & IV). assert (P : (2 <= s_pl c)%nat) by apply CO.
  destruct (pipe_delay CO IV F3 F1' F2' E) as (d & Hd); [lia|]. rewrite after_app.
  change (o_done (snd (s_step c (after c (after c s pre) (x :: xs)) y))) with (option_map fst (lst (after c (after c s pre) (x :: xs)))).
  unfold lst. assert (LEN : length (m_pipe (after c (after c s pre) (x :: xs))) = s_pl c).
  { rewrite <- after_app. destruct (@run_sinv c s (pre ++ x :: xs) CO PO) as (L' & D' & IV'); [apply Forall_app; auto..|]. apply (v_len IV'). }
  set (p := m_pipe (after c (after c s pre) (x :: xs))) in *. clearbody p. rewrite Hl in Hd.
  assert (X : nth_error p (length p - 1) = Some (Some (o, d))) by (rewrite LEN; exact Hd).
  apply nth_error_split in X. destruct X as (a & b & -> & Hb). rewrite app_length in Hb. cbn [length] in Hb.
  assert (b = []) by (destruct b; auto; cbn in Hb; lia). subst b. rewrite last_last. reflexivity.
Qed.

Lemma acc_input c s i : match o_acc (snd (s_step c s i)) with
  | Some (PWrite q d sb) => exists a, i_aw i = Some (a, d, sb) /\ q = (a / 4) mod 2 ^ Z.of_nat (s_qw c)
  | Some (PRead q) => exists a, i_ar i = Some a /\ q = (a / 4) mod 2 ^ Z.of_nat (s_qw c)
  | Some (PCtl q e) => s_ctl c = true /\ i_ctl i = Some (q, e)
  | _ => True
  end.
Proof.
  change (o_acc (snd (s_step c s i))) with (accept c s i). destruct (accept c s i) as [o|] eqn:E; [|exact I].
  apply accept_cases in E. destruct E as (_ & E). destruct o; auto; destruct E as (a & E & ->); exists a; split; auto;
    unfold queue_of; rewrite Z.shiftr_div_pow2 by lia; reflexivity.
Qed.
