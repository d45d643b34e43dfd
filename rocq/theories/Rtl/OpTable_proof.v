(** The circular operation table refines the list of outstanding operations. *)
From Verif Require Import Base.Prelude Base.Bits Rtl.OpTable_model Rtl.OpTable_spec.
Open Scope Z_scope.

Definition zlen {A} (l : list A) : Z := Z.of_nat (length l).

Lemma zlen_app A (a b : list A) : zlen (a ++ b) = zlen a + zlen b.
Proof. unfold zlen. rewrite app_length. lia. Qed.

Lemma zlen_nonneg A (a : list A) : 0 <= zlen a.
Proof. unfold zlen. lia. Qed.

Definition op0 := mkOp 0 0 false.

(** Slot of the [j]-th oldest outstanding operation. *)
Definition slot (N : Z) (t : optab) (j : nat) : Z := (t_finish t + Z.of_nat j) mod N.

Record ot_rel (N : Z) (t : optab) (l : list sop) : Prop := mkRel {
  or_N : 0 < N;
  or_fin : 0 <= t_finish t < N;
  or_len : zlen l <= N;
  or_start : t_start t = (t_finish t + zlen l) mod N;
  or_entry : forall j, (j < length l)%nat ->
     t_active t (slot N t j) = true /\
     nth j l op0 = mkOp (t_queue t (slot N t j)) (t_ptr t (slot N t j)) (t_commit t (slot N t j));
  or_only : forall i, t_active t i = true ->
     exists j, (j < length l)%nat /\ i = slot N t j }.

Lemma ot_init N : 0 < N -> ot_rel N tab0 [].
Proof.
  intros. constructor; unfold zlen; simpl; auto; try lia; try discriminate.
Qed.

Lemma slot_inj N t i j :
  0 < N -> Z.of_nat i < N -> Z.of_nat j < N -> slot N t i = slot N t j -> i = j.
Proof.
  unfold slot. intros HN Hi Hj H.
  apply mod_add_eq_cancel in H; lia.
Qed.

Lemma ot_start_range N t l : ot_rel N t l -> 0 <= t_start t < N.
Proof. intros [HN _ _ Hs _ _]. rewrite Hs. apply Z.mod_pos_bound; auto. Qed.

Lemma ot_free N t l : ot_rel N t l -> t_active t (t_start t) = false -> zlen l < N.
Proof.
  intros R H. pose proof (or_len R). destruct (Z.eq_dec (zlen l) N) as [E|]; [|lia].
  exfalso. pose proof (or_N R).
  assert (Hl : (0 < length l)%nat) by (unfold zlen in *; lia).
  destruct (or_entry R Hl) as [Ha _].
  assert (E2 : t_start t = slot N t 0).
  { rewrite (or_start R), E. unfold slot. simpl.
    rewrite Z.add_0_r. rewrite <- Z.add_mod_idemp_r by lia.
    rewrite Z_mod_same_full, Z.add_0_r. reflexivity. }
  rewrite E2 in H. congruence.
Qed.

Lemma ot_free_iff N t l : ot_rel N t l -> (t_active t (t_start t) = false <-> zlen l < N).
Proof.
  intros R. split; [apply ot_free; auto|]. intros H.
  destruct (t_active t (t_start t)) eqn:E; auto. exfalso.
  destruct (or_only R _ E) as (j & Hj & Ej).
  rewrite (or_start R) in Ej. unfold slot in Ej.
  pose proof (or_N R). pose proof (or_len R). unfold zlen in *.
  apply mod_add_eq_cancel in Ej; lia.
Qed.

(** Starting an operation appends it. *)
Lemma ot_start N t l q p :
  ot_rel N t l -> zlen l < N ->
  ot_rel N (tab_start N t q p) (l ++ [mkOp q p false]).
Proof.
  intros R Hl. pose proof (or_N R) as HN.
  assert (Hsl : t_start t = slot N t (length l)) by (rewrite (or_start R); reflexivity).
  constructor.
  - auto.
  - exact (or_fin R).
  - rewrite zlen_app. unfold zlen at 2. simpl. lia.
  - cbn [tab_start t_start t_finish]. rewrite (or_start R), zlen_app.
    unfold zlen at 3. simpl Z.of_nat.
    rewrite Z.add_mod_idemp_l by lia. f_equal. lia.
  - intros j Hj. rewrite app_length in Hj. simpl in Hj.
    unfold slot in *. cbn [tab_start t_start t_finish t_active t_queue t_ptr t_commit] in *.
    destruct (Nat.eq_dec j (length l)) as [->|Hne].
    + rewrite <- Hsl, !zupd_same. split; auto.
      rewrite app_nth2, Nat.sub_diag by lia. reflexivity.
    + assert (Hj' : (j < length l)%nat) by lia.
      assert (Hd : slot N t j <> t_start t).
      { rewrite Hsl. intro E. apply slot_inj in E; auto; unfold zlen in *; lia. }
      unfold slot in Hd. rewrite !zupd_other by auto.
      rewrite app_nth1 by auto. exact (or_entry R Hj').
  - intros i. cbn [tab_start t_active]. unfold zupd.
    destruct (Z.eqb_spec i (t_start t)) as [->|].
    + intros _. exists (length l). rewrite app_length. simpl. split; [lia|exact Hsl].
    + intros H. destruct (or_only R _ H) as (j & Hj & Ej).
      exists j. rewrite app_length. split; [lia|exact Ej].
Qed.

(** Retiring the oldest operation removes it. *)
Lemma ot_finish N t o l :
  ot_rel N t (o :: l) -> ot_rel N (tab_finish N t) l.
Proof.
  intros R. pose proof (or_N R) as HN. pose proof (or_fin R) as Hf.
  pose proof (or_len R) as Hlen. unfold zlen in Hlen; simpl length in Hlen.
  assert (Hs : forall j, slot N (tab_finish N t) j = slot N t (S j)).
  { intro j. unfold slot. cbn [tab_finish t_finish].
    rewrite Z.add_mod_idemp_l by lia. f_equal. lia. }
  constructor.
  - auto.
  - cbn [tab_finish t_finish]. apply Z.mod_pos_bound; auto.
  - unfold zlen; lia.
  - cbn [tab_finish t_finish t_start]. rewrite (or_start R).
    rewrite Z.add_mod_idemp_l by lia. f_equal. unfold zlen; simpl length; lia.
  - intros j Hj. rewrite Hs. cbn [tab_finish t_active t_queue t_ptr t_commit].
    assert (Hj' : (S j < length (o :: l))%nat) by (simpl; lia).
    destruct (or_entry R Hj') as [Ha He].
    rewrite zupd_other; [split; [exact Ha|exact He]|].
    replace (t_finish t) with (slot N t 0).
    + intro E. apply slot_inj in E; [discriminate|auto|lia|lia].
    + unfold slot. simpl. rewrite Z.add_0_r. apply Z.mod_small; auto.
  - intros i. cbn [tab_finish t_active]. unfold zupd.
    destruct (Z.eqb_spec i (t_finish t)); [discriminate|].
    intros H. destruct (or_only R _ H) as (j & Hj & Ej).
    destruct j as [|j].
    + exfalso. apply n. rewrite Ej. unfold slot. simpl. rewrite Z.add_0_r.
      apply Z.mod_small; auto.
    + exists j. simpl in Hj. split; [lia|]. rewrite Hs. exact Ej.
Qed.

Lemma ot_head N t o l :
  ot_rel N t (o :: l) ->
  t_active t (t_finish t) = true /\
  o = mkOp (t_queue t (t_finish t)) (t_ptr t (t_finish t)) (t_commit t (t_finish t)).
Proof.
  intros R. assert (Hl : (0 < length (o :: l))%nat) by (simpl; lia).
  pose proof (or_fin R). pose proof (or_entry R Hl) as [Ha He].
  replace (slot N t 0) with (t_finish t) in * by
    (unfold slot; simpl; rewrite Z.add_0_r; symmetry; apply Z.mod_small; auto).
  split; auto.
Qed.

Lemma ot_head_inv N t l :
  ot_rel N t l -> t_active t (t_finish t) = true ->
  exists o l', l = o :: l'.
Proof.
  intros R H. destruct (or_only R _ H) as (j & Hj & _).
  destruct l as [|o l']; simpl in Hj; [lia|eauto].
Qed.

Lemma mark_length l : forall j, length (mark l j) = length l.
Proof. induction l; intros [|j]; simpl; auto. Qed.

Lemma mark_nth l : forall j k, (j < length l)%nat ->
  nth k (mark l j) op0 =
  if Nat.eqb k j then mkOp (so_q (nth j l op0)) (so_ptr (nth j l op0)) true
  else nth k l op0.
Proof.
  induction l as [|o l IH]; intros [|j] [|k] H; simpl in *; try lia; auto.
  apply IH. lia.
Qed.

Lemma mark_last_ptr q l : forall j, last_ptr q (mark l j) = last_ptr q l.
Proof.
  induction l as [|o l IH]; intros [|j]; simpl; auto. rewrite IH. reflexivity.
Qed.

Lemma mark_busy q l : forall j, busy q (mark l j) = busy q l.
Proof.
  unfold busy.
  induction l as [|o l IH]; intros [|j]; simpl; auto. rewrite IH. reflexivity.
Qed.

(** Committing marks the operation in the named slot. *)
Lemma ot_commit N t l j :
  ot_rel N t l -> (j < length l)%nat ->
  ot_rel N (tab_commit t (slot N t j)) (mark l j).
Proof.
  intros R Hj. pose proof (or_N R) as HN. pose proof (or_len R) as Hlen.
  unfold zlen in Hlen.
  constructor; unfold zlen; rewrite ?mark_length;
    cbn [tab_commit t_active t_queue t_ptr t_commit t_start t_finish]; auto.
  - exact (or_fin R).
  - exact (or_start R).
  - intros k Hk. unfold slot in *. cbn [tab_commit t_finish] in *.
    destruct (or_entry R Hk) as [Ha He]. unfold slot in *. split; auto.
    rewrite mark_nth by auto. destruct (Nat.eqb_spec k j) as [->|Hne].
    + rewrite zupd_same, He. reflexivity.
    + rewrite zupd_other; [exact He|].
      intro E. apply Hne. eapply slot_inj with (N := N) (t := t); auto; lia.
  - exact (or_only R).
Qed.

(** The youngest outstanding operation of a queue. *)
Lemma last_ptr_app q l o :
  last_ptr q (l ++ [o]) = if so_q o =? q then Some (so_ptr o) else last_ptr q l.
Proof.
  induction l as [|a l IH]; simpl.
  - destruct (so_q o =? q); auto.
  - rewrite IH. destruct (so_q o =? q); auto.
Qed.

Lemma last_ptr_none q l : last_ptr q l = None <-> busy q l = false.
Proof.
  unfold busy. induction l as [|a l IH]; simpl; [tauto|].
  destruct (last_ptr q l) as [p|].
  - assert (existsb (fun o => so_q o =? q) l <> false) by (intro; apply IH in H; discriminate).
    rewrite orb_false_iff. split; [discriminate|tauto].
  - destruct (so_q a =? q); simpl; [split; discriminate|tauto].
Qed.

(** Position of the youngest operation of queue [q]. *)
Fixpoint lastpos (q : Z) (l : list sop) : option nat :=
  match l with
  | [] => None
  | o :: t => match lastpos q t with
              | Some j => Some (S j)
              | None => if so_q o =? q then Some O else None
              end
  end.

Lemma lastpos_app q l o :
  lastpos q (l ++ [o]) = if so_q o =? q then Some (length l) else lastpos q l.
Proof.
  induction l as [|a l IH]; simpl.
  - destruct (so_q o =? q); auto.
  - rewrite IH. destruct (so_q o =? q); auto.
Qed.

Lemma lastpos_mark q l : forall j, lastpos q (mark l j) = lastpos q l.
Proof.
  induction l as [|o l IH]; intros [|j]; simpl; auto. rewrite IH. reflexivity.
Qed.

Lemma lastpos_ptr q l :
  last_ptr q l = match lastpos q l with Some j => Some (so_ptr (nth j l op0)) | None => None end.
Proof.
  induction l as [|o l IH]; simpl; auto. rewrite IH.
  destruct (lastpos q l); auto. destruct (so_q o =? q); auto.
Qed.

Lemma lastpos_some q l j : lastpos q l = Some j -> (j < length l)%nat /\ so_q (nth j l op0) = q.
Proof.
  revert j; induction l as [|o l IH]; simpl; intros j H; [discriminate|].
  destruct (lastpos q l) as [k|].
  - injection H as <-. destruct (IH _ eq_refl). split; [lia|auto].
  - destruct (Z.eqb_spec (so_q o) q); [|discriminate]. injection H as <-.
    split; [lia|auto].
Qed.

Lemma lastpos_none q l : lastpos q l = None <-> busy q l = false.
Proof.
  rewrite <- last_ptr_none, lastpos_ptr. destruct (lastpos q l); split; congruence.
Qed.

Lemma lastpos_max q l j k :
  lastpos q l = Some j -> (k < length l)%nat -> so_q (nth k l op0) = q -> (k <= j)%nat.
Proof.
  revert j k; induction l as [|o l IH]; simpl; intros j k H Hk Hq; [lia|].
  destruct (lastpos q l) as [m|] eqn:E.
  - injection H as <-. destruct k; [lia|]. apply le_n_S. apply IH; auto; lia.
  - destruct (so_q o =? q); [|discriminate]. injection H as <-.
    destruct k; [lia|].
    apply lastpos_none in E. unfold busy in E. exfalso.
    assert (existsb (fun o => so_q o =? q) l = true).
    { apply existsb_exists. exists (nth k l op0). split; [apply nth_In; lia|].
      apply Z.eqb_eq; auto. }
    congruence.
Qed.
