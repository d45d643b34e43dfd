(** Lemmas: pointer arithmetic, phase tags, completion ring. *)
From Verif Require Import Base.Prelude Driver.Ring_model Driver.Ring_spec.
Local Open Scope Z_scope.

Lemma land_mask16 x : Z.land x 65535 = x mod 65536.
Proof. change 65535 with (Z.ones 16). rewrite Z.land_ones by lia. reflexivity. Qed.

Lemma slot_mod k p : 0 <= k -> slot k p = p mod 2 ^ k.
Proof.
  intros Hk. unfold slot, ring_size.
  replace (2 ^ k - 1) with (Z.ones k) by (rewrite Z.ones_equiv; lia).
  apply Z.land_ones; auto.
Qed.

Lemma land_pow2 p k : 0 <= k -> negb (Z.land p (2 ^ k) =? 0) = Z.testbit p k.
Proof.
  intros Hk. destruct (Z.testbit p k) eqn:E.
  - destruct (Z.eqb_spec (Z.land p (2 ^ k)) 0) as [H|H]; auto.
    assert (Z.testbit (Z.land p (2 ^ k)) k = true) as A.
    { rewrite Z.land_spec, E, Z.pow2_bits_true; auto. }
    rewrite H, Z.bits_0 in A. discriminate.
  - assert (Z.land p (2 ^ k) = 0) as ->; auto.
    apply Z.bits_inj. intros n. rewrite Z.bits_0, Z.land_spec.
    destruct (Z.eq_dec n k) as [->|].
    + rewrite E. auto.
    + rewrite (Z.pow2_bits_false k n) by auto. apply andb_false_r.
Qed.

Lemma testbit_add_pow2 p k : 0 <= k -> Z.testbit (p + 2 ^ k) k = negb (Z.testbit p k).
Proof.
  intros Hk. rewrite !Z.testbit_odd, !Z.shiftr_div_pow2 by auto.
  replace (p + 2 ^ k) with (p + 1 * 2 ^ k) by lia.
  rewrite Z.div_add by (apply Z.pow_nonzero; lia).
  rewrite Z.add_1_r, Z.odd_succ, <- Z.negb_odd. auto.
Qed.

Lemma hw_phase_eq k p : 0 <= k < 16 -> hw_phase k p = negb (Z.testbit p k).
Proof.
  intros Hk. unfold hw_phase. f_equal.
  change 65536 with (2 ^ 16). apply Z.mod_pow2_bits_low. lia.
Qed.

Lemma mod_window a b n : 0 < n -> 0 < a - b < n -> a mod n <> b mod n.
Proof.
  intros Hn H E.
  assert ((a - b) mod n = 0) as A.
  { rewrite Zminus_mod, E, Z.sub_diag. apply Z.mod_0_l. lia. }
  rewrite Z.mod_small in A by lia. lia.
Qed.

Lemma mod_window_inj a b lo n : 0 < n ->
  lo <= a < lo + n -> lo <= b < lo + n -> a mod n = b mod n -> a = b.
Proof.
  intros Hn Ha Hb E.
  destruct (Z.lt_trichotomy a b) as [H|[H|H]]; auto; exfalso.
  - apply (@mod_window b a n); auto; lia.
  - apply (@mod_window a b n); auto; lia.
Qed.

Lemma read_ptr_correct lag truth : 0 <= truth - lag < 65536 ->
  lag + Z.land (truth mod 65536 - lag) 65535 = truth.
Proof.
  intros H. rewrite land_mask16.
  rewrite Zminus_mod, Z.mod_mod, <- Zminus_mod by lia.
  rewrite Z.mod_small by lia. lia.
Qed.

(** ** Completion ring *)

Definition rec_at (k : Z) (p : Z) (il : Z * Z) : cpl := mkCpl (fst il) (snd il) (hw_phase k p).

Fixpoint recs_from (k p : Z) (l : list (Z * Z)) : list cpl :=
  match l with
  | [] => []
  | x :: t => rec_at k p x :: recs_from k (p + 1) t
  end.

Record cq_inv (k : Z) (q : cqs) (unread : list (Z * Z)) : Prop := {
  ci_k : 0 <= k < 16;
  ci_chw : 0 <= q_chw q <= q_csw q;
  ci_hp : q_hp q = q_csw q + Z.of_nat (length unread);
  ci_room : q_hp q <= q_chw q + 2 ^ k;
  ci_rec : forall i x, nth_error unread i = Some x ->
     q_mem q (slot k (q_csw q + Z.of_nat i)) = rec_at k (q_csw q + Z.of_nat i) x;
  ci_stale : forall x, q_hp q <= x < q_csw q + 2 ^ k ->
     c_phase (q_mem q (slot k x)) = Z.testbit x k
}.

Lemma pow2_pos k : 0 <= k -> 0 < 2 ^ k.
Proof. intros. apply Z.pow_pos_nonneg; lia. Qed.

Lemma cq_inv_init k : 0 <= k < 16 -> cq_inv k cq_init [].
Proof.
  intros Hk. pose proof (@pow2_pos k ltac:(lia)).
  constructor; simpl; auto; try lia.
  - intros [|i] x; discriminate.
  - intros x Hx. symmetry. rewrite Z.testbit_odd, Z.shiftr_div_pow2 by lia.
    rewrite Z.div_small by lia. reflexivity.
Qed.

Lemma cq_inv_write k q unread idx len :
  cq_inv k q unread -> cq_full k q = false ->
  cq_inv k (cq_hw_write k q idx len) (unread ++ [(idx, len)]).
Proof.
  intros [Hk Hc Hh Hr Hrec Hst] Hf. unfold cq_full, ring_size in Hf.
  pose proof (@pow2_pos k ltac:(lia)).
  constructor; simpl; auto; try lia.
  - rewrite app_length; simpl. lia.
  - intros i x Hi.
    destruct (Nat.eq_dec i (length unread)) as [->|Hne].
    + rewrite nth_error_app2, Nat.sub_diag in Hi by lia. simpl in Hi. inversion Hi; subst.
      rewrite <- Hh. rewrite zupd_same. reflexivity.
    + assert (i < length unread)%nat.
      { assert (nth_error (unread ++ [(idx, len)]) i <> None) as Hn by congruence.
        apply nth_error_Some in Hn. rewrite app_length in Hn. simpl in Hn. lia. }
      rewrite nth_error_app1 in Hi by auto.
      rewrite zupd_other; [apply Hrec; auto|].
      rewrite !slot_mod by lia. intro E.
      apply (@mod_window (q_hp q) (q_csw q + Z.of_nat i) (2 ^ k)); auto; lia.
  - intros x Hx. rewrite zupd_other; [apply Hst; lia|].
    rewrite !slot_mod by lia. intro E.
    apply (@mod_window x (q_hp q) (2 ^ k)); auto; lia.
Qed.

Lemma empty_at_spec k q unread :
  cq_inv k q unread ->
  cq_empty_at k (q_mem q) (q_csw q) = match unread with [] => true | _ => false end.
Proof.
  intros [Hk Hc Hh Hr Hrec Hst]. unfold cq_empty_at, ring_size.
  pose proof (@pow2_pos k ltac:(lia)).
  rewrite land_pow2 by lia.
  destruct unread as [|x t].
  - simpl in Hh. rewrite Hst by lia. destruct (Z.testbit (q_csw q) k); reflexivity.
  - specialize (Hrec 0%nat x eq_refl). simpl in Hrec. rewrite Z.add_0_r in Hrec.
    rewrite Hrec. simpl. rewrite hw_phase_eq by auto.
    destruct (Z.testbit (q_csw q) k); reflexivity.
Qed.

Lemma cq_inv_adv k q x unread :
  cq_inv k q (x :: unread) ->
  q_mem q (slot k (q_csw q)) = rec_at k (q_csw q) x /\
  cq_inv k (mkCq (q_mem q) (q_hp q) (q_chw q) (q_csw q + 1)) unread.
Proof.
  intros [Hk Hc Hh Hr Hrec Hst].
  pose proof (@pow2_pos k ltac:(lia)). simpl in Hh.
  assert (q_mem q (slot k (q_csw q)) = rec_at k (q_csw q) x) as H0.
  { specialize (Hrec 0%nat x eq_refl). simpl in Hrec. rewrite Z.add_0_r in Hrec. auto. }
  split; auto.
  constructor; simpl; auto; try lia.
  - intros i y Hi. specialize (Hrec (S i) y Hi).
    replace (q_csw q + 1 + Z.of_nat i) with (q_csw q + Z.of_nat (S i)) by lia. auto.
  - intros y Hy. destruct (Z.eq_dec y (q_csw q + 2 ^ k)) as [->|].
    + assert (slot k (q_csw q + 2 ^ k) = slot k (q_csw q)) as ->.
      { rewrite !slot_mod by lia.
        replace (q_csw q + 2 ^ k) with (q_csw q + 1 * 2 ^ k) by lia.
        apply Z.mod_add. lia. }
      rewrite H0. unfold rec_at. cbn [c_phase].
      rewrite hw_phase_eq by auto.
      rewrite testbit_add_pow2 by lia. reflexivity.
    + apply Hst. lia.
Qed.

Lemma cq_inv_write_cons k q unread :
  cq_inv k q unread -> cq_inv k (cq_write_cons q) unread.
Proof.
  intros [Hk Hc Hh Hr Hrec Hst]. constructor; simpl; auto; lia.
Qed.

Fixpoint fold_opt {A B} (f : A -> B -> option A) (a : A) (l : list B) : option A :=
  match l with
  | [] => Some a
  | x :: t => match f a x with Some a' => fold_opt f a' t | None => None end
  end.

Lemma fold_opt_app {A B} (f : A -> B -> option A) l1 l2 : forall a,
  fold_opt f a (l1 ++ l2) =
  match fold_opt f a l1 with Some a' => fold_opt f a' l2 | None => None end.
Proof.
  induction l1; simpl; intros; auto. destruct (f a0 a); auto.
Qed.

Lemma drain_spec {A} k (f : A -> cpl -> option A) unread : forall fuel q acc,
  cq_inv k q unread -> (length unread < fuel)%nat ->
  drain fuel k (q_mem q) f acc (q_csw q) =
  match fold_opt f acc (recs_from k (q_csw q) unread) with
  | Some a => DrainDone a (q_hp q)
  | None => DrainRaise
  end.
Proof.
  induction unread as [|x t IH]; intros fuel q acc Hi Hf; destruct fuel; simpl in Hf; try lia.
  - simpl. rewrite (empty_at_spec Hi). f_equal. destruct Hi as [_ _ H _ _ _]. simpl in H. lia.
  - simpl drain. rewrite (empty_at_spec Hi).
    destruct (cq_inv_adv Hi) as [Hm Hi']. rewrite Hm. simpl.
    destruct (f acc (rec_at k (q_csw q) x)) as [a|]; auto.
    apply (IH fuel _ a Hi'). lia.
Qed.

Lemma cq_inv_len k q unread : cq_inv k q unread ->
  (length unread < S (Z.to_nat (ring_size k)))%nat.
Proof.
  intros [Hk Hc Hh Hr _ _]. unfold ring_size. lia.
Qed.

Lemma cq_inv_drained k q unread : cq_inv k q unread ->
  cq_inv k (mkCq (q_mem q) (q_hp q) (q_chw q) (q_hp q)) [].
Proof.
  revert q. induction unread as [|x t IH]; intros q Hi.
  - pose proof Hi as [_ _ Hh _ _ _]. simpl in Hh. rewrite Z.add_0_r in Hh.
    destruct q; simpl in *; subst. auto.
  - destruct (cq_inv_adv Hi) as [_ Hi']. apply IH in Hi'. auto.
Qed.

(** The polling loop stops on any memory contents. *)
Lemma drain_stops {A} k (f : A -> cpl -> option A) mem : 0 <= k -> forall fuel acc cons,
  (Z.to_nat (2 ^ k) < fuel)%nat -> drain fuel k mem f acc cons <> DrainFuel.
Proof.
  intros Hk. pose proof (pow2_pos Hk) as Hp.
  assert (forall n fuel acc cons,
    (n <= Z.to_nat (2 ^ k))%nat -> (n < fuel)%nat ->
    cq_empty_at k mem (cons + Z.of_nat n) = true ->
    drain fuel k mem f acc cons <> DrainFuel) as Hmain.
  { induction n as [|n IH]; intros fuel acc cons Hn Hf He; destruct fuel; try lia.
    - simpl. rewrite Z.add_0_r in He. rewrite He. congruence.
    - simpl. destruct (cq_empty_at k mem cons); [congruence|].
      destruct (f acc (mem (slot k cons))); [|congruence].
      apply IH; try lia. replace (cons + 1 + Z.of_nat n) with (cons + Z.of_nat (S n)) by lia. auto. }
  intros fuel acc cons Hf.
  destruct (cq_empty_at k mem cons) eqn:E.
  - apply (Hmain 0%nat); try lia. rewrite Z.add_0_r. auto.
  - apply (Hmain (Z.to_nat (2 ^ k))); try lia.
    unfold cq_empty_at, ring_size in *. rewrite land_pow2 in * by lia.
    rewrite slot_mod in * by lia. rewrite Z2Nat.id by lia.
    replace (cons + 2 ^ k) with (cons + 1 * 2 ^ k) at 1 by lia.
    rewrite Z.mod_add by lia. rewrite testbit_add_pow2 by lia.
    destruct (c_phase (mem (cons mod 2 ^ k))), (Z.testbit cons k); simpl in *; congruence.
Qed.

(** ** Observable behaviour of the completion ring *)

Lemma recs_from_fields k p l : map (fun r => (c_index r, c_len r)) (recs_from k p l) = l.
Proof.
  revert p; induction l as [|[i n] t IH]; intros p; simpl; auto. rewrite IH. reflexivity.
Qed.

Lemma fold_opt_snoc {B} (l : list B) : forall acc,
  fold_opt (fun a r => Some (a ++ [r])) acc l = Some (acc ++ l).
Proof.
  induction l as [|x t IH]; intros acc; simpl.
  - rewrite app_nil_r. auto.
  - rewrite IH. rewrite <- app_assoc. reflexivity.
Qed.

Lemma cq_step_inv k q unread o q' obs :
  cq_inv k q unread -> cq_step k q o = (q', obs) ->
  obs <> ObsStuck /\
  exists unread', cq_inv k q' unread' /\
    unread ++ produced [obs] = consumed [obs] ++ unread' /\
    (o = CqPoll -> unread' = []) /\
    (o = CqIter -> consumed [obs] = [] -> unread' = []).
Proof.
  intros Hi Hs. destruct o as [idx len| | |]; simpl in Hs.
  - destruct (cq_full k q) eqn:Hf; inversion Hs; subst; clear Hs; (split; [congruence|]).
    + exists unread. simpl. rewrite app_nil_r. split; [auto|]. split; [auto|]. split; [intros X; discriminate X|intros X; discriminate X].
    + exists (unread ++ [(idx, len)]). simpl. split; [apply cq_inv_write; auto|].
      splits; auto; congruence.
  - unfold cq_iter in Hs. rewrite (empty_at_spec Hi) in Hs.
    destruct unread as [|x t]; inversion Hs; subst; clear Hs; (split; [congruence|]).
    + exists []. simpl. splits; auto.
    + destruct (cq_inv_adv Hi) as [Hm Hi']. exists t. split; auto. rewrite Hm.
      destruct x as [a b]. simpl. rewrite app_nil_r. splits; auto; congruence.
  - unfold cq_poll in Hs. rewrite (drain_spec _ _ Hi (cq_inv_len Hi)) in Hs.
    rewrite fold_opt_snoc in Hs. inversion Hs; subst; clear Hs. split; [congruence|].
    exists []. split; [apply (cq_inv_drained Hi)|].
    simpl. rewrite recs_from_fields, !app_nil_r. splits; auto; intros; discriminate.
  - inversion Hs; subst; clear Hs. split; [congruence|].
    exists unread. split; [apply cq_inv_write_cons; auto|].
    simpl. rewrite app_nil_r. splits; auto; congruence.
Qed.

Lemma produced_cons o os : produced (o :: os) = produced [o] ++ produced os.
Proof. unfold produced. simpl. rewrite app_nil_r. reflexivity. Qed.
Lemma consumed_cons o os : consumed (o :: os) = consumed [o] ++ consumed os.
Proof. unfold consumed. simpl. rewrite app_nil_r. reflexivity. Qed.

Lemma cq_trace_inv k ops : forall q unread,
  cq_inv k q unread ->
  let '(q', os) := trace (cq_step k) q ops in
  ~ In ObsStuck os /\
  exists unread', cq_inv k q' unread' /\ unread ++ produced os = consumed os ++ unread'.
Proof.
  induction ops as [|o ops IH]; intros q unread Hi; simpl.
  - split; [tauto|]. exists unread. simpl. rewrite app_nil_r. auto.
  - destruct (cq_step k q o) as [q1 ob] eqn:Hs.
    destruct (cq_step_inv _ Hi Hs) as (Hns & u1 & Hi1 & He1 & _).
    specialize (IH q1 u1 Hi1). destruct (trace (cq_step k) q1 ops) as [q2 os].
    destruct IH as (Hn & u2 & Hi2 & He2). split.
    + simpl. intros [H|H]; [congruence|tauto].
    + exists u2. split; auto. rewrite produced_cons, consumed_cons.
      rewrite app_assoc, He1, <- !app_assoc, He2. reflexivity.
Qed.

Lemma cq_exactly_once k ops : 0 <= k < 16 ->
  let '(q, os) := trace (cq_step k) cq_init ops in
  ~ In ObsStuck os /\
  exists unread, produced os = consumed os ++ unread /\
    (Z.of_nat (length unread) <= 2 ^ k) /\
    (fst (cq_step k q CqIter) = q <-> unread = []) /\
    exists rs, snd (cq_step k q CqPoll) = ObsGot rs /\
               map (fun r => (c_index r, c_len r)) rs = unread.
Proof.
  intros Hk. pose proof (@cq_trace_inv k ops cq_init [] (cq_inv_init Hk)) as H.
  destruct (trace (cq_step k) cq_init ops) as [q os].
  destruct H as (Hn & u & Hi & He). split; auto. exists u. simpl in He. split; auto.
  split; [|split].
  - destruct Hi as [_ Hc Hh Hr _ _]. lia.
  - simpl. unfold cq_iter. rewrite (empty_at_spec Hi). destruct u as [|x t]; simpl.
    + tauto.
    + split; [|congruence]. intros E.
      assert (q_csw (mkCq (q_mem q) (q_hp q) (q_chw q) (q_csw q + 1)) = q_csw q) by (rewrite E; auto).
      simpl in H. lia.
  - simpl. unfold cq_poll. rewrite (drain_spec _ _ Hi (cq_inv_len Hi)).
    rewrite fold_opt_snoc. simpl. eexists. split; [reflexivity|]. apply recs_from_fields.
Qed.
