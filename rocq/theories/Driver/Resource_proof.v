From Verif Require Import Base.Prelude Driver.Resource_model Driver.Resource_spec.
From Coq Require Import Sorted Permutation.

Lemma insert_perm x l : Permutation (insert x l) (x :: l).
Proof.
  induction l as [|y t IH]; simpl; auto.
  destruct (Nat.leb x y); auto.
  rewrite IH. apply perm_swap.
Qed.

Lemma py_sort_perm l : Permutation (py_sort l) l.
Proof.
  induction l as [|x t IH]; simpl; auto.
  rewrite insert_perm. auto.
Qed.

Lemma insert_sorted x l : StronglySorted le l -> StronglySorted le (insert x l).
Proof.
  induction 1 as [|y t Hs IH Hf]; simpl.
  - constructor; constructor.
  - destruct (Nat.leb_spec x y).
    + constructor; [constructor; auto|]. constructor; auto.
      eapply Forall_impl; [|exact Hf]. simpl; intros; lia.
    + constructor; auto.
      rewrite Forall_forall in *. intros z Hz.
      apply (Permutation_in _ (insert_perm x t)) in Hz. simpl in Hz.
      destruct Hz; [lia|auto].
Qed.

Lemma py_sort_sorted l : StronglySorted le (py_sort l).
Proof. induction l; simpl; [constructor|apply insert_sorted; auto]. Qed.

Definition win_ok (r : resource) : Prop :=
  forall i w, assoc i (r_windows r) = Some w -> w = (Z.of_nat i * r_stride r, r_stride r)%Z.

Record res_inv (count : nat) (stride : Z) (held : list nat) (r : resource) : Prop := {
  ri_count : r_count r = count;
  ri_stride : r_stride r = stride;
  ri_sorted : StronglySorted le (r_free r);
  ri_part : Permutation (r_free r ++ held) (seq 0 count);
  ri_win : win_ok r
}.

Lemma sorted_seq n m : StronglySorted le (seq n m).
Proof.
  revert n; induction m; intros n; simpl; constructor; auto.
  rewrite Forall_forall. intros x Hx. apply in_seq in Hx. lia.
Qed.

Lemma res_inv_init count stride : res_inv count stride [] (res_init count stride).
Proof.
  constructor; simpl; auto.
  - apply sorted_seq.
  - rewrite app_nil_r. auto.
  - intros i w H. discriminate.
Qed.

Lemma remove_perm i l : NoDup l -> In i l -> Permutation l (i :: remove Nat.eq_dec i l).
Proof.
  induction l as [|x t IH]; simpl; intros Hnd Hin; [tauto|].
  inversion Hnd; subst.
  destruct (Nat.eq_dec i x) as [->|Hne].
  - rewrite notin_remove; auto.
  - destruct Hin as [->|Hin]; [congruence|].
    rewrite IH at 1; auto. apply perm_swap.
Qed.

Lemma inv_nodup c s h r : res_inv c s h r -> NoDup (r_free r ++ h).
Proof.
  intros [_ _ _ Hp _]. eapply Permutation_NoDup; [symmetry; exact Hp|]. apply seq_NoDup.
Qed.

Lemma res_history count stride ops : forall held r,
  res_inv count stride held r ->
  well_used held ops (snd (trace res_step r ops)) ->
  spec_history count stride held ops (snd (trace res_step r ops)).
Proof.
  induction ops as [|o ops IH]; intros held r Hinv; [simpl; constructor|].
  pose proof (inv_nodup Hinv) as Hnd.
  destruct Hinv as [Hc Hs Hso Hp Hw].
  destruct o as [|i|i]; simpl.
  - unfold res_alloc. destruct (r_free r) as [|i t] eqn:Hf.
    + specialize (IH held r). destruct (trace res_step r ops) as [r2 os]. simpl in *.
      intros Hu. apply sh_fail.
      * intros j Hj. eapply Permutation_in; [symmetry; exact Hp|]. apply in_seq. lia.
      * apply IH; auto. constructor; auto; rewrite ?Hf; auto.
    + set (r1 := mkRes (r_count r) (r_stride r) t (r_windows r)).
      specialize (IH (i :: held) r1).
      destruct (trace res_step r1 ops) as [r2 os]. simpl in *.
      intros Hu. apply sh_alloc.
      * split; [|split].
        -- assert (In i (seq 0 count)) as Hi
             by (eapply Permutation_in; [exact Hp|]; left; auto).
           apply in_seq in Hi. lia.
        -- inversion Hnd; subst. intro. apply H1. apply in_or_app. auto.
        -- intros j Hj.
           assert (In i (seq 0 count)) as Hi
             by (eapply Permutation_in; [exact Hp|]; left; auto).
           apply in_seq in Hi.
           assert (In j (i :: t ++ held)) as Hj'
             by (eapply Permutation_in; [symmetry; exact Hp|]; apply in_seq; lia).
           destruct Hj' as [->|Hj']; [lia|].
           apply in_app_or in Hj'. destruct Hj' as [Hj'|]; auto.
           inversion Hso; subst. rewrite Forall_forall in H2.
           specialize (H2 _ Hj'). lia.
      * apply IH; auto. subst r1. constructor; simpl; auto.
        -- inversion Hso; auto.
        -- rewrite <- Hp. rewrite Permutation_middle. auto.
  - set (r1 := res_free r i).
    specialize (IH (remove Nat.eq_dec i held) r1).
    destruct (trace res_step r1 ops) as [r2 os]. simpl in *.
    intros [Hin Hu]. apply sh_free. apply IH; auto.
    subst r1. unfold res_free. constructor; simpl; auto.
    + apply py_sort_sorted.
    + rewrite py_sort_perm, <- Hp, <- app_assoc. simpl.
      apply Permutation_app_head. symmetry. apply remove_perm; auto.
      apply NoDup_remove_1 with (a := i) in Hnd || idtac.
      clear -Hnd. induction (r_free r); simpl in Hnd; auto. inversion Hnd; auto.
  - unfold res_get_window.
    destruct (assoc i (r_windows r)) as [w|] eqn:Ha.
    + specialize (IH held r). destruct (trace res_step r ops) as [r2 os]. simpl in *.
      intros Hu. rewrite (Hw _ _ Ha). rewrite Hs. apply sh_win. apply IH; auto.
      constructor; auto.
    + set (r1 := mkRes _ _ _ ((i, _) :: _)).
      specialize (IH held r1).
      destruct (trace res_step r1 ops) as [r2 os]. simpl in *.
      intros Hu. rewrite Hs. apply sh_win. apply IH; auto.
      subst r1; constructor; simpl; auto.
      intros j w. simpl. destruct (Nat.eqb_spec j i) as [->|].
      * congruence.
      * apply Hw.
Qed.

Lemma resource_correct count stride ops :
  well_used [] ops (snd (trace res_step (res_init count stride) ops)) ->
  spec_history count stride [] ops (snd (trace res_step (res_init count stride) ops)).
Proof. apply res_history. apply res_inv_init. Qed.
