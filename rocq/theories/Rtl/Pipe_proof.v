(** A read-modify-write pipeline with an address hazard check: the data carried
    by every stage stays equal to the memory word it was read from. *)
From Verif Require Import Base.Prelude.
Open Scope Z_scope.

Lemma NoDup_prefix A (a b : list A) : NoDup (a ++ b) -> NoDup a.
Proof.
  induction a as [|x a IH]; simpl; intros H; [constructor|].
  inversion H; subst. constructor; auto. intro Hi. apply H2. apply in_or_app; auto.
Qed.

Section Pipe.
  Variables (O R : Type) (key : O -> Z).

  Definition keys (p : list (option (O * R))) : list Z :=
    flat_map (fun st => match st with Some (o, _) => [key o] | None => [] end) p.

  Definition coh (ram : Z -> R) (p : list (option (O * R))) : Prop :=
    (forall o d, In (Some (o, d)) p -> d = ram (key o)) /\ NoDup (keys p).

  Lemma keys_app a b : keys (a ++ b) = keys a ++ keys b.
  Proof. apply flat_map_app. Qed.

  Lemma in_keys o d p : In (Some (o, d)) p -> In (key o) (keys p).
  Proof.
    intros H. apply in_flat_map. exists (Some (o, d)). split; auto. simpl; auto.
  Qed.

  Lemma keys_in k p : In k (keys p) -> exists o d, In (Some (o, d)) p /\ key o = k.
  Proof.
    intros H. apply in_flat_map in H. destruct H as ([[o d]|] & H1 & H2); simpl in H2.
    - destruct H2 as [<-|[]]. eauto.
    - destruct H2.
  Qed.

  Lemma pipe_split (p : list (option (O * R))) :
    p <> [] -> p = removelast p ++ [last p None].
  Proof. intros; apply app_removelast_last; auto. Qed.

  Lemma coh_last ram p o d :
    p <> [] -> coh ram p -> last p None = Some (o, d) ->
    d = ram (key o) /\ ~ In (key o) (keys (removelast p)).
  Proof.
    intros Hp [H1 H2] E. rewrite (pipe_split Hp), E in H1, H2. split.
    - apply H1. apply in_or_app. right. simpl; auto.
    - rewrite keys_app in H2. simpl in H2.
      apply NoDup_remove_2 in H2. rewrite app_nil_r in H2. exact H2.
  Qed.

  Lemma keys_removelast p k : In k (keys (removelast p)) -> In k (keys p).
  Proof.
    intros H. destruct p as [|a p]; [destruct H|].
    rewrite (@pipe_split (a :: p)) by discriminate.
    rewrite keys_app. apply in_or_app; auto.
  Qed.

  Lemma coh_step ram ram' p new :
    p <> [] -> coh ram p ->
    (forall k, (forall o d, last p None = Some (o, d) -> k <> key o) -> ram' k = ram k) ->
    (forall o d, new = Some (o, d) -> d = ram (key o) /\ ~ In (key o) (keys p)) ->
    coh ram' (new :: removelast p).
  Proof.
    intros Hp Hc Hr Hn. destruct Hc as [H1 H2]. split.
    - intros o d [E|Hin].
      + destruct (Hn _ _ E) as [-> Hk]. symmetry. apply Hr. intros o' d' El Ek.
        apply Hk. rewrite Ek. apply in_keys with d'.
        rewrite (pipe_split Hp), El. apply in_or_app; simpl; auto.
      + assert (Hin' : In (Some (o, d)) p).
        { rewrite (pipe_split Hp). apply in_or_app; auto. }
        rewrite (H1 _ _ Hin'). symmetry. apply Hr. intros o' d' El Ek.
        destruct (coh_last (o := o') (d := d') Hp (conj H1 H2) El) as [_ Hni].
        apply Hni. rewrite <- Ek. eapply in_keys; eauto.
    - simpl. destruct new as [[o d]|]; simpl.
      + destruct (Hn _ _ eq_refl) as [_ Hk]. constructor.
        * intro H. apply Hk, keys_removelast, H.
        * rewrite (pipe_split Hp), keys_app in H2. apply NoDup_prefix in H2. exact H2.
      + rewrite (pipe_split Hp), keys_app in H2. apply NoDup_prefix in H2. exact H2.
  Qed.

  Lemma coh_init ram n : coh ram (repeat None n).
  Proof.
    split.
    - intros o d H. apply repeat_spec in H. discriminate.
    - induction n; simpl; [constructor|exact IHn].
  Qed.

  (** Number of operations of a kind in the pipe. *)
  Definition cnt (f : O -> bool) (p : list (option (O * R))) : nat :=
    length (filter (fun st => match st with Some (o, _) => f o | None => false end) p).

  Lemma cnt_app f a b : cnt f (a ++ b) = (cnt f a + cnt f b)%nat.
  Proof.
    unfold cnt. induction a as [|x a IH]; simpl; auto.
    destruct x as [[o d]|]; auto. destruct (f o); simpl; rewrite IH; auto.
  Qed.

  Lemma cnt_split f p :
    p <> [] -> cnt f p = (cnt f (removelast p) + cnt f [last p None])%nat.
  Proof. intros Hp. rewrite (pipe_split Hp) at 1. apply cnt_app. Qed.

  Lemma cnt_zero f p :
    existsb (fun st => match st with Some (o, _) => f o | None => false end) p = false <->
    cnt f p = 0%nat.
  Proof.
    unfold cnt. induction p as [|x p IH]; simpl; [tauto|].
    destruct x as [[o d]|]; simpl; auto. destruct (f o); simpl; [split; discriminate|auto].
  Qed.

  Lemma cnt_repeat f n : cnt f (repeat None n) = 0%nat.
  Proof. induction n; simpl; auto. Qed.

  (** Contents of the pipe, oldest first. *)
  Definition inflight (p : list (option (O * R))) : list O :=
    rev (flat_map (fun st => match st with Some (o, _) => [o] | None => [] end) p).

  Lemma inflight_split p :
    p <> [] ->
    inflight p = match last p None with Some (o, _) => [o] | None => [] end
                 ++ inflight (removelast p).
  Proof.
    intros Hp. rewrite (pipe_split Hp) at 1. unfold inflight.
    rewrite flat_map_app, rev_app_distr. simpl. rewrite app_nil_r.
    destruct (last p None) as [[o d]|]; reflexivity.
  Qed.

  Lemma inflight_cons st p :
    inflight (st :: p) = inflight p ++ match st with Some (o, _) => [o] | None => [] end.
  Proof. unfold inflight. simpl. rewrite rev_app_distr. destruct st as [[o d]|]; reflexivity. Qed.

  Lemma inflight_repeat n : inflight (repeat None n) = [].
  Proof. unfold inflight. induction n; simpl; auto. Qed.
End Pipe.
