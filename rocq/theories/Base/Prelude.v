(** Shared imports, list update and function update.  No claims live here. *)
From Coq Require Export List Bool Arith ZArith NArith Lia.
From Coq Require Export ZifyBool ZifyNat ZifyN.
Export ListNotations.

#[export] Set Implicit Arguments.

(** [lset l i x]: the list [l] with element [i] replaced by [x]
    (Python [l[i] = x] for an in-range [i]). *)
Fixpoint lset {A} (l : list A) (i : nat) (x : A) : list A :=
  match l, i with
  | [], _ => []
  | _ :: t, O => x :: t
  | h :: t, S j => h :: lset t j x
  end.

(** Function update, used for memories and register files. *)
Definition zupd {A} (f : Z -> A) (k : Z) (v : A) : Z -> A :=
  fun x => if Z.eqb x k then v else f x.

Definition nupd {A} (f : nat -> A) (k : nat) (v : A) : nat -> A :=
  fun x => if Nat.eqb x k then v else f x.

Lemma zupd_same {A} (f : Z -> A) k v : zupd f k v k = v.
Proof. unfold zupd. rewrite Z.eqb_refl. reflexivity. Qed.

Lemma zupd_other {A} (f : Z -> A) k v x : x <> k -> zupd f k v x = f x.
Proof. unfold zupd. intro H. destruct (Z.eqb_spec x k); congruence. Qed.

Lemma nupd_same {A} (f : nat -> A) k v : nupd f k v k = v.
Proof. unfold nupd. rewrite Nat.eqb_refl. reflexivity. Qed.

Lemma nupd_other {A} (f : nat -> A) k v x : x <> k -> nupd f k v x = f x.
Proof. unfold nupd. intro H. destruct (Nat.eqb_spec x k); congruence. Qed.

Lemma lset_length {A} (l : list A) i x : length (lset l i x) = length l.
Proof. revert i; induction l; intros [|i]; simpl; auto. Qed.

Lemma lset_nth_same {A} (l : list A) i x d :
  i < length l -> nth i (lset l i x) d = x.
Proof.
  revert i; induction l; intros [|i] H; simpl in *; try lia; auto.
  apply IHl; lia.
Qed.

Lemma lset_nth_other {A} (l : list A) i j x d :
  i <> j -> nth j (lset l i x) d = nth j l d.
Proof.
  revert i j; induction l; intros [|i] [|j] H; simpl; try congruence; auto.
Qed.

Lemma lset_nth {A} (l : list A) i j x d :
  i < length l ->
  nth j (lset l i x) d = if Nat.eqb j i then x else nth j l d.
Proof.
  intros H. destruct (Nat.eqb_spec j i) as [->|].
  - apply lset_nth_same; auto.
  - apply lset_nth_other; auto.
Qed.

Lemma lset_nth_error_other {A} (l : list A) i j x :
  i <> j -> nth_error (lset l i x) j = nth_error l j.
Proof.
  revert i j; induction l; intros [|i] [|j] H; simpl; try congruence; auto.
Qed.

Lemma lset_nth_error_same {A} (l : list A) i x :
  i < length l -> nth_error (lset l i x) i = Some x.
Proof.
  revert i; induction l; intros [|i] H; simpl in *; try lia; auto.
  apply IHl; lia.
Qed.

(** Running a step function over a list of inputs. *)
Fixpoint run {S I} (step : S -> I -> S) (s : S) (is : list I) : S :=
  match is with
  | [] => s
  | i :: t => run step (step s i) t
  end.

Lemma run_app {S I} (step : S -> I -> S) s a b :
  run step s (a ++ b) = run step (run step s a) b.
Proof. revert s; induction a; simpl; intros; auto. Qed.

(** Invariant rule: an invariant of every step holds after every run. *)
Lemma run_invariant {S I} (step : S -> I -> S) (Inv : S -> Prop) :
  (forall s i, Inv s -> Inv (step s i)) ->
  forall is s, Inv s -> Inv (run step s is).
Proof. intros H is; induction is; simpl; intros; auto. Qed.

Lemma run_invariant_in {S I} (step : S -> I -> S) (Inv : S -> Prop) (P : I -> Prop) :
  (forall s i, P i -> Inv s -> Inv (step s i)) ->
  forall is s, Forall P is -> Inv s -> Inv (run step s is).
Proof.
  intros H is; induction is; simpl; intros s HF HI; auto.
  inversion HF; subst. apply IHis; auto.
Qed.

(** Running a machine with outputs: outputs are collected in order. *)
Fixpoint trace {S I O} (step : S -> I -> S * O) (s : S) (is : list I) : S * list O :=
  match is with
  | [] => (s, [])
  | i :: t =>
      let '(s1, o) := step s i in
      let '(s2, os) := trace step s1 t in (s2, o :: os)
  end.

Lemma trace_app {S I O} (step : S -> I -> S * O) s a b :
  trace step s (a ++ b) =
  let '(s1, o1) := trace step s a in
  let '(s2, o2) := trace step s1 b in (s2, o1 ++ o2).
Proof.
  revert s; induction a as [|i a IH]; intros s; simpl.
  - destruct (trace step s b); reflexivity.
  - destruct (step s i) as [s1 o]. rewrite IH.
    destruct (trace step s1 a) as [s2 o1].
    destruct (trace step s2 b) as [s3 o2]. reflexivity.
Qed.

Lemma trace_length {S I O} (step : S -> I -> S * O) is : forall s,
  length (snd (trace step s is)) = length is.
Proof.
  induction is as [|i t IH]; intros s; simpl; auto.
  destruct (step s i) as [s1 o]. specialize (IH s1).
  destruct (trace step s1 t); simpl in *. auto.
Qed.

(** Split conjunctions only (not records). *)
Ltac splits := repeat match goal with |- _ /\ _ => split end.
