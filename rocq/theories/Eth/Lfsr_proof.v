(** The parallel LFSR computes [DATA_WIDTH] clocks of the serial one. *)
From Verif Require Import Base.Prelude Eth.Lfsr_model Eth.Lfsr_spec.
Local Open Scope nat_scope.

(** * Bits of assembled vectors *)

Lemma one_bit i j : Z.testbit (Z.shiftl 1 (Z.of_nat i)) (Z.of_nat j) = Nat.eqb i j.
Proof.
  rewrite Z.shiftl_spec by lia.
  destruct (Nat.eqb_spec i j) as [->|H].
  - rewrite Z.sub_diag. reflexivity.
  - destruct (Z.ltb_spec (Z.of_nat j) (Z.of_nat i)).
    + apply Z.testbit_neg_r. lia.
    + change 1%Z with (2 ^ 0)%Z. apply Z.pow2_bits_false. lia.
Qed.

Lemma assemble_from (f : nat -> bool) : forall n a v j,
  Z.testbit (fold_left (fun v i => if f i then Z.lor v (Z.shiftl 1 (Z.of_nat i)) else v) (seq a n) v) (Z.of_nat j) =
  Z.testbit v (Z.of_nat j) || ((a <=? j) && (j <? a + n) && f j).
Proof.
  induction n as [|n IH]; intros a v j; cbn [seq fold_left].
  - replace ((a <=? j) && (j <? a + 0)) with false; [rewrite orb_false_r; reflexivity|].
    symmetry. apply not_true_is_false. rewrite andb_true_iff, Nat.leb_le, Nat.ltb_lt. lia.
  - rewrite IH.
    destruct (Nat.eq_dec a j) as [->|H].
    + replace (S j <=? j) with false by (symmetry; apply Nat.leb_gt; lia).
      rewrite Nat.leb_refl. replace (j <? j + S n) with true by (symmetry; apply Nat.ltb_lt; lia).
      cbn [andb]. destruct (f j).
      * rewrite Z.lor_spec, one_bit, Nat.eqb_refl. rewrite !orb_true_r. reflexivity.
      * reflexivity.
    + replace ((S a <=? j) && (j <? S a + n)) with ((a <=? j) && (j <? a + S n)).
      * f_equal. destruct (f a); auto. rewrite Z.lor_spec, one_bit.
        destruct (Nat.eqb_spec a j); [easy|]. apply orb_false_r.
      * apply Bool.eq_iff_eq_true. rewrite !andb_true_iff, !Nat.leb_le, !Nat.ltb_lt. lia.
Qed.

Lemma assemble_bit n f j : Z.testbit (assemble n f) (Z.of_nat j) = (j <? n) && f j.
Proof. unfold assemble. rewrite assemble_from, Z.bits_0. reflexivity. Qed.

Lemma assemble_nonneg n (f : nat -> bool) : (0 <= assemble n f)%Z.
Proof.
  unfold assemble. generalize (seq 0 n) as l. intros l.
  assert (H : forall v, (0 <= v)%Z -> (0 <= fold_left (fun v i => if f i then Z.lor v (Z.shiftl 1 (Z.of_nat i)) else v) l v)%Z).
  { induction l as [|i l IH]; intros v Hv; cbn; auto. apply IH. destruct (f i); auto.
    apply Z.lor_nonneg. split; auto. apply Z.shiftl_nonneg. lia. }
  apply H. lia.
Qed.

Lemma map_ext_seq {A} (f g : nat -> A) a n : (forall i, a <= i < a + n -> f i = g i) ->
  map f (seq a n) = map g (seq a n).
Proof. intros H. apply map_ext_in. intros i Hi. apply in_seq in Hi. apply H. lia. Qed.

Lemma vec_assemble n f : vec n (assemble n f) = map f (seq 0 n).
Proof.
  unfold vec. apply map_ext_seq. intros i Hi. rewrite assemble_bit.
  replace (i <? n) with true by (symmetry; apply Nat.ltb_lt; lia). reflexivity.
Qed.

Lemma vec_length n x : length (vec n x) = n.
Proof. unfold vec. rewrite map_length, seq_length. reflexivity. Qed.

Lemma nth_map_seq {A} (f : nat -> A) n i d : i < n -> nth i (map f (seq 0 n)) d = f i.
Proof.
  intros H. rewrite nth_indep with (d' := f 0) by (rewrite map_length, seq_length; auto).
  rewrite map_nth. rewrite seq_nth; auto.
Qed.

Lemma vec_nth n x i : nth i (vec n x) false = (i <? n) && Z.testbit x (Z.of_nat i).
Proof.
  destruct (Nat.ltb_spec i n).
  - unfold vec. rewrite nth_map_seq; auto.
  - apply nth_overflow. rewrite vec_length. auto.
Qed.

Lemma list_nth_ext {A} (d : A) (l m : list A) : length l = length m ->
  (forall i, i < length l -> nth i l d = nth i m d) -> l = m.
Proof. intros. eapply nth_ext; eauto. Qed.

Lemma vec_mirror n x : vec n (mirror n x) = rev (vec n x).
Proof.
  apply list_nth_ext with (d := false).
  - rewrite rev_length, !vec_length. reflexivity.
  - intros i Hi. rewrite vec_length in Hi. rewrite rev_nth by (rewrite vec_length; auto).
    rewrite !vec_nth, vec_length. unfold mirror. rewrite assemble_bit.
    replace (i <? n) with true by (symmetry; apply Nat.ltb_lt; auto).
    replace (n - S i <? n) with true by (symmetry; apply Nat.ltb_lt; lia). cbn.
    replace (n - i - 1) with (n - S i) by lia. reflexivity.
Qed.

(** * Inner products *)

Fixpoint dot (a b : list bool) : bool :=
  match a, b with
  | x :: a', y :: b' => xorb (x && y) (dot a' b')
  | _, _ => false
  end.

Lemma dot_app a b : forall a' b', length a = length b -> dot (a ++ a') (b ++ b') = xorb (dot a b) (dot a' b').
Proof.
  revert b. induction a as [|x a IH]; intros [|y b] a' b' L; cbn in *; try discriminate.
  - destruct (dot a' b'); reflexivity.
  - rewrite IH by lia. rewrite xorb_assoc. reflexivity.
Qed.

Lemma dot_rev a : forall b, length a = length b -> dot (rev a) (rev b) = dot a b.
Proof.
  induction a as [|x a IH]; intros [|y b] L; cbn in *; try discriminate; auto.
  rewrite dot_app by (rewrite !rev_length; lia). cbn. rewrite IH by lia.
  rewrite xorb_false_r. apply xorb_comm.
Qed.

Lemma dot_seq (f g : nat -> bool) : forall n a,
  dot (map f (seq a n)) (map g (seq a n)) = xor_all (map (fun i => f i && g i) (seq a n)).
Proof. induction n as [|n IH]; intros a; cbn; auto. rewrite IH. reflexivity. Qed.

Lemma fold_xor (f : nat -> bool) : forall l acc,
  fold_left (fun acc i => xorb acc (f i)) l acc = xorb acc (xor_all (map f l)).
Proof.
  induction l as [|i l IH]; intros acc; cbn.
  - rewrite xorb_false_r. reflexivity.
  - rewrite IH. unfold xor_all. cbn. rewrite xorb_assoc. reflexivity.
Qed.

Lemma dot_lxor n s a b :
  dot (vec n s) (vec n (Z.lxor a b)) = xorb (dot (vec n s) (vec n a)) (dot (vec n s) (vec n b)).
Proof.
  unfold vec. generalize 0. induction n as [|n IH]; intros k; cbn; auto.
  rewrite IH, Z.lxor_spec.
  destruct (Z.testbit s _), (Z.testbit a _), (Z.testbit b _); cbn; try reflexivity;
  destruct (dot _ _), (dot _ _); reflexivity.
Qed.

Lemma dot_zero n s : dot (vec n s) (vec n 0) = false.
Proof.
  unfold vec. generalize 0. induction n as [|n IH]; intros k; cbn; auto.
  rewrite IH, Z.bits_0, andb_false_r. reflexivity.
Qed.

Lemma dot_one_from n s i : forall a, a <= i < a + n ->
  dot (map (fun i => Z.testbit s (Z.of_nat i)) (seq a n))
      (map (fun j => Z.testbit (Z.shiftl 1 (Z.of_nat i)) (Z.of_nat j)) (seq a n)) = Z.testbit s (Z.of_nat i).
Proof.
  induction n as [|n IH]; intros a H; [lia|]. cbn [seq map dot].
  rewrite one_bit. destruct (Nat.eqb_spec i a) as [->|Hn].
  - rewrite andb_true_r.
    assert (E : forall n b, a < b -> dot (map (fun i => Z.testbit s (Z.of_nat i)) (seq b n))
      (map (fun j => Z.testbit (Z.shiftl 1 (Z.of_nat a)) (Z.of_nat j)) (seq b n)) = false).
    { clear. induction n as [|n IH]; intros b Hb; cbn [seq map dot]; auto.
      rewrite one_bit. destruct (Nat.eqb_spec a b); [lia|]. rewrite andb_false_r, IH; auto. }
    rewrite E by lia. apply xorb_false_r.
  - rewrite andb_false_r. rewrite IH by lia. apply xorb_false_l.
Qed.

Lemma dot_one n s i : i < n -> dot (vec n s) (vec n (Z.shiftl 1 (Z.of_nat i))) = Z.testbit s (Z.of_nat i).
Proof. intros H. apply dot_one_from. lia. Qed.

Lemma vec_split a b x y : (forall i, i < a -> Z.testbit x (Z.of_nat i) = Z.testbit y (Z.of_nat i)) ->
  vec (a + b) x = vec a y ++ map (fun i => Z.testbit x (Z.of_nat (i + a))) (seq 0 b).
Proof.
  intros H. unfold vec. rewrite seq_app, map_app. f_equal.
  - apply map_ext_seq. intros i Hi. apply H. lia.
  - cbn [plus]. clear H. assert (E : forall k, map (fun i => Z.testbit x (Z.of_nat i)) (seq (k + a) b) = map (fun i => Z.testbit x (Z.of_nat (i + a))) (seq k b)).
    { induction b as [|b IH]; intros k; cbn; auto. f_equal. apply (IH (S k)). }
    apply (E 0).
Qed.

Lemma vcat_low w hi lo i : i < w -> (0 <= lo)%Z ->
  Z.testbit (vcat w hi lo) (Z.of_nat i) = Z.testbit lo (Z.of_nat i).
Proof.
  intros H Hl. unfold vcat. rewrite Z.lor_spec, Z.shiftl_spec by lia.
  rewrite Z.testbit_neg_r by lia. reflexivity.
Qed.

Lemma vcat_high w hi lo i : (0 <= lo < 2 ^ Z.of_nat w)%Z ->
  Z.testbit (vcat w hi lo) (Z.of_nat (i + w)) = Z.testbit hi (Z.of_nat i).
Proof.
  intros H. unfold vcat. rewrite Z.lor_spec, Z.shiftl_spec by lia.
  replace (Z.of_nat (i + w) - Z.of_nat w)%Z with (Z.of_nat i) by lia.
  replace (Z.testbit lo (Z.of_nat (i + w))) with false; [apply orb_false_r|].
  symmetry. rewrite <- (Z.mod_small lo (2 ^ Z.of_nat w)) by auto.
  apply Z.mod_pow2_bits_high. lia.
Qed.

(** What a pair of masks selects. *)
Definition ev (c : lcfg) (s d : Z) (m : masks) : bool :=
  xorb (dot (vec (l_w c) s) (vec (l_w c) (fst m))) (dot (vec (l_d c) d) (vec (l_d c) (snd m))).

Definition small (c : lcfg) (m : masks) : Prop := (0 <= fst m < 2 ^ Z.of_nat (l_w c))%Z.

Lemma reduce_ev c m s d : small c m -> (0 <= s < 2 ^ Z.of_nat (l_w c))%Z -> reduce_bit c m s d = ev c s d m.
Proof.
  intros Hm Hs. unfold reduce_bit, xor_reduce, ev. rewrite fold_xor, xorb_false_l.
  replace (map (fun i => Z.testbit (Z.land (vcat (l_w c) d s) (vcat (l_w c) (snd m) (fst m))) (Z.of_nat i)) (seq 0 (l_w c + l_d c)))
    with (map (fun i => Z.testbit (vcat (l_w c) d s) (Z.of_nat i) && Z.testbit (vcat (l_w c) (snd m) (fst m)) (Z.of_nat i)) (seq 0 (l_w c + l_d c)))
    by (apply map_ext; intros; symmetry; apply Z.land_spec).
  rewrite <- (dot_seq (fun i => Z.testbit (vcat (l_w c) d s) (Z.of_nat i))
                      (fun i => Z.testbit (vcat (l_w c) (snd m) (fst m)) (Z.of_nat i))).
  change (dot (vec (l_w c + l_d c) (vcat (l_w c) d s)) (vec (l_w c + l_d c) (vcat (l_w c) (snd m) (fst m))) = 
          xorb (dot (vec (l_w c) s) (vec (l_w c) (fst m))) (dot (vec (l_d c) d) (vec (l_d c) (snd m)))).
  rewrite (@vec_split (l_w c) (l_d c) _ s) by (intros; apply vcat_low; lia).
  rewrite (@vec_split (l_w c) (l_d c) (vcat (l_w c) (snd m) (fst m)) (fst m)) by (intros; apply vcat_low; auto; apply Hm).
  rewrite dot_app by (rewrite !vec_length; auto). f_equal. f_equal.
  - apply map_ext. intros i. apply vcat_high. auto.
  - apply map_ext. intros i. apply vcat_high. auto.
Qed.

Lemma fold_if_xor (p f : nat -> bool) : forall l acc,
  fold_left (fun r i => if p i then xorb r (f i) else r) l acc = xorb acc (xor_all (map (fun i => f i && p i) l)).
Proof.
  induction l as [|i l IH]; intros acc; cbn [fold_left map].
  - cbn. rewrite xorb_false_r. reflexivity.
  - rewrite IH. change (xor_all ((f i && p i) :: map (fun i => f i && p i) l))
      with (xorb (f i && p i) (xor_all (map (fun i => f i && p i) l))).
    destruct (p i).
    + rewrite andb_true_r, xorb_assoc. reflexivity.
    + rewrite andb_false_r, xorb_false_l. reflexivity.
Qed.

Lemma loop_ev c m s d : small c m -> loop_bit c m s d = ev c s d m.
Proof.
  intros Hm. unfold loop_bit, ev. cbv zeta. rewrite !fold_if_xor, xorb_false_l.
  f_equal.
  - unfold vec. rewrite dot_seq. f_equal. apply map_ext_seq. intros i Hi.
    rewrite vcat_low by (apply Hm || lia). reflexivity.
  - unfold vec. rewrite dot_seq. f_equal. apply map_ext_seq. intros i Hi.
    rewrite vcat_high by apply Hm. reflexivity.
Qed.

Lemma out_ev c n s d : small c (lfsr_mask c n) -> (0 <= s < 2 ^ Z.of_nat (l_w c))%Z ->
  out_bit c n s d = ev c s d (lfsr_mask c n).
Proof. intros H1 H2. unfold out_bit. destruct (l_red c); [apply reduce_ev|apply loop_ev]; auto. Qed.

Lemma ev_mxor c s d a b : ev c s d (mxor a b) = xorb (ev c s d a) (ev c s d b).
Proof.
  unfold ev, mxor. cbn [fst snd]. rewrite !dot_lxor.
  destruct (dot _ _), (dot _ _), (dot _ _), (dot _ _); reflexivity.
Qed.

Lemma ev_zero c s d : ev c s d (0, 0)%Z = false.
Proof. unfold ev. cbn [fst snd]. rewrite !dot_zero. reflexivity. Qed.

Lemma ev_data c s d k : k < l_d c -> ev c s d (0%Z, Z.shiftl 1 (Z.of_nat k)) = Z.testbit d (Z.of_nat k).
Proof. intros H. unfold ev. cbn [fst snd]. rewrite dot_zero, dot_one by auto. apply xorb_false_l. Qed.

(** * The simulation *)

Lemma nth_ev c s d l i : nth i (map (ev c s d) l) false = ev c s d (nth i l (0, 0)%Z).
Proof. rewrite <- (ev_zero c s d) at 1. apply map_nth. Qed.

Lemma removelast_length {A} (l : list A) : length (removelast l) = length l - 1.
Proof.
  induction l as [|x l IH]; auto. destruct l as [|y l]; auto.
  change (removelast (x :: y :: l)) with (x :: removelast (y :: l)). cbn [length] in *. lia.
Qed.

Lemma shift_in_length {A} (x : A) l n : 0 < n -> length l = n -> length (shift_in x l) = n.
Proof. intros H E. unfold shift_in. cbn [length]. rewrite removelast_length. lia. Qed.

Lemma map_removelast {A B} (f : A -> B) l : map f (removelast l) = removelast (map f l).
Proof.
  induction l as [|x l IH]; auto. destruct l as [|y l]; auto.
  change (removelast (x :: y :: l)) with (x :: removelast (y :: l)).
  change (map f (x :: y :: l)) with (f x :: f y :: map f l).
  change (removelast (f x :: f y :: map f l)) with (f x :: removelast (f y :: map f l)).
  cbn [map] in *. rewrite IH. reflexivity.
Qed.

Lemma removelast_nth {A} (d : A) l i : i < length l - 1 -> nth i (removelast l) d = nth i l d.
Proof.
  revert i. induction l as [|x l IH]; intros i H; [cbn in H; lia|].
  destruct l as [|y l]; [cbn in H; lia|].
  change (removelast (x :: y :: l)) with (x :: removelast (y :: l)).
  destruct i; auto. cbn [nth]. apply IH. cbn [length] in *. lia.
Qed.

Lemma firstn_removelast {A} (l : list A) : firstn (length l - 1) l = removelast l.
Proof.
  induction l as [|x l IH]; auto. destruct l as [|y l]; auto.
  change (removelast (x :: y :: l)) with (x :: removelast (y :: l)). rewrite <- IH.
  cbn [length]. replace (S (S (length l)) - 1) with (S (length l)) by lia.
  replace (S (length l) - 1) with (length l) by lia. reflexivity.
Qed.

Lemma fib_taps_ev c s d l : forall js v,
  ev c s d (fold_left (fun v j => if Z.testbit (l_poly c) (Z.of_nat j) then mxor (nth (j - 1) l (0, 0)%Z) v else v) js v) =
  xorb (ev c s d v) (xor_all (map (fun j => nth (j - 1) (map (ev c s d) l) false)
    (filter (fun j => Z.testbit (l_poly c) (Z.of_nat j)) js))).
Proof.
  induction js as [|j js IH]; intros v; cbn [fold_left filter].
  - cbn. rewrite xorb_false_r. reflexivity.
  - rewrite IH. destruct (Z.testbit (l_poly c) (Z.of_nat j)); auto.
    cbn [map]. change (xor_all (?x :: ?l)) with (xorb x (xor_all l)).
    rewrite ev_mxor, nth_ev.
    rewrite (xorb_comm (ev c s d (nth _ _ _))), xorb_assoc. reflexivity.
Qed.

(** Serial clock of a configuration. *)
Definition clock (c : lcfg) : list bool -> bool -> list bool * bool :=
  if l_galois c then gal_clock (l_w c) (l_poly c) (l_ff c) else fib_clock (l_w c) (l_poly c) (l_ff c).

Lemma gal_taps_length c l v : length l = l_w c -> length (gal_taps c l v) = l_w c.
Proof. intros H. unfold gal_taps. rewrite map_length, combine_length, seq_length. lia. Qed.

Lemma gal_taps_nth c l v i : length l = l_w c -> i < l_w c ->
  nth i (gal_taps c l v) (0, 0)%Z =
  if (0 <? i) && Z.testbit (l_poly c) (Z.of_nat i) then mxor (nth i l (0, 0)%Z) v else nth i l (0, 0)%Z.
Proof.
  intros HL Hi. unfold gal_taps.
  set (g := fun '(j, x) => if (0 <? j) && Z.testbit (l_poly c) (Z.of_nat j) then mxor x v else x).
  rewrite nth_indep with (d' := g (0, (0, 0)%Z)) by (rewrite map_length, combine_length, seq_length; lia).
  rewrite map_nth. rewrite combine_nth by (rewrite seq_length; auto). rewrite seq_nth by auto. reflexivity.
Qed.

Lemma step_sim c s d k l o : 0 < l_w c -> k < l_d c -> length l = l_w c ->
  forall l' o', mask_step c (Z.shiftl 1 (Z.of_nat k)) (l, o) = (l', o') ->
  length l' = l_w c /\
  map (ev c s d) l' = fst (clock c (map (ev c s d) l) (Z.testbit d (Z.of_nat k))) /\
  map (ev c s d) o' = shift_in (snd (clock c (map (ev c s d) l) (Z.testbit d (Z.of_nat k)))) (map (ev c s d) o).
Proof.
  intros HW Hk HL l' o' E. unfold mask_step in E. injection E as <- <-.
  set (dm := Z.shiftl 1 (Z.of_nat k)) in *.
  set (v0 := nth (l_w c - 1) l (0, 0)%Z).
  set (v := (fst v0, Z.lxor (snd v0) dm)).
  assert (V0 : ev c s d v = xorb (Z.testbit d (Z.of_nat k)) (nth (l_w c - 1) (map (ev c s d) l) false)).
  { rewrite nth_ev. fold v0. replace v with (mxor v0 (0%Z, dm)).
    - rewrite ev_mxor. unfold dm. rewrite ev_data by auto. apply xorb_comm.
    - unfold mxor, v. cbn [fst snd]. rewrite Z.lxor_0_r. reflexivity. }
  unfold clock. destruct (l_galois c).
  - set (w := if l_ff c then (0%Z, dm) else v).
    assert (VW : ev c s d w = if l_ff c then Z.testbit d (Z.of_nat k) else ev c s d v).
    { unfold w. destruct (l_ff c); auto. apply ev_data. auto. }
    assert (HS : length (shift_in w l) = l_w c) by (apply shift_in_length; auto).
    split; [apply gal_taps_length; auto|].
    unfold gal_clock. cbn [fst snd]. rewrite <- V0. split.
    + apply list_nth_ext with (d := false).
      { rewrite !map_length, seq_length. apply gal_taps_length; auto. }
      intros i Hi. rewrite map_length, gal_taps_length in Hi by auto.
      rewrite nth_map_seq by auto. rewrite nth_ev, gal_taps_nth by auto.
      destruct i as [|i]; [cbn; rewrite VW; reflexivity|].
      cbn [Nat.ltb Nat.leb andb].
      assert (N : nth (S i) (shift_in w l) (0, 0)%Z = nth i l (0, 0)%Z).
      { unfold shift_in. cbn [nth]. apply (@removelast_nth masks). rewrite HL. clear - Hi. lia. }
      rewrite nth_ev. destruct (Z.testbit (l_poly c) (Z.of_nat (S i))); cbn [andb].
      * rewrite ev_mxor, VW. rewrite <- N. reflexivity.
      * rewrite xorb_false_r. rewrite <- N. reflexivity.
    + unfold shift_in. cbn [map]. rewrite map_removelast. reflexivity.
  - set (v1 := fib_taps c l v).
    assert (V1 : ev c s d v1 = snd (fib_clock (l_w c) (l_poly c) (l_ff c) (map (ev c s d) l) (Z.testbit d (Z.of_nat k)))).
    { unfold v1, fib_taps, fib_clock, tapped. rewrite fib_taps_ev, V0. cbn [snd]. rewrite xorb_assoc. reflexivity. }
    set (w := if l_ff c then (0%Z, dm) else v1).
    assert (VW : ev c s d w = if l_ff c then Z.testbit d (Z.of_nat k) else ev c s d v1).
    { unfold w. destruct (l_ff c); auto. apply ev_data. auto. }
    split; [apply shift_in_length; auto|].
    split.
    + unfold shift_in. cbn [map]. rewrite VW, V1, map_removelast.
      unfold fib_clock. cbn [fst snd]. f_equal.
      rewrite <- firstn_removelast, map_length, HL. reflexivity.
    + unfold shift_in. cbn [map]. rewrite V1, map_removelast. reflexivity.
Qed.

(** The first [k] bits of [d], most significant first. *)
Lemma rev_vec_S k d : rev (vec (S k) d) = Z.testbit d (Z.of_nat k) :: rev (vec k d).
Proof.
  unfold vec. rewrite seq_S, map_app, rev_app_distr. reflexivity.
Qed.

Fixpoint shifts {A} (xs : list A) (l : list A) : list A :=
  match xs with [] => l | x :: xs' => shifts xs' (shift_in x l) end.

Lemma loop_sim c s d : 0 < l_w c -> forall k l o l' o', k <= l_d c -> length l = l_w c ->
  mask_loop k c (l, o) = (l', o') ->
  length l' = l_w c /\
  map (ev c s d) l' = fst (trace (clock c) (map (ev c s d) l) (rev (vec k d))) /\
  map (ev c s d) o' = shifts (snd (trace (clock c) (map (ev c s d) l) (rev (vec k d)))) (map (ev c s d) o).
Proof.
  intros HW. induction k as [|k IH]; intros l o l' o' Hk HL E.
  - cbn in E. injection E as <- <-. cbn. auto.
  - cbn [mask_loop] in E. destruct (mask_step c (Z.shiftl 1 (Z.of_nat k)) (l, o)) as [l1 o1] eqn:E1.
    destruct (@step_sim c s d k l o HW Hk HL _ _ E1) as (L1 & S1 & O1).
    destruct (IH l1 o1 l' o' ltac:(lia) L1 E) as (L2 & S2 & O2).
    rewrite rev_vec_S. cbn [trace].
    destruct (clock c (map (ev c s d) l) (Z.testbit d (Z.of_nat k))) as [r1 b1]. cbn [fst snd] in *.
    rewrite S1 in S2, O2. rewrite O1 in O2.
    destruct (trace (clock c) r1 (rev (vec k d))) as [r2 bs]. cbn [fst snd] in *. auto.
Qed.

Lemma shifts_full {A} (xs : list A) : forall l, length xs = length l -> shifts xs l = rev xs.
Proof.
  assert (G : forall (xs a b : list A), length xs = length b -> shifts xs (a ++ b) = rev xs ++ a).
  { clear. induction xs as [|x xs IH]; intros a b L; cbn in L.
    - destruct b; [|discriminate]. cbn. apply app_nil_r.
    - destruct b as [|y b _] using rev_ind; [discriminate|]. rewrite app_length in L. cbn in L.
      cbn [shifts]. unfold shift_in. rewrite app_assoc, removelast_last.
      change (x :: a ++ b) with ((x :: a) ++ b). rewrite IH by lia. cbn. rewrite <- app_assoc. reflexivity. }
  intros l L. specialize (G xs [] l L). rewrite app_nil_r in G. exact G.
Qed.

(** Size of the masks. *)
Lemma lxor_small w a b : (0 <= a < 2 ^ Z.of_nat w)%Z -> (0 <= b < 2 ^ Z.of_nat w)%Z ->
  (0 <= Z.lxor a b < 2 ^ Z.of_nat w)%Z.
Proof.
  intros Ha Hb. assert (H : (0 <= Z.lxor a b)%Z) by (apply Z.lxor_nonneg; lia). split; auto.
  rewrite <- (Z.mod_small a (2 ^ Z.of_nat w)), <- (Z.mod_small b (2 ^ Z.of_nat w)) by auto.
  rewrite <- !Z.land_ones by lia.
  replace (Z.lxor (Z.land a (Z.ones (Z.of_nat w))) (Z.land b (Z.ones (Z.of_nat w))))
    with (Z.land (Z.lxor a b) (Z.ones (Z.of_nat w))).
  - rewrite Z.land_ones by lia. apply Z.mod_pos_bound. apply Z.pow_pos_nonneg; lia.
  - apply Z.bits_inj'. intros n Hn. rewrite !Z.lxor_spec, !Z.land_spec, Z.lxor_spec.
    destruct (Z.testbit a n), (Z.testbit b n), (Z.testbit (Z.ones _) n); reflexivity.
Qed.

Lemma zero_small c d : small c (0%Z, d).
Proof. unfold small. cbn. split; [lia|]. apply Z.pow_pos_nonneg; lia. Qed.

Lemma mxor_small c a b : small c a -> small c b -> small c (mxor a b).
Proof. unfold small, mxor. cbn. apply lxor_small. Qed.

Lemma nth_small c l i : Forall (small c) l -> small c (nth i l (0, 0)%Z).
Proof.
  intros H. destruct (Nat.lt_ge_cases i (length l)).
  - apply (proj1 (Forall_nth _ _) H); auto.
  - rewrite nth_overflow by auto. apply zero_small.
Qed.

Lemma removelast_Forall {A} (P : A -> Prop) l : Forall P l -> Forall P (removelast l).
Proof.
  induction 1 as [|x l Hx Hl IH]; [constructor|]. destruct l; [constructor|].
  change (removelast (x :: a :: l)) with (x :: removelast (a :: l)). constructor; auto.
Qed.

Lemma step_small c dm l o : Forall (small c) l -> Forall (small c) o ->
  Forall (small c) (fst (mask_step c dm (l, o))) /\ Forall (small c) (snd (mask_step c dm (l, o))).
Proof.
  intros Hl Ho. unfold mask_step. cbn [fst snd].
  assert (V : small c (fst (nth (l_w c - 1) l (0, 0)%Z), Z.lxor (snd (nth (l_w c - 1) l (0, 0)%Z)) dm)).
  { unfold small. cbn. apply nth_small. auto. }
  revert V. generalize (fst (nth (l_w c - 1) l (0, 0)%Z), Z.lxor (snd (nth (l_w c - 1) l (0, 0)%Z)) dm) as v. intros v V.
  assert (F : small c (fib_taps c l v)).
  { unfold fib_taps. generalize (seq 1 (l_w c - 1)) as js. intros js. revert v V.
    induction js as [|j js IH]; intros v V; cbn; auto. apply IH.
    destruct (Z.testbit _ _); auto. apply mxor_small; auto. apply nth_small. auto. }
  assert (X : small c (if l_galois c then v else fib_taps c l v)) by (destruct (l_galois c); auto).
  set (y := if l_ff c then (0%Z, dm) else if l_galois c then v else fib_taps c l v).
  assert (Y : small c y) by (unfold y; destruct (l_ff c); [apply zero_small|exact X]).
  assert (S1 : Forall (small c) (shift_in y l)) by (constructor; auto; apply removelast_Forall; auto).
  clearbody y.
  split.
  - destruct (l_galois c); auto. unfold gal_taps. apply Forall_forall. intros m Hm.
    apply in_map_iff in Hm as ([j a] & <- & Hin). apply in_combine_r in Hin.
    assert (small c a) by (eapply Forall_forall in S1; eauto).
    destruct (_ && _); auto. apply mxor_small; auto.
  - constructor; auto. apply removelast_Forall; auto.
Qed.

Lemma loop_small c : forall k l o, Forall (small c) l -> Forall (small c) o ->
  Forall (small c) (fst (mask_loop k c (l, o))) /\ Forall (small c) (snd (mask_loop k c (l, o))).
Proof.
  induction k as [|k IH]; intros l o Hl Ho; auto. cbn [mask_loop].
  destruct (@step_small c (Z.shiftl 1 (Z.of_nat k)) l o Hl Ho) as [A B].
  destruct (mask_step c (Z.shiftl 1 (Z.of_nat k)) (l, o)). apply IH; auto.
Qed.

Lemma init_small c : Forall (small c) (init_lfsr c) /\ Forall (small c) (init_out c).
Proof.
  assert (P : forall i, i < l_w c -> small c (Z.shiftl 1 (Z.of_nat i), 0%Z)).
  { intros i Hi. unfold small. cbn. rewrite Z.shiftl_1_l. split; [apply Z.pow_nonneg; lia|].
    apply Z.pow_lt_mono_r; lia. }
  split; apply Forall_forall; intros m Hm; apply in_map_iff in Hm as (i & <- & Hin).
  - apply P. apply in_seq in Hin. lia.
  - destruct (Nat.ltb_spec i (l_w c)); auto. apply zero_small.
Qed.

Lemma mirror_small n m : (0 <= mirror n m < 2 ^ Z.of_nat n)%Z.
Proof.
  unfold mirror. assert (H := assemble_nonneg n (fun i => Z.testbit m (Z.of_nat (n - i - 1)))). split; auto.
  destruct (Z.lt_ge_cases (assemble n (fun i => Z.testbit m (Z.of_nat (n - i - 1)))) (2 ^ Z.of_nat n)); auto.
  exfalso. set (x := assemble n _) in *.
  assert (P : (0 < x)%Z) by (assert (0 < 2 ^ Z.of_nat n)%Z by (apply Z.pow_pos_nonneg; lia); lia).
  assert (L : (Z.of_nat n <= Z.log2 x)%Z) by (apply Z.log2_le_pow2; auto).
  assert (T : Z.testbit x (Z.log2 x) = true) by (apply Z.bit_log2; auto).
  rewrite <- (Z2Nat.id (Z.log2 x)) in T by apply Z.log2_nonneg.
  unfold x in T at 1. rewrite assemble_bit in T.
  replace (Z.to_nat (Z.log2 x) <? n) with false in T by (symmetry; apply Nat.ltb_ge; lia). discriminate.
Qed.

Lemma mask_small c n : small c (lfsr_mask c n).
Proof.
  unfold lfsr_mask, all_masks. destruct (init_small c) as [A B].
  destruct (@loop_small c (l_d c) _ _ A B) as [C D].
  destruct (mask_loop (l_d c) c (init_lfsr c, init_out c)) as [l o]. cbn [fst snd] in *.
  destruct (l_rev c).
  - unfold small. cbn. apply mirror_small.
  - destruct (n <? l_w c); apply nth_small; auto.
Qed.

Lemma ev_mirror c s d m : ev c s d (mirror (l_w c) (fst m), mirror (l_d c) (snd m)) =
  ev c (mirror (l_w c) s) (mirror (l_d c) d) m.
Proof.
  unfold ev. cbn [fst snd]. rewrite !vec_mirror. f_equal.
  - rewrite <- (dot_rev (vec (l_w c) s)) by (rewrite rev_length, !vec_length; auto). rewrite rev_involutive. reflexivity.
  - rewrite <- (dot_rev (vec (l_d c) d)) by (rewrite rev_length, !vec_length; auto). rewrite rev_involutive. reflexivity.
Qed.

Lemma init_vec c s d : map (ev c s d) (init_lfsr c) = vec (l_w c) s.
Proof.
  unfold init_lfsr. rewrite map_map. unfold vec at 1. apply map_ext_seq. intros i Hi.
  unfold ev. cbn [fst snd]. rewrite dot_one by lia. rewrite dot_zero. apply xorb_false_r.
Qed.

Lemma trace_out_length {A B C} (f : A -> B -> A * C) r ds : length (snd (trace f r ds)) = length ds.
Proof. apply trace_length. Qed.

(** Non-reversed core: selected bits after the loop. *)
Lemma core c s d : 0 < l_w c ->
  map (ev c s d) (fst (all_masks c)) = fst (trace (clock c) (vec (l_w c) s) (rev (vec (l_d c) d))) /\
  map (ev c s d) (snd (all_masks c)) = rev (snd (trace (clock c) (vec (l_w c) s) (rev (vec (l_d c) d)))) /\
  length (fst (all_masks c)) = l_w c /\ length (snd (all_masks c)) = l_d c.
Proof.
  intros HW. unfold all_masks. destruct (mask_loop (l_d c) c (init_lfsr c, init_out c)) as [l o] eqn:E.
  assert (IL : length (init_lfsr c) = l_w c) by (unfold init_lfsr; rewrite map_length, seq_length; auto).
  destruct (@loop_sim c s d HW _ _ _ _ _ (Nat.le_refl _) IL E) as (L & S1 & O1).
  rewrite init_vec in S1, O1. cbn [fst snd].
  rewrite shifts_full in O1.
  - split; [exact S1|]. split; [exact O1|]. split; [exact L|].
    apply (f_equal (@length _)) in O1. rewrite map_length, rev_length, trace_length, rev_length, vec_length in O1. exact O1.
  - rewrite trace_length, rev_length, vec_length. unfold init_out. rewrite !map_length, seq_length. reflexivity.
Qed.

Lemma map_nth_self {A B} (f : A -> B) (l : list A) d n : length l = n ->
  map (fun i => f (nth i l d)) (seq 0 n) = map f l.
Proof.
  intros <-. apply list_nth_ext with (d := f d).
  - rewrite !map_length, seq_length. reflexivity.
  - intros i Hi. rewrite map_length, seq_length in Hi. rewrite nth_map_seq by auto. rewrite map_nth. reflexivity.
Qed.

Lemma map_nth_rev {A B} (f : A -> B) (l : list A) d n : length l = n ->
  map (fun i => f (nth (n - i - 1) l d)) (seq 0 n) = rev (map f l).
Proof.
  intros <-. rewrite <- map_rev. apply list_nth_ext with (d := f d).
  - rewrite !map_length, seq_length, rev_length. reflexivity.
  - intros i Hi. rewrite map_length, seq_length in Hi. rewrite nth_map_seq by auto. rewrite map_nth, rev_nth by auto.
    f_equal. f_equal. lia.
Qed.

(** The parallel module is [DATA_WIDTH] clocks of the serial register. *)
Lemma lfsr_serial c s d : 0 < l_w c -> (0 <= s < 2 ^ Z.of_nat (l_w c))%Z ->
  serial (l_w c) (l_poly c) (l_galois c) (l_ff c)
    (register_of (l_rev c) (l_w c) s) (stream_of (l_rev c) (l_d c) d) =
  (register_of (l_rev c) (l_w c) (lfsr_state c s d), stream_of (l_rev c) (l_d c) (lfsr_data c s d)).
Proof.
  intros HW Hs. unfold serial. fold (clock c). unfold register_of, stream_of, lfsr_state, lfsr_data.
  rewrite !vec_assemble.
  rewrite (@map_ext_seq _ (fun n => out_bit c n s d) (fun n => ev c s d (lfsr_mask c n)))
    by (intros; apply out_ev; auto; apply mask_small).
  rewrite (@map_ext_seq _ (fun n => out_bit c (n + l_w c) s d) (fun n => ev c s d (lfsr_mask c (n + l_w c))))
    by (intros; apply out_ev; auto; apply mask_small).
  unfold lfsr_mask. destruct (all_masks c) as [l o] eqn:EA.
  destruct (l_rev c) eqn:ER.
  - destruct (@core c (mirror (l_w c) s) (mirror (l_d c) d) HW) as (C1 & C2 & C3 & C4).
    rewrite EA in *. cbn [fst snd] in *. rewrite !vec_mirror, rev_involutive in C1, C2.
    rewrite (@map_ext_seq _ _ (fun i => ev c (mirror (l_w c) s) (mirror (l_d c) d) (nth (l_w c - i - 1) l (0, 0)%Z)) 0 (l_w c)).
    2:{ intros i Hi. replace (i <? l_w c) with true by (symmetry; apply Nat.ltb_lt; lia). apply ev_mirror. }
    rewrite (@map_ext_seq _ _ (fun i => ev c (mirror (l_w c) s) (mirror (l_d c) d) (nth (l_d c - i - 1) o (0, 0)%Z)) 0 (l_d c)).
    2:{ intros i Hi. replace (i + l_w c <? l_w c) with false by (symmetry; apply Nat.ltb_ge; lia).
        replace (i + l_w c - l_w c) with i by lia. apply ev_mirror. }
    rewrite !map_nth_rev by auto. rewrite C1, C2, !rev_involutive. apply surjective_pairing.
  - destruct (@core c s d HW) as (C1 & C2 & C3 & C4). rewrite EA in *. cbn [fst snd] in *.
    rewrite (@map_ext_seq _ _ (fun i => ev c s d (nth i l (0, 0)%Z)) 0 (l_w c)).
    2:{ intros i Hi. replace (i <? l_w c) with true by (symmetry; apply Nat.ltb_lt; lia). reflexivity. }
    rewrite (@map_ext_seq _ _ (fun i => ev c s d (nth i o (0, 0)%Z)) 0 (l_d c)).
    2:{ intros i Hi. replace (i + l_w c <? l_w c) with false by (symmetry; apply Nat.ltb_ge; lia).
        replace (i + l_w c - l_w c) with i by lia. reflexivity. }
    rewrite !map_nth_self by auto. rewrite C1, C2, rev_involutive. apply surjective_pairing.
Qed.
