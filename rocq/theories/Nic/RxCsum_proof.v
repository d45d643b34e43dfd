(** Proofs about the receive checksum unit. *)
From Verif Require Import Base.Prelude Nic.RxCsum_model Nic.RxCsum_spec.
Local Open Scope Z_scope.

(** * Sums *)
Lemma sum_app a b : sum (a ++ b) = sum a + sum b.
Proof. unfold sum. induction a; cbn in *; lia. Qed.

Lemma sum_ext {A} (f g : A -> Z) l : (forall x, In x l -> f x = g x) -> sum (map f l) = sum (map g l).
Proof. intros H. f_equal. apply map_ext_in. exact H. Qed.

Lemma sum_bound (f : nat -> Z) l B : (forall x, 0 <= f x <= B) -> 0 <= sum (map f l) <= Z.of_nat (length l) * B.
Proof. intros H. unfold sum. induction l as [|x l IH]; cbn [map fold_right length]; [lia|]. specialize (H x). nia. Qed.

Lemma sum_pairs (f : nat -> Z) n :
  sum (map (fun i => f (2 * i)%nat + f (2 * i + 1)%nat) (seq 0 n)) = sum (map f (seq 0 (2 * n))).
Proof.
  induction n as [|n IH]; auto. rewrite seq_S, map_app, sum_app, IH.
  replace (2 * S n)%nat with (S (S (2 * n))) by lia. rewrite !seq_S, !map_app, !sum_app.
  cbn [map sum fold_right plus]. replace (S (2 * n)) with (2 * n + 1)%nat by lia. lia.
Qed.

Lemma sum_quads (f : nat -> Z) n :
  sum (map (fun i => (f (4*i+0)%nat * 256 + f (4*i+1)%nat) + (f (4*i+2)%nat * 256 + f (4*i+3)%nat)) (seq 0 n)) =
  sum (map (fun j => f j * (if Nat.even j then 256 else 1)) (seq 0 (4 * n))).
Proof.
  induction n as [|n IH]; auto. rewrite seq_S, map_app, sum_app, IH.
  replace (4 * S n)%nat with (S (S (S (S (4 * n))))) by lia. rewrite !seq_S, !map_app, !sum_app.
  cbn [map sum fold_right plus].
  replace (4 * n)%nat with (2 * (2 * n))%nat by lia.
  assert (E : forall k, Nat.even (2 * k) = true) by (intros; apply Nat.even_spec; exists k; lia).
  assert (O : forall k, Nat.even (S (2 * k)) = false) by (intros; rewrite Nat.even_succ, <- Nat.negb_even, E; reflexivity).
  replace (S (S (2 * (2 * n))))%nat with (2 * (2 * n + 1))%nat by lia. rewrite !E, !O.
  replace (2 * (2 * n) + 0)%nat with (2 * (2 * n))%nat by lia.
  replace (2 * (2 * n) + 1)%nat with (S (2 * (2 * n)))%nat by lia.
  replace (2 * (2 * n) + 2)%nat with (2 * (2 * n + 1))%nat by lia.
  replace (2 * (2 * n) + 3)%nat with (S (2 * (2 * n + 1)))%nat by lia. lia.
Qed.

Lemma map_nth_seq (s : list Z) : map (fun i => nth i s 0) (seq 0 (length s)) = s.
Proof.
  induction s as [|x s IH]; auto. cbn [length seq map nth]. f_equal. rewrite <- seq_shift, map_map. exact IH.
Qed.

(** * The adder tree *)
Definition rng (l : nat) (s : list Z) : Prop := Forall (fun x => 0 <= x < 2 ^ (17 + Z.of_nat l)) s.

Lemma nth_rng l s i : rng l s -> 0 <= nth i s 0 < 2 ^ (17 + Z.of_nat l).
Proof.
  intros H. destruct (Nat.lt_ge_cases i (length s)).
  - unfold rng in H. rewrite Forall_forall in H. apply H. apply nth_In. auto.
  - rewrite nth_overflow by auto. split; [lia|]. apply Z.pow_pos_nonneg; lia.
Qed.

Lemma level_ok c l s n : rng l s -> length s = (2 * n)%nat -> (rc_k c / 4 / 2 ^ S l)%nat = n ->
  rng (S l) (rc_level c (S l) s) /\ length (rc_level c (S l) s) = n /\ sum (rc_level c (S l) s) = sum s.
Proof.
  intros R L E. unfold rc_level. rewrite E.
  assert (P : 2 ^ (17 + Z.of_nat (S l)) = 2 * 2 ^ (17 + Z.of_nat l)).
  { replace (17 + Z.of_nat (S l)) with (Z.succ (17 + Z.of_nat l)) by lia. rewrite Z.pow_succ_r by lia. reflexivity. }
  split; [|split].
  - unfold rng. rewrite Forall_map. apply Forall_forall. intros i _.
    pose proof (@nth_rng l s (2 * i) R). pose proof (@nth_rng l s (2 * i + 1) R).
    rewrite Z.mod_small by (rewrite P; lia). rewrite P. lia.
  - rewrite map_length, seq_length. reflexivity.
  - rewrite (@sum_ext _ _ (fun i => nth (2 * i) s 0 + nth (2 * i + 1) s 0)).
    + rewrite (@sum_pairs (fun i => nth i s 0)). rewrite <- L, map_nth_seq. reflexivity.
    + intros i _. pose proof (@nth_rng l s (2 * i) R). pose proof (@nth_rng l s (2 * i + 1) R).
      apply Z.mod_small. rewrite P. lia.
Qed.

Fixpoint tree (c : rccfg) (l : nat) (s : list Z) : list Z :=
  match l with O => s | S l' => rc_level c (S l') (tree c l' s) end.

Lemma k4 c l : (2 <= rc_l c)%nat -> (l <= rc_l c - 2)%nat -> (rc_k c / 4 / 2 ^ l = 2 ^ (rc_l c - 2 - l))%nat.
Proof.
  intros H1 H2. unfold rc_k. replace (rc_l c) with (2 + (l + (rc_l c - 2 - l)))%nat at 1 by lia.
  rewrite Nat.pow_add_r. change (2 ^ 2)%nat with 4%nat. rewrite (Nat.mul_comm 4), Nat.div_mul by lia.
  rewrite Nat.pow_add_r, Nat.mul_comm. apply Nat.div_mul. apply Nat.pow_nonzero. lia.
Qed.

Lemma tree_ok c s : (2 <= rc_l c)%nat -> rng 0 s -> length s = (rc_k c / 4)%nat -> forall l, (l <= rc_l c - 2)%nat ->
  rng l (tree c l s) /\ length (tree c l s) = (2 ^ (rc_l c - 2 - l))%nat /\ sum (tree c l s) = sum s.
Proof.
  intros HL R0 L0. induction l as [|l IH]; intros Hl; cbn [tree].
  - split; [auto|split; auto]. rewrite L0. rewrite <- (k4 c) by lia. cbn [Nat.pow]. rewrite Nat.div_1_r. reflexivity.
  - destruct (IH ltac:(lia)) as (R & L & E).
    destruct (@level_ok c l (tree c l s) (2 ^ (rc_l c - 2 - S l))%nat R) as (R' & L' & E').
    + rewrite L. replace (rc_l c - 2 - l)%nat with (S (rc_l c - 2 - S l)) by lia. reflexivity.
    + apply k4; auto.
    + split; [auto|split; auto]. congruence.
Qed.

Lemma tree_top c s : (2 <= rc_l c)%nat -> rng 0 s -> length s = (rc_k c / 4)%nat ->
  nth 0 (tree c (rc_l c - 2) s) 0 mod 2 ^ (15 + Z.of_nat (rc_l c)) = sum s /\ 0 <= sum s < 2 ^ (15 + Z.of_nat (rc_l c)).
Proof.
  intros HL R0 L0. destruct (@tree_ok c s HL R0 L0 (rc_l c - 2)%nat ltac:(lia)) as (R & L & E).
  rewrite Nat.sub_diag in L. cbn [Nat.pow] in L.
  destruct (tree c (rc_l c - 2) s) as [|x [|y t]]; try discriminate. cbn [nth sum fold_right] in *.
  inversion R as [|? ? B _]; subst. replace (17 + Z.of_nat (rc_l c - 2)) with (15 + Z.of_nat (rc_l c)) in B by lia.
  rewrite Z.mod_small by exact B. lia.
Qed.

(** * A beat *)
Lemma masked_range mask b j : 0 <= rc_masked mask b j <= 255.
Proof.
  unfold rc_masked. destruct (_ && _); [|lia].
  change 255 with (Z.ones 8). rewrite Z.land_ones by lia. pose proof (Z.mod_pos_bound (Z.shiftr (cb_data b) (8 * Z.of_nat j)) (2 ^ 8) ltac:(lia)).
  change (2 ^ 8) with 256 in *. change (Z.ones 8) with 255. lia.
Qed.

Lemma level0_rng c mask b : rng 0 (rc_level0 c mask b).
Proof.
  unfold rng, rc_level0. rewrite Forall_map. apply Forall_forall. intros i _. apply Z.mod_pos_bound. reflexivity.
Qed.

Lemma level0_length c mask b : length (rc_level0 c mask b) = (rc_k c / 4)%nat.
Proof. unfold rc_level0. rewrite map_length, seq_length. reflexivity. Qed.

Lemma k_quad c : (2 <= rc_l c)%nat -> (4 * (rc_k c / 4))%nat = rc_k c.
Proof.
  intros H. unfold rc_k. replace (rc_l c) with (2 + (rc_l c - 2))%nat by lia.
  rewrite Nat.pow_add_r. change (2 ^ 2)%nat with 4%nat. rewrite (Nat.mul_comm 4 (2 ^ _)), Nat.div_mul by lia. lia.
Qed.

Lemma level0_sum c mask b : (2 <= rc_l c)%nat ->
  sum (rc_level0 c mask b) = sum (map (fun j => rc_masked mask b j * (if Nat.even j then 256 else 1)) (seq 0 (rc_k c))).
Proof.
  intros H. unfold rc_level0. cbv zeta.
  rewrite (@sum_ext _ _ (fun i => (rc_masked mask b (4*i+0)%nat * 256 + rc_masked mask b (4*i+1)%nat)
    + (rc_masked mask b (4*i+2)%nat * 256 + rc_masked mask b (4*i+3)%nat))).
  - rewrite sum_quads, k_quad by auto. reflexivity.
  - intros i _. apply Z.mod_small. change (2 ^ 17) with 131072.
    pose proof (masked_range mask b (4*i+0)). pose proof (masked_range mask b (4*i+1)).
    pose proof (masked_range mask b (4*i+2)). pose proof (masked_range mask b (4*i+3)). lia.
Qed.

(** * Positions in the frame *)
Definition wt (start off : nat) (l : list Z) : Z :=
  sum (map (fun i => if (start <=? off + i)%nat then nth i l 0 * (if Nat.even (off + i) then 256 else 1) else 0)
           (seq 0 (length l))).

Lemma wt_app start a : forall off b, wt start off (a ++ b) = wt start off a + wt start (off + length a) b.
Proof.
  unfold wt. intros off b. rewrite app_length, seq_app, map_app, sum_app. f_equal.
  - apply sum_ext. intros i Hi. apply in_seq in Hi. rewrite app_nth1 by lia. reflexivity.
  - cbn [plus]. revert off. induction a as [|x a IH]; intros off.
    + cbn. rewrite Nat.add_0_r. reflexivity.
    + cbn [length]. rewrite <- seq_shift, map_map.
      specialize (IH (S off)). rewrite Nat.add_succ_r. cbn [plus] in *.
      etransitivity; [|etransitivity; [exact IH|]].
      * apply sum_ext. intros i _. replace (off + S i)%nat with (S (off + i)) by lia. reflexivity.
      * reflexivity.
Qed.

Lemma word_total_wt start l : word_total start l = wt start 0 l.
Proof. reflexivity. Qed.

Lemma frame_bytes_app k a b : frame_bytes k (a ++ b) = frame_bytes k a ++ frame_bytes k b.
Proof. unfold frame_bytes. rewrite map_app. apply concat_app. Qed.

Lemma frame_bytes_length k f : length (frame_bytes k f) = (length f * k)%nat.
Proof.
  unfold frame_bytes. induction f as [|b f IH]; auto. cbn [map concat length]. rewrite app_length, IH, map_length, seq_length. reflexivity.
Qed.

(** Mask of beat number [n]. *)
Definition mk (c : rccfg) (n : nat) : Z :=
  let q := (rc_start c / rc_k c)%nat in
  if (n <? q)%nat then 0 else if (n =? q)%nat then rc_shl c (rc_start c mod rc_k c) else Z.ones (Z.of_nat (rc_k c)).

Lemma k_pos c : (0 < rc_k c)%nat.
Proof. unfold rc_k. apply Nat.neq_0_lt_0, Nat.pow_nonzero. lia. Qed.

Lemma shl_bit c n j : (j < rc_k c)%nat -> Z.testbit (rc_shl c n) (Z.of_nat j) = (n <=? j)%nat.
Proof.
  intros H. unfold rc_shl. rewrite Z.mod_pow2_bits_low by lia.
  rewrite Z.shiftl_spec by lia. destruct (Nat.leb_spec n j).
  - apply Z.ones_spec_low. lia.
  - apply Z.testbit_neg_r. lia.
Qed.

Lemma mk_bit c n j : (j < rc_k c)%nat -> Z.testbit (mk c n) (Z.of_nat j) = (rc_start c <=? n * rc_k c + j)%nat.
Proof.
  intros H. unfold mk. cbv zeta. pose proof (k_pos c) as KP.
  pose proof (Nat.div_mod (rc_start c) (rc_k c) ltac:(lia)) as E.
  pose proof (Nat.mod_upper_bound (rc_start c) (rc_k c) ltac:(lia)) as B.
  set (q := (rc_start c / rc_k c)%nat) in *. set (r := (rc_start c mod rc_k c)%nat) in *.
  symmetry. destruct (Nat.ltb_spec n q).
  - rewrite Z.bits_0. apply Nat.leb_gt. nia.
  - destruct (Nat.eqb_spec n q) as [->|].
    + rewrite shl_bit by auto. destruct (Nat.leb_spec r j); [apply Nat.leb_le|apply Nat.leb_gt]; nia.
    + rewrite Z.ones_spec_low by lia. apply Nat.leb_le. nia.
Qed.

Lemma even_lane c n j : (2 <= rc_l c)%nat -> Nat.even (n * rc_k c + j) = Nat.even j.
Proof.
  intros H. rewrite <- (k_quad c) by auto.
  replace (n * (4 * (rc_k c / 4)) + j)%nat with (j + 2 * (2 * n * (rc_k c / 4)))%nat by lia.
  rewrite Nat.even_add_mul_2. reflexivity.
Qed.

Lemma beat_sum c n b : (2 <= rc_l c)%nat ->
  sum (rc_level0 c (mk c n) b) = wt (rc_start c) (n * rc_k c) (frame_bytes (rc_k c) [b]).
Proof.
  intros H. rewrite level0_sum by auto. unfold wt. rewrite frame_bytes_length. cbn [length].
  rewrite Nat.mul_1_l. apply sum_ext. intros j Hj. apply in_seq in Hj.
  rewrite even_lane by auto. unfold frame_bytes. cbn [map concat]. rewrite app_nil_r.
  replace (nth j (map (lane b) (seq 0 (rc_k c))) 0) with (lane b j).
  2:{ rewrite nth_indep with (d' := lane b 0) by (rewrite map_length, seq_length; lia).
      rewrite map_nth, seq_nth by lia. reflexivity. }
  unfold rc_masked, lane. rewrite mk_bit by lia.
  destruct (rc_start c <=? n * rc_k c + j)%nat, (Z.testbit (cb_keep b) (Z.of_nat j)); cbn [andb]; try lia.
  change 255 with (Z.ones 8). rewrite Z.land_ones by lia. rewrite Z.shiftr_div_pow2 by lia. reflexivity.
Qed.

(** * The accumulator *)
Lemma fold_ok c s acc t : (2 <= rc_l c <= 16)%nat -> 0 <= s < 2 ^ (15 + Z.of_nat (rc_l c)) ->
  0 <= t -> ones_complement t acc -> ones_complement (t + s) (rc_fold c s acc) .
Proof.
  intros HL Hs Ht (A1 & A2 & A3). unfold rc_fold. cbv zeta.
  set (W := 2 ^ (16 + Z.of_nat (rc_l c))).
  assert (W1 : W = 65536 * 2 ^ Z.of_nat (rc_l c)) by (unfold W; rewrite Z.pow_add_r by lia; reflexivity).
  assert (W2 : 2 * 2 ^ (15 + Z.of_nat (rc_l c)) = W).
  { unfold W. rewrite <- Z.pow_succ_r by lia. f_equal. lia. }
  assert (P1 : 4 <= 2 ^ Z.of_nat (rc_l c)) by (change 4 with (2 ^ 2); apply Z.pow_le_mono_r; lia).
  assert (P2 : 2 ^ Z.of_nat (rc_l c) <= 65536) by (change 65536 with (2 ^ 16); apply Z.pow_le_mono_r; lia).
  set (K := 2 ^ Z.of_nat (rc_l c)) in *. clearbody K W. change (2 ^ 16) with 65536.
  rewrite (Z.mod_small (s + acc)) by lia.
  rewrite Z.shiftr_div_pow2 by lia. change (2 ^ 16) with 65536.
  set (x := s + acc) in *. pose proof (Z.div_mod x 65536 ltac:(lia)) as E. pose proof (Z.mod_pos_bound x 65536 ltac:(lia)) as B.
  assert (H1 : 0 <= x / 65536 < K) by (split; [apply Z.div_pos; lia|apply Z.div_lt_upper_bound; lia]).
  set (hi := x / 65536) in *. set (lo := x mod 65536) in *.
  rewrite (Z.mod_small (lo + hi)) by lia.
  assert (TB : Z.b2z (Z.testbit (lo + hi) 16) = (lo + hi) / 65536).
  { rewrite Z.testbit_spec' by lia. change (2 ^ 16) with 65536. apply Z.mod_small.
    split; [apply Z.div_pos; lia|apply Z.div_lt_upper_bound; lia]. }
  rewrite TB. pose proof (Z.div_mod (lo + hi) 65536 ltac:(lia)) as E2. pose proof (Z.mod_pos_bound (lo + hi) 65536 ltac:(lia)) as B2.
  assert (H2 : 0 <= (lo + hi) / 65536 <= 1).
  { split; [apply Z.div_pos; lia|]. assert ((lo + hi) / 65536 < 2) by (apply Z.div_lt_upper_bound; lia). lia. }
  set (h2 := (lo + hi) / 65536) in *. set (l2 := (lo + hi) mod 65536) in *.
  rewrite Z.mod_small by lia. split; [lia|]. split.
  - replace (l2 + h2) with (x + (- (hi + h2)) * 65535) by lia. rewrite Z.mod_add by lia.
    unfold x. rewrite (Z.add_comm s), Z.add_mod, A2, <- Z.add_mod by lia. reflexivity.
  - assert (X : l2 + h2 = 0 <-> x = 0) by lia. rewrite X. unfold x. split; intros; [|lia].
    assert (acc = 0) by lia. assert (t = 0) by tauto. lia.
Qed.

Lemma lane_range b j : 0 <= lane b j <= 255.
Proof. unfold lane. destruct (Z.testbit _ _); [|lia]. pose proof (Z.mod_pos_bound (cb_data b / 2 ^ (8 * Z.of_nat j)) 256). lia. Qed.

Lemma frame_bytes_range k f : Forall (fun x => 0 <= x <= 255) (frame_bytes k f).
Proof.
  unfold frame_bytes. induction f as [|b f IH]; cbn; auto. apply Forall_app. split; auto.
  rewrite Forall_map. apply Forall_forall. intros j _. apply lane_range.
Qed.

Lemma wt_nonneg start off l : Forall (fun x => 0 <= x <= 255) l -> 0 <= wt start off l.
Proof.
  intros H. unfold wt. apply (@sum_bound _ _ 65280). intros i.
  assert (0 <= nth i l 0 <= 255).
  { destruct (Nat.lt_ge_cases i (length l)); [|rewrite nth_overflow by auto; lia].
    rewrite Forall_forall in H. apply H. apply nth_In. auto. }
  destruct (start <=? off + i)%nat, (Nat.even (off + i)); lia.
Qed.

Lemma fold_fits c s acc t : (2 <= rc_l c <= 16)%nat -> 0 <= s < 2 ^ (15 + Z.of_nat (rc_l c)) ->
  0 <= t -> ones_complement t acc -> ones_complement (t + s) (rc_fold c s acc mod 2 ^ 16).
Proof.
  intros. pose proof (@fold_ok c s acc t) as F. destruct F as (B & F); auto. change (2 ^ 16) with 65536.
  rewrite Z.mod_small by lia. split; auto.
Qed.

(** * The invariant *)
Lemma in_progress_snoc is i :
  in_progress (is ++ [i]) = match i with
                            | None => in_progress is
                            | Some b => if cb_last b then [] else in_progress is ++ [b]
                            end.
Proof. unfold in_progress. rewrite fold_left_app. reflexivity. Qed.

Definition beats_before (is : list (option cbeat)) (j : nat) : nat := length (in_progress (firstn j is)).

Definition stage_holds (c : rccfg) (is : list (option cbeat)) (l : nat) (s : cstage) : Prop :=
  if (l <? length is)%nat
  then let j := (length is - 1 - l)%nat in
       match nth j is None with
       | None => cs_valid s = false
       | Some b => cs_valid s = true /\ cs_last s = cb_last b /\
                   cs_sums s = tree c l (rc_level0 c (mk c (beats_before is j)) b)
       end
  else cs_valid s = false.

Definition total c f := word_total (rc_start c) (frame_bytes (rc_k c) f).

Definition result (c : rccfg) (is : list (option cbeat)) (t : nat) (o : bool * Z) : Prop :=
  match nth t is None with
  | Some b => if cb_last b then fst o = true /\ ones_complement (total c (in_progress (firstn t is) ++ [b])) (snd o)
              else fst o = false
  | None => fst o = false
  end.

Definition st0 := mkCs false false [].

Record inv (c : rccfg) (is : list (option cbeat)) (s : rcst) : Prop := mkInv {
  v_len : length (rc_stages s) = (rc_l c - 1)%nat;
  v_off : rc_offset s = Z.of_nat (rc_start c / rc_k c - length (in_progress is));
  v_mask : rc_mask s = mk c (length (in_progress is));
  v_stage : forall l, (l < rc_l c - 1)%nat -> stage_holds c is l (nth l (rc_stages s) st0);
  v_acc : ones_complement (total c (in_progress (firstn (length is - (rc_l c - 1)) is))) (rc_acc s);
  v_out : if (rc_l c <=? length is)%nat then result c is (length is - rc_l c) (rc_csum_valid s, rc_csum s)
          else rc_csum_valid s = false }.

Lemma offset0 c : start_ok c -> rc_offset0 c = Z.of_nat (rc_start c / rc_k c).
Proof.
  intros H. unfold rc_offset0, rc_ow. set (q := (rc_start c / rc_k c)%nat) in *.
  destruct (Z.ltb_spec 1 (Z.of_nat q)).
  - apply Z.mod_small. split; [lia|].
    pose proof (Z.log2_up_spec (Z.of_nat q) ltac:(lia)) as [_ B].
    assert (Z.of_nat q <> 2 ^ Z.log2_up (Z.of_nat q)); [|lia].
    intros E. apply H. exists (Z.to_nat (Z.log2_up (Z.of_nat q))).
    pose proof (Z.log2_up_pos (Z.of_nat q) ltac:(lia)). split; [lia|].
    fold q. apply Nat2Z.inj. rewrite Nat2Z.inj_pow, Z2Nat.id by lia. exact E.
  - apply Z.mod_small. change (2 ^ 1) with 2. lia.
Qed.

Lemma shl_start c : rc_shl c (rc_start c) = mk c 0.
Proof.
  pose proof (k_pos c) as KP.
  assert (B : forall n, 0 <= rc_shl c n < 2 ^ Z.of_nat (rc_k c)) by (intros; apply Z.mod_pos_bound, Z.pow_pos_nonneg; lia).
  assert (M : 0 <= mk c 0 < 2 ^ Z.of_nat (rc_k c)).
  { unfold mk. cbv zeta. destruct (_ <? _)%nat; [split; [lia|apply Z.pow_pos_nonneg; lia]|].
    destruct (_ =? _)%nat; [apply B|]. rewrite Z.ones_equiv. pose proof (Z.pow_pos_nonneg 2 (Z.of_nat (rc_k c)) ltac:(lia) ltac:(lia)). lia. }
  apply Z.bits_inj'. intros j Hj. destruct (Z.lt_ge_cases j (Z.of_nat (rc_k c))).
  - rewrite <- (Z2Nat.id j) by lia. rewrite shl_bit, mk_bit by lia. rewrite Nat.mul_0_l. reflexivity.
  - specialize (B (rc_start c)).
    rewrite <- (Z.mod_small (rc_shl c (rc_start c)) (2 ^ Z.of_nat (rc_k c))), <- (Z.mod_small (mk c 0) (2 ^ Z.of_nat (rc_k c))) by auto.
    rewrite !Z.mod_pow2_bits_high by lia. reflexivity.
Qed.

Lemma nth_repeat_any {A} (x : A) n l : nth l (repeat x n) x = x.
Proof. revert l. induction n as [|n IH]; intros [|l]; cbn; auto. Qed.

Lemma inv_init c : start_ok c -> inv c [] (rc_init c).
Proof.
  intros H. constructor; cbn [rc_init rc_stages rc_offset rc_mask rc_acc rc_csum_valid rc_csum length].
  - apply repeat_length.
  - rewrite offset0 by auto. change (length (in_progress [])) with 0%nat. rewrite Nat.sub_0_r. reflexivity.
  - apply shl_start.
  - intros l Hl. unfold stage_holds. cbn. fold st0. rewrite nth_repeat_any. reflexivity.
  - rewrite firstn_nil. cbn. unfold ones_complement. cbn. split; [lia|split; [reflexivity|tauto]].
  - destruct (Nat.leb_spec (rc_l c) 0); auto. unfold result. cbn. destruct (0 - rc_l c)%nat; reflexivity.
Qed.

Lemma shift_nth c l : forall rest prev k, (l < length rest)%nat ->
  nth l (rc_shift c false k prev rest) st0 = rc_stage_next c false (k + l) (nth l (prev :: rest) st0) (nth l rest st0).
Proof.
  induction l as [|l IH]; intros [|s rest] prev k H; cbn in H; try lia; cbn [rc_shift nth].
  - rewrite Nat.add_0_r. reflexivity.
  - rewrite IH by lia. replace (S k + l)%nat with (k + S l)%nat by lia. reflexivity.
Qed.

Lemma shift_length c r : forall rest prev k, length (rc_shift c r k prev rest) = length rest.
Proof. induction rest as [|s rest IH]; intros; cbn; auto. Qed.

Lemma stage_snoc c is i l s s' : (l < length is)%nat ->
  stage_holds c is l s ->
  (cs_valid s' = cs_valid s) ->
  (cs_valid s = true -> cs_last s' = cs_last s /\ cs_sums s' = rc_level c (S l) (cs_sums s)) ->
  stage_holds c (is ++ [i]) (S l) s'.
Proof.
  intros Hl H E1 E2. unfold stage_holds in *. rewrite app_length. cbn [length].
  replace (S l <? length is + 1)%nat with true by (symmetry; apply Nat.ltb_lt; lia).
  replace (l <? length is)%nat with true in H by (symmetry; apply Nat.ltb_lt; lia).
  replace (length is + 1 - 1 - S l)%nat with (length is - 1 - l)%nat by lia.
  set (j := (length is - 1 - l)%nat) in *. assert (Hj : (j < length is)%nat) by lia.
  rewrite app_nth1 by auto. unfold beats_before. rewrite firstn_app.
  replace (j - length is)%nat with 0%nat by lia. cbn [firstn]. rewrite app_nil_r.
  destruct (nth j is None) as [b|]; [|congruence].
  destruct H as (A & B & D). destruct (E2 A) as (F & G). rewrite E1, F, G, D.
  split; [auto|split; auto].
Qed.

Lemma last_nth {A} (l : list A) d : last l d = nth (length l - 1) l d.
Proof.
  induction l as [|x l IH]; auto. destruct l as [|y l]; auto.
  change (last (x :: y :: l) d) with (last (y :: l) d). rewrite IH. cbn [length]. rewrite !Nat.sub_succ, !Nat.sub_0_r. reflexivity.
Qed.

Lemma firstn_snoc_nth {A} (l : list A) k d : (k < length l)%nat -> firstn (S k) l = firstn k l ++ [nth k l d].
Proof.
  revert l. induction k as [|k IH]; intros [|x l] H; cbn in H; try lia; auto.
  rewrite !firstn_cons. cbn [nth]. rewrite (IH l) by lia. reflexivity.
Qed.

Lemma inv_step c is s i : (2 <= rc_l c <= 16)%nat -> start_ok c -> inv c is s ->
  inv c (is ++ [i]) (fst (rc_step c s (false, i))).
Proof.
  intros HL HS [VL VO VM VS VA VU]. unfold rc_step.
  destruct (rc_stages s) as [|h t] eqn:ES; [cbn in VL; lia|].
  destruct (rc_front c false i (rc_offset s) (rc_mask s)) as [o' m'] eqn:EF.
  set (lst := last (h :: t) (mkCs false false [])).
  assert (EL : lst = nth (rc_l c - 2) (h :: t) st0).
  { unfold lst, st0. rewrite last_nth. f_equal. lia. }
  assert (HLst : stage_holds c is (rc_l c - 2) lst) by (rewrite EL; apply VS; lia).
  pose proof (k_pos c) as KP. pose proof (offset0 HS) as O0.
  (* front *)
  assert (FR : o' = Z.of_nat (rc_start c / rc_k c - length (in_progress (is ++ [i]))) /\
               m' = mk c (length (in_progress (is ++ [i])))).
  { rewrite in_progress_snoc. unfold rc_front in EF. set (n := length (in_progress is)) in *.
    set (q := (rc_start c / rc_k c)%nat) in *.
    destruct i as [b|].
    2:{ injection EF as <- <-. auto. }
    destruct (cb_last b).
    { injection EF as <- <-. cbn [length]. split; [|apply shl_start]. rewrite O0. f_equal. lia. }
    rewrite app_length. cbn [length]. fold n.
    assert (Q0 : (rc_start c <? rc_k c)%nat = (q =? 0)%nat).
    { unfold q. destruct (Nat.ltb_spec (rc_start c) (rc_k c)).
      - rewrite Nat.div_small by auto. reflexivity.
      - symmetry. apply Nat.eqb_neq. pose proof (Nat.div_str_pos (rc_start c) (rc_k c) ltac:(lia)). lia. }
    rewrite VO in EF.
    destruct ((rc_start c <? rc_k c)%nat || (Z.of_nat (q - n) =? 0)) eqn:EZ.
    - assert (HZ : (q <= n)%nat).
      { apply orb_true_iff in EZ as [EZ|EZ]; [rewrite Q0 in EZ; apply Nat.eqb_eq in EZ; lia|apply Z.eqb_eq in EZ; lia]. }
      injection EF as <- <-. split; [f_equal; lia|]. unfold mk. cbv zeta. fold q.
      replace (n + 1 <? q)%nat with false by (symmetry; apply Nat.ltb_ge; lia).
      replace (n + 1 =? q)%nat with false by (symmetry; apply Nat.eqb_neq; lia). reflexivity.
    - apply orb_false_iff in EZ as [_ EZ]. apply Z.eqb_neq in EZ.
      injection EF as <- <-. split.
      + assert (BQ : 0 <= Z.of_nat q < 2 ^ rc_ow c).
        { rewrite <- O0. unfold rc_offset0. apply Z.mod_pos_bound. apply Z.pow_pos_nonneg; [lia|].
          unfold rc_ow. destruct (_ <? _); [apply Z.log2_up_nonneg|lia]. }
        rewrite Z.mod_small by lia. lia.
      + unfold mk. cbv zeta. fold q. destruct (Z.eqb_spec (Z.of_nat (q - n)) 1) as [E1|E1].
        * replace (n + 1 <? q)%nat with false by (symmetry; apply Nat.ltb_ge; lia).
          replace (n + 1 =? q)%nat with true by (symmetry; apply Nat.eqb_eq; lia). reflexivity.
        * replace (n + 1 <? q)%nat with true by (symmetry; apply Nat.ltb_lt; lia). reflexivity. }
  destruct FR as [FO FM].
  (* the token leaving the pipeline *)
  set (k := (length is - (rc_l c - 1))%nat) in *.
  assert (KL : (length (is ++ [i]) - (rc_l c - 1) = if (rc_l c - 1 <=? length is) then S k else 0)%nat).
  { rewrite app_length. cbn [length]. destruct (Nat.leb_spec (rc_l c - 1) (length is)); lia. }
  set (T := rc_fold c (nth 0 (cs_sums lst) 0 mod 2 ^ (15 + Z.of_nat (rc_l c))) (rc_acc s)).
  assert (TOK : if (rc_l c - 1 <=? length is)%nat then
      match nth k is None with
      | None => cs_valid lst = false
      | Some b => cs_valid lst = true /\ cs_last lst = cb_last b /\
          ones_complement (total c (in_progress (firstn k is) ++ [b])) (T mod 2 ^ 16)
      end else cs_valid lst = false).
  { unfold stage_holds in HLst.
    destruct (Nat.leb_spec (rc_l c - 1) (length is)) as [HK|HK].
    - replace (rc_l c - 2 <? length is)%nat with true in HLst by (symmetry; apply Nat.ltb_lt; lia).
      replace (length is - 1 - (rc_l c - 2))%nat with k in HLst by (unfold k; lia). cbv zeta in HLst.
      destruct (nth k is None) as [b|] eqn:EN; auto. destruct HLst as (A & B & D).
      split; [auto|split; auto]. unfold T. rewrite D. unfold beats_before. set (n := length (in_progress (firstn k is))) in *.
      destruct (@tree_top c (rc_level0 c (mk c n) b) ltac:(lia) (level0_rng _ _ _) (level0_length _ _ _)) as (TT & TB).
      rewrite TT. unfold total. rewrite frame_bytes_app, word_total_wt, wt_app.
      replace (0 + length (frame_bytes (rc_k c) (in_progress (firstn k is))))%nat with (n * rc_k c)%nat by (rewrite frame_bytes_length; reflexivity).
      rewrite <- beat_sum by lia. apply fold_fits; auto.
      apply wt_nonneg. apply frame_bytes_range.
    - replace (rc_l c - 2 <? length is)%nat with false in HLst by (symmetry; apply Nat.ltb_ge; lia). exact HLst. }
  constructor; cbn [fst rc_stages rc_offset rc_mask rc_acc rc_csum rc_csum_valid].
  - cbn [length] in *. rewrite shift_length. lia.
  - exact FO.
  - exact FM.
  - intros l Hl. destruct l as [|l].
    + cbn [nth]. unfold stage_holds, rc_stage0. rewrite app_length. cbn [length].
      replace (0 <? length is + 1)%nat with true by (symmetry; apply Nat.ltb_lt; lia).
      replace (length is + 1 - 1 - 0)%nat with (length is) by lia. cbv zeta.
      rewrite app_nth2 by lia. rewrite Nat.sub_diag. cbn [nth].
      destruct i as [b|]; auto. cbn [cs_valid cs_last cs_sums negb tree]. split; [auto|split; auto].
      rewrite VM. unfold beats_before. rewrite firstn_app, Nat.sub_diag, firstn_all. cbn [firstn]. rewrite app_nil_r. reflexivity.
    + cbn [nth]. cbn [length] in VL. rewrite shift_nth by lia.
      pose proof (VS l ltac:(lia)) as HSl.
      destruct (Nat.lt_ge_cases l (length is)) as [HI|HI].
      * eapply stage_snoc; [exact HI|exact HSl| |].
        -- unfold rc_stage_next. cbn [cs_valid negb]. apply andb_true_r.
        -- intros V. unfold rc_stage_next. rewrite V. cbn [cs_last cs_sums]. split; auto.
      * unfold stage_holds in *. rewrite app_length. cbn [length].
        replace (S l <? length is + 1)%nat with false by (symmetry; apply Nat.ltb_ge; lia).
        replace (l <? length is)%nat with false in HSl by (symmetry; apply Nat.ltb_ge; lia).
        unfold rc_stage_next. cbn [cs_valid]. rewrite HSl. reflexivity.
  - rewrite KL. fold T. destruct (Nat.leb_spec (rc_l c - 1) (length is)) as [HK|HK].
    + rewrite firstn_app. replace (S k - length is)%nat with 0%nat by lia. rewrite firstn_O, app_nil_r.
      rewrite (@firstn_snoc_nth _ is k None) by lia. rewrite in_progress_snoc.
      destruct (nth k is None) as [b|]; [|rewrite TOK; exact VA].
      destruct TOK as (A & B & D). rewrite A, B. destruct (cb_last b); [|exact D].
      cbn. unfold ones_complement. cbn. split; [lia|split; [reflexivity|tauto]].
    + rewrite TOK. replace k with 0%nat in VA by lia. exact VA.
  - fold T. rewrite app_length. cbn [length]. destruct (Nat.leb_spec (rc_l c) (length is + 1)) as [HK|HK].
    + replace (rc_l c - 1 <=? length is)%nat with true in TOK by (symmetry; apply Nat.leb_le; lia).
      replace (length is + 1 - rc_l c)%nat with k by (unfold k; lia).
      unfold result. cbn [fst snd]. rewrite app_nth1 by lia. rewrite firstn_app.
      replace (k - length is)%nat with 0%nat by lia. cbn [firstn]. rewrite app_nil_r.
      destruct (nth k is None) as [b|]; [|rewrite TOK; reflexivity].
      destruct TOK as (A & B & D). rewrite A, B. destruct (cb_last b); cbn; auto.
    + replace (rc_l c - 1 <=? length is)%nat with false in TOK by (symmetry; apply Nat.leb_gt; lia). rewrite TOK. reflexivity.
Qed.

Lemma inv_run c : (2 <= rc_l c <= 16)%nat -> start_ok c -> forall is,
  inv c is (fst (trace (rc_step c) (rc_init c) (map (pair false) is))).
Proof.
  intros HL HS. induction is as [|i is IH] using rev_ind.
  - apply inv_init. auto.
  - rewrite map_app, trace_app. destruct (trace (rc_step c) (rc_init c) (map (pair false) is)) as [s os]. cbn [fst] in IH.
    cbn [map trace]. pose proof (@inv_step c is s i HL HS IH) as H.
    destruct (rc_step c s (false, i)) as [s' o]. exact H.
Qed.

Lemma trace_nth {S I O} (step : S -> I -> S * O) d di : forall is s t, (t < length is)%nat ->
  nth t (snd (trace step s is)) d = snd (step (fst (trace step s (firstn t is))) (nth t is di)).
Proof.
  induction is as [|i is IH]; intros s t H; cbn in H; [lia|].
  cbn [trace]. destruct (step s i) as [s1 o] eqn:E. specialize (IH s1).
  destruct (trace step s1 is) as [s2 os] eqn:E2. cbn [snd] in *. destruct t as [|t].
  - cbn. rewrite E. reflexivity.
  - cbn [nth firstn trace]. rewrite E. rewrite IH by lia. destruct (trace step s1 (firstn t is)). reflexivity.
Qed.

Lemma csum_at c is t : (2 <= rc_l c <= 16)%nat -> start_ok c -> (t + rc_l c < length is)%nat ->
  result c is t (nth (t + rc_l c) (snd (trace (rc_step c) (rc_init c) (map (pair false) is))) (false, 0)).
Proof.
  intros HL HS H. rewrite (@trace_nth _ _ _ (rc_step c) (false, 0) (false, None)) by (rewrite map_length; auto).
  rewrite (firstn_map (pair false)). 
  pose proof (@inv_run c HL HS (firstn (t + rc_l c) is)) as [_ _ _ _ _ VU].
  rewrite firstn_length, Nat.min_l in VU by lia.
  replace (rc_l c <=? t + rc_l c)%nat with true in VU by (symmetry; apply Nat.leb_le; lia).
  replace (t + rc_l c - rc_l c)%nat with t in VU by lia.
  destruct (trace (rc_step c) (rc_init c) (map (pair false) (firstn (t + rc_l c) is))) as [s os]. cbn [fst] in *.
  assert (EO : forall i, snd (rc_step c s i) = (rc_csum_valid s, rc_csum s)).
  { intros [r b]. unfold rc_step. destruct (rc_front _ _ _ _ _). reflexivity. }
  rewrite EO. unfold result in *. rewrite firstn_firstn, Nat.min_l in VU by lia.
  replace (nth t (firstn (t + rc_l c) is) None) with (nth t is None) in VU.
  { exact VU. }
  rewrite <- (firstn_skipn (t + rc_l c) is) at 1. apply app_nth1. rewrite firstn_length. lia.
Qed.

Lemma csum_early c is t : (2 <= rc_l c <= 16)%nat -> start_ok c -> (t < rc_l c)%nat -> (t < length is)%nat ->
  fst (nth t (snd (trace (rc_step c) (rc_init c) (map (pair false) is))) (false, 0)) = false.
Proof.
  intros HL HS H HI. rewrite (@trace_nth _ _ _ (rc_step c) (false, 0) (false, None)) by (rewrite map_length; auto).
  rewrite (firstn_map (pair false)).
  pose proof (@inv_run c HL HS (firstn t is)) as [_ _ _ _ _ VU].
  rewrite firstn_length, Nat.min_l in VU by lia.
  replace (rc_l c <=? t)%nat with false in VU by (symmetry; apply Nat.leb_gt; lia).
  destruct (trace (rc_step c) (rc_init c) (map (pair false) (firstn t is))) as [s os]. cbn [fst] in *.
  destruct (nth t (map (pair false) is) (false, None)) as [r b]. unfold rc_step.
  destruct (rc_front _ _ _ _ _). exact VU.
Qed.

(** * Packed frames *)
From Verif Require Import Net.Codec_spec.

Lemma oc_unique t a b : ones_complement t a -> ones_complement t b -> a = b.
Proof.
  intros (A1 & A2 & A3) (B1 & B2 & B3).
  assert (E : a mod 65535 = b mod 65535) by congruence.
  destruct (Z.eq_dec a 65535) as [->|NA], (Z.eq_dec b 65535) as [->|NB]; auto.
  - rewrite Z_mod_same_full, (Z.mod_small b) in E by lia. subst b. lia.
  - rewrite Z_mod_same_full, (Z.mod_small a) in E by lia. subst a. lia.
  - rewrite !Z.mod_small in E by lia. auto.
Qed.

Lemma oadd_oc t a w : 0 <= t -> 0 <= w <= 65535 -> ones_complement t a -> ones_complement (t + w) (oadd a w).
Proof.
  intros Ht Hw (A1 & A2 & A3). unfold oadd. cbv zeta. destruct (Z.ltb_spec (a + w) 65536).
  - split; [lia|]. split; [|lia]. rewrite Z.add_mod, A2, <- Z.add_mod by lia. reflexivity.
  - split; [lia|]. split; [|lia]. replace (a + w - 65535) with (a + w + (-1) * 65535) by lia. rewrite Z.mod_add by lia.
    rewrite Z.add_mod, A2, <- Z.add_mod by lia. reflexivity.
Qed.

Lemma fold_oadd : forall ws t a, 0 <= t -> Forall (fun w => 0 <= w <= 65535) ws -> ones_complement t a ->
  ones_complement (t + sum ws) (fold_left oadd ws a).
Proof.
  induction ws as [|w ws IH]; intros t a Ht F H; cbn [fold_left sum fold_right].
  - rewrite Z.add_0_r. exact H.
  - inversion F; subst. replace (t + (w + fold_right Z.add 0 ws)) with ((t + w) + sum ws) by (unfold sum; lia).
    apply IH; auto; [lia|]. apply oadd_oc; auto.
Qed.

Lemma two_ind {A} (P : list A -> Prop) : P [] -> (forall a, P [a]) -> (forall a b l, P l -> P (a :: b :: l)) -> forall l, P l.
Proof.
  intros H0 H1 H2. assert (Q : forall l, P l /\ forall a, P (a :: l)).
  { induction l as [|x l [PA PB]]; split; auto. }
  intros l. apply Q.
Qed.

Lemma words_range l : octets l -> Forall (fun w => 0 <= w <= 65535) (words l).
Proof.
  induction l as [|a|a b l IH] using two_ind; intros H; cbn [words]; auto.
  - inversion H as [|? ? Ha _]; subst. unfold octet in Ha. constructor; auto. lia.
  - inversion H as [|? ? Ha H']; subst. inversion H' as [|? ? Hb Hl]; subst. unfold octet in *.
    constructor; auto. lia.
Qed.

Lemma ones_sum_oc l : octets l -> ones_complement (sum (words l)) (ones_sum l).
Proof.
  intros H. apply (@fold_oadd (words l) 0 0); [lia|apply words_range; auto|].
  unfold ones_complement. split; [lia|split; [reflexivity|tauto]].
Qed.

Definition alt (l : list Z) : Z :=
  sum (map (fun i => nth i l 0 * (if Nat.even i then 256 else 1)) (seq 0 (length l))).

Lemma words_alt l : sum (words l) = alt l.
Proof.
  induction l as [|a|a b l IH] using two_ind; cbn [words]; auto.
  change (sum (a * 256 + b :: words l)) with (a * 256 + b + sum (words l)). rewrite IH. unfold alt.
  change (length (a :: b :: l)) with (2 + length l)%nat. rewrite seq_app, map_app, sum_app.
  change (seq (0 + 2) (length l)) with (seq 2 (length l)). 
  replace (seq 2 (length l)) with (map S (map S (seq 0 (length l)))) by (rewrite !seq_shift; reflexivity).
  rewrite !map_map. cbn [nth]. cbn [seq map sum fold_right Nat.even nth]. unfold sum. lia.
Qed.

Lemma wt_zeros start off n : wt start off (repeat 0 n) = 0.
Proof.
  unfold wt. rewrite repeat_length.
  rewrite (@sum_ext _ _ (fun _ => 0)).
  - generalize (seq 0 n). unfold sum. induction l; cbn; auto.
  - intros i _. rewrite nth_repeat_any. destruct (_ <=? _)%nat; reflexivity.
Qed.

Lemma wt_before start off l : (off + length l <= start)%nat -> wt start off l = 0.
Proof.
  intros H. unfold wt. rewrite (@sum_ext _ _ (fun _ => 0)).
  - generalize (seq 0 (length l)). unfold sum. induction l0; cbn; auto.
  - intros i Hi. apply in_seq in Hi. replace (start <=? off + i)%nat with false by (symmetry; apply Nat.leb_gt; lia). reflexivity.
Qed.

Lemma wt_after start l : Nat.even start = true -> wt start start l = alt l.
Proof.
  intros E. unfold wt, alt. apply sum_ext. intros i _.
  replace (start <=? start + i)%nat with true by (symmetry; apply Nat.leb_le; lia).
  rewrite Nat.even_add, E. destruct (Nat.even i); reflexivity.
Qed.

Lemma total_packed c f fb n : Nat.even (rc_start c) = true -> frame_bytes (rc_k c) f = fb ++ repeat 0 n ->
  total c f = sum (words (skipn (rc_start c) fb)).
Proof.
  intros E H. unfold total. rewrite H, word_total_wt, wt_app, wt_zeros, Z.add_0_r.
  rewrite <- (firstn_skipn (rc_start c) fb) at 1. rewrite wt_app.
  rewrite wt_before by (rewrite firstn_length; lia). rewrite Z.add_0_l.
  destruct (Nat.le_gt_cases (rc_start c) (length fb)) as [L|L].
  - rewrite firstn_length, Nat.min_l by lia. cbn [plus]. rewrite wt_after, words_alt by auto. reflexivity.
  - rewrite skipn_all2 by lia. reflexivity.
Qed.

Lemma csum_packed c is t b fb n : (2 <= rc_l c <= 16)%nat -> start_ok c -> Nat.even (rc_start c) = true ->
  (t + rc_l c < length is)%nat -> nth t is None = Some b -> cb_last b = true ->
  frame_bytes (rc_k c) (in_progress (firstn t is) ++ [b]) = fb ++ repeat 0 n -> octets fb ->
  nth (t + rc_l c) (snd (trace (rc_step c) (rc_init c) (map (pair false) is))) (false, 0) =
  (true, ones_sum (skipn (rc_start c) fb)).
Proof.
  intros HL HS HE H EN EL EF HO. pose proof (@csum_at c is t HL HS H) as R. unfold result in R. rewrite EN, EL in R.
  destruct (nth (t + rc_l c) _ _) as [v x]. cbn [fst snd] in R. destruct R as [-> R]. f_equal.
  rewrite (@total_packed c _ fb n HE EF) in R. eapply oc_unique; [exact R|].
  apply ones_sum_oc. unfold octets in *. rewrite <- (firstn_skipn (rc_start c) fb) in HO. apply Forall_app in HO. apply HO.
Qed.
