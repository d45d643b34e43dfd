(** Masks of consecutive bits, in arithmetic terms.  No model content. *)
From Verif Require Import Base.Prelude Base.Bits.
Open Scope Z_scope.

Lemma land_hi a n k : 0 <= k <= n -> Z.land a (2 ^ n - 2 ^ k) = a mod 2 ^ n - a mod 2 ^ k.
Proof.
  intros H. set (m := n - k). assert (Hm : 0 <= m) by (unfold m; lia).
  assert (E : 2 ^ n - 2 ^ k = Z.shiftl (Z.ones m) k).
  { rewrite Z.shiftl_mul_pow2, Z.ones_equiv by lia. unfold m.
    replace n with ((n - k) + k) at 1 by lia. rewrite Z.pow_add_r by lia. lia. }
  assert (E2 : Z.land a (Z.shiftl (Z.ones m) k) = Z.shiftl (Z.land (Z.shiftr a k) (Z.ones m)) k).
  { apply Z.bits_inj'. intros i Hi. rewrite Z.land_spec, !Z.shiftl_spec by lia.
    destruct (Z.ltb_spec i k).
    - rewrite !(Z.testbit_neg_r _ (i - k)) by lia. apply andb_false_r.
    - rewrite Z.land_spec, Z.shiftr_spec by lia. replace (i - k + k) with i by lia. reflexivity. }
  rewrite E, E2, Z.land_ones, Z.shiftl_mul_pow2, Z.shiftr_div_pow2 by lia.
  pose proof (@pow2_pos k ltac:(lia)). pose proof (@pow2_pos m ltac:(lia)).
  replace (2 ^ n) with (2 ^ k * 2 ^ m) by (rewrite <- Z.pow_add_r by lia; f_equal; unfold m; lia).
  rewrite Z.rem_mul_r by lia. lia.
Qed.
Lemma land_neg a k : 0 <= k -> Z.land a (- 2 ^ k) = a - a mod 2 ^ k.
Proof.
  intros H. replace (- 2 ^ k) with (Z.lnot (Z.ones k)) by (rewrite Z.ones_equiv; unfold Z.lnot; lia).
  rewrite <- Z.ldiff_land, Z.ldiff_ones_r, Z.shiftl_mul_pow2, Z.shiftr_div_pow2 by lia.
  pose proof (Z.div_mod a (2 ^ k) ltac:(pose proof (@pow2_pos k H); lia)). lia.
Qed.
Lemma lnot_pow k : Z.lnot (2 ^ k - 1) = - 2 ^ k.
Proof. unfold Z.lnot. lia. Qed.
Lemma lor_low t L n : 0 <= n -> 0 <= t < 2 ^ n -> L mod 2 ^ n = 0 -> Z.lor t L = t + L.
Proof.
  intros Hn Ht HL. assert (Z.land t L = 0).
  { apply Z.bits_inj'. intros i Hi. rewrite Z.land_spec, Z.bits_0.
    destruct (Z.ltb_spec i n).
    - replace (Z.testbit L i) with false; [apply andb_false_r|].
      symmetry. rewrite <- (Z.mod_pow2_bits_low L n i) by lia. rewrite HL. apply Z.bits_0.
    - replace (Z.testbit t i) with false; [reflexivity|]. symmetry.
      destruct (Z.eq_dec t 0) as [->|]; [apply Z.bits_0|]. apply Z.bits_above_log2; [lia|].
      assert (Z.log2 t < n) by (apply Z.log2_lt_pow2; lia). lia. }
  rewrite Z.add_nocarry_lxor by auto. symmetry. apply Z.bits_inj'. intros i Hi.
  rewrite Z.lxor_spec, Z.lor_spec. pose proof (f_equal (fun x => Z.testbit x i) H) as X. cbv beta in X.
  rewrite Z.land_spec, Z.bits_0 in X. destruct (Z.testbit t i), (Z.testbit L i); cbn in *; congruence.
Qed.
Lemma lor_ones a n : 0 <= n -> Z.lor a (2 ^ n - 1) = a - a mod 2 ^ n + (2 ^ n - 1).
Proof.
  intros Hn. pose proof (@pow2_pos n Hn).
  assert (E : Z.lor a (2 ^ n - 1) = Z.lor (2 ^ n - 1) (a - a mod 2 ^ n)).
  { rewrite <- land_neg by auto. apply Z.bits_inj'. intros i Hi. rewrite !Z.lor_spec, Z.land_spec.
    replace (2 ^ n - 1) with (Z.ones n) by (rewrite Z.ones_equiv; lia).
    replace (- 2 ^ n) with (Z.lnot (Z.ones n)) by (rewrite Z.ones_equiv; unfold Z.lnot; lia).
    rewrite Z.lnot_spec by lia. destruct (Z.testbit a i), (Z.testbit (Z.ones n) i); reflexivity. }
  rewrite E, (@lor_low _ _ n) by (try lia; rewrite Zminus_mod_idemp_r, Z.sub_diag; reflexivity). lia.
Qed.
Lemma land_15 a : Z.land a 15 = a mod 16.
Proof. change 15 with (Z.ones 4). rewrite Z.land_ones by lia. reflexivity. Qed.
Lemma land_32 a : Z.land a 0xffffffff = a mod 2 ^ 32.
Proof. change 0xffffffff with (Z.ones 32). apply Z.land_ones. lia. Qed.
Lemma land_64 a : Z.land a 0xffffffffffffffff = a mod 2 ^ 64.
Proof. change 0xffffffffffffffff with (Z.ones 64). apply Z.land_ones. lia. Qed.
Lemma lnot_eq a : Z.lnot a = - a - 1.
Proof. unfold Z.lnot. lia. Qed.
Lemma pow2_mul a b : 0 <= a -> 0 <= b -> 2 ^ (a + b) = 2 ^ a * 2 ^ b.
Proof. intros. apply Z.pow_add_r; auto. Qed.
Lemma pow2_split a b : 0 <= a <= b -> 2 ^ b = 2 ^ a * 2 ^ (b - a).
Proof. intros. rewrite <- Z.pow_add_r by lia. f_equal. lia. Qed.
Lemma pow2_divide a b : 0 <= a <= b -> (2 ^ a | 2 ^ b).
Proof. intros H. exists (2 ^ (b - a)). rewrite (@pow2_split a b) by auto. lia. Qed.
