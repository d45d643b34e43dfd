(** Bit fields of non-negative integers, and the few facts about them that the
    hardware proofs use.  No claims live here. *)
From Verif Require Import Base.Prelude.
Open Scope Z_scope.

(** [bits x lo w]: Verilog [x[lo+w-1:lo]]. *)
Definition bits (x lo w : Z) : Z := (x / 2 ^ lo) mod 2 ^ w.

(** [setbits x lo w v]: [x] with the field [lo+w-1:lo] replaced by [v]. *)
Definition setbits (x lo w v : Z) : Z :=
  x - bits x lo w * 2 ^ lo + (v mod 2 ^ w) * 2 ^ lo.

Lemma pow2_pos n : 0 <= n -> 0 < 2 ^ n.
Proof. intros. apply Z.pow_pos_nonneg; lia. Qed.

Lemma bits_range x lo w : 0 <= w -> 0 <= bits x lo w < 2 ^ w.
Proof. intros. unfold bits. apply Z.mod_pos_bound, pow2_pos; auto. Qed.

Lemma bits_testbit x lo w n :
  0 <= lo -> 0 <= w -> 0 <= n ->
  Z.testbit (bits x lo w) n = (Z.testbit x (n + lo) && (n <? w))%bool.
Proof.
  intros Hl Hw Hn. unfold bits.
  rewrite <- Z.shiftr_div_pow2 by lia.
  destruct (Z.ltb_spec n w).
  - rewrite Z.mod_pow2_bits_low by lia.
    rewrite Z.shiftr_spec by lia. now rewrite andb_true_r.
  - rewrite Z.mod_pow2_bits_high by lia. now rewrite andb_false_r.
Qed.

Lemma bits_full x w : 0 <= w -> 0 <= x < 2 ^ w -> bits x 0 w = x.
Proof.
  intros. unfold bits. rewrite Z.pow_0_r, Z.div_1_r, Z.mod_small; auto.
Qed.

Definition b2z (b : bool) : Z := if b then 1 else 0.

(** Wrap-around helpers. *)
Lemma mod_add_eq_cancel a b c N :
  0 < N -> 0 <= b < N -> 0 <= c < N ->
  (a + b) mod N = (a + c) mod N -> b = c.
Proof.
  intros HN Hb Hc H.
  assert (E : ((a + b) - (a + c)) mod N = 0).
  { rewrite Zminus_mod, H, Z.sub_diag. apply Zmod_0_l. }
  replace (a + b - (a + c)) with (b - c) in E by lia.
  apply Z.mod_divide in E; [|lia]. destruct E as [k Hk].
  assert (k = 0) by nia. lia.
Qed.

Lemma bits_div x lo w k :
  0 <= lo -> 0 <= k <= w -> bits x lo w / 2 ^ k = bits x (lo + k) (w - k).
Proof.
  intros Hl Hk. apply Z.bits_inj'. intros n Hn.
  rewrite <- Z.shiftr_div_pow2, Z.shiftr_spec by lia.
  rewrite !bits_testbit by lia.
  replace (n + k + lo) with (n + (lo + k)) by lia.
  destruct (Z.ltb_spec (n + k) w), (Z.ltb_spec n (w - k)); auto; lia.
Qed.

Lemma bits_lo0 x w : bits x 0 w = x mod 2 ^ w.
Proof. unfold bits. rewrite Z.pow_0_r, Z.div_1_r. reflexivity. Qed.

Lemma testbit_odd_div x n : 0 <= n -> Z.testbit x n = Z.odd (x / 2 ^ n).
Proof. intros. rewrite Z.testbit_odd, Z.shiftr_div_pow2; auto. Qed.

Lemma bits_land x lo w :
  0 <= lo -> 0 <= w -> bits x lo w * 2 ^ lo = Z.land x (Z.shiftl (Z.ones w) lo).
Proof.
  intros Hl Hw. apply Z.bits_inj'. intros n Hn.
  rewrite <- Z.shiftl_mul_pow2 by lia.
  rewrite Z.shiftl_spec, Z.land_spec, Z.shiftl_spec by lia.
  destruct (Z.ltb_spec n lo).
  - rewrite !(Z.testbit_neg_r _ (n - lo)) by lia. now rewrite andb_false_r.
  - rewrite bits_testbit by lia. replace (n - lo + lo) with n by lia. f_equal.
    rewrite Z.testbit_ones_nonneg by lia. reflexivity.
Qed.

Lemma setbits_testbit x lo w v n :
  0 <= lo -> 0 <= w -> 0 <= n ->
  Z.testbit (setbits x lo w v) n =
  if ((lo <=? n) && (n <? lo + w))%bool then Z.testbit v (n - lo) else Z.testbit x n.
Proof.
  intros Hl Hw Hn. unfold setbits. rewrite bits_land by lia.
  set (m := Z.shiftl (Z.ones w) lo).
  assert (Hm : forall k, 0 <= k -> Z.testbit m k = ((lo <=? k) && (k <? lo + w))%bool).
  { intros k Hk. unfold m. rewrite Z.shiftl_spec by lia.
    destruct (Z.leb_spec lo k).
    - rewrite Z.testbit_ones_nonneg by lia.
      destruct (Z.ltb_spec (k - lo) w), (Z.ltb_spec k (lo + w)); auto; lia.
    - rewrite Z.testbit_neg_r by lia. reflexivity. }
  assert (E1 : x - Z.land x m = Z.ldiff x m).
  { rewrite Z.sub_nocarry_ldiff.
    - apply Z.bits_inj'. intros k Hk. rewrite !Z.ldiff_spec, Z.land_spec.
      destruct (Z.testbit x k), (Z.testbit m k); reflexivity.
    - apply Z.bits_inj'. intros k Hk. rewrite Z.ldiff_spec, Z.land_spec, Z.bits_0.
      destruct (Z.testbit x k), (Z.testbit m k); reflexivity. }
  rewrite E1.
  assert (Hv : forall k, 0 <= k -> Z.testbit (v mod 2 ^ w * 2 ^ lo) k =
             (((lo <=? k) && (k <? lo + w)) && Z.testbit v (k - lo))%bool).
  { intros k Hk. rewrite <- Z.shiftl_mul_pow2, Z.shiftl_spec by lia.
    destruct (Z.leb_spec lo k).
    - destruct (Z.ltb_spec k (lo + w)).
      + rewrite Z.mod_pow2_bits_low by lia. reflexivity.
      + rewrite Z.mod_pow2_bits_high by lia. reflexivity.
    - rewrite Z.testbit_neg_r by lia. reflexivity. }
  rewrite Z.add_nocarry_lxor.
  - rewrite Z.lxor_spec, Z.ldiff_spec, Hm, Hv by lia.
    destruct ((lo <=? n) && (n <? lo + w))%bool; simpl.
    + rewrite andb_false_r. destruct (Z.testbit v (n - lo)); reflexivity.
    + rewrite andb_true_r, xorb_false_r. reflexivity.
  - apply Z.bits_inj'. intros k Hk. rewrite Z.land_spec, Z.ldiff_spec, Hm, Hv, Z.bits_0 by lia.
    destruct ((lo <=? k) && (k <? lo + w))%bool, (Z.testbit x k), (Z.testbit v (k - lo)); reflexivity.
Qed.
