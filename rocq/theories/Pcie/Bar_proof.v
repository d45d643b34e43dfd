(** Proofs about base address registers. *)
From Verif Require Import Base.Prelude Base.Bits Base.Masks Pcie.Mem_model Pcie.Host_proof Pcie.Bar_model Pcie.Bar_spec.
Open Scope Z_scope.

(** * byte_mask_update *)
Lemma land_pow_test mask k : 0 <= k -> (Z.land mask (2 ^ k) =? 0) = negb (Z.testbit mask k).
Proof.
  intros Hk. destruct (Z.testbit mask k) eqn:E; cbn.
  - apply Z.eqb_neq. intros H. assert (X := f_equal (fun x => Z.testbit x k) H). cbv beta in X.
    rewrite Z.land_spec, Z.bits_0, Z.pow2_bits_true, E in X by lia. discriminate.
  - apply Z.eqb_eq. apply Z.bits_inj'. intros i Hi. rewrite Z.land_spec, Z.bits_0.
    destruct (Z.eq_dec i k) as [->|N]; [rewrite E; reflexivity|].
    rewrite Z.pow2_bits_false by lia. apply andb_false_r.
Qed.
Lemma byte_bits k i : 0 <= k -> 0 <= i -> Z.testbit (0xff * 256 ^ k) i = ((8 * k <=? i) && (i <? 8 * k + 8)).
Proof.
  intros Hk Hi. replace (0xff * 256 ^ k) with (Z.shiftl (Z.ones 8) (8 * k)).
  - rewrite Z.shiftl_spec by lia. destruct (Z.leb_spec (8 * k) i).
    + rewrite Z.testbit_ones_nonneg by lia. cbn [andb]. lia.
    + rewrite Z.testbit_neg_r by lia. reflexivity.
  - rewrite Z.shiftl_mul_pow2 by lia. rewrite Z.pow_mul_r by lia. reflexivity.
Qed.
Lemma bmu_loop_bits mask new : forall n k old i, 0 <= k -> 0 <= i ->
  Z.testbit (bmu_loop n (2 ^ k) (0xff * 256 ^ k) old mask new) i =
  if Z.testbit mask (i / 8) && (k <=? i / 8) && (i / 8 <? k + Z.of_nat n) then Z.testbit new i else Z.testbit old i.
Proof.
  induction n as [|n IH]; intros k old i Hk Hi.
  - cbn [bmu_loop]. replace ((k <=? i / 8) && (i / 8 <? k + Z.of_nat 0)) with false by lia.
    rewrite <- andb_assoc. replace ((k <=? i / 8) && (i / 8 <? k + Z.of_nat 0)) with false by lia.
    rewrite andb_false_r. reflexivity.
  - cbn [bmu_loop].
    replace (2 ^ k * 2) with (2 ^ (k + 1)) by (rewrite Z.pow_add_r by lia; lia).
    replace (0xff * 256 ^ k * 256) with (0xff * 256 ^ (k + 1)) by (rewrite Z.pow_add_r by lia; lia).
    rewrite IH by lia. rewrite land_pow_test by auto.
    assert (D := Z.div_mod i 8 ltac:(lia)). assert (M := Z.mod_pos_bound i 8 ltac:(lia)).
    destruct (Z.eq_dec (i / 8) k) as [E|E].
    + rewrite E. replace (k + 1 <=? k) with false by lia. replace (k <=? k) with true by lia.
      replace (k <? k + Z.of_nat (S n)) with true by lia. rewrite !andb_true_r, andb_false_r. cbn [andb].
      destruct (Z.testbit mask k); cbn [negb]; [|reflexivity].
      rewrite Z.lor_spec, !Z.land_spec, Z.lnot_spec, byte_bits by lia.
      replace ((8 * k <=? i) && (i <? 8 * k + 8)) with true by lia.
      cbn. rewrite andb_false_r, andb_true_r. reflexivity.
    + replace (k + 1 <=? i / 8) with (k <=? i / 8) by lia.
      replace (i / 8 <? k + 1 + Z.of_nat n) with (i / 8 <? k + Z.of_nat (S n)) by lia.
      destruct (Z.testbit mask (i / 8) && (k <=? i / 8) && (i / 8 <? k + Z.of_nat (S n))); [reflexivity|].
      destruct (Z.testbit mask k); cbn [negb]; [|reflexivity].
      rewrite Z.lor_spec, !Z.land_spec, Z.lnot_spec, byte_bits by lia.
      replace ((8 * k <=? i) && (i <? 8 * k + 8)) with false by lia.
      cbn. rewrite andb_true_r, andb_false_r, orb_false_r. reflexivity.
Qed.
Lemma bmu_bits old mask new bm i : 0 <= mask -> 0 <= i ->
  Z.testbit (byte_mask_update old mask new bm) i =
  if Z.testbit mask (i / 8) && Z.testbit bm i then Z.testbit new i else Z.testbit old i.
Proof.
  intros Hm Hi. unfold byte_mask_update.
  pose proof (@bmu_loop_bits mask (Z.lor (Z.land new bm) (Z.land old (Z.lnot bm)))
    (if mask <=? 0 then 0%nat else Z.to_nat (Z.log2 mask + 1)) 0 old i ltac:(lia) Hi) as H.
  change (2 ^ 0) with 1 in H. change (0xff * 256 ^ 0) with 0xff in H. rewrite H. clear H.
  assert (D : 0 <= i / 8) by (apply Z.div_pos; lia).
  assert (E : Z.testbit mask (i / 8) && (0 <=? i / 8) &&
     (i / 8 <? 0 + Z.of_nat (if mask <=? 0 then 0%nat else Z.to_nat (Z.log2 mask + 1))) = Z.testbit mask (i / 8)).
  { destruct (Z.leb_spec mask 0) as [L|L].
    - replace mask with 0 by lia. rewrite Z.bits_0. reflexivity.
    - pose proof (Z.log2_nonneg mask). rewrite Z2Nat.id by lia. destruct (Z.testbit mask (i / 8)) eqn:T; [|reflexivity].
      assert (i / 8 <= Z.log2 mask).
      { destruct (Z.leb_spec (i / 8) (Z.log2 mask)); [auto|].
        rewrite Z.bits_above_log2 in T by lia. discriminate. }
      lia. }
  rewrite E. destruct (Z.testbit mask (i / 8)); [|reflexivity].
  rewrite Z.lor_spec, !Z.land_spec, Z.lnot_spec by lia. cbn [andb].
  destruct (Z.testbit bm i), (Z.testbit new i), (Z.testbit old i); reflexivity.
Qed.

Lemma testbit_small x n i : 0 <= x < 2 ^ n -> n <= i -> 0 <= n -> Z.testbit x i = false.
Proof.
  intros Hx Hi Hn. destruct (Z.eq_dec x 0) as [->|]; [apply Z.bits_0|]. apply Z.bits_above_log2; [lia|].
  assert (Z.log2 x < n) by (apply Z.log2_lt_pow2; lia). lia.
Qed.

(** A whole-register write through a mask with the low [k] bits fixed. *)
Lemma write_whole old data k : 0 <= old < 2 ^ 32 -> 0 <= data < 2 ^ 32 -> 0 <= k <= 32 ->
  byte_mask_update old 0xf data (2 ^ 32 - 2 ^ k) = data - data mod 2 ^ k + old mod 2 ^ k.
Proof.
  intros Ho Hd Hk.
  assert (P : 0 < 2 ^ k) by (apply pow2_pos; lia).
  transitivity (Z.lor (old mod 2 ^ k) (data - data mod 2 ^ k)).
  - apply Z.bits_inj'. intros i Hi. rewrite bmu_bits by lia. rewrite Z.lor_spec.
    assert (DD : data - data mod 2 ^ k = Z.land data (2 ^ 32 - 2 ^ k)).
    { rewrite land_hi by lia. rewrite (Z.mod_small data (2 ^ 32)) by lia. reflexivity. }
    assert (TM : forall i, 0 <= i -> Z.testbit (2 ^ 32 - 2 ^ k) i = (k <=? i) && (i <? 32)).
    { intros j Hj. replace (2 ^ 32 - 2 ^ k) with (Z.shiftl (Z.ones (32 - k)) k).
      - rewrite Z.shiftl_spec by lia. destruct (Z.leb_spec k j).
        + rewrite Z.testbit_ones_nonneg by lia. cbn [andb]. lia.
        + rewrite Z.testbit_neg_r by lia. reflexivity.
      - rewrite Z.shiftl_mul_pow2, Z.ones_equiv by lia.
        rewrite (@pow2_split k 32) by lia. lia. }
    rewrite DD, Z.land_spec, TM by auto.
    destruct (Z.ltb_spec i 32) as [L|L].
    + replace (Z.testbit 15 (i / 8)) with true.
      2:{ assert (H8 : 0 <= i / 8 < 4) by (split; [apply Z.div_pos; lia|apply Z.div_lt_upper_bound; lia]).
          assert (C : i / 8 = 0 \/ i / 8 = 1 \/ i / 8 = 2 \/ i / 8 = 3) by lia.
          destruct C as [-> | [-> | [-> | ->]]]; reflexivity. }
      cbn [andb]. rewrite andb_true_r. destruct (Z.leb_spec k i).
      * rewrite Z.mod_pow2_bits_high by lia. cbn. rewrite andb_true_r. reflexivity.
      * rewrite Z.mod_pow2_bits_low by lia. rewrite andb_false_r, orb_false_r. reflexivity.
    + rewrite !andb_false_r. rewrite orb_false_r.
      rewrite (@testbit_small old 32) by lia.
      symmetry. apply (@testbit_small _ 32); [|lia|lia].
      pose proof (Z.mod_pos_bound old (2 ^ k) P). pose proof (Z.mod_le old (2 ^ k) ltac:(lia) P). lia.
  - rewrite (@lor_low _ _ k); [lia|lia|apply Z.mod_pos_bound; lia|].
    rewrite Zminus_mod_idemp_r, Z.sub_diag. reflexivity.
Qed.

(** * Lists *)
Lemma nth_mid {A} (pre : list A) x post d : nth (length pre) (pre ++ x :: post) d = x.
Proof. rewrite app_nth2 by lia. rewrite Nat.sub_diag. reflexivity. Qed.
Lemma lset_mid {A} (pre : list A) x post y : lset (pre ++ x :: post) (length pre) y = pre ++ y :: post.
Proof. induction pre as [|a pre IH]; cbn; [reflexivity|]. f_equal. exact IH. Qed.

Lemma nth_mid_eq {A} (pre : list A) x post d i : i = length pre -> nth i (pre ++ x :: post) d = x.
Proof. intros ->. apply nth_mid. Qed.
Lemma lset_mid_eq {A} (pre : list A) x post y i : i = length pre -> lset (pre ++ x :: post) i y = pre ++ y :: post.
Proof. intros ->. apply lset_mid. Qed.

Definition fn (l : list (Z * Z)) : func := mkFunc (map fst l) (map snd l).
Lemma bar_write_fn pre v m post data k : 0 <= v < 2 ^ 32 -> 0 <= data < 2 ^ 32 -> 0 <= k <= 32 -> m = 2 ^ 32 - 2 ^ k ->
  bar_write (fn (pre ++ (v, m) :: post)) (length pre) data 0xf =
  fn (pre ++ (data - data mod 2 ^ k + v mod 2 ^ k, m) :: post).
Proof.
  intros Hv Hd Hk ->. unfold bar_write, reg_of, mask_of, fn. cbn [f_bar f_mask]. rewrite !map_app. cbn [map fst snd].
  rewrite !nth_mid_eq, lset_mid_eq by (rewrite map_length; reflexivity). rewrite write_whole by lia. reflexivity.
Qed.
Lemma bar_read_fn pre v m post : bar_read (fn (pre ++ (v, m) :: post)) (length pre) = v.
Proof.
  unfold bar_read, reg_of, fn. cbn [f_bar]. rewrite map_app. cbn [map fst].
  rewrite <- (map_length fst pre). apply nth_mid.
Qed.

(** * Enumeration *)
Lemma land1 v : Z.land v 1 = v mod 2.
Proof. change 1 with (Z.ones 1). rewrite Z.land_ones by lia. reflexivity. Qed.
Lemma land3 v : Z.land v 3 = v mod 4.
Proof. change 3 with (Z.ones 2). rewrite Z.land_ones by lia. reflexivity. Qed.
Lemma land4 v : Z.land v 4 = v mod 8 - v mod 4.
Proof. change 4 with (2 ^ 3 - 2 ^ 2) at 1. rewrite land_hi by lia. reflexivity. Qed.
Lemma land8 v : Z.land v 8 = v mod 16 - v mod 8.
Proof. change 8 with (2 ^ 4 - 2 ^ 3) at 1. rewrite land_hi by lia. reflexivity. Qed.
Lemma lor15 v : Z.lor v 15 = v - v mod 16 + 15.
Proof. change 15 with (2 ^ 4 - 1) at 1. rewrite lor_ones by lia. reflexivity. Qed.
Lemma lor3 v : Z.lor v 3 = v - v mod 4 + 3.
Proof. change 3 with (2 ^ 2 - 1) at 1. rewrite lor_ones by lia. reflexivity. Qed.

(** [2 ^ k] as a multiple of [2 ^ j]. *)
Lemma pow_mult j k : 0 <= j <= k -> exists q, 0 < q /\ 2 ^ k = 2 ^ j * q.
Proof.
  intros H. exists (2 ^ (k - j)). split; [apply pow2_pos; lia|]. apply pow2_split. lia.
Qed.

(** Writing ones to a register with low [k] bits fixed at [t]. *)
Lemma sized k t base : 0 <= k <= 32 -> 0 <= t < 2 ^ k -> base mod 2 ^ k = 0 ->
  (2 ^ 32 - 1) - (2 ^ 32 - 1) mod 2 ^ k + (base + t) mod 2 ^ k = 2 ^ 32 - 2 ^ k + t.
Proof.
  intros Hk Ht Hb. rewrite Zplus_mod, Hb, Z.add_0_l, Z.mod_mod, (Z.mod_small t) by lia.
  destruct (@pow_mult k 32 Hk) as (q & Hq & E). rewrite E.
  replace ((2 ^ k * q - 1) mod 2 ^ k) with (2 ^ k - 1); [lia|].
  apply Zmod_unique with (q - 1); lia.
Qed.

Lemma decode_mask32 k t : 4 <= k <= 32 -> 0 <= t < 16 ->
  Z.lor (Z.land (Z.lnot (2 ^ 32 - 2 ^ k + t)) 0xffffffff) 15 = 2 ^ k - 1.
Proof.
  intros Hk Ht. rewrite lor15, land_32, lnot_eq.
  destruct (@pow_mult 4 k ltac:(lia)) as (q & Hq & E).
  assert (H : 2 ^ k <= 2 ^ 32) by (apply Z.pow_le_mono_r; lia).
  assert (H16 : 2 ^ 4 <= 2 ^ k) by (apply Z.pow_le_mono_r; lia).
  replace ((- (2 ^ 32 - 2 ^ k + t) - 1) mod 2 ^ 32) with (2 ^ k - t - 1).
  2:{ apply Zmod_unique with (-1); lia. }
  replace ((2 ^ k - t - 1) mod 16) with (15 - t); [lia|]. apply Zmod_unique with (q - 1); [lia|].
  rewrite E. change (2 ^ 4) with 16. lia.
Qed.
Lemma decode_mask64 k t : 4 <= k <= 64 -> 0 <= t < 16 ->
  Z.lor (Z.land (Z.lnot (2 ^ 64 - 2 ^ k + t)) 0xffffffffffffffff) 15 = 2 ^ k - 1.
Proof.
  intros Hk Ht. rewrite lor15, land_64, lnot_eq.
  destruct (@pow_mult 4 k ltac:(lia)) as (q & Hq & E).
  assert (H : 2 ^ k <= 2 ^ 64) by (apply Z.pow_le_mono_r; lia).
  assert (H16 : 2 ^ 4 <= 2 ^ k) by (apply Z.pow_le_mono_r; lia).
  replace ((- (2 ^ 64 - 2 ^ k + t) - 1) mod 2 ^ 64) with (2 ^ k - t - 1).
  2:{ apply Zmod_unique with (-1); lia. }
  replace ((2 ^ k - t - 1) mod 16) with (15 - t); [lia|]. apply Zmod_unique with (q - 1); [lia|].
  rewrite E. change (2 ^ 4) with 16. lia.
Qed.
Lemma decode_io k : 2 <= k <= 32 ->
  Z.lor (Z.land (Z.lnot (2 ^ 32 - 2 ^ k + 1)) 0xffffffff) 3 = 2 ^ k - 1.
Proof.
  intros Hk. rewrite lor3, land_32, lnot_eq.
  destruct (@pow_mult 2 k ltac:(lia)) as (q & Hq & E).
  assert (H : 2 ^ k <= 2 ^ 32) by (apply Z.pow_le_mono_r; lia).
  assert (H16 : 2 ^ 2 <= 2 ^ k) by (apply Z.pow_le_mono_r; lia).
  replace ((- (2 ^ 32 - 2 ^ k + 1) - 1) mod 2 ^ 32) with (2 ^ k - 1 - 1).
  2:{ apply Zmod_unique with (-1); lia. }
  replace ((2 ^ k - 1 - 1) mod 4) with 2; [lia|]. apply Zmod_unique with (q - 1); [lia|].
  rewrite E. change (2 ^ 2) with 4. lia.
Qed.

(** The type bits survive sizing. *)
Lemma low_mod n k t j : 0 <= j <= k -> k <= n -> (2 ^ n - 2 ^ k + t) mod 2 ^ j = t mod 2 ^ j.
Proof.
  intros Hj Hk. destruct (@pow_mult j k Hj) as (q & Hq & E). destruct (@pow_mult j n ltac:(lia)) as (q' & Hq' & E').
  rewrite E, E'. replace (2 ^ j * q' - 2 ^ j * q + t) with (t + (q' - q) * 2 ^ j) by lia.
  apply Z.mod_add. pose proof (@pow2_pos j ltac:(lia)). lia.
Qed.
Lemma aligned_sub a k j : 0 <= j <= k -> a mod 2 ^ k = 0 -> a mod 2 ^ j = 0.
Proof.
  intros Hj H. apply Z.mod_divide in H; [|pose proof (@pow2_pos k ltac:(lia)); lia].
  apply Z.mod_divide; [pose proof (@pow2_pos j ltac:(lia)); lia|].
  eapply Z.divide_trans; [|exact H]. apply pow2_divide. lia.
Qed.
(** Writing back base and type. *)
Lemma written k t base old : 0 <= k -> 0 <= t < 2 ^ k -> base mod 2 ^ k = 0 -> old mod 2 ^ k = t ->
  (base + t) - (base + t) mod 2 ^ k + old mod 2 ^ k = base + t.
Proof.
  intros Hk Ht Hb Ho. rewrite Ho. rewrite Zplus_mod, Hb, Z.add_0_l, Z.mod_mod, (Z.mod_small t) by lia. lia.
Qed.

Lemma size_fn pre post k t b : 0 <= k <= 32 -> 0 <= t < 2 ^ k -> b mod 2 ^ k = 0 -> 0 <= b + t < 2 ^ 32 ->
  bar_write (fn (pre ++ (b + t, 2 ^ 32 - 2 ^ k) :: post)) (length pre) 0xffffffff 0xf =
  fn (pre ++ (2 ^ 32 - 2 ^ k + t, 2 ^ 32 - 2 ^ k) :: post).
Proof.
  intros Hk Ht Hb Hr. rewrite (@bar_write_fn pre _ _ post 0xffffffff k) by (try lia; reflexivity).
  change 0xffffffff with (2 ^ 32 - 1). rewrite sized by auto. reflexivity.
Qed.
Lemma base_fn pre post k t base : 0 <= k <= 32 -> 0 <= t < 2 ^ k -> base mod 2 ^ k = 0 -> 0 <= base + t < 2 ^ 32 ->
  bar_write (fn (pre ++ (2 ^ 32 - 2 ^ k + t, 2 ^ 32 - 2 ^ k) :: post)) (length pre) (base + t) 0xf =
  fn (pre ++ (base + t, 2 ^ 32 - 2 ^ k) :: post).
Proof.
  intros Hk Ht Hb Hr. assert (2 ^ k <= 2 ^ 32) by (apply Z.pow_le_mono_r; lia).
  rewrite (@bar_write_fn pre _ _ post _ k) by (try lia; reflexivity).
  rewrite written; [reflexivity|lia|lia|auto|]. rewrite low_mod by lia. apply Z.mod_small. lia.
Qed.

Definition mono (l l' : limits) : Prop := l_io l <= l_io l' /\ l_mem l <= l_mem l' /\ l_pf l <= l_pf l'.
Lemma stacked_mono : forall ps l l', Forall (fun p => wf_decl (fst p)) ps -> stacked l ps l' -> mono l l'.
Proof.
  induction ps as [|[d b] ps IH]; intros l l' W H; cbn in H; [subst; unfold mono; lia|].
  inversion W as [|? ? W1 W2]; subst. cbn [fst] in W1.
  destruct (space_of d) as [s|] eqn:E; [|auto].
  destruct H as (_ & H1 & l1 & H2 & H3 & H4). specialize (IH _ _ W2 H4).
  assert (0 < size d) by (unfold size; apply pow2_pos; destruct d; cbn in *; lia).
  unfold mono in *.
  destruct s; [pose proof (H3 SMem ltac:(discriminate)); pose proof (H3 SPf ltac:(discriminate))
              |pose proof (H3 SIo ltac:(discriminate)); pose proof (H3 SPf ltac:(discriminate))
              |pose proof (H3 SIo ltac:(discriminate)); pose proof (H3 SMem ltac:(discriminate))];
    cbn [limit_of] in *; lia.
Qed.

(* reduce the loop body one turn *)
Lemma enum_unfold fuel bar cnt f lim : (bar < cnt)%nat ->
  enum_bars (S fuel) bar cnt f lim =
      let f := bar_write f bar 0xffffffff 0xf in
      let val := bar_read f bar in
      let next n f lim a :=
        match enum_bars fuel n cnt f lim with
        | Some (f, lim, r) => Some (f, lim, a ++ r)
        | None => None
        end in
      if val =? 0 then next (S bar) f lim []
      else if negb (Z.land val 1 =? 0) then
        let mask := Z.lor (Z.land (Z.lnot val) 0xffffffff) 3 in
        let base := align_up (l_io lim) mask in
        let v := Z.lor (Z.land val 3) base in
        next (S bar) (bar_write f bar v 0xf) (mkLim (base + (mask + 1)) (l_mem lim) (l_pf lim)) [(bar, v, mask + 1)]
      else if negb (Z.land val 4 =? 0) then
        if (cnt - 1 <=? bar)%nat then None
        else
          let f := bar_write f (S bar) 0xffffffff 0xf in
          let val := Z.lor val (Z.shiftl (bar_read f (S bar)) 32) in
          let mask := Z.lor (Z.land (Z.lnot val) 0xffffffffffffffff) 15 in
          let '(v, lim) :=
            if negb (Z.land val 8 =? 0)
            then let base := align_up (l_pf lim) mask in
                 (Z.lor (Z.land val 15) base, mkLim (l_io lim) (l_mem lim) (base + (mask + 1)))
            else let base := align_up (l_mem lim) mask in
                 (Z.lor (Z.land val 15) base, mkLim (l_io lim) (base + (mask + 1)) (l_pf lim)) in
          let f := bar_write f bar (Z.land v 0xffffffff) 0xf in
          let f := bar_write f (S bar) (Z.land (Z.shiftr v 32) 0xffffffff) 0xf in
          next (S (S bar)) f lim [(bar, v, mask + 1)]
      else
        let mask := Z.lor (Z.land (Z.lnot val) 0xffffffff) 15 in
        let base := align_up (l_mem lim) mask in
        let v := Z.lor (Z.land val 15) base in
        next (S bar) (bar_write f bar v 0xf) (mkLim (l_io lim) (base + (mask + 1)) (l_pf lim)) [(bar, v, mask + 1)].
Proof. intros H. cbn [enum_bars]. replace (cnt <=? bar)%nat with false by lia. reflexivity. Qed.

Lemma app_mid {A} (pre : list A) x post : pre ++ x :: post = (pre ++ [x]) ++ post.
Proof. rewrite <- app_assoc. reflexivity. Qed.
Lemma len_mid {A} (pre : list A) x : length (pre ++ [x]) = S (length pre).
Proof. rewrite app_length. cbn. lia. Qed.
Lemma lim_eq a b : (forall s, limit_of a s = limit_of b s) -> a = b.
Proof. intros H. destruct a as [a1 a2 a3], b as [b1 b2 b3]. pose proof (H SIo). pose proof (H SMem). pose proof (H SPf). cbn in *. congruence. Qed.

Lemma size_fn2 pre x post k b : 0 <= k <= 32 -> b mod 2 ^ k = 0 -> 0 <= b < 2 ^ 32 ->
  bar_write (fn (pre ++ x :: (b, 2 ^ 32 - 2 ^ k) :: post)) (S (length pre)) 0xffffffff 0xf =
  fn (pre ++ x :: (2 ^ 32 - 2 ^ k, 2 ^ 32 - 2 ^ k) :: post).
Proof.
  intros Hk Hb Hr. rewrite app_mid, <- (len_mid pre x). assert (0 < 2 ^ k) by (apply pow2_pos; lia).
  pose proof (@size_fn (pre ++ [x]) post k 0 b Hk ltac:(lia) Hb ltac:(lia)) as H'.
  rewrite !Z.add_0_r in H'. rewrite H'. rewrite <- app_mid. reflexivity.
Qed.
Lemma base_fn2 pre x post k base : 0 <= k <= 32 -> base mod 2 ^ k = 0 -> 0 <= base < 2 ^ 32 ->
  bar_write (fn (pre ++ x :: (2 ^ 32 - 2 ^ k, 2 ^ 32 - 2 ^ k) :: post)) (S (length pre)) base 0xf =
  fn (pre ++ x :: (base, 2 ^ 32 - 2 ^ k) :: post).
Proof.
  intros Hk Hb Hr. rewrite app_mid, <- (len_mid pre x). assert (0 < 2 ^ k) by (apply pow2_pos; lia).
  pose proof (@base_fn (pre ++ [x]) post k 0 base Hk ltac:(lia) Hb ltac:(lia)) as H'.
  rewrite !Z.add_0_r in H'. rewrite H'. rewrite <- app_mid. reflexivity.
Qed.
Lemma bar_read_fn2 pre x v m post : bar_read (fn (pre ++ x :: (v, m) :: post)) (S (length pre)) = v.
Proof. rewrite app_mid, <- (len_mid pre x). apply bar_read_fn. Qed.

(** A 64-bit base split over two registers. *)
Section Split64.
Variables k base : Z.
Hypothesis Hk : 4 <= k <= 63.
Hypothesis Hb : base mod 2 ^ k = 0.
Hypothesis Hr : 0 <= base < 2 ^ 64.
Let kl := Z.min k 32.
Let kh := Z.max 0 (k - 32).
Lemma low_aligned : (base mod 2 ^ 32) mod 2 ^ kl = 0.
Proof.
  destruct (@pow_mult kl 32 ltac:(unfold kl; lia)) as (q & Hq & E). rewrite E.
  assert (0 < 2 ^ kl) by (apply pow2_pos; unfold kl; lia).
  rewrite Z.rem_mul_r by lia. rewrite Z.mul_comm, Z.mod_add by lia. rewrite Z.mod_mod by lia.
  apply (@aligned_sub base k kl); [unfold kl; lia|exact Hb].
Qed.
Lemma low_room : base mod 2 ^ 32 + 2 ^ kl <= 2 ^ 32.
Proof.
  pose proof low_aligned as A. clear Hr. assert (P : 0 < 2 ^ kl) by (apply pow2_pos; unfold kl; lia).
  assert (B := Z.mod_pos_bound base (2 ^ 32) ltac:(lia)).
  destruct (@pow_mult kl 32 ltac:(unfold kl; lia)) as (q & Hq & E).
  apply Z.mod_divide in A; [|lia]. destruct A as [z A]. rewrite A in B |- *. rewrite E in B |- *.
  revert P B. generalize (2 ^ kl). intros p P B. assert (z < q) by nia. nia.
Qed.
Lemma high_aligned : (base / 2 ^ 32) mod 2 ^ kh = 0.
Proof.
  unfold kh. destruct (Z.leb_spec k 32) as [L|L].
  - replace (Z.max 0 (k - 32)) with 0 by lia. apply Z.mod_1_r.
  - replace (Z.max 0 (k - 32)) with (k - 32) by lia.
    assert (P : 0 < 2 ^ (k - 32)) by (apply pow2_pos; lia).
    apply Z.mod_divide in Hb; [|pose proof (@pow2_pos k ltac:(lia)); lia]. destruct Hb as [z E].
    rewrite (@pow2_split 32 k) in E by lia. rewrite E.
    replace (z * (2 ^ 32 * 2 ^ (k - 32))) with (z * 2 ^ (k - 32) * 2 ^ 32) by lia.
    rewrite Z.div_mul by lia. apply Z.mod_mul. lia.
Qed.
End Split64.
Lemma high_range base : 0 <= base < 2 ^ 64 -> 0 <= base / 2 ^ 32 < 2 ^ 32.
Proof. intros Hr. split; [apply Z.div_pos; lia|apply Z.div_lt_upper_bound; lia]. Qed.
Lemma masks64 k : 4 <= k <= 63 ->
  (2 ^ 32 - 2 ^ Z.min k 32) + (2 ^ 32 - 2 ^ Z.max 0 (k - 32)) * 2 ^ 32 = 2 ^ 64 - 2 ^ k.
Proof.
  intros Hk. destruct (Z.leb_spec k 32) as [L|L].
  - replace (Z.max 0 (k - 32)) with 0 by lia. replace (Z.min k 32) with k by lia. change (2 ^ 0) with 1. change (2 ^ 64) with (2 ^ 32 * 2 ^ 32). lia.
  - replace (Z.max 0 (k - 32)) with (k - 32) by lia. replace (Z.min k 32) with 32 by lia.
    rewrite (@pow2_split 32 k) by lia. lia.
Qed.
Lemma combine64 lo hi : 0 <= lo < 2 ^ 32 -> Z.lor lo (Z.shiftl hi 32) = lo + hi * 2 ^ 32.
Proof.
  intros H. rewrite Z.shiftl_mul_pow2 by lia. apply (@lor_low lo _ 32); [lia|lia|]. apply Z.mod_mul. lia.
Qed.

Lemma add_low base t : 0 <= t -> base mod 2 ^ 32 + t < 2 ^ 32 ->
  (base + t) mod 2 ^ 32 = base mod 2 ^ 32 + t /\ (base + t) / 2 ^ 32 = base / 2 ^ 32.
Proof.
  intros Ht H. pose proof (Z.mod_pos_bound base (2 ^ 32) ltac:(lia)). pose proof (Z.div_mod base (2 ^ 32) ltac:(lia)).
  split; symmetry; [apply Zmod_unique with (base / 2 ^ 32)|apply Zdiv_unique with (base mod 2 ^ 32 + t)]; lia.
Qed.

Lemma low4 n k t : 4 <= k <= n -> 0 <= t < 16 -> (2 ^ n - 2 ^ k + t) mod 16 = t.
Proof.
  intros Hk Ht. change 16 with (2 ^ 4). rewrite low_mod by lia. apply Z.mod_small. lia.
Qed.
Lemma mod_small_of v m t : v mod 16 = t -> (m | 16) -> 0 < m -> v mod m = t mod m.
Proof.
  intros H D Hm. subst t. destruct D as [q D]. symmetry.
  rewrite (Z.div_mod v 16) at 2 by lia. rewrite D. replace (q * m * (v / (q * m)) + v mod (q * m)) with (v mod (q * m) + (q * (v / (q * m))) * m) by lia.
  rewrite Z.mod_add by lia. reflexivity.
Qed.

Lemma enum_run : forall ps pre fuel lim,
  Forall (fun p => wf_decl (fst p)) ps -> Forall aligned ps -> Forall fits_reg ps ->
  (length (layout ps) < fuel)%nat -> nonneg lim ->
  exists ps' lim', map fst ps' = map fst ps /\ stacked lim ps' lim' /\
    (fits lim' ->
     enum_bars fuel (length pre) (length pre + length (layout ps)) (fn (pre ++ layout ps)) lim =
     Some (fn (pre ++ layout ps'), lim', report (length pre) ps')).
Proof.
  induction ps as [|[d b] ps IH]; intros pre fuel lim W A F HF NN.
  - exists [], lim. split; [reflexivity|]. split; [reflexivity|]. intros _.
    destruct fuel as [|fuel]; [cbn in HF; lia|]. cbn [enum_bars layout length].
    rewrite Nat.add_0_r, Nat.leb_refl. reflexivity.
  - inversion W as [|? ? W1 W2]; inversion A as [|? ? A1 A2]; inversion F as [|? ? F1 F2]; subst.
    cbn [fst] in W1. unfold aligned, fits_reg in A1, F1. cbn [fst snd] in A1, F1.
    destruct fuel as [|fuel]; [lia|].
    unfold size in A1, F1. destruct d as [|k pf|k pf|k]; cbn [layout regs_of app length wf_decl size lgsize kind_bits] in *;
      try (destruct A1 as [A1|(A1 & A1')]; [discriminate|]).
    + (* unused *)
      destruct (IH (pre ++ [(0, 0)]) fuel lim W2 A2 F2 ltac:(lia) NN) as (ps' & lim' & M & ST & E).
      exists ((Unused, b) :: ps'), lim'. split; [cbn [map fst]; congruence|]. split; [exact ST|]. intros Hfit.
      rewrite enum_unfold by lia. cbv zeta.
      rewrite (@bar_write_fn pre 0 0 _ 0xffffffff 32) by (try lia; reflexivity).
      rewrite bar_read_fn.
      replace (0xffffffff - 0xffffffff mod 2 ^ 32 + 0 mod 2 ^ 32) with 0 by reflexivity.
      cbn [Z.eqb]. rewrite !len_mid, <- !app_mid, Nat.add_succ_comm in E. rewrite E by auto. reflexivity.
    + (* 32-bit memory *)
      set (t := if pf then 8 else 0) in *. assert (Ht : t = 0 \/ t = 8) by (unfold t; destruct pf; lia).
      assert (P16 : 2 ^ 4 <= 2 ^ k) by (apply Z.pow_le_mono_r; lia). change (2 ^ 4) with 16 in P16.
      assert (P32 : 2 ^ k <= 2 ^ 31) by (apply Z.pow_le_mono_r; lia).
      destruct NN as (N1 & N2 & N3).
      destruct (@align_up_spec (l_mem lim) k ltac:(lia)) as (B1 & B2 & _).
      set (base := align_up (l_mem lim) (2 ^ k - 1)) in *.
      set (l1 := mkLim (l_io lim) (base + 2 ^ k) (l_pf lim)).
      destruct (IH (pre ++ [(base + t, 2 ^ 32 - 2 ^ k)]) fuel l1 W2 A2 F2 ltac:(lia)) as (ps' & lim' & M & ST & E).
      { unfold nonneg, l1. cbn. lia. }
      exists ((Mem32 k pf, base) :: ps'), lim'. split; [cbn [map fst]; congruence|]. split.
      { cbn [stacked space_of]. unfold size. cbn [lgsize]. split; [exact B2|]. split; [exact B1|]. exists l1. split; [reflexivity|].
        split; [|exact ST]. intros [| |] Hs; [reflexivity|contradiction|reflexivity]. }
      intros Hfit.
      assert (HB : base + 2 ^ k <= 2 ^ 32).
      { assert (MM : mono l1 lim') by (eapply stacked_mono; [|exact ST]; rewrite <- (Forall_map fst wf_decl) in *; rewrite M; auto).
        destruct MM as (_ & MM & _). destruct Hfit as (_ & Hfit & _). unfold l1 in MM. cbn [l_mem] in MM. lia. }
      rewrite enum_unfold by lia. cbv zeta.
      rewrite size_fn by lia. rewrite bar_read_fn.
      assert (V16 := @low4 32 k t ltac:(lia) ltac:(lia)).
      set (val := 2 ^ 32 - 2 ^ k + t) in *.
      replace (val =? 0) with false by (unfold val; lia).
      assert (V2 := @mod_small_of val 2 t V16 ltac:(exists 8; reflexivity) ltac:(lia)).
      assert (V4 := @mod_small_of val 4 t V16 ltac:(exists 4; reflexivity) ltac:(lia)).
      assert (V8 := @mod_small_of val 8 t V16 ltac:(exists 2; reflexivity) ltac:(lia)).
      rewrite land1, V2. replace (t mod 2 =? 0) with true by (destruct Ht as [-> | ->]; reflexivity). cbn [negb].
      rewrite land4, V4, V8. replace (t mod 8 - t mod 4 =? 0) with true by (destruct Ht as [-> | ->]; reflexivity). cbn [negb].
      replace (Z.lor (Z.land (Z.lnot val) 0xffffffff) 15) with (2 ^ k - 1) by (unfold val; rewrite decode_mask32 by lia; reflexivity).
      fold base.
      rewrite land_15, V16. rewrite (@lor_low t base 4); [|lia|lia|apply (@aligned_sub base k 4); [lia|exact B2]].
      replace (t + base) with (base + t) by lia. unfold val. rewrite base_fn by lia.
      replace (base + (2 ^ k - 1 + 1)) with (base + 2 ^ k) by lia. fold l1.
      rewrite !len_mid, <- !app_mid, Nat.add_succ_comm in E. rewrite E by auto.
      cbn [layout regs_of app report kind_bits regs_used]. unfold size. cbn [lgsize]. fold t.
      replace (2 ^ k - 1 + 1) with (2 ^ k) by lia. rewrite Nat.add_1_r. reflexivity.
    + (* 64-bit memory *)
      set (t := if pf then 12 else 4) in *. assert (Ht : t = 4 /\ pf = false \/ t = 12 /\ pf = true) by (unfold t; destruct pf; lia).
      assert (P16 : 2 ^ 4 <= 2 ^ (Z.min k 32)) by (apply Z.pow_le_mono_r; lia). change (2 ^ 4) with 16 in P16.
      assert (P32 : 2 ^ (Z.min k 32) <= 2 ^ 32) by (apply Z.pow_le_mono_r; lia).
      assert (PK : 0 < 2 ^ k) by (apply pow2_pos; lia).
      destruct NN as (N1 & N2 & N3).
      set (s := if pf then SPf else SMem).
      destruct (@align_up_spec (limit_of lim s) k ltac:(lia)) as (B1 & B2 & _).
      set (base := align_up (limit_of lim s) (2 ^ k - 1)) in *.
      assert (B0 : 0 <= base) by (unfold s in B1; destruct pf; cbn [limit_of] in B1; lia).
      set (l1 := if pf then mkLim (l_io lim) (l_mem lim) (base + 2 ^ k) else mkLim (l_io lim) (base + 2 ^ k) (l_pf lim)).
      set (x := (base mod 2 ^ 32 + t, 2 ^ 32 - 2 ^ (Z.min k 32))).
      set (y := (base / 2 ^ 32, 2 ^ 32 - 2 ^ (Z.max 0 (k - 32)))).
      destruct (IH ((pre ++ [x]) ++ [y]) fuel l1 W2 A2 F2 ltac:(lia)) as (ps' & lim' & M & ST & E).
      { unfold nonneg, l1. destruct pf; cbn; lia. }
      exists ((Mem64 k pf, base) :: ps'), lim'. split; [cbn [map fst]; congruence|]. split.
      { cbn [stacked space_of].
        assert (Q : limit_of l1 s = base + 2 ^ k /\ (forall s', s' <> s -> limit_of l1 s' = limit_of lim s')).
        { unfold s, l1. destruct pf; (split; [reflexivity|]); intros [| |] Hs; try reflexivity; contradiction. }
        destruct Q as (Q1 & Q2). unfold size. cbn [lgsize].
        unfold s in *. destruct pf; (split; [exact B2|]); (split; [exact B1|]); exists l1; auto. }
      intros Hfit.
      assert (HB : base + 2 ^ k <= 2 ^ 64).
      { assert (MM : mono l1 lim') by (eapply stacked_mono; [|exact ST]; rewrite <- (Forall_map fst wf_decl) in *; rewrite M; auto).
        destruct MM as (_ & MM1 & MM2). destruct Hfit as (_ & Hf1 & Hf2). unfold l1 in MM1, MM2.
        destruct pf; cbn [l_mem l_pf] in MM1, MM2; lia. }
      rewrite enum_unfold by (clear; lia). cbv zeta.
      assert (T16 : 0 <= t < 16) by (clear - Ht; lia).
      assert (K32 : 0 <= Z.min k 32 <= 32) by (clear - W1; lia).
      assert (KH : 0 <= Z.max 0 (k - 32) <= 32) by (clear - W1; lia).
      assert (TL : 0 <= t < 2 ^ Z.min k 32) by (clear - T16 P16; lia).
      pose proof (@low_aligned k b W1 A1') as LA. pose proof (@low_room k b W1 A1') as LR.
      pose proof (@high_aligned k b W1 A1') as HA. assert (AR : 0 <= b < 2 ^ 64) by (clear - A1 F1 PK; lia). pose proof (@high_range b AR) as HR.
      pose proof (@low_aligned k base W1 B2) as LA'. pose proof (@low_room k base W1 B2) as LR'.
      pose proof (@high_aligned k base W1 B2) as HA'.
      assert (HR' : 0 <= base / 2 ^ 32 < 2 ^ 32) by (apply high_range; clear - B0 HB PK; lia).
      assert (BL : 0 <= b mod 2 ^ 32 + t < 2 ^ 32)
        by (pose proof (Z.mod_pos_bound b (2 ^ 32) ltac:(clear; lia)) as Q; clear - Q LR TL; lia).
      assert (BL' : 0 <= base mod 2 ^ 32 + t < 2 ^ 32)
        by (pose proof (Z.mod_pos_bound base (2 ^ 32) ltac:(clear; lia)) as Q; clear - Q LR' TL; lia).
      rewrite (@size_fn pre _ _ t _ K32 TL LA BL). rewrite bar_read_fn.
      assert (V16 := @low4 32 (Z.min k 32) t ltac:(clear - W1; lia) T16).
      assert (VR : 0 < 2 ^ 32 - 2 ^ Z.min k 32 + t < 2 ^ 32) by (clear - P32 TL Ht; lia).
      assert (C : Z.lor (2 ^ 32 - 2 ^ Z.min k 32 + t) (Z.shiftl (2 ^ 32 - 2 ^ Z.max 0 (k - 32)) 32) = 2 ^ 64 - 2 ^ k + t).
      { rewrite combine64 by (clear - VR; lia). rewrite <- (@masks64 k W1). clear. lia. }
      set (val := 2 ^ 32 - 2 ^ (Z.min k 32) + t) in *.
      replace (val =? 0) with false by (clear - VR; lia).
      assert (V2 := @mod_small_of val 2 t V16 ltac:(exists 8; reflexivity) ltac:(clear; lia)).
      assert (V4 := @mod_small_of val 4 t V16 ltac:(exists 4; reflexivity) ltac:(clear; lia)).
      assert (V8 := @mod_small_of val 8 t V16 ltac:(exists 2; reflexivity) ltac:(clear; lia)).
      rewrite (land1 val), V2. replace (t mod 2 =? 0) with true by (destruct Ht as [[-> _] | [-> _]]; reflexivity). cbn [negb].
      rewrite (land4 val), V4, V8. replace (t mod 8 - t mod 4 =? 0) with false by (destruct Ht as [[-> _] | [-> _]]; reflexivity). cbn [negb].
      replace (length pre + S (S (length (layout ps))) - 1 <=? length pre)%nat with false by (clear; lia).
      rewrite (@size_fn2 pre _ _ _ _ KH HA HR). rewrite bar_read_fn2.
      rewrite C. rewrite (@decode_mask64 k t ltac:(clear - W1; lia) T16).
      assert (W16 := @low4 64 k t ltac:(clear - W1; lia) T16).
      assert (W8 := @mod_small_of _ 8 t W16 ltac:(exists 2; reflexivity) ltac:(clear; lia)).
      rewrite land8, W16, W8, land_15, W16.
      assert (OL : Z.lor t base = base + t).
      { rewrite (@lor_low t base 4); [clear; lia|clear; lia|exact T16|]. apply (@aligned_sub base k 4); [clear - W1; lia|exact B2]. }
      assert (PR : (if negb (t - t mod 8 =? 0)
        then (Z.lor t (align_up (l_pf lim) (2 ^ k - 1)), mkLim (l_io lim) (l_mem lim) (align_up (l_pf lim) (2 ^ k - 1) + (2 ^ k - 1 + 1)))
        else (Z.lor t (align_up (l_mem lim) (2 ^ k - 1)), mkLim (l_io lim) (align_up (l_mem lim) (2 ^ k - 1) + (2 ^ k - 1 + 1)) (l_pf lim)))
        = (base + t, l1)).
      { rewrite <- OL. unfold l1, base, s. replace (2 ^ k - 1 + 1) with (2 ^ k) by (clear; lia). clear - Ht.
        destruct Ht as [[-> ->] | [-> ->]]; cbn [negb limit_of];
          [change (4 - 4 mod 8 =? 0) with true | change (12 - 12 mod 8 =? 0) with false]; reflexivity. }
      rewrite PR. clear PR C.
      destruct (@add_low base t (proj1 T16) (proj2 BL')) as (EL & EH).
      rewrite !land_32, EL, Z.shiftr_div_pow2, EH by (clear; lia).
      rewrite (Z.mod_small (base / 2 ^ 32)) by exact HR'.
      unfold val. rewrite (@base_fn pre _ _ t _ K32 TL LA' BL'). rewrite (@base_fn2 pre _ _ _ _ KH HA' HR'). fold x y.
      rewrite !len_mid, <- !app_mid in E.
      replace (S (S (length pre)) + length (layout ps))%nat with (length pre + S (S (length (layout ps))))%nat in E by (clear; lia).
      rewrite E by auto.
      cbn [layout regs_of app report kind_bits regs_used]. unfold size. cbn [lgsize]. fold t x y.
      replace (2 ^ k - 1 + 1) with (2 ^ k) by (clear; lia). replace (length pre + 2)%nat with (S (S (length pre))) by (clear; lia). reflexivity.
    + (* IO *)
      assert (P16 : 2 ^ 2 <= 2 ^ k) by (apply Z.pow_le_mono_r; lia). change (2 ^ 2) with 4 in P16.
      assert (P32 : 2 ^ k <= 2 ^ 31) by (apply Z.pow_le_mono_r; lia).
      destruct NN as (N1 & N2 & N3).
      destruct (@align_up_spec (l_io lim) k ltac:(lia)) as (B1 & B2 & _).
      set (base := align_up (l_io lim) (2 ^ k - 1)) in *.
      set (l1 := mkLim (base + 2 ^ k) (l_mem lim) (l_pf lim)).
      destruct (IH (pre ++ [(base + 1, 2 ^ 32 - 2 ^ k)]) fuel l1 W2 A2 F2 ltac:(lia)) as (ps' & lim' & M & ST & E).
      { unfold nonneg, l1. cbn. lia. }
      exists ((Io k, base) :: ps'), lim'. split; [cbn [map fst]; congruence|]. split.
      { cbn [stacked space_of]. unfold size. cbn [lgsize]. split; [exact B2|]. split; [exact B1|]. exists l1. split; [reflexivity|].
        split; [|exact ST]. intros [| |] Hs; [contradiction|reflexivity|reflexivity]. }
      intros Hfit.
      assert (HB : base + 2 ^ k <= 2 ^ 32).
      { assert (MM : mono l1 lim') by (eapply stacked_mono; [|exact ST]; rewrite <- (Forall_map fst wf_decl) in *; rewrite M; auto).
        destruct MM as (MM & _ & _). destruct Hfit as (Hfit & _ & _). unfold l1 in MM. cbn [l_io] in MM. lia. }
      rewrite enum_unfold by lia. cbv zeta.
      rewrite size_fn by lia. rewrite bar_read_fn.
      set (val := 2 ^ 32 - 2 ^ k + 1) in *.
      replace (val =? 0) with false by (unfold val; lia).
      assert (V2 : val mod 2 = 1) by (unfold val; pose proof (@low_mod 32 k 1 1 ltac:(lia) ltac:(lia)) as Q; change (2 ^ 1) with 2 in Q; rewrite Q; reflexivity).
      assert (V4 : val mod 4 = 1) by (unfold val; pose proof (@low_mod 32 k 1 2 ltac:(lia) ltac:(lia)) as Q; change (2 ^ 2) with 4 in Q; rewrite Q; reflexivity).
      rewrite (land1 val), V2. cbn [Z.eqb negb]. rewrite (land3 val), V4.
      replace (Z.lor (Z.land (Z.lnot val) 0xffffffff) 3) with (2 ^ k - 1) by (unfold val; rewrite decode_io by lia; reflexivity).
      fold base. rewrite (@lor_low 1 base 2); [|lia|lia|apply (@aligned_sub base k 2); [lia|exact B2]].
      replace (1 + base) with (base + 1) by lia. unfold val. rewrite base_fn by lia.
      replace (base + (2 ^ k - 1 + 1)) with (base + 2 ^ k) by lia. fold l1.
      rewrite !len_mid, <- !app_mid, Nat.add_succ_comm in E. rewrite E by auto.
      cbn [layout regs_of app report kind_bits regs_used]. unfold size. cbn [lgsize].
      replace (2 ^ k - 1 + 1) with (2 ^ k) by lia. rewrite Nat.add_1_r. reflexivity.
Qed.

(** * Matching *)
Lemma land_lnot a m : Z.land a (Z.lnot m) = a - Z.land a m.
Proof.
  rewrite <- Z.ldiff_land. assert (H : Z.land (Z.land a m) (Z.ldiff a m) = 0).
  { apply Z.bits_inj'. intros i Hi. rewrite !Z.land_spec, Z.ldiff_spec, Z.bits_0.
    destruct (Z.testbit a i), (Z.testbit m i); reflexivity. }
  assert (E : a = Z.land a m + Z.ldiff a m).
  { rewrite Z.add_nocarry_lxor by auto. apply Z.bits_inj'. intros i Hi. rewrite Z.lxor_spec, Z.land_spec, Z.ldiff_spec.
    destruct (Z.testbit a i), (Z.testbit m i); reflexivity. }
  lia.
Qed.
(** A hit: the address lies in the region. *)
Lemma hit_iff n k t base addr : 0 <= k <= n -> 0 <= t < 2 ^ k -> base mod 2 ^ k = 0 -> 0 <= base -> base + 2 ^ k <= 2 ^ n ->
  0 <= addr < 2 ^ n ->
  (Z.land addr (2 ^ n - 2 ^ k) =? Z.land (base + t) (2 ^ n - 2 ^ k)) = ((base <=? addr) && (addr <? base + 2 ^ k)) /\
  (base <= addr < base + 2 ^ k -> Z.land addr (Z.lnot (2 ^ n - 2 ^ k)) = addr - base).
Proof.
  intros Hk Ht Hb H0 Hr Ha. rewrite land_lnot, !land_hi by lia.
  rewrite (Z.mod_small (base + t) (2 ^ n)), (Z.mod_small addr (2 ^ n)) by lia.
  replace ((base + t) mod 2 ^ k) with t.
  2:{ rewrite Zplus_mod, Hb, Z.add_0_l, Z.mod_mod, (Z.mod_small t) by lia. reflexivity. }
  assert (P : 0 < 2 ^ k) by lia. revert P Hb Ht Hr. generalize (2 ^ k). intros p P Hb Ht Hr.
  apply Z.mod_divide in Hb; [|lia]. destruct Hb as [q ->].
  pose proof (Z.div_mod addr p ltac:(lia)) as D. pose proof (Z.mod_pos_bound addr p P) as M.
  assert (Q : addr / p = q <-> q * p <= addr < q * p + p).
  { split; [intros <-; lia|]. intros X. symmetry. apply Zdiv_unique with (addr - q * p); lia. }
  split.
  - destruct (Z.eqb_spec (addr - addr mod p) (q * p + t - t)) as [E|E].
    + assert (addr / p = q) by nia. symmetry. apply andb_true_iff. rewrite Z.leb_le, Z.ltb_lt. tauto.
    + symmetry. apply not_true_is_false. rewrite andb_true_iff, Z.leb_le, Z.ltb_lt. intros X. apply Q in X. nia.
  - intros X. apply Q in X. nia.
Qed.

(** The registers of the regions listed answer for [addr]: those containing it. *)
Fixpoint hits (io : bool) (i : nat) (ps : list (decl * Z)) (addr : Z) : list (nat * Z) :=
  match ps with
  | [] => []
  | (d, b) :: ps =>
    (if (match d with Unused => false | Io _ => io | _ => negb io end) && (b <=? addr) && (addr <? b + size d)
     then [(i, addr - b)] else []) ++ hits io (i + regs_used d) ps addr
  end.
Lemma odd_reg n k t base : 1 <= k <= n -> base mod 2 ^ k = 0 -> 0 <= t < 2 ^ k -> (base + t) mod 2 = t mod 2.
Proof.
  intros Hk Hb Ht. rewrite Zplus_mod. change 2 with (2 ^ 1). rewrite (@aligned_sub base k 1) by (auto; lia).
  rewrite Z.add_0_l, Z.mod_mod by lia. reflexivity.
Qed.
Lemma bit2_reg n k t base : 3 <= k <= n -> base mod 2 ^ k = 0 -> 0 <= t < 2 ^ k ->
  Z.land (base + t) 4 = t mod 8 - t mod 4.
Proof.
  intros Hk Hb Ht. rewrite land4. change 8 with (2 ^ 3). change 4 with (2 ^ 2).
  rewrite !(Zplus_mod base t). rewrite (@aligned_sub base k 3), (@aligned_sub base k 2) by (auto; lia).
  rewrite !Z.add_0_l, !Z.mod_mod by lia. reflexivity.
Qed.

Lemma match_run : forall ps i addr io, 0 <= addr ->
  Forall (fun p => wf_decl (fst p)) ps -> Forall aligned ps -> Forall fits_reg ps -> addr < 2 ^ 64 ->
  Forall (fun p => moderate addr (fst p)) ps ->
  match_from (map fst (layout ps)) (map snd (layout ps)) i addr io = Some (hits io i ps addr).
Proof.
  induction ps as [|[d b] ps IH]; intros i addr io H0 W A F H64 SM; [reflexivity|].
  inversion W as [|? ? W1 W2]; inversion A as [|? ? A1 A2]; inversion F as [|? ? F1 F2];
    inversion SM as [|? ? S1 S2]; subst. clear W A F SM.
  unfold aligned, fits_reg, size in A1, F1. cbn [fst snd] in W1, A1, F1, S1.
  destruct d as [|k pf|k pf|k]; cbn [layout regs_of app map fst snd hits regs_used wf_decl lgsize kind_bits moderate] in *;
    try (destruct A1 as [A1|(A1 & A1')]; [discriminate|]).
  - cbn [match_from]. rewrite IH by auto. rewrite Nat.add_1_r. reflexivity.
  - set (t := if pf then 8 else 0). assert (Ht : t = 0 \/ t = 8) by (unfold t; destruct pf; lia).
    assert (P16 : 2 ^ 4 <= 2 ^ k) by (apply Z.pow_le_mono_r; lia). change (2 ^ 4) with 16 in P16.
    assert (P32 : 2 ^ k <= 2 ^ 31) by (apply Z.pow_le_mono_r; lia).
    cbn [match_from]. replace (2 ^ 32 - 2 ^ k =? 0) with false by lia.
    rewrite land1, (@odd_reg 32 k t b) by (auto; lia).
    replace (t mod 2 =? 0) with true by (destruct Ht as [-> | ->]; reflexivity).
    rewrite (@bit2_reg 32 k t b) by (auto; lia).
    replace (t mod 8 - t mod 4 =? 0) with true by (destruct Ht as [-> | ->]; reflexivity). cbn [negb].
    rewrite IH by auto. cbn [option_map]. rewrite Nat.add_1_r. unfold size. cbn [lgsize].
    destruct (@hit_iff 32 k t b addr) as (X & Y); [lia|lia|auto|lia|lia|lia|].
    rewrite X. destruct io; cbn [negb andb]; [reflexivity|].
    destruct ((b <=? addr) && (addr <? b + 2 ^ k)) eqn:E; [|reflexivity]. rewrite Y by lia. reflexivity.
  - set (t := if pf then 12 else 4). assert (Ht : t = 4 \/ t = 12) by (unfold t; destruct pf; lia).
    assert (P16 : 2 ^ 4 <= 2 ^ k) by (apply Z.pow_le_mono_r; lia). change (2 ^ 4) with 16 in P16.
    assert (P32 : 2 ^ k <= 2 ^ 31) by (apply Z.pow_le_mono_r; lia).
    replace (Z.min k 32) with k by lia. replace (Z.max 0 (k - 32)) with 0 by lia.
    pose proof (@low_aligned k b ltac:(lia) A1') as LA. pose proof (@low_room k b ltac:(lia) A1') as LR.
    replace (Z.min k 32) with k in LA, LR by lia.
    assert (BL : 0 <= b mod 2 ^ 32) by (apply Z.mod_pos_bound; lia).
    cbn [match_from]. replace (2 ^ 32 - 2 ^ k =? 0) with false by lia.
    rewrite land1, (@odd_reg 32 k t (b mod 2 ^ 32)) by (auto; lia).
    replace (t mod 2 =? 0) with true by (destruct Ht as [-> | ->]; reflexivity).
    rewrite (@bit2_reg 32 k t (b mod 2 ^ 32)) by (auto; lia).
    replace (t mod 8 - t mod 4 =? 0) with false by (destruct Ht as [-> | ->]; reflexivity). cbn [negb].
    rewrite IH by auto. cbn [option_map]. replace (i + 2)%nat with (S (S i)) by lia. unfold size. cbn [lgsize].
    rewrite !combine64 by lia.
    replace (b mod 2 ^ 32 + t + b / 2 ^ 32 * 2 ^ 32) with (b + t) by (pose proof (Z.div_mod b (2 ^ 32) ltac:(lia)); lia).
    replace (2 ^ 32 - 2 ^ k + (2 ^ 32 - 2 ^ 0) * 2 ^ 32) with (2 ^ 64 - 2 ^ k)
      by (clear; change (2 ^ 0) with 1; change (2 ^ 64) with (2 ^ 32 * 2 ^ 32); lia).
    destruct (@hit_iff 64 k t b addr) as (X & Y); [lia|lia|auto|lia|lia|lia|].
    rewrite X. destruct io; cbn [negb andb]; [reflexivity|].
    destruct ((b <=? addr) && (addr <? b + 2 ^ k)) eqn:E; [|reflexivity]. rewrite Y by lia. reflexivity.
  - assert (P4 : 2 ^ 2 <= 2 ^ k) by (apply Z.pow_le_mono_r; lia). change (2 ^ 2) with 4 in P4.
    assert (P32 : 2 ^ k <= 2 ^ 31) by (apply Z.pow_le_mono_r; lia).
    cbn [match_from]. replace (2 ^ 32 - 2 ^ k =? 0) with false by lia.
    rewrite land1, (@odd_reg 32 k 1 b) by (auto; lia). change (1 mod 2 =? 0) with false. cbn [negb].
    rewrite IH by auto. cbn [option_map]. rewrite Nat.add_1_r. unfold size. cbn [lgsize].
    destruct (@hit_iff 32 k 1 b addr) as (X & Y); [lia|lia|auto|lia|lia|lia|].
    rewrite X. destruct io; cbn [negb andb]; [|reflexivity].
    destruct ((b <=? addr) && (addr <? b + 2 ^ k)) eqn:E; [|reflexivity]. rewrite Y by lia. reflexivity.
Qed.

