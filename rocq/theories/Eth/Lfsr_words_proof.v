(** Sequences of words through the parallel LFSR; scrambling; CRC-32. *)
From Verif Require Import Base.Prelude Net.Codec_model Net.Codec_spec Net.Codec_proof
  Eth.Lfsr_model Eth.Lfsr_spec Eth.Lfsr_proof.
Local Open Scope nat_scope.

Lemma assemble_bound n f : (0 <= assemble n f < 2 ^ Z.of_nat n)%Z.
Proof.
  split; [apply assemble_nonneg|].
  destruct (Z.lt_ge_cases (assemble n f) (2 ^ Z.of_nat n)); auto.
  exfalso. set (x := assemble n f) in *.
  assert (P : (0 < x)%Z) by (assert (0 < 2 ^ Z.of_nat n)%Z by (apply Z.pow_pos_nonneg; lia); lia).
  assert (L : (Z.of_nat n <= Z.log2 x)%Z) by (apply Z.log2_le_pow2; auto).
  assert (T : Z.testbit x (Z.log2 x) = true) by (apply Z.bit_log2; auto).
  rewrite <- (Z2Nat.id (Z.log2 x)) in T by apply Z.log2_nonneg.
  unfold x in T at 1. rewrite assemble_bit in T.
  replace (Z.to_nat (Z.log2 x) <? n) with false in T by (symmetry; apply Nat.ltb_ge; lia). discriminate.
Qed.

Lemma state_bound c s d : (0 <= lfsr_state c s d < 2 ^ Z.of_nat (l_w c))%Z.
Proof. apply assemble_bound. Qed.
Lemma data_bound c s d : (0 <= lfsr_data c s d < 2 ^ Z.of_nat (l_d c))%Z.
Proof. apply assemble_bound. Qed.

Lemma vec_inj n x y : (0 <= x < 2 ^ Z.of_nat n)%Z -> (0 <= y < 2 ^ Z.of_nat n)%Z -> vec n x = vec n y -> x = y.
Proof.
  intros Hx Hy E. apply Z.bits_inj'. intros k Hk.
  destruct (Z.lt_ge_cases k (Z.of_nat n)) as [L|L].
  - apply (f_equal (fun l => nth (Z.to_nat k) l false)) in E. rewrite !vec_nth in E.
    replace (Z.to_nat k <? n) with true in E by (symmetry; apply Nat.ltb_lt; lia).
    rewrite Z2Nat.id in E by lia. exact E.
  - rewrite <- (Z.mod_small x (2 ^ Z.of_nat n)), <- (Z.mod_small y (2 ^ Z.of_nat n)) by auto.
    rewrite !Z.mod_pow2_bits_high by lia. reflexivity.
Qed.

Lemma register_inj r n x y : (0 <= x < 2 ^ Z.of_nat n)%Z -> (0 <= y < 2 ^ Z.of_nat n)%Z ->
  register_of r n x = register_of r n y -> x = y.
Proof.
  intros Hx Hy E. apply vec_inj with (n := n); auto. unfold register_of in E.
  destruct r; auto. apply (f_equal (@rev bool)) in E. rewrite !rev_involutive in E. exact E.
Qed.

Lemma stream_inj r n x y : (0 <= x < 2 ^ Z.of_nat n)%Z -> (0 <= y < 2 ^ Z.of_nat n)%Z ->
  stream_of r n x = stream_of r n y -> x = y.
Proof.
  intros Hx Hy E. apply vec_inj with (n := n); auto. unfold stream_of in E.
  destruct r; auto. apply (f_equal (@rev bool)) in E. rewrite !rev_involutive in E. exact E.
Qed.

Lemma register_length r n x : length (register_of r n x) = n.
Proof. unfold register_of. destruct r; rewrite ?rev_length; apply vec_length. Qed.
Lemma stream_length r n x : length (stream_of r n x) = n.
Proof. unfold stream_of. destruct r; rewrite ?rev_length; apply vec_length. Qed.

Lemma bitstream_length r d ws : length (bitstream r d ws) = length ws * d.
Proof.
  induction ws as [|w ws IH]; auto. unfold bitstream in *. cbn. rewrite app_length, IH, stream_length. reflexivity.
Qed.

Lemma bitstream_app r d a b : bitstream r d (a ++ b) = bitstream r d a ++ bitstream r d b.
Proof. unfold bitstream. rewrite map_app. apply concat_app. Qed.

Lemma bitstream_nth r d ws t k : k < d -> t < length ws ->
  nth (t * d + k) (bitstream r d ws) false = nth k (stream_of r d (nth t ws 0%Z)) false.
Proof.
  revert t. induction ws as [|w ws IH]; intros t Hk Ht; [cbn in Ht; lia|].
  unfold bitstream in *. cbn [map concat]. destruct t as [|t].
  - rewrite app_nth1 by (rewrite stream_length; lia). reflexivity.
  - rewrite app_nth2 by (rewrite stream_length; lia). rewrite stream_length.
    replace (S t * d + k - d) with (t * d + k) by lia. cbn in Ht. rewrite IH by lia. reflexivity.
Qed.

Lemma bitstream_inj r d : forall a b, length a = length b ->
  Forall (fun x => 0 <= x < 2 ^ Z.of_nat d)%Z a -> Forall (fun x => 0 <= x < 2 ^ Z.of_nat d)%Z b ->
  bitstream r d a = bitstream r d b -> a = b.
Proof.
  induction a as [|x a IH]; intros [|y b] L Ha Hb E; try discriminate; auto.
  inversion Ha; inversion Hb; subst. unfold bitstream in *. cbn [map concat] in E.
  assert (E1 : stream_of r d x = stream_of r d y).
  { apply (f_equal (firstn d)) in E. rewrite !firstn_app, !stream_length, !Nat.sub_diag in E.
    cbn [firstn] in E. rewrite !app_nil_r in E.
    rewrite !firstn_all2 in E by (rewrite stream_length; lia). exact E. }
  rewrite E1 in E. apply app_inv_head in E. f_equal.
  - eapply stream_inj; eauto.
  - apply IH; auto.
Qed.

(** The module used on one word after another. *)

Lemma words_serial c : 0 < l_w c -> forall ds s s' os, (0 <= s < 2 ^ Z.of_nat (l_w c))%Z ->
  trace (word_step c) s ds = (s', os) ->
  serial (l_w c) (l_poly c) (l_galois c) (l_ff c) (register_of (l_rev c) (l_w c) s) (bitstream (l_rev c) (l_d c) ds) =
  (register_of (l_rev c) (l_w c) s', bitstream (l_rev c) (l_d c) os) /\ (0 <= s' < 2 ^ Z.of_nat (l_w c))%Z /\
  Forall (fun x => 0 <= x < 2 ^ Z.of_nat (l_d c))%Z os.
Proof.
  intros HW. induction ds as [|d ds IH]; intros s s' os Hs T.
  - cbn in T. injection T as <- <-. split; auto.
  - cbn [trace] in T. unfold word_step at 1 in T.
    destruct (trace (word_step c) (lfsr_state c s d) ds) as [s2 os2] eqn:T2. injection T as <- <-.
    destruct (IH _ _ _ (state_bound c s d) T2) as (E & B & F). split; [|split; auto].
    + unfold bitstream in *. cbn [map concat]. unfold serial in *. rewrite trace_app.
      pose proof (@lfsr_serial c s d HW Hs) as E1. unfold serial in E1. rewrite E1. rewrite E. reflexivity.
    + constructor; auto. apply data_bound.
Qed.

(** Width and implementation style do not matter. *)
Lemma width_free c1 c2 s ds1 ds2 s1 s2 os1 os2 : 0 < l_w c1 ->
  l_w c2 = l_w c1 -> l_poly c2 = l_poly c1 -> l_galois c2 = l_galois c1 -> l_ff c2 = l_ff c1 -> l_rev c2 = l_rev c1 ->
  (0 <= s < 2 ^ Z.of_nat (l_w c1))%Z ->
  bitstream (l_rev c1) (l_d c1) ds1 = bitstream (l_rev c1) (l_d c2) ds2 ->
  trace (word_step c1) s ds1 = (s1, os1) -> trace (word_step c2) s ds2 = (s2, os2) ->
  s1 = s2 /\ bitstream (l_rev c1) (l_d c1) os1 = bitstream (l_rev c1) (l_d c2) os2.
Proof.
  intros HW E1 E2 E3 E4 E5 Hs EB T1 T2.
  destruct (@words_serial c1 HW _ _ _ _ Hs T1) as (S1 & B1 & _).
  destruct (@words_serial c2 ltac:(lia) ds2 s s2 os2 ltac:(rewrite E1; auto) T2) as (S2 & B2 & _).
  rewrite E1, E2, E3, E4, E5, <- EB, S1 in S2.
  assert (A : register_of (l_rev c1) (l_w c1) s1 = register_of (l_rev c1) (l_w c1) s2) by congruence.
  assert (D : bitstream (l_rev c1) (l_d c1) os1 = bitstream (l_rev c1) (l_d c2) os2) by congruence.
  split; auto. apply register_inj in A; auto. rewrite <- E1. auto.
Qed.

(** * The Fibonacci register remembers what was shifted in *)

Lemma fib_history w poly (ff : bool) : 0 < w -> forall ds r r' os, length r = w ->
  trace (fib_clock w poly ff) r ds = (r', os) ->
  r' = firstn w (rev (if ff then ds else os) ++ r).
Proof.
  intros HW. induction ds as [|d ds IH] using rev_ind; intros r r' os HL T.
  - cbn in T. injection T as <- <-. destruct ff; cbn [rev app]; rewrite firstn_all2 by lia; reflexivity.
  - rewrite trace_app in T. destruct (trace (fib_clock w poly ff) r ds) as [r1 o1] eqn:T1.
    cbn [trace] in T. unfold fib_clock at 1 in T.
    set (out := xorb d _) in T. injection T as <- <-.
    rewrite (IH _ _ _ HL T1). rewrite firstn_firstn. rewrite Nat.min_l by lia.
    assert (E : rev (if ff then ds ++ [d] else o1 ++ [out]) = (if ff then d else out) :: rev (if ff then ds else o1))
      by (destruct ff; rewrite rev_app_distr; reflexivity).
    rewrite E. destruct w as [|w]; [lia|]. cbn [firstn app]. replace (S w - 1) with w by lia. reflexivity.
Qed.

Lemma nth_firstn {A} (l : list A) n i d : i < n -> nth i (firstn n l) d = nth i l d.
Proof.
  revert l i. induction n as [|n IH]; intros l i H; [lia|]. destruct l, i; cbn; auto. apply IH. lia.
Qed.

Lemma nth_rev_app {A} (l r : list A) i d : i < length l -> nth i (rev l ++ r) d = nth (length l - S i) l d.
Proof. intros H. rewrite app_nth1 by (rewrite rev_length; auto). apply rev_nth. auto. Qed.

Lemma firstn_app_exact {A} (a b : list A) : firstn (length a) (a ++ b) = a.
Proof. rewrite firstn_app, Nat.sub_diag, firstn_all. apply app_nil_r. Qed.

Lemma nth_split_at {A} (l : list A) t d : t < length l -> exists a b, l = a ++ nth t l d :: b /\ length a = t.
Proof.
  intros H. destruct (nth_split l d H) as (a & b & E & L). eauto.
Qed.

Lemma fib_output w poly (ff : bool) ds r t : 0 < w -> length r = w -> w <= t -> t < length ds ->
  nth t (snd (trace (fib_clock w poly ff) r ds)) false =
  xorb (nth t ds false)
       (mix w poly (fun i => nth i (if ff then ds else snd (trace (fib_clock w poly ff) r ds)) false) t).
Proof.
  intros HW HL Hw Ht. destruct (@nth_split_at _ ds t false Ht) as (a & b & E & La).
  rewrite E at 1. set (d := nth t ds false) in *.
  rewrite trace_app. destruct (trace (fib_clock w poly ff) r a) as [r1 o1] eqn:T1.
  assert (Lo : length o1 = t).
  { pose proof (trace_length (fib_clock w poly ff) a r) as L. rewrite T1 in L. cbn in L. lia. }
  cbn [trace]. destruct (fib_clock w poly ff r1 d) as [r2 o] eqn:EC.
  destruct (trace (fib_clock w poly ff) r2 b) as [r3 o3] eqn:T3. cbn [snd].
  rewrite app_nth2 by lia. rewrite Lo, Nat.sub_diag. cbn [nth].
  assert (EO : snd (trace (fib_clock w poly ff) r ds) = o1 ++ o :: o3).
  { rewrite E, trace_app, T1. cbn [trace]. rewrite EC, T3. reflexivity. }
  rewrite EO.
  assert (Hr : forall j, 1 <= j <= w -> nth (j - 1) r1 false = nth (t - j) (if ff then ds else o1 ++ o :: o3) false).
  { intros j Hj. rewrite (@fib_history w poly ff HW _ _ _ _ HL T1). rewrite nth_firstn by lia.
    rewrite nth_rev_app by (destruct ff; lia).
    destruct ff.
    - rewrite E, app_nth1 by lia. f_equal. lia.
    - rewrite app_nth1 by lia. f_equal. lia. }
  unfold fib_clock in EC. injection EC as _ EC. etransitivity; [symmetry; exact EC|].
  f_equal. unfold mix. f_equal.
  - rewrite Hr by lia. reflexivity.
  - unfold tapped. f_equal. apply map_ext_in. intros j Hj. apply filter_In in Hj as [Hj _].
    apply in_seq in Hj. rewrite Hr by lia. reflexivity.
Qed.

(** Scramble, add errors on the line, descramble. *)
Lemma xorb4 a b c d : xorb (xorb a b) (xorb c d) = xorb (xorb a c) (xorb b d).
Proof. destruct a, b, c, d; reflexivity. Qed.

Lemma mix_xor w poly f g t : mix w poly (fun i => xorb (f i) (g i)) t = xorb (mix w poly f t) (mix w poly g t).
Proof.
  unfold mix. set (js := filter _ _).
  assert (H : xor_all (map (fun j => xorb (f (t - j)) (g (t - j))) js) =
              xorb (xor_all (map (fun j => f (t - j)) js)) (xor_all (map (fun j => g (t - j)) js))).
  { clear. induction js as [|j js IH]; auto. unfold xor_all in *. cbn. rewrite IH.
    apply xorb4. }
  rewrite H. apply xorb4.
Qed.

Lemma mix_ext w poly f g t : w <= t -> (forall i, i < t -> f i = g i) -> 0 < w -> mix w poly f t = mix w poly g t.
Proof.
  intros Hw H HW. unfold mix. f_equal; [apply H; lia|]. f_equal. apply map_ext_in. intros j Hj.
  apply filter_In in Hj as [Hj _]. apply in_seq in Hj. apply H. lia.
Qed.

Definition xors (a b : list bool) : list bool := map (fun p => xorb (fst p) (snd p)) (combine a b).

Lemma xors_nth a : forall b i, length a = length b -> nth i (xors a b) false = xorb (nth i a false) (nth i b false).
Proof.
  unfold xors. induction a as [|x a IH]; intros [|y b] i L; cbn in L; try discriminate.
  - destruct i; reflexivity.
  - destruct i; cbn; auto.
Qed.

Lemma xors_length a b : length a = length b -> length (xors a b) = length a.
Proof. intros H. unfold xors. rewrite map_length, combine_length. lia. Qed.

Lemma scramble_errors w poly r q ds es t : 0 < w -> length r = w -> length q = w -> length es = length ds ->
  w <= t -> t < length ds ->
  nth t (snd (trace (fib_clock w poly true) q (xors (snd (trace (fib_clock w poly false) r ds)) es))) false =
  xorb (nth t ds false) (xorb (nth t es false) (mix w poly (fun i => nth i es false) t)).
Proof.
  intros HW Hr Hq He Hw Ht.
  set (ys := snd (trace (fib_clock w poly false) r ds)).
  assert (Ly : length ys = length ds) by apply trace_length.
  assert (Lx : length (xors ys es) = length ds) by (rewrite xors_length; lia).
  rewrite fib_output by lia. cbv iota.
  rewrite (@mix_ext w poly _ (fun i => xorb (nth i ys false) (nth i es false))) by (auto; intros; apply xors_nth; lia).
  rewrite mix_xor, xors_nth by lia.
  pose proof (@fib_output w poly false ds r t HW Hr Hw Ht) as E. cbv iota in E. fold ys in E. rewrite E.
  generalize (nth t ds false) (nth t es false) (mix w poly (fun i => nth i ys false) t) (mix w poly (fun i => nth i es false) t).
  intros [] [] [] []; reflexivity.
Qed.

(** With equal registers nothing needs to settle. *)
Lemma scramble_same w poly (galois : bool) : 0 < w -> forall ds r, length r = w ->
  serial w poly galois true r (snd (serial w poly galois false r ds)) = (fst (serial w poly galois false r ds), ds).
Proof.
  intros HW. induction ds as [|d ds IH]; intros r HL; [destruct galois; reflexivity|].
  unfold serial in *.
  set (ck := fun ff => if galois then gal_clock w poly ff else fib_clock w poly ff) in *.
  change (if galois then gal_clock w poly true else fib_clock w poly true) with (ck true) in *.
  change (if galois then gal_clock w poly false else fib_clock w poly false) with (ck false) in *.
  cbn [trace]. destruct (ck false r d) as [r1 o] eqn:E1.
  assert (HL1 : length r1 = w).
  { unfold ck in E1. destruct galois; unfold gal_clock, fib_clock in E1; injection E1 as <- _.
    - rewrite map_length, seq_length. reflexivity.
    - cbn. rewrite firstn_length. lia. }
  assert (E2 : ck true r o = (r1, d)).
  { unfold ck in *. destruct galois; unfold gal_clock, fib_clock in *; injection E1 as <- <-.
    - f_equal. destruct d, (nth (w - 1) r false); reflexivity.
    - f_equal. destruct d, (nth (w - 1) r false), (xor_all _); reflexivity. }
  specialize (IH r1 HL1). destruct (trace (ck false) r1 ds) as [r2 os] eqn:T. cbn [fst snd trace] in *.
  rewrite E2. rewrite IH. reflexivity.
Qed.

(** * CRC-32 *)
Definition crc_poly : Z := 0x04c11db7.

Lemma crc_table : forallb (fun i => Bool.eqb (Z.testbit 0xEDB88320 (Z.of_nat (31 - i)))
  (match i with O => true | S _ => Z.testbit crc_poly (Z.of_nat i) end)) (seq 0 32) = true.
Proof. vm_compute. reflexivity. Qed.

Lemma crc_clock c d : (0 <= c < 2 ^ 32)%Z ->
  fst (gal_clock 32 crc_poly false (register_of true 32 c) d) =
  register_of true 32 (crc_bit (Z.lxor c (if d then 1 else 0))).
Proof.
  intros Hc. unfold gal_clock, register_of. cbn [fst].
  assert (EV : xorb d (nth (32 - 1) (rev (vec 32 c)) false) = Z.testbit (Z.lxor c (if d then 1 else 0)) 0).
  { rewrite rev_nth by (rewrite vec_length; lia). rewrite vec_length.
    replace (32 - S (32 - 1)) with 0 by lia. rewrite vec_nth. rewrite Z.lxor_spec.
    destruct d; cbn [Nat.ltb Nat.leb andb]; destruct (Z.testbit c _); reflexivity. }
  rewrite EV. set (x := Z.lxor c (if d then 1 else 0)) in *.
  assert (Hx : forall k, k <> 0%Z -> Z.testbit x k = Z.testbit c k).
  { intros k Hk. unfold x. rewrite Z.lxor_spec. destruct d.
    - destruct k as [|p|p]; [easy| |rewrite !Z.testbit_neg_r by lia; reflexivity].
      change 1%Z with (2 ^ 0)%Z. rewrite Z.pow2_bits_false by lia. apply xorb_false_r.
    - rewrite Z.bits_0. apply xorb_false_r. }
  assert (HB : forall k, (0 <= k)%Z -> Z.testbit (crc_bit x) k =
    xorb (Z.testbit x (k + 1)) (Z.testbit x 0 && Z.testbit 0xEDB88320 k)).
  { intros k Hk. unfold crc_bit. rewrite <- Z.bit0_odd. rewrite <- Z.div2_div, Z.div2_spec. destruct (Z.testbit x 0).
    - rewrite Z.lxor_spec, Z.shiftr_spec by lia. reflexivity.
    - rewrite Z.shiftr_spec by lia. rewrite xorb_false_r. reflexivity. }
  apply list_nth_ext with (d := false).
  { rewrite map_length, seq_length, rev_length, vec_length. reflexivity. }
  intros i Hi. rewrite map_length, seq_length in Hi. rewrite nth_map_seq by auto.
  rewrite rev_nth by (rewrite vec_length; auto). rewrite vec_length, vec_nth.
  replace (32 - S i <? 32) with true by (symmetry; apply Nat.ltb_lt; lia). cbn [andb].
  rewrite HB by lia.
  pose proof crc_table as CT. rewrite forallb_forall in CT. specialize (CT i ltac:(apply in_seq; lia)).
  apply Bool.eqb_prop in CT. replace (32 - S i) with (31 - i) by lia. rewrite CT.
  destruct i as [|i].
  - replace (Z.testbit x (Z.of_nat (31 - 0) + 1)) with false; [rewrite andb_true_r, xorb_false_l; reflexivity|].
    symmetry. rewrite Hx by lia. change (Z.of_nat (31 - 0) + 1)%Z with 32%Z.
    rewrite <- (Z.mod_small c (2 ^ 32)) by auto. apply Z.mod_pow2_bits_high. lia.
  - rewrite rev_nth by (rewrite vec_length; lia). rewrite vec_length, vec_nth.
    replace (32 - S i <? 32) with true by (symmetry; apply Nat.ltb_lt; lia). cbn [andb].
    rewrite (Hx (Z.of_nat (31 - S i) + 1)%Z) by lia. replace (Z.of_nat (31 - S i) + 1)%Z with (Z.of_nat (32 - S i)) by lia.
    f_equal. apply andb_comm.
Qed.

Lemma crc_clocks : forall bs c, (0 <= c < 2 ^ 32)%Z ->
  fst (trace (gal_clock 32 crc_poly false) (register_of true 32 c) bs) =
  register_of true 32 (fold_left (fun c (b : bool) => crc_bit (Z.lxor c (if b then 1 else 0))) bs c).
Proof.
  induction bs as [|b bs IH]; intros c Hc; auto.
  cbn [trace fold_left]. destruct (gal_clock 32 crc_poly false (register_of true 32 c) b) as [r o] eqn:E.
  assert (Er : r = register_of true 32 (crc_bit (Z.lxor c (if b then 1 else 0)))).
  { rewrite <- crc_clock by auto. rewrite E. reflexivity. }
  rewrite Er. rewrite <- IH.
  - destruct (trace _ _ bs); reflexivity.
  - apply crc_bit_range. apply (@lxor_small 32); auto. destruct b; cbn; lia.
Qed.

(** One octet, bit by bit. *)
Lemma crc_bits : forall n c x, (0 <= x)%Z ->
  fold_left (fun c (b : bool) => crc_bit (Z.lxor c (if b then 1 else 0))) (vec n x) c =
  bits_of n (Z.lxor c (x mod 2 ^ Z.of_nat n)).
Proof.
  induction n as [|n IH]; intros c x Hx.
  - cbn. rewrite Z.mod_1_r, Z.lxor_0_r. reflexivity.
  - assert (E : vec (S n) x = Z.testbit x 0 :: vec n (x / 2)).
    { unfold vec. cbn [seq map]. f_equal. rewrite <- seq_shift, map_map. apply map_ext. intros i.
      rewrite <- Z.div2_div, Z.div2_spec, Z.shiftr_spec by lia. f_equal. lia. }
    rewrite E. cbn [fold_left bits_of]. rewrite IH by (apply Z.div_pos; lia).
    f_equal. rewrite <- crc_bit_shift. f_equal.
    rewrite Z.lxor_assoc. f_equal.
    replace (Z.of_nat (S n)) with (1 + Z.of_nat n)%Z by lia.
    assert (P : (0 < 2 ^ Z.of_nat n)%Z) by (apply Z.pow_pos_nonneg; lia).
    rewrite Z.pow_add_r, Z.pow_1_r by lia. rewrite Z.rem_mul_r by lia.
    set (y := ((x / 2) mod 2 ^ Z.of_nat n)%Z).
    rewrite Zmod_odd, Z.bit0_odd. symmetry. apply Z.add_nocarry_lxor.
    apply Z.bits_inj'. intros j Hj. rewrite Z.bits_0, Z.land_spec.
    destruct (Z.eq_dec j 0) as [->|Hj0].
    + rewrite Z.testbit_even_0. apply andb_false_r.
    + replace (Z.testbit (if Z.odd x then 1 else 0) j) with false; auto.
      destruct (Z.odd x); [|rewrite Z.bits_0; auto].
      change 1%Z with (2 ^ 0)%Z. rewrite Z.pow2_bits_false by lia. reflexivity.
Qed.

Lemma crc_octets : forall l c, octets l ->
  fold_left (fun c (b : bool) => crc_bit (Z.lxor c (if b then 1 else 0))) (bitstream true 8 l) c =
  fold_left crc_byte l c.
Proof.
  induction l as [|x l IH]; intros c Ho; auto.
  inversion Ho as [|? ? Hx Hl]; subst. unfold octet in Hx. unfold bitstream in *. cbn [map concat fold_left]. rewrite fold_left_app.
  unfold stream_of at 2. rewrite crc_bits by lia. rewrite Z.mod_small by (change (2 ^ Z.of_nat 8)%Z with 256%Z; lia).
  rewrite <- crc_byte_bits. apply IH. auto.
Qed.

(** The hardware CRC configuration, any word width and style. *)
Lemma crc_hardware d red ws l s' os : octets l -> bitstream true d ws = bitstream true 8 l ->
  trace (word_step (mkLc 32 crc_poly true false true d red)) 4294967295%Z ws = (s', os) ->
  Z.lxor s' 4294967295%Z = crc32 l.
Proof.
  intros Ho EB T. set (c := mkLc 32 crc_poly true false true d red) in *.
  destruct (@words_serial c ltac:(cbn; lia) ws 4294967295%Z s' os ltac:(cbn; lia) T) as (E & B & _).
  cbn [c l_w l_poly l_galois l_ff l_rev l_d] in E, B. rewrite EB in E.
  unfold serial in E. apply (f_equal fst) in E. cbn [fst] in E.
  rewrite crc_clocks in E by lia. rewrite crc_octets in E by auto.
  unfold crc32. f_equal. symmetry. eapply register_inj with (n := 32); [| |exact E].
  - apply (@crc_state_range l 4294967295%Z); auto. lia.
  - exact B.
Qed.
