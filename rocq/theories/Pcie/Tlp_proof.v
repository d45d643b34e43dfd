From Verif Require Import Base.Prelude Base.Bits Pcie.Tlp_model Pcie.Tlp_spec.
Open Scope Z_scope.

(** ** Byte enables *)

Lemma land_not3 a : Z.land a (Z.lnot 3) = a - a mod 4.
Proof.
  rewrite <- Z.ldiff_land. change 3 with (Z.ones 2). rewrite Z.ldiff_ones_r by lia.
  rewrite Z.shiftl_mul_pow2, Z.shiftr_div_pow2 by lia. change (2 ^ 2) with 4.
  pose proof (Z.div_mod a 4). lia.
Qed.

Lemma set_be_fields t addr len :
  let r := set_be t addr len in
  let fp := addr mod 4 in
  let lp := 3 - (addr + len - 1) mod 4 in
  let dw := (len + fp + lp + 3) / 4 in
  t_addr r = addr - fp /\ t_length r = dw /\
  t_first_be r = (if dw =? 1 then Z.land (Z.land (Z.shiftl 0xf fp) 0xf) (Z.shiftr 0xf lp)
                  else Z.land (Z.shiftl 0xf fp) 0xf) /\
  t_last_be r = (if dw =? 1 then 0 else Z.shiftr 0xf lp) /\
  t_fmt r = t_fmt t /\ t_type r = t_type t /\ t_data r = t_data t.
Proof. destruct t as []. cbn. rewrite land_not3. auto 10. Qed.

Lemma four_cases z : 0 <= z < 4 -> z = 0 \/ z = 1 \/ z = 2 \/ z = 3.
Proof. lia. Qed.

Lemma set_be_dw addr len :
  1 <= len ->
  let fp := addr mod 4 in let lp := 3 - (addr + len - 1) mod 4 in
  let dw := (len + fp + lp + 3) / 4 in
  len + fp + lp = 4 * dw /\ 1 <= dw /\ 0 <= fp < 4 /\ 0 <= lp < 4.
Proof.
  intros H fp lp dw.
  pose proof (Z.mod_pos_bound addr 4 eq_refl). pose proof (Z.mod_pos_bound (addr + len - 1) 4 eq_refl).
  unfold dw, fp, lp in *. Z.to_euclidean_division_equations. lia.
Qed.

Lemma set_be_enabled t addr len i : 1 <= len ->
  enabled (set_be t addr len) i =
  ((addr mod 4 <=? i) && (i <? addr mod 4 + len))%bool.
Proof.
  intros H. destruct (set_be_fields t addr len) as (Ha & Hl & Hf & Hb & _).
  destruct (set_be_dw addr H) as (E & Hd & Hfp & Hlp).
  unfold enabled. rewrite Hl, Hf, Hb.
  set (fp := addr mod 4) in *. set (lp := 3 - (addr + len - 1) mod 4) in *.
  set (dw := (len + fp + lp + 3) / 4) in *. clearbody fp lp dw. clear Ha Hl Hf Hb.
  assert (HF : forall k, 0 <= k < 4 -> Z.testbit (Z.land (Z.shiftl 15 fp) 15) k = (fp <=? k)).
  { intros k Hk. destruct (four_cases Hfp) as [->|[->|[->| ->]]], (four_cases Hk) as [->|[->|[->| ->]]]; reflexivity. }
  assert (HL : forall k, 0 <= k < 4 -> Z.testbit (Z.shiftr 15 lp) k = (k <? 4 - lp)).
  { intros k Hk. destruct (four_cases Hlp) as [->|[->|[->| ->]]], (four_cases Hk) as [->|[->|[->| ->]]]; reflexivity. }
  destruct (Z.leb_spec 0 i); [|cbn; lia].
  destruct (Z.ltb_spec i (4 * dw)); [|cbn; lia]. cbn [andb].
  destruct (Z.ltb_spec i 4) as [H4|H4].
  - destruct (Z.eqb_spec dw 1).
    + rewrite Z.land_spec, HF, HL by lia. lia.
    + rewrite HF by lia. lia.
  - destruct (Z.ltb_spec i (4 * (dw - 1))) as [H5|H5].
    + lia.
    + destruct (Z.eqb_spec dw 1); [lia|]. 
      assert (Em : i mod 4 = i - 4 * (dw - 1)).
      { Z.to_euclidean_division_equations. lia. }
      rewrite HL by (rewrite Em; lia). rewrite Em. lia.
Qed.

Lemma set_be_touches t addr len b : 1 <= len ->
  touches (set_be t addr len) b = ((addr <=? b) && (b <? addr + len))%bool.
Proof.
  intros H. unfold touches. rewrite set_be_enabled by auto.
  destruct (set_be_fields t addr len) as (Ha & _). rewrite Ha. lia.
Qed.

Lemma set_be_addr t addr len : t_addr (set_be t addr len) = addr - addr mod 4.
Proof. apply set_be_fields. Qed.

Lemma set_be_first_nonzero t addr len : 1 <= len ->
  t_first_be (set_be t addr len) <> 0 /\ (t_length (set_be t addr len) <> 1 -> t_last_be (set_be t addr len) <> 0).
Proof.
  intros H. destruct (set_be_fields t addr len) as (Ha & Hl & Hf & Hb & _).
  destruct (set_be_dw addr H) as (E & Hd & Hfp & Hlp).
  rewrite Hl, Hf, Hb.
  set (fp := addr mod 4) in *. set (lp := 3 - (addr + len - 1) mod 4) in *.
  set (dw := (len + fp + lp + 3) / 4) in *. clearbody fp lp dw. clear Ha Hl Hf Hb.
  destruct (Z.eqb_spec dw 1).
  - split; [|lia]. subst dw.
    destruct (four_cases Hfp) as [->|[->|[->| ->]]], (four_cases Hlp) as [->|[->|[->| ->]]]; try lia; discriminate.
  - split; [destruct (four_cases Hfp) as [->|[->|[->| ->]]]; discriminate|].
    intros _. destruct (four_cases Hlp) as [->|[->|[->| ->]]]; discriminate.
Qed.

(** Byte count and offset for arbitrary enables. *)
Lemma be16 z : 0 <= z < 16 ->
  z = 0 \/ z = 1 \/ z = 2 \/ z = 3 \/ z = 4 \/ z = 5 \/ z = 6 \/ z = 7 \/
  z = 8 \/ z = 9 \/ z = 10 \/ z = 11 \/ z = 12 \/ z = 13 \/ z = 14 \/ z = 15.
Proof. lia. Qed.

Lemma first_off_spec t : 0 <= t_first_be t < 16 -> t_first_be t <> 0 -> 1 <= t_length t ->
  enabled t (first_be_offset t) = true /\
  (forall i, enabled t i = true -> first_be_offset t <= i).
Proof.
  intros Hf Hn Hl. unfold enabled, first_be_offset.
  assert (HH : forall f, f = t_first_be t ->
     let o := if Z.land f 7 =? 0 then 3 else if Z.land f 3 =? 0 then 2 else if Z.land f 1 =? 0 then 1 else 0 in
     0 <= o < 4 /\ Z.testbit f o = true /\ (forall i, 0 <= i < o -> Z.testbit f i = false)).
  { intros f ->. destruct (be16 Hf) as [E|[E|[E|[E|[E|[E|[E|[E|[E|[E|[E|[E|[E|[E|[E|E]]]]]]]]]]]]]]];
      rewrite E in *; try congruence; cbn; (split; [lia|]); (split; [reflexivity|]); intros i Hi;
      assert (C : i = 0 \/ i = 1 \/ i = 2) by lia; destruct C as [->|[->| ->]]; try lia; reflexivity. }
  destruct (HH _ eq_refl) as (Ho & Ht & Hm). cbv zeta in *.
  set (o := if Z.land (t_first_be t) 7 =? 0 then 3 else _) in *. clearbody o.
  split.
  - destruct (Z.ltb_spec o 4); [|lia]. rewrite Ht. lia.
  - intros i Hi. destruct (Z.ltb_spec i 4) as [H4|H4]; [|lia].
    destruct (Z.leb_spec o i); auto. rewrite Hm in Hi by (destruct (Z.leb_spec 0 i); cbn in Hi; [lia|discriminate]).
    rewrite andb_false_r in Hi. discriminate.
Qed.

Lemma last_off_spec t : 0 <= t_first_be t < 16 -> 0 <= t_last_be t < 16 -> 1 <= t_length t ->
  (if t_length t =? 1 then t_first_be t <> 0 else t_last_be t <> 0) ->
  enabled t (4 * t_length t - 1 - last_be_offset t) = true /\
  (forall i, enabled t i = true -> i <= 4 * t_length t - 1 - last_be_offset t).
Proof.
  intros Hf Hlb Hl Hn. unfold enabled, last_be_offset.
  assert (HH : forall f, f = (if t_length t =? 1 then t_first_be t else t_last_be t) ->
     let o := if Z.land f 0xf =? 1 then 3 else if Z.land f 0xe =? 2 then 2 else if Z.land f 0xc =? 4 then 1 else 0 in
     0 <= o < 4 /\ Z.testbit f (3 - o) = true /\ (forall i, 3 - o < i < 4 -> Z.testbit f i = false)).
  { intros f Ef. assert (Hfr : 0 <= f < 16) by (destruct (t_length t =? 1); lia).
    assert (Hfn : f <> 0) by (destruct (t_length t =? 1); congruence). clear - Hfr Hfn.
    destruct (be16 Hfr) as [E|[E|[E|[E|[E|[E|[E|[E|[E|[E|[E|[E|[E|[E|[E|E]]]]]]]]]]]]]]];
      subst f; try congruence; cbn; (split; [lia|]); (split; [reflexivity|]); intros i Hi;
      assert (C : i = 1 \/ i = 2 \/ i = 3) by lia; destruct C as [->|[->| ->]]; try lia; reflexivity. }
  destruct (HH _ eq_refl) as (Ho & Ht & Hm). cbv zeta in *.
  set (o := if Z.land _ 15 =? 1 then 3 else _) in *. clearbody o. clear HH.
  split.
  - destruct (Z.eqb_spec (t_length t) 1) as [E1|E1].
    + rewrite E1 in *. replace (4 * 1 - 1 - o) with (3 - o) by lia.
      destruct (Z.ltb_spec (3 - o) 4); [|lia]. rewrite Ht. lia.
    + destruct (Z.ltb_spec (4 * t_length t - 1 - o) 4); [lia|].
      destruct (Z.ltb_spec (4 * t_length t - 1 - o) (4 * (t_length t - 1))); [lia|].
      replace ((4 * t_length t - 1 - o) mod 4) with (3 - o) by (Z.to_euclidean_division_equations; lia).
      rewrite Ht. lia.
  - intros i Hi. apply andb_true_iff in Hi. destruct Hi as [Hr Hi].
    destruct (Z.leb_spec i (4 * t_length t - 1 - o)); auto. exfalso.
    destruct (Z.eqb_spec (t_length t) 1) as [E1|E1].
    + rewrite E1 in *. destruct (Z.ltb_spec i 4); [|lia]. rewrite Hm in Hi by lia. discriminate.
    + destruct (Z.ltb_spec i 4); [lia|].
      destruct (Z.ltb_spec i (4 * (t_length t - 1))); [lia|].
      rewrite Hm in Hi by (Z.to_euclidean_division_equations; lia). discriminate.
Qed.

Lemma byte_count_spec t : 0 <= t_first_be t < 16 -> 0 <= t_last_be t < 16 -> 1 <= t_length t ->
  t_first_be t <> 0 -> (t_length t <> 1 -> t_last_be t <> 0) ->
  exists lo hi, enabled t lo = true /\ enabled t hi = true /\
    (forall i, enabled t i = true -> lo <= i <= hi) /\
    first_be_offset t = lo /\ be_byte_count t = hi - lo + 1.
Proof.
  intros Hf Hl Hn H1 H2.
  destruct (first_off_spec t Hf H1 Hn) as [A B].
  destruct (@last_off_spec t Hf Hl Hn) as [C D]. { destruct (Z.eqb_spec (t_length t) 1); auto. }
  exists (first_be_offset t), (4 * t_length t - 1 - last_be_offset t). splits; auto.
  unfold be_byte_count. lia.
Qed.

Lemma set_be_range t addr len : 1 <= len ->
  0 <= t_first_be (set_be t addr len) < 16 /\ 0 <= t_last_be (set_be t addr len) < 16 /\
  1 <= t_length (set_be t addr len).
Proof.
  intros H. destruct (set_be_fields t addr len) as (Ha & Hl & Hf & Hb & _).
  destruct (set_be_dw addr H) as (E & Hd & Hfp & Hlp).
  rewrite Hl, Hf, Hb.
  set (fp := addr mod 4) in *. set (lp := 3 - (addr + len - 1) mod 4) in *.
  set (dw := (len + fp + lp + 3) / 4) in *. clearbody fp lp dw. clear Ha Hl Hf Hb.
  splits; try lia;
  destruct (dw =? 1), (four_cases Hfp) as [->|[->|[->| ->]]], (four_cases Hlp) as [->|[->|[->| ->]]]; cbn; lia.
Qed.

Lemma set_be_count t addr len : 1 <= len ->
  first_be_offset (set_be t addr len) = addr mod 4 /\ be_byte_count (set_be t addr len) = len.
Proof.
  intros H. destruct (set_be_range t addr H) as (A & B & C).
  destruct (set_be_first_nonzero t addr H) as (D & E).
  destruct (byte_count_spec _ A B C D E) as (lo & hi & H1 & H2 & H3 & H4 & H5).
  rewrite H4, H5.
  rewrite set_be_enabled in H1, H2 by auto.
  assert (H6 := H3 (addr mod 4)). assert (H7 := H3 (addr mod 4 + len - 1)).
  rewrite set_be_enabled in H6, H7 by auto. lia.
Qed.

(** ** Byte data and dwords *)

Lemma le_bytes_dword b0 b1 b2 b3 : is_byte b0 -> is_byte b1 -> is_byte b2 -> is_byte b3 ->
  le_bytes (le_dword b0 b1 b2 b3) = [b0; b1; b2; b3].
Proof.
  unfold is_byte, le_bytes, le_dword. intros. repeat f_equal; Z.to_euclidean_division_equations; lia.
Qed.

Lemma four_ind {A} (P : list A -> Prop) :
  P [] -> (forall a, P [a]) -> (forall a b, P [a; b]) -> (forall a b c, P [a; b; c]) ->
  (forall a b c d t, P t -> P (a :: b :: c :: d :: t)) -> forall l, P l.
Proof.
  intros H0 H1 H2 H3 H4. fix go 1. intros [|a [|b [|c [|d t]]]]; [exact H0|apply H1|apply H2|apply H3|apply H4, go].
Qed.

Lemma dwords_of_ok : forall l, (length l mod 4 = 0)%nat -> bytes_ok l ->
  exists d, dwords_of l = Ok d /\ flat_map le_bytes d = l /\ length l = (4 * length d)%nat.
Proof.
  induction l as [| | | |a b c d t IH] using four_ind; intros Hm Hb; try discriminate Hm.
  - exists []. auto.
  - inversion Hb as [|? ? Ha Hb1]; subst. inversion Hb1 as [|? ? Hbb Hb2]; subst.
    inversion Hb2 as [|? ? Hc Hb3]; subst. inversion Hb3 as [|? ? Hd Hb4]; subst.
    destruct IH as (ds & E & F & G); auto.
    { cbn [length] in Hm. replace (S (S (S (S (length t))))) with (length t + 1 * 4)%nat in Hm by lia.
      rewrite Nat.mod_add in Hm by lia. auto. }
    exists (le_dword a b c d :: ds). cbn [dwords_of]. rewrite E. split; auto. split.
    + cbn [flat_map]. rewrite le_bytes_dword, F by auto. reflexivity.
    + cbn [length]. lia.
Qed.

Lemma nth_flat_le : forall d i, (i < 4 * length d)%nat ->
  nth i (flat_map le_bytes d) 0 = (nth (i / 4) d 0 / 256 ^ Z.of_nat (i mod 4)) mod 256.
Proof.
  induction d as [|x d IH]; intros i Hi; [cbn in Hi; lia|].
  cbn [flat_map]. destruct (Nat.ltb_spec i 4) as [H|H].
  - rewrite app_nth1 by (cbn; lia). rewrite Nat.div_small, Nat.mod_small by lia.
    destruct i as [|[|[|[|i]]]]; try lia; cbn [nth le_bytes]; try reflexivity.
    rewrite Z.pow_0_r, Z.div_1_r. reflexivity.
  - rewrite app_nth2 by (cbn; lia). change (length (le_bytes x)) with 4%nat.
    rewrite IH by (cbn [length] in Hi; lia).
    assert (E : (i = (i - 4) + 1 * 4)%nat) by lia.
    assert (E1 : (i / 4 = S ((i - 4) / 4))%nat) by (rewrite E at 1; rewrite Nat.div_add by lia; lia).
    assert (E2 : (i mod 4 = (i - 4) mod 4)%nat) by (rewrite E at 1; rewrite Nat.mod_add by lia; lia).
    rewrite E1, E2. reflexivity.
Qed.

Lemma get_data_length t : length (get_data t) = (4 * length (t_data t))%nat.
Proof. unfold get_data. induction (t_data t); cbn [flat_map length app le_bytes]; lia. Qed.

Lemma byte_at_get_data t b : 0 <= b - t_addr t < 4 * Z.of_nat (length (t_data t)) ->
  byte_at t b = nth (Z.to_nat (b - t_addr t)) (get_data t) 0.
Proof.
  intros H. unfold byte_at, get_data. rewrite nth_flat_le by lia.
  rewrite Z2Nat.inj_div by lia. change (Z.to_nat 4) with 4%nat.
  f_equal. f_equal. f_equal.
  rewrite <- (Z2Nat.id (b - t_addr t)) at 1 by lia. change 4 with (Z.of_nat 4) at 1.
  rewrite <- Nat2Z.inj_mod. reflexivity.
Qed.

Lemma set_be_data_ok t addr data : 1 <= Z.of_nat (length data) -> bytes_ok data ->
  exists d, set_be_data t addr data = Ok (let r := set_be t addr (Z.of_nat (length data)) in
    let '(mkTlp f ty tc th td ep at1 at2 le co st bc byc rq de tag fb lb lo ad rn _) := r in
    mkTlp f ty tc th td ep at1 at2 le co st bc byc rq de tag fb lb lo ad rn d) /\
    Z.of_nat (length d) = t_length (set_be t addr (Z.of_nat (length data))) /\
    flat_map le_bytes d = repeat 0 (Z.to_nat (addr mod 4)) ++ data ++
       repeat 0 (Z.to_nat (3 - (addr + Z.of_nat (length data) - 1) mod 4)).
Proof.
  intros Hn Hb. set (n := Z.of_nat (length data)) in *.
  destruct (@set_be_dw addr n Hn) as (E & Hd & Hfp & Hlp).
  destruct (set_be_fields t addr n) as (Ha & Hl & Hf & Hbe & _).
  unfold set_be_data. fold n. unfold set_be_pads. cbv beta iota.
  set (fp := addr mod 4) in *. set (lp := 3 - (addr + n - 1) mod 4) in *.
  set (pad := repeat 0 (Z.to_nat fp) ++ data ++ repeat 0 (Z.to_nat lp)).
  assert (Hlen : length pad = Z.to_nat (n + fp + lp)).
  { unfold pad. rewrite !app_length, !repeat_length. unfold n. lia. }
  assert (Hpb : bytes_ok pad).
  { unfold pad, bytes_ok. apply Forall_app. split.
    - apply Forall_forall. intros x Hx. apply repeat_spec in Hx. subst. unfold is_byte. lia.
    - apply Forall_app. split; auto.
      apply Forall_forall. intros x Hx. apply repeat_spec in Hx. subst. unfold is_byte. lia. }
  destruct (@dwords_of_ok pad) as (d & D1 & D2 & D3); auto.
  { rewrite Hlen. set (dw := (n + fp + lp + 3) / 4) in *. clearbody dw fp lp. rewrite E.
    replace (Z.to_nat (4 * dw)) with (Z.to_nat dw * 4)%nat by lia. apply Nat.mod_mul. lia. }
  exists d. unfold set_data. rewrite D1.
  assert (Hdl : Z.of_nat (length d) = t_length (set_be t addr n)).
  { rewrite Hl. rewrite Hlen in D3. clear - D3 E Hd. lia. }
  splits; auto.
  cbv zeta. destruct (set_be t addr n) as []. cbn in Hdl. rewrite <- Hdl. reflexivity.
Qed.

(** ** Packing *)

Lemma testbit_ones_ge w n : 0 <= w -> Z.testbit (Z.ones w) n = ((0 <=? n) && (n <? w))%bool.
Proof.
  intros. destruct (Z.leb_spec 0 n).
  - rewrite Z.testbit_ones_nonneg by lia. reflexivity.
  - rewrite Z.testbit_neg_r by lia. reflexivity.
Qed.

Lemma testbit_high x w n : 0 <= x < 2 ^ w -> w <= n -> Z.testbit x n = false.
Proof.
  intros H Hn. destruct (Z.eq_dec x 0) as [->|]; [apply Z.bits_0|].
  apply Z.bits_above_log2; [lia|]. assert (Z.log2 x < w) by (apply Z.log2_lt_pow2; lia). lia.
Qed.

(** Disjoint fields: [a] below bit [k]. *)
Lemma lor_field a b k : 0 <= k -> 0 <= a < 2 ^ k -> 0 <= b ->
  Z.lor a (Z.shiftl b k) = a + b * 2 ^ k.
Proof.
  intros Hk Ha Hb. rewrite Z.shiftl_mul_pow2 by lia.
  rewrite <- Z.lxor_lor, <- Z.add_nocarry_lxor; auto.
  all: apply Z.bits_inj'; intros n Hn; rewrite Z.land_spec, Z.bits_0;
    destruct (Z.ltb_spec n k);
    [ rewrite Z.mul_pow2_bits_low, andb_false_r by lia; reflexivity
    | rewrite (@testbit_high a k n) by lia; reflexivity ].
Qed.

Lemma land_ones' x m w : m = Z.ones w -> 0 <= w -> Z.land x m = x mod 2 ^ w.
Proof. intros -> H. apply Z.land_ones; lia. Qed.

Lemma land_small x m w : m = Z.ones w -> 0 <= w -> 0 <= x < 2 ^ w -> Z.land x m = x.
Proof. intros Hm Hw Hx. rewrite (land_ones' _ Hm Hw). apply Z.mod_small; auto. Qed.

Lemma pid_int_val p : wf_pid p -> pid_int p = p_fn p + 8 * p_dev p + 256 * p_bus p.
Proof.
  intros (A & B & C). unfold pid_int.
  rewrite (@land_small (p_bus p) 0xff 8), (@land_small (p_dev p) 0x1f 5), (@land_small (p_fn p) 0x7 3) by (reflexivity || lia).
  rewrite (Z.lor_comm (Z.lor _ _)). rewrite (Z.lor_comm (Z.shiftl (p_bus p) 8)). rewrite Z.lor_assoc.
  rewrite (@lor_field (p_fn p) (p_dev p) 3) by lia.
  rewrite lor_field by lia. change (2 ^ 3) with 8. change (2 ^ 8) with 256. lia.
Qed.

Lemma pid_of_int_val p k : wf_pid p -> 0 <= k ->
  pid_of_int (pid_int p) = p.
Proof.
  intros Hp _. rewrite (pid_int_val Hp). destruct Hp as (A & B & C). unfold pid_of_int.
  rewrite (@land_ones' _ 0xff 8), (@land_ones' _ 0x1f 5), (@land_ones' _ 0x7 3) by (reflexivity || lia).
  rewrite !Z.shiftr_div_pow2 by lia. change (2 ^ 8) with 256. change (2 ^ 3) with 8. change (2 ^ 5) with 32.
  destruct p as [b d f]; cbn [p_bus p_dev p_fn] in *. f_equal; Z.to_euclidean_division_equations; lia.
Qed.
Lemma pid_int_range p : wf_pid p -> 0 <= pid_int p < 65536.
Proof. intros H. rewrite (pid_int_val H). destruct H as (A & B & C). lia. Qed.

(** The first dword, as a sum of fields. *)
Lemma attr_split a : 0 <= a < 8 -> Z.land a 3 = a mod 4 /\ Z.land a 4 = 4 * (a / 4) /\ 0 <= a / 4 < 2.
Proof.
  intros H. assert (C : a = 0 \/ a = 1 \/ a = 2 \/ a = 3 \/ a = 4 \/ a = 5 \/ a = 6 \/ a = 7) by lia.
  destruct C as [->|[->|[->|[->|[->|[->|[->| ->]]]]]]]; cbn; splits; try reflexivity; try lia.
Qed.

Definition dw0_val (t : tlp) : Z :=
  t_length t mod 1024 + 2 ^ 10 * t_at t + 2 ^ 12 * (t_attr t mod 4) + 2 ^ 14 * t_ep t +
  2 ^ 15 * t_td t + 2 ^ 16 * t_th t + 2 ^ 18 * (t_attr t / 4) + 2 ^ 20 * t_tc t +
  2 ^ 24 * t_type t + 2 ^ 29 * t_fmt t.

Lemma pack_dw0_val t : wf_hdr t -> 0 <= t_type t < 32 -> 0 <= t_fmt t < 8 ->
  pack_dw0 t = dw0_val t.
Proof.
  intros (Htc & Hth & Htd & Hep & Hat & Hat2 & _) Hty Hfm. unfold pack_dw0, dw0_val. cbv zeta.
  destruct (attr_split Hat) as (A1 & A2 & A3). rewrite A1, A2.
  rewrite (@land_ones' (t_length t) 0x3ff 10) by (reflexivity || lia).
  rewrite (@land_small (t_at t) 0x3 2), (@land_small (t_ep t) 1 1), (@land_small (t_td t) 1 1),
    (@land_small (t_th t) 1 1), (@land_small (t_tc t) 7 3), (@land_small (t_type t) 0x1f 5),
    (@land_small (t_fmt t) 7 3) by (reflexivity || lia).
  change (2 ^ 10) with 1024.
  pose proof (Z.mod_pos_bound (t_length t) 1024 eq_refl) as HL.
  pose proof (Z.mod_pos_bound (t_attr t) 4 eq_refl) as HA.
  set (len := t_length t mod 1024) in *. set (al := t_attr t mod 4) in *. set (ah := t_attr t / 4) in *.
  clearbody len al ah.
  replace (Z.shiftl (4 * ah) 16) with (Z.shiftl ah 18)
    by (rewrite !Z.shiftl_mul_pow2 by lia; change (2 ^ 18) with (4 * 2 ^ 16); lia).
  rewrite (@lor_field _ (t_at t) 10) by lia.
  rewrite (@lor_field _ al 12) by lia.
  rewrite (@lor_field _ (t_ep t) 14) by lia.
  rewrite (@lor_field _ (t_td t) 15) by lia.
  rewrite (@lor_field _ (t_th t) 16) by lia.
  rewrite (@lor_field _ ah 18) by lia.
  rewrite (@lor_field _ (t_tc t) 20) by lia.
  rewrite (@lor_field _ (t_type t) 24) by lia.
  rewrite (@lor_field _ (t_fmt t) 29) by lia.
  lia.
Qed.

Lemma field_mid d lo f hi k w : 0 <= k -> 0 <= w -> d = lo + 2 ^ k * (f + 2 ^ w * hi) ->
  0 <= lo < 2 ^ k -> 0 <= f < 2 ^ w -> forall m, m = Z.ones w -> Z.land (Z.shiftr d k) m = f.
Proof.
  intros Hk Hw -> Hl Hf m Hm. rewrite (land_ones' _ Hm Hw), Z.shiftr_div_pow2 by lia.
  replace (lo + 2 ^ k * (f + 2 ^ w * hi)) with (lo + (f + 2 ^ w * hi) * 2 ^ k) by lia.
  rewrite Z.div_add, (Z.div_small lo) by lia. rewrite Z.add_0_l.
  replace (f + 2 ^ w * hi) with (f + hi * 2 ^ w) by lia. rewrite Z.mod_add by lia. apply Z.mod_small; auto.
Qed.

Lemma dw0_fields t : wf_hdr t -> 0 <= t_type t < 32 -> 0 <= t_fmt t < 8 ->
  let d0 := pack_dw0 t in
  Z.land d0 0x3ff = t_length t mod 1024 /\
  Z.land (Z.shiftr d0 10) 0x3 = t_at t /\
  Z.lor (Z.land (Z.shiftr d0 12) 0x3) (Z.land (Z.shiftr d0 16) 0x4) = t_attr t /\
  Z.land (Z.shiftr d0 14) 1 = t_ep t /\
  Z.land (Z.shiftr d0 15) 1 = t_td t /\
  Z.land (Z.shiftr d0 16) 1 = t_th t /\
  Z.land (Z.shiftr d0 20) 0x7 = t_tc t /\
  Z.land (Z.shiftr d0 24) 0x1f = t_type t /\
  Z.land (Z.shiftr d0 29) 0x7 = t_fmt t.
Proof.
  intros Hw Hty Hfm d0. unfold d0. rewrite (@pack_dw0_val t Hw Hty Hfm). clear d0.
  destruct Hw as (Htc & Hth & Htd & Hep & Hat & Hat2 & _).
  unfold dw0_val.
  pose proof (Z.mod_pos_bound (t_length t) 1024 eq_refl) as HL.
  destruct (attr_split Hat) as (_ & _ & HA2).
  pose proof (Z.mod_pos_bound (t_attr t) 4 eq_refl) as HA.
  pose proof (Z.div_mod (t_attr t) 4 ltac:(lia)) as HD.
  set (len := t_length t mod 1024) in *. set (al := t_attr t mod 4) in *. set (ah := t_attr t / 4) in *.
  clearbody len al ah.
  set (a2 := t_at t) in *. set (ep := t_ep t) in *. set (td := t_td t) in *. set (th := t_th t) in *.
  set (tc := t_tc t) in *. set (ty := t_type t) in *. set (fm := t_fmt t) in *. 
  rewrite HD. clearbody a2 ep td th tc ty fm.
  change (2 ^ 10) with 1024. change (2 ^ 12) with 4096. change (2 ^ 14) with 16384.
  change (2 ^ 15) with 32768. change (2 ^ 16) with 65536. change (2 ^ 18) with 262144.
  change (2 ^ 20) with 1048576. change (2 ^ 24) with 16777216. change (2 ^ 29) with 536870912.
  match goal with |- context [Z.land ?d 1023] => set (d0 := d) end.
  splits.
  - rewrite <- (Z.shiftr_0_r d0).
    apply (@field_mid d0 0 len (a2 + 4 * al + 16 * ep + 32 * td + 64 * th + 256 * ah + 1024 * tc + 16384 * ty + 524288 * fm) 0 10); unfold d0; try reflexivity; lia.
  - apply (@field_mid d0 len a2 (al + 4 * ep + 8 * td + 16 * th + 64 * ah + 256 * tc + 4096 * ty + 131072 * fm) 10 2); unfold d0; try reflexivity; lia.
  - rewrite (@field_mid d0 (len + 1024 * a2) al (ep + 2 * td + 4 * th + 16 * ah + 64 * tc + 1024 * ty + 32768 * fm) 12 2) by (unfold d0; try reflexivity; lia).
    assert (E : Z.land (Z.shiftr d0 16) 4 = 4 * ah).
    { assert (F : Z.land (Z.shiftr d0 18) 1 = ah)
        by (apply (@field_mid d0 (len + 1024 * a2 + 4096 * al + 16384 * ep + 32768 * td + 65536 * th) ah (2 * tc + 32 * ty + 1024 * fm) 18 1); unfold d0; try reflexivity; lia).
      rewrite <- F. replace 18 with (16 + 2) by lia. rewrite <- Z.shiftr_shiftr by lia.
      set (y := Z.shiftr d0 16). apply Z.bits_inj'. intros n Hn.
      replace (4 * Z.land (Z.shiftr y 2) 1) with (Z.shiftl (Z.land (Z.shiftr y 2) 1) 2)
        by (rewrite Z.shiftl_mul_pow2 by lia; change (2 ^ 2) with 4; lia).
      rewrite Z.land_spec, Z.shiftl_spec, Z.land_spec by lia.
      destruct (Z.eq_dec n 2) as [->|].
      - rewrite Z.shiftr_spec by lia. reflexivity.
      - replace (Z.testbit 4 n) with false by (change 4 with (2 ^ 2); rewrite Z.pow2_bits_false; auto).
        destruct (Z.ltb_spec (n - 2) 0).
        + rewrite (Z.testbit_neg_r _ (n - 2)) by lia. now rewrite andb_false_r.
        + replace (Z.testbit 1 (n - 2)) with false by (change 1 with (2 ^ 0); rewrite Z.pow2_bits_false; auto; lia).
          now rewrite !andb_false_r. }
    rewrite E. replace (4 * ah) with (Z.shiftl ah 2) by (rewrite Z.shiftl_mul_pow2 by lia; change (2^2) with 4; lia).
    rewrite lor_field by lia. change (2 ^ 2) with 4. rewrite Z.shiftl_mul_pow2 by lia. change (2 ^ 2) with 4. lia.
  - apply (@field_mid d0 (len + 1024 * a2 + 4096 * al) ep (td + 2 * th + 8 * ah + 32 * tc + 512 * ty + 16384 * fm) 14 1); unfold d0; try reflexivity; lia.
  - apply (@field_mid d0 (len + 1024 * a2 + 4096 * al + 16384 * ep) td (th + 4 * ah + 16 * tc + 256 * ty + 8192 * fm) 15 1); unfold d0; try reflexivity; lia.
  - apply (@field_mid d0 (len + 1024 * a2 + 4096 * al + 16384 * ep + 32768 * td) th (2 * ah + 8 * tc + 128 * ty + 4096 * fm) 16 1); unfold d0; try reflexivity; lia.
  - apply (@field_mid d0 (len + 1024 * a2 + 4096 * al + 16384 * ep + 32768 * td + 65536 * th + 262144 * ah) tc (2 * ty + 64 * fm) 20 3); unfold d0; try reflexivity; lia.
  - apply (@field_mid d0 (len + 1024 * a2 + 4096 * al + 16384 * ep + 32768 * td + 65536 * th + 262144 * ah + 1048576 * tc) ty fm 24 5); unfold d0; try reflexivity; lia.
  - apply (@field_mid d0 (len + 1024 * a2 + 4096 * al + 16384 * ep + 32768 * td + 65536 * th + 262144 * ah + 1048576 * tc + 16777216 * ty) fm 0 29 3); unfold d0; try reflexivity; lia.
Qed.

Lemma req_dw1 fb lb tag rq : 0 <= fb < 16 -> 0 <= lb < 16 -> 0 <= tag < 256 -> wf_pid rq ->
  let d1 := Z.lor (Z.lor (Z.lor (Z.land fb 0xf) (Z.shiftl (Z.land lb 0xf) 4)) (Z.shiftl (Z.land tag 0xff) 8))
              (Z.shiftl (pid_int rq) 16) in
  Z.land d1 0xf = fb /\ Z.land (Z.shiftr d1 4) 0xf = lb /\ Z.land (Z.shiftr d1 8) 0xff = tag /\
  pid_of_int (Z.shiftr d1 16) = rq.
Proof.
  intros Hf Hl Ht Hr. cbv zeta. pose proof (pid_int_range Hr) as Hp.
  rewrite (@land_small fb 0xf 4), (@land_small lb 0xf 4), (@land_small tag 0xff 8) by (reflexivity || lia).
  rewrite (@lor_field fb lb 4), (@lor_field _ tag 8), (@lor_field _ (pid_int rq) 16) by lia.
  change (2 ^ 4) with 16. change (2 ^ 8) with 256. change (2 ^ 16) with 65536.
  set (r := pid_int rq) in *. 
  set (d1 := fb + lb * 16 + tag * 256 + r * 65536).
  assert (E : Z.shiftr d1 16 = r).
  { rewrite Z.shiftr_div_pow2 by lia. change (2 ^ 16) with 65536. unfold d1.
    rewrite Z.div_add by lia. rewrite Z.div_small by lia. lia. }
  splits.
  - rewrite <- (Z.shiftr_0_r d1). apply (@field_mid d1 0 fb (lb + 16 * tag + 4096 * r) 0 4); unfold d1; try reflexivity; lia.
  - apply (@field_mid d1 fb lb (tag + 256 * r) 4 4); unfold d1; try reflexivity; lia.
  - apply (@field_mid d1 (fb + 16 * lb) tag r 8 8); unfold d1; try reflexivity; lia.
  - rewrite E. apply (@pid_of_int_val rq 0 Hr). lia.
Qed.

Lemma cfg_dw2 rn de : 0 <= rn < 1024 -> wf_pid de ->
  let d2 := Z.lor (Z.shiftl (Z.land rn 0x3ff) 2) (Z.shiftl (pid_int de) 16) in
  pid_of_int (Z.shiftr d2 16) = de /\ Z.shiftr (Z.shiftr d2 2) 0x3ff = 0.
Proof.
  intros Hr Hd. cbv zeta. pose proof (pid_int_range Hd) as Hp.
  rewrite (@land_small rn 0x3ff 10) by (reflexivity || lia).
  rewrite (Z.shiftl_mul_pow2 rn) by lia. rewrite lor_field by lia.
  change (2 ^ 2) with 4. change (2 ^ 16) with 65536.
  set (r := pid_int de) in *. set (d2 := rn * 4 + r * 65536).
  assert (E : Z.shiftr d2 16 = r).
  { rewrite Z.shiftr_div_pow2 by lia. change (2 ^ 16) with 65536. unfold d2.
    rewrite Z.div_add by lia. rewrite Z.div_small by lia. lia. }
  split.
  - rewrite E. apply (@pid_of_int_val de 0 Hd). lia.
  - rewrite Z.shiftr_shiftr by lia. apply Z.shiftr_eq_0; [unfold d2; lia|].
    destruct (Z.eq_dec d2 0) as [->|]; [cbn; lia|].
    apply Z.log2_lt_pow2; [unfold d2 in *; lia|]. 
    assert (2 ^ 40 <= 2 ^ (2 + 1023)) by (apply Z.pow_le_mono_r; lia).
    change (2 ^ 40) with 1099511627776 in *. unfold d2. lia.
Qed.

Lemma cpl_dw12 bc bcm st co lo tag rq :
  1 <= bc <= 4096 -> 0 <= bcm < 2 -> 0 <= st < 8 -> wf_pid co -> 0 <= lo < 128 -> 0 <= tag < 256 -> wf_pid rq ->
  let d1 := Z.lor (Z.lor (Z.lor (Z.land bc 0xfff) (Z.shiftl (Z.land bcm 1) 12)) (Z.shiftl (Z.land st 0x7) 13))
              (Z.shiftl (pid_int co) 16) in
  let d2 := Z.lor (Z.lor (Z.land lo 0x7f) (Z.shiftl (Z.land tag 0xff) 8)) (Z.shiftl (pid_int rq) 16) in
  (if Z.land d1 0xfff =? 0 then 4096 else Z.land d1 0xfff) = bc /\
  Z.land (Z.shiftr d1 12) 1 = bcm /\ Z.land (Z.shiftr d1 13) 0x7 = st /\
  pid_of_int (Z.shiftr d1 16) = co /\
  Z.land d2 0x7f = lo /\ Z.land (Z.shiftr d2 8) 0xff = tag /\ pid_of_int (Z.shiftr d2 16) = rq.
Proof.
  intros Hbc Hbm Hst Hco Hlo Htag Hrq. cbv zeta.
  pose proof (pid_int_range Hco) as Hp. pose proof (pid_int_range Hrq) as Hq.
  rewrite (@land_ones' bc 0xfff 12) by (reflexivity || lia).
  rewrite (@land_small bcm 1 1), (@land_small st 7 3), (@land_small lo 0x7f 7), (@land_small tag 0xff 8) by (reflexivity || lia).
  change (2 ^ 12) with 4096.
  pose proof (Z.mod_pos_bound bc 4096 eq_refl) as HB.
  assert (EB : (if bc mod 4096 =? 0 then 4096 else bc mod 4096) = bc).
  { destruct (Z.eqb_spec (bc mod 4096) 0) as [E|E].
    - destruct (Z.eq_dec bc 4096); auto. rewrite Z.mod_small in E by lia. lia.
    - apply Z.mod_small. destruct (Z.eq_dec bc 4096) as [->|]; [|lia]. exfalso. apply E. reflexivity. }
  set (b := bc mod 4096) in *. clearbody b.
  rewrite (@lor_field b bcm 12), (@lor_field _ st 13), (@lor_field _ (pid_int co) 16),
    (@lor_field lo tag 8), (@lor_field _ (pid_int rq) 16) by lia.
  change (2 ^ 12) with 4096. change (2 ^ 13) with 8192. change (2 ^ 8) with 256. change (2 ^ 16) with 65536.
  set (c := pid_int co) in *. set (r := pid_int rq) in *.
  set (d1 := b + bcm * 4096 + st * 8192 + c * 65536). set (d2 := lo + tag * 256 + r * 65536).
  assert (E1 : Z.shiftr d1 16 = c).
  { rewrite Z.shiftr_div_pow2 by lia. change (2 ^ 16) with 65536. unfold d1.
    rewrite Z.div_add by lia. rewrite Z.div_small by lia. lia. }
  assert (E2 : Z.shiftr d2 16 = r).
  { rewrite Z.shiftr_div_pow2 by lia. change (2 ^ 16) with 65536. unfold d2.
    rewrite Z.div_add by lia. rewrite Z.div_small by lia. lia. }
  assert (E3 : Z.land d1 0xfff = b).
  { rewrite <- (Z.shiftr_0_r d1). apply (@field_mid d1 0 b (bcm + 2 * st + 16 * c) 0 12); unfold d1; try reflexivity; lia. }
  rewrite E3. splits; auto.
  - apply (@field_mid d1 b bcm (st + 8 * c) 12 1); unfold d1; try reflexivity; lia.
  - apply (@field_mid d1 (b + 4096 * bcm) st c 13 3); unfold d1; try reflexivity; lia.
  - rewrite E1. apply (@pid_of_int_val co 0 Hco). lia.
  - rewrite <- (Z.shiftr_0_r d2). apply (@field_mid d2 0 lo (2 * tag + 512 * r) 0 7); unfold d2; try reflexivity; lia.
  - apply (@field_mid d2 lo tag r 8 8); unfold d2; try reflexivity; lia.
  - rewrite E2. apply (@pid_of_int_val rq 0 Hrq). lia.
Qed.

Lemma isft_inv t l : isft t l = true -> exists p, In p l /\ t_fmt t = fst p /\ t_type t = snd p.
Proof.
  unfold isft. rewrite existsb_exists. intros (p & Hp & E). exists p. split; auto.
  unfold ft_eqb, ft in E. apply andb_true_iff in E. cbn in E. lia.
Qed.

Lemma len_rt t : wf_hdr t ->
  (if has_data t && (t_length t mod 1024 =? 0) then 1024 else t_length t mod 1024) = t_length t.
Proof.
  intros (_ & _ & _ & _ & _ & _ & _ & _ & _ & _ & H & _). destruct (has_data t); cbn [andb].
  - destruct (Z.eqb_spec (t_length t mod 1024) 0) as [E|E].
    + destruct (Z.eq_dec (t_length t) 1024); auto. rewrite Z.mod_small in E by lia. lia.
    + apply Z.mod_small. destruct (Z.eq_dec (t_length t) 1024) as [F|]; [|lia]. exfalso. apply E. rewrite F. reflexivity.
  - apply Z.mod_small; lia.
Qed.

Ltac types_cases H :=
  apply isft_inv in H; let p := fresh "p" in let Hi := fresh "Hi" in
  let A := fresh "A" in let B := fresh "B" in
  destruct H as (p & Hi & A & B); cbn in Hi;
  repeat (destruct Hi as [<- | Hi]); try contradiction;
  match type of A with _ = ?x => let v := eval vm_compute in x in change x with v in A end;
  match type of B with _ = ?x => let v := eval vm_compute in x in change x with v in B end.

Lemma in_head (x : Z * Z) l : existsb (ft_eqb x) l = true -> In x l.
Proof.
  rewrite existsb_exists. intros ([a b] & Hin & E). unfold ft_eqb in E. destruct x as [c d]. cbn in E.
  apply andb_true_iff in E. destruct E as [E1 E2]. apply Z.eqb_eq in E1, E2. subst. auto.
Qed.

(** [unpack] in terms of the fields of the first dword. *)
Lemma unpack_head t d0 rest :
  Z.land d0 0x3ff = t_length t mod 1024 ->
  Z.land (Z.shiftr d0 10) 0x3 = t_at t ->
  Z.lor (Z.land (Z.shiftr d0 12) 0x3) (Z.land (Z.shiftr d0 16) 0x4) = t_attr t ->
  Z.land (Z.shiftr d0 14) 1 = t_ep t ->
  Z.land (Z.shiftr d0 15) 1 = t_td t ->
  Z.land (Z.shiftr d0 16) 1 = t_th t ->
  Z.land (Z.shiftr d0 20) 0x7 = t_tc t ->
  Z.land (Z.shiftr d0 24) 0x1f = t_type t ->
  Z.land (Z.shiftr d0 29) 0x7 = t_fmt t ->
  (if has_data t && (t_length t mod 1024 =? 0) then 1024 else t_length t mod 1024) = t_length t ->
  let hd := mkTlp (t_fmt t) (t_type t) (t_tc t) (t_th t) (t_td t) (t_ep t) (t_attr t) (t_at t) (t_length t) in
  let data := if t_fmt t =? FMT_3DW_DATA then skipn 2 rest
              else if t_fmt t =? FMT_4DW_DATA then skipn 3 rest else [] in
  unpack (d0 :: rest) =
  if isft t (cfg_types ++ mem_types ++ io_types) then
    bind (idx rest 0) (fun d1 =>
    let fb := Z.land d1 0xf in
    let lb := Z.land (Z.shiftr d1 4) 0xf in
    let tag := Z.land (Z.shiftr d1 8) 0xff in
    let rq := pid_of_int (Z.shiftr d1 16) in
    if isft t cfg_types then
      bind (idx rest 1) (fun d2 =>
      Ok (hd pid0 0 0 0 rq (pid_of_int (Z.shiftr d2 16)) tag fb lb 0 0
             (Z.shiftr (Z.shiftr d2 2) 0x3ff) data))
    else if (t_fmt t =? FMT_3DW) || (t_fmt t =? FMT_3DW_DATA) then
      bind (idx rest 2) (fun d3 =>
      Ok (hd pid0 0 0 0 rq pid0 tag fb lb 0 (Z.land d3 0xfffffffc) 0 data))
    else
      bind (idx rest 3) (fun d4 =>
      Ok (hd pid0 0 0 0 rq pid0 tag fb lb 0
             (Z.lor (Z.shiftl (Z.land d4 0xffffffff) 32) (Z.land d4 0xfffffffc)) 0 data)))
  else if isft t cpl_types then
    bind (idx rest 0) (fun d1 =>
    bind (idx rest 1) (fun d2 =>
    let bc := Z.land d1 0xfff in
    Ok (hd (pid_of_int (Z.shiftr d1 16)) (Z.land (Z.shiftr d1 13) 0x7)
           (Z.land (Z.shiftr d1 12) 1) (if bc =? 0 then 4096 else bc)
           (pid_of_int (Z.shiftr d2 16)) pid0 (Z.land (Z.shiftr d2 8) 0xff) 0 0
           (Z.land d2 0x7f) 0 0 data)))
  else Raise EUnknownType.
Proof.
  intros F1 F2 F3 F4 F5 F6 F7 F8 F9 HL. unfold unpack. cbn [bind idx nth_error].
  rewrite F1, F2, F3, F4, F5, F6, F7, F8, F9. cbv zeta.
  unfold isft, ft, has_data in *. cbn [t_fmt t_type]. rewrite HL. reflexivity.
Qed.

Ltac use_head t Hw HLEN :=
  let F1 := fresh in
  destruct (@dw0_fields t Hw) as (F1 & ? & ? & ? & ? & ? & ? & ? & ?); [lia|lia|];
  rewrite (@unpack_head t) by assumption.

Lemma cpl_roundtrip t : wf_cpl t -> bind (pack t) unpack = Ok t.
Proof.
  intros (Hty & Hw & Hst & Hbm & Hbc & Hlo & Hde & Hfb & Hlb & Had & Hrn).
  pose proof Hw as (_ & _ & _ & _ & _ & _ & Htag & Hrq & Hco & _ & Hlen & Hdat).
  pose proof (len_rt Hw) as HLEN.
  pose proof (@cpl_dw12 _ _ _ _ _ _ _ Hbc Hbm Hst Hco Hlo Htag Hrq) as C. cbv zeta in C.
  unfold pack, pack_body.
  replace (isft t (cfg_types ++ mem_types ++ io_types)) with false
    by (types_cases Hty; unfold isft, ft; rewrite A, B; reflexivity).
  rewrite Hty. cbv zeta.
  set (d1 := Z.lor _ (Z.shiftl (pid_int (t_completer t)) 16)) in *.
  set (d2 := Z.lor _ (Z.shiftl (pid_int (t_requester t)) 16)) in *. clearbody d1 d2.
  destruct C as (C1 & C2 & C3 & C4 & C5 & C6 & C7).
  cbn [bind].
  assert (R : 0 <= t_type t < 32 /\ 0 <= t_fmt t < 8 /\ isft t (cfg_types ++ mem_types ++ io_types) = false /\
              (t_fmt t =? FMT_4DW_DATA) = false).
  { types_cases Hty; unfold isft, ft; rewrite A, B; (split; [lia|]); (split; [lia|]); split; reflexivity. }
  destruct R as (R1 & R2 & R3 & R4).
  use_head t Hw HLEN. rewrite R3, Hty, R4. cbn [app bind idx nth_error skipn]. cbv zeta.
  rewrite C1, C2, C3, C4, C5, C6, C7.
  unfold has_data in *. rewrite R4, orb_false_r in *.
  destruct (t_fmt t =? FMT_3DW_DATA).
  - clear - Hde Hfb Hlb Had Hrn. destruct t as []. cbn in *. subst. reflexivity.
  - specialize (Hdat eq_refl). clear - Hdat Hde Hfb Hlb Had Hrn. destruct t as []. cbn in *. subst. reflexivity.
Qed.

Lemma cfg_roundtrip t : wf_cfg t -> bind (pack t) unpack = Ok (with_regno t 0).
Proof.
  intros (Hty & Hw & Hfb & Hlb & Hrn & Hco & Hst & Hbm & Hbc & Hlo & Had).
  pose proof Hw as (_ & _ & _ & _ & _ & _ & Htag & Hrq & _ & Hde & Hlen & Hdat).
  pose proof (len_rt Hw) as HLEN.
  pose proof (@req_dw1 _ _ _ _ Hfb Hlb Htag Hrq) as C. cbv zeta in C.
  pose proof (@cfg_dw2 _ _ Hrn Hde) as D. cbv zeta in D.
  assert (R : 0 <= t_type t < 32 /\ 0 <= t_fmt t < 8 /\ isft t (cfg_types ++ mem_types ++ io_types) = true /\
              (t_fmt t =? FMT_4DW_DATA) = false).
  { types_cases Hty; unfold isft, ft; rewrite A, B; (split; [lia|]); (split; [lia|]); split; reflexivity. }
  destruct R as (R1 & R2 & R3 & R4).
  unfold pack, pack_body. rewrite R3, Hty. cbv zeta.
  set (d1 := Z.lor _ (Z.shiftl (pid_int (t_requester t)) 16)) in *.
  set (d2 := Z.lor _ (Z.shiftl (pid_int (t_dest t)) 16)) in *. clearbody d1 d2.
  destruct C as (C1 & C2 & C3 & C4). destruct D as (C5 & C6).
  cbn [bind]. use_head t Hw HLEN. rewrite R3, Hty, R4. cbn [app bind idx nth_error skipn]. cbv zeta.
  rewrite C1, C2, C3, C4, C5, C6.
  unfold has_data in *. rewrite R4, orb_false_r in *.
  destruct (t_fmt t =? FMT_3DW_DATA).
  - clear - Hco Hst Hbm Hbc Hlo Had. destruct t as []. cbn in *. subst. reflexivity.
  - specialize (Hdat eq_refl). clear - Hdat Hco Hst Hbm Hbc Hlo Had. destruct t as []. cbn in *. subst. reflexivity.
Qed.

(** Memory and IO requests: what [unpack] takes for the address. *)
Lemma req_unpack t : wf_req t ->
  bind (pack t) unpack =
  if has_data t then
    match t_data t with
    | d :: _ => Ok (with_addr t (if is_4dw t then Z.lor (Z.shiftl (Z.land d 0xffffffff) 32) (Z.land d 0xfffffffc)
                                 else Z.land d 0xfffffffc))
    | [] => Raise EIndex
    end
  else Raise EIndex.
Proof.
  intros (Hty & Hw & Hfb & Hlb & Hrn & Had & Hal & Hco & Hde & Hst & Hbm & Hbc & Hlo).
  pose proof Hw as (_ & _ & _ & _ & _ & _ & Htag & Hrq & _ & _ & Hlen & Hdat).
  pose proof (len_rt Hw) as HLEN.
  pose proof (@req_dw1 _ _ _ _ Hfb Hlb Htag Hrq) as C. cbv zeta in C.
  assert (R : 0 <= t_type t < 32 /\ isft t (cfg_types ++ mem_types ++ io_types) = true /\
              isft t cfg_types = false /\
              (t_fmt t = 0 \/ t_fmt t = 1 \/ t_fmt t = 2 \/ t_fmt t = 3)).
  { types_cases Hty; unfold isft, ft; rewrite A, B; (split; [lia|]); (split; [reflexivity|]); (split; [reflexivity|]); lia. }
  destruct R as (R1 & R2 & R3 & R4).
  unfold pack, pack_body. rewrite R2, R3. cbv zeta.
  set (d1 := Z.lor _ (Z.shiftl (pid_int (t_requester t)) 16)) in *. clearbody d1.
  set (hi := Z.lor 0 _). set (lo := Z.land (t_addr t) _). clearbody hi lo.
  destruct C as (C1 & C2 & C3 & C4).
  destruct (@dw0_fields t Hw) as (G1 & G2 & G3 & G4 & G5 & G6 & G7 & G8 & G9); [lia|lia|].
  set (d0 := pack_dw0 t) in *. clearbody d0.
  pose proof (fun rest => @unpack_head t d0 rest G1 G2 G3 G4 G5 G6 G7 G8 G9 HLEN) as HU. cbv zeta in HU.
  rewrite R2, R3 in HU. unfold is_4dw, has_data in *.
  clear G1 G2 G3 G4 G5 G6 G7 G8 G9 HLEN Hlen Had.
  destruct R4 as [E|[E|[E|E]]]; rewrite E in HU, Hdat |- *;
    cbn [Z.eqb FMT_3DW FMT_4DW FMT_3DW_DATA FMT_4DW_DATA Pos.eqb orb bind app] in HU, Hdat |- *;
    rewrite HU; cbn [app bind idx nth_error skipn]; rewrite ?C1, ?C2, ?C3, ?C4; try reflexivity;
    (destruct (t_data t) as [|dd ld] eqn:ED; [reflexivity|]);
    cbn [bind]; clear - ED E Hrn Hco Hde Hst Hbm Hbc Hlo;
    destruct t as [x0 x1 x2 x3 x4 x5 x6 x7 x8 x9 y0 y1 y2 y3 y4 y5 y6 y7 y8 y9 z0 z1]; cbn [t_fmt t_type t_tc t_th t_td t_ep t_attr t_at t_length t_completer t_status t_bcm t_byte_count t_requester t_dest t_tag t_first_be t_last_be t_lower t_addr t_regno t_data with_addr] in *; subst; reflexivity.
Qed.

(** * Statements in the vocabulary of the properties *)
Lemma c36_exact t a n : 1 <= n ->
  let r := set_be t a n in
  t_addr r mod 4 = 0 /\ t_length r = (a + n - 1) / 4 - a / 4 + 1 /\
  0 <= t_first_be r < 16 /\ 0 <= t_last_be r < 16 /\ (t_length r = 1 -> t_last_be r = 0) /\
  forall b, touches r b = true <-> a <= b < a + n.
Proof.
  intros H r. destruct (set_be_range t a H) as (A & B & C). subst r.
  destruct (set_be_fields t a n) as (Ha & Hl & Hf & Hb & _).
  destruct (set_be_dw a H) as (E & Hd & Hfp & Hlp).
  split; [rewrite Ha; clear; Z.to_euclidean_division_equations; lia|].
  split; [rewrite Hl; clear - E Hfp Hlp; Z.to_euclidean_division_equations; lia|].
  split; [auto|]. split; [auto|].
  split; [intros X; rewrite Hb, Hl in *; rewrite X; reflexivity|].
  intros b. rewrite set_be_touches by auto. lia.
Qed.

Lemma c36_data t a data : data <> [] -> bytes_ok data ->
  exists r, set_be_data t a data = Ok r /\
    t_length r = Z.of_nat (length (t_data r)) /\ t_addr r mod 4 = 0 /\
    (forall b, touches r b = true <-> a <= b < a + Z.of_nat (length data)) /\
    (forall i, (i < length data)%nat -> byte_at r (a + Z.of_nat i) = nth i data 0).
Proof.
  intros Hn Hb. assert (L : 1 <= Z.of_nat (length data)) by (destruct data; [congruence|cbn [length]; lia]).
  destruct (@set_be_data_ok t a data L Hb) as (d & E & El & Ef).
  destruct (@c36_exact t a _ L) as (P1 & P2 & P3 & P4 & P5 & P6).
  pose proof (set_be_addr t a (Z.of_nat (length data))) as PA.
  destruct (set_be t a (Z.of_nat (length data))) as [x0 x1 x2 x3 x4 x5 x6 x7 x8 x9 y0 y1 y2 y3 y4 y5 y6 y7 y8 y9 z0 z1].
  eexists. split; [exact E|]. cbn [t_length t_data t_addr] in *.
  split; [auto|]. split; [auto|]. split; [exact P6|].
  intros i Hi. assert (LF : length (flat_map le_bytes d) = (4 * length d)%nat).
  { clear. induction d; cbn [flat_map length app le_bytes]; lia. }
  assert (HL : (length (flat_map le_bytes d) = Z.to_nat (a mod 4) + (length data + Z.to_nat (3 - (a + Z.of_nat (length data) - 1) mod 4)))%nat)
    by (rewrite Ef, !app_length, !repeat_length; reflexivity).
  rewrite byte_at_get_data; cbn [t_addr t_data].
  2:{ rewrite PA. clear - Hi HL LF. pose proof (Z.mod_pos_bound a 4).
      pose proof (Z.mod_pos_bound (a + Z.of_nat (length data) - 1) 4). lia. }
  unfold get_data. cbn [t_data]. rewrite Ef.
  rewrite app_nth2 by (rewrite repeat_length, PA; pose proof (Z.mod_pos_bound a 4); lia).
  rewrite repeat_length, PA.
  replace (Z.to_nat (a + Z.of_nat i - (a - a mod 4)) - Z.to_nat (a mod 4))%nat with i
    by (pose proof (Z.mod_pos_bound a 4); lia).
  apply app_nth1. auto.
Qed.

Lemma land_7c a : Z.land a 0x7c = a mod 128 - a mod 4.
Proof.
  replace 0x7c with (Z.land (Z.ones 7) (Z.lnot 3)) by reflexivity.
  rewrite Z.land_assoc, land_not3, Z.land_ones by lia. change (2 ^ 7) with 128.
  Z.to_euclidean_division_equations; lia.
Qed.
Lemma land_7c_off a o : a mod 4 = 0 -> 0 <= o < 4 -> Z.land a (0x7c + o) = Z.land a 0x7c.
Proof.
  intros Ha Ho. replace (0x7c + o) with (Z.lor 0x7c o)
    by (destruct (four_cases Ho) as [->|[->|[->| ->]]]; reflexivity).
  rewrite Z.land_lor_distr_r. replace (Z.land a o) with 0; [apply Z.lor_0_r|].
  replace o with (Z.land (Z.ones 2) o) by (destruct (four_cases Ho) as [->|[->|[->| ->]]]; reflexivity).
  rewrite Z.land_assoc, Z.land_ones by lia. change (2 ^ 2) with 4. rewrite Ha. reflexivity.
Qed.
Lemma lower_val t a n : 1 <= n -> lower_address (set_be t a n) = a mod 128 - a mod 4.
Proof.
  intros H. destruct (set_be_count t a H) as (F & _). unfold lower_address. rewrite F.
  destruct (@c36_exact t a n H) as (P1 & _).
  rewrite land_7c_off by (try apply Z.mod_pos_bound; auto; lia).
  rewrite land_7c, P1, set_be_addr. Z.to_euclidean_division_equations; lia.
Qed.
Lemma c36_lower t a n : 1 <= n -> a mod 4 = 0 -> lower_address (set_be t a n) = a mod 128.
Proof. intros H E. rewrite lower_val, E by auto. lia. Qed.
Lemma c36_lower_wrong t a n : 1 <= n -> a mod 4 <> 0 -> lower_address (set_be t a n) <> a mod 128.
Proof. intros H E. rewrite lower_val by auto. lia. Qed.

Lemma c37_cfg t : wf_cfg t -> (bind (pack t) unpack = Ok t <-> t_regno t = 0).
Proof.
  intros H. rewrite (cfg_roundtrip H). clear H. destruct t as [x0 x1 x2 x3 x4 x5 x6 x7 x8 x9 y0 y1 y2 y3 y4 y5 y6 y7 y8 y9 z0 z1].
  cbn [with_regno t_regno]. split; [intros E; congruence|intros ->; reflexivity].
Qed.

Lemma land_fffffffc a : Z.land a 0xfffffffc = a mod 2 ^ 32 - a mod 4.
Proof.
  replace 0xfffffffc with (Z.land (Z.ones 32) (Z.lnot 3)) by reflexivity.
  rewrite Z.land_assoc, land_not3, Z.land_ones by lia.
  change (2 ^ 32) with 4294967296. Z.to_euclidean_division_equations; lia.
Qed.

Lemma c37_wire t : wf_req t ->
  exists d0 d1 rest, pack t = Ok (d0 :: d1 :: rest) /\
  if is_4dw t
  then firstn 2 rest = [t_addr t / 2 ^ 32; Z.lor (t_addr t / 2 ^ 32) (t_addr t mod 2 ^ 32)]
  else firstn 1 rest = [t_addr t].
Proof.
  intros (Hty & Hw & Hfb & Hlb & Hrn & Had & Hal & _).
  assert (R : isft t (cfg_types ++ mem_types ++ io_types) = true /\ isft t cfg_types = false).
  { types_cases Hty; unfold isft, ft; rewrite A, B; split; reflexivity. }
  destruct R as (R2 & R3).
  unfold pack, pack_body. rewrite R2, R3. cbv zeta. rewrite !Z.lor_0_l, land_fffffffc, Hal, Z.sub_0_r.
  destruct (is_4dw t).
  - do 3 eexists. split; [reflexivity|]. cbn [app firstn].
    change 0xffffffff with (Z.ones 32). rewrite Z.land_ones, Z.shiftr_div_pow2 by lia.
    rewrite (Z.mod_small (t_addr t / 2 ^ 32)); [reflexivity|].
    split; [apply Z.div_pos; lia|]. apply Z.div_lt_upper_bound; lia.
  - do 3 eexists. split; [reflexivity|]. cbn [app firstn]. rewrite Z.mod_small by lia. reflexivity.
Qed.
