(** Proofs for the receive hash. *)
From Verif Require Import Base.Prelude Nic.RxHash_model Nic.RxHash_spec.
Local Open Scope Z_scope.

(** * Toeplitz *)

Lemma mod_pow_top x m : 0 <= m -> x mod 2 ^ (m + 1) = Z.b2z (Z.testbit x m) * 2 ^ m + x mod 2 ^ m.
Proof.
  intros H. rewrite Z.pow_add_r by lia. change (2 ^ 1) with 2.
  rewrite Z.rem_mul_r by (try apply Z.pow_nonzero; lia).
  rewrite Z.testbit_spec' by lia. ring.
Qed.

Lemma of_msb_testbit x a : forall m acc, 0 <= a ->
  fold_left (fun acc (b : bool) => 2 * acc + Z.b2z b)
    (map (fun i => Z.testbit x (a + Z.of_nat m - 1 - Z.of_nat i)) (seq 0 m)) acc
  = acc * 2 ^ Z.of_nat m + (Z.shiftr x a) mod 2 ^ Z.of_nat m.
Proof.
  induction m as [|m IH]; intros acc Ha.
  - cbn [seq map fold_left]. change (Z.of_nat 0) with 0. change (2 ^ 0) with 1. rewrite Z.mod_1_r. ring.
  - cbn [seq map fold_left]. rewrite <- seq_shift, map_map.
    rewrite (map_ext _ (fun i => Z.testbit x (a + Z.of_nat m - 1 - Z.of_nat i))).
    2:{ intros i. f_equal. lia. }
    rewrite IH by auto.
    replace (Z.of_nat (S m)) with (Z.of_nat m + 1) by lia.
    rewrite mod_pow_top by lia. rewrite Z.shiftr_spec by lia.
    rewrite Z.pow_add_r by lia. change (2 ^ 1) with 2.
    replace (a + (Z.of_nat m + 1) - 1 - Z.of_nat 0) with (Z.of_nat m + a) by lia. ring.
Qed.

Lemma window key n : (n + 32 <= 320)%nat ->
  of_msb (firstn 32 (skipn n (bits_msb 320 key))) = key_slice key (288 - Z.of_nat n).
Proof.
  intros H. unfold of_msb, key_slice.
  replace (firstn 32 (skipn n (bits_msb 320 key)))
    with (map (fun i => Z.testbit key (288 - Z.of_nat n + Z.of_nat 32 - 1 - Z.of_nat i)) (seq 0 32)).
  - rewrite of_msb_testbit by lia. change (Z.of_nat 32) with 32. lia.
  - unfold bits_msb. rewrite skipn_map, firstn_map.
    replace (firstn 32 (skipn n (seq 0 320))) with (map (fun i => (n + i)%nat) (seq 0 32)).
    + rewrite map_map. apply map_ext_in. intros i Hi. apply in_seq in Hi. f_equal. lia.
    + replace 320%nat with (n + (32 + (288 - n)))%nat by lia.
      rewrite seq_app, skipn_app, seq_length, Nat.sub_diag, skipn_O.
      rewrite skipn_all2 by (rewrite seq_length; lia). cbn [app].
      rewrite seq_app, firstn_app, seq_length, Nat.sub_diag, firstn_O, app_nil_r.
      rewrite firstn_all2 by (rewrite seq_length; lia).
      clear. cbn [Nat.add]. generalize 32%nat as m. intros m.
      apply nth_ext with (d := 0%nat) (d' := 0%nat); [rewrite map_length, !seq_length; auto|].
      intros i Hi. rewrite map_length, seq_length in Hi. rewrite nth_indep with (d' := (n + 0)%nat) by (rewrite map_length, seq_length; lia).
      rewrite (map_nth (fun i => (n + i)%nat)). rewrite !seq_nth by lia. lia.
Qed.

Lemma tl_skipn {A} (l : list A) n : tl (skipn n l) = skipn (S n) l.
Proof. revert l; induction n; destruct l; auto. cbn [skipn]. rewrite IHn. destruct l; auto. Qed.

Lemma toeplitz_app kb : forall a b n,
  toeplitz (skipn n kb) (a ++ b) = Z.lxor (toeplitz (skipn n kb) a) (toeplitz (skipn (n + length a) kb) b).
Proof.
  induction a as [|x a IH]; intros b n; cbn [app toeplitz length].
  - rewrite Nat.add_0_r, Z.lxor_0_l. reflexivity.
  - rewrite !tl_skipn, IH. rewrite Z.lxor_assoc. do 3 f_equal. cbn [Nat.add]. rewrite Nat.add_succ_r. reflexivity.
Qed.

(** A [hash_toep] whose key windows are those of [key] from bit [n] on. *)
Lemma toep_fold key n key' (data : nat -> Z) : forall len,
  (forall m, (m < 8 * len)%nat -> key_slice key' (288 - Z.of_nat m) = key_slice key (288 - Z.of_nat (n + m))) ->
  (n + 8 * len + 31 <= 320)%nat ->
  hash_toep data len key' = toeplitz (skipn n (bits_msb 320 key)) (concat (map (bits_msb 8) (map data (seq 0 len)))).
Proof.
  unfold hash_toep. induction len as [|len IH]; intros HK HN; [reflexivity|].
  rewrite (seq_S len 0), fold_left_app, map_app, map_app, concat_app. cbn [Nat.add map concat]. rewrite app_nil_r.
  rewrite toeplitz_app, <- IH; [|intros; apply HK; lia|lia].
  cbn [fold_left]. set (h := fold_left _ (seq 0 len) 0).
  replace (length (concat (map (bits_msb 8) (map data (seq 0 len))))) with (8 * len)%nat.
  2:{ clear. rewrite <- (seq_length len 0) at 1. rewrite <- (map_length data (seq 0 len)).
      induction (map data (seq 0 len)) as [|x l IH]; [reflexivity|].
      cbn [map concat length]. rewrite app_length. unfold bits_msb at 1. rewrite map_length, seq_length. lia. }
  clearbody h.
  assert (W : forall j, (j < 8)%nat ->
    key_slice key' (40 * 8 - 32 - Z.of_nat len * 8 - Z.of_nat j)
    = of_msb (firstn 32 (skipn (n + 8 * len + j) (bits_msb 320 key)))).
  { intros j Hj. rewrite window by lia. specialize (HK (8 * len + j)%nat ltac:(lia)).
    replace (40 * 8 - 32 - Z.of_nat len * 8 - Z.of_nat j) with (288 - Z.of_nat (8 * len + j)) by lia.
    rewrite HK. f_equal. lia. }
  unfold bits_msb at 1.
  assert (G : forall m j0 h, (j0 + m <= 8)%nat ->
    fold_left (fun h j => if Z.testbit (data len) (Z.of_nat (7 - j))
        then Z.lxor h (key_slice key' (40 * 8 - 32 - Z.of_nat len * 8 - Z.of_nat j)) else h) (seq j0 m) h
    = Z.lxor h (toeplitz (skipn (n + 8 * len + j0) (bits_msb 320 key))
        (map (fun i => Z.testbit (data len) (Z.of_nat (8 - 1 - i))) (seq j0 m)))).
  { induction m as [|m IHm]; intros j0 h0 Hm; cbn [seq map fold_left toeplitz].
    - rewrite Z.lxor_0_r. reflexivity.
    - rewrite IHm by lia. rewrite tl_skipn. rewrite W by lia.
      replace (8 - 1 - j0)%nat with (7 - j0)%nat by lia.
      replace (n + 8 * len + S j0)%nat with (S (n + 8 * len + j0)) by lia.
      destruct (Z.testbit _ _).
      + rewrite Z.lxor_assoc. reflexivity.
      + rewrite Z.lxor_0_l. reflexivity. }
  specialize (G 8%nat 0%nat h ltac:(lia)). rewrite Nat.add_0_r in G. exact G.
Qed.

Lemma part_ip_ok key (data : nat -> Z) : part_ip data key = toeplitz_hash key (map data (seq 0 8)).
Proof.
  unfold part_ip, toeplitz_hash. rewrite (@toep_fold key 0 key data 8); [|reflexivity|lia].
  rewrite skipn_O. reflexivity.
Qed.

Lemma key_shifted key m : (m < 32)%nat ->
  key_slice (Z.shiftl key 64 mod 2 ^ 320) (288 - Z.of_nat m) = key_slice key (288 - Z.of_nat (64 + m)).
Proof.
  intros H. unfold key_slice. apply Z.bits_inj'. intros i Hi.
  destruct (Z.lt_ge_cases i 32) as [Hl|Hl].
  - rewrite !Z.mod_pow2_bits_low by lia. rewrite !Z.shiftr_spec by lia.
    rewrite Z.mod_pow2_bits_low by lia. rewrite Z.shiftl_spec by lia. f_equal. lia.
  - rewrite !Z.mod_pow2_bits_high by lia. reflexivity.
Qed.

Lemma parts_ok key (data : nat -> Z) :
  Z.lxor (part_ip data key) (part_port data key) = toeplitz_hash key (map data (seq 0 12)).
Proof.
  rewrite part_ip_ok. unfold part_port, toeplitz_hash.
  rewrite (@toep_fold key 64 (Z.shiftl key 64 mod 2 ^ 320) (fun i => data (i + 8)%nat) 4);
    [|intros m Hm; apply key_shifted; lia|lia].
  change (seq 0 12) with (seq 0 8 ++ seq 8 4). rewrite !map_app, concat_app.
  change (bits_msb 320 key) with (skipn 0 (bits_msb 320 key)) at 1.
  pose proof (@toeplitz_app (bits_msb 320 key) (concat (map (bits_msb 8) (map data (seq 0 8))))
    (concat (map (bits_msb 8) (map data (seq 8 4)))) 0) as G.
  rewrite skipn_O in G. rewrite G. f_equal.
Qed.

(** * The capture loops *)

Lemma capture_at k ptr b : forall l lo (d : nat -> Z) p,
  (26 <= lo)%nat -> (26 <= p)%nat ->
  capture k ptr b (seq lo l) d (p - 26) =
  if ((lo <=? p) && (p <? lo + l) && (ptr =? p / k))%nat then hb_data b (p mod k) else d (p - 26)%nat.
Proof.
  unfold capture. induction l as [|l IH]; intros lo d p Hlo Hp; cbn [seq fold_left].
  - replace ((lo <=? p) && (p <? lo + 0))%nat with false by lia. reflexivity.
  - rewrite IH by lia.
    destruct (Nat.eq_dec p lo) as [->|N].
    + replace ((S lo <=? lo) && (lo <? S lo + l))%nat with false by lia.
      replace ((lo <=? lo) && (lo <? lo + S l))%nat with true by lia. cbn [andb].
      destruct (ptr =? lo / k)%nat; auto. rewrite nupd_same. reflexivity.
    + replace ((lo <=? p) && (p <? lo + S l))%nat with ((S lo <=? p) && (p <? S lo + l))%nat by lia.
      destruct ((S lo <=? p) && (p <? S lo + l) && (ptr =? p / k))%nat; auto.
      destruct (ptr =? lo / k)%nat; auto. rewrite nupd_other by lia. reflexivity.
Qed.

(** * One frame *)

Section Parser.
Context (k : nat) (Hk : (0 < k)%nat).

Lemma ptrs_enough : (37 / k < rh_ptrs k)%nat.
Proof.
  unfold rh_ptrs, rh_cycles.
  replace (38 + k - 1)%nat with (37 + 1 * k)%nat by lia. rewrite Nat.div_add by lia.
  set (c := (37 / k + 1)%nat). assert (Hc : (37 / k < c)%nat) by lia.
  clearbody c. revert Hc. generalize (37 / k)%nat as d. intros d Hc.
  destruct (Z.eqb_spec (Z.log2_up (Z.of_nat c)) 0) as [E|E].
  - assert (c <= 1)%nat; [|lia]. destruct (Nat.le_gt_cases c 1); auto.
    pose proof (Z.log2_up_pos (Z.of_nat c)). lia.
  - assert (Z.of_nat c <= 2 ^ Z.log2_up (Z.of_nat c)); [|lia].
    destruct (Nat.eq_dec c 1) as [->|N]; [cbn; lia|].
    apply Z.log2_up_spec. lia.
Qed.

Definition dv (p : nat) : nat := (p / k)%nat.

(** The frame's bytes by position. *)
Context (g : nat -> Z).
Definition gtype : Z := g 12%nat * 256 + g 13%nat.
Definition gtcp : bool := (g 23%nat =? 6) && (g 14%nat mod 16 =? 5).
Definition gudp : bool := (g 23%nat =? 17) && (g 14%nat mod 16 =? 5).

(** [n] beats of the frame have been taken and nothing has been reported. *)
Record act (n : nat) (s : hparse) : Prop := {
  ac_ptr : hp_ptr s = (n mod rh_ptrs k)%nat;
  ac_hi : (dv 12 < n)%nat -> hp_hi s = g 12%nat;
  ac_ihl : (dv 14 < n)%nat -> hp_ihl s = g 14%nat mod 16;
  ac_ipv4 : (0 < n)%nat -> hp_ipv4 s = ((dv 13 <? n)%nat && (gtype =? 0x0800));
  ac_type : (dv 13 < n)%nat -> gtype = 0x0800 \/ gtype = 0x86dd;
  ac_tcp : (0 < n)%nat -> hp_tcp s = ((dv 23 <? n)%nat && (gtype =? 0x0800) && gtcp);
  ac_udp : (0 < n)%nat -> hp_udp s = ((dv 23 <? n)%nat && (gtype =? 0x0800) && gudp);
  ac_ip : forall p, (26 <= p < 34)%nat -> gtype = 0x0800 -> (dv p < n)%nat -> hp_data s (p - 26) = g p;
  ac_port : forall p, (34 <= p < 38)%nat -> gtype = 0x0800 -> gtcp || gudp = true -> (dv p < n)%nat ->
            hp_data s (p - 26) = g p;
  ac_more : gtype = 0x0800 -> (dv 33 < n)%nat -> gtcp || gudp = true;
  ac_more2 : gtype = 0x0800 -> ~ (dv 37 < n)%nat }.

(** The report for the frame of the first [n] beats. *)
Definition gverdict (n : nat) (s : hparse) : Prop :=
  (dv 13 < n)%nat /\
  if gtype =? 0x0800 then
    (dv 33 < n)%nat /\ hp_ipv4 s = true /\
    (forall p, (26 <= p < 34)%nat -> hp_data s (p - 26) = g p) /\
    if gtcp || gudp then
      (dv 37 < n)%nat /\ (forall p, (34 <= p < 38)%nat -> hp_data s (p - 26) = g p) /\
      hp_tcp s || hp_udp s = true /\ hp_type s = (if gudp then 8 else 4) + 1
    else hp_type s = 1 /\ hp_tcp s || hp_udp s = false
  else gtype <> 0x86dd /\ hp_ipv4 s = false /\ hp_type s = 0.

Lemma tcp_not_udp : gtcp && gudp = false.
Proof. unfold gtcp, gudp. lia. Qed.

Lemma dmono p q : (p <= q)%nat -> (dv p <= dv q)%nat.
Proof. intros; apply Nat.div_le_mono; lia. Qed.

Lemma act_step n s b :
  act n s -> (n < rh_ptrs k)%nat ->
  (forall p, (dv p = n)%nat -> g p = hb_data b (p mod k)) ->
  let s' := parse_active k s b in
  (hp_active s' = true /\ hp_valid s' = false /\ act (S n) s') \/
  (hp_active s' = false /\ hp_valid s' = true /\ gverdict (S n) s').
Proof.
  intros A Hn Hb.
  assert (EP : hp_ptr s = n) by (rewrite (ac_ptr A); apply Nat.mod_small; auto).
  pose proof (@dmono 12 13 ltac:(lia)) as D1. pose proof (@dmono 13 14 ltac:(lia)) as D2.
  pose proof (@dmono 14 23 ltac:(lia)) as D3. pose proof (@dmono 23 26 ltac:(lia)) as D4.
  pose proof (@dmono 26 33 ltac:(lia)) as D5. pose proof (@dmono 33 34 ltac:(lia)) as D6.
  pose proof (@dmono 34 37 ltac:(lia)) as D7.
  unfold parse_active. rewrite EP.
  change (12 / k)%nat with (dv 12). change (13 / k)%nat with (dv 13). change (14 / k)%nat with (dv 14).
  change (23 / k)%nat with (dv 23). change (33 / k)%nat with (dv 33). change (37 / k)%nat with (dv 37).
  (* the values as of this beat *)
  assert (Ehi : (dv 12 <= n)%nat -> (if (n =? dv 12)%nat then hb_data b (12 mod k) else hp_hi s) = g 12%nat).
  { intros H. destruct (Nat.eqb_spec n (dv 12)) as [E|E]; [rewrite Hb; auto|apply (ac_hi A); lia]. }
  assert (Eihl : (dv 14 <= n)%nat -> (if (n =? dv 14)%nat then hb_data b (14 mod k) mod 16 else hp_ihl s) = g 14%nat mod 16).
  { intros H. destruct (Nat.eqb_spec n (dv 14)) as [E|E]; [rewrite Hb; auto|apply (ac_ihl A); lia]. }
  set (hi := if (n =? dv 12)%nat then hb_data b (12 mod k) else hp_hi s) in *.
  set (lo := if (n =? dv 13)%nat then hb_data b (13 mod k) else hp_lo s) in *.
  set (ihl := if (n =? dv 14)%nat then hb_data b (14 mod k) mod 16 else hp_ihl s) in *.
  assert (Eet : (n = dv 13)%nat -> hi * 256 + lo = gtype).
  { intros H. unfold gtype. rewrite Ehi by lia. unfold lo. rewrite H, Nat.eqb_refl, (Hb 13%nat); auto. }
  set (ipv4 := if (n =? dv 13)%nat then _ else _).
  assert (E4 : ipv4 = ((dv 13 <? S n)%nat && (gtype =? 0x0800))).
  { unfold ipv4. destruct (Nat.eqb_spec n (dv 13)) as [E|E].
    - rewrite Eet by auto. replace (dv 13 <? S n)%nat with true by lia. cbn [andb].
      destruct (gtype =? 0x0800) eqn:E8; auto.
      destruct (Nat.eqb_spec n 0); auto. rewrite (ac_ipv4 A) by lia. rewrite E8. apply andb_false_r.
    - destruct (Nat.eqb_spec n 0) as [->|N0].
      + replace (dv 13 <? 1)%nat with false by lia. reflexivity.
      + rewrite (ac_ipv4 A) by lia. f_equal. lia. }
  clearbody ipv4.
  set (other := (n =? dv 13)%nat && _ && _).
  assert (Eo : other = ((n =? dv 13)%nat && negb (gtype =? 0x0800) && negb (gtype =? 0x86dd))).
  { unfold other. destruct (Nat.eqb_spec n (dv 13)) as [E|E]; auto. rewrite Eet by auto. reflexivity. }
  clearbody other.
  set (tcp' := orb (if (n =? 0)%nat then false else hp_tcp s) _).
  assert (Et : tcp' = ((dv 23 <? S n)%nat && (gtype =? 0x0800) && gtcp)).
  { unfold tcp'. rewrite E4. destruct (Nat.eqb_spec n (dv 23)) as [E|E].
    - rewrite Eihl by lia. rewrite <- (Hb 23%nat) by auto. fold gtcp.
      replace (dv 13 <? S n)%nat with true by lia. replace (dv 23 <? S n)%nat with true by lia.
      unfold gtcp. destruct (Nat.eqb_spec n 0); [|rewrite (ac_tcp A) by lia; replace (dv 23 <? n)%nat with false by lia];
        cbn [andb orb]; lia.
    - rewrite andb_false_r. cbn [andb]. rewrite orb_false_r.
      destruct (Nat.eqb_spec n 0); [replace (dv 23 <? S n)%nat with false by lia; reflexivity|].
      rewrite (ac_tcp A) by lia. replace (dv 23 <? S n)%nat with (dv 23 <? n)%nat by lia. reflexivity. }
  clearbody tcp'.
  set (udp' := orb (if (n =? 0)%nat then false else hp_udp s) _).
  assert (Eu : udp' = ((dv 23 <? S n)%nat && (gtype =? 0x0800) && gudp)).
  { unfold udp'. rewrite E4. destruct (Nat.eqb_spec n (dv 23)) as [E|E].
    - rewrite Eihl by lia. rewrite <- (Hb 23%nat) by auto.
      replace (dv 13 <? S n)%nat with true by lia. replace (dv 23 <? S n)%nat with true by lia.
      unfold gudp. destruct (Nat.eqb_spec n 0); [|rewrite (ac_udp A) by lia; replace (dv 23 <? n)%nat with false by lia];
        cbn [andb orb]; clear; lia.
    - rewrite andb_false_r. cbn [andb]. rewrite orb_false_r.
      destruct (Nat.eqb_spec n 0); [replace (dv 23 <? S n)%nat with false by lia; reflexivity|].
      rewrite (ac_udp A) by lia. replace (dv 23 <? S n)%nat with (dv 23 <? n)%nat by lia. reflexivity. }
  clearbody udp'.
  set (data1 := if ipv4 then _ else hp_data s).
  assert (Ed1 : forall p, (26 <= p < 34)%nat -> gtype = 0x0800 -> (dv p <= n)%nat -> data1 (p - 26)%nat = g p).
  { intros p Hp H8 Hd. unfold data1. pose proof (@dmono 26 p ltac:(lia)).
    replace ipv4 with true by lia. rewrite capture_at by lia. fold (dv p).
    destruct (Nat.eqb_spec n (dv p)) as [E|E].
    - replace ((26 <=? p) && (p <? 26 + 8))%nat with true by lia. cbn [andb]. symmetry. auto.
    - rewrite andb_false_r. apply (ac_ip A); auto. lia. }
  assert (Ed1' : forall p, (34 <= p)%nat -> data1 (p - 26)%nat = hp_data s (p - 26)%nat).
  { intros p Hp. unfold data1. destruct ipv4; auto. rewrite capture_at by lia. fold (dv p).
    replace (p <? 26 + 8)%nat with false by lia. rewrite andb_false_r. reflexivity. }
  clearbody data1.
  set (ports := ipv4 && (tcp' || udp')).
  set (data2 := if ports then _ else data1).
  assert (Ed2 : forall p, (26 <= p < 34)%nat -> data2 (p - 26)%nat = data1 (p - 26)%nat).
  { intros p Hp. unfold data2. destruct ports; auto. rewrite capture_at by lia. fold (dv p).
    replace (34 <=? p)%nat with false by lia. reflexivity. }
  assert (Ed3 : forall p, (34 <= p < 38)%nat -> gtype = 0x0800 -> gtcp || gudp = true -> (dv p <= n)%nat ->
            data2 (p - 26)%nat = g p).
  { intros p Hp H8 HT Hd. unfold data2. pose proof (@dmono 34 p ltac:(lia)).
    replace ports with true by (unfold ports; lia). rewrite capture_at by lia. fold (dv p).
    destruct (Nat.eqb_spec n (dv p)) as [E|E].
    - replace ((34 <=? p) && (p <? 34 + 4))%nat with true by lia. cbn [andb]. symmetry. auto.
    - rewrite andb_false_r. rewrite Ed1' by lia. apply (ac_port A); auto. lia. }
  clearbody data2.
  cbv zeta. clearbody hi lo ihl.
  pose proof tcp_not_udp as TU.
  assert (Ab : (dv 13 < n)%nat -> gtype = 0x0800 \/ gtype = 0x86dd) by apply (ac_type A).
  assert (A33 : gtype = 0x0800 -> (33 / k < n)%nat -> gtcp || gudp = true) by apply (ac_more A).
  assert (A37 : gtype = 0x0800 -> ~ (37 / k < n)%nat) by apply (ac_more2 A).
  change (33 / k)%nat with (dv 33) in A33. change (37 / k)%nat with (dv 37) in A37.
  clear A EP Hb Ed1' Eet.
  unfold gverdict.
  destruct (Z.eqb_spec gtype 0x0800) as [H8|H8]; rewrite ?andb_false_r, ?andb_true_r in *; cbn [andb negb] in *.
  - rewrite ?andb_false_r in Eo. cbn [andb] in Eo. subst other.
    assert (A33' : (dv 33 < n)%nat -> gtcp || gudp = true) by (intros; apply A33; auto). clear A33.
    assert (A37' : (n <= dv 37)%nat) by (apply Nat.le_ngt, A37, H8). clear A37.
    unfold ports. rewrite E4, Et, Eu.
    assert (C : (n < 33 / k \/ n = 33 / k \/ 33 / k < n)%nat) by (clear; lia).
    change (33 / k)%nat with (dv 33) in C.
    assert (T33 : (dv 33 <= n)%nat -> (dv 23 <? S n)%nat = true /\ (dv 13 <? S n)%nat = true).
    { clear -D2 D3 D4 D5. intros. split; apply Nat.ltb_lt; lia. }
    assert (TP : (dv 13 <? S n)%nat && ((dv 23 <? S n)%nat && gtcp || (dv 23 <? S n)%nat && gudp) =
                 (dv 23 <? S n)%nat && (gtcp || gudp)).
    { destruct (Nat.ltb_spec (dv 23) (S n)) as [L|L]; cbn [andb orb]; [|apply andb_false_r].
      replace (dv 13 <? S n)%nat with true; auto. symmetry. apply Nat.ltb_lt. clear -L D2 D3. lia. }
    rewrite TP.
    destruct (Nat.eqb_spec n (dv 37)) as [E37|N37].
    + assert (L33 : (dv 33 <= n)%nat) by (clear -E37 D6 D7; lia).
      destruct (T33 L33) as [Q1 Q2]. rewrite Q1, Q2. cbn [andb].
      destruct (gtcp || gudp) eqn:TT.
      * rewrite !andb_false_r. cbn [negb andb orb hp_active hp_valid hp_ipv4 hp_data hp_tcp hp_udp hp_type].
        rewrite ?orb_true_r. right. split; auto. split; auto. split; [apply Nat.ltb_lt in Q2; exact Q2|].
        split; [clear -L33; lia|]. split; auto.
        split. { intros p Hp. rewrite Ed2 by auto. apply Ed1; auto. pose proof (@dmono p 33 ltac:(clear -Hp; lia)). clear -H L33; lia. }
        split; [clear -E37; lia|].
        split. { intros p Hp. apply Ed3; auto. pose proof (@dmono p 37 ltac:(clear -Hp; lia)). clear -H E37; lia. }
        split; auto. destruct gudp, gtcp; cbn in *; try discriminate; reflexivity.
      * assert (E33 : n = dv 33).
        { destruct C as [C|[C|C]]; auto; [clear -C L33; lia|]. exfalso. specialize (A33' C). discriminate. }
        rewrite <- E33, Nat.eqb_refl. cbn [negb andb orb hp_active hp_valid hp_ipv4 hp_data hp_tcp hp_udp hp_type].
        right. split; auto. split; auto. split; [apply Nat.ltb_lt in Q2; exact Q2|].
        split; [clear; lia|]. split; auto.
        split. { intros p Hp. rewrite Ed2 by auto. apply Ed1; auto. pose proof (@dmono p 33 ltac:(clear -Hp; lia)). clear -H L33; lia. }
        auto.
    + assert (B37 : (n < dv 37)%nat) by (clear -A37' N37; lia).
      rewrite andb_false_r, orb_false_r.
      destruct ((dv 13 <? S n)%nat && (n =? dv 33)%nat && negb ((dv 23 <? S n)%nat && gtcp || (dv 23 <? S n)%nat && gudp)) eqn:ED.
      * apply andb_prop in ED as [ED ED3]. apply andb_prop in ED as [ED1 ED2].
        apply Nat.eqb_eq in ED2. assert (L33 : (dv 33 <= n)%nat) by (rewrite ED2; auto).
        destruct (T33 L33) as [Q1 Q2]. rewrite Q1, Q2 in *. cbn [andb] in ED3.
        apply negb_true_iff in ED3. rewrite ED3.
        cbn [negb andb orb hp_active hp_valid hp_ipv4 hp_data hp_tcp hp_udp hp_type].
        right. split; auto. split; auto. split; [apply Nat.ltb_lt in Q2; exact Q2|].
        split; [clear -L33; lia|]. split; auto.
        split. { intros p Hp. rewrite Ed2 by auto. apply Ed1; auto. pose proof (@dmono p 33 ltac:(clear -Hp; lia)). clear -H L33; lia. }
        auto.
      * cbn [negb orb hp_active hp_valid]. left. split; auto. split; auto. constructor;
          cbn [hp_ptr hp_hi hp_ihl hp_ipv4 hp_tcp hp_udp hp_data]; intros;
          repeat match goal with |- context [(?p / k)%nat] => fold (dv p) | H : context [(?p / k)%nat] |- _ => fold (dv p) in H end;
          rewrite ?H8; cbn [Z.eqb Pos.eqb]; rewrite ?andb_true_r; auto.
        -- f_equal. clear; lia.
        -- apply Ehi. clear -H; lia.
        -- apply Eihl. clear -H; lia.
        -- rewrite Ed2 by auto. apply Ed1; auto. clear -H1; lia.
        -- apply Ed3; auto. clear -H2; lia.
        -- destruct C as [C|[C|C]]; [clear -C H0; lia| |auto].
           assert (L33 : (dv 33 <= n)%nat) by (rewrite C; auto). destruct (T33 L33) as [Q1 Q2].
           rewrite Q1, Q2 in ED. rewrite <- C, Nat.eqb_refl in ED. cbn [andb] in ED. apply negb_false_iff in ED. exact ED.
        -- clear -B37; lia.
  - subst ipv4 tcp' udp'. unfold ports. cbn [andb orb].
    rewrite ?orb_false_r. destruct other.
    + symmetry in Eo. apply andb_prop in Eo as [Eo1 Eo2]. apply Nat.eqb_eq in Eo1.
      cbn [negb hp_active hp_valid hp_ipv4 hp_data hp_tcp hp_udp hp_type]. right. split; auto. split; auto.
      split; [fold (dv 13); clear -Eo1; lia|]. split; auto. intros E. rewrite E in Eo2. discriminate.
    + cbn [negb hp_active hp_valid]. left. split; auto. split; auto. constructor;
          cbn [hp_ptr hp_hi hp_ihl hp_ipv4 hp_tcp hp_udp hp_data]; intros;
          repeat match goal with |- context [(?p / k)%nat] => fold (dv p) | H : context [(?p / k)%nat] |- _ => fold (dv p) in H end;
          try contradiction.
      * f_equal. clear; lia.
      * apply Ehi. clear -H; lia.
      * apply Eihl. clear -H; lia.
      * replace (gtype =? 2048) with false; [rewrite andb_false_r; auto|]. symmetry. apply Z.eqb_neq; auto.
      * destruct (Nat.eqb_spec n (dv 13)) as [E|E]; [|apply Ab; clear -H E; lia].
        right. cbn [andb] in Eo. symmetry in Eo. apply negb_false_iff, Z.eqb_eq in Eo. exact Eo.
      * replace (gtype =? 2048) with false; [rewrite andb_false_r; auto|]. symmetry. apply Z.eqb_neq; auto.
      * replace (gtype =? 2048) with false; [rewrite andb_false_r; auto|]. symmetry. apply Z.eqb_neq; auto.
Qed.

End Parser.
