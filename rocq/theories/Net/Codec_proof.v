From Verif Require Import Base.Prelude Net.Codec_model Net.Codec_spec.
Open Scope Z_scope.

(** * Bytes *)
Lemma some_inj A (x y : A) : Some x = Some y -> x = y.
Proof. congruence. Qed.

Lemma be_length n : forall v, length (be n v) = n.
Proof. induction n as [|n IH]; intro v; cbn; [reflexivity|]. rewrite app_length, IH. cbn. lia. Qed.

Lemma be_octets n : forall v, octets (be n v).
Proof.
  induction n as [|n IH]; intro v; cbn; [constructor|].
  apply Forall_app; split; [apply IH|]. constructor; [|constructor].
  red. apply Z.mod_pos_bound. lia.
Qed.

Lemma value_snoc l x : value (l ++ [x]) = value l * 256 + x.
Proof. unfold value. rewrite fold_left_app. reflexivity. Qed.

Lemma value_app l2 : forall l1, value (l1 ++ l2) = value l1 * 256 ^ Z.of_nat (length l2) + value l2.
Proof.
  induction l2 as [|x l2 IH] using rev_ind; intro l1.
  - rewrite app_nil_r. cbn. lia.
  - rewrite app_assoc, !value_snoc, IH, app_length. cbn [length].
    rewrite Nat2Z.inj_add. change (Z.of_nat 1) with 1. rewrite Z.pow_add_r by lia. ring.
Qed.

Lemma value_be n : forall v, 0 <= v < 256 ^ Z.of_nat n -> value (be n v) = v.
Proof.
  induction n as [|n IH]; intros v Hv.
  - cbn in *. lia.
  - cbn [be]. rewrite value_snoc, IH.
    + pose proof (Z_div_mod_eq_full v 256). lia.
    + rewrite Nat2Z.inj_succ, Z.pow_succ_r in Hv by lia. split.
      * apply Z.div_pos; lia.
      * apply Z.div_lt_upper_bound; lia.
Qed.

Lemma value_bound l : octets l -> 0 <= value l < 256 ^ Z.of_nat (length l).
Proof.
  induction l as [|x l IH] using rev_ind; intro H.
  - cbn. lia.
  - apply Forall_app in H. destruct H as [H1 H2]. inversion H2; subst. red in H3.
    specialize (IH H1). rewrite value_snoc, app_length. cbn [length].
    rewrite Nat2Z.inj_add. change (Z.of_nat 1) with 1. rewrite Z.pow_add_r by lia. lia.
Qed.

Lemma be_value l : octets l -> be (length l) (value l) = l.
Proof.
  induction l as [|x l IH] using rev_ind; intro H; [reflexivity|].
  apply Forall_app in H. destruct H as [H1 H2]. inversion H2; subst. red in H3.
  rewrite app_length, Nat.add_comm. cbn [length plus be]. rewrite value_snoc.
  replace ((value l * 256 + x) / 256) with (value l)
    by (rewrite Z.div_add_l by lia; rewrite Z.div_small by lia; lia).
  rewrite IH by assumption. f_equal. f_equal.
  rewrite Z.add_comm, Z.mod_add by lia. apply Z.mod_small; lia.
Qed.

Lemma value_number l : value l = number l.
Proof.
  induction l as [|x l IH]; [reflexivity|].
  change (x :: l) with ([x] ++ l). rewrite value_app, IH. cbn [app number].
  replace (2 ^ (8 * Z.of_nat (length l))) with (256 ^ Z.of_nat (length l))
    by (change 256 with (2 ^ 8); rewrite <- Z.pow_mul_r by lia; reflexivity).
  reflexivity.
Qed.

Lemma be_app a : forall b v, be (a + b) v = be a (v / 256 ^ Z.of_nat b) ++ be b v.
Proof.
  induction b as [|b IH]; intro v.
  - rewrite Nat.add_0_r. cbn. rewrite app_nil_r, Z.div_1_r. reflexivity.
  - rewrite Nat.add_succ_r. cbn [be]. rewrite IH, app_assoc. f_equal. f_equal.
    rewrite Z.div_div by (try lia; apply Z.pow_pos_nonneg; lia).
    rewrite Nat2Z.inj_succ, Z.pow_succ_r by lia. reflexivity.
Qed.

Lemma pack_some n v : 0 <= v < 256 ^ Z.of_nat n -> pack n v = Some (be n v).
Proof.
  intro H. unfold pack. destruct (Z.leb_spec 0 v); [|lia].
  destruct (Z.ltb_spec v (256 ^ Z.of_nat n)); [reflexivity|lia].
Qed.
Lemma pack1 v : fits 8 v -> pack 1 v = Some (be 1 v).
Proof. intro H. apply pack_some. exact H. Qed.
Lemma pack2 v : fits 16 v -> pack 2 v = Some (be 2 v).
Proof. intro H. apply pack_some. exact H. Qed.
Lemma pack4 v : fits 32 v -> pack 4 v = Some (be 4 v).
Proof. intro H. apply pack_some. exact H. Qed.
Lemma pack6 v : fits 48 v -> pack_mac v = Some (be 6 v).
Proof.
  intro H. unfold pack_mac. rewrite pack_some.
  - unfold option_map. change (be 8 v) with (be (2 + 6) v). rewrite be_app. reflexivity.
  - red in H. change (256 ^ Z.of_nat 8) with (2 ^ 64). lia.
Qed.

Lemma unpack_be n v : 0 <= v < 256 ^ Z.of_nat n -> unpack n (be n v) = Some v.
Proof. intro H. unfold unpack. rewrite be_length, Nat.eqb_refl, value_be by exact H. reflexivity. Qed.
Lemma unpack1 v : fits 8 v -> unpack 1 (be 1 v) = Some v.
Proof. intro H. apply unpack_be. exact H. Qed.
Lemma unpack2 v : fits 16 v -> unpack 2 (be 2 v) = Some v.
Proof. intro H. apply unpack_be. exact H. Qed.
Lemma unpack4 v : fits 32 v -> unpack 4 (be 4 v) = Some v.
Proof. intro H. apply unpack_be. exact H. Qed.
Lemma unpack6 v : fits 48 v -> unpack_mac (be 6 v) = Some v.
Proof.
  intro H. unfold unpack_mac, unpack. rewrite app_length, be_length. cbn [length plus Nat.eqb].
  f_equal. rewrite value_app, be_length. change (value [0; 0]) with 0. rewrite value_be by exact H. lia.
Qed.

Lemma unpack_inv n l v : unpack n l = Some v -> length l = n /\ v = value l.
Proof.
  unfold unpack. destruct (Nat.eqb_spec (length l) n); [|discriminate].
  intro E. injection E as <-. auto.
Qed.
Lemma unpack_mac_inv l v : unpack_mac l = Some v -> length l = 6%nat /\ v = value l.
Proof.
  unfold unpack_mac. intro E. apply unpack_inv in E. destruct E as [E1 E2].
  rewrite app_length in E1. cbn [length] in E1. split; [lia|].
  rewrite E2, value_app. change (value [0; 0]) with 0. lia.
Qed.

Lemma slice_skip l1 l a b : (length l1 <= a)%nat ->
  slice (l1 ++ l) a b = slice l (a - length l1) (b - length l1).
Proof.
  intro H. unfold slice. rewrite skipn_app.
  rewrite (skipn_all2 l1) by exact H. cbn [app]. f_equal. lia.
Qed.
Lemma slice_take l1 l a : a = length l1 -> slice (l1 ++ l) 0 a = l1.
Proof.
  intros ->. unfold slice. rewrite Nat.sub_0_r. cbn [skipn].
  rewrite firstn_app, Nat.sub_diag, firstn_O, app_nil_r. apply firstn_all.
Qed.
Lemma slice_octets d a b : octets d -> octets (slice d a b).
Proof.
  intro H. unfold slice. apply Forall_forall. intros x Hx.
  assert (In x (skipn a d)) as H1 by (rewrite <- (firstn_skipn (b - a) (skipn a d)); apply in_or_app; auto).
  assert (In x d) as H2 by (rewrite <- (firstn_skipn a d); apply in_or_app; auto).
  exact (proj1 (Forall_forall _ _) H x H2).
Qed.

Ltac go_slice :=
  repeat first
    [ rewrite slice_take by (rewrite be_length; reflexivity)
    | rewrite slice_skip by (rewrite be_length; apply Nat.leb_le; reflexivity);
      rewrite be_length; cbn [Nat.sub] ].

(** * Ethernet *)
Lemma eth_build_ok f : eth_ok f ->
  eth_build f = Some (be 6 (e_dst f) ++ be 6 (e_src f) ++ be 2 (e_type f) ++ e_pay f).
Proof.
  intros (H1 & H2 & H3 & _). unfold eth_build. cbn [cat bind].
  rewrite !pack6, pack2 by assumption. cbn [bind]. rewrite app_nil_r. reflexivity.
Qed.

Lemma skipn_be n v l m : (n <= m)%nat -> skipn m (be n v ++ l) = skipn (m - n) l.
Proof.
  intro H. rewrite skipn_app, be_length, skipn_all2 by (rewrite be_length; exact H). reflexivity.
Qed.

Lemma eth_parse_cat a b c p : fits 48 a -> fits 48 b -> fits 16 c ->
  eth_parse (be 6 a ++ be 6 b ++ be 2 c ++ p) = Some (mkEth a b c p).
Proof.
  intros H1 H2 H3. unfold eth_parse. go_slice.
  rewrite !unpack6, unpack2 by assumption. cbn [bind].
  rewrite !skipn_be by (apply Nat.leb_le; reflexivity). reflexivity.
Qed.

Lemma eth_round f : eth_ok f -> exists d, eth_build f = Some d /\ octets d /\ length d = (14 + length (e_pay f))%nat
  /\ eth_parse d = Some f.
Proof.
  intro H. eexists. split; [apply eth_build_ok; exact H|]. destruct H as (H1 & H2 & H3 & H4).
  split; [|split].
  - repeat (apply Forall_app; split; [apply be_octets|]). exact H4.
  - rewrite !app_length, !be_length. lia.
  - rewrite eth_parse_cat by assumption. destruct f; reflexivity.
Qed.

Ltac go_at :=
  repeat match goal with
  | |- context [firstn ?n (skipn ?a ?l)] =>
      change (firstn n (skipn a l)) with (firstn ((a + n) - a) (skipn a l));
      let b := eval cbv in (a + n)%nat in
      change (firstn ((a + n) - a) (skipn a l)) with (slice l a b)
  end.

Lemma eth_shows f d : eth_ok f -> eth_build f = Some d ->
  at_octets d 0 6 = e_dst f /\ at_octets d 6 6 = e_src f /\ at_octets d 12 2 = e_type f /\ skipn 14 d = e_pay f.
Proof.
  intros H E. rewrite eth_build_ok in E by exact H. apply some_inj in E. subst d.
  destruct H as (H1 & H2 & H3 & _). unfold at_octets. rewrite <- !value_number.
  go_at.
  go_slice. rewrite !value_be by assumption.
  rewrite !skipn_be by (apply Nat.leb_le; reflexivity). auto.
Qed.

Lemma skip_skip A a b : forall l : list A, skipn a (skipn b l) = skipn (a + b) l.
Proof.
  induction b as [|b IH]; intro l; [rewrite Nat.add_0_r; reflexivity|].
  rewrite Nat.add_succ_r. destruct l; cbn [skipn]; [apply skipn_nil|apply IH].
Qed.

Lemma slice_cat d a b : (a <= b)%nat -> skipn a d = slice d a b ++ skipn b d.
Proof.
  intro H. unfold slice. rewrite <- (firstn_skipn (b - a) (skipn a d)) at 1.
  rewrite skip_skip. replace (b - a + a)%nat with b by lia. reflexivity.
Qed.

Lemma fits_value n l : octets l -> fits (8 * Z.of_nat (length l)) (value l) /\ (length l = n -> be n (value l) = l).
Proof.
  intro H. split.
  - red. pose proof (value_bound H) as B. change 256 with (2 ^ 8) in B. rewrite <- Z.pow_mul_r in B by lia. exact B.
  - intros <-. apply be_value. exact H.
Qed.

Lemma eth_back d f : octets d -> eth_parse d = Some f ->
  eth_ok f /\ d = be 6 (e_dst f) ++ be 6 (e_src f) ++ be 2 (e_type f) ++ e_pay f.
Proof.
  intros Hd E. unfold eth_parse in E.
  destruct (unpack_mac (slice d 0 6)) as [a|] eqn:Ea; cbn [bind] in E; [|discriminate].
  destruct (unpack_mac (slice d 6 12)) as [b|] eqn:Eb; cbn [bind] in E; [|discriminate].
  destruct (unpack 2 (slice d 12 14)) as [c|] eqn:Ec; cbn [bind] in E; [|discriminate].
  apply some_inj in E. subst f. cbn [e_dst e_src e_type e_pay].
  apply unpack_mac_inv in Ea. apply unpack_mac_inv in Eb. apply unpack_inv in Ec.
  destruct Ea as [La ->], Eb as [Lb ->], Ec as [Lc ->].
  pose proof (fits_value 6 (slice_octets 0 6 Hd)) as [Fa Ba].
  pose proof (fits_value 6 (slice_octets 6 12 Hd)) as [Fb Bb].
  pose proof (fits_value 2 (slice_octets 12 14 Hd)) as [Fc Bc].
  rewrite La in Fa. rewrite Lb in Fb. rewrite Lc in Fc.
  rewrite Ba, Bb, Bc by assumption. split.
  - split; [exact Fa|split; [exact Fb|split; [exact Fc|]]]. cbn [e_pay].
    rewrite <- (firstn_skipn 14 d) in Hd. apply Forall_app in Hd. exact (proj2 Hd).
  - rewrite <- (slice_cat d (a:=12) (b:=14)) by lia.
    rewrite <- (slice_cat d (a:=6) (b:=12)) by lia.
    rewrite <- (slice_cat d (a:=0) (b:=6)) by lia. reflexivity.
Qed.

Lemma eth_back_build d f : octets d -> eth_parse d = Some f -> eth_build f = Some d.
Proof. intros Hd E. destruct (eth_back Hd E) as [H1 H2]. rewrite eth_build_ok by exact H1. congruence. Qed.

(** * FCS *)
Lemma crc_bit_shift c x : crc_bit (Z.lxor c (2 * x)) = Z.lxor (crc_bit c) x.
Proof.
  assert (Z.odd (Z.lxor c (2 * x)) = Z.odd c) as Ho.
  { rewrite <- !Z.bit0_odd, Z.lxor_spec. rewrite Z.testbit_even_0. apply xorb_false_r. }
  assert (Z.lxor c (2 * x) / 2 = Z.lxor (c / 2) x) as Hd.
  { rewrite <- !Z.div2_div. rewrite !Z.div2_spec, Z.shiftr_lxor. f_equal.
    rewrite <- Z.div2_spec, Z.div2_div, Z.mul_comm, Z.div_mul by lia. reflexivity. }
  unfold crc_bit. rewrite Ho, Hd. destruct (Z.odd c); [|reflexivity].
  rewrite !Z.lxor_assoc. f_equal. apply Z.lxor_comm.
Qed.

Fixpoint bits_of (n : nat) (c : Z) : Z := match n with O => c | S k => bits_of k (crc_bit c) end.
Lemma bits_of_plus a : forall b c, bits_of (a + b) c = bits_of b (bits_of a c).
Proof. induction a as [|a IH]; intros b c; cbn; [reflexivity|apply IH]. Qed.
Lemma crc_byte_bits c b : crc_byte c b = bits_of 8 (Z.lxor c b).
Proof. reflexivity. Qed.
Lemma bits_of_shift n : forall c x, bits_of n (Z.lxor c (2 ^ Z.of_nat n * x)) = Z.lxor (bits_of n c) x.
Proof.
  induction n as [|n IH]; intros c x; cbn [bits_of].
  - change (2 ^ Z.of_nat 0) with 1. rewrite Z.mul_1_l. reflexivity.
  - rewrite Nat2Z.inj_succ, Z.pow_succ_r, <- Z.mul_assoc, crc_bit_shift by lia. apply IH.
Qed.

(** Feeding bytes is shifting the register xored with their little-endian number. *)
Fixpoint lnum (l : list Z) : Z := match l with [] => 0 | x :: t => Z.lxor x (256 * lnum t) end.
Lemma crc_feed l : forall c, fold_left crc_byte l c = bits_of (8 * length l) (Z.lxor c (lnum l)).
Proof.
  induction l as [|x l IH]; intro c; cbn [fold_left length lnum].
  - rewrite Z.lxor_0_r. reflexivity.
  - rewrite IH, crc_byte_bits. replace (8 * S (length l))%nat with (8 + 8 * length l)%nat by lia.
    rewrite bits_of_plus. f_equal. rewrite <- Z.lxor_assoc. symmetry.
    exact (bits_of_shift 8 (Z.lxor c x) (lnum l)).
Qed.

Lemma lxor_low x y k : 0 <= x < 2 ^ k -> 0 <= k -> Z.lxor x (2 ^ k * y) = x + 2 ^ k * y.
Proof.
  intros Hx Hk. symmetry. apply Z.add_nocarry_lxor. apply Z.bits_inj'. intros n Hn.
  rewrite Z.land_spec, Z.bits_0, (Z.mul_comm (2 ^ k) y).
  destruct (Z.ltb_spec n k).
  - rewrite Z.mul_pow2_bits_low by lia. apply andb_false_r.
  - destruct (Z.eq_dec x 0) as [->|]; [rewrite Z.bits_0; reflexivity|].
    rewrite (Z.bits_above_log2 x n); [reflexivity|lia|].
    enough (Z.log2 x < k) by lia. apply Z.log2_lt_pow2; lia.
Qed.

Lemma lnum_le l : octets l -> lnum l = value (rev l).
Proof.
  induction l as [|x l IH]; intro H; [reflexivity|].
  inversion H; subst. cbn [lnum rev]. rewrite value_snoc, IH by assumption.
  change 256 with (2 ^ 8). rewrite lxor_low; [lia|exact H2|lia].
Qed.

Lemma crc_bit_range c : 0 <= c < 2 ^ 32 -> 0 <= crc_bit c < 2 ^ 32.
Proof.
  intro H. unfold crc_bit.
  assert (0 <= c / 2 < 2 ^ 32) as H1 by (split; [apply Z.div_pos; lia|apply Z.div_lt_upper_bound; lia]).
  destruct (Z.odd c); [|exact H1].
  split; [apply Z.lxor_nonneg; lia|].
  destruct (Z.eq_dec (Z.lxor (c / 2) 3988292384) 0) as [->|N]; [lia|].
  apply Z.log2_lt_pow2; [enough (0 <= Z.lxor (c / 2) 3988292384) by lia; apply Z.lxor_nonneg; lia|].
  eapply Z.le_lt_trans; [apply Z.log2_lxor; lia|].
  apply Z.max_lub_lt; [|reflexivity].
  destruct (Z.eq_dec (c / 2) 0) as [->|]; [reflexivity|]. apply Z.log2_lt_pow2; lia.
Qed.
Lemma bits_of_range n : forall c, 0 <= c < 2 ^ 32 -> 0 <= bits_of n c < 2 ^ 32.
Proof. induction n as [|n IH]; intros c H; cbn; [exact H|]. apply IH, crc_bit_range, H. Qed.
Lemma lxor_range a b : 0 <= a < 2 ^ 32 -> 0 <= b < 2 ^ 32 -> 0 <= Z.lxor a b < 2 ^ 32.
Proof.
  intros Ha Hb. assert (0 <= Z.lxor a b) by (apply Z.lxor_nonneg; lia). split; [assumption|].
  destruct (Z.eq_dec (Z.lxor a b) 0) as [->|N]; [lia|].
  apply Z.log2_lt_pow2; [lia|].
  eapply Z.le_lt_trans; [apply Z.log2_lxor; lia|].
  apply Z.max_lub_lt.
  - destruct (Z.eq_dec a 0) as [->|]; [reflexivity|]. apply Z.log2_lt_pow2; lia.
  - destruct (Z.eq_dec b 0) as [->|]; [reflexivity|]. apply Z.log2_lt_pow2; lia.
Qed.
Lemma crc_state_range l : forall c, octets l -> 0 <= c < 2 ^ 32 -> 0 <= fold_left crc_byte l c < 2 ^ 32.
Proof.
  induction l as [|x l IH]; intros c H Hc; cbn [fold_left]; [exact Hc|].
  inversion H; subst. apply IH; [assumption|]. rewrite crc_byte_bits. apply bits_of_range, lxor_range; [exact Hc|].
  red in H2. lia.
Qed.
Lemma crc32_range l : octets l -> 0 <= crc32 l < 2 ^ 32.
Proof. intro H. unfold crc32. apply lxor_range; [|lia]. apply crc_state_range; [exact H|lia]. Qed.

Lemma be_rev_octets n v : octets (rev (be n v)).
Proof. apply Forall_rev, be_octets. Qed.

Lemma fcs_residue l : octets l -> crc32 (l ++ rev (be 4 (crc32 l))) = 0x2144DF1C.
Proof.
  intro H. unfold crc32 at 1. rewrite fold_left_app, crc_feed.
  rewrite lnum_le by apply be_rev_octets.
  rewrite rev_involutive, value_be by (apply crc32_range; exact H).
  rewrite rev_length, be_length. unfold crc32. rewrite <- Z.lxor_assoc, Z.lxor_nilpotent, Z.lxor_0_l.
  vm_compute. reflexivity.
Qed.

Lemma eth_build_fcs_ok f o : eth_ok f -> auto_or (fits 32) o ->
  exists d c, eth_build f = Some d /\ eth_build_fcs f o = Some (d ++ rev (be 4 c)) /\ fits 32 c /\
  c = match o with Some c => c | None => crc32 d end.
Proof.
  intros H Ho. destruct (eth_round H) as (d & Hb & Hd & _).
  exists d, (match o with Some c => c | None => crc32 d end).
  assert (fits 32 (match o with Some c => c | None => crc32 d end)) as Hc
    by (destruct o; [exact Ho|apply crc32_range; exact Hd]).
  split; [exact Hb|split; [|split; [exact Hc|reflexivity]]].
  unfold eth_build_fcs, eth_fcs. rewrite Hb. cbn [option_map].
  replace (match o with Some c => Some c | None => Some (crc32 d) end)
    with (Some (match o with Some c => c | None => crc32 d end)) by (destruct o; reflexivity).
  cbn [bind cat]. unfold packl. rewrite pack4 by exact Hc. cbn [option_map bind]. rewrite app_nil_r. reflexivity.
Qed.

Lemma eth_fcs_round f o : eth_ok f -> auto_or (fits 32) o ->
  exists d c, eth_build_fcs f o = Some d /\ eth_parse_fcs d = Some (f, c) /\ shows o (Some c) /\
  (o = None -> crc32 d = 0x2144DF1C).
Proof.
  intros H Ho. destruct (@eth_build_fcs_ok f o H Ho) as (d & c & Hb & Hf & Hc & Ec).
  exists (d ++ rev (be 4 c)), c. split; [exact Hf|]. split; [|split].
  - rewrite eth_build_ok in Hb by exact H. apply some_inj in Hb. subst d. destruct H as (H1 & H2 & H3 & H4).
    unfold eth_parse_fcs. rewrite <- !app_assoc. rewrite eth_parse_cat by assumption. cbn [bind e_pay e_dst e_src e_type].
    rewrite app_length, rev_length, be_length. replace (length (e_pay f) + 4 - 4)%nat with (length (e_pay f)) by lia.
    rewrite skipn_app, skipn_all, Nat.sub_diag. cbn [skipn app]. unfold unpackl. rewrite rev_involutive, unpack4 by exact Hc.
    cbn [bind]. rewrite firstn_app, firstn_all, Nat.sub_diag. cbn [firstn]. rewrite app_nil_r. destruct f; reflexivity.
  - destruct o; cbn; [f_equal; exact Ec|discriminate].
  - intros ->. rewrite Ec. apply fcs_residue. destruct (eth_round H) as (d' & Hb' & Hd' & _). congruence.
Qed.

(** * ARP *)
Lemma arp_build_ok f : arp_ok f ->
  arp_build f = Some (be 6 (a_dst f) ++ be 6 (a_src f) ++ be 2 (a_type f)
    ++ be 2 (a_htype f) ++ be 2 (a_ptype f) ++ be 1 (a_hlen f) ++ be 1 (a_plen f) ++ be 2 (a_oper f)
    ++ be 6 (a_sha f) ++ be 4 (a_spa f) ++ be 6 (a_tha f) ++ be 4 (a_tpa f)).
Proof.
  intros (H1 & H2 & H3 & H4 & H5 & H6 & H7 & H8 & H9 & H10 & H11 & H12).
  unfold arp_build, arp_build_eth. cbn [cat].
  rewrite !pack6, !pack2, !pack1, !pack4 by assumption. cbn [bind e_pay]. rewrite app_nil_r.
  unfold eth_build. cbn [e_dst e_src e_type e_pay cat]. rewrite !pack6, !pack2 by assumption. cbn [bind].
  rewrite app_nil_r. reflexivity.
Qed.

Lemma arp_round f pad : arp_ok f -> exists d, arp_build f = Some d /\ length d = 42%nat /\ arp_parse (d ++ pad) = Some f.
Proof.
  intro H. eexists. split; [apply arp_build_ok; exact H|].
  destruct H as (H1 & H2 & H3 & H4 & H5 & H6 & H7 & H8 & H9 & H10 & H11 & H12). split.
  - rewrite !app_length, !be_length. reflexivity.
  - rewrite <- !app_assoc. unfold arp_parse. rewrite eth_parse_cat by assumption. cbn [bind].
    unfold arp_parse_eth. cbn [e_dst e_src e_type e_pay]. go_slice.
    rewrite !unpack6, !unpack2, !unpack1, !unpack4 by assumption. cbn [bind]. destruct f; reflexivity.
Qed.

Lemma arp_shows f d : arp_ok f -> arp_build f = Some d ->
  at_octets d 0 6 = a_dst f /\ at_octets d 6 6 = a_src f /\ at_octets d 12 2 = a_type f /\
  at_octets d 14 2 = a_htype f /\ at_octets d 16 2 = a_ptype f /\ at_octets d 18 1 = a_hlen f /\
  at_octets d 19 1 = a_plen f /\ at_octets d 20 2 = a_oper f /\ at_octets d 22 6 = a_sha f /\
  at_octets d 28 4 = a_spa f /\ at_octets d 32 6 = a_tha f /\ at_octets d 38 4 = a_tpa f.
Proof.
  intros H E. rewrite arp_build_ok in E by exact H. apply some_inj in E. subst d.
  destruct H as (H1 & H2 & H3 & H4 & H5 & H6 & H7 & H8 & H9 & H10 & H11 & H12).
  unfold at_octets. rewrite <- !value_number. rewrite <- (app_nil_r (be 4 (a_tpa f))). go_at. go_slice.
  rewrite !value_be by assumption. tauto.
Qed.
