From Verif Require Import Base.Prelude Net.Codec_model Net.Codec_spec Net.Codec_proof.
Open Scope Z_scope.

(** * Ones-complement sums *)
Definition canon (s r : Z) : Prop := 0 <= r <= 65535 /\ (exists k, s = r + k * 65535) /\ (r = 0 <-> s = 0).

Lemma canon_unique s r1 r2 : canon s r1 -> canon s r2 -> r1 = r2.
Proof.
  intros (A1 & (k1 & B1) & C1) (A2 & (k2 & B2) & C2).
  assert (r1 - r2 = (k2 - k1) * 65535) as E by lia.
  assert (k2 - k1 = 0 \/ k2 - k1 = 1 \/ k2 - k1 = -1) as [E1|[E1|E1]] by lia; lia.
Qed.
Lemma canon_add s r t r' : 0 <= s -> 0 <= t -> canon s r -> canon (r + t) r' -> canon (s + t) r'.
Proof.
  intros Hs Ht (A1 & (k1 & B1) & C1) (A2 & (k2 & B2) & C2).
  split; [exact A2|split; [exists (k1 + k2); lia|]]. lia.
Qed.
Lemma canon_oadd a b : 0 <= a <= 65535 -> 0 <= b <= 65535 -> canon (a + b) (oadd a b).
Proof.
  intros Ha Hb. unfold oadd. destruct (Z.ltb_spec (a + b) 65536).
  - split; [lia|split; [exists 0; lia|lia]].
  - split; [lia|split; [exists 1; lia|lia]].
Qed.

Definition sum (l : list Z) : Z := fold_right Z.add 0 l.
Definition w16 (x : Z) : Prop := 0 <= x <= 65535.

Lemma sum_nonneg ws : Forall w16 ws -> 0 <= sum ws.
Proof. induction 1 as [|x l H _ IH]; cbn; [lia|]. red in H. change (fold_right Z.add 0 l) with (sum l). lia. Qed.

Lemma canon_fold ws : forall a, Forall w16 ws -> w16 a -> canon (a + sum ws) (fold_left oadd ws a).
Proof.
  induction ws as [|w ws IH]; intros a Hw Ha; cbn [fold_left sum fold_right].
  - red in Ha. split; [lia|split; [exists 0; lia|lia]].
  - inversion Hw; subst. pose proof (canon_oadd Ha H1) as Hc.
    assert (w16 (oadd a w)) as Hr by exact (proj1 Hc).
    specialize (IH _ H2 Hr). change (fold_right Z.add 0 ws) with (sum ws). rewrite Z.add_assoc.
    refine (canon_add _ _ Hc IH); [red in Ha, H1; lia|apply sum_nonneg; exact H2].
Qed.

Lemma fold16_eq s : fold16 s = s mod 65536 + s / 65536.
Proof. unfold fold16. change 65535 with (Z.ones 16). rewrite Z.land_ones, Z.shiftr_div_pow2 by lia. reflexivity. Qed.

Lemma canon_fold16 s : 0 <= s < 2 ^ 32 -> canon s (fold16 (fold16 s)).
Proof.
  intro H. rewrite !fold16_eq.
  pose proof (Z_div_mod_eq_full s 65536) as E1. pose proof (Z.mod_pos_bound s 65536) as M1.
  set (t := s mod 65536 + s / 65536) in *.
  pose proof (Z_div_mod_eq_full t 65536) as E2. pose proof (Z.mod_pos_bound t 65536) as M2.
  assert (0 <= s / 65536 < 65536) as D1 by (split; [apply Z.div_pos; lia|apply Z.div_lt_upper_bound; lia]).
  assert (0 <= t / 65536 <= 1) as D2 by (split; [apply Z.div_pos; lia|enough (t / 65536 < 2) by lia; apply Z.div_lt_upper_bound; lia]).
  split; [lia|split; [exists (s / 65536 + t / 65536); lia|lia]].
Qed.

Lemma lnot16 r : 0 <= r <= 65535 -> Z.land (Z.lnot r) 65535 = 65535 - r.
Proof.
  intro H. change 65535 with (Z.ones 16) at 1. rewrite Z.land_ones by lia. unfold Z.lnot.
  replace (Z.pred (- r)) with (65535 - r + (-1) * 2 ^ 16) by lia.
  rewrite Z.mod_add by lia. apply Z.mod_small. lia.
Qed.

(** A word that completes a sum to 0xFFFF. *)
Lemma completes s r ck : 0 <= s -> canon s r -> w16 ck ->
  (canon (s + ck) 65535 <-> ck = 65535 - r \/ (ck = 65535 /\ r = 65535)).
Proof.
  intros Hs (A & (k & B) & C) Hck. red in Hck. split.
  - intros (A' & (k' & B') & C'). assert (r + ck = (k' - k + 1) * 65535) as E by lia.
    assert (k' - k + 1 = 0 \/ k' - k + 1 = 1 \/ k' - k + 1 = 2) as [E1|[E1|E1]] by lia; lia.
  - intros [->|[-> ->]].
    + split; [lia|split; [exists k; lia|lia]].
    + split; [lia|split; [exists (k + 1); lia|lia]].
Qed.

(** * Words *)
Lemma words_w16 : forall n l, (length l <= n)%nat -> octets l -> Forall w16 (words l).
Proof.
  induction n as [|n IH]; intros l Hl H.
  - destruct l; [constructor|cbn in Hl; lia].
  - destruct l as [|a [|b t]]; cbn [words]; [constructor| |].
    + inversion H; subst. red in H2. constructor; [red; lia|constructor].
    + inversion H; subst. inversion H3; subst. red in H2, H4. constructor; [red; lia|].
      apply IH; [cbn in Hl; lia|assumption].
Qed.
Lemma words_two a b l : words ([a; b] ++ l) = (a * 256 + b) :: words l.
Proof. reflexivity. Qed.
Lemma words_be2 v l : fits 16 v -> words (be 2 v ++ l) = v :: words l.
Proof.
  intro H. red in H. cbn [be app words]. f_equal.
  assert (0 <= v / 256 < 256) by (split; [apply Z.div_pos; lia|apply Z.div_lt_upper_bound; lia]).
  rewrite (Z.mod_small (v / 256)) by lia. pose proof (Z_div_mod_eq_full v 256). lia.
Qed.
Lemma words_be11 v w l : fits 8 v -> fits 8 w -> words (be 1 v ++ be 1 w ++ l) = (v * 256 + w) :: words l.
Proof. intros H1 H2. red in H1, H2. cbn [be app words]. rewrite !Z.mod_small by lia. reflexivity. Qed.
Lemma words_be4 v l : fits 32 v -> words (be 4 v ++ l) = v / 65536 :: v mod 65536 :: words l.
Proof.
  intro H. red in H.
  assert (be 4 v = be 2 (v / 65536) ++ be 2 v) as -> by (change 4%nat with (2 + 2)%nat; rewrite be_app; reflexivity).
  assert (be 2 v = be 2 (v mod 65536)) as ->.
  { cbn [be app]. change 65536 with (256 * 256). f_equal; [|f_equal].
    - rewrite Z.rem_mul_r by lia. rewrite (Z.mul_comm 256), Z.div_add by lia.
      rewrite (Z.div_small (v mod 256)) by (apply Z.mod_pos_bound; lia).
      rewrite Z.add_0_l, Z.mod_mod by lia. reflexivity.
    - rewrite Z.rem_mul_r by lia. rewrite (Z.mul_comm 256), Z.mod_add, Z.mod_mod by lia. reflexivity. }
  rewrite <- app_assoc, words_be2, words_be2; [reflexivity| |].
  - red. pose proof (Z.mod_pos_bound v 65536). lia.
  - red. split; [apply Z.div_pos; lia|apply Z.div_lt_upper_bound; lia].
Qed.

(** * Fields inside octets *)
Lemma lor_shift a b k : 0 <= k -> 0 <= b < 2 ^ k -> Z.lor (Z.shiftl a k) b = a * 2 ^ k + b.
Proof.
  intros Hk Hb. rewrite Z.shiftl_mul_pow2 by exact Hk.
  rewrite <- Z.lxor_lor.
  - rewrite Z.lxor_comm, (Z.mul_comm a), lxor_low by lia. lia.
  - apply Z.bits_inj'. intros n Hn. rewrite Z.land_spec, Z.bits_0.
    destruct (Z.ltb_spec n k).
    + rewrite Z.mul_pow2_bits_low by lia. reflexivity.
    + destruct (Z.eq_dec b 0) as [->|]; [rewrite Z.bits_0; apply andb_false_r|].
      rewrite (Z.bits_above_log2 b n); [apply andb_false_r|lia|].
      enough (Z.log2 b < k) by lia. apply Z.log2_lt_pow2; lia.
Qed.
Lemma land_low v k : 0 <= k -> Z.land v (Z.ones k) = v mod 2 ^ k.
Proof. intro H. apply Z.land_ones. exact H. Qed.

Lemma nibbles a b : fits 4 a -> fits 4 b -> Z.lor (Z.shiftl a 4) b = a * 16 + b.
Proof. intros Ha Hb. apply lor_shift; [lia|exact Hb]. Qed.
Lemma tos a b : fits 6 a -> fits 2 b -> Z.lor (Z.shiftl a 2) b = a * 4 + b.
Proof. intros Ha Hb. apply lor_shift; [lia|exact Hb]. Qed.
Lemma frag a b : fits 3 a -> fits 13 b -> Z.lor (Z.shiftl a 13) b = a * 8192 + b.
Proof. intros Ha Hb. apply lor_shift; [lia|exact Hb]. Qed.
Lemma twobytes a b : fits 8 a -> fits 8 b -> Z.lor (Z.shiftl a 8) b = a * 256 + b.
Proof. intros Ha Hb. apply lor_shift; [lia|exact Hb]. Qed.
Lemma first_word v i d e : fits 4 v -> fits 4 i -> fits 6 d -> fits 2 e ->
  Z.lor (Z.lor (Z.lor (Z.shiftl v 12) (Z.shiftl i 8)) (Z.shiftl d 2)) e = (v * 16 + i) * 256 + (d * 4 + e).
Proof.
  intros Hv Hi Hd He. unfold fits in *.
  rewrite <- !Z.lor_assoc, tos by assumption.
  rewrite lor_shift with (k := 8) by lia.
  rewrite lor_shift by lia. lia.
Qed.

(** * IPv4 *)
(** The header octets with the numbers of its fields. *)
Definition hdr (v0 v1 l idn v6 ttl pr ck sip dip : Z) : list Z :=
  be 1 v0 ++ be 1 v1 ++ be 2 l ++ be 2 idn ++ be 2 v6 ++ be 1 ttl ++ be 1 pr ++ be 2 ck ++ be 4 sip ++ be 4 dip.
Definition hdr_of (f : ip) (l ck : Z) : list Z :=
  hdr (i_ver f * 16 + i_ihl f) (i_dscp f * 4 + i_ecn f) l (i_id f) (i_flags f * 8192 + i_frag f)
      (i_ttl f) (i_proto f) ck (i_sip f) (i_dip f).
Definition frame_of (f : ip) (l ck : Z) (rest : list Z) : list Z :=
  be 6 (i_dst f) ++ be 6 (i_src f) ++ be 2 (i_type f) ++ hdr_of f l ck ++ rest.
(** The sum of its words but the checksum. *)
Definition hsum (f : ip) (l : Z) : Z :=
  ((i_ver f * 16 + i_ihl f) * 256 + (i_dscp f * 4 + i_ecn f)) + l + i_id f + (i_flags f * 8192 + i_frag f)
  + (i_ttl f * 256 + i_proto f) + (i_sip f / 65536 + i_sip f mod 65536) + (i_dip f / 65536 + i_dip f mod 65536).

Lemma fits_split32 v : fits 32 v -> 0 <= v / 65536 < 65536 /\ 0 <= v mod 65536 < 65536.
Proof.
  intro H. red in H. split; [split; [apply Z.div_pos; lia|apply Z.div_lt_upper_bound; lia]|].
  apply Z.mod_pos_bound. lia.
Qed.
Lemma hsum_range f l : ip_hdr_ok f -> fits 16 l -> 0 <= hsum f l <= 9 * 65535.
Proof.
  intros (H1 & H2 & H3 & H4 & H5 & H6 & H7 & H8 & H9 & H10 & H11 & H12 & H13 & H14 & _) Hl.
  pose proof (fits_split32 H13). pose proof (fits_split32 H14).
  unfold hsum, fits in *. lia.
Qed.
Lemma halves v : fits 32 v -> Z.land v 65535 = v mod 65536 /\ Z.land (Z.shiftr v 16) 65535 = v / 65536.
Proof.
  intro H. change 65535 with (Z.ones 16). rewrite !Z.land_ones, Z.shiftr_div_pow2 by lia. split; [reflexivity|].
  apply Z.mod_small. pose proof (fits_split32 H). exact (proj1 H0).
Qed.
Lemma ip_calc_canon f l : ip_hdr_ok f -> fits 16 l -> exists r, canon (hsum f l) r /\ ip_calc f l = 65535 - r.
Proof.
  intros H Hl. pose proof (hsum_range H Hl) as Hs.
  destruct H as (H1 & H2 & H3 & H4 & H5 & H6 & H7 & H8 & H9 & H10 & H11 & H12 & H13 & H14 & _).
  exists (fold16 (fold16 (hsum f l))).
  assert (canon (hsum f l) (fold16 (fold16 (hsum f l)))) as Hc by (apply canon_fold16; lia).
  split; [exact Hc|]. unfold ip_calc. cbv zeta.
  rewrite first_word, frag, twobytes by assumption.
  destruct (halves H13) as [-> ->]. destruct (halves H14) as [-> ->].
  match goal with |- Z.land (Z.lnot (fold16 (fold16 ?x))) _ = _ => replace x with (hsum f l) by (unfold hsum; lia) end.
  apply lnot16. exact (proj1 Hc).
Qed.
Lemma ip_calc_fits f l : ip_hdr_ok f -> fits 16 l -> fits 16 (ip_calc f l).
Proof. intros H Hl. destruct (ip_calc_canon H Hl) as (r & (A & _) & ->). red. lia. Qed.

Lemma words_hdr f l ck rest : ip_hdr_ok f -> fits 16 l -> fits 16 ck ->
  sum (words (hdr_of f l ck ++ rest)) = hsum f l + ck + sum (words rest).
Proof.
  intros (H1 & H2 & H3 & H4 & H5 & H6 & H7 & H8 & H9 & H10 & H11 & H12 & H13 & H14 & _) Hl Hck.
  unfold hdr_of, hdr. rewrite <- !app_assoc.
  rewrite words_be11, !words_be2, words_be11, words_be2, !words_be4 by (assumption || (unfold fits in *; lia)).
  unfold sum, hsum. cbn [fold_right]. lia.
Qed.
Lemma hdr_octets f l ck : octets (hdr_of f l ck).
Proof. unfold hdr_of, hdr, octets. repeat (apply Forall_app; split; [apply be_octets|]). apply be_octets. Qed.
Lemma hdr_length f l ck : length (hdr_of f l ck) = 20%nat.
Proof. unfold hdr_of, hdr. rewrite !app_length, !be_length. reflexivity. Qed.

Lemma ones_hdr f l ck : ip_hdr_ok f -> fits 16 l -> fits 16 ck ->
  canon (hsum f l + ck) (ones_sum (hdr_of f l ck)).
Proof.
  intros H Hl Hck. unfold ones_sum.
  pose proof (canon_fold (a := 0) (words_w16 (le_n _) (hdr_octets f l ck)) ltac:(red; lia)) as C.
  pose proof (@words_hdr f l ck [] H Hl Hck) as E. rewrite app_nil_r in E. rewrite E in C.
  cbn [words sum fold_right] in C. rewrite Z.add_0_l, Z.add_0_r in C. exact C.
Qed.

Lemma sum_ffff s x : canon s x -> (x = 65535 <-> canon s 65535).
Proof. intro C. split; [intros <-; exact C|]. intro C'. exact (canon_unique C C'). Qed.

Lemma hdr_verdict f l ck : ip_hdr_ok f -> fits 16 l -> fits 16 ck ->
  (ones_sum (hdr_of f l ck) = 65535 <-> ck = ip_calc f l \/ (ck = 65535 /\ ip_calc f l = 0)).
Proof.
  intros H Hl Hck. rewrite (sum_ffff (ones_hdr H Hl Hck)).
  destruct (ip_calc_canon H Hl) as (r & Hr & ->).
  rewrite (@completes _ r ck); [|pose proof (hsum_range H Hl); lia|exact Hr|red in Hck; red; lia].
  split; intros [E|[E1 E2]]; [left; exact E|right; lia|left; exact E|right; lia].
Qed.

(** ** Building *)
Lemma ip_len_ok f : ip_ok f -> ip_len f = Z.of_nat (length (i_pay f)) + 20 /\ fits 16 (ip_len f).
Proof.
  intros (_ & Hp & Hl & _). unfold ip_len, len, fits. destruct (i_len f) as [l|]; cbn in Hl; [subst l|]; lia.
Qed.
Lemma ip_ck_fits f : ip_ok f -> fits 16 (ip_ck f).
Proof.
  intro H. destruct (ip_len_ok H) as [_ Hl]. destruct H as (H & _ & _ & Hc). unfold ip_ck.
  destruct (i_ck f); [exact Hc|]. apply ip_calc_fits; assumption.
Qed.
Lemma ip_build_ok f : ip_ok f -> ip_build f = Some (frame_of f (ip_len f) (ip_ck f) (i_pay f)).
Proof.
  intro H. pose proof (ip_len_ok H) as [_ Hl]. pose proof (ip_ck_fits H) as Hc.
  destruct H as ((H1 & H2 & H3 & H4 & H5 & H6 & H7 & H8 & H9 & H10 & H11 & H12 & H13 & H14 & _) & _).
  unfold ip_build, ip_build_eth. cbn [cat].
  rewrite nibbles, tos, frag by assumption.
  rewrite !pack1, !pack2, !pack4 by (assumption || (unfold fits in *; lia)). cbn [bind e_pay].
  rewrite app_nil_r. unfold eth_build. cbn [e_dst e_src e_type e_pay cat].
  rewrite !pack6, !pack2 by assumption. cbn [bind]. rewrite app_nil_r.
  unfold frame_of, hdr_of, hdr. rewrite <- !app_assoc. reflexivity.
Qed.

(** ** Parsing *)
Lemma nib_hi v : fits 8 v -> Z.land (Z.shiftr v 4) 15 = v / 16.
Proof.
  intro H. red in H. change 15 with (Z.ones 4). rewrite Z.land_ones, Z.shiftr_div_pow2 by lia.
  apply Z.mod_small. split; [apply Z.div_pos; lia|apply Z.div_lt_upper_bound; lia].
Qed.
Lemma nib_lo v : Z.land v 15 = v mod 16.
Proof. change 15 with (Z.ones 4). apply Z.land_ones. lia. Qed.
Lemma tos_hi v : fits 8 v -> Z.land (Z.shiftr v 2) 63 = v / 4.
Proof.
  intro H. red in H. change 63 with (Z.ones 6). rewrite Z.land_ones, Z.shiftr_div_pow2 by lia.
  apply Z.mod_small. split; [apply Z.div_pos; lia|apply Z.div_lt_upper_bound; lia].
Qed.
Lemma tos_lo v : Z.land v 3 = v mod 4.
Proof. change 3 with (Z.ones 2). apply Z.land_ones. lia. Qed.
Lemma frag_hi v : fits 16 v -> Z.land (Z.shiftr v 13) 7 = v / 8192.
Proof.
  intro H. red in H. change 7 with (Z.ones 3). rewrite Z.land_ones, Z.shiftr_div_pow2 by lia.
  apply Z.mod_small. split; [apply Z.div_pos; lia|apply Z.div_lt_upper_bound; lia].
Qed.
Lemma frag_lo v : Z.land v 8191 = v mod 8192.
Proof. change 8191 with (Z.ones 13). apply Z.land_ones. lia. Qed.

Lemma divmod a b m : 0 <= b < m -> (a * m + b) / m = a /\ (a * m + b) mod m = b.
Proof.
  intro H. split; [rewrite Z.div_add_l, Z.div_small by lia; lia|].
  rewrite Z.add_comm, Z.mod_add, Z.mod_small by lia. reflexivity.
Qed.

Lemma ip_parse_frame f l ck rest : ip_hdr_ok f -> fits 16 l -> fits 16 ck ->
  ip_parse (frame_of f l ck rest) =
  Some (mkIp (i_dst f) (i_src f) (i_type f) (i_ver f) (i_ihl f) (i_dscp f) (i_ecn f) (Some l) (i_id f) (i_flags f)
             (i_frag f) (i_ttl f) (i_proto f) (Some ck) (i_sip f) (i_dip f) (firstn (Z.to_nat l - 20) rest)).
Proof.
  intros (H1 & H2 & H3 & H4 & H5 & H6 & H7 & H8 & H9 & H10 & H11 & H12 & H13 & H14 & _) Hl Hck.
  unfold ip_parse, frame_of. rewrite eth_parse_cat by assumption. cbn [bind].
  unfold ip_parse_eth, hdr_of, hdr. cbn [e_dst e_src e_type e_pay]. rewrite <- !app_assoc. go_slice.
  assert (fits 8 (i_ver f * 16 + i_ihl f)) as F1 by (unfold fits in *; lia).
  assert (fits 8 (i_dscp f * 4 + i_ecn f)) as F2 by (unfold fits in *; lia).
  assert (fits 16 (i_flags f * 8192 + i_frag f)) as F3 by (unfold fits in *; lia).
  rewrite !unpack1, !unpack2, !unpack4 by assumption. cbn [bind].
  rewrite nib_hi, nib_lo, tos_hi, tos_lo, frag_hi, frag_lo by assumption.
  destruct (@divmod (i_ver f) (i_ihl f) 16 H5) as [-> ->].
  destruct (@divmod (i_dscp f) (i_ecn f) 4 H7) as [-> ->].
  destruct (@divmod (i_flags f) (i_frag f) 8192 H10) as [-> ->].
  go_slice. unfold slice. cbn [skipn]. rewrite Nat.sub_0_r.
  replace (Z.to_nat l - 1 - 1 - 2 - 2 - 2 - 1 - 1 - 2 - 4 - 4)%nat with (Z.to_nat l - 20)%nat by lia.
  reflexivity.
Qed.

Lemma fits_slice d a b n v : octets d -> unpack n (slice d a b) = Some v ->
  fits (8 * Z.of_nat n) v /\ be n v = slice d a b.
Proof.
  intros Hd E. apply unpack_inv in E. destruct E as [L ->].
  pose proof (fits_value n (slice_octets a b Hd)) as [F B]. rewrite L in F. split; [exact F|exact (B L)].
Qed.

Lemma ip_back d f : octets d -> ip_parse d = Some f ->
  ip_hdr_ok f /\ exists l ck rest, i_len f = Some l /\ i_ck f = Some ck /\ fits 16 l /\ fits 16 ck
  /\ d = frame_of f l ck rest /\ i_pay f = firstn (Z.to_nat l - 20) rest /\ octets rest.
Proof.
  intros Hd E. unfold ip_parse in E.
  destruct (eth_parse d) as [e|] eqn:Ee; cbn [bind] in E; [|discriminate].
  destruct (eth_back Hd Ee) as [(He1 & He2 & He3 & Hp) Ed]. set (p := e_pay e) in *.
  unfold ip_parse_eth in E. fold p in E.
  destruct (unpack 1 (slice p 0 1)) as [v0|] eqn:E0; cbn [bind] in E; [|discriminate].
  destruct (unpack 1 (slice p 1 2)) as [v1|] eqn:E1; cbn [bind] in E; [|discriminate].
  destruct (unpack 2 (slice p 2 4)) as [l|] eqn:E2; cbn [bind] in E; [|discriminate].
  destruct (unpack 2 (slice p 4 6)) as [idn|] eqn:E3; cbn [bind] in E; [|discriminate].
  destruct (unpack 2 (slice p 6 8)) as [v6|] eqn:E4; cbn [bind] in E; [|discriminate].
  destruct (unpack 1 (slice p 8 9)) as [ttl|] eqn:E5; cbn [bind] in E; [|discriminate].
  destruct (unpack 1 (slice p 9 10)) as [pr|] eqn:E6; cbn [bind] in E; [|discriminate].
  destruct (unpack 2 (slice p 10 12)) as [ck|] eqn:E7; cbn [bind] in E; [|discriminate].
  destruct (unpack 4 (slice p 12 16)) as [sip|] eqn:E8; cbn [bind] in E; [|discriminate].
  destruct (unpack 4 (slice p 16 20)) as [dip|] eqn:E9; cbn [bind] in E; [|discriminate].
  apply some_inj in E. subst f.
  apply (@fits_slice p _ _ _ _ Hp) in E0. apply (@fits_slice p _ _ _ _ Hp) in E1. apply (@fits_slice p _ _ _ _ Hp) in E2. apply (@fits_slice p _ _ _ _ Hp) in E3.
  apply (@fits_slice p _ _ _ _ Hp) in E4. apply (@fits_slice p _ _ _ _ Hp) in E5. apply (@fits_slice p _ _ _ _ Hp) in E6. apply (@fits_slice p _ _ _ _ Hp) in E7.
  apply (@fits_slice p _ _ _ _ Hp) in E8. apply (@fits_slice p _ _ _ _ Hp) in E9.
  destruct E0 as [F0 B0], E1 as [F1 B1], E2 as [F2 B2], E3 as [F3 B3], E4 as [F4 B4], E5 as [F5 B5], E6 as [F6 B6],
    E7 as [F7 B7], E8 as [F8 B8], E9 as [F9 B9].
  rewrite nib_hi, nib_lo, tos_hi, tos_lo, frag_hi, frag_lo by assumption.
  assert (octets (skipn 20 p)) as Hrest by (rewrite <- (firstn_skipn 20 p) in Hp; apply Forall_app in Hp; exact (proj2 Hp)).
  split.
  - unfold ip_hdr_ok. cbn [i_dst i_src i_type i_ver i_ihl i_dscp i_ecn i_id i_flags i_frag i_ttl i_proto i_sip i_dip i_pay].
    assert (fits 4 (v0 / 16)) by (red in F0; split; [apply Z.div_pos; lia|apply Z.div_lt_upper_bound; lia]).
    assert (fits 6 (v1 / 4)) by (red in F1; split; [apply Z.div_pos; lia|apply Z.div_lt_upper_bound; lia]).
    assert (fits 3 (v6 / 8192)) by (red in F4; split; [apply Z.div_pos; lia|apply Z.div_lt_upper_bound; lia]).
    assert (fits 4 (v0 mod 16)) by (apply Z.mod_pos_bound; lia).
    assert (fits 2 (v1 mod 4)) by (apply Z.mod_pos_bound; lia).
    assert (fits 13 (v6 mod 8192)) by (apply Z.mod_pos_bound; lia).
    assert (octets (slice p 20 (Z.to_nat l))) by (apply slice_octets; exact Hp).
    tauto.
  - exists l, ck, (skipn 20 p). cbn [i_len i_ck i_pay].
    split; [reflexivity|split; [reflexivity|split; [exact F2|split; [exact F7|split; [|split; [reflexivity|exact Hrest]]]]]].
    rewrite Ed. unfold frame_of, hdr_of, hdr.
    cbn [i_dst i_src i_type i_ver i_ihl i_dscp i_ecn i_id i_flags i_frag i_ttl i_proto i_sip i_dip i_pay].
    replace (v0 / 16 * 16 + v0 mod 16) with v0 by (pose proof (Z_div_mod_eq_full v0 16); lia).
    replace (v1 / 4 * 4 + v1 mod 4) with v1 by (pose proof (Z_div_mod_eq_full v1 4); lia).
    replace (v6 / 8192 * 8192 + v6 mod 8192) with v6 by (pose proof (Z_div_mod_eq_full v6 8192); lia).
    rewrite B0, B1, B2, B3, B4, B5, B6, B7, B8, B9. rewrite <- !app_assoc.
    rewrite <- (slice_cat p (a:=16) (b:=20)) by lia. rewrite <- (slice_cat p (a:=12) (b:=16)) by lia.
    rewrite <- (slice_cat p (a:=10) (b:=12)) by lia. rewrite <- (slice_cat p (a:=9) (b:=10)) by lia.
    rewrite <- (slice_cat p (a:=8) (b:=9)) by lia. rewrite <- (slice_cat p (a:=6) (b:=8)) by lia.
    rewrite <- (slice_cat p (a:=4) (b:=6)) by lia. rewrite <- (slice_cat p (a:=2) (b:=4)) by lia.
    rewrite <- (slice_cat p (a:=1) (b:=2)) by lia. rewrite <- (slice_cat p (a:=0) (b:=1)) by lia. reflexivity.
Qed.

Lemma ip_round f pad : ip_ok f -> exists d g, ip_build f = Some d /\ length d = (34 + length (i_pay f))%nat
  /\ ip_parse (d ++ pad) = Some g
  /\ ip_header_same f g /\ i_len g = Some (Z.of_nat (length (i_pay f)) + 20) /\ shows (i_ck f) (i_ck g).
Proof.
  intro H. pose proof (ip_len_ok H) as [El Hl]. pose proof (ip_ck_fits H) as Hc.
  exists (frame_of f (ip_len f) (ip_ck f) (i_pay f)). eexists.
  split; [apply ip_build_ok; exact H|].
  split; [unfold frame_of; rewrite !app_length, !be_length, hdr_length; lia|].
  assert (frame_of f (ip_len f) (ip_ck f) (i_pay f) ++ pad = frame_of f (ip_len f) (ip_ck f) (i_pay f ++ pad)) as ->
    by (unfold frame_of; rewrite <- !app_assoc; reflexivity).
  split; [apply ip_parse_frame; [exact (proj1 H)|exact Hl|exact Hc]|].
  cbn [i_len i_ck]. split; [|split].
  - unfold ip_header_same. cbn [i_dst i_src i_type i_ver i_ihl i_dscp i_ecn i_id i_flags i_frag i_ttl i_proto i_sip i_dip i_pay].
    replace (Z.to_nat (ip_len f) - 20)%nat with (length (i_pay f)) by lia.
    rewrite firstn_app, firstn_all, Nat.sub_diag. cbn [firstn]. rewrite app_nil_r. tauto.
  - rewrite El. reflexivity.
  - unfold ip_ck. destruct (i_ck f); cbn; [reflexivity|discriminate].
Qed.

Lemma ip_fill_eq f : ip_ok f ->
  ip_parse (frame_of f (ip_len f) (ip_ck f) (i_pay f)) =
  Some (mkIp (i_dst f) (i_src f) (i_type f) (i_ver f) (i_ihl f) (i_dscp f) (i_ecn f) (Some (ip_len f)) (i_id f) (i_flags f)
             (i_frag f) (i_ttl f) (i_proto f) (Some (ip_ck f)) (i_sip f) (i_dip f) (i_pay f)).
Proof.
  intro H. pose proof (ip_len_ok H) as [El Hl]. pose proof (ip_ck_fits H) as Hc.
  rewrite ip_parse_frame by (try assumption; exact (proj1 H)).
  rewrite firstn_all2 by lia. reflexivity.
Qed.

Lemma ip_rebuild d f : octets d -> ip_parse d = Some f -> 
  (forall l, i_len f = Some l -> 20 <= l /\ 14 + l <= Z.of_nat (length d)) ->
  exists l, i_len f = Some l /\ ip_build f = Some (firstn (14 + Z.to_nat l) d).
Proof.
  intros Hd E Hfull. destruct (ip_back Hd E) as (H & l & ck & rest & El & Eck & Fl & Fck & Ed & Ep & Hr).
  exists l. split; [exact El|]. destruct (Hfull l El) as [H20 Hlen].
  assert (length d = 34 + length rest)%nat as Ld
    by (rewrite Ed; unfold frame_of; rewrite !app_length, !be_length, hdr_length; lia).
  assert (Z.of_nat (length (i_pay f)) + 20 = l) as Lp
    by (rewrite Ep, firstn_length_le by lia; lia).
  assert (ip_ok f) as Hok.
  { split; [exact H|]. red in Fl. split; [lia|]. rewrite El, Eck. cbn. split; [lia|exact Fck]. }
  rewrite ip_build_ok by exact Hok. f_equal.
  unfold ip_len, ip_ck. rewrite El, Eck, Ep, Ed.
  assert (firstn (14 + Z.to_nat l) (frame_of f l ck rest) = frame_of f l ck (firstn (Z.to_nat l - 20) rest)) as ->; [|reflexivity].
  unfold frame_of.
  rewrite firstn_app, be_length, firstn_all2 by (rewrite be_length; lia). f_equal.
  rewrite firstn_app, be_length, firstn_all2 by (rewrite be_length; lia). f_equal.
  rewrite firstn_app, be_length, firstn_all2 by (rewrite be_length; lia). f_equal.
  rewrite firstn_app, hdr_length, firstn_all2 by (rewrite hdr_length; lia). f_equal.
  f_equal. lia.
Qed.

Lemma ip_shows f d : ip_ok f -> ip_build f = Some d ->
  at_octets d 0 6 = i_dst f /\ at_octets d 6 6 = i_src f /\ at_octets d 12 2 = i_type f /\
  at_octets d 14 1 / 16 = i_ver f /\ at_octets d 14 1 mod 16 = i_ihl f /\
  at_octets d 15 1 / 4 = i_dscp f /\ at_octets d 15 1 mod 4 = i_ecn f /\
  at_octets d 16 2 = Z.of_nat (length (i_pay f)) + 20 /\ at_octets d 18 2 = i_id f /\
  at_octets d 20 2 / 8192 = i_flags f /\ at_octets d 20 2 mod 8192 = i_frag f /\
  at_octets d 22 1 = i_ttl f /\ at_octets d 23 1 = i_proto f /\ shows (i_ck f) (Some (at_octets d 24 2)) /\
  at_octets d 26 4 = i_sip f /\ at_octets d 30 4 = i_dip f /\ skipn 34 d = i_pay f.
Proof.
  intros H E. pose proof (ip_len_ok H) as [El Hl]. pose proof (ip_ck_fits H) as Hc.
  rewrite ip_build_ok in E by exact H. apply some_inj in E. subst d.
  assert (shows (i_ck f) (Some (ip_ck f))) as Hs by (unfold ip_ck; destruct (i_ck f); cbn; [reflexivity|discriminate]).
  destruct H as ((H1 & H2 & H3 & H4 & H5 & H6 & H7 & H8 & H9 & H10 & H11 & H12 & H13 & H14 & _) & _).
  rewrite <- El.
  unfold at_octets. rewrite <- !value_number. unfold frame_of, hdr_of, hdr. rewrite <- !app_assoc.
  go_at. go_slice.
  assert (fits 8 (i_ver f * 16 + i_ihl f)) as F1 by (unfold fits in *; lia).
  assert (fits 8 (i_dscp f * 4 + i_ecn f)) as F2 by (unfold fits in *; lia).
  assert (fits 16 (i_flags f * 8192 + i_frag f)) as F3 by (unfold fits in *; lia).
  rewrite !value_be by assumption.
  destruct (@divmod (i_ver f) (i_ihl f) 16 H5) as [-> ->].
  destruct (@divmod (i_dscp f) (i_ecn f) 4 H7) as [-> ->].
  destruct (@divmod (i_flags f) (i_frag f) 8192 H10) as [-> ->].
  rewrite !skipn_be by (apply Nat.leb_le; reflexivity). cbn [Nat.sub skipn]. tauto.
Qed.

(** ** Checksums *)
Lemma frame_hdr f l ck rest : firstn 20 (skipn 14 (frame_of f l ck rest)) = hdr_of f l ck.
Proof.
  unfold frame_of. rewrite !skipn_be by (apply Nat.leb_le; reflexivity). cbn [Nat.sub skipn].
  rewrite firstn_app, hdr_length, firstn_all2 by (rewrite hdr_length; lia).
  rewrite Nat.sub_diag. cbn [firstn]. apply app_nil_r.
Qed.

Lemma ip_checksum_built f d : ip_ok f -> i_ck f = None -> ip_build f = Some d ->
  ones_sum (firstn 20 (skipn 14 d)) = 65535.
Proof.
  intros H Hn E. pose proof (ip_len_ok H) as [El Hl]. pose proof (ip_ck_fits H) as Hc.
  rewrite ip_build_ok in E by exact H. apply some_inj in E. subst d. rewrite frame_hdr.
  apply hdr_verdict; [exact (proj1 H)|exact Hl|exact Hc|]. left. unfold ip_ck. rewrite Hn. reflexivity.
Qed.

Lemma ip_calc_ext f g l : ip_header_same f g -> ip_calc g l = ip_calc f l.
Proof.
  intros (A1 & A2 & A3 & A4 & A5 & A6 & A7 & A8 & A9 & A10 & A11 & A12 & A13 & A14 & A15).
  unfold ip_calc. rewrite A4, A5, A6, A7, A8, A9, A10, A11, A12, A13, A14. reflexivity.
Qed.

Lemma ip_verify_spec d f : octets d -> ip_parse d = Some f ->
  (ip_verify f = Some true -> ones_sum (firstn 20 (skipn 14 d)) = 65535) /\
  (ones_sum (firstn 20 (skipn 14 d)) = 65535 -> i_ck f <> Some 65535 -> ip_verify f = Some true) /\
  ip_verify f <> None.
Proof.
  intros Hd E. destruct (ip_back Hd E) as (H & l & ck & rest & El & Eck & Fl & Fck & Ed & Ep & Hr).
  unfold ip_verify. rewrite El, Eck. cbn [bind]. rewrite Ed, frame_hdr.
  pose proof (hdr_verdict H Fl Fck) as V. split; [|split].
  - intro E1. apply some_inj in E1. apply Z.eqb_eq in E1. apply V. left. exact E1.
  - intros E1 E2. apply V in E1. destruct E1 as [E1|[E1 _]]; [|congruence].
    f_equal. apply Z.eqb_eq. exact E1.
  - discriminate.
Qed.
