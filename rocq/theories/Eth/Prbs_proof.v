(** Proofs about the PRBS31 test mode and the error-free link. *)
From Verif Require Import Base.Prelude Eth.Lfsr_model Eth.Lfsr_spec Eth.Lfsr_proof
  Eth.Lfsr_words_proof Eth.Phy_model Eth.Phy_spec Eth.Phy_proof.
Local Open Scope nat_scope.
#[local] Opaque lfsr_state lfsr_data.

(** * No errors *)
Lemma mirror_bound n x : (0 <= mirror n x < 2 ^ Z.of_nat n)%Z.
Proof. apply assemble_bound. Qed.

Lemma mirror_twice n x : (0 <= x < 2 ^ Z.of_nat n)%Z -> mirror n (mirror n x) = x.
Proof.
  intros H. apply vec_inj with (n := n); [apply mirror_bound|auto|]. rewrite !vec_mirror. apply rev_involutive.
Qed.

Lemma clean_int c w : block_ok c w -> brev c (flip (brev c w) z2) = w.
Proof.
  intros [H1 H2]. unfold brev, flip, z2. destruct w as [a b]. cbn [fst snd] in *.
  destruct (y_brev c); cbn [fst snd]; rewrite !Z.lxor_0_r; auto. rewrite !mirror_twice; auto.
Qed.

Lemma vec_zero n k : nth k (vec n 0) false = false.
Proof. rewrite vec_nth, Z.bits_0. apply andb_false_r. Qed.

Lemma line_zero c k : nth k (line_data c z2) false = false.
Proof.
  unfold line_data, z2. cbn [fst]. destruct (y_brev c); [|apply vec_zero].
  destruct (Nat.lt_ge_cases k (y_d c)).
  - rewrite rev_nth by (rewrite vec_length; auto). apply vec_zero.
  - apply nth_overflow. rewrite rev_length, vec_length. auto.
Qed.

Lemma nth_all {A} (P : A -> Prop) l i d : Forall P l -> P d -> P (nth i l d).
Proof. intros H Hd. destruct (Nat.lt_ge_cases i (length l)).
  - rewrite Forall_forall in H. apply H. apply nth_In. auto.
  - rewrite nth_overflow; auto. Qed.

Lemma list_bits_ext n a b : (forall k, k < n -> nth k (vec n a) false = nth k (vec n b) false) -> vec n a = vec n b.
Proof. intros H. apply list_nth_ext with (d := false). rewrite !vec_length; auto. rewrite vec_length. exact H. Qed.

Lemma link_clean c t r is es u : 0 < y_d c -> tx_ok c t -> rx_ok c r -> length es = length is -> off c is ->
  Forall (fun i => block_ok c (fst i)) is -> Forall (fun e => e = z2) es ->
  y_nscr c = true \/ 58 <= u * y_d c -> u + (tx_lag t + rx_lag r) < length is ->
  fst (nth (u + (tx_lag t + rx_lag r)) (snd (trace (link_step c) (t, r) (combine is es))) z3) =
  fst (nth u is (z2, false)).
Proof.
  intros Hd Ht Hr L Ho Hi He Hu H.
  set (o := fst (nth (u + (tx_lag t + rx_lag r)) (snd (trace (link_step c) (t, r) (combine is es))) z3)).
  set (i := fst (nth u is (z2, false))).
  assert (Bi : block_ok c i).
  { unfold i. apply (@nth_all _ (fun i => block_ok c (fst i))); auto. cbn [fst]. unfold block_ok, z2. cbn [fst snd].
    split; split; try lia; apply Z.pow_pos_nonneg; lia. }
  assert (ES : forall j, nth j es z2 = z2) by (intros; apply (@nth_all _ (fun e => e = z2)); auto).
  (* the header, word level *)
  assert (EH : snd o = snd i /\ (y_nscr c = true -> fst o = fst i)).
  { unfold o, rx_lag in *.
    replace (u + (tx_lag t + S (length (rx_pipe r)))) with (S (u + tx_lag t + length (rx_pipe r))) in * by lia.
    rewrite rx_out by auto. cbn [fst snd].
    rewrite (@nth_map_any _ _ fst (rx_ints c t r is es) _ 0%Z z2), (@nth_map_any _ _ snd (rx_ints c t r is es) _ 0%Z z2) by (rewrite ints_length; auto; lia).
    rewrite ints_nth by (auto; lia). rewrite ES.
    destruct (@words_off c is (tx_scr t, tx_prbs t) Ho) as (E1 & E2). fold (line_words c t is) in E1, E2.
    assert (S2 : snd (nth u (line_words c t is) z2) = snd i).
    { unfold z2 at 1. rewrite nth_snd, E2. unfold i.
      rewrite (@nth_map_any _ _ (fun i => snd (fst i)) is u 0%Z (z2, false)) by lia. reflexivity. }
    assert (S1 : (0 <= fst (nth u (line_words c t is) z2) < 2 ^ Z.of_nat (y_d c))%Z /\
                 (y_nscr c = true -> fst (nth u (line_words c t is) z2) = fst i)).
    { unfold z2. rewrite nth_fst, E1. destruct (y_nscr c).
      - unfold encoded. rewrite (@nth_map_any _ _ (fun i => fst (fst i)) is u 0%Z (z2, false)) by lia.
        fold i. split; auto. apply Bi.
      - split; [|discriminate]. cbn [fst].
        destruct (trace (word_step (scr_cfg c false)) (tx_scr t) (encoded is)) as [s' os] eqn:T.
        destruct (@words_serial (scr_cfg c false) ltac:(cbn; lia) _ _ _ _ (proj1 Ht) T) as (_ & _ & F).
        cbn [snd]. apply (@nth_all _ (fun x => 0 <= x < 2 ^ Z.of_nat (y_d c))%Z); auto.
        split; [lia|apply Z.pow_pos_nonneg; lia]. }
    rewrite clean_int.
    - split; auto. intros Hn. rewrite Hn. apply S1. auto.
    - split; [apply S1|]. rewrite S2. apply Bi. }
  destruct EH as [EH EP].
  assert (ED : fst o = fst i).
  { destruct (y_nscr c) eqn:Hn; auto. destruct Hu as [Hu|Hu]; [congruence|].
    apply vec_inj with (n := y_d c).
    - unfold o, rx_lag in *.
      replace (u + (tx_lag t + S (length (rx_pipe r)))) with (S (u + tx_lag t + length (rx_pipe r))) in * by lia.
      rewrite rx_out by auto. rewrite Hn. cbn [fst].
      destruct (trace (word_step (scr_cfg c true)) (rx_scr r) _) as [s' os] eqn:T.
      destruct (@words_serial (scr_cfg c true) ltac:(cbn; lia) _ _ _ _ (proj1 Hr) T) as (_ & _ & F).
      cbn [snd]. apply (@nth_all _ (fun x => 0 <= x < 2 ^ Z.of_nat (y_d c))%Z); auto.
      split; [lia|apply Z.pow_pos_nonneg; lia].
    - apply Bi.
    - apply list_bits_ext. intros k Hk.
      assert (DV : (u * y_d c + k) / y_d c = u).
      { rewrite Nat.add_comm, Nat.div_add by lia. rewrite Nat.div_small by auto. lia. }
      assert (MD : (u * y_d c + k) mod y_d c = k).
      { rewrite Nat.add_comm, Nat.mod_add by lia. apply Nat.mod_small. auto. }
      pose proof (@link_scrambled c t r is es (u * y_d c + k) Hd Ht Hr L Ho Hn ltac:(lia) ltac:(rewrite DV; exact H)) as Q.
      cbv zeta in Q. unfold bit_of in Q. rewrite DV, MD, !ES, !line_zero in Q. rewrite !xorb_false_r in Q. exact Q. }
  destruct o, i; cbn [fst snd] in *; congruence.
Qed.

(** * Scrambling and descrambling word by word with the same state *)
Definition with_ff (c : lcfg) (ff : bool) : lcfg := mkLc (l_w c) (l_poly c) (l_galois c) ff (l_rev c) (l_d c) (l_red c).

Lemma words_inverse c c' s ds : 0 < l_w c -> l_w c' = l_w c -> l_poly c' = l_poly c -> l_galois c' = l_galois c ->
  l_rev c' = l_rev c -> l_d c' = l_d c -> l_ff c = false -> l_ff c' = true ->
  (0 <= s < 2 ^ Z.of_nat (l_w c))%Z -> Forall (fun d => 0 <= d < 2 ^ Z.of_nat (l_d c))%Z ds ->
  trace (word_step c') s (snd (trace (word_step c) s ds)) = (fst (trace (word_step c) s ds), ds).
Proof.
  intros HW Ew Ep Eg Er Ed F1 F2 Hs Hds.
  destruct (trace (word_step c) s ds) as [s1 ys] eqn:T1. cbn [fst snd].
  destruct (trace (word_step c') s ys) as [s2 xs] eqn:T2.
  destruct (words_serial c HW _ Hs T1) as (E1 & B1 & _).
  assert (HW' : 0 < l_w c') by congruence. assert (Hs' : (0 <= s < 2 ^ Z.of_nat (l_w c'))%Z) by congruence.
  destruct (words_serial c' HW' _ Hs' T2) as (E2 & B2 & O2).
  rewrite F1 in E1. rewrite F2, Ew, Ep, Eg, Er, Ed in E2. rewrite Ew in B2. rewrite Ed in O2.
  pose proof (@scramble_same (l_w c) (l_poly c) (l_galois c) HW (bitstream (l_rev c) (l_d c) ds)
    (register_of (l_rev c) (l_w c) s) (register_length _ _ _)) as Q.
  rewrite E1 in Q. cbn [fst snd] in Q. rewrite E2 in Q. injection Q as Q1 Q2.
  f_equal.
  - eapply register_inj; eauto.
  - eapply bitstream_inj; eauto.
    pose proof (trace_length (word_step c') ys s) as L2. rewrite T2 in L2. cbn in L2.
    pose proof (trace_length (word_step c) ds s) as L1. rewrite T1 in L1. cbn in L1. congruence.
Qed.

(** * PRBS31 *)

Lemma words_on c : forall is s, on c is ->
  snd (trace (tx_core c) s is) =
  map (prbs_block c) (snd (trace (word_step (prbs_cfg c false)) (snd s) (repeat 0%Z (length is)))).
Proof.
  induction is as [|[[d h] en] is IH]; intros s Ho; auto.
  inversion Ho as [|? ? H1 H2]; subst. cbn [snd] in H1. cbn [length repeat].
  assert (EO : tx_core c s ((d, h), en) =
    ((lfsr_state (scr_cfg c false) (fst s) d, lfsr_state (prbs_cfg c false) (snd s) 0%Z),
     prbs_block c (lfsr_data (prbs_cfg c false) (snd s) 0%Z))).
  { unfold tx_core. rewrite H1. reflexivity. }
  rewrite trace_snd, EO. cbn [fst snd map]. rewrite IH by auto. rewrite (trace_snd (word_step _)). reflexivity.
Qed.

Lemma counts_on c : forall ints ens s, length ens = length ints ->
  Forall (fun e : bool => y_prbs c && e = true) ens ->
  map snd (snd (trace (rx_core c) s (combine ints ens))) =
  firstn (length ints) (rx_cnt s :: ((rx_c1 s + rx_c2 s) mod 128)%Z ::
    map (fun p => ((count_ones c true p + count_ones c false p) mod 128)%Z)
      (snd (trace (word_step (prbs_cfg c true)) (rx_prbs s) (map (prbs_word c) ints)))).
Proof.
  induction ints as [|int ints IH]; intros [|en ens] s L Ho; cbn [length] in L; try discriminate; auto.
  inversion Ho as [|? ? H1 H2]; subst. cbn [combine map length]. rewrite trace_snd.
  assert (EO : rx_core c s (int, en) =
    (mkRx (lfsr_state (scr_cfg c true) (rx_scr s) (fst int))
        (lfsr_state (prbs_cfg c true) (rx_prbs s) (prbs_word c int)) []
        (if y_nscr c then fst int else lfsr_data (scr_cfg c true) (rx_scr s) (fst int), snd int)
        (count_ones c true (lfsr_data (prbs_cfg c true) (rx_prbs s) (prbs_word c int)))
        (count_ones c false (lfsr_data (prbs_cfg c true) (rx_prbs s) (prbs_word c int)))
        ((rx_c1 s + rx_c2 s) mod 128)%Z, (rx_reg s, rx_cnt s))).
  { unfold rx_core. rewrite H1. reflexivity. }
  rewrite EO. cbn [fst snd map firstn]. f_equal. rewrite IH by (auto; lia).
  cbn [rx_cnt rx_c1 rx_c2 rx_prbs]. rewrite (trace_snd (word_step (prbs_cfg c true))). cbn [map fst snd word_step]. reflexivity.
Qed.

(** Bits of the test word. *)
Lemma vec_prbs_word c b : (0 <= snd b < 2 ^ Z.of_nat (y_h c))%Z ->
  vec (wd c) (prbs_word c b) = map negb (vec (y_h c) (snd b) ++ vec (y_d c) (fst b)).
Proof.
  intros H. unfold wd, prbs_word. rewrite vec_assemble.
  transitivity (map negb (vec (y_h c + y_d c) (vcat (y_h c) (fst b) (snd b)))).
  { unfold vec. rewrite map_map, (Nat.add_comm (y_d c)). reflexivity. }
  f_equal. rewrite (@vec_split (y_h c) (y_d c) _ (snd b)) by (intros; apply vcat_low; lia). f_equal.
  unfold vec. apply map_ext. intros i. apply vcat_high. auto.
Qed.

Lemma vec_prbs_block c p :
  vec (y_h c) (snd (prbs_block c p)) ++ vec (y_d c) (fst (prbs_block c p)) = map negb (vec (wd c) p).
Proof.
  unfold prbs_block. cbn [fst snd]. rewrite !vec_assemble. unfold wd.
  rewrite Nat.add_comm. rewrite (@vec_split (y_h c) (y_d c) p p) by auto.
  rewrite map_app. unfold vec. rewrite !map_map. reflexivity.
Qed.

Lemma xors_app a1 : forall a2 b1 b2, length a1 = length b1 -> xors (a1 ++ a2) (b1 ++ b2) = xors a1 b1 ++ xors a2 b2.
Proof.
  unfold xors. induction a1 as [|x a1 IH]; intros a2 [|y b1] b2 L; cbn in L; try discriminate; auto.
  cbn. f_equal. apply IH. lia.
Qed.

Lemma xors_negb a : forall b, map negb (xors (map negb a) b) = xors a b.
Proof.
  unfold xors. induction a as [|x a IH]; intros [|y b]; cbn; auto. rewrite IH. f_equal. destruct x, y; reflexivity.
Qed.

Lemma int_hdr_bound c w e : block_ok c e -> (0 <= snd w < 2 ^ Z.of_nat (y_h c))%Z ->
  (0 <= snd (brev c (flip (brev c w) e)) < 2 ^ Z.of_nat (y_h c))%Z.
Proof.
  intros [_ He] Hw. unfold brev, flip. destruct (y_brev c); cbn [fst snd]; [apply mirror_bound|apply lxor_small; auto].
Qed.

Lemma prbs_int c p e : block_ok c e ->
  vec (wd c) (prbs_word c (brev c (flip (brev c (prbs_block c p)) e))) = xors (vec (wd c) p) (line_bits c e).
Proof.
  intros He. rewrite vec_prbs_word by (apply int_hdr_bound; auto; apply assemble_bound).
  rewrite int_hdr, int_data. rewrite <- xors_app by (rewrite vec_length; symmetry; apply line_hdr_length).
  rewrite vec_prbs_block. apply xors_negb.
Qed.

Lemma line_bits_length c e : length (line_bits c e) = wd c.
Proof. unfold line_bits, wd. rewrite app_length, line_hdr_length, line_data_length. lia. Qed.

Lemma fib_prbs c ff s ds i : (0 <= s < 2 ^ 31)%Z -> 31 <= i -> i < length ds * wd c ->
  let os := snd (trace (word_step (prbs_cfg c ff)) s ds) in
  nth i (bitstream true (wd c) os) false =
  xorb (nth i (bitstream true (wd c) ds) false)
       (mix 31 0x10000001 (fun j => nth j (bitstream true (wd c) (if ff then ds else os)) false) i).
Proof.
  intros Hs H1 H2 os. subst os.
  destruct (trace (word_step (prbs_cfg c ff)) s ds) as [s' os] eqn:T.
  destruct (@words_serial (prbs_cfg c ff) ltac:(cbn; lia) ds s s' os Hs T) as (E & _).
  cbn [prbs_cfg l_w l_poly l_galois l_ff l_rev l_d] in E. unfold serial in E. cbn [snd].
  fold (wd c) in E.
  pose proof (@fib_output 31 0x10000001 ff (bitstream true (wd c) ds) (register_of true 31 s) i
    ltac:(lia) (register_length _ _ _) H1 ltac:(rewrite bitstream_length; exact H2)) as F.
  rewrite E in F. cbn [snd] in F. destruct ff; exact F.
Qed.

Lemma mix31 f i : mix 31 0x10000001 f i = xorb (f (i - 31)) (f (i - 28)).
Proof.
  unfold mix. replace (filter _ _) with [28] by (vm_compute; reflexivity). cbn [map xor_all fold_right].
  rewrite xorb_false_r. reflexivity.
Qed.

Lemma zeros_stream d n i : nth i (bitstream true d (repeat 0%Z n)) false = false.
Proof.
  assert (F : Forall (fun b => b = false) (bitstream true d (repeat 0%Z n))).
  { unfold bitstream. induction n as [|n IH]; cbn; auto. apply Forall_app. split; auto.
    unfold vec. apply Forall_forall. intros b Hb. apply in_map_iff in Hb as (j & <- & _). apply Z.bits_0. }
  apply (@nth_all _ (fun b => b = false)); auto.
Qed.

(** The line carries the inverted PRBS31 sequence. *)
Lemma prbs_pattern c t is b : on c is -> 0 < wd c -> tx_ok c t -> 31 <= b -> b < length is * wd c ->
  let p := bit_of (wd c) (fun u => let w := nth u (line_words c t is) z2 in
                                   map negb (vec (y_h c) (snd w) ++ vec (y_d c) (fst w))) in
  p b = xorb (p (b - 28)) (p (b - 31)).
Proof.
  intros Ho Hd Ht H1 H2 p. subst p.
  assert (HL : length (snd (trace (word_step (prbs_cfg c false)) (tx_prbs t) (repeat 0%Z (length is)))) = length is).
  { rewrite trace_length. apply repeat_length. }
  set (ps := snd (trace (word_step (prbs_cfg c false)) (tx_prbs t) (repeat 0%Z (length is)))) in *.
  assert (Q : forall j, j < length is * wd c ->
    bit_of (wd c) (fun u => let w := nth u (line_words c t is) z2 in
      map negb (vec (y_h c) (snd w) ++ vec (y_d c) (fst w))) j = nth j (bitstream true (wd c) ps) false).
  { intros j Hj. assert (j / wd c < length is) by (apply Nat.div_lt_upper_bound; lia).
    rewrite bitstream_bit by (auto; lia). unfold bit_of. f_equal. cbv zeta.
    unfold line_words. rewrite (words_on _ Ho). fold ps.
    rewrite (@nth_map_any _ _ (prbs_block c) ps _ z2 0%Z) by lia. rewrite vec_prbs_block.
    rewrite map_map. rewrite <- (map_id (vec _ _)) at 2. apply map_ext. intros []; reflexivity. }
  rewrite !Q by lia.
  pose proof (@fib_prbs c false (tx_prbs t) (repeat 0%Z (length is)) b (proj1 (proj2 Ht)) H1 ltac:(rewrite repeat_length; auto)) as F.
  cbv zeta in F. fold ps in F. rewrite mix31, zeros_stream, xorb_false_l, xorb_comm in F. exact F.
Qed.

(** * The counters *)
Lemma fold_count (P : nat -> bool) (f : nat -> bool) : forall l acc, (0 <= acc)%Z -> (acc + Z.of_nat (length (filter P l)) < 64)%Z ->
  fold_left (fun a i => if P i then ((a + Z.b2z (f i)) mod 64)%Z else a) l acc =
  (acc + Z.of_nat (length (filter (fun i => P i && f i) l)))%Z.
Proof.
  induction l as [|i l IH]; intros acc H0 H1; cbn [fold_left filter] in *; [cbn; lia|].
  destruct (P i) eqn:EP; cbn [andb length] in *.
  - rewrite Z.mod_small by (destruct (f i); cbn [Z.b2z]; lia). rewrite IH.
    + destruct (f i); cbn [Z.b2z length]; lia.
    + destruct (f i); cbn [Z.b2z]; lia.
    + destruct (f i); cbn [Z.b2z]; lia.
  - apply IH; lia.
Qed.

Lemma filter_parts (f : nat -> bool) l :
  length (filter (fun i => Bool.eqb (Nat.odd i) true && f i) l) + length (filter (fun i => Bool.eqb (Nat.odd i) false && f i) l)
  = length (filter f l).
Proof.
  induction l as [|i l IH]; auto. cbn [filter]. destruct (Nat.odd i), (f i); cbn [Bool.eqb andb length]; lia.
Qed.

Lemma parity_seq b : forall n s,
  2 * length (filter (fun i => Bool.eqb (Nat.odd i) b) (seq s n)) <= n + (if Bool.eqb (Nat.odd s) b then 1 else 0).
Proof.
  induction n as [|n IH]; intros s; cbn [seq filter length].
  - lia.
  - specialize (IH (S s)). rewrite Nat.odd_succ, <- Nat.negb_odd in IH.
    destruct (Nat.odd s), b; cbn [Bool.eqb negb length] in *; lia.
Qed.

Lemma ones_seq n (f : nat -> bool) : ones (map f (seq 0 n)) = length (filter f (seq 0 n)).
Proof. unfold ones. generalize (seq 0 n). induction l as [|i l IH]; auto. cbn. destruct (f i); cbn; lia. Qed.

Lemma count_total c p : wd c <= 125 ->
  ((count_ones c true p + count_ones c false p) mod 128)%Z = Z.of_nat (ones (vec (wd c) p)).
Proof.
  intros H. unfold count_ones. fold (wd c).
  pose proof (parity_seq true (wd c) 0) as P1. pose proof (parity_seq false (wd c) 0) as P2.
  change (if Bool.eqb (Nat.odd 0) true then 1 else 0) with 0 in P1. change (if Bool.eqb (Nat.odd 0) false then 1 else 0) with 1 in P2.
  rewrite (@fold_count (fun i => Bool.eqb (Nat.odd i) true) (fun i => Z.testbit p (Z.of_nat i))) by lia.
  rewrite (@fold_count (fun i => Bool.eqb (Nat.odd i) false) (fun i => Z.testbit p (Z.of_nat i))) by lia.
  unfold vec. rewrite ones_seq.
  pose proof (filter_parts (fun i => Z.testbit p (Z.of_nat i)) (seq 0 (wd c))) as F.
  assert (B : length (filter (fun i => Z.testbit p (Z.of_nat i)) (seq 0 (wd c))) <= wd c).
  { rewrite <- (seq_length (wd c) 0) at 2. generalize (seq 0 (wd c)). clear. induction l as [|i l IH]; cbn; auto.
    destruct (Z.testbit p (Z.of_nat i)); cbn; lia. }
  rewrite Z.mod_small by lia. lia.
Qed.

Lemma xor_cancel31 y e y28 y31 e28 e31 : y = xorb y31 y28 ->
  xorb (xorb y e) (xorb (xorb y31 e31) (xorb y28 e28)) = xorb e (xorb e28 e31).
Proof. intros ->. destruct e, y28, y31, e28, e31; reflexivity. Qed.

Lemma prbs_count c t r is es u : 0 < wd c -> wd c <= 125 -> tx_ok c t -> rx_ok c r -> length es = length is -> on c is ->
  Forall (block_ok c) es -> 31 <= u * wd c -> S (u + (tx_lag t + rx_lag r)) < length is ->
  let err := bit_of (wd c) (fun v => line_bits c (nth (v + tx_lag t) es z2)) in
  snd (nth (S (u + (tx_lag t + rx_lag r))) (snd (trace (link_step c) (t, r) (combine is es))) z3) =
  Z.of_nat (ones (map (fun k => let b := u * wd c + k in xorb (err b) (xorb (err (b - 28)) (err (b - 31)))) (seq 0 (wd c)))).
Proof.
  intros Hd Hw Ht Hr L Ho He Hu H err.
  set (P := tx_lag t + length (rx_pipe r)).
  assert (EL : u + (tx_lag t + rx_lag r) = S (u + P)) by (unfold P, rx_lag; lia). rewrite EL in *.
  unfold z3. rewrite nth_snd. rewrite link_core by auto.
  rewrite counts_on; [|rewrite ints_length, map_length; auto|].
  2:{ unfold on in Ho. rewrite Forall_forall in *. intros x Hx. apply in_map_iff in Hx as (i & <- & Hi). auto. }
  rewrite ints_length by auto. rewrite nth_firstn by auto. cbn [nth rx_strip rx_prbs].
  set (pins := map (prbs_word c) (rx_ints c t r is es)).
  assert (LP : length pins = length is) by (unfold pins; rewrite map_length; apply ints_length; auto).
  set (qs := snd (trace (word_step (prbs_cfg c true)) (rx_prbs r) pins)).
  assert (LQ : length qs = length is) by (unfold qs; rewrite trace_length; auto).
  rewrite (@nth_map_any _ _ (fun p => ((count_ones c true p + count_ones c false p) mod 128)%Z) qs _ 0%Z 0%Z) by lia.
  rewrite count_total by auto. do 2 f_equal.
  set (ps := snd (trace (word_step (prbs_cfg c false)) (tx_prbs t) (repeat 0%Z (length is)))).
  assert (HL : length ps = length is) by (unfold ps; rewrite trace_length; apply repeat_length).
  assert (EP : forall j, j / wd c + P < length is ->
    nth (j + P * wd c) (bitstream true (wd c) pins) false = xorb (nth j (bitstream true (wd c) ps) false) (err j)).
  { intros j Hj. rewrite !bitstream_bit by (rewrite ?shift_div, ?LP, ?HL; auto; lia).
    unfold err, bit_of. rewrite shift_div, shift_mod by auto.
    unfold pins at 1. rewrite (@nth_map_any _ _ (prbs_word c) (rx_ints c t r is es) _ 0%Z z2) by (rewrite ints_length; auto; lia).
    unfold P in Hj |- *. rewrite Nat.add_assoc. rewrite ints_nth by (auto; lia).
    assert (EN : nth (j / wd c) (line_words c t is) z2 = prbs_block c (nth (j / wd c) ps 0%Z)).
    { unfold line_words. rewrite (words_on _ Ho). fold ps. apply nth_map_any. lia. }
    rewrite EN. rewrite prbs_int.
    - apply xors_bit with (n := wd c); [apply vec_length|apply line_bits_length].
    - apply nth_all; auto. unfold block_ok, z2. cbn [fst snd]. split; split; try lia; apply Z.pow_pos_nonneg; lia. }
  apply list_nth_ext with (d := false); [rewrite vec_length, map_length, seq_length; reflexivity|].
  intros k Hk. rewrite vec_length in Hk. rewrite nth_map_seq by auto. cbv zeta.
  assert (DV : (u * wd c + k) / wd c = u).
  { rewrite Nat.add_comm, Nat.div_add by lia. rewrite Nat.div_small by auto. lia. }
  assert (MD : (u * wd c + k) mod wd c = k).
  { rewrite Nat.add_comm, Nat.mod_add by lia. apply Nat.mod_small. auto. }
  set (b := u * wd c + k) in *.
  transitivity (nth (b + P * wd c) (bitstream true (wd c) qs) false).
  { rewrite bitstream_bit by (rewrite ?shift_div, ?LQ; auto; lia). unfold bit_of. rewrite shift_div, shift_mod, DV, MD by auto. reflexivity. }
  pose proof (@div_lt_len (b + P * wd c) (wd c) (length is) Hd ltac:(rewrite shift_div, DV by auto; lia)) as B.
  unfold qs. rewrite (@fib_prbs c true) by (auto; try apply Hr; rewrite ?LP; lia). rewrite mix31.
  assert (M : forall j, j <= b -> j / wd c + P < length is).
  { intros j Hj. pose proof (Nat.div_le_mono j b (wd c) ltac:(lia) Hj). lia. }
  replace (b + P * wd c - 31) with (b - 31 + P * wd c) by lia.
  replace (b + P * wd c - 28) with (b - 28 + P * wd c) by lia.
  rewrite !EP by (apply M; lia).
  apply xor_cancel31.
  pose proof (@div_lt_len b (wd c) (length is) Hd ltac:(lia)) as B2.
  pose proof (@fib_prbs c false (tx_prbs t) (repeat 0%Z (length is)) b (proj1 (proj2 Ht)) ltac:(lia) ltac:(rewrite repeat_length; auto)) as F.
  cbv zeta in F. fold ps in F. rewrite mix31, zeros_stream, xorb_false_l in F. exact F.
Qed.

Lemma line_brev c w : line_hdr c (brev c w) = vec (y_h c) (snd w) /\ line_data c (brev c w) = vec (y_d c) (fst w).
Proof.
  unfold line_hdr, line_data, brev. destruct (y_brev c); cbn [fst snd]; auto.
  rewrite !vec_mirror, !rev_involutive. auto.
Qed.

Lemma on_line c t is u : u + tx_lag t < length is ->
  nth (u + tx_lag t) (snd (trace (tx_step c) t is)) z2 = brev c (nth u (line_words c t is) z2).
Proof.
  intros H. unfold tx_lag in *. rewrite tx_outs. fold (line_words c t is).
  rewrite dly_nth by (rewrite ?map_length, ?words_length; cbn [length]; lia).
  cbn [length]. replace (u + S (length (tx_pipe t)) - S (length (tx_pipe t))) with u by lia.
  apply nth_map_any. rewrite words_length. lia.
Qed.

Lemma prbs_line c t is b : on c is -> 0 < wd c -> tx_ok c t -> 31 <= b -> b / wd c + tx_lag t < length is ->
  let p j := negb (bit_of (wd c) (fun u => line_bits c (nth (u + tx_lag t) (snd (trace (tx_step c) t is)) z2)) j) in
  p b = xorb (p (b - 28)) (p (b - 31)).
Proof.
  intros Ho Hd Ht H1 H2 p. subst p. cbv beta.
  assert (Q : forall j, j <= b ->
    negb (bit_of (wd c) (fun u => line_bits c (nth (u + tx_lag t) (snd (trace (tx_step c) t is)) z2)) j) =
    bit_of (wd c) (fun u => let w := nth u (line_words c t is) z2 in
      map negb (vec (y_h c) (snd w) ++ vec (y_d c) (fst w))) j).
  { intros j Hj. pose proof (Nat.div_le_mono j b (wd c) ltac:(lia) Hj). pose proof (Nat.mod_upper_bound j (wd c) ltac:(lia)).
    unfold bit_of. rewrite on_line by lia. cbv zeta. unfold line_bits.
    rewrite (proj1 (line_brev c _)), (proj2 (line_brev c _)).
    set (l := vec _ _ ++ vec _ _). assert (LL : length l = wd c) by (unfold l, wd; rewrite app_length, !vec_length; lia).
    symmetry. apply nth_map_any. lia. }
  rewrite !Q by lia. apply prbs_pattern; auto. apply div_lt_len; lia.
Qed.

Lemma ones_zero (l : list nat) (f : nat -> bool) : (forall k, f k = false) -> ones (map f l) = 0.
Proof. intros H. unfold ones. induction l as [|k l IH]; auto. cbn. rewrite H. exact IH. Qed.

Lemma line_bits_zero c k : nth k (line_bits c z2) false = false.
Proof.
  unfold line_bits. destruct (Nat.lt_ge_cases k (y_h c)) as [H|H].
  - rewrite app_nth1 by (rewrite line_hdr_length; auto). unfold line_hdr, z2. cbn [snd].
    destruct (y_brev c); [|apply vec_zero]. rewrite rev_nth by (rewrite vec_length; auto). apply vec_zero.
  - rewrite app_nth2 by (rewrite line_hdr_length; auto). apply line_zero.
Qed.

Lemma prbs_clean c t r is es u : 0 < wd c -> wd c <= 125 -> tx_ok c t -> rx_ok c r -> length es = length is -> on c is ->
  Forall (fun e => e = z2) es -> 31 <= u * wd c -> S (u + (tx_lag t + rx_lag r)) < length is ->
  snd (nth (S (u + (tx_lag t + rx_lag r))) (snd (trace (link_step c) (t, r) (combine is es))) z3) = 0%Z.
Proof.
  intros Hd Hw Ht Hr L Ho He Hu H.
  assert (ES : forall j, nth j es z2 = z2) by (intros; apply (@nth_all _ (fun e => e = z2)); auto).
  rewrite prbs_count; auto.
  - cbv zeta. rewrite ones_zero; auto. intros k. unfold bit_of. rewrite !ES, !line_bits_zero. reflexivity.
  - eapply Forall_impl; [|exact He]. intros e ->. unfold block_ok, z2. cbn [fst snd].
    split; split; try lia; apply Z.pow_pos_nonneg; lia.
Qed.
