(** Proofs about the PHY link. *)
From Verif Require Import Base.Prelude Eth.Lfsr_model Eth.Lfsr_spec Eth.Lfsr_proof
  Eth.Lfsr_words_proof Eth.Phy_model Eth.Phy_spec.
Local Open Scope nat_scope.
#[local] Opaque lfsr_state lfsr_data.

Lemma trace_snd {S X Y} (f : S -> X -> S * Y) s x xs :
  snd (trace f s (x :: xs)) = snd (f s x) :: snd (trace f (fst (f s x)) xs).
Proof. cbn [trace]. destruct (f s x) as [s1 y]. cbn [fst snd]. destruct (trace f s1 xs). reflexivity. Qed.

(** * Delay lines *)
Definition dly {A} (buf : list A) (x : A) : list A * A := (removelast (x :: buf), last buf x).

Lemma removelast_app1 {A} (x : A) (l : list A) z : removelast (x :: l ++ [z]) = x :: l.
Proof. change (x :: l ++ [z]) with ((x :: l) ++ [z]). apply removelast_last. Qed.

Lemma dly_outs {A} : forall (xs buf : list A), snd (trace dly buf xs) = firstn (length xs) (rev buf ++ xs).
Proof.
  induction xs as [|x xs IH]; intros buf.
  - reflexivity.
  - cbn [trace]. unfold dly at 1. specialize (IH (removelast (x :: buf))).
    destruct (trace dly (removelast (x :: buf)) xs) as [b2 os]. cbn [snd] in *. subst os.
    destruct buf as [|z buf _] using rev_ind.
    + reflexivity.
    + rewrite removelast_app1, last_last. rewrite rev_app_distr. cbn [length rev app firstn].
      rewrite <- app_assoc. reflexivity.
Qed.

Lemma nth_firstn_lt {A} (l : list A) n i d : i < n -> nth i (firstn n l) d = nth i l d.
Proof. apply nth_firstn. Qed.

Lemma dly_nth {A} (xs buf : list A) t d : length buf <= t -> t < length xs ->
  nth t (snd (trace dly buf xs)) d = nth (t - length buf) xs d.
Proof.
  intros H1 H2. rewrite dly_outs, nth_firstn by auto. rewrite app_nth2 by (rewrite rev_length; auto).
  rewrite rev_length. reflexivity.
Qed.

Lemma last_cons {A} (x d : A) l : last (x :: l) d = last l x.
Proof. revert x. induction l as [|y l IH]; intros x; auto. cbn [last] in *. destruct l; auto. Qed.

(** * The transmitter *)
Definition tx_core (c : phycfg) (s : Z * Z) (i : tx_in) : (Z * Z) * block :=
  let '((d, h), en) := i in
  let on := y_prbs c && en in
  ((lfsr_state (scr_cfg c false) (fst s) d, if on then lfsr_state (prbs_cfg c false) (snd s) 0 else snd s),
   if on then prbs_block c (lfsr_data (prbs_cfg c false) (snd s) 0)
   else (if y_nscr c then d else lfsr_data (scr_cfg c false) (fst s) d, h)).

Lemma tx_outs c : forall is s,
  snd (trace (tx_step c) s is) =
  snd (trace dly (brev c (tx_reg s) :: tx_pipe s) (map (brev c) (snd (trace (tx_core c) (tx_scr s, tx_prbs s) is)))).
Proof.
  induction is as [|[[d h] en] is IH]; intros s; auto.
  cbn [trace]. unfold tx_step at 1. unfold tx_core at 1. cbn [fst snd].
  match goal with |- context [trace (tx_step c) ?a is] => specialize (IH a); destruct (trace (tx_step c) a is) as [s2 os] end.
  cbn [tx_scr tx_prbs tx_reg tx_pipe fst snd] in IH. cbn [snd]. rewrite IH.
  destruct (trace (tx_core c) _ is) as [s3 ws]. cbn [snd map trace].
  unfold dly at 2. cbn [fst snd].
  set (x := if y_prbs c && en then _ else _).
  change (removelast (brev c x :: brev c (tx_reg s) :: tx_pipe s)) with
         (brev c x :: pipe_next (brev c (tx_reg s)) (tx_pipe s)).
  destruct (trace dly (brev c x :: pipe_next (brev c (tx_reg s)) (tx_pipe s)) (map (brev c) ws)) as [b2 os2].
  cbn [snd]. rewrite last_cons. reflexivity.
Qed.

(** * The receiver *)
Definition rx_core (c : phycfg) (s : rxif) (i : tx_in) : rxif * (block * Z) :=
  let '(int, en) := i in
  let on := y_prbs c && en in
  let p := lfsr_data (prbs_cfg c true) (rx_prbs s) (prbs_word c int) in
  (mkRx (lfsr_state (scr_cfg c true) (rx_scr s) (fst int))
        (if on then lfsr_state (prbs_cfg c true) (rx_prbs s) (prbs_word c int) else rx_prbs s)
        []
        (if y_nscr c then fst int else lfsr_data (scr_cfg c true) (rx_scr s) (fst int), snd int)
        (if on then count_ones c true p else rx_c1 s)
        (if on then count_ones c false p else rx_c2 s)
        (if on then (rx_c1 s + rx_c2 s) mod 128 else rx_cnt s)%Z,
   (rx_reg s, rx_cnt s)).

Definition rx_strip (s : rxif) : rxif := mkRx (rx_scr s) (rx_prbs s) [] (rx_reg s) (rx_c1 s) (rx_c2 s) (rx_cnt s).

Lemma rx_outs c : forall is s,
  snd (trace (rx_step c) s is) =
  snd (trace (rx_core c) (rx_strip s)
    (combine (snd (trace dly (rx_pipe s) (map (brev c) (map fst is)))) (map snd is))).
Proof.
  induction is as [|[b en] is IH]; intros s; auto.
  cbn [map fst snd]. rewrite trace_snd. rewrite IH. rewrite (trace_snd (@dly block)).
  cbn [combine]. rewrite trace_snd. reflexivity.
Qed.

(** * The link *)
Lemma link_outs c : forall is es t r, length es = length is ->
  snd (trace (link_step c) (t, r) (combine is es)) =
  snd (trace (rx_step c) r
    (combine (map (fun p => flip (fst p) (snd p)) (combine (snd (trace (tx_step c) t is)) es)) (map snd is))).
Proof.
  induction is as [|i is IH]; intros [|e es] t r L; cbn in L; try discriminate; auto.
  cbn [combine trace map]. unfold link_step at 1. cbn [fst snd].
  destruct (tx_step c t i) as [t1 o] eqn:E1.
  destruct (rx_step c r (flip o e, snd i)) as [r1 q] eqn:E2.
  specialize (IH es t1 r1 ltac:(lia)).
  destruct (trace (link_step c) (t1, r1) (combine is es)) as [s2 os].
  destruct (trace (tx_step c) t1 is) as [t2 to] eqn:E3.
  cbn [snd map combine trace fst] in *. rewrite E2.
  destruct (trace (rx_step c) r1 _) as [r2 ro]. cbn [snd] in *. subst. reflexivity.
Qed.

Lemma map_fst_combine {A B} (a : list A) (b : list B) : length a = length b -> map fst (combine a b) = a.
Proof. revert b. induction a; intros [|y b] L; cbn in *; try discriminate; auto. f_equal. apply IHa. lia. Qed.
Lemma map_snd_combine {A B} (a : list A) (b : list B) : length a = length b -> map snd (combine a b) = b.
Proof. revert b. induction a; intros [|y b] L; cbn in *; try discriminate; auto. f_equal. apply IHa. lia. Qed.

Lemma nth_map_any {A B} (f : A -> B) l i d d' : i < length l -> nth i (map f l) d = f (nth i l d').
Proof. intros H. rewrite nth_indep with (d' := f d') by (rewrite map_length; auto). apply map_nth. Qed.

Lemma nth_combine_any {A B} (a : list A) (b : list B) i d e : length a = length b ->
  nth i (combine a b) (d, e) = (nth i a d, nth i b e).
Proof. apply combine_nth. Qed.

(** Blocks reaching the descrambler. *)
Definition line_words c t is : list block := snd (trace (tx_core c) (tx_scr t, tx_prbs t) is).
Definition rx_ints c t r is es : list block :=
  snd (trace dly (rx_pipe r) (map (brev c)
    (map (fun p => flip (fst p) (snd p)) (combine (snd (trace (tx_step c) t is)) es)))).

Lemma link_core c is es t r : length es = length is ->
  snd (trace (link_step c) (t, r) (combine is es)) =
  snd (trace (rx_core c) (rx_strip r) (combine (rx_ints c t r is es) (map snd is))).
Proof.
  intros L. rewrite link_outs by auto. rewrite rx_outs. unfold rx_ints.
  assert (L1 : length (map (fun p => flip (fst p) (snd p)) (combine (snd (trace (tx_step c) t is)) es)) = length (map (@snd block bool) is)).
  { rewrite !map_length, combine_length, trace_length. lia. }
  rewrite map_fst_combine, map_snd_combine by exact L1. reflexivity.
Qed.

Lemma ints_length c t r is es : length es = length is -> length (rx_ints c t r is es) = length is.
Proof. intros L. unfold rx_ints. rewrite trace_length, !map_length, combine_length, trace_length. lia. Qed.


Lemma ints_nth c t r is es k : length es = length is ->
  k + tx_lag t + length (rx_pipe r) < length is ->
  nth (k + tx_lag t + length (rx_pipe r)) (rx_ints c t r is es) z2 =
  brev c (flip (brev c (nth k (line_words c t is) z2)) (nth (k + tx_lag t) es z2)).
Proof.
  intros L H. unfold rx_ints, tx_lag in *.
  assert (LT : length (snd (trace (tx_step c) t is)) = length is) by apply trace_length.
  rewrite dly_nth by (rewrite ?map_length, ?combine_length; lia).
  replace (k + S (length (tx_pipe t)) + length (rx_pipe r) - length (rx_pipe r)) with (k + S (length (tx_pipe t))) by lia.
  rewrite nth_map_any with (d' := z2) by (rewrite map_length, combine_length; lia).
  rewrite nth_map_any with (d' := (z2, z2)) by (rewrite combine_length; lia).
  rewrite nth_combine_any by lia. cbn [fst snd]. do 2 f_equal.
  rewrite tx_outs. assert (LW : length (line_words c t is) = length is) by apply trace_length.
  fold (line_words c t is).
  rewrite dly_nth by (rewrite ?map_length; cbn [length]; lia).
  cbn [length]. replace (k + S (length (tx_pipe t)) - S (length (tx_pipe t))) with k by lia.
  apply nth_map_any. lia.
Qed.

(** Bits. *)
Lemma vec_lxor n a b : vec n (Z.lxor a b) = xors (vec n a) (vec n b).
Proof.
  apply list_nth_ext with (d := false).
  - rewrite xors_length; rewrite !vec_length; auto.
  - intros i Hi. rewrite xors_nth by (rewrite !vec_length; auto). rewrite !vec_nth, Z.lxor_spec.
    destruct (i <? n); auto.
Qed.

Lemma xors_rev a : forall b, length a = length b -> xors (rev a) (rev b) = rev (xors a b).
Proof.
  intros b L. apply list_nth_ext with (d := false).
  - rewrite rev_length, !xors_length; rewrite ?rev_length; auto.
  - intros i Hi. rewrite xors_length in Hi by (rewrite !rev_length; auto). rewrite rev_length in Hi.
    rewrite xors_nth by (rewrite !rev_length; auto).
    rewrite !rev_nth by (rewrite ?xors_length; lia). rewrite xors_length by auto.
    rewrite xors_nth by auto. rewrite L. reflexivity.
Qed.

Lemma int_data c w e : vec (y_d c) (fst (brev c (flip (brev c w) e))) = xors (vec (y_d c) (fst w)) (line_data c e).
Proof.
  unfold brev, flip, line_data. destruct (y_brev c); cbn [fst snd].
  - rewrite vec_mirror, vec_lxor, vec_mirror. rewrite <- (rev_involutive (vec (y_d c) (fst e))) at 1.
    rewrite <- xors_rev by (rewrite ?rev_length, !vec_length; auto).
    rewrite !rev_involutive. reflexivity.
  - apply vec_lxor.
Qed.

Lemma int_hdr c w e : vec (y_h c) (snd (brev c (flip (brev c w) e))) = xors (vec (y_h c) (snd w)) (line_hdr c e).
Proof.
  unfold brev, flip, line_hdr. destruct (y_brev c); cbn [fst snd].
  - rewrite vec_mirror, vec_lxor, vec_mirror. rewrite <- (rev_involutive (vec (y_h c) (snd e))) at 1.
    rewrite <- xors_rev by (rewrite ?rev_length, !vec_length; auto).
    rewrite !rev_involutive. reflexivity.
  - apply vec_lxor.
Qed.

Lemma xors_bit a b n i : length a = n -> length b = n -> nth i (xors a b) false = xorb (nth i a false) (nth i b false).
Proof. intros. apply xors_nth. congruence. Qed.

Lemma line_data_length c e : length (line_data c e) = y_d c.
Proof. unfold line_data. destruct (y_brev c); rewrite ?rev_length; apply vec_length. Qed.
Lemma line_hdr_length c e : length (line_hdr c e) = y_h c.
Proof. unfold line_hdr. destruct (y_brev c); rewrite ?rev_length; apply vec_length. Qed.

Lemma bitstream_bit d (ws : list Z) i : 0 < d -> i / d < length ws ->
  nth i (bitstream true d ws) false = bit_of d (fun t => vec d (nth t ws 0%Z)) i.
Proof.
  intros Hd Hi. pose proof (Nat.div_mod i d ltac:(lia)) as E. pose proof (Nat.mod_upper_bound i d ltac:(lia)) as B.
  unfold bit_of. rewrite E at 1. rewrite (Nat.mul_comm d). rewrite bitstream_nth by auto. reflexivity.
Qed.

Lemma shift_div i l d : 0 < d -> (i + l * d) / d = i / d + l.
Proof. intros H. apply Nat.div_add. lia. Qed.
Lemma shift_mod i l d : 0 < d -> (i + l * d) mod d = i mod d.
Proof. intros H. apply Nat.mod_add. lia. Qed.

Lemma words_length c t is : length (line_words c t is) = length is.
Proof. apply trace_length. Qed.

(** A data bit entering the descrambler is the line bit with its error. *)
Lemma int_bit c t r is es i : 0 < y_d c -> length es = length is ->
  i / y_d c + (tx_lag t + length (rx_pipe r)) < length is ->
  nth (i + (tx_lag t + length (rx_pipe r)) * y_d c) (bitstream true (y_d c) (map fst (rx_ints c t r is es))) false =
  xorb (nth i (bitstream true (y_d c) (map fst (line_words c t is))) false)
       (bit_of (y_d c) (fun u => line_data c (nth (u + tx_lag t) es z2)) i).
Proof.
  intros Hd L H.
  rewrite !bitstream_bit by (rewrite ?map_length, ?shift_div, ?ints_length, ?words_length; auto; lia).
  unfold bit_of. rewrite shift_div, shift_mod by auto.
  rewrite !(@nth_map_any _ _ fst _ _ 0%Z z2) by (rewrite ?ints_length, ?words_length; auto; lia).
  rewrite Nat.add_assoc. rewrite ints_nth by (auto; lia). rewrite int_data.
  apply xors_bit with (n := y_d c); [apply vec_length|apply line_data_length].
Qed.

(** * Scrambled mode *)
Definition encoded (is : list tx_in) : list Z := map (fun i => fst (fst i)) is.

Lemma words_off c : forall is s, off c is ->
  map fst (snd (trace (tx_core c) s is)) =
    (if y_nscr c then encoded is else snd (trace (word_step (scr_cfg c false)) (fst s) (encoded is))) /\
  map snd (snd (trace (tx_core c) s is)) = map (fun i => snd (fst i)) is.
Proof.
  induction is as [|[[d h] en] is IH]; intros s Ho.
  - split; auto. destruct (y_nscr c); auto.
  - inversion Ho as [|? ? H1 H2]; subst. cbn [snd] in H1.
    assert (EO : tx_core c s ((d, h), en) =
      ((lfsr_state (scr_cfg c false) (fst s) d, snd s), (if y_nscr c then d else lfsr_data (scr_cfg c false) (fst s) d, h))).
    { unfold tx_core. rewrite H1. reflexivity. }
    cbn [encoded map fst]. rewrite trace_snd, EO. cbn [fst snd map].
    destruct (IH (lfsr_state (scr_cfg c false) (fst s) d, snd s) H2) as (E1 & E2).
    rewrite E1, E2. split; auto. rewrite (trace_snd (word_step _)). cbn [fst snd word_step].
    destruct (y_nscr c); reflexivity.
Qed.

Lemma regs_off c : forall ints ens s, length ens = length ints ->
  map fst (snd (trace (rx_core c) s (combine ints ens))) =
  firstn (length ints) (rx_reg s ::
    combine (if y_nscr c then map fst ints else snd (trace (word_step (scr_cfg c true)) (rx_scr s) (map fst ints)))
            (map snd ints)).
Proof.
  induction ints as [|[d h] ints IH]; intros [|en ens] s L; cbn [length] in L; try discriminate; auto.
  cbn [combine map]. rewrite trace_snd. rewrite (trace_snd (word_step _)). cbn [map fst snd length firstn].
  f_equal. rewrite IH by lia. unfold rx_core. cbn [fst snd rx_reg rx_scr].
  destruct (y_nscr c); reflexivity.
Qed.

Lemma nth_fst {A B} (l : list (A * B)) i a b : fst (nth i l (a, b)) = nth i (map fst l) a.
Proof. exact (eq_sym (map_nth fst l (a, b) i)). Qed.
Lemma nth_snd {A B} (l : list (A * B)) i a b : snd (nth i l (a, b)) = nth i (map snd l) b.
Proof. exact (eq_sym (map_nth snd l (a, b) i)). Qed.


Lemma rx_out c t r is es u : length es = length is -> S u < length is ->
  fst (nth (S u) (snd (trace (link_step c) (t, r) (combine is es))) z3) =
  (if y_nscr c then nth u (map fst (rx_ints c t r is es)) 0%Z
   else nth u (snd (trace (word_step (scr_cfg c true)) (rx_scr r) (map fst (rx_ints c t r is es)))) 0%Z,
   nth u (map snd (rx_ints c t r is es)) 0%Z).
Proof.
  intros L H. unfold z3. rewrite nth_fst. rewrite link_core by auto.
  rewrite regs_off by (rewrite ints_length, map_length; auto).
  rewrite ints_length by auto. rewrite nth_firstn by auto. cbn [nth]. unfold z2. rewrite nth_combine_any.
  - cbn [rx_strip rx_scr]. destruct (y_nscr c); reflexivity.
  - rewrite map_length. destruct (y_nscr c); rewrite ?trace_length, ?map_length; auto.
Qed.

Lemma link_header c t r is es u k : length es = length is -> off c is ->
  u + tx_lag t + rx_lag r < length is ->
  nth k (vec (y_h c) (snd (fst (nth (u + tx_lag t + rx_lag r) (snd (trace (link_step c) (t, r) (combine is es))) z3)))) false =
  xorb (nth k (vec (y_h c) (snd (fst (nth u is (z2, false))))) false)
       (nth k (line_hdr c (nth (u + tx_lag t) es z2)) false).
Proof.
  intros L Ho H. unfold rx_lag in *. rewrite Nat.add_succ_r in *. rewrite rx_out by auto. cbn [snd].
  rewrite (@nth_map_any _ _ snd _ _ 0%Z z2) by (rewrite ints_length; auto; lia).
  rewrite ints_nth by (auto; lia). rewrite int_hdr.
  rewrite (@xors_bit _ _ (y_h c)) by (apply vec_length || apply line_hdr_length). do 3 f_equal.
  unfold line_words. unfold z2 at 1. rewrite nth_snd. rewrite (proj2 (@words_off c is _ Ho)).
  rewrite (@nth_map_any _ _ (fun i => snd (fst i)) is u 0%Z (z2, false)) by lia. reflexivity.
Qed.

Lemma fib_words c ff s ds i : 0 < y_d c -> (0 <= s < 2 ^ 58)%Z -> 58 <= i -> i < length ds * y_d c ->
  let os := snd (trace (word_step (scr_cfg c ff)) s ds) in
  nth i (bitstream true (y_d c) os) false =
  xorb (nth i (bitstream true (y_d c) ds) false)
       (mix 58 0x8000000001 (fun j => nth j (bitstream true (y_d c) (if ff then ds else os)) false) i).
Proof.
  intros Hd Hs H1 H2 os. subst os.
  destruct (trace (word_step (scr_cfg c ff)) s ds) as [s' os] eqn:T.
  destruct (@words_serial (scr_cfg c ff) ltac:(cbn; lia) ds s s' os Hs T) as (E & _).
  cbn [scr_cfg l_w l_poly l_galois l_ff l_rev l_d] in E. unfold serial in E. cbn [snd].
  pose proof (@fib_output 58 0x8000000001 ff (bitstream true (y_d c) ds) (register_of true 58 s) i
    ltac:(lia) (register_length _ _ _) H1 ltac:(rewrite bitstream_length; exact H2)) as F.
  rewrite E in F. cbn [snd] in F. destruct ff; exact F.
Qed.

Lemma mix58 f i : mix 58 0x8000000001 f i = xorb (f (i - 58)) (f (i - 39)).
Proof.
  unfold mix. replace (filter _ _) with [39] by (vm_compute; reflexivity). cbn [map xor_all fold_right].
  rewrite xorb_false_r. reflexivity.
Qed.

Lemma xor_cancel d e y39 y58 e39 e58 :
  xorb (xorb (xorb d (xorb y58 y39)) e) (xorb (xorb y58 e58) (xorb y39 e39)) = xorb d (xorb e (xorb e39 e58)).
Proof. destruct d, e, y39, y58, e39, e58; reflexivity. Qed.

Lemma div_lt_len i d n : 0 < d -> i / d < n -> i < n * d.
Proof. intros Hd H. rewrite Nat.mul_comm. pose proof (Nat.mul_succ_div_gt i d ltac:(lia)). nia. Qed.

Lemma link_scrambled c t r is es b : 0 < y_d c -> tx_ok c t -> rx_ok c r -> length es = length is -> off c is ->
  y_nscr c = false -> 58 <= b -> b / y_d c + (tx_lag t + rx_lag r) < length is ->
  let err := bit_of (y_d c) (fun u => line_data c (nth (u + tx_lag t) es z2)) in
  bit_of (y_d c) (fun u => vec (y_d c) (fst (fst (nth (u + (tx_lag t + rx_lag r))
    (snd (trace (link_step c) (t, r) (combine is es))) z3)))) b =
  xorb (bit_of (y_d c) (fun u => vec (y_d c) (fst (fst (nth u is (z2, false))))) b)
       (xorb (err b) (xorb (err (b - 39)) (err (b - 58)))).
Proof.
  intros Hd Ht Hr L Ho Hn Hb H err. subst err.
  set (P := tx_lag t + length (rx_pipe r)).
  assert (EL : tx_lag t + rx_lag r = S P) by (unfold P, rx_lag; lia). rewrite EL in *.
  set (ints := map fst (rx_ints c t r is es)).
  assert (LI : length ints = length is) by (unfold ints; rewrite map_length; apply ints_length; auto).
  set (fo := snd (trace (word_step (scr_cfg c true)) (rx_scr r) ints)).
  assert (LF : length fo = length is) by (unfold fo; rewrite trace_length; auto).
  (* left: bit b + P*D of the descrambler output *)
  transitivity (nth (b + P * y_d c) (bitstream true (y_d c) fo) false).
  { rewrite bitstream_bit by (rewrite ?shift_div, ?LF; auto; lia).
    unfold bit_of. rewrite shift_div, shift_mod by auto. rewrite Nat.add_succ_r.
    rewrite rx_out by (auto; lia). rewrite Hn. reflexivity. }
  unfold fo. pose proof (@div_lt_len (b + P * y_d c) (y_d c) (length is) Hd ltac:(rewrite shift_div by auto; lia)) as B.
  rewrite (@fib_words c true) by (auto; try apply Hr; rewrite ?LI; lia). rewrite mix58.
  (* bits entering the descrambler *)
  assert (M : forall j, j <= b -> j / y_d c + P < length is).
  { intros j Hj. pose proof (Nat.div_le_mono j b (y_d c) ltac:(lia) Hj). lia. }
  replace (b + P * y_d c - 58) with (b - 58 + P * y_d c) by lia.
  replace (b + P * y_d c - 39) with (b - 39 + P * y_d c) by lia.
  unfold ints. unfold P. rewrite !int_bit by (auto; apply M; lia).
  (* the scrambler *)
  set (ws := map fst (line_words c t is)).
  assert (EW : ws = snd (trace (word_step (scr_cfg c false)) (tx_scr t) (encoded is))).
  { unfold ws, line_words. rewrite (proj1 (@words_off c is _ Ho)), Hn. reflexivity. }
  assert (LE : length (encoded is) = length is) by apply map_length.
  pose proof (@div_lt_len b (y_d c) (length is) Hd ltac:(lia)) as B2.
  pose proof (@fib_words c false (tx_scr t) (encoded is) b Hd (proj1 Ht) Hb ltac:(rewrite LE; exact B2)) as F.
  cbv zeta in F. rewrite <- EW in F. rewrite mix58 in F. rewrite F.
  rewrite xor_cancel. f_equal.
  rewrite bitstream_bit by (rewrite ?LE; auto; lia). unfold bit_of.
  unfold encoded. rewrite (@nth_map_any _ _ (fun i => fst (fst i)) is _ 0%Z (z2, false)) by lia. reflexivity.
Qed.

Lemma link_plain c t r is es u k : 0 < y_d c -> length es = length is -> off c is ->
  y_nscr c = true -> u + (tx_lag t + rx_lag r) < length is ->
  nth k (vec (y_d c) (fst (fst (nth (u + (tx_lag t + rx_lag r))
    (snd (trace (link_step c) (t, r) (combine is es))) z3)))) false =
  xorb (nth k (vec (y_d c) (fst (fst (nth u is (z2, false))))) false)
       (nth k (line_data c (nth (u + tx_lag t) es z2)) false).
Proof.
  intros Hd L Ho Hn H. unfold rx_lag in *.
  replace (u + (tx_lag t + S (length (rx_pipe r)))) with (S (u + tx_lag t + length (rx_pipe r))) in * by lia.
  rewrite rx_out by auto. rewrite Hn. cbn [fst].
  rewrite (@nth_map_any _ _ fst _ _ 0%Z z2) by (rewrite ints_length; auto; lia).
  rewrite ints_nth by (auto; lia). rewrite int_data.
  rewrite (@xors_bit _ _ (y_d c)) by (apply vec_length || apply line_data_length). do 3 f_equal.
  unfold line_words. unfold z2 at 1. rewrite nth_fst. rewrite (proj1 (@words_off c is _ Ho)), Hn.
  unfold encoded. rewrite (@nth_map_any _ _ (fun i => fst (fst i)) is u 0%Z (z2, false)) by lia. reflexivity.
Qed.
