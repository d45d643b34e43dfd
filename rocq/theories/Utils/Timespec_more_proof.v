(** Conversions, comparisons and the start time of perout. *)
From Verif Require Import Base.Prelude Utils.Timespec_model Utils.Timespec_spec Utils.Timespec_proof.
Local Open Scope Z_scope.

Lemma exists_nat z : 0 <= z -> exists n, forall m, (n <= m)%nat -> z <= Z.of_nat m.
Proof. intros H. exists (Z.to_nat z). intros m Hm. lia. Qed.

Lemma by_fuel {A} (f : nat -> option A) r : (forall n, big n -> f n = Some r) -> gives f r.
Proof.
  intros H. destruct (@exists_nat 17179869184 ltac:(lia)) as [n0 Hn]. exists n0. intros m Hm. apply H. exact (Hn m Hm).
Qed.

Lemma fits_mid t : fits t -> mid t.
Proof. unfold fits, mid. change (2 ^ 61) with 2305843009213693952. change (2 ^ 63) with 9223372036854775808. lia. Qed.
Lemma fits_wide t : fits t -> wide t.
Proof. unfold fits, wide. change (2 ^ 61) with 2305843009213693952. change (2 ^ 63) with 9223372036854775808. lia. Qed.

Lemma normalise_gives t : fits t ->
  norm (canon (value t)) /\ value (canon (value t)) = value t /\ gives (fun n => normalise n t) (canon (value t)).
Proof.
  intros H. destruct (canon_spec (value t)) as (E & N). split; [exact N|]. split; [exact E|].
  apply by_fuel. intros n F. apply fits_wide in H. unfold wide in H. apply normalise_ok; unfold big in F; lia.
Qed.

Lemma add_gives t1 t2 : fits t1 -> fits t2 -> gives (fun n => add n t1 t2) (canon (value t1 + value t2)).
Proof. intros H1 H2. apply by_fuel. intros n F. apply add_ok; auto using fits_mid. Qed.

Lemma sub_gives t1 t2 : fits t1 -> fits t2 -> gives (fun n => sub n t1 t2) (canon (value t1 - value t2)).
Proof.
  intros H1 H2. apply by_fuel. intros n F. apply sub_ok; auto using fits_wide.
  unfold fits, value in *. change (2 ^ 61) with 2305843009213693952 in *. change (2 ^ 63) with 9223372036854775808 in *. lia.
Qed.

Lemma mod_gives t1 t2 : fits t1 -> fits t2 ->
  gives (fun n => ts_mod n t1 t2)
    (canon (if value t2 =? 0 then value t1 else value t1 - value t2 * (value t1 / value t2))).
Proof.
  intros H1 H2. apply by_fuel. intros n F. rewrite mod_ok by auto. f_equal. f_equal.
  destruct (Z.eqb_spec (value t2) 0); auto. apply Z.mod_eq. auto.
Qed.

Lemma compare_ok t1 t2 : norm t1 -> norm t2 ->
  ts_eq t1 t2 = (value t1 =? value t2) /\ ts_lt t1 t2 = (value t1 <? value t2) /\
  ts_le t1 t2 = (value t1 <=? value t2) /\ ts_gt t1 t2 = (value t2 <? value t1) /\
  ts_ge t1 t2 = (value t2 <=? value t1) /\ (value t1 = value t2 -> t1 = t2).
Proof.
  intros (A1 & A2) (B1 & B2). unfold ts_eq, ts_lt, ts_le, ts_gt, ts_ge, value.
  repeat split; try lia.
  intros E. destruct t1 as [s1 n1], t2 as [s2 n2]. cbn [sec nsec] in *. assert (s1 = s2 /\ n1 = n2) as [-> ->] by lia. reflexivity.
Qed.


Lemma quot_rem_unique a b q r : 0 < b -> a = b * q + r -> - b < r < b -> (0 <= r /\ 0 <= a) \/ (r <= 0 /\ a <= 0) ->
  Z.quot a b = q /\ Z.rem a b = r.
Proof.
  intros Hb E R H. pose proof (Z.quot_rem' a b) as E2.
  assert (R2 : - b < Z.rem a b < b /\ ((0 <= Z.rem a b /\ 0 <= a) \/ (Z.rem a b <= 0 /\ a <= 0))).
  { destruct H as [H|H].
    - pose proof (Z.rem_bound_pos a b ltac:(lia) Hb). lia.
    - pose proof (Z.rem_bound_pos (- a) b ltac:(lia) Hb) as Q. rewrite Z.rem_opp_l in Q by lia. lia. }
  set (q' := Z.quot a b) in *. set (r' := Z.rem a b) in *. clearbody q' r'.
  assert (b * (q - q') = r' - r) by lia.
  assert (q = q'); [|subst; lia]. 
  assert (ZD : forall k x, b * k = x -> - b < x < b -> x = 0).
  { intros k x Ek Rx. assert (k = 0) by nia. subst. lia. }
  assert (- b < b * (q - q') < b).
  { destruct (Z.eq_dec a 0) as [A0|NA].
    - pose proof (ZD (- q) r ltac:(lia) R). pose proof (ZD (- q') r' ltac:(lia) (proj1 R2)). lia.
    - lia. }
  nia.
Qed.

Lemma to_ms_ok t : norm t -> - 2 ^ 52 <= sec t <= 2 ^ 52 -> to_ms t = Some (Z.quot (value t) 1000000).
Proof.
  intros (N1 & N2) H. change (2 ^ 52) with 4503599627370496 in H. unfold to_ms.
  rewrite lng_ok by lia.
  pose proof (Z.quot_rem' (nsec t) 1000000) as E.
  assert (R : - 1000000 < Z.rem (nsec t) 1000000 < 1000000 /\
              (0 <= Z.rem (nsec t) 1000000 /\ 0 <= nsec t \/ Z.rem (nsec t) 1000000 <= 0 /\ nsec t <= 0)).
  { destruct (Z.le_ge_cases 0 (nsec t)).
    - pose proof (Z.rem_bound_pos (nsec t) 1000000 ltac:(lia) ltac:(lia)). lia.
    - pose proof (Z.rem_bound_pos (- nsec t) 1000000 ltac:(lia) ltac:(lia)) as Q. rewrite Z.rem_opp_l in Q by lia. lia. }
  destruct (@quot_rem_unique (value t) 1000000 (sec t * 1000 + Z.quot (nsec t) 1000000) (Z.rem (nsec t) 1000000)) as (Q & _);
    unfold value; try lia.
  rewrite lng_ok by lia. f_equal. symmetry. exact Q.
Qed.

Lemma ms_ok ms : - 2 ^ 63 <= ms < 2 ^ 63 ->
  gives (fun n => from_ms n ms) (canon (ms * 1000000)) /\ to_ms (canon (ms * 1000000)) = Some ms.
Proof.
  change (2 ^ 63) with 9223372036854775808. intros H.
  pose proof (Z.quot_rem' ms 1000) as E.
  assert (R : - 1000 < Z.rem ms 1000 < 1000 /\
              (0 <= Z.rem ms 1000 /\ 0 <= ms \/ Z.rem ms 1000 <= 0 /\ ms <= 0)).
  { destruct (Z.le_ge_cases 0 ms).
    - pose proof (Z.rem_bound_pos ms 1000 ltac:(lia) ltac:(lia)). lia.
    - pose proof (Z.rem_bound_pos (- ms) 1000 ltac:(lia) ltac:(lia)) as Q. rewrite Z.rem_opp_l in Q by lia. lia. }
  assert (EC : canon (ms * 1000000) = mkTs (Z.quot ms 1000) (Z.rem ms 1000 * 1000000)).
  { symmetry. rewrite (@norm_canon (mkTs _ _)).
    - f_equal. unfold value. cbn [sec nsec]. lia.
    - unfold norm. cbn [sec nsec]. lia. }
  split.
  - apply by_fuel. intros n F. unfold from_ms. rewrite lng_ok by lia.
    rewrite normalise_ok; cbn [sec nsec]; [|lia|lia|exact F].
    f_equal. f_equal. unfold value. cbn [sec nsec]. lia.
  - unfold to_ms. rewrite EC. cbn [sec nsec]. rewrite lng_ok by lia.
    rewrite Z.quot_mul by lia. rewrite lng_ok by lia. f_equal. lia.
Qed.

Lemma timeval_ok s us : - 2 ^ 61 <= s <= 2 ^ 61 -> - 2 ^ 53 <= us <= 2 ^ 53 ->
  gives (fun n => from_timeval n s us) (canon (s * 1000000000 + us * 1000)) /\
  gives (fun n => to_timeval n (canon (s * 1000000000 + us * 1000)))
        (Z.quot (s * 1000000 + us) 1000000, Z.rem (s * 1000000 + us) 1000000).
Proof.
  change (2 ^ 61) with 2305843009213693952. change (2 ^ 53) with 9007199254740992. intros H1 H2. split.
  - apply by_fuel. intros n F. unfold from_timeval. rewrite lng_ok by lia.
    rewrite normalise_ok; cbn [sec nsec]; [reflexivity|lia|lia|exact F].
  - apply by_fuel. intros n F. unfold to_timeval.
    set (v := s * 1000000000 + us * 1000).
    destruct (canon_spec v) as (E & N1 & N2).
    rewrite normalise_ok; [|unfold v, value in *; lia|lia|exact F].
    rewrite E. f_equal.
    set (w := s * 1000000 + us). assert (EV : v = w * 1000) by (unfold v, w; lia). clearbody v w. subst v.
    unfold canon. cbn [sec nsec].
    change 1000000000 with (1000000 * 1000). rewrite Z.quot_mul_cancel_r by lia.
    rewrite Z.mul_rem_distr_r by lia. rewrite Z.quot_mul by lia. reflexivity.
Qed.

Lemma perout_ok now start period :
  norm now -> 0 <= sec now <= 2 ^ 61 -> 0 <= nsec now -> - 2 ^ 63 <= start < 2 ^ 63 -> 0 < period < 2 ^ 63 ->
  exists r, norm r /\ gives (fun n => perout_start n now start period) (r, canon period) /\
    (value r - start) mod period = 0 /\
    if start <? value now then value now - period < value r < value now + period else value r = start.
Proof.
  change (2 ^ 61) with 2305843009213693952. change (2 ^ 63) with 9223372036854775808.
  intros HN H1 H0 H2 H3.
  assert (SP : forall v, mkTs (Z.quot v NSEC) (v - Z.quot v NSEC * NSEC) = canon v).
  { intros v. unfold canon, NSEC. f_equal. pose proof (Z.quot_rem' v 1000000000). lia. }
  assert (FC : forall v, - 4611686018427387904 * 1000000000 / 2 <= v <= 4611686018427387904 * 1000000000 / 2 -> fits (canon v)).
  { intros v Hv. destruct (canon_spec v) as (E & N1 & N2). unfold fits, value in *.
    change (2 ^ 61) with 2305843009213693952. change (2 ^ 63) with 9223372036854775808.
    change (- 4611686018427387904 * 1000000000 / 2) with (- 2305843009213693952 * 1000000000) in Hv.
    change (4611686018427387904 * 1000000000 / 2) with (2305843009213693952 * 1000000000) in Hv. lia. }
  change (- 4611686018427387904 * 1000000000 / 2) with (- 2305843009213693952 * 1000000000) in FC.
  change (4611686018427387904 * 1000000000 / 2) with (2305843009213693952 * 1000000000) in FC.
  assert (FN : fits now).
  { destruct HN. unfold fits. change (2 ^ 61) with 2305843009213693952. change (2 ^ 63) with 9223372036854775808. lia. }
  set (p := period) in *. set (m1 := start mod p). set (m2 := value now mod p).
  pose proof (Z.mod_pos_bound start p ltac:(lia)) as B1. pose proof (Z.mod_pos_bound (value now) p ltac:(lia)) as B2.
  fold m1 in B1. fold m2 in B2.
  assert (VN : 0 <= value now <= 2305843009213693952 * 1000000000 + 1000000000) by (destruct HN; unfold value; lia).
  exists (if start <? value now then canon (m1 + (value now - m2)) else canon start).
  destruct (canon_spec (m1 + (value now - m2))) as (Er & Nr).
  destruct (canon_spec start) as (Es & Ns).
  split; [destruct (start <? value now); assumption|]. split.
  - apply by_fuel. intros n F. unfold perout_start. cbv zeta. rewrite !SP.
    destruct (compare_ok Ns HN) as (_ & L & _). rewrite L, Es.
    destruct (Z.ltb_spec start (value now)) as [LT|GE]; [|reflexivity].
    assert (FP : fits (canon p)) by (apply FC; lia).
    rewrite mod_ok by (auto; apply FC; lia).
    destruct (canon_spec p) as (Ep & _). rewrite Es, Ep. replace (p =? 0) with false by lia. fold m1.
    rewrite mod_ok by auto. rewrite Ep. replace (p =? 0) with false by lia. fold m2.
    destruct (canon_spec m2) as (Em2 & _), (canon_spec m1) as (Em1 & _).
    assert (MLE : m2 <= value now) by (apply Z.mod_le; lia).
    rewrite sub_ok; [|exact F|apply fits_wide; exact FN|apply fits_wide, FC; lia|rewrite Em2; lia].
    rewrite Em2.
    destruct (canon_spec (value now - m2)) as (Ed & Nd1 & Nd2).
    rewrite add_ok; [|exact F|apply fits_mid, FC; lia|].
    + rewrite Em1, Ed. reflexivity.
    + unfold mid. unfold value in Ed at 1. lia.
  - destruct (Z.ltb_spec start (value now)) as [LT|GE].
    + rewrite Er. split; [|lia]. unfold m1, m2.
      pose proof (Z.div_mod start p ltac:(lia)) as D1. pose proof (Z.div_mod (value now) p ltac:(lia)) as D2.
      replace (start mod p + (value now - value now mod p) - start) with ((value now / p - start / p) * p) by lia.
      apply Z.mod_mul. lia.
    + rewrite Es. split; [|reflexivity]. rewrite Z.sub_diag. apply Z.mod_0_l. lia.
Qed.
