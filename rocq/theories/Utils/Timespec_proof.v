(** Proofs for time arithmetic. *)
From Verif Require Import Base.Prelude Utils.Timespec_model Utils.Timespec_spec.
Local Open Scope Z_scope.

Notation B := 1000000000 (only parsing).
Notation P40 := 1099511627776 (only parsing).
Notation P38 := 274877906944 (only parsing).
Notation P61 := 2305843009213693952 (only parsing).
Notation P62 := 4611686018427387904 (only parsing).
Notation W := 6917529027641081856 (only parsing).
Notation P63 := 9223372036854775808 (only parsing).

Lemma lng_ok x : - P63 <= x < P63 -> lng x = Some x.
Proof.
  intros H. unfold lng, LONG_MAX. change (2 ^ 63) with P63.
  replace ((- P63 <=? x) && (x <=? P63 - 1)) with true by lia. reflexivity.
Qed.

Lemma canon_spec v : value (canon v) = v /\ norm (canon v).
Proof.
  unfold value, norm, canon. cbn [sec nsec].
  pose proof (Z.quot_rem' v B) as E.
  destruct (Z.le_ge_cases 0 v) as [H|H].
  - pose proof (Z.rem_bound_pos v B H ltac:(lia)). pose proof (Z.quot_pos v B H ltac:(lia)). lia.
  - pose proof (Z.rem_bound_pos (- v) B ltac:(lia) ltac:(lia)) as R.
    pose proof (Z.quot_pos (- v) B ltac:(lia) ltac:(lia)) as Q.
    rewrite Z.rem_opp_l in R by lia. rewrite Z.quot_opp_l in Q by lia. lia.
Qed.

Lemma norm_canon t : norm t -> t = canon (value t).
Proof.
  intros (H1 & H2). destruct (canon_spec (value t)) as (E & N1 & N2).
  destruct t as [s n], (canon (value (mkTs s n))) as [s' n'] eqn:EC. unfold value in *. cbn [sec nsec] in *.
  assert (s = s' /\ n = n') as [-> ->]; [|reflexivity]. lia.
Qed.

(** Range of the fields of a canonical time. *)
Lemma canon_range v q : - q * B <= v <= q * B -> - q <= sec (canon v) <= q.
Proof. intros H. destruct (canon_spec v) as (E & N1 & N2). unfold value in E. lia. Qed.

Lemma loop_up : forall fuel t,
  nsec t < B * (Z.of_nat fuel + 1) -> - P63 <= nsec t < P63 -> - P63 <= sec t -> sec t + nsec t / B < P63 ->
  loop fuel (fun t => NSEC <=? nsec t)
    (fun t => do! s <- lng (sec t + 1); do! n <- lng (nsec t - NSEC); Some (mkTs s n)) t
  = Some (if nsec t <? B then t else mkTs (sec t + nsec t / B) (nsec t mod B)).
Proof.
  unfold NSEC. induction fuel as [|fuel IH]; intros [s n]; cbn [loop sec nsec]; intros H1 H2 H3 H4.
  - replace (B <=? n) with false by lia. replace (n <? B) with true by lia. reflexivity.
  - destruct (Z.leb_spec B n) as [L|L].
    + replace (n <? B) with false by lia.
      assert (D : n / B = (n - B) / B + 1).
      { replace n with (n - B + 1 * B) at 1 by lia. rewrite Z.div_add by lia. lia. }
      assert (M : n mod B = (n - B) mod B).
      { replace n with (n - B + 1 * B) at 1 by lia. rewrite Z.mod_add by lia. lia. }
      pose proof (Z.div_pos (n - B) B ltac:(lia) ltac:(lia)) as DP.
      rewrite !lng_ok by lia. rewrite IH; cbn [sec nsec]; [|lia..].
      f_equal. destruct (Z.ltb_spec (n - B) B) as [L2|L2].
      * rewrite D, M. rewrite Z.div_small, Z.mod_small by lia. f_equal. 
      * f_equal; lia.
    + replace (n <? B) with true by lia. reflexivity.
Qed.

Lemma loop_down : forall fuel t,
  - nsec t < B * (Z.of_nat fuel + 1) -> - P63 <= nsec t < P63 -> sec t < P63 -> - P63 <= sec t - (- nsec t) / B ->
  loop fuel (fun t => nsec t <=? - NSEC)
    (fun t => do! s <- lng (sec t - 1); do! n <- lng (nsec t + NSEC); Some (mkTs s n)) t
  = Some (if - B <? nsec t then t else mkTs (sec t - (- nsec t) / B) (- ((- nsec t) mod B))).
Proof.
  unfold NSEC. induction fuel as [|fuel IH]; intros [s n]; cbn [loop sec nsec]; intros H1 H2 H3 H4.
  - replace (n <=? - B) with false by lia. replace (- B <? n) with true by lia. reflexivity.
  - destruct (Z.leb_spec n (- B)) as [L|L].
    + replace (- B <? n) with false by lia.
      assert (D : (- n) / B = (- (n + B)) / B + 1).
      { replace (- n) with (- (n + B) + 1 * B) by lia. rewrite Z.div_add by lia. lia. }
      assert (M : (- n) mod B = (- (n + B)) mod B).
      { replace (- n) with (- (n + B) + 1 * B) by lia. rewrite Z.mod_add by lia. lia. }
      pose proof (Z.div_pos (- (n + B)) B ltac:(lia) ltac:(lia)) as DP.
      rewrite !lng_ok by lia. rewrite IH; cbn [sec nsec]; [|lia..].
      f_equal. destruct (Z.ltb_spec (- B) (n + B)) as [L2|L2].
      * rewrite D, M. rewrite Z.div_small, Z.mod_small by lia. f_equal; lia.
      * f_equal; lia.
    + replace (- B <? n) with true by lia. reflexivity.
Qed.

Lemma normalise_ok fuel t :
  - (W) <= sec t <= W -> - P63 <= nsec t < P63 -> 17179869184 <= Z.of_nat fuel ->
  normalise fuel t = Some (canon (value t)).
Proof.
  destruct t as [s n]. cbn [sec nsec]. intros H1 H2 H3. unfold normalise.
  pose proof (Z.div_mod n B ltac:(lia)) as DM. pose proof (Z.mod_pos_bound n B ltac:(lia)) as MB.
  rewrite loop_up; cbn [sec nsec]; [|lia..].
  set (t1 := if n <? B then mkTs s n else mkTs (s + n / B) (n mod B)).
  assert (T1 : value t1 = value (mkTs s n) /\ nsec t1 < B /\ - P63 <= nsec t1 /\
               - (W) <= sec t1 <= W + 17179869184).
  { unfold t1, value. destruct (Z.ltb_spec n B); cbn [sec nsec]; lia. }
  clearbody t1. destruct t1 as [s1 n1], T1 as (V1 & N1 & N1' & S1). cbn [sec nsec] in N1, N1', S1.
  rewrite <- V1. clear V1 DM MB H1 H2 s n.
  pose proof (Z.div_mod (- n1) B ltac:(lia)) as DM. pose proof (Z.mod_pos_bound (- n1) B ltac:(lia)) as MB.
  rewrite loop_down; cbn [sec nsec]; [|lia..].
  set (t2 := if - B <? n1 then mkTs s1 n1 else _).
  assert (T2 : value t2 = value (mkTs s1 n1) /\ - B < nsec t2 < B /\
               - (W + 17179869184) <= sec t2 <= W + 17179869184).
  { unfold t2, value. destruct (Z.ltb_spec (- B) n1); cbn [sec nsec]; lia. }
  clearbody t2. destruct t2 as [s2 n2], T2 as (V2 & N2 & S2). cbn [sec nsec] in N2, S2.
  rewrite <- V2. clear V2 DM MB.
  cbn [sec nsec]. unfold NSEC.
  destruct ((n2 <? 0) && (0 <? s2)) eqn:C1; [|destruct ((0 <? n2) && (s2 <? 0)) eqn:C2].
  - rewrite !lng_ok by lia. f_equal. rewrite norm_canon at 1.
    + f_equal. unfold value; cbn [sec nsec]. lia.
    + unfold norm; cbn [sec nsec]. lia.
  - rewrite !lng_ok by lia. f_equal. rewrite norm_canon at 1.
    + f_equal. unfold value; cbn [sec nsec]. lia.
    + unfold norm; cbn [sec nsec]. lia.
  - f_equal. apply norm_canon. unfold norm; cbn [sec nsec]. lia.
Qed.

Definition big (fuel : nat) : Prop := 17179869184 <= Z.of_nat fuel.

(** Times the internal steps handle. *)
Definition wide (t : ts) : Prop := - (P62 + P40) <= sec t <= P62 + P40 /\ - P63 <= nsec t < P63.
Definition mid (t : ts) : Prop := - (P61 + P40) <= sec t <= P61 + P40 /\ - P63 <= nsec t < P63.

Lemma canon_sec s n v : v = s * B + n -> - P63 <= n < P63 ->
  s - 9223372038 <= sec (canon v) <= s + 9223372038 /\ - B < nsec (canon v) < B.
Proof. intros -> H. destruct (canon_spec (s * B + n)) as (E & N1 & N2). unfold value in E. lia. Qed.

Lemma add_ok fuel t1 t2 : big fuel -> mid t1 -> mid t2 -> add fuel t1 t2 = Some (canon (value t1 + value t2)).
Proof.
  intros F M1 M2. unfold add, mid in *. rewrite !normalise_ok by (try exact F; lia).
  pose proof (@canon_sec (sec t1) (nsec t1) (value t1) eq_refl ltac:(lia)).
  pose proof (@canon_sec (sec t2) (nsec t2) (value t2) eq_refl ltac:(lia)).
  destruct (canon_spec (value t1)) as (E1 & _), (canon_spec (value t2)) as (E2 & _).
  destruct (canon (value t1)) as [s1 n1], (canon (value t2)) as [s2 n2]. cbn [sec nsec] in *.
  rewrite !lng_ok by lia. rewrite normalise_ok by (cbn [sec nsec]; try exact F; lia).
  f_equal. f_equal. unfold value at 1. cbn [sec nsec]. unfold value in E1 at 1. unfold value in E2 at 1. cbn [sec nsec] in *. lia.
Qed.

Lemma sub_ok fuel t1 t2 : big fuel -> wide t1 -> wide t2 ->
  - (P62 + P40) * B <= value t1 - value t2 <= (P62 + P40) * B ->
  sub fuel t1 t2 = Some (canon (value t1 - value t2)).
Proof.
  intros F M1 M2 D. unfold sub, wide in *. rewrite !normalise_ok by (try exact F; lia).
  pose proof (@canon_sec (sec t1) (nsec t1) (value t1) eq_refl ltac:(lia)) as K1.
  pose proof (@canon_sec (sec t2) (nsec t2) (value t2) eq_refl ltac:(lia)) as K2.
  destruct (canon_spec (value t1)) as (E1 & _), (canon_spec (value t2)) as (E2 & _).
  destruct (canon (value t1)) as [s1 n1], (canon (value t2)) as [s2 n2]. cbn [sec nsec] in *.
  unfold value in E1 at 1. unfold value in E2 at 1. cbn [sec nsec] in *.
  rewrite !lng_ok by lia.
  rewrite normalise_ok by (cbn [sec nsec]; try exact F; lia).
  f_equal. f_equal. unfold value at 1. cbn [sec nsec]. lia.
Qed.

Lemma negate_ok t : wide t -> - B < nsec t < B -> negate t = Some (mkTs (- sec t) (- nsec t)).
Proof. intros (H1 & H2) H3. unfold negate. rewrite !lng_ok by lia. reflexivity. Qed.

Lemma canon_neg v : mkTs (- sec (canon v)) (- nsec (canon v)) = canon (- v).
Proof.
  unfold canon. cbn [sec nsec]. rewrite Z.quot_opp_l, Z.rem_opp_l by lia. reflexivity.
Qed.

(** Comparison. *)
Lemma ge_ok t1 t2 : 0 <= nsec t1 < B -> 0 <= nsec t2 <= B -> ts_ge t1 t2 = (value t2 <=? value t1).
Proof. intros H1 H2. unfold ts_ge, value. lia. Qed.

(** * Remainder *)

(** Positive; a full second of nanoseconds is possible. *)
Definition semi (t : ts) : Prop := 0 <= sec t <= P62 + P40 /\ 0 <= nsec t <= B.

Lemma shift_up_ok : forall fuel t1 t2 i,
  0 <= sec t1 <= P61 + P38 -> 0 <= nsec t1 < B -> semi t2 -> 0 < value t2 ->
  value t1 < value t2 * 2 ^ Z.of_nat fuel ->
  exists j t2', shift_up fuel t1 t2 i = Some ((i + j)%nat, t2') /\ semi t2' /\
                value t2' = value t2 * 2 ^ Z.of_nat j /\ value t1 < value t2'.
Proof.
  induction fuel as [|fuel IH]; intros t1 t2 i H1 H2 H3 H4 H5; cbn [shift_up];
    rewrite ge_ok by (destruct H3; lia).
  - change (2 ^ Z.of_nat 0) with 1 in H5. replace (value t2 <=? value t1) with false by lia. rewrite andb_false_r.
    exists 0%nat, t2. rewrite Nat.add_0_r. change (2 ^ Z.of_nat 0) with 1. repeat split; try apply H3; lia.
  - unfold LONG_MAX. change (Z.shiftr (2 ^ 63 - 1) 1) with (P62 - 1).
    destruct ((sec t2 <? P62 - 1) && (value t2 <=? value t1)) eqn:C.
    + destruct t2 as [s n]. destruct H3 as (H3 & H3'). cbn [sec nsec] in *.
      assert (SB : 2 * s + 1 <= P62 + P40).
      { unfold value in *. cbn [sec nsec] in *. lia. }
      rewrite (@lng_ok (2 * n)) by lia. rewrite (@lng_ok (2 * s)) by lia.
      assert (G : forall t2', semi t2' -> value t2' = 2 * value (mkTs s n) ->
        exists j t2'', shift_up fuel t1 t2' (S i) = Some ((i + j)%nat, t2'') /\ semi t2'' /\
          value t2'' = value (mkTs s n) * 2 ^ Z.of_nat j /\ value t1 < value t2'').
      { intros t2' S2 V2. destruct (IH t1 t2' (S i)) as (j & t3 & E & S3 & V3 & L3); auto; try lia.
        - rewrite V2. replace (Z.of_nat (S fuel)) with (Z.of_nat fuel + 1) in H5 by lia.
          rewrite Z.pow_add_r in H5 by lia. change (2 ^ 1) with 2 in H5. lia.
        - exists (S j), t3. rewrite E. rewrite Nat.add_succ_r. repeat split; try apply S3; auto.
          rewrite V3, V2. replace (Z.of_nat (S j)) with (Z.of_nat j + 1) by lia.
          rewrite Z.pow_add_r by lia. change (2 ^ 1) with 2. ring. }
      unfold NSEC. destruct (Z.ltb_spec B (2 * n)).
      * rewrite !lng_ok by lia. apply G; unfold semi, value; cbn [sec nsec]; lia.
      * apply G; unfold semi, value; cbn [sec nsec]; lia.
    + exists 0%nat, t2. rewrite Nat.add_0_r. change (2 ^ Z.of_nat 0) with 1. repeat split; try apply H3; try lia.
      unfold value in *. destruct H3. lia.
Qed.

Lemma halve s n : 0 <= s -> 0 <= n ->
  let n' := if Z.odd s then n + B else n in
  value (mkTs (Z.shiftr s 1) (Z.shiftr n' 1)) = value (mkTs s n) / 2.
Proof.
  intros Hs Hn. cbv zeta. unfold value. cbn [sec nsec]. rewrite !Z.shiftr_div_pow2 by lia. change (2 ^ 1) with 2.
  pose proof (Z.div2_odd s) as O. rewrite Z.div2_div in O.
  destruct (Z.odd s); cbn [Z.b2z] in O.
  - pose proof (Z.div_mod (n + B) 2 ltac:(lia)). pose proof (Z.mod_pos_bound (n + B) 2 ltac:(lia)).
    apply Z.div_unique with (r := (n + B) mod 2); lia.
  - pose proof (Z.div_mod n 2 ltac:(lia)). pose proof (Z.mod_pos_bound n 2 ltac:(lia)).
    apply Z.div_unique with (r := n mod 2); lia.
Qed.

Lemma shift_down_ok fuel v : big fuel -> 0 < v -> forall i t1 t2,
  0 <= sec t1 <= P61 + P38 -> 0 <= nsec t1 < B -> semi t2 -> value t2 = v * 2 ^ Z.of_nat i ->
  value t1 < 2 * value t2 ->
  exists t2', shift_down fuel i t1 t2 = Some (canon (value t1 mod v), t2') /\ semi t2' /\ value t2' = v.
Proof.
  intros F Hv. induction i as [|i IH]; intros t1 t2 H1 H2 H3 H4 H5; cbn [shift_down].
  all: rewrite ge_ok by (destruct H3; lia).
  all: set (r := if value t2 <=? value t1 then sub fuel t1 t2 else Some t1).
  all: assert (R : exists t1', r = Some t1' /\ 0 <= sec t1' <= P61 + P38 /\ 0 <= nsec t1' < B /\ norm t1' /\
         value t1' = (if value t2 <=? value t1 then value t1 - value t2 else value t1)).
  1, 3: unfold r; destruct (Z.leb_spec (value t2) (value t1)) as [L|L];
    [rewrite sub_ok; [|exact F|unfold wide; lia|unfold wide; destruct H3; lia|]
    |exists t1; unfold norm; repeat split; auto; lia].
  1, 3: eexists; split; [reflexivity|]; destruct (canon_spec (value t1 - value t2)) as (E & N);
        split; [|split; [|split; [exact N|exact E]]]; destruct N; unfold value in *; destruct H3; lia.
  1, 2: unfold value in *; destruct H3; lia.
  all: destruct R as (t1' & -> & S1 & N1 & NN & V1).
  - change (2 ^ Z.of_nat 0) with 1 in H4. exists t2. split; [|split; [exact H3|lia]].
    f_equal. f_equal. rewrite (norm_canon NN). f_equal. rewrite V1.
    destruct (Z.leb_spec (value t2) (value t1)).
    + apply Z.mod_unique with (q := 1); lia.
    + symmetry. apply Z.mod_small. unfold value in *. lia.
  - destruct t2 as [s n]. destruct H3 as (H3 & H3'). cbn [sec nsec] in *.
    replace (Z.of_nat (S i)) with (Z.of_nat i + 1) in H4 by lia. rewrite Z.pow_add_r in H4 by lia. change (2 ^ 1) with 2 in H4.
    assert (EN : (if Z.odd s then lng (n + NSEC) else Some n) = Some (if Z.odd s then n + B else n)).
    { unfold NSEC. destruct (Z.odd s); auto. apply lng_ok. lia. }
    rewrite EN.
    pose proof (@halve s n ltac:(lia) ltac:(lia)) as HV. cbv zeta in HV.
    set (n' := if Z.odd s then n + B else n) in *.
    assert (Hn' : 0 <= n' <= 2 * B) by (unfold n'; destruct (Z.odd s); lia).
    assert (V2 : value (mkTs (Z.shiftr s 1) (Z.shiftr n' 1)) = v * 2 ^ Z.of_nat i).
    { rewrite HV, H4. replace (v * (2 ^ Z.of_nat i * 2)) with (v * 2 ^ Z.of_nat i * 2) by ring. apply Z.div_mul. lia. }
    destruct (IH t1' (mkTs (Z.shiftr s 1) (Z.shiftr n' 1))) as (t2' & E & S2 & E2); auto.
    + unfold semi. cbn [sec nsec]. rewrite !Z.shiftr_div_pow2 by lia. change (2 ^ 1) with 2.
      split; (split; [apply Z.div_pos; lia|]); [apply Z.div_le_upper_bound|apply Z.div_le_upper_bound]; lia.
    + rewrite V2, V1. destruct (Z.leb_spec (value (mkTs s n)) (value t1)); lia.
    + exists t2'. split; [|auto]. rewrite E. f_equal. f_equal. f_equal. rewrite V1.
      destruct (Z.leb_spec (value (mkTs s n)) (value t1)); auto.
      rewrite H4. replace (value t1 - v * (2 ^ Z.of_nat i * 2)) with (value t1 + (- (2 ^ Z.of_nat i * 2)) * v) by ring.
      apply Z.mod_add. lia.
Qed.

Lemma sign_canon v : (sec (canon v) <? 0) || (nsec (canon v) <? 0) = (v <? 0).
Proof. destruct (canon_spec v) as (E & N1 & N2). unfold value in E. lia. Qed.

Lemma zero_canon v : (sec (canon v) =? 0) && (nsec (canon v) =? 0) = (v =? 0).
Proof. destruct (canon_spec v) as (E & N1 & N2). unfold value in E. lia. Qed.

Lemma two_pow_fuel fuel : big fuel -> 2 ^ 100 <= 2 ^ Z.of_nat fuel.
Proof. intros F. apply Z.pow_le_mono_r; unfold big in F; lia. Qed.

Lemma mod_ok fuel t1 t2 : big fuel -> fits t1 -> fits t2 ->
  ts_mod fuel t1 t2 = Some (canon (if value t2 =? 0 then value t1 else value t1 mod value t2)).
Proof.
  intros F M1 M2. unfold fits in *. change (2 ^ 61) with P61 in *. change (2 ^ 63) with P63 in *.
  unfold ts_mod. rewrite !normalise_ok by (try exact F; lia).
  pose proof (@canon_sec (sec t1) (nsec t1) (value t1) eq_refl ltac:(lia)) as K1.
  pose proof (@canon_sec (sec t2) (nsec t2) (value t2) eq_refl ltac:(lia)) as K2.
  rewrite !sign_canon, zero_canon.
  revert K1 K2. generalize (value t1) as v1, (value t2) as v2. intros v1 v2 K1 K2.
  destruct (Z.eqb_spec v2 0) as [Z2|NZ2]; [reflexivity|].
  assert (A : forall v, - (P61 + P38) <= sec (canon v) <= P61 + P38 -> 
            (if v <? 0 then negate (canon v) else Some (canon v)) = Some (canon (Z.abs v))).
  { intros v Hv. destruct (canon_spec v) as (E & N1 & N2).
    destruct (Z.ltb_spec v 0).
    - rewrite negate_ok by (unfold wide; lia). rewrite canon_neg. f_equal. f_equal. lia.
    - f_equal. f_equal. lia. }
  rewrite !A by lia.
  destruct (canon_spec (Z.abs v1)) as (E1 & N1 & N1'), (canon_spec (Z.abs v2)) as (E2 & N2 & N2').
  destruct (canon_spec v1) as (E1a & N1a & N1b), (canon_spec v2) as (E2a & N2a & N2b).
  assert (R1 : 0 <= sec (canon (Z.abs v1)) <= P61 + P38 /\ 0 <= nsec (canon (Z.abs v1)) < B).
  { unfold value in *. lia. }
  assert (R2 : 0 <= sec (canon (Z.abs v2)) <= P61 + P38 /\ 0 <= nsec (canon (Z.abs v2)) < B).
  { unfold value in *. lia. }
  destruct (@shift_up_ok fuel (canon (Z.abs v1)) (canon (Z.abs v2)) 0) as (j & t2' & EU & S2 & V2 & L2); try lia.
  { unfold semi. lia. }
  { rewrite E1, E2. pose proof (two_pow_fuel F) as P. change (2 ^ 100) with 1267650600228229401496703205376 in P.
    unfold value in E1. assert (Z.abs v1 < 1267650600228229401496703205376) by lia. nia. }
  rewrite EU. cbn [Nat.add]. rewrite E1, E2 in *.
  destruct (@shift_down_ok fuel (Z.abs v2) F ltac:(lia) j (canon (Z.abs v1)) t2') as (t2'' & ED & S3 & V3); auto; try lia.
  rewrite ED, E1.
  pose proof (Z.mod_pos_bound (Z.abs v1) (Z.abs v2) ltac:(lia)) as MB.
  replace (negb (sec (canon (Z.abs v1 mod Z.abs v2)) =? 0) || negb (nsec (canon (Z.abs v1 mod Z.abs v2)) =? 0))
    with (negb (Z.abs v1 mod Z.abs v2 =? 0)) by (rewrite <- zero_canon; apply negb_andb).
  set (r := Z.abs v1 mod Z.abs v2) in *.
  assert (RB : 0 <= r <= (P61 + P38 + 1) * B).
  { split; [lia|]. unfold r. assert (Z.abs v1 mod Z.abs v2 <= Z.abs v1) by (apply Z.mod_le; lia). unfold value in E1. lia. }
  pose proof (@canon_range r (P61 + P38 + 1) ltac:(lia)) as RC.
  destruct (canon_spec r) as (Er & Nr1 & Nr2).
  assert (SU : (if xorb (v1 <? 0) (v2 <? 0) && negb (r =? 0) then sub fuel (canon r) t2'' else Some (canon r)) =
               Some (canon (if xorb (v1 <? 0) (v2 <? 0) && negb (r =? 0) then r - Z.abs v2 else r))).
  { destruct (xorb (v1 <? 0) (v2 <? 0) && negb (r =? 0)); [|reflexivity].
    destruct S3 as (S3 & S3'). rewrite sub_ok; [|exact F|unfold wide; lia|unfold wide; lia|].
    - rewrite Er, V3. reflexivity.
    - rewrite Er, V3. unfold value in E2. lia. }
  rewrite SU.
  set (w := if xorb (v1 <? 0) (v2 <? 0) && negb (r =? 0) then r - Z.abs v2 else r).
  assert (WB : - (P61 + P38 + 1) * B <= w <= (P61 + P38 + 1) * B).
  { unfold w. unfold value in E2. destruct (xorb _ _ && _); lia. }
  pose proof (@canon_range w (P61 + P38 + 1) ltac:(lia)) as WC.
  assert (EW : (if v1 <? 0 then negate (canon w) else Some (canon w)) = Some (canon (if v1 <? 0 then - w else w))).
  { destruct (v1 <? 0); [|reflexivity]. destruct (canon_spec w) as (Ew & Nw1 & Nw2).
    rewrite negate_ok by (unfold wide; lia). rewrite canon_neg. reflexivity. }
  rewrite EW. f_equal. f_equal. unfold w, r. clear - NZ2.
  pose proof (Z.div_mod (Z.abs v1) (Z.abs v2) ltac:(lia)) as DM.
  pose proof (Z.mod_pos_bound (Z.abs v1) (Z.abs v2) ltac:(lia)) as MB.
  set (q := Z.abs v1 / Z.abs v2) in *. set (r := Z.abs v1 mod Z.abs v2) in *. clearbody q r.
  destruct (Z.ltb_spec v1 0), (Z.ltb_spec v2 0); cbn [xorb andb].
  - replace (Z.abs v1) with (- v1) in * by lia. replace (Z.abs v2) with (- v2) in * by lia.
    apply Z.mod_unique with (q := q); lia.
  - replace (Z.abs v1) with (- v1) in * by lia. replace (Z.abs v2) with v2 in * by lia.
    destruct (Z.eqb_spec r 0); cbn [negb].
    + apply Z.mod_unique with (q := - q); lia.
    + apply Z.mod_unique with (q := - q - 1); lia.
  - replace (Z.abs v1) with v1 in * by lia. replace (Z.abs v2) with (- v2) in * by lia.
    destruct (Z.eqb_spec r 0); cbn [negb].
    + apply Z.mod_unique with (q := - q); lia.
    + apply Z.mod_unique with (q := - q - 1); lia.
  - replace (Z.abs v1) with v1 in * by lia. replace (Z.abs v2) with v2 in * by lia.
    apply Z.mod_unique with (q := q); lia.
Qed.
