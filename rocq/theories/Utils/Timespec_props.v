(** C47, C60: time arithmetic of the utilities. *)
From Verif Require Import Base.Prelude Utils.Timespec_model Utils.Timespec_spec Utils.Timespec_proof.
From Verif Require Import Utils.Timespec_more_proof.
Local Open Scope Z_scope.

(** Each operation ends, without overflow, with the normalised time of the
    integer result; operands need not be normalised. *)
Theorem C47_normalise : forall t, fits t ->
  norm (canon (value t)) /\ value (canon (value t)) = value t /\ gives (fun n => normalise n t) (canon (value t)).
Proof. exact normalise_gives. Qed.
Print Assumptions C47_normalise.

Theorem C47_add : forall t1 t2, fits t1 -> fits t2 -> gives (fun n => add n t1 t2) (canon (value t1 + value t2)).
Proof. exact add_gives. Qed.
Print Assumptions C47_add.

Theorem C47_sub : forall t1 t2, fits t1 -> fits t2 -> gives (fun n => sub n t1 t2) (canon (value t1 - value t2)).
Proof. exact sub_gives. Qed.
Print Assumptions C47_sub.

(** The remainder has the sign of the divisor; dividing by zero gives the
    first operand. *)
Theorem C47_mod : forall t1 t2, fits t1 -> fits t2 ->
  gives (fun n => ts_mod n t1 t2)
    (canon (if value t2 =? 0 then value t1 else value t1 - value t2 * (value t1 / value t2))).
Proof. exact mod_gives. Qed.
Print Assumptions C47_mod.

(** The normal form is unique, so equality of normalised times is equality of
    the fields, and the comparisons are those of the integers. *)
Theorem C47_compare : forall t1 t2, norm t1 -> norm t2 ->
  ts_eq t1 t2 = (value t1 =? value t2) /\ ts_lt t1 t2 = (value t1 <? value t2) /\
  ts_le t1 t2 = (value t1 <=? value t2) /\ ts_gt t1 t2 = (value t2 <? value t1) /\
  ts_ge t1 t2 = (value t2 <=? value t1) /\ (value t1 = value t2 -> t1 = t2).
Proof. exact compare_ok. Qed.
Print Assumptions C47_compare.

(** Milliseconds: the conversion to a time is exact, the one back cuts towards
    zero, and the round trip is the identity. *)
Theorem C47_milliseconds : forall ms, - 2 ^ 63 <= ms < 2 ^ 63 ->
  gives (fun n => from_ms n ms) (canon (ms * 1000000)) /\ to_ms (canon (ms * 1000000)) = Some ms.
Proof. exact ms_ok. Qed.
Print Assumptions C47_milliseconds.

Theorem C47_to_milliseconds : forall t, norm t -> - 2 ^ 52 <= sec t <= 2 ^ 52 ->
  to_ms t = Some (Z.quot (value t) 1000000).
Proof. exact to_ms_ok. Qed.
Print Assumptions C47_to_milliseconds.

Theorem C47_timeval : forall s us, - 2 ^ 61 <= s <= 2 ^ 61 -> - 2 ^ 53 <= us <= 2 ^ 53 ->
  gives (fun n => from_timeval n s us) (canon (s * 1000000000 + us * 1000)) /\
  gives (fun n => to_timeval n (canon (s * 1000000000 + us * 1000)))
        (Z.quot (s * 1000000 + us) 1000000, Z.rem (s * 1000000 + us) 1000000).
Proof. exact timeval_ok. Qed.
Print Assumptions C47_timeval.

Example C47_nonvacuous :
  fits (mkTs (-3) 3500000000) /\ fits (mkTs 0 (-700000000)) /\ norm (canon (-1700000000)) /\
  value (mkTs (-3) 3500000000) = 500000000 /\
  canon (value (mkTs (-3) 3500000000) - value (mkTs 0 (-700000000))) = mkTs 1 200000000 /\
  ts_mod 100 (mkTs 7 250000000) (mkTs 0 (-700000000)) = Some (mkTs 0 (-450000000)).
Proof. unfold fits, norm. cbn. repeat split; try lia; try (vm_compute; reflexivity). Qed.

(** Outside the bound the remainder is wrong: doubling stops early. *)
Theorem C47_huge_mod_refuted : exists t1 t2,
  ts_mod 100 t1 t2 = Some (mkTs (2 ^ 62) 0) /\ value t1 mod value t2 = value (mkTs 1 0) /\ norm t1 /\ norm t2.
Proof.
  exists (mkTs (2 ^ 63 - 1) 0), (mkTs (2 ^ 62 - 1) 0). unfold norm. cbn [sec nsec].
  repeat split; try (vm_compute; reflexivity); try lia.
Qed.
Print Assumptions C47_huge_mod_refuted.

(** Comparison without normalising first is not comparison of times. *)
Theorem C47_compare_unnormalised_refuted : exists t1 t2, ts_ge t1 t2 = true /\ value t1 < value t2.
Proof. exists (mkTs 1 0), (mkTs 0 2000000000). split; reflexivity. Qed.
Print Assumptions C47_compare_unnormalised_refuted.

(** C60: the start time requested by perout keeps the phase asked for and is
    less than one period away from the current time if the start asked for is
    past; a start in the future is used as it is. *)
Theorem C60_perout_start : forall now start period,
  norm now -> 0 <= sec now <= 2 ^ 61 -> 0 <= nsec now -> - 2 ^ 63 <= start < 2 ^ 63 -> 0 < period < 2 ^ 63 ->
  exists r, norm r /\ gives (fun n => perout_start n now start period) (r, canon period) /\
    (value r - start) mod period = 0 /\
    if start <? value now then value now - period < value r < value now + period else value r = start.
Proof. exact perout_ok. Qed.
Print Assumptions C60_perout_start.

Example C60_nonvacuous :
  perout_start 100 (mkTs 1700000000 300000000) 250000000 1000000000 = Some (mkTs 1700000000 250000000, mkTs 1 0).
Proof. vm_compute. reflexivity. Qed.

(** Defect: the start computed to replace one in the past may itself be past. *)
Theorem C60_start_in_future_refuted : exists now start period r p,
  norm now /\ perout_start 100 now start period = Some (r, p) /\ value r < value now.
Proof.
  exists (mkTs 1700000000 300000000), 250000000, 1000000000, (mkTs 1700000000 250000000), (mkTs 1 0).
  unfold norm. cbn [sec nsec]. repeat split; try lia; vm_compute; reflexivity.
Qed.
Print Assumptions C60_start_in_future_refuted.
