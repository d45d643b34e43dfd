(** C67: block synchronisation. *)
From Coq Require Import List Arith Bool Lia.
From Verif Require Import Eth.FrameSync_model Eth.FrameSync_spec Eth.FrameSync_proof.
Import ListNotations.

(** Lock is reported only when the last 64 clocks brought valid headers, with no slip asked for in any of them. *)
Theorem C67_lock : forall hi lo h i, locks_at hi lo h i ->
  exists h0 w, h ++ [i] = h0 ++ w /\ length w = 64 /\ Forall (fun i => good i = true) w /\
    forall k, k < 64 -> slipping hi lo (h0 ++ firstn k w) = false.
Proof. exact lock_sound. Qed.
Print Assumptions C67_lock.

(** Without a reset, lock is given up only with 16 invalid headers among the last 64 or fewer, and then a slip is asked for. *)
Theorem C67_lost_only : forall hi lo h i, locked hi lo h = true -> locked hi lo (h ++ [i]) = false -> i_rst i = false ->
  (exists c, c <= 64 /\ exists h0 w, h ++ [i] = h0 ++ w /\ length w = c /\ quiet w /\ bads w = 16) /\ slips_at hi lo h i.
Proof. exact lost_only. Qed.
Print Assumptions C67_lost_only.

(** Counted in windows of 64 headers from the moment of lock, lock stays for as long as each has at most 15 invalid ones, *)
Theorem C67_kept : forall hi lo h i ws k, locks_at hi lo h i ->
  Forall (fun w => length w = 64 /\ quiet w /\ bads w <= 15) ws ->
  locked hi lo (h ++ [i] ++ firstn k (concat ws)) = true.
Proof. exact kept. Qed.
Print Assumptions C67_kept.

(** and is lost within the first window that has 16. *)
Theorem C67_lost : forall hi lo h i ws w, locks_at hi lo h i ->
  Forall (fun w => length w = 64 /\ quiet w /\ bads w <= 15) ws -> quiet w -> length w <= 64 -> bads w >= 16 ->
  exists k, k <= length w /\ locked hi lo (h ++ [i] ++ concat ws ++ firstn k w) = false.
Proof. exact lost. Qed.
Print Assumptions C67_lost.

(** Whatever was before, lock does not survive 31 invalid headers in a row. *)
Theorem C67_lost_31 : forall hi lo h w, length w = 31 -> Forall (fun i => bad i = true) w ->
  exists k, k <= 31 /\ locked hi lo (h ++ firstn k w) = false.
Proof. exact lost_31. Qed.
Print Assumptions C67_lost_31.

(** A slip is asked for only after an invalid header and out of lock, by a pulse exactly as long as
    set (at least one clock), followed by a pause at least as long as set. *)
Theorem C67_pulse : forall hi lo h i w, slips_at hi lo h i -> quiet w -> length w < Nat.max 1 hi + Nat.max 1 lo ->
  bad i = true /\ locked hi lo (h ++ [i] ++ w) = false /\ slipping hi lo (h ++ [i] ++ w) = (length w <? Nat.max 1 hi).
Proof. exact slip_shape. Qed.
Print Assumptions C67_pulse.

(** The first header after the pause is looked at: if it is invalid, the next slip is asked for. *)
Theorem C67_slip_again : forall hi lo h i w j, slips_at hi lo h i -> quiet w -> length w + 1 = Nat.max 1 hi + Nat.max 1 lo -> bad j = true ->
  slips_at hi lo (h ++ [i] ++ w) j.
Proof. exact slip_again. Qed.
Print Assumptions C67_slip_again.

(** With a transceiver that settles in the pause, lock is reached within a bounded time, in the
    right position, and kept. *)
Theorem C67_acquire : forall hi lo p d out a t g, p < 66 -> d + 1 <= Nat.max 1 hi + Nat.max 1 lo -> transceiver out p d -> d <= g ->
  exists n, n <= 65 * (63 + Nat.max 1 hi + Nat.max 1 lo) + 64 /\
    forall m, n <= m -> f_lock (fst (loop hi lo out m fs_init a t g)) = true /\ (snd (loop hi lo out m fs_init a t g)) mod 66 = p.
Proof. exact acquire. Qed.
Print Assumptions C67_acquire.

(** A slip pulse, 64 valid headers, then windows with 15 and 16 invalid ones. *)
Definition hd (r a b : bool) : fs_in := {| i_rst := r; i_hdr := (a, b) |}.
Definition ok := hd false true false.
Definition ko := hd false true true.
Definition before : list fs_in := [hd true false false; ko] ++ repeat ko 9 ++ repeat ok 71.

Example C67_lock_nonvacuous : locks_at 1 8 before (hd false false true).
Proof. split; vm_compute; reflexivity. Qed.

Definition w15 : list fs_in := repeat ko 15 ++ repeat ok 49.
Example C67_kept_nonvacuous :
  Forall (fun w => length w = 64 /\ quiet w /\ bads w <= 15) [w15; rev w15] /\
  locked 1 8 (before ++ [ok] ++ concat [w15; rev w15]) = true.
Proof.
  split; [|vm_compute; reflexivity].
  repeat constructor.
Qed.

Example C67_lost_only_nonvacuous :
  let h := before ++ [ok] ++ w15 ++ repeat ok 30 ++ repeat ko 15 in
  locked 1 8 h = true /\ locked 1 8 (h ++ [ko]) = false /\ i_rst ko = false.
Proof. vm_compute. auto. Qed.

Example C67_lost_nonvacuous : let w := repeat ok 40 ++ repeat ko 16 in
  quiet w /\ length w <= 64 /\ bads w >= 16 /\ locked 1 8 (before ++ [ok] ++ concat [w15] ++ w) = false.
Proof. cbv zeta. repeat split; try (vm_compute; reflexivity); try (cbn; lia). repeat constructor. Qed.

(** 30 invalid headers in a row can be survived. *)
Example C67_lost_31_nonvacuous :
  let h := before ++ [ok] ++ repeat ok 49 in
  locked 1 8 (h ++ repeat ko 30) = true /\ locked 1 8 (h ++ repeat ko 31) = false /\ bad ko = true.
Proof. vm_compute. auto. Qed.

Example C67_pulse_nonvacuous : slips_at 2 3 [ok; ok] ko /\ quiet [ko; ok; ok; ko] /\
  map (fun k => slipping 2 3 ([ok; ok] ++ [ko] ++ firstn k [ko; ok; ok; ko])) (seq 0 5) = [true; true; false; false; false].
Proof. split; [split; reflexivity|]. split; [repeat constructor|reflexivity]. Qed.

Example C67_slip_again_nonvacuous : slips_at 2 3 ([ok; ok] ++ [ko] ++ [ko; ok; ok; ko]) ko.
Proof. split; reflexivity. Qed.

(** A transceiver that shows an invalid header every third clock in 65 positions, and anything while it settles. *)
Definition toy (a t g : nat) : bool * bool :=
  if g <? 8 then (true, true) else if a mod 66 =? 7 then (true, false) else (true, t mod 3 =? 0).

Example C67_acquire_nonvacuous : transceiver toy 7 8 /\ 8 + 1 <= Nat.max 1 1 + Nat.max 1 8 /\
  f_lock (fst (loop 1 8 toy 200 fs_init 70 0 8)) = true /\ f_lock (fst (loop 1 8 toy 90 fs_init 70 0 8)) = false.
Proof.
  split; [split|split; [cbn; lia|split; vm_compute; reflexivity]].
  - intros a t g G A. unfold toy. destruct (g <? 8) eqn:E; [apply Nat.ltb_lt in E; lia|].
    rewrite A. reflexivity.
  - intros a t g G A. unfold toy.
    assert (E : forall k, (g + k <? 8) = false) by (intro; apply Nat.ltb_ge; lia).
    apply Nat.eqb_neq in A.
    exists ((3 - t mod 3) mod 3). pose proof (Nat.mod_upper_bound (3 - t mod 3) 3).
    split; [lia|]. rewrite E, A.
    assert (Z : (t + (3 - t mod 3) mod 3) mod 3 = 0).
    { rewrite Nat.add_mod_idemp_r, <- Nat.add_mod_idemp_l by lia. pose proof (Nat.mod_upper_bound t 3).
      replace (t mod 3 + (3 - t mod 3)) with 3 by lia. reflexivity. }
    rewrite Z. reflexivity.
Qed.
