(** C68: the bit error rate monitor. *)
From Coq Require Import List Arith Bool Lia.
From Verif Require Import Eth.FrameSync_model Eth.FrameSync_spec Eth.BerMon_model Eth.BerMon_spec Eth.BerMon_proof.
Import ListNotations.

(** Cut into windows of one clock more than set, the headers since power-up or reset decide the alarm:
    it is raised as soon as a window has 16 invalid ones, and the verdict of a window holds on after it. *)
Theorem C68_alarm : forall n h ws p, (forall k, n <> 2 ^ k) -> anew h ->
  Forall (fun w => quiet w /\ length w = S n) ws -> quiet p -> length p <= n ->
  alarm n (h ++ concat ws ++ p) = fold_left verdict ws false || (16 <=? bads p).
Proof. intros n h ws p P A F Q L. rewrite <- (load_small n P) in F, L. now apply alarm_is. Qed.
Print Assumptions C68_alarm.

(** Whatever happened before, the alarm is raised only with 16 invalid headers in one window. *)
Theorem C68_raised : forall n h i, alarm n h = false -> alarm n (h ++ [i]) = true ->
  exists h0 w, h ++ [i] = h0 ++ w /\ quiet w /\ length w <= S n /\ bads w >= 16.
Proof.
  intros n h i A0 A1. destruct (raised n h i A0 A1) as (h0 & w & E & Q & L & B). exists h0, w. repeat split; auto.
  assert (bm_load n <= n) by (apply Nat.mod_le, Nat.pow_nonzero; lia). lia.
Qed.
Print Assumptions C68_raised.

(** A window with 15 invalid headers, fewer than the limit, need not clear the alarm. *)
Theorem C68_fifteen_refuted : forall n h ws w, (forall k, n <> 2 ^ k) -> anew h ->
  Forall (fun w => quiet w /\ length w = S n) (ws ++ [w]) -> bads w = 15 -> bad (last w {| i_rst := true; i_hdr := (false, false) |}) = false ->
  alarm n (h ++ concat (ws ++ [w])) = alarm n (h ++ concat ws).
Proof.
  intros n h ws w P A F B X. pose proof F as F'. apply Forall_app in F'. destruct F' as [F1 F2].
  pose proof (C68_alarm n h (ws ++ [w]) [] P A F (Forall_nil _) (Nat.le_0_l _)) as E.
  pose proof (C68_alarm n h ws [] P A F1 (Forall_nil _) (Nat.le_0_l _)) as E1. rewrite !app_nil_r in *. rewrite E, E1. cbn [bads filter length].
  rewrite fold_left_app. cbn [fold_left]. unfold verdict at 1. rewrite B. cbn [Nat.leb].
  inversion F2 as [|? ? [_ L] _]; subst. destruct (exists_last (l := w)) as (p & x & ->); [intro; subst; discriminate|].
  rewrite removelast_last. rewrite last_last in X.
  unfold bads in B. rewrite filter_app, app_length in B. cbn in B. rewrite X in B. cbn in B.
  unfold bads. rewrite Nat.add_0_r in B. rewrite B. reflexivity.
Qed.
Print Assumptions C68_fifteen_refuted.

(** If the set time is a power of two, the register for it is one bit short and the alarm is never raised. *)
Theorem C68_power_of_two_refuted : forall k h, alarm (2 ^ k) h = false.
Proof. intros. unfold alarm. now rewrite deaf. Qed.
Print Assumptions C68_power_of_two_refuted.

Definition y (b : bool) : fs_in := {| i_rst := false; i_hdr := (true, b) |}.
Definition many : list fs_in := repeat (y true) 16 ++ repeat (y false) 8.
Definition few : list fs_in := repeat (y true) 14 ++ repeat (y false) 10.
Definition edge : list fs_in := repeat (y true) 15 ++ repeat (y false) 9.
Definition again : list fs_in := [y true; y true; {| i_rst := true; i_hdr := (false, false) |}].

Lemma not_pow : forall k, 23 <> 2 ^ k.
Proof.
  intros k E. destruct (le_lt_dec 5 k) as [H|H].
  - pose proof (Nat.pow_le_mono_r 2 5 k) as G. cbn in G. lia.
  - do 5 (destruct k as [|k]; [discriminate E|]). lia.
Qed.

Example C68_alarm_nonvacuous : anew again /\
  Forall (fun w => quiet w /\ length w = 24) [many; edge; few; edge] /\
  map (fun k => alarm 23 (again ++ concat (firstn k [many; edge; few; edge]))) (seq 0 5) = [false; true; true; false; false].
Proof.
  split; [right; exists [y true; y true], {| i_rst := true; i_hdr := (false, false) |}; auto|].
  split; [|vm_compute; reflexivity]. repeat constructor.
Qed.

Example C68_raised_nonvacuous : alarm 23 (repeat (y true) 15) = false /\ alarm 23 (repeat (y true) 15 ++ [y true]) = true.
Proof. vm_compute. auto. Qed.

Example C68_fifteen_nonvacuous : bads edge = 15 /\ length edge = 24 /\ alarm 23 (many ++ edge) = true.
Proof. vm_compute. auto. Qed.
