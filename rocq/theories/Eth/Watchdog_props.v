(** C69: the receive watchdog. *)
From Coq Require Import List Arith Bool Lia.
From Verif Require Import Eth.FrameSync_model Eth.BerMon_model Eth.BerMon_proof Eth.Watchdog_model Eth.Watchdog_spec Eth.Watchdog_proof.
Import ListNotations.

(** The transceiver reset is asked for only for one clock after the end of a window, and only if the 15 windows before that one were poor. *)
Theorem C69_reset_only : forall n h ws p, (forall k, n <> 2 ^ k) -> from_reset h -> windows n ws -> calm p -> length p <= n ->
  reset_req n (h ++ concat ws ++ p) = true ->
  p = [] /\ exists a b w, ws = a ++ b ++ [w] /\ length b = 15 /\ Forall poor b.
Proof. intros n h ws p P H F. unfold windows in F. rewrite <- (load_small n P) in F. rewrite <- (load_small n P) at 1. now apply req_only. Qed.
Print Assumptions C69_reset_only.

(** With 16 poor windows in a row it is asked for at the end of one of them. *)
Theorem C69_reset_if : forall n b h ws, (forall k, n <> 2 ^ k) -> from_reset h -> windows n (ws ++ b) -> length b = 16 -> Forall poor b ->
  exists k, 1 <= k <= 16 /\ reset_req n (h ++ concat (ws ++ firstn k b)) = true.
Proof. intros n b h ws P H F. unfold windows in F. rewrite <- (load_small n P) in F. now apply req_if. Qed.
Print Assumptions C69_reset_if.

(** The link is reported up only at the end of a window, after 15 windows that were not poor, and with lock all through this one up to its last clock. *)
Theorem C69_up : forall n h ws p i, (forall k, n <> 2 ^ k) -> from_reset h -> windows n ws -> calm (p ++ [i]) -> length p <= n ->
  link_up n (h ++ concat ws ++ p) = false -> link_up n (h ++ concat ws ++ p ++ [i]) = true ->
  length p = n /\ (forall j, In j p -> v_lock j = true) /\ exists a b, ws = a ++ b /\ length b = 15 /\ Forall (fun w => ~ poor w) b.
Proof.
  intros n h ws p i P H F Q L U0 U1. unfold windows in F. rewrite <- (load_small n P) in F, L.
  destruct (up_only n h ws p i H F Q L U0 U1) as (A & B). rewrite (load_small n P) in A. auto.
Qed.
Print Assumptions C69_up.

(** It is reported down again only by a reset or a clock without lock, whatever happened before, *)
Theorem C69_down_only : forall n h i, link_up n h = true -> link_up n (h ++ [i]) = false -> v_rst i = true \/ v_lock i = false.
Proof. exact down_only. Qed.
Print Assumptions C69_down_only.

(** and is by every clock without lock that is not the last of a window. *)
Theorem C69_down : forall n h ws p i, (forall k, n <> 2 ^ k) -> from_reset h -> windows n ws -> calm (p ++ [i]) -> length p < n ->
  v_lock i = false -> link_up n (h ++ concat ws ++ p ++ [i]) = false.
Proof. intros n h ws p i P H F Q L. unfold windows in F. rewrite <- (load_small n P) in F, L. now apply down_if. Qed.
Print Assumptions C69_down.

Definition tick (r ctrl err lock : bool) : wd_in := {| v_rst := r; v_hdr := (negb ctrl, ctrl); v_badblk := err; v_seqerr := false; v_lock := lock |}.
Definition wgood := [tick false true false true; tick false false false true; tick false false true true; tick false false false true].
Definition wnone := [tick false false false true; tick false false false true; tick false false false true; tick false true false true].
Definition wlast := [tick false true false true; tick false false false true; tick false false true true; tick false false false false].
Definition start := [tick false true true true; tick true false false false].

Lemma not_pow3 : forall k, 3 <> 2 ^ k.
Proof.
  intros k E. destruct (le_lt_dec 2 k) as [H|H].
  - pose proof (Nat.pow_le_mono_r 2 2 k) as G. cbn in G. lia.
  - do 2 (destruct k as [|k]; [discriminate E|]). lia.
Qed.
Lemma start_reset : from_reset start.
Proof. exists [tick false true true true], (tick true false false false). auto. Qed.
Lemma none_poor : poor wnone.
Proof. left. intros i [<-|[<-|[<-|[]]]]; reflexivity. Qed.
Lemma good_fine : ~ poor wgood.
Proof. intros [H|H]; [pose proof (H (tick false true false true) (or_introl eq_refl)) as X; discriminate X|cbn in H; lia]. Qed.

(** The window that ends with the request need not be poor itself: 15 poor windows and a good one reset the transceiver. *)
Theorem C69_sixteenth_refuted : exists n h ws w, (forall k, n <> 2 ^ k) /\ from_reset h /\ windows n (ws ++ [w]) /\ ~ poor w /\
  reset_req n (h ++ concat (ws ++ [w])) = true.
Proof.
  exists 3, start, (repeat wnone 15), wgood. split; [exact not_pow3|]. split; [exact start_reset|].
  split; [repeat constructor|]. split; [exact good_fine|vm_compute; reflexivity].
Qed.
Print Assumptions C69_sixteenth_refuted.

(** The link can be reported up in a clock without lock, if it is the last of a window. *)
Theorem C69_no_lock_refuted : exists n h ws p i, (forall k, n <> 2 ^ k) /\ from_reset h /\ windows n ws /\ calm (p ++ [i]) /\ length p = n /\
  v_lock i = false /\ link_up n (h ++ concat ws ++ p) = false /\ link_up n (h ++ concat ws ++ p ++ [i]) = true.
Proof.
  exists 3, start, (repeat wgood 15), (removelast wlast), (tick false false false false).
  split; [exact not_pow3|]. split; [exact start_reset|]. split; [repeat constructor|]. split; [repeat constructor|].
  repeat split; vm_compute; reflexivity.
Qed.
Print Assumptions C69_no_lock_refuted.

Definition singles (l : list wd_in) : list (list wd_in) := map (fun i => [i]) l.
Lemma concat_singles : forall l, concat (singles l) = l.
Proof. induction l as [|i l IH]; [reflexivity|]. cbn. now rewrite <- IH at 2. Qed.

(** If the set time is a power of two, the register for it is one bit short, and the transceiver is reset
    within any 16 clocks, however good the link is. *)
Theorem C69_power_of_two_refuted : forall k h l b, from_reset h -> calm (l ++ b) -> length b = 16 ->
  exists j, 1 <= j <= 16 /\ reset_req (2 ^ k) (h ++ l ++ firstn j b) = true.
Proof.
  intros k h l b H Q L.
  destruct (req_if (2 ^ k) (singles b) h (singles l) H) as (j & J1 & J2).
  - unfold singles. rewrite <- map_app. apply Forall_map. rewrite load_pow2.
    eapply Forall_impl; [|exact Q]. intros i R. split; [constructor; auto|reflexivity].
  - unfold singles. now rewrite map_length.
  - unfold singles. apply Forall_map, Forall_forall. intros i _. left. intros ? [].
  - exists j. split; [exact J1|]. unfold singles in J2. rewrite firstn_map, concat_app in J2.
    change (reset_req (2 ^ k) (h ++ concat (singles l) ++ concat (singles (firstn j b))) = true) in J2. now rewrite !concat_singles in J2.
Qed.
Print Assumptions C69_power_of_two_refuted.

Example C69_reset_nonvacuous : from_reset start /\ windows 3 (wgood :: repeat wnone 16) /\ Forall poor (repeat wnone 16) /\
  reset_req 3 (start ++ concat (wgood :: repeat wnone 16)) = true /\ reset_req 3 (start ++ concat (wgood :: repeat wnone 15)) = false.
Proof.
  split; [exact start_reset|]. split; [repeat constructor|]. split; [|split; vm_compute; reflexivity].
  apply Forall_forall. intros w I. apply repeat_spec in I. subst. exact none_poor.
Qed.

Example C69_up_nonvacuous : windows 3 (wnone :: repeat wgood 15) /\
  link_up 3 (start ++ concat (wnone :: repeat wgood 15) ++ removelast wgood) = false /\
  link_up 3 (start ++ concat (wnone :: repeat wgood 15) ++ removelast wgood ++ [last wgood (tick true true true true)]) = true.
Proof. split; [repeat constructor|]. split; vm_compute; reflexivity. Qed.

Example C69_down_nonvacuous : let h := start ++ concat (repeat wgood 16) in
  link_up 3 h = true /\ link_up 3 (h ++ [tick false false false false]) = false /\ link_up 3 (h ++ concat (repeat wnone 20)) = true.
Proof. vm_compute. auto. Qed.
