(** C61: the transmit checksum unit puts the checksum of each frame into the frame. *)
From Verif Require Import Base.Prelude Base.Bits Rtl.Handshake_spec Stream.Axis_model Stream.Fifo_model Net.Codec_spec
  Nic.RxCsum_model Nic.RxCsum_spec Nic.TxCsum_model Nic.TxCsum_spec Nic.TxCsumLive_proof.
Local Open Scope Z_scope.
#[local] Unset Implicit Arguments.

(** A run from power-up, whatever the FIFO memories hold. *)
Definition tx_run (c : tccfg) (m1 m2 m3 m4 : Z -> beat) (is : list tin) : tcst * list tout :=
  trace (tc_step c) (tc_init_st c m1 m2 m3 m4) is.
Definition widths (c : tccfg) : Prop := (2 <= tc_l c <= 16)%nat.
Definition beats (D : list frame) : nat := length (concat (map fr_beats D)).

(** Whatever the timing on both sides: what is sent are the complete frames received, in
    order, each with its checksum in place if that was asked for and otherwise
    unchanged. *)
Theorem C61_in_order c m1 m2 m3 m4 is : widths c -> inputs_ok is ->
  let os := snd (tx_run c m1 m2 m3 m4 is) in
  exists Fs rest, Forall2 (sent_as c) (fst (received is os)) Fs /\ concat Fs = sent is os ++ rest.
Proof. exact (in_order c m1 m2 m3 m4 is). Qed.
Print Assumptions C61_in_order.

(** Every frame received in full is sent in full, once the sink has been ready for long enough. *)
Theorem C61_delivered c m1 m2 m3 m4 is tail : widths c -> inputs_ok (is ++ tail) -> Forall (fun i => ti_mready i = true) tail ->
  let D := fst (received is (snd (tx_run c m1 m2 m3 m4 is))) in
  (5 * beats D + (tc_l c + 20) * S (length D) <= length tail)%nat ->
  exists Fs rest, Forall2 (sent_as c) D Fs /\ sent (is ++ tail) (snd (tx_run c m1 m2 m3 m4 (is ++ tail))) = concat Fs ++ rest.
Proof. exact (delivered_all c m1 m2 m3 m4 is tail). Qed.
Print Assumptions C61_delivered.

(** With the sink ready it always becomes ready again: for a command between frames, for
    the next beat within a frame that has fewer beats than the data FIFO is deep. *)
Theorem C61_becomes_ready c m1 m2 m3 m4 is tail : widths c -> inputs_ok (is ++ tail) -> Forall (fun i => ti_mready i = true) tail ->
  let g := received is (snd (tx_run c m1 m2 m3 m4 is)) in
  (length (match snd g with Some f => fr_beats f | None => [] end) < 2 ^ tc_daw c)%nat ->
  (5 * beats (fst g) + (tc_l c + 20) * S (length (fst g)) < length tail)%nat ->
  existsb (fun o => match snd g with Some _ => to_sready o | None => to_cmdready o end)
          (skipn (length is) (snd (tx_run c m1 m2 m3 m4 (is ++ tail)))) = true.
Proof. exact (becomes_ready c m1 m2 m3 m4 is tail). Qed.
Print Assumptions C61_becomes_ready.

(** A frame in progress never has more than DEPTH + 2 beats: a longer one is never
    received in full (and nothing after it, without a reset). *)
Theorem C61_frame_limit c m1 m2 m3 m4 is f : widths c -> inputs_ok is ->
  snd (received is (snd (tx_run c m1 m2 m3 m4 is))) = Some f -> (length (fr_beats f) <= 2 ^ tc_daw c + 2)%nat.
Proof. exact (frame_limit c m1 m2 m3 m4 is f). Qed.
Print Assumptions C61_frame_limit.

(** Commands are accepted between frames only and beats within frames only. *)
Theorem C61_framing c m1 m2 m3 m4 is i : widths c -> inputs_ok is ->
  let r := tx_run c m1 m2 m3 m4 is in
  let o := snd (tc_step c (fst r) i) in
  match snd (received is (snd r)) with Some _ => to_cmdready o = false | None => to_sready o = false end.
Proof. exact (framing c m1 m2 m3 m4 is i). Qed.
Print Assumptions C61_framing.

(** A beat offered downstream stays as it is until it is taken. *)
Theorem C61_stable c s i b : ti_rst i = false -> ti_mready i = false -> to_m (snd (tc_step c s i)) = Some b ->
  forall i', to_m (snd (tc_step c (fst (tc_step c s i)) i')) = Some b.
Proof. exact (out_stable c s i b). Qed.
Print Assumptions C61_stable.

(** With USE_INIT_VALUE the same holds after a reset at any time ... *)
Theorem C61_after_reset c m1 m2 m3 m4 pre i is : widths c -> tc_init c = true -> ti_rst i = true -> inputs_ok is ->
  let s := fst (tx_run c m1 m2 m3 m4 (pre ++ [i])) in
  let os := snd (trace (tc_step c) s is) in
  exists Fs rest, Forall2 (sent_as c) (fst (received is os)) Fs /\ concat Fs = sent is os ++ rest.
Proof. exact (after_reset c m1 m2 m3 m4 pre i is). Qed.
Print Assumptions C61_after_reset.

(** ... without it, after a reset when all that was received had been sent and no frame
    was in progress. *)
Theorem C61_after_idle_reset c m1 m2 m3 m4 pre i is : widths c -> inputs_ok pre -> ti_rst i = true -> inputs_ok is ->
  let r := tx_run c m1 m2 m3 m4 pre in
  snd (received pre (snd r)) = None -> length (sent pre (snd r)) = beats (fst (received pre (snd r))) ->
  let s := fst (tx_run c m1 m2 m3 m4 (pre ++ [i])) in
  let os := snd (trace (tc_step c) s is) in
  exists Fs rest, Forall2 (sent_as c) (fst (received is os)) Fs /\ concat Fs = sent is os ++ rest.
Proof. exact (clean_reset c m1 m2 m3 m4 pre i is). Qed.
Print Assumptions C61_after_idle_reset.

(* ----- cases ----- *)
Definition ex_c (init : bool) : tccfg := mkTc 2 3 2 init false false true.
Definition ex_m : Z -> beat := fun _ => mkBeat 85 15 true 1 2 3.
Definition bt (d : Z) (l : bool) : beat := mkBeat d 15 l 4 5 6.
Definition idle (r : bool) : tin := mkTin false None None r.
Definition cmd (en : bool) (st off ini : Z) : tin := mkTin false (Some (mkCmd en st off ini)) None true.
Definition dat (d : Z) (l r : bool) : tin := mkTin false None (Some (bt d l)) r.
(* two frames: the checksum from byte 1 on at bytes 3 and 4 (over two beats), and none *)
Definition ex_in : list tin :=
  [idle true; cmd true 1 3 4660; dat 67305985 false true; dat 134678021 false false; dat 9 true true; cmd false 0 0 0; dat 4294967295 true false].
Definition ex_tail : list tin := repeat (idle true) 86.


Ltac inputs := unfold inputs_ok; repeat apply Forall_cons; try apply Forall_nil; (split; [reflexivity|]);
  intros m E; cbn in E; (discriminate E || (injection E as <-; unfold cmd_ok; cbn; lia)).
Ltac sinks := repeat apply Forall_cons; try apply Forall_nil; reflexivity.

(** 0x1234 exchanged + 0x0203 + 0x0405 + 0x0607 + 0x0809 = 0x482a, so 0xb7d5 takes the place of bytes 3 and 4. *)
Example C61_nonvacuous :
  let r := snd (tx_run (ex_c true) ex_m ex_m ex_m ex_m ex_in) in
  widths (ex_c true) /\ inputs_ok (ex_in ++ ex_tail) /\ Forall (fun i => ti_mready i = true) ex_tail /\
  fst (received ex_in r) =
    [mkFr (mkCmd true 1 3 4660) [bt 67305985 false; bt 134678021 false; bt 9 true]; mkFr (mkCmd false 0 0 0) [bt 4294967295 true]] /\
  (5 * beats (fst (received ex_in r)) + 22 * S (length (fst (received ex_in r))) <= length ex_tail)%nat /\
  sent (ex_in ++ ex_tail) (snd (tx_run (ex_c true) ex_m ex_m ex_m ex_m (ex_in ++ ex_tail))) =
    map (fun p => mkBeat (fst p) 15 (snd p) 0 0 6) [(3070427649, false); (134678229, false); (9, true); (4294967295, true)] /\
  checksum (ex_c true) (mkFr (mkCmd true 1 3 4660) [bt 67305985 false; bt 134678021 false; bt 9 true]) = 47061.
Proof.
  cbv zeta. splits.
  - unfold widths; cbn; lia.
  - inputs.
  - sinks.
  - vm_compute. reflexivity.
  - apply Nat.leb_le. vm_compute. reflexivity.
  - vm_compute. reflexivity.
  - vm_compute. reflexivity.
Qed.

(** A frame in progress whose next beat is waited for. *)
Example C61_becomes_ready_nonvacuous :
  let is := firstn 3 ex_in in
  let g := received is (snd (tx_run (ex_c false) ex_m ex_m ex_m ex_m is)) in
  inputs_ok (is ++ repeat (idle true) 23) /\ fst g = [] /\ snd g = Some (mkFr (mkCmd true 1 3 4660) [bt 67305985 false]) /\
  (1 < 2 ^ tc_daw (ex_c false))%nat /\ (5 * beats (fst g) + 22 * S (length (fst g)) < 23)%nat.
Proof.
  cbv zeta. splits.
  - inputs.
  - vm_compute. reflexivity.
  - vm_compute. reflexivity.
  - apply Nat.ltb_lt. vm_compute. reflexivity.
  - apply Nat.ltb_lt. vm_compute. reflexivity.
Qed.

(** The limit of DEPTH + 2 beats is reached: eleven beats offered, ten of them taken. *)
Example C61_frame_limit_nonvacuous :
  let is := cmd true 0 2 0 :: repeat (dat 5 false true) 30 in
  let r := snd (tx_run (ex_c false) ex_m ex_m ex_m ex_m is) in
  inputs_ok is /\ option_map (fun f => length (fr_beats f)) (snd (received is r)) = Some (2 ^ tc_daw (ex_c false) + 2)%nat.
Proof. cbv zeta. splits; [inputs|vm_compute; reflexivity]. Qed.

(** Without USE_INIT_VALUE, as in mqnic_egress.v:120-124, what a frame cut short by a reset left in the
    accumulator counts in the checksum of the next frame. *)
Definition ex_rst : tin := mkTin true None None true.
Definition ex_mid : list tin := [cmd true 0 2 0; dat 67305985 false true; idle true; idle true; idle true; idle true; idle true].
Definition ex_next : list tin := [idle true; cmd true 0 2 0; dat 1 true true] ++ repeat (idle true) 30.
Theorem C61_reset_refuted : ~ forall c m1 m2 m3 m4 pre i is, widths c -> inputs_ok pre -> ti_rst i = true -> inputs_ok is ->
  let s := fst (tx_run c m1 m2 m3 m4 (pre ++ [i])) in
  let os := snd (trace (tc_step c) s is) in
  exists Fs rest, Forall2 (sent_as c) (fst (received is os)) Fs /\ concat Fs = sent is os ++ rest.
Proof.
  intros H. specialize (H (ex_c false) ex_m ex_m ex_m ex_m ex_mid ex_rst ex_next).
  destruct H as (Fs & rest & F & E); [unfold widths; cbn; lia|inputs|reflexivity|inputs|].
  revert F E. set (s := fst (tx_run _ _ _ _ _ _)). set (os := snd (trace _ s _)).
  assert (R : fst (received ex_next os) = [mkFr (mkCmd true 0 2 0) [bt 1 true]]) by (vm_compute; reflexivity).
  assert (S : sent ex_next os = [mkBeat 4193910785 15 true 0 0 6]) by (vm_compute; reflexivity).
  rewrite R, S. intros F E. inversion F as [|f f' D Fs' A F' ED EF]; subst. inversion F'; subst.
  destruct A as (L & A). cbn in E. rewrite app_nil_r in E. subst f'.
  specialize (A 0%nat _ _ eq_refl eq_refl). destruct A as (_ & _ & _ & _ & _ & A). specialize (A 2%nat).
  vm_compute in A. discriminate A.
Qed.
Print Assumptions C61_reset_refuted.
Example C61_after_reset_nonvacuous :
  let s := fst (tx_run (ex_c true) ex_m ex_m ex_m ex_m (ex_mid ++ [ex_rst])) in
  let os := snd (trace (tc_step (ex_c true)) s ex_next) in
  fst (received ex_next os) = [mkFr (mkCmd true 0 2 0) [bt 1 true]] /\ sent ex_next os = [mkBeat 4294836225 15 true 0 0 6].
Proof. cbv zeta. splits; vm_compute; reflexivity. Qed.

(** A checksum that comes out as zero is sent as zero, which in UDP says that there is none (RFC 768); the
    unit does not send 0xffff in its place. *)
Definition ex_zero : list tin := [idle true; cmd true 0 2 0; dat 65535 true true] ++ repeat (idle true) 30.
Theorem C61_zero_checksum_refuted : ~ forall c m1 m2 m3 m4 is f b, widths c -> inputs_ok is ->
  let os := snd (tx_run c m1 m2 m3 m4 is) in
  fst (received is os) = [f] -> sent is os = [b] -> cm_en (fr_cmd f) = true ->
  let j := Z.to_nat (cm_off (fr_cmd f)) in ~ (byte (tdata b) j = 0 /\ byte (tdata b) (j + 1) = 0).
Proof.
  intros H. apply (H (ex_c false) ex_m ex_m ex_m ex_m ex_zero (mkFr (mkCmd true 0 2 0) [bt 65535 true]) (mkBeat 65535 15 true 0 0 6)).
  - unfold widths; cbn; lia.
  - inputs.
  - vm_compute. reflexivity.
  - vm_compute. reflexivity.
  - reflexivity.
  - split; vm_compute; reflexivity.
Qed.
Print Assumptions C61_zero_checksum_refuted.
