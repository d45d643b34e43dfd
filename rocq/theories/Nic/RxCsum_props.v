(** C30: the receive checksum. *)
From Verif Require Import Base.Prelude Net.Codec_spec Nic.RxCsum_model Nic.RxCsum_spec Nic.RxCsum_proof.
Local Open Scope Z_scope.

(** Exactly one value per frame, LEVELS cycles after its last beat, and it is
    the ones'-complement sum of the words from the start offset on; gaps
    between beats, missing bytes and frame lengths are arbitrary. *)
Theorem C30_checksum_per_frame : forall c is t,
  (2 <= rc_l c <= 16)%nat -> start_ok c -> (t + rc_l c < length is)%nat ->
  let o := nth (t + rc_l c) (snd (trace (rc_step c) (rc_init c) (map (pair false) is))) (false, 0) in
  match nth t is None with
  | Some b =>
      if cb_last b
      then fst o = true /\
           ones_complement (word_total (rc_start c) (frame_bytes (rc_k c) (in_progress (firstn t is) ++ [b]))) (snd o)
      else fst o = false
  | None => fst o = false
  end.
Proof. exact csum_at. Qed.
Print Assumptions C30_checksum_per_frame.

Theorem C30_nothing_before : forall c is t,
  (2 <= rc_l c <= 16)%nat -> start_ok c -> (t < rc_l c)%nat -> (t < length is)%nat ->
  fst (nth t (snd (trace (rc_step c) (rc_init c) (map (pair false) is))) (false, 0)) = false.
Proof. exact csum_early. Qed.
Print Assumptions C30_nothing_before.

(** For a frame whose bytes are [fb], packed from lane 0 of the first beat on,
    and an even start offset: the end-around-carry sum of C35 over the bytes
    after the offset. *)
Theorem C30_checksum_of_bytes : forall c is t b fb n,
  (2 <= rc_l c <= 16)%nat -> start_ok c -> Nat.even (rc_start c) = true ->
  (t + rc_l c < length is)%nat -> nth t is None = Some b -> cb_last b = true ->
  frame_bytes (rc_k c) (in_progress (firstn t is) ++ [b]) = fb ++ repeat 0 n -> octets fb ->
  nth (t + rc_l c) (snd (trace (rc_step c) (rc_init c) (map (pair false) is))) (false, 0) =
  (true, ones_sum (skipn (rc_start c) fb)).
Proof. exact csum_packed. Qed.
Print Assumptions C30_checksum_of_bytes.

(** A 64-bit bus: a 20-byte frame with a gap, then a frame of 5 bytes. *)
Definition c30_cfg := mkRc 3 14.
Definition c30_is : list (option cbeat) :=
  [Some (mkCb 0x0807060504030201 0xff false); None; Some (mkCb 0xfffe0e0d0c0b0a09 0xff false);
   Some (mkCb 0x00000000fe12ff11 0x0f true); Some (mkCb 0x1111111111 0x1f true); None; None; None; None].

Example C30_nonvacuous :
  start_ok c30_cfg /\ nth 3 c30_is None = Some (mkCb 0x00000000fe12ff11 0x0f true) /\
  frame_bytes (rc_k c30_cfg) (in_progress (firstn 3 c30_is) ++ [mkCb 0x00000000fe12ff11 0x0f true]) =
    [1; 2; 3; 4; 5; 6; 7; 8; 9; 10; 11; 12; 13; 14; 254; 255; 17; 255; 18; 254] ++ repeat 0 4 /\
  snd (trace (rc_step c30_cfg) (rc_init c30_cfg) (map (pair false) c30_is)) =
    [(false, 0); (false, 0); (false, 0); (false, 0); (false, 0); (false, 0); (true, 0x23fd); (true, 0); (false, 0)].
Proof.
  split; [|vm_compute; repeat split; reflexivity].
  intros (n & H1 & H2). change (rc_start c30_cfg / rc_k c30_cfg)%nat with 1%nat in H2.
  destruct n as [|n]; [lia|]. cbn in H2. pose proof (Nat.pow_nonzero 2 n). lia.
Qed.

(** Defect: when the start offset is 2, 4, 8, ... beats, the beat counter is one
    bit too narrow for it and the first beats are summed too. *)
Definition c30_wide := mkRc 3 16.
Definition c30_wide_is : list (option cbeat) :=
  [Some (mkCb 0 0xff false); Some (mkCb 0x0100 0xff false); Some (mkCb 0 0xff true); None; None; None].

Theorem C30_start_offset_refuted :
  ~ (forall c is t, (2 <= rc_l c <= 16)%nat -> (t + rc_l c < length is)%nat ->
       match nth t is None with
       | Some b => cb_last b = true ->
           ones_complement (word_total (rc_start c) (frame_bytes (rc_k c) (in_progress (firstn t is) ++ [b])))
             (snd (nth (t + rc_l c) (snd (trace (rc_step c) (rc_init c) (map (pair false) is))) (false, 0)))
       | None => True
       end).
Proof.
  intros H. specialize (H c30_wide c30_wide_is 2%nat ltac:(cbn; lia) ltac:(vm_compute; lia)).
  vm_compute in H. destruct (H eq_refl) as (_ & H1 & _). discriminate.
Qed.
Print Assumptions C30_start_offset_refuted.

(** Defect: reset does not clear the accumulator, so after a reset in the
    middle of a frame the next frame's checksum includes the part already
    summed, however long the reset lasts. *)
Definition c30_rst := mkRc 2 0.
Definition c30_partial : list (option cbeat) := [Some (mkCb 0x01020304 0xf false); None; None; None].
Definition c30_zeros : list (option cbeat) := [Some (mkCb 0 0xf true); None; None; None].

Lemma c30_reset_fixed : forall n,
  let s0 := fst (trace (rc_step c30_rst) (rc_init c30_rst) (map (pair false) c30_partial)) in
  let s1 := fst (rc_step c30_rst s0 (true, None)) in
  fst (trace (rc_step c30_rst) s1 (repeat (true, None) n)) = s1.
Proof.
  intros n. cbv zeta.
  match goal with |- fst (trace _ ?a _) = _ => let x := eval vm_compute in a in change a with x end.
  induction n as [|n IH]; [reflexivity|].
  cbn [repeat trace]. match goal with |- context [rc_step ?c ?a ?i] => let x := eval vm_compute in (rc_step c a i) in change (rc_step c a i) with x end.
  cbv iota beta. destruct (trace _ _ (repeat (true, None) n)) as [s' os]. cbn [fst] in *. exact IH.
Qed.

Theorem C30_reset_refuted : start_ok c30_rst /\
  forall n,
  nth (4 + (n + 1) + 0 + rc_l c30_rst)
    (snd (trace (rc_step c30_rst) (rc_init c30_rst)
       (map (pair false) c30_partial ++ repeat (true, None) (n + 1) ++ map (pair false) c30_zeros))) (false, 0)
  = (true, 0x0604) /\
  ~ ones_complement (word_total 0 (frame_bytes (rc_k c30_rst) [mkCb 0 0xf true])) 0x0604.
Proof.
  split.
  { intros (m & H1 & H2). change (rc_start c30_rst / rc_k c30_rst)%nat with 0%nat in H2.
    pose proof (Nat.pow_nonzero 2 m ltac:(lia)). lia. }
  intros n. split; [|vm_compute; intros (_ & H & _); discriminate].
  pose proof (c30_reset_fixed n) as H. cbv zeta in H.
  rewrite (Nat.add_comm n 1). change (repeat ?x (1 + n)) with (x :: repeat x n). cbn [app].
  rewrite !trace_app.
  match goal with |- context [trace ?f ?a (map (pair false) c30_partial)] =>
    destruct (trace f a (map (pair false) c30_partial)) as [s0 os0] eqn:E0 end.
  assert (L0 : length os0 = 4%nat).
  { change os0 with (snd (s0, os0)). rewrite <- E0. reflexivity. }
  cbn [fst] in H. cbn [app trace] in *.
  destruct (rc_step c30_rst s0 (true, None)) as [s1 o1] eqn:E1. cbn [fst] in H.
  rewrite trace_app.
  destruct (trace (rc_step c30_rst) s1 (repeat (true, None) n)) as [s2 os2] eqn:E2. cbn [fst] in H. subst s2.
  assert (L2 : length os2 = n).
  { change os2 with (snd (s1, os2)). rewrite <- E2. rewrite trace_length. apply repeat_length. }
  assert (ES : s1 = fst (rc_step c30_rst (fst (trace (rc_step c30_rst) (rc_init c30_rst) (map (pair false) c30_partial))) (true, None))).
  { rewrite E0. cbn [fst]. rewrite E1. reflexivity. }
  destruct (trace (rc_step c30_rst) s1 (map (pair false) c30_zeros)) as [s3 os3] eqn:E3.
  assert (E3' : os3 = snd (trace (rc_step c30_rst) s1 (map (pair false) c30_zeros))) by (rewrite E3; reflexivity).
  rewrite ES in E3'. vm_compute in E3'.
  cbn [snd]. change (rc_l c30_rst) with 2%nat.
  rewrite app_nth2 by lia. rewrite L0. replace (4 + (1 + n) + 0 + 2 - 4)%nat with (S (n + 2)) by lia. cbn [nth].
  rewrite app_nth2 by lia. rewrite L2. replace (n + 2 - n)%nat with 2%nat by lia. rewrite E3'. reflexivity.
Qed.
Print Assumptions C30_reset_refuted.
