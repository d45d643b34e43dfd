(** C33: the 64b/66b coder and decoder. *)
From Verif Require Import Base.Prelude Base.Bits Eth.Baser_model Eth.Baser_spec Eth.Baser_stream_proof Eth.Baser_block_proof.
Local Open Scope Z_scope.

(** Any word of a legal format other than "ordered set, then start" comes out two cycles later as it went in,
    with no bad block flagged, from any state and whatever goes before or after. *)
Theorem C33_round_trip : forall s is n w o,
  nth_error (map snd is) n = Some w -> nth_error (outs s is) (S (S n)) = Some o ->
  wf w -> legal w -> ~ has_format w os_start -> received o = w /\ d_bad (fst o) = false.
Proof. exact round_trip. Qed.
Print Assumptions C33_round_trip.

(** What the coder puts on the line for a word of a legal format, one cycle later: for data the word itself under
    header 2, otherwise a block of the type of that format under header 1, with the standard's codes in their places. *)
Theorem C33_block_format : forall s ws n w o f, nth_error ws n = Some w -> nth_error (snd (trace e_step s ws)) (S n) = Some o ->
  wf w -> In f formats -> has_format w f ->
  let '(x, h, bad) := o in
  bad = false /\ (if forallb (fun k => match k with kD => true | _ => false end) f then h = 2 /\ x = fst w else h = 1 /\ control_block w f x).
Proof. exact block_format. Qed.
Print Assumptions C33_block_format.

(** tx_bad_block says which words are not of a legal format. *)
Theorem C33_bad_iff_illegal : forall s is n w o,
  nth_error (map snd is) n = Some w -> nth_error (outs s is) (S n) = Some o ->
  wf w -> (snd o = true <-> ~ legal w).
Proof. exact bad_iff. Qed.
Print Assumptions C33_bad_iff_illegal.

(** A word of no legal format comes out with an error character. *)
Theorem C33_illegal_shows_error : forall s is n w o,
  nth_error (map snd is) n = Some w -> nth_error (outs s is) (S (S n)) = Some o ->
  wf w -> ~ legal w -> has_error (received o) = true.
Proof. exact illegal_error. Qed.
Print Assumptions C33_illegal_shows_error.

(** Whatever block comes (noise on the line), one flagged as bad comes out with an error character. *)
Theorem C33_bad_block_shows_error : forall fr x h,
  d_bad (decode fr x h) = true -> has_error (d_rxd (decode fr x h), d_rxc (decode fr x h)) = true.
Proof. exact decode_bad. Qed.
Print Assumptions C33_bad_block_shows_error.

(** While all words are legal, a sequence error is flagged exactly for a start inside a frame and an end outside
    one. *)
Theorem C33_sequence : forall is n w o,
  (forall m w, (m <= n)%nat -> nth_error (map snd is) m = Some w -> wf w /\ legal w) ->
  nth_error (map snd is) n = Some w -> nth_error (outs link_init is) (S (S n)) = Some o ->
  d_seq (fst o) = misplaced (frame_before false (taken is) n) w.
Proof. exact seq_from_init. Qed.
Print Assumptions C33_sequence.

(** An ordered set in lane 0 followed by a start in lane 4 is legal and not flagged, but never comes out as it
    went in: lanes 1 to 3 come out marked as control characters. *)
Theorem C33_os_start_refuted : forall s is n w o,
  nth_error (map snd is) n = Some w -> nth_error (outs s is) (S (S n)) = Some o ->
  wf w -> has_format w os_start ->
  legal w /\ d_bad (fst o) = false /\ received o = (fst w, 0x1f) /\ received o <> w.
Proof. exact os_start_lost. Qed.
Print Assumptions C33_os_start_refuted.

(* ----- the hypotheses are met ----- *)
Definition hwords : list (Z * Z) :=
  [ (0x0707070707070707, 0xff);   (* idle *)
    (0xd5555555555555fb, 0x01);   (* start in lane 0 *)
    (0x8877665544332211, 0x00);   (* data *)
    (0x07071c06fdaabbcc, 0xf8);   (* end in lane 3, reserved, low power idle *)
    (0x555555fb07fe0707, 0x1f);   (* an error character, start in lane 4 *)
    (0x0707070707fd0707, 0xff);   (* an end after control characters: illegal *)
    (0x020100fb0201009c, 0x11);   (* ordered set, start in lane 4 *)
    (0x07070707070707fd, 0xff);   (* end in lane 0 *)
    (0x07070707070707fd, 0xff) ]. (* again *)
Definition hrun := map (fun w => (false, w)) (hwords ++ [(0, 0); (0, 0)]).

Ltac wf_tac := repeat split; vm_compute; congruence.
Example C33_legal_nonvacuous :
  Forall wf hwords /\
  has_format (0x07071c06fdaabbcc, 0xf8) [kD; kD; kD; kT; kC; kC; kC; kC] /\
  ~ has_format (0x07071c06fdaabbcc, 0xf8) os_start /\
  has_format (0x020100fb0201009c, 0x11) os_start /\
  ~ legal (0x0707070707fd0707, 0xff).
Proof.
  split; [repeat (constructor; [wf_tac|]); constructor|].
  split; [|split; [|split]].
  - intros i k E. do 8 (destruct i as [|i]; [inversion E; subst; vm_compute; tauto|]). destruct i; discriminate E.
  - intros H. specialize (H 0%nat _ eq_refl). destruct H as [H _]. discriminate H.
  - intros i k E. do 8 (destruct i as [|i]; [inversion E; subst; vm_compute; tauto|]). destruct i; discriminate E.
  - intros (f & If & H). pose proof (H 2%nat) as H2. pose proof (H 0%nat) as H0. pose proof (H 1%nat) as H1. clear H.
    unfold formats, os_start in If. cbn [In] in If.
    assert (forall k, holds_kind (0x0707070707fd0707, 0xff) 2 k -> k = kT) as A2.
    { intros k Hk. destruct k; vm_compute in Hk; try reflexivity; exfalso; intuition discriminate. }
    assert (forall k, holds_kind (0x0707070707fd0707, 0xff) 0 k -> k = kC) as A0.
    { intros k Hk. destruct k; vm_compute in Hk; try reflexivity; exfalso; intuition discriminate. }
    do 16 (destruct If as [<-|If]; [first [specialize (A2 _ (H2 _ eq_refl)); discriminate A2|specialize (A0 _ (H0 _ eq_refl)); discriminate A0]|]).
    destruct If.
Qed.
Example C33_run_nonvacuous :
  map received (skipn 2 (outs link_init hrun)) =
    [ (0x0707070707070707, 0xff); (0xd5555555555555fb, 0x01); (0x8877665544332211, 0x00); (0x07071c06fdaabbcc, 0xf8);
      (0x555555fb07fe0707, 0x1f); (0x0707070707fe0707, 0xff); (0x020100fb0201009c, 0x1f); (0x07070707070707fd, 0xff);
      (0x07070707070707fd, 0xff) ] /\
  map snd (skipn 1 (outs link_init hrun)) = [false; false; false; false; false; true; false; false; false; false] /\
  map (fun o => d_seq (fst o)) (skipn 2 (outs link_init hrun)) = [false; false; false; false; false; false; true; false; true].
Proof. split; [|split]; vm_compute; reflexivity. Qed.
Example C33_block_format_nonvacuous :
  snd (trace e_step e_init (firstn 4 hwords ++ [(0, 0)])) =
    [(0, 0, false); (0x1e, 1, false); (0xd555555555555578, 1, false); (0x8877665544332211, 2, false); (0x16860aabbccb4, 1, false)].
Proof. vm_compute. reflexivity. Qed.
Example C33_noise_nonvacuous :
  d_bad (decode false 0x12 1) = true /\ d_bad (decode false 0x3d00000000001e 1) = true /\ d_bad (decode true 0x7 3) = true /\
  d_bad (decode true 0x7 2) = false.
Proof. vm_compute. tauto. Qed.
