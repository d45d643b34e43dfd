(** C28: a frame sent through the byte stuffing encoder and decoder comes out again. *)
From Verif Require Import Base.Prelude Rtl.Handshake_spec Stream.Axis_model Stream.Fifo_model Stream.Cobs_model Stream.Cobs_spec
  Stream.CobsDec_proof Stream.CobsEnc_proof Stream.Cobs_proof.
Local Open Scope Z_scope.
#[local] Unset Implicit Arguments.

(** The stuffing relation is what its name says: every byte string has an encoding, which
    has no zero byte, is at most one byte per started 254 longer, and determines the
    string. *)
Theorem C28_stuffing f : Forall byte f ->
  (exists e, is_cobs f e) /\
  (forall e, is_cobs f e -> Forall nonzero e /\ (length f + 1 <= length e <= length f + length f / 254 + 1)%nat /\
     forall f', is_cobs f' e -> f' = f).
Proof.
  exact (fun F => conj (cobs_total f F) (fun e C => conj (cobs_nonzero f e C) (conj (cobs_length f e C) (fun f' C' => cobs_inj f' e C' f C)))).
Qed.
Print Assumptions C28_stuffing.

(** The encoder: while the bytes accepted belong to the frames [fs], the bytes handed over
    belong to the stuffed frames, in order, whatever the timing on both sides. *)
Theorem C28_encoder app s is fs bss :
  e_started app s -> no_reset is -> Forall frame_ok fs -> Forall2 frame_on fs bss ->
  prefix (went_in is (e_outs app s is)) (concat bss) ->
  exists oss, Forall2 (coded app) fs oss /\ prefix (went_out is (e_outs app s is)) (concat oss).
Proof. exact (enc_safe app s is fs bss). Qed.
Print Assumptions C28_encoder.

(** ... and all of them, once the source is quiet and the sink ready long enough. *)
Theorem C28_encoder_complete app s is tl fs bss :
  e_started app s -> no_reset (is ++ tl) -> Forall frame_ok fs -> Forall2 frame_on fs bss ->
  went_in is (e_outs app s is) = concat bss ->
  source_quiet tl -> sink_ready tl -> (1564 <= length tl)%nat ->
  exists oss, Forall2 (coded app) fs oss /\ went_out (is ++ tl) (e_outs app s (is ++ tl)) = concat oss.
Proof. exact (enc_complete app s is tl fs bss). Qed.
Print Assumptions C28_encoder_complete.

(** In a stuffed frame tlast is on the last byte and no other; a zero byte occurs only
    there, and does occur there if APPEND_ZERO is set; tuser only in a bad frame. *)
Theorem C28_delimiter app f bs a b c : coded app f bs -> bs = a ++ b :: c ->
  (c_d b = 0 -> app = true /\ c = []) /\ (c_l b = true <-> c = []) /\
  (c_u b = true -> c = [] /\ f_bad f = true) /\ (app = true -> c = [] -> c_d b = 0).
Proof. exact (fun H => coded_zero app f bs H a b c). Qed.
Print Assumptions C28_delimiter.

(** The encoder never stops for good: with the sink ready and the source offering, it
    accepts a byte within 1565 cycles (both FIFOs may have to drain first). *)
Theorem C28_encoder_accepts app s is tl :
  e_started app s -> no_reset (is ++ tl) -> all_bytes (went_in is (e_outs app s is)) ->
  sink_ready tl -> source_busy tl -> (1565 <= length tl)%nat ->
  went_in tl (e_outs app (fst (trace (e_step app) s is)) tl) <> [].
Proof. exact (enc_live app s is tl). Qed.
Print Assumptions C28_encoder_accepts.

(** The decoder: given stuffed frames, ended by a zero byte or by tlast, with any zero
    bytes between them, it hands over the frames. *)
Theorem C28_decoder s is fs bss :
  d_started s -> no_reset is -> Forall frame_ok fs -> Forall2 sent_as fs bss ->
  prefix (went_in is (d_outs s is)) (concat bss) ->
  exists oss, Forall2 comes_out fs oss /\ prefix (went_out is (d_outs s is)) (concat oss).
Proof. exact (dec_safe s is fs bss). Qed.
Print Assumptions C28_decoder.

Theorem C28_decoder_complete s is tl fs bss :
  d_started s -> no_reset (is ++ tl) -> Forall frame_ok fs -> Forall2 sent_as fs bss ->
  went_in is (d_outs s is) = concat bss -> source_quiet tl -> sink_ready tl -> (3 <= length tl)%nat ->
  exists oss, Forall2 comes_out fs oss /\ went_out (is ++ tl) (d_outs s (is ++ tl)) = concat oss.
Proof. exact (dec_complete s is tl fs bss). Qed.
Print Assumptions C28_decoder_complete.

(** Whatever was received before, the frames after a zero byte are recovered. *)
Theorem C28_resync s is tl junk z fs bss :
  d_started s -> no_reset (is ++ tl) -> Forall frame_ok fs -> Forall2 sent_as fs bss ->
  c_d z = 0 -> went_in is (d_outs s is) = junk ++ [z] ++ concat bss ->
  source_quiet tl -> sink_ready tl -> (3 <= length tl)%nat ->
  exists o1 oss, Forall2 comes_out fs oss /\ went_out (is ++ tl) (d_outs s (is ++ tl)) = o1 ++ concat oss.
Proof. exact (dec_resync s is tl junk z fs bss). Qed.
Print Assumptions C28_resync.

(** With the sink ready, the decoder accepts a byte in every cycle but possibly the first. *)
Theorem C28_decoder_accepts i is s :
  no_reset (i :: is) -> sink_ready (i :: is) -> source_busy (i :: is) ->
  (length is <= length (went_in (i :: is) (d_outs s (i :: is))))%nat.
Proof. exact (dec_live' i is s). Qed.
Print Assumptions C28_decoder_accepts.

(** Both together, over a link that carries the bytes unchanged, or (with APPEND_ZERO)
    the bytes without tlast and tuser: what comes out are the frames that went in. *)
Theorem C28_round_trip app strip se ie te sd id td fs bss :
  (strip = true -> app = true) ->
  e_started app se -> d_started sd -> no_reset (ie ++ te) -> no_reset (id ++ td) -> Forall frame_ok fs -> Forall2 frame_on fs bss ->
  went_in ie (e_outs app se ie) = concat bss -> source_quiet te -> sink_ready te -> (1564 <= length te)%nat ->
  went_in id (d_outs sd id) = carried strip (went_out (ie ++ te) (e_outs app se (ie ++ te))) ->
  source_quiet td -> sink_ready td -> (3 <= length td)%nat ->
  exists oss, Forall2 comes_out fs oss /\ went_out (id ++ td) (d_outs sd (id ++ td)) = concat oss.
Proof. exact (link_complete app strip se ie te sd id td fs bss). Qed.
Print Assumptions C28_round_trip.

(** ... and at any time no more and nothing else. *)
Theorem C28_round_trip_prefix app strip se ie sd id fs bss :
  (strip = true -> app = true) ->
  e_started app se -> d_started sd -> no_reset ie -> no_reset id -> Forall frame_ok fs -> Forall2 frame_on fs bss ->
  prefix (went_in ie (e_outs app se ie)) (concat bss) ->
  prefix (went_in id (d_outs sd id)) (carried strip (went_out ie (e_outs app se ie))) ->
  exists oss, Forall2 comes_out fs oss /\ prefix (went_out id (d_outs sd id)) (concat oss).
Proof. exact (link_safe app strip se ie sd id fs bss). Qed.
Print Assumptions C28_round_trip_prefix.

(** A byte offered downstream stays as it is until it is taken. *)
Theorem C28_stable :
  (forall app s i b, ci_rst i = false -> ci_mready i = false -> co_m (snd (e_step app s i)) = Some b ->
     forall j, co_m (snd (e_step app (fst (e_step app s i)) j)) = Some b) /\
  (forall s i b, ci_rst i = false -> ci_mready i = false -> co_m (snd (d_step s i)) = Some b ->
     forall j, co_m (snd (d_step (fst (d_step s i)) j)) = Some b).
Proof. exact (conj enc_stable dec_stable). Qed.
Print Assumptions C28_stable.

(** Not every encoding the definition of COBS allows is decoded: 254 nonzero bytes in a
    group followed by an empty last group.  The frame is not ended; the next one is
    appended to it. *)
Theorem C28_redundant_code_refuted : exists f1 e1 f2 e2, is_cobs_loose f1 e1 /\ is_cobs f2 e2 /\ f1 <> [] /\ f2 <> [] /\
  forall s is tl, d_started s -> no_reset (is ++ tl) -> went_in is (d_outs s is) = map plain (e1 ++ [0] ++ e2 ++ [0]) ->
    source_quiet tl -> sink_ready tl -> (3 <= length tl)%nat ->
    went_out (is ++ tl) (d_outs s (is ++ tl)) = map plain f1 ++ [lastb 85] /\ f2 = [85].
Proof. exact redundant. Qed.
Print Assumptions C28_redundant_code_refuted.

(* ----- cases ----- *)
Definition ex_frames : list frame := [mkFrame [1; 0; 2] false; mkFrame [7; 8] true; mkFrame [0] false].
Definition ex_beats : list (list cb) := [[plain 1; mkCb 0 false true; lastb 2]; [plain 7; mkCb 8 true true]; [lastb 0]].
Definition ex_m : Z -> beat := fun _ => mkBeat 77 0 true 0 0 1.
Definition offer (b : option cb) (r : bool) : cin := mkCin false b r.
(* an early stall of the sink; a byte is offered until it is accepted *)
Definition ex_in (app : bool) : list cin :=
  [offer (Some (plain 1)) false; offer None false; offer (Some (mkCb 0 false true)) false; offer (Some (lastb 2)) true] ++
  (if app then [offer (Some (plain 7)) true] else []) ++
  [offer (Some (plain 7)) true; offer (Some (mkCb 8 true true)) false] ++
  (if app then [offer (Some (lastb 0)) true] else []) ++
  [offer (Some (lastb 0)) true; offer (Some (lastb 0)) true].
Definition idles (n : nat) : list cin := repeat (offer None true) n.
Definition ex_wire (app : bool) : list cb :=
  if app then map plain [2; 1; 2; 2] ++ [lastb 0] ++ map plain [2; 7; 2] ++ [mkCb 0 true true] ++ map plain [1; 1] ++ [lastb 0]
  else map plain [2; 1; 2] ++ [lastb 2] ++ map plain [2; 7] ++ [mkCb 2 true true] ++ [plain 1; lastb 1].
Definition ex_out (app : bool) : list cb :=
  map plain [1; 0] ++ [lastb 2] ++ (if app then [plain 7; mkCb 0 true true] else [mkCb 7 true true]) ++ [lastb 0].

Lemma quiet_idles n : no_reset (idles n) /\ source_quiet (idles n) /\ sink_ready (idles n).
Proof. unfold idles. induction n; repeat split; cbn; constructor; try apply IHn; reflexivity. Qed.

Example C28_encoder_nonvacuous : forall app,
  let s := e_init ex_m ex_m ex_m ex_m in
  e_started app s /\ no_reset (ex_in app ++ idles 1564) /\ Forall frame_ok ex_frames /\ Forall2 frame_on ex_frames ex_beats /\
  went_in (ex_in app) (e_outs app s (ex_in app)) = concat ex_beats /\
  went_out (ex_in app ++ idles 1564) (e_outs app s (ex_in app ++ idles 1564)) = ex_wire app.
Proof.
  intros app s. splits.
  - apply e_on.
  - apply Forall_app. split; [destruct app; repeat constructor|apply quiet_idles].
  - repeat constructor; try discriminate; cbn; lia.
  - repeat constructor.
    + exists [plain 1; mkCb 0 false true], (lastb 2). splits; try reflexivity. repeat constructor.
    + exists [plain 7], (mkCb 8 true true). splits; try reflexivity. repeat constructor.
    + exists [], (lastb 0). splits; try reflexivity. constructor.
  - destruct app; vm_compute; reflexivity.
  - destruct app; vm_compute; reflexivity.
Qed.

(** The same on the decoder: the wire bytes as they are, and without tlast and tuser. *)
Definition ex_din (strip app : bool) : list cin := offer None true :: map (fun b => offer (Some b) true) (carried strip (ex_wire app)).
Example C28_decoder_nonvacuous : forall app strip, (strip = true -> app = true) ->
  d_started d_init /\ went_in (ex_din strip app) (d_outs d_init (ex_din strip app)) = carried strip (ex_wire app) /\
  went_out (ex_din strip app ++ idles 3) (d_outs d_init (ex_din strip app ++ idles 3)) = ex_out app.
Proof.
  intros app strip H. splits; [constructor| |]; destruct app, strip; try (specialize (H eq_refl); discriminate H); vm_compute; reflexivity.
Qed.

(** Frames whose last byte the link marked, without and with the delimiter. *)
Example C28_marked_nonvacuous :
  let bs := [plain 3; plain 5; mkCb 6 true true; plain 3; plain 5; plain 6; mkCb 0 false true; plain 2; plain 9; lastb 1] in
  let is := offer None true :: map (fun b => offer (Some b) true) bs in
  Forall2 sent_as [mkFrame [5; 6] true; mkFrame [5; 6] true; mkFrame [9; 0] false]
    [[plain 3; plain 5; mkCb 6 true true]; [plain 3; plain 5; plain 6; mkCb 0 false true]; [plain 2; plain 9; lastb 1]] /\
  went_in is (d_outs d_init is) = bs /\
  went_out (is ++ idles 3) (d_outs d_init (is ++ idles 3)) = [mkCb 5 true true; plain 5; mkCb 6 true true; plain 9; lastb 0].
Proof.
  assert (C : is_cobs [5; 6] [3; 5; 6]) by (apply (@cobs_last [5; 6]); [repeat constructor; lia|cbn; lia]).
  assert (C2 : is_cobs [9; 0] [2; 9; 1]).
  { apply (@cobs_zero [9] [] [1]); [repeat constructor; lia|cbn; lia|]. apply (@cobs_last []); [constructor|cbn; lia]. }
  cbv zeta. splits; [|vm_compute; reflexivity|vm_compute; reflexivity].
  constructor; [|constructor; [|constructor; [|constructor]]].
  - right. exists [], [3; 5; 6]. splits; auto. right. exists [3; 5], 6. split; reflexivity.
  - right. exists [], [3; 5; 6]. splits; auto. left. exists false. reflexivity.
  - exists [], [2; 9; 1]. splits; auto. right. exists [2; 9], 1. split; reflexivity.
Qed.

(** A run that gives the decoder the bytes of the refuted claim, with and after a reset. *)
Example C28_redundant_nonvacuous :
  let bs := map plain ((255 :: repeat 1 254 ++ [1]) ++ [0] ++ [2; 85] ++ [0]) in
  let is := offer None true :: map (fun b => offer (Some b) true) bs in
  went_in is (d_outs d_init is) = bs /\ length (filter c_l (went_out (is ++ idles 3) (d_outs d_init (is ++ idles 3)))) = 1%nat.
Proof. vm_compute. split; reflexivity. Qed.

(** A stalled sink: the FIFOs fill, bytes are refused, and accepted again later. *)
Example C28_accepts_nonvacuous :
  let s := e_init ex_m ex_m ex_m ex_m in
  let is := repeat (offer (Some (plain 0)) false) 300 in
  let tl := repeat (offer (Some (plain 0)) true) 1565 in
  e_started true s /\ no_reset (is ++ tl) /\ all_bytes (went_in is (e_outs true s is)) /\ sink_ready tl /\ source_busy tl /\
  (length (went_in is (e_outs true s is)) < 300)%nat.
Proof.
  assert (R : forall (P : cin -> Prop) x n, P x -> Forall P (repeat x n)) by (intros P x n H; induction n; cbn; auto).
  cbv zeta. splits.
  - apply e_on.
  - apply Forall_app. split; apply R; reflexivity.
  - unfold all_bytes. assert (E : forall n s, Forall (fun b => byte (c_d b)) (went_in (repeat (offer (Some (plain 0)) false) n) (e_outs true s (repeat (offer (Some (plain 0)) false) n)))).
    { induction n as [|n IH]; intros s; [constructor|]. cbn [repeat]. destruct (went_cons_e true s (offer (Some (plain 0)) false) (repeat (offer (Some (plain 0)) false) n)) as (-> & _ & _).
      apply Forall_app. split; [|apply IH]. unfold e_in. destruct (e_sready s); cbn; repeat constructor; cbn; lia. }
    apply E.
  - apply R. reflexivity.
  - apply R. discriminate.
  - vm_compute. repeat constructor.
Qed.
