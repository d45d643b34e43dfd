(** C24: the stream register preserves the stream. *)
From Verif Require Import Base.Prelude Rtl.Handshake_spec Stream.Axis_model Stream.Axis_spec Stream.Axis_proof.

(** Skid buffer (REG_TYPE 2): what was delivered, followed by at most two beats still
    inside, is what was accepted. *)
Theorem C24_skid_preserves c is :
  running is ->
  exists held, map (present c) (accepted is (snd (trace (reg2_step c) skid0 is)))
    = delivered is (snd (trace (reg2_step c) skid0 is)) ++ held /\ length held <= 2.
Proof. exact (@reg2_preserved c is). Qed.
Print Assumptions C24_skid_preserves.

(** Simple buffer (REG_TYPE 1): the same with at most one beat inside. *)
Theorem C24_simple_preserves c is :
  running is ->
  exists held, map (present c) (accepted is (snd (trace (reg1_step c) sreg0 is)))
    = delivered is (snd (trace (reg1_step c) sreg0 is)) ++ held /\ length held <= 1.
Proof. exact (@reg1_preserved c is). Qed.
Print Assumptions C24_simple_preserves.

(** Bypass (REG_TYPE 0): nothing is held. *)
Theorem C24_bypass_preserves c is :
  map (present c) (accepted is (snd (trace (reg0_step c) tt is)))
  = delivered is (snd (trace (reg0_step c) tt is)).
Proof. exact (reg0_preserved c is). Qed.
Print Assumptions C24_bypass_preserves.

(** An offered beat stays offered, unchanged, until it is taken. *)
Theorem C24_skid_output_stable c is :
  running is -> stable_output is (snd (trace (reg2_step c) skid0 is)).
Proof. exact (@reg2_stable c is). Qed.
Print Assumptions C24_skid_output_stable.

Theorem C24_simple_output_stable c is :
  running is -> stable_output is (snd (trace (reg1_step c) sreg0 is)).
Proof. exact (@reg1_stable c is). Qed.
Print Assumptions C24_simple_output_stable.

(** Everything accepted comes out within two (skid) or one (simple) cycles in which
    the sink is ready, after any history and whatever the source does meanwhile. *)
Theorem C24_skid_drains c is tail :
  running (is ++ tail) -> draining tail -> 2 <= length tail ->
  exists late,
    delivered (is ++ tail) (snd (trace (reg2_step c) skid0 (is ++ tail)))
    = map (present c) (accepted is (snd (trace (reg2_step c) skid0 is))) ++ late.
Proof. exact (@reg2_drain c is tail). Qed.
Print Assumptions C24_skid_drains.

Theorem C24_simple_drains c is tail :
  running (is ++ tail) -> draining tail -> 1 <= length tail ->
  exists late,
    delivered (is ++ tail) (snd (trace (reg1_step c) sreg0 (is ++ tail)))
    = map (present c) (accepted is (snd (trace (reg1_step c) sreg0 is))) ++ late.
Proof. exact (@reg1_drain c is tail). Qed.
Print Assumptions C24_simple_drains.

(** The skid buffer has no bubbles: with a ready sink it accepts in every cycle but
    the one after reset. *)
Theorem C24_skid_full_throughput c is :
  running is -> draining is ->
  forall t o, nth_error (snd (trace (reg2_step c) skid0 is)) (S t) = Some o -> o_sready o = true.
Proof. exact (@reg2_throughput c is). Qed.
Print Assumptions C24_skid_full_throughput.

(** The simple buffer accepts again within three cycles of a ready sink. *)
Theorem C24_simple_accepts_again c is a b z :
  running (is ++ [a; b; z]) -> draining [a; b] ->
  exists t o, t < 3 /\
    nth_error (snd (trace (reg1_step c) sreg0 (is ++ [a; b; z]))) (length is + t) = Some o /\
    o_sready o = true.
Proof. exact (@reg1_accepts c is a b z). Qed.
Print Assumptions C24_simple_accepts_again.

(** It refuses a beat only while two beats are inside (or in the cycle after reset). *)
Theorem C24_skid_ready_when_room c is i :
  running is -> is <> [] ->
  o_sready (snd (reg2_step c (fst (trace (reg2_step c) skid0 is)) i)) = false ->
  length (accepted is (snd (trace (reg2_step c) skid0 is)))
  = length (delivered is (snd (trace (reg2_step c) skid0 is))) + 2.
Proof. exact (@reg2_ready_when_room c is i). Qed.
Print Assumptions C24_skid_ready_when_room.

(** How a beat is shown: [present], used in the statements above, carries the enabled
    signals and replaces the others by constants. *)
Theorem C24_disabled_signals c b : shows c b (present c b).
Proof. exact (present_shows c b). Qed.
Print Assumptions C24_disabled_signals.

(** Reset returns to the initial state from any state. *)
Theorem C24_reset c s g i : i_rst i = true ->
  fst (reg2_step c s i) = skid0 /\ fst (reg1_step c g i) = sreg0.
Proof. unfold reg2_step, reg1_step. intros ->. split; reflexivity. Qed.
Print Assumptions C24_reset.

(** A run in which the sink stalls with both registers full, then drains. *)
Definition ex_cfg := mkAx true 255 true false false true.
Definition ex_b n := mkBeat n 255 (Z.odd n) 0 0 0.
Definition ex_run : list sin :=
  [mkSin false (Some (ex_b 1)) true; mkSin false (Some (ex_b 1)) false; mkSin false (Some (ex_b 2)) false;
   mkSin false (Some (ex_b 3)) false; mkSin false (Some (ex_b 3)) false;
   mkSin false (Some (ex_b 3)) true; mkSin false (Some (ex_b 3)) true; mkSin false None true; mkSin false None true].
Example C24_nonvacuous :
  running ex_run /\
  map tdata (accepted ex_run (snd (trace (reg2_step ex_cfg) skid0 ex_run))) = [1; 2; 3]%Z /\
  map tdata (delivered ex_run (snd (trace (reg2_step ex_cfg) skid0 ex_run))) = [1; 2; 3]%Z /\
  map tdata (delivered (firstn 5 ex_run) (snd (trace (reg2_step ex_cfg) skid0 (firstn 5 ex_run)))) = [].
Proof. split; [repeat constructor|vm_compute; auto]. Qed.
