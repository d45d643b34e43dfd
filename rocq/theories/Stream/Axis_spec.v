(** What an observer of a stream module sees: the beats handed over on each side
    (both valid and ready high at the clock edge). *)
From Verif Require Import Base.Prelude Rtl.Handshake_spec Stream.Axis_model.

Definition taken (i : sin) (o : sout) : option beat := if o_sready o then i_s i else None.
Definition given (i : sin) (o : sout) : option beat := if i_mready i then o_m o else None.

(** All beats handed over on the input side and on the output side of a run. *)
Definition accepted (is : list sin) (os : list sout) : list beat :=
  somes (map (fun p => taken (fst p) (snd p)) (combine is os)).
Definition delivered (is : list sin) (os : list sout) : list beat :=
  somes (map (fun p => given (fst p) (snd p)) (combine is os)).

(** No reset during the run. *)
Definition running (is : list sin) : Prop := Forall (fun i => i_rst i = false) is.

(** The sink is ready in every cycle of the run. *)
Definition draining (is : list sin) : Prop := Forall (fun i => i_mready i = true) is.

(** The source offers nothing in any cycle of the run. *)
Definition quiet (is : list sin) : Prop := Forall (fun i => i_s i = None) is.

(** An offered beat that is not taken is offered again, unchanged, in the next
    cycle (the AXI stream stability rule) on the output side. *)
Definition stable_output (is : list sin) (os : list sout) : Prop :=
  forall t i o b, nth_error is t = Some i -> nth_error os t = Some o ->
    o_m o = Some b -> i_mready i = false ->
    forall o', nth_error os (S t) = Some o' -> o_m o' = Some b.

(** The same rule for the source driving the input side. *)
Definition stable_input (is : list sin) (os : list sout) : Prop :=
  forall t i o b, nth_error is t = Some i -> nth_error os t = Some o ->
    i_s i = Some b -> o_sready o = false ->
    forall i', nth_error is (S t) = Some i' -> i_s i' = Some b.

(** What a beat looks like behind a module with the given signals enabled: enabled
    signals are carried, disabled ones read as all ones (tkeep), one (tlast) or
    zero (tid, tdest, tuser). *)
Definition shows (c : axcfg) (b b' : beat) : Prop :=
  tdata b' = tdata b /\
  (keep_en c = true -> tkeep b' = tkeep b) /\ (keep_en c = false -> tkeep b' = keep_ones c) /\
  (last_en c = true -> tlast b' = tlast b) /\ (last_en c = false -> tlast b' = true) /\
  (id_en c = true -> tid b' = tid b) /\ (id_en c = false -> tid b' = 0%Z) /\
  (dest_en c = true -> tdest b' = tdest b) /\ (dest_en c = false -> tdest b' = 0%Z) /\
  (user_en c = true -> tuser b' = tuser b) /\ (user_en c = false -> tuser b' = 0%Z).
