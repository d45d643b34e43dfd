From Verif Require Import Base.Prelude Base.Bits Rtl.Handshake_spec Stream.Axis_model Stream.Arb_model Stream.Mux_model.
Local Open Scope nat_scope.

(** Beats handed over at input port [p], and at the output. *)
Definition mtaken (p : nat) (i : muxin) (o : muxout) : option beat :=
  if mo_sready o p then mi_s i p else None.
Definition mgiven (i : muxin) (o : muxout) : option beat := if mi_mready i then mo_m o else None.
Definition maccepted (p : nat) (is : list muxin) (os : list muxout) : list beat :=
  somes (map (fun x => mtaken p (fst x) (snd x)) (combine is os)).
Definition mdelivered (is : list muxin) (os : list muxout) : list beat :=
  somes (map (fun x => mgiven (fst x) (snd x)) (combine is os)).
Definition mrunning (is : list muxin) : Prop := Forall (fun i => mi_rst i = false) is.

(** The beats of port [p] in a sequence of beats labelled with their source. *)
Definition from (p : nat) (l : list (nat * beat)) : list beat :=
  map snd (filter (fun x => fst x =? p) l).

(** End of a frame: tlast, or every beat when tlast is not used. *)
Definition ends (a : axcfg) (b : beat) : bool := if last_en a then tlast b else true.

(** A complete frame: only its final beat ends it. *)
Definition frame (a : axcfg) (f : list beat) : Prop :=
  exists body b, f = body ++ [b] /\ ends a b = true /\ Forall (fun x => ends a x = false) body.

(** A labelled sequence that is whole frames, each from one source, and at the end
    possibly a part of one further frame from one source. *)
Definition whole_frames (a : axcfg) (l : list (nat * beat)) : Prop :=
  exists fs q part,
    l = concat (map (fun f => map (pair (fst f)) (snd f)) fs) ++ map (pair q) part /\
    Forall (fun f => frame a (snd f)) fs /\ Forall (fun b => ends a b = false) part.

(** How a beat [b] of port [p] looks at the output: all fields unchanged, except that
    with UPDATE_TID the port number is in the top bits of tid. *)
Definition shown (c : muxcfg) (x : nat * beat) : beat :=
  present (m_ax c) (mux_beat c (fst x) (snd x)).

(** The labelled sequence of beats that left the input registers during a run. *)
Fixpoint moved (c : muxcfg) (s : mux) (is : list muxin) : list (nat * beat) :=
  match is with
  | [] => []
  | i :: r =>
      match mux_int c s with
      | Some _ => map (pair (a_enc (x_arb s))) (olist (x_in s (a_enc (x_arb s))))
      | None => []
      end ++ moved c (fst (mux_step c s i)) r
  end.

(** The port whose frame has been started but not finished in a labelled sequence. *)
Definition unfinished_from (a : axcfg) (cur : option nat) (l : list (nat * beat)) : option nat :=
  fold_left (fun cur x => if ends a (snd x) then None else Some (fst x)) l cur.
Definition unfinished (a : axcfg) (l : list (nat * beat)) : option nat := unfinished_from a None l.

(** Frames finished in a labelled sequence. *)
Definition lasts (a : axcfg) (l : list (nat * beat)) : nat :=
  length (filter (fun x => ends a (snd x)) l).
