(** What an observer of the builds sees, from the events alone. *)
From Coq Require Import String.
From Verif Require Import Base.Prelude Tools.Build_model.

(** Does build [i] have an event satisfying [P] in [tr]? *)
Definition seen (tr : list (nat * jev)) (i : nat) (P : jev -> bool) : bool :=
  existsb (fun e => (fst e =? i) && P (snd e)) tr.

Definition is_spawned (e : jev) := match e with Spawned true => true | _ => false end.
Definition is_got_build (e : jev) := match e with GotBuild => true | _ => false end.
Definition is_got_synth (e : jev) := match e with GotSynth => true | _ => false end.
Definition is_eof_out (e : jev) := match e with Eof Out => true | _ => false end.
Definition is_eof_err (e : jev) := match e with Eof Err => true | _ => false end.
Definition is_released (e : jev) := match e with Released => true | _ => false end.
Definition is_copied (e : jev) := match e with Copied => true | _ => false end.
Definition is_failure (e : jev) := match e with Spawned false => true | Line _ None => true | _ => false end.

(** The log line with which each tool leaves synthesis. *)
Definition synth_over (k : kind) (e : jev) : bool :=
  match e with
  | Line _ (Some l) =>
      match k with
      | Vivado => String.eqb l "vivado -nojournal -nolog -mode batch -source run_impl.tcl"
      | Ise => prefix "ngdbuild" l
      | Quartus => prefix "quartus_fit" l
      end
  | _ => false
  end.

(** The build's process is alive: created, and not both its outputs at end of file. *)
Definition running (tr : list (nat * jev)) (i : nat) : bool :=
  seen tr i is_spawned && negb (seen tr i is_eof_out && seen tr i is_eof_err).
(** It is alive and has not left synthesis. *)
Definition in_synthesis (kinds : list kind) (tr : list (nat * jev)) (i : nat) : bool :=
  running tr i && negb (seen tr i (synth_over (nth i kinds Vivado))).

Definition count (n : nat) (P : nat -> bool) : nat := length (filter P (seq 0 n)).

(** No exception ended a build. *)
Definition no_failure (tr : list (nat * jev)) : Prop := Forall (fun e => is_failure (snd e) = false) tr.
