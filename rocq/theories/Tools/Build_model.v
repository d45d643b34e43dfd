(** fpga/build_images.py: the concurrent image builds.  Each build is a coroutine
    (Build.run, 120-164); a step is what one coroutine does between two awaits.
    asyncio.Semaphore is its counter; which waiting coroutine gets a free permit is left
    open.  The log lines are read by two tasks, one per output stream (166-173). *)
From Coq Require Import String.
From Verif Require Import Base.Prelude.
Local Open Scope string_scope.

(** VivadoBuild (179), IseBuild (219), QuartusBuild and QuartusProBuild (245, 273). *)
Inductive kind := Vivado | Ise | Quartus.

(** scan_log_line: does it call synth_done for this (stripped) line?  Vivado 198-199,
    ISE 230-233, Quartus 256-261; the earlier branches of the elif chains come first. *)
Definition scan_done (k : kind) (line : string) : bool :=
  match k with
  | Vivado => line =? "vivado -nojournal -nolog -mode batch -source run_impl.tcl"
  | Ise => if prefix "xst" line then false else prefix "ngdbuild" line
  | Quartus =>
      if prefix "quartus_ipgenerate" line then false
      else if prefix "quartus_map" line || prefix "quartus_syn" line then false
      else prefix "quartus_fit" line
  end.

(** Where the coroutine run is: not started, at the two acquires (126, 130), at the
    process creation (141), at the gather (147; which stream tasks still read), at the
    copying (157-159), returned; or ended by an exception, with stream tasks left over. *)
Inductive phase := Idle | WaitBuild | WaitSynth | Spawning | Reading (out err : bool) | Copying | Finished | Crashed (out err : bool).

(** One Build object: kind, place, and whether self.build_sem / self.synth_sem is not None. *)
Record job := mkJob { j_kind : kind; j_phase : phase; j_bsem : bool; j_ssem : bool }.
(** All builds and the counters of build_sem and synth_sem (385-386). *)
Record st := mkSt { s_jobs : list job; s_build : nat; s_synth : nat }.

Inductive stream := Out | Err.
(** What can happen to a build. [Line s (Some l)]: readline returned a line that decodes
    and strips to [l]; [Line s None]: readline or decode raised (169, 171).
    [Spawned false]: creating the process raised. *)
Inductive jev :=
  | Started | GotBuild | GotSynth | Spawned (ok : bool) | Line (s : stream) (l : option string) | Eof (s : stream)
  | Released | Copied.

(** synth_done (110-113), build_done (115-118). *)
Definition synth_done (j : job) (ns : nat) : job * nat :=
  if j_ssem j then (mkJob (j_kind j) (j_phase j) (j_bsem j) false, S ns) else (j, ns).
Definition build_done (j : job) (nb : nat) : job * nat :=
  if j_bsem j then (mkJob (j_kind j) (j_phase j) false (j_ssem j), S nb) else (j, nb).
Definition at_phase (j : job) (p : phase) : job := mkJob (j_kind j) p (j_bsem j) (j_ssem j).

(** process_stream on a line (166-173). *)
Definition on_line (j : job) (l : string) (ns : nat) : job * nat :=
  if scan_done (j_kind j) l then synth_done j ns else (j, ns).
Definition is_open (s : stream) (o e : bool) : bool := match s with Out => o | Err => e end.
Definition close_out (s : stream) (o : bool) : bool := match s with Out => false | Err => o end.
Definition close_err (s : stream) (e : bool) : bool := match s with Out => e | Err => false end.

(** One step of one build; [None]: not possible now.  An exception of a stream task ends
    run through gather (147-150); the other stream task goes on by itself. *)
Definition jstep (j : job) (e : jev) (nb ns : nat) : option (job * nat * nat) :=
  match e, j_phase j with
  | Started, Idle => Some (mkJob (j_kind j) WaitBuild true true, nb, ns)
  | GotBuild, WaitBuild =>
      match nb with S b => Some (at_phase j WaitSynth, b, ns) | O => None end
  | GotSynth, WaitSynth =>
      match ns with S c => Some (at_phase j Spawning, nb, c) | O => None end
  | Spawned true, Spawning => Some (at_phase j (Reading true true), nb, ns)
  | Spawned false, Spawning => Some (at_phase j (Crashed false false), nb, ns)
  | Line s (Some l), Reading o e' | Line s (Some l), Crashed o e' =>
      if is_open s o e' then let '(j', ns') := on_line j l ns in Some (j', nb, ns') else None
  | Line s None, Reading o e' | Line s None, Crashed o e' =>
      if is_open s o e' then Some (at_phase j (Crashed (close_out s o) (close_err s e')), nb, ns) else None
  | Eof s, Reading o e' =>
      if is_open s o e' then Some (at_phase j (Reading (close_out s o) (close_err s e')), nb, ns) else None
  | Eof s, Crashed o e' =>
      if is_open s o e' then Some (at_phase j (Crashed (close_out s o) (close_err s e')), nb, ns) else None
  | Released, Reading false false =>
      let '(j1, ns') := synth_done (at_phase j Copying) ns in
      let '(j2, nb') := build_done j1 nb in Some (j2, nb', ns')
  | Copied, Copying => Some (at_phase j Finished, nb, ns)
  | _, _ => None
  end.

Definition step (s : st) (e : nat * jev) : option st :=
  match nth_error (s_jobs s) (fst e) with
  | None => None
  | Some j =>
      match jstep j (snd e) (s_build s) (s_synth s) with
      | None => None
      | Some (j', nb, ns) => Some (mkSt (lset (s_jobs s) (fst e) j') nb ns)
      end
  end.
Fixpoint steps (s : st) (tr : list (nat * jev)) : option st :=
  match tr with
  | [] => Some s
  | e :: t => match step s e with Some s' => steps s' t | None => None end
  end.

(** main (377-394) with --parallel [p] and --synth_parallel [q]; the attributes build_sem and
    synth_sem are first set by run. *)
Definition init (kinds : list kind) (p q : nat) : st :=
  mkSt (map (fun k => mkJob k Idle false false) kinds) p q.
