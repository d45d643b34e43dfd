(** C42: the concurrency limits of build_images.py. *)
From Coq Require Import String.
From Verif Require Import Base.Prelude Tools.Build_model Tools.Build_spec Tools.Build_proof.

(** Whatever the builds do, at most [p] processes run and at most [q] are in synthesis. *)
Theorem C42_limits kinds p q tr s : steps (init kinds p q) tr = Some s ->
  count (length kinds) (running tr) <= p /\ count (length kinds) (in_synthesis kinds tr) <= q.
Proof. exact (@limits kinds p q tr s). Qed.
Print Assumptions C42_limits.

(** Each permit taken is given back once: the build permit when the build ends, the
    synthesis permit when synthesis ends or the build does. *)
Theorem C42_permit_accounting kinds p q tr s : steps (init kinds p q) tr = Some s ->
  s_build s + count (length kinds) (fun i => seen tr i is_got_build && negb (seen tr i is_released)) = p /\
  s_synth s + count (length kinds) (fun i => seen tr i is_got_synth && negb (seen tr i is_released
                                     || seen tr i (synth_over (nth i kinds Vivado)))) = q.
Proof. exact (@accounting kinds p q tr s). Qed.
Print Assumptions C42_permit_accounting.

Theorem C42_permits_return kinds p q tr s : steps (init kinds p q) tr = Some s ->
  (forall i, i < length kinds -> seen tr i is_copied = true) -> s_build s = p /\ s_synth s = q.
Proof. exact (@all_back kinds p q tr s). Qed.
Print Assumptions C42_permits_return.

(** Unless an exception ended a build, the builds can always all be completed. *)
Theorem C42_no_deadlock kinds p q tr s : 1 <= p -> 1 <= q -> steps (init kinds p q) tr = Some s -> no_failure tr ->
  exists tr' s', steps s tr' = Some s' /\ no_failure tr' /\
  forall i, i < length kinds -> seen (tr ++ tr') i is_copied = true.
Proof. exact (@no_deadlock kinds p q tr s). Qed.
Print Assumptions C42_no_deadlock.

Definition impl_line := Line Out (Some "vivado -nojournal -nolog -mode batch -source run_impl.tcl"%string).
Definition ex_tr : list (nat * jev) :=
  [(0, Started); (1, Started); (0, GotBuild); (1, GotBuild); (0, GotSynth); (0, Spawned true); (0, Line Err (Some "x"%string));
   (0, impl_line); (1, GotSynth); (1, Spawned true); (0, Eof Out); (0, Eof Err); (0, Released); (0, Copied)].
Example C42_nonvacuous :
  (match steps (init [Vivado; Quartus] 2 1) ex_tr with Some s => (s_build s, s_synth s) | None => (9, 9) end) = (1, 0)
  /\ count 2 (running (firstn 10 ex_tr)) = 2 /\ count 2 (in_synthesis [Vivado; Quartus] (firstn 10 ex_tr)) = 1
  /\ no_failure ex_tr
  /\ (match steps (init [Vivado; Quartus] 2 1) (ex_tr ++ [(1, Eof Err); (1, Eof Out); (1, Released); (1, Copied)])
      with Some s => (s_build s, s_synth s) | None => (9, 9) end) = (2, 1).
Proof.
  split; [vm_compute; reflexivity|]. split; [vm_compute; reflexivity|]. split; [vm_compute; reflexivity|].
  split; [|vm_compute; reflexivity]. unfold no_failure, ex_tr. repeat (constructor; [reflexivity|]). constructor.
Qed.

(** A build that ends by an exception (its process cannot be created, or a log line does
    not decode or is too long) keeps its permits: no later build can start. *)
Theorem C42_failed_build_refuted :
  ~ (forall kinds p q tr s, 1 <= p -> 1 <= q -> steps (init kinds p q) tr = Some s ->
     exists tr' s', steps s tr' = Some s' /\ forall i, i < length kinds -> seen (tr ++ tr') i is_got_build = true).
Proof.
  intro K.
  destruct (K [Vivado; Vivado] 1 1 [(0, Started); (0, GotBuild); (0, GotSynth); (0, Spawned false)]
              (mkSt [mkJob Vivado (Crashed false false) true true; mkJob Vivado Idle false false] 0 0)
              (le_n 1) (le_n 1) eq_refl) as (tr' & s' & E & F).
  assert (1 < length [Vivado; Vivado]) as H1 by (cbn; apply le_n).
  specialize (F 1 H1). unfold seen in F. rewrite existsb_app in F. cbn [existsb fst snd Nat.eqb andb orb] in F.
  assert (seen tr' 1 is_got_build = false) as N.
  { refine (@stuck tr' _ s' _ _ _ _ E 1); cbn; try reflexivity. eexists. split; [reflexivity|]. left. reflexivity. }
  unfold seen in N. rewrite N in F. discriminate F.
Qed.
Print Assumptions C42_failed_build_refuted.
