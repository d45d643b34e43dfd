(** The claims about the statistics counter memory (C45, first part). *)
From Verif Require Import Base.Prelude Nic.StatsCounter_model Nic.StatsCounter_spec Nic.StatsCounter_proof.
Local Open Scope Z_scope.

(** Since the last reset, every read accepted is answered once, in order, at
    most one at a time.  Its value is the word addressed of the sum, modulo the
    counter width, of exactly those increments of that counter that were
    accepted more than PIPELINE cycles before the read was. *)
Theorem C45_counter_reads : forall c xs, cfg_ok c -> polite (observe c xs) -> ids_ok c (observe c xs) ->
  exists rest, wanted c (live (observe c xs)) = returned (live (observe c xs)) ++ rest /\ (length rest <= 1)%nat.
Proof. exact reads_ok. Qed.
Print Assumptions C45_counter_reads.

(** The answer is there PIPELINE cycles after the read is accepted. *)
Theorem C45_counter_latency : forall c xs h cy w cy', cfg_ok c -> polite (observe c xs) -> ids_ok c (observe c xs) ->
  observe c xs = h ++ cy :: w ++ [cy'] -> length w = (sc_p c - 1)%nat ->
  Forall (fun x : ccycle => fst (fst x) = false) (cy :: w) ->
  so_arready (snd cy) = true -> so_rvalid (snd cy') = true.
Proof. exact read_latency. Qed.
Print Assumptions C45_counter_latency.

(** An increment offered after initialisation (one cycle for each counter) is
    accepted within PIPELINE + 2 cycles if no read is offered in them. *)
Theorem C45_counter_progress : forall c xs h w, cfg_ok c -> polite (observe c xs) -> ids_ok c (observe c xs) ->
  observe c xs = h ++ w -> 2 ^ sc_d c <= Z.of_nat (length (live h)) -> length w = (sc_p c + 2)%nat ->
  (forall rst i o, In (rst, i, o) w -> rst = false /\ si_stat i <> None /\ si_ar i = None) ->
  exists cy, In cy w /\ so_tready (snd cy) = true.
Proof. exact stat_progress. Qed.
Print Assumptions C45_counter_progress.

(** Without the condition on reads there is no bound: a master that keeps
    reading the counter concerned holds up the increments for ever. *)
Theorem C45_starvation_refuted : ~ (forall c, cfg_ok c -> exists n, forall xs h w, polite (observe c xs) -> ids_ok c (observe c xs) ->
  observe c xs = h ++ w -> 2 ^ sc_d c <= Z.of_nat (length (live h)) -> length w = n ->
  (forall rst i o, In (rst, i, o) w -> rst = false /\ si_stat i <> None) ->
  exists cy, In cy w /\ so_tready (snd cy) = true).
Proof. exact starvation. Qed.
Print Assumptions C45_starvation_refuted.

(** "The two words of a counter read one after the other are a value it had"
    is false: there is no snapshot of the upper word. *)
Theorem C45_torn_read_refuted : ~ (forall c xs lo hi, cfg_ok c -> sc_w c = 2 * sc_a c -> polite (observe c xs) -> ids_ok c (observe c xs) ->
  read_addrs (live (observe c xs)) = [0; sc_a c / 8] -> returned (live (observe c xs)) = [lo; hi] ->
  exists q r, live (observe c xs) = q ++ r /\ added 0 q mod 2 ^ sc_w c = lo + 2 ^ sc_a c * hi).
Proof.
  intro H. assert (C : cfg_ok tr_cfg) by (unfold cfg_ok; cbn; lia). destruct tr_values as [V1 V2].
  destruct (H tr_cfg tr_run 255 1 C eq_refl tr_polite tr_ids V2 V1) as (q & r & E & X). exact (tr_never _ _ E X).
Qed.
Print Assumptions C45_torn_read_refuted.

Example C45_counter_nonvacuous :
  cfg_ok tr_cfg /\ polite (observe tr_cfg tr_run) /\ ids_ok tr_cfg (observe tr_cfg tr_run) /\
  wanted tr_cfg (live (observe tr_cfg tr_run)) = [255; 1] /\ added 0 (live (observe tr_cfg tr_run)) = 256.
Proof. split; [unfold cfg_ok; cbn; lia|]. split; [apply tr_polite|]. split; [apply tr_ids|]. split; vm_compute; reflexivity. Qed.

Example C45_counter_progress_nonvacuous :
  exists h w, observe tr_cfg (firstn 6 tr_run) = h ++ w /\ 2 ^ sc_d tr_cfg <= Z.of_nat (length (live h)) /\
    existsb (fun cy : ccycle => so_tready (snd cy)) w = true.
Proof. exists (firstn 2 (observe tr_cfg (firstn 6 tr_run))), (skipn 2 (observe tr_cfg (firstn 6 tr_run))). split; [symmetry; apply firstn_skipn|]. split; vm_compute; [discriminate|reflexivity]. Qed.
