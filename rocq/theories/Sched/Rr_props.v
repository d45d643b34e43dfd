(** C19 and C21: the round-robin transmit scheduler. *)
From Verif Require Import Base.Prelude Rtl.Handshake_spec Stream.Axis_model Stream.Fifo_model Sched.Rr_model Sched.Rr_spec
  Sched.Rr_proof Sched.RrFair_proof.
Local Open Scope Z_scope.

(** In every history, each queue is in the schedule (waiting, or having its turn)
    at most once, and a cleared queue is in it exactly when its scheduled flag is
    set; the number of queues in the schedule is what the module counts, and
    its active output tells whether there is one. *)
Theorem C19_schedule : forall c s xs,
  cfg_ok c -> power_on c s -> Forall (in_ok c) xs -> Forall strobed xs ->
  let t := after c s xs in
  NoDup (waiting c t ++ turn t) /\
  (forall q, In q (waiting c t ++ turn t) <-> in_range c q /\ ready t q /\ scheduled t q) /\
  (o_active (snd (s_step c t (mkIn false None None None None false None false false false))) = true <-> waiting c t ++ turn t <> []) /\
  m_cnt t = Z.of_nat (length (waiting c t ++ turn t)).
Proof. exact schedule_once. Qed.
Print Assumptions C19_schedule.

(** A transmit request begins only for a queue that is enabled, active and
    scheduled. *)
Theorem C19_request_allowed : forall c s xs x q k,
  cfg_ok c -> power_on c s -> Forall (in_ok c) xs -> Forall strobed xs -> i_rst x = false ->
  let t := after c s xs in begins c t x = Some (q, k) ->
  in_range c q /\ enabled c t q /\ active t q /\ scheduled t q /\ port (fst (s_step c t x)) = Some (q, k).
Proof. exact allowed. Qed.
Print Assumptions C19_request_allowed.

(** A request stays on the port until it is taken. *)
Theorem C19_request_stable : forall c s xs x r,
  cfg_ok c -> power_on c s -> Forall (in_ok c) xs -> Forall strobed xs -> i_rst x = false ->
  let t := after c s xs in port t = Some r -> i_reqrdy x = false -> port (fst (s_step c t x)) = Some r.
Proof. exact port_stable. Qed.
Print Assumptions C19_request_stable.

(** The enable bit of a queue is the one of the last register write that
    selected its byte, or clear if the queue has been cleared since. *)
Theorem C19_enable_bit : forall c s xs q,
  cfg_ok c -> power_on c s -> Forall (in_ok c) xs -> Forall strobed xs ->
  q_en (m_ram (after c s xs) q) = fold_left (en_after q) (map o_done (outs c s xs)) false.
Proof. exact en_run. Qed.
Print Assumptions C19_enable_bit.

(** The operation that enters the pipe for a register access is the one on the
    bus, for the queue the address selects, four bytes each; it takes effect
    PIPELINE cycles later. *)
Theorem C19_register_access : forall c s i,
  match o_acc (snd (s_step c s i)) with
  | Some (PWrite q d sb) => exists a, i_aw i = Some (a, d, sb) /\ q = (a / 4) mod 2 ^ Z.of_nat (s_qw c)
  | Some (PRead q) => exists a, i_ar i = Some a /\ q = (a / 4) mod 2 ^ Z.of_nat (s_qw c)
  | Some (PCtl q e) => s_ctl c = true /\ i_ctl i = Some (q, e)
  | _ => True
  end.
Proof. exact acc_input. Qed.
Print Assumptions C19_register_access.

Theorem C19_effect_delay : forall c s pre x xs y o,
  cfg_ok c -> power_on c s -> Forall (in_ok c) (pre ++ x :: xs) -> Forall strobed (pre ++ x :: xs) ->
  Forall (fun i => i_rst i = false) (x :: xs) -> length xs = (s_pl c - 1)%nat ->
  o_acc (snd (s_step c (after c s pre) x)) = Some o ->
  o_done (snd (s_step c (after c s (pre ++ x :: xs)) y)) = Some o.
Proof. exact done_after. Qed.
Print Assumptions C19_effect_delay.

(** A register read returns the flags of the queue. *)
Theorem C19_status_read : forall c s xs q x,
  cfg_ok c -> power_on c s -> Forall (in_ok c) xs -> Forall strobed xs -> i_rst x = false ->
  let t := after c s xs in
  o_done (snd (s_step c t x)) = Some (PRead q) ->
  forall y, exists w, o_r (snd (s_step c (fst (s_step c t x)) y)) = Some w /\ status_word c (m_ram t q) w.
Proof. exact read_step. Qed.
Print Assumptions C19_status_read.

(** Between two consecutive requests for queue [q], every other queue that is
    scheduled at the first and stays enabled and active is requested; and no
    other queue is requested twice if [q] itself stays enabled and active. *)
Theorem C21_fair : forall c s pre x0 mid x1 q k0 k1,
  cfg_ok c -> power_on c s ->
  Forall (in_ok c) (pre ++ x0 :: mid ++ [x1]) -> Forall strobed (pre ++ x0 :: mid ++ [x1]) ->
  Forall (fun x => i_rst x = false) (x0 :: mid ++ [x1]) ->
  let t := after c s (pre ++ [x0]) in
  begins c (after c s pre) x0 = Some (q, k0) ->
  begins c (after c t mid) x1 = Some (q, k1) ->
  ~ In q (map fst (begun c t mid)) ->
  (forall r, r <> q -> in_range c r -> scheduled t r -> during c t mid (fun u => enabled c u r /\ active u r) ->
     In r (map fst (begun c t mid))) /\
  (during c t mid (fun u => enabled c u q /\ active u q) -> NoDup (map fst (begun c t mid))).
Proof. exact fair. Qed.
Print Assumptions C21_fair.

(** * Concrete histories *)
Definition x_c := mkSc 4 2 2 false.
Definition x_b := mkBeat 0 0 false 0 0 0.
Definition x_s := s_init x_c (fun _ => x_b) (fun _ => x_b) (fun _ => 0) (fun _ => false).
Definition x_idle := mkIn false None None None None true None true true true.
Definition x_door q := mkIn false None (Some q) None None true None true true true.
Definition x_wr q d sb := mkIn false None None None (Some (4 * q, d, sb)) true None true true true.
Definition x_rd q := mkIn false None None None None true (Some (4 * q)) true true true.
(** Three queues are enabled and get a doorbell. *)
Definition x_run := repeat x_idle 7 ++ [x_wr 0 1 15] ++ repeat x_idle 3 ++ [x_wr 1 1 15] ++ repeat x_idle 3 ++ [x_wr 2 1 15] ++
  repeat x_idle 3 ++ [x_door 2; x_door 0; x_door 1].

Lemma x_c_ok : cfg_ok x_c.
Proof. unfold cfg_ok, x_c. cbn [s_n s_qw s_pl]. lia. Qed.
Lemma x_s_on : power_on x_c x_s.
Proof. unfold power_on, x_s. eauto. Qed.
Definition in_okb (i : sin) : bool :=
  match i_door i with Some q => (0 <=? q) && (q <? 4) | None => true end && match i_ctl i with Some _ => false | None => true end.
Lemma in_okb_ok i : in_okb i = true -> in_ok x_c i.
Proof.
  unfold in_okb, in_ok, in_range. intros H. apply andb_true_iff in H. destruct H as [H1 H2]. split.
  - intros q E. rewrite E in H1. apply andb_true_iff in H1. cbn. lia.
  - intros q e E. rewrite E in H2. discriminate.
Qed.
Definition strobedb (i : sin) : bool :=
  match i_aw i with Some (_, d, sb) => negb (Z.testbit d 0) || Z.testbit sb 0 | None => true end.
Lemma strobedb_ok i : strobedb i = true -> strobed i.
Proof.
  unfold strobedb, strobed. intros H a d sb E1 E2. rewrite E1, E2 in H. exact H.
Qed.
Lemma in_okbs l : forallb in_okb l = true -> Forall (in_ok x_c) l.
Proof. intros H. apply Forall_forall. intros x Hx. apply in_okb_ok. rewrite forallb_forall in H. auto. Qed.
Lemma strobedbs l : forallb strobedb l = true -> Forall strobed l.
Proof. intros H. apply Forall_forall. intros x Hx. apply strobedb_ok. rewrite forallb_forall in H. auto. Qed.

#[local] Unset Implicit Arguments.
Example C19_schedule_nonvacuous :
  cfg_ok x_c /\ power_on x_c x_s /\ Forall (in_ok x_c) (x_run ++ repeat x_idle 6) /\ Forall strobed (x_run ++ repeat x_idle 6) /\
  waiting x_c (after x_c x_s (x_run ++ repeat x_idle 6)) = [0; 1] /\ turn (after x_c x_s (x_run ++ repeat x_idle 6)) = [2].
Proof.
  split; [exact x_c_ok|]. split; [exact x_s_on|]. split; [apply in_okbs; vm_compute; reflexivity|].
  split; [apply strobedbs; vm_compute; reflexivity|]. split; vm_compute; reflexivity.
Qed.

Example C19_request_nonvacuous :
  begins x_c (after x_c x_s (x_run ++ repeat x_idle 7)) x_idle = Some (2, 0%nat) /\
  port (after x_c x_s (x_run ++ repeat x_idle 8)) = Some (2, 0%nat).
Proof. split; vm_compute; reflexivity. Qed.

Example C19_registers_nonvacuous :
  fold_left (en_after 1) (map o_done (outs x_c x_s x_run)) false = true /\
  o_acc (snd (s_step x_c (after x_c x_s (x_run ++ repeat x_idle 5)) (x_rd 1))) = Some (PRead 1) /\
  o_done (snd (s_step x_c (after x_c x_s ((x_run ++ repeat x_idle 5) ++ x_rd 1 :: repeat x_idle 1)) x_idle)) = Some (PRead 1).
Proof. split; [|split]; vm_compute; reflexivity. Qed.

(** Two requests for queue 2, and those for queues 0 and 1 between them. *)
Example C21_fair_nonvacuous :
  let t := after x_c x_s (x_run ++ repeat x_idle 8) in
  begins x_c (after x_c x_s (x_run ++ repeat x_idle 7)) x_idle = Some (2, 0%nat) /\
  begins x_c (after x_c t (repeat x_idle 8)) x_idle = Some (2, 3%nat) /\
  map fst (begun x_c t (repeat x_idle 8)) = [0; 1] /\
  scheduled t 0 /\ scheduled t 1 /\
  forallb (fun n => let u := after x_c t (firstn n (repeat x_idle 8)) in
     forallb (fun q => q_en (m_ram u q) && q_act (m_ram u q)) [0; 1; 2]) (seq 0 9) = true.
Proof. cbv zeta. repeat split; vm_compute; reflexivity. Qed.

(** A register write of the enable bit that does not select its byte still
    puts the queue into the schedule, without setting its flag: the queue is
    there as often as that is done, and the count never returns to zero. *)
Definition x_hold := mkIn false None None None None true None true true false.
Definition x_hdoor q := mkIn false None (Some q) None None true None true true false.
Definition x_hwr q d sb := mkIn false None None None (Some (4 * q, d, sb)) true None true true false.
Definition x_unstrobed := repeat x_hold 7 ++ [x_hdoor 1] ++ repeat x_hold 8 ++ [x_hwr 1 1 0] ++ repeat x_hold 3 ++ [x_hwr 1 1 0] ++ repeat x_hold 6.

Theorem C19_unstrobed_write_refuted :
  let t := after x_c x_s x_unstrobed in
  let u := after x_c x_s (x_unstrobed ++ repeat x_idle 30) in
  Forall (in_ok x_c) x_unstrobed /\ waiting x_c t = [1; 1] /\ ~ scheduled t 1 /\
  waiting x_c u = [] /\ turn u = [] /\ m_cnt u = 2.
Proof.
  cbv zeta. split; [apply in_okbs; vm_compute; reflexivity|]. split; [vm_compute; reflexivity|].
  split; [vm_compute; discriminate|]. split; [vm_compute; reflexivity|]. split; vm_compute; reflexivity.
Qed.
Print Assumptions C19_unstrobed_write_refuted.
