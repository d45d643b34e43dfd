(** C20: the round-robin scheduler does not lose a doorbell. *)
From Verif Require Import Base.Prelude Rtl.Handshake_spec Stream.Axis_model Stream.Fifo_model Sched.Rr_model Sched.Rr_spec Sched.RrOwe_spec
  Sched.Rr_props Sched.RrGhost_proof.
Local Open Scope Z_scope.
#[local] Unset Implicit Arguments.

(** A doorbell is owed when the FIFO had room for it and no request begun after it
    has been answered empty.  While it is owed, it waits, is under way, or is
    noted: in the queue's active flag, or in an operation of the queue that is
    outstanding. *)
Theorem C20_doorbell_kept : forall c q s xs,
  cfg_ok c -> in_range c q -> power_on c s -> Forall (in_ok c) xs -> Forall strobed xs -> env_run c q s mon0 xs ->
  let t := after c s xs in n_owed (watch c q s mon0 xs) = true ->
  In q (doorbells t) \/ In (PDoor q) (pipe_ops t) \/ active t q \/
  exists k, (k < s_n c)%nat /\ t_act (m_tab t) k = true /\ t_q (m_tab t) k = q /\ t_db (m_tab t) k = true.
Proof. intros c q s xs CO QR. exact (owed_kept c q CO QR s xs). Qed.
Print Assumptions C20_doorbell_kept.

(** Whenever nothing is under way for a queue that is owed a doorbell, the queue is active, and if it may
    transmit it is in the schedule. *)
Theorem C20_no_lost_doorbell : forall c q s xs,
  cfg_ok c -> in_range c q -> power_on c s -> Forall (in_ok c) xs -> Forall strobed xs -> env_run c q s mon0 xs ->
  let t := after c s xs in n_owed (watch c q s mon0 xs) = true -> quiet c t q ->
  active t q /\ (permitted c t q -> In q (waiting c t ++ turn t)).
Proof. intros c q s xs CO QR. exact (owed_quiet c q CO QR s xs). Qed.
Print Assumptions C20_no_lost_doorbell.

(** * Concrete histories *)
Definition y_st (tag : Z) (ne en : bool) := mkIn false (Some (tag, ne)) None None None true None true true en.
Definition env_okb (q : Z) (m : mon) (i : sin) : bool :=
  match i_st i with
  | Some (tag, ne) => existsb (fun p => (tag =? Z.of_nat (p_k p)) && (ne || negb (p_q p =? q) || negb (p_over p))) (n_ops m)
  | None => true
  end.
Fixpoint env_runb (c : scfg) (q : Z) (s : sst) (m : mon) (xs : list sin) : bool :=
  match xs with [] => true | x :: xs => env_okb q m x && env_runb c q (fst (s_step c s x)) (mon_step c q s x m) xs end.
Lemma env_runb_ok c q xs : forall s m, env_runb c q s m xs = true -> env_run c q s m xs.
Proof.
  induction xs as [|x xs IH]; intros s m H; [exact I|]. cbn [env_runb env_run] in *. apply andb_true_iff in H. destruct H as [H1 H2]. split; auto.
  intros tag ne _ E. unfold env_okb in H1. rewrite E in H1. apply existsb_exists in H1. destruct H1 as (p & Hp & H1). apply andb_true_iff in H1. destruct H1 as [H1 H3].
  exists p. split; auto. split; [apply Z.eqb_eq; auto|]. intros -> Q. rewrite Q, Z.eqb_refl in H3. destruct (p_over p); [discriminate|auto].
Qed.
Definition quietb (n : nat) (s : sst) (q : Z) : bool :=
  negb (existsb (Z.eqb q) (doorbells s)) && negb (existsb (fun o => pop_q o =? q) (pipe_ops s)) &&
  forallb (fun k => negb (t_act (m_tab s) k && (t_q (m_tab s) k =? q))) (seq 0 n).

(** Queue 1 is enabled and gets a doorbell; requests for it begin, as many as the
    operation table has places: two. *)
Definition y_c (ctl : bool) := mkSc 2 2 2 ctl.
Definition y_s (ctl : bool) := s_init (y_c ctl) (fun _ => x_b) (fun _ => x_b) (fun _ => 0) (fun _ => false).
Definition y_start (d : Z) := repeat x_idle 7 ++ [x_wr 1 d 15] ++ repeat x_idle 3 ++ [x_door 1] ++ repeat x_idle 20.
(** A second doorbell, while both are outstanding; the answers: both empty, in
    order. *)
Definition y_run (d : Z) := y_start d ++ [x_door 1] ++ repeat x_idle 6 ++ [y_st 0 false true] ++ repeat x_idle 12 ++ [y_st 1 false true] ++ repeat x_hold 4.
(** The answers in the other order, and the doorbell between them. *)
Definition y_swap := y_start 1 ++ repeat x_hold 3 ++ [y_st 1 false false] ++ repeat x_hold 6 ++ [x_hdoor 1] ++ repeat x_hold 6 ++ [y_st 0 false false] ++ repeat x_hold 8.
Definition y_flood := repeat x_idle 7 ++ [x_wr 1 1 15] ++ repeat x_idle 3 ++ repeat (x_hdoor 0) 521.

Lemma y_c_ok ctl : cfg_ok (y_c ctl).
Proof. unfold cfg_ok, y_c. cbn [s_n s_qw s_pl]. lia. Qed.
Lemma y_s_on ctl : power_on (y_c ctl) (y_s ctl).
Proof. unfold power_on, y_s. eauto. Qed.
Lemma in_ok_y ctl l : forallb in_okb l = true -> Forall (in_ok (y_c ctl)) l.
Proof. intros H. apply in_okbs in H. exact H. Qed.
Lemma quietb_ok c s q : quietb (s_n c) s q = true -> quiet c s q.
Proof.
  unfold quietb, quiet. intros H. apply andb_true_iff in H. destruct H as [H H3]. apply andb_true_iff in H. destruct H as [H1 H2].
  apply negb_true_iff in H1, H2. split; [|split].
  - intros X. rewrite <- not_true_iff_false in H1. apply H1. apply existsb_exists. exists q. split; auto. apply Z.eqb_refl.
  - intros o Ho E. rewrite <- not_true_iff_false in H2. apply H2. apply existsb_exists. exists o. split; auto. apply Z.eqb_eq. auto.
  - intros k Hk A E. rewrite forallb_forall in H3. specialize (H3 k). rewrite A, E, Z.eqb_refl in H3. assert (X : In k (seq 0 (s_n c))) by (apply in_seq; lia). specialize (H3 X). discriminate.
Qed.

Example C20_nonvacuous :
  let c := y_c false in let s := y_s false in let t := after c s (y_run 1) in
  cfg_ok c /\ in_range c 1 /\ power_on c s /\ Forall (in_ok c) (y_run 1) /\ Forall strobed (y_run 1) /\ env_run c 1 s mon0 (y_run 1) /\
  begun c s (y_run 1) = [(1, 0%nat); (1, 1%nat)] /\ n_owed (watch c 1 s mon0 (y_run 1)) = true /\ quiet c t 1 /\ permitted c t 1 /\ waiting c t = [1].
Proof.
  cbv zeta. split; [apply y_c_ok|]. split; [unfold in_range; cbn; lia|]. split; [apply y_s_on|]. split; [apply in_ok_y; vm_compute; reflexivity|].
  split; [apply strobedbs; vm_compute; reflexivity|]. split; [apply env_runb_ok; vm_compute; reflexivity|]. split; [vm_compute; reflexivity|].
  split; [vm_compute; reflexivity|]. split; [apply quietb_ok; vm_compute; reflexivity|]. split; [|vm_compute; reflexivity].
  split; [vm_compute; reflexivity|]. intros X. discriminate X.
Qed.

(** The doorbell is owed and noted only in the outstanding operation: the first
    answer has made the queue inactive. *)
Example C20_noted_nonvacuous :
  let xs := firstn 51 (y_run 1) in let t := after (y_c false) (y_s false) xs in
  n_owed (watch (y_c false) 1 (y_s false) mon0 xs) = true /\ doorbells t = [] /\ pipe_ops t = [] /\ ~ active t 1 /\ t_db (m_tab t) 1 = true.
Proof. cbv zeta. split; [vm_compute; reflexivity|]. split; [vm_compute; reflexivity|]. split; [vm_compute; reflexivity|]. split; [|vm_compute; reflexivity]. vm_compute. discriminate. Qed.

(** When the transmit engine answers a request empty after it has answered a later
    one of the same queue, a doorbell that came in between is lost: nothing is under
    way, the queue is enabled, and not active. *)
Theorem C20_overtaken_refuted :
  let c := y_c false in let s := y_s false in let t := after c s y_swap in
  begun c s (firstn 36 y_swap) = [(1, 0%nat); (1, 1%nat)] /\ n_ops (watch c 1 s mon0 (firstn 36 y_swap)) <> [] /\
  n_owed (watch c 1 s mon0 y_swap) = true /\ quiet c t 1 /\ permitted c t 1 /\ ~ active t 1 /\
  begun c t (repeat x_idle 60) = [].
Proof.
  cbv zeta. split; [vm_compute; reflexivity|]. split; [vm_compute; discriminate|]. split; [vm_compute; reflexivity|]. split; [apply quietb_ok; vm_compute; reflexivity|].
  split; [split; [vm_compute; reflexivity|intros X; discriminate X]|]. split; [vm_compute; discriminate|vm_compute; reflexivity].
Qed.
Print Assumptions C20_overtaken_refuted.

(** With SCHED_CTRL_ENABLE a completion puts the queue back into the schedule only if
    the scheduler control has enabled it: the global enable bit, with which a doorbell or
    a request would do, is not looked at, so the queue is active and enabled and
    never requested. *)
Theorem C20_global_enable_refuted :
  let c := y_c true in let s := y_s true in let t := after c s (y_run 3) in
  env_run c 1 s mon0 (y_run 3) /\ n_owed (watch c 1 s mon0 (y_run 3)) = true /\ quiet c t 1 /\ enabled c t 1 /\ active t 1 /\ ~ scheduled t 1 /\
  begun c t (repeat x_idle 60) = [].
Proof.
  cbv zeta. split; [apply env_runb_ok; vm_compute; reflexivity|]. split; [vm_compute; reflexivity|]. split; [apply quietb_ok; vm_compute; reflexivity|].
  split; [split; [vm_compute; reflexivity|intros _; left; vm_compute; reflexivity]|]. split; [vm_compute; reflexivity|]. split; [vm_compute; discriminate|vm_compute; reflexivity].
Qed.
Print Assumptions C20_global_enable_refuted.

(** The doorbell FIFO's ready is not looked at: a doorbell that finds it full is
    dropped. *)
Theorem C20_full_refuted :
  let c := y_c false in let s := y_s false in
  let t := after c s y_flood in let u := after c t (x_hdoor 1 :: repeat x_idle 900) in
  room t = false /\ q_en (m_ram t 1) = true /\ doorbells u = [] /\ quiet c u 1 /\ ~ active u 1 /\ begun c t (x_hdoor 1 :: repeat x_idle 900) = [].
Proof.
  cbv zeta. split; [vm_compute; reflexivity|]. split; [vm_compute; reflexivity|]. split; [vm_compute; reflexivity|]. split; [apply quietb_ok; vm_compute; reflexivity|].
  split; [vm_compute; discriminate|vm_compute; reflexivity].
Qed.
Print Assumptions C20_full_refuted.
