(** What C20 speaks about: the requests outstanding at the transmit engine, and
    whether a doorbell is still owed a look at the queue. *)
From Verif Require Import Base.Prelude Rtl.Handshake_spec Stream.Axis_model Stream.Fifo_model Sched.Rr_model Sched.Rr_spec.
Local Open Scope Z_scope.

(** A request that has begun and has not been answered: its queue, its tag, its
    number in the order of beginning, whether it began after the last doorbell
    for the queue under observation, and whether a later request of its queue
    has been answered meanwhile. *)
Record pend := mkP { p_q : Z; p_k : nat; p_n : nat; p_new : bool; p_over : bool }.
Definition old (p : pend) : pend := mkP (p_q p) (p_k p) (p_n p) false (p_over p).
Definition over (p : pend) : pend := mkP (p_q p) (p_k p) (p_n p) (p_new p) true.

(** The answer with tag [k]: the request is gone, earlier ones of the same queue
    have been overtaken. *)
Definition answer (k : nat) (ops : list pend) : list pend :=
  match find (fun p => Nat.eqb (p_k p) k) ops with
  | Some a => map (fun p => if (p_q p =? p_q a) && Nat.ltb (p_n p) (p_n a) then over p else p)
                  (filter (fun p => negb (Nat.eqb (p_k p) k)) ops)
  | None => ops
  end.

(** The observer of queue [q]: the unanswered requests, whether a doorbell is owed
    (it came, there was room for it, and no request begun after it has been
    answered empty), the number of requests so far. *)
Record mon := mkMon { n_ops : list pend; n_owed : bool; n_cnt : nat }.
Definition mon0 : mon := mkMon [] false 0.

(** The doorbell FIFO has a place; the module does not look. *)
Definition room (s : sst) : bool := (length (doorbells s) <? 256)%nat.
Definition rings (q : Z) (s : sst) (i : sin) : bool :=
  match i_door i with Some q' => (q' =? q) && room s | None => false end.

Definition mon_step (c : scfg) (q : Z) (s : sst) (i : sin) (m : mon) : mon :=
  if i_rst i then mkMon [] false (n_cnt m) else
  let paid := match i_st i with
    | Some (tag, false) => existsb (fun p => Nat.eqb (p_k p) (Z.to_nat tag) && (p_q p =? q) && p_new p) (n_ops m)
    | _ => false
    end in
  let ops1 := match i_st i with Some (tag, _) => answer (Z.to_nat tag) (n_ops m) | None => n_ops m end in
  let ops2 := if rings q s i then map old ops1 else ops1 in
  match begins c s i with
  | Some (r, k) => mkMon (ops2 ++ [mkP r k (n_cnt m) true false]) (rings q s i || (n_owed m && negb paid)) (S (n_cnt m))
  | None => mkMon ops2 (rings q s i || (n_owed m && negb paid)) (n_cnt m)
  end.

Fixpoint watch (c : scfg) (q : Z) (s : sst) (m : mon) (xs : list sin) : mon :=
  match xs with [] => m | x :: xs => watch c q (fst (s_step c s x)) (mon_step c q s x m) xs end.

(** The transmit engine answers requests that are outstanding, and does not answer
    a request of the queue empty after it has answered a later one of it. *)
Definition env_ok (q : Z) (m : mon) (i : sin) : Prop :=
  forall tag ne, i_rst i = false -> i_st i = Some (tag, ne) ->
    exists p, In p (n_ops m) /\ tag = Z.of_nat (p_k p) /\ (ne = false -> p_q p = q -> p_over p = false).
Fixpoint env_run (c : scfg) (q : Z) (s : sst) (m : mon) (xs : list sin) : Prop :=
  match xs with
  | [] => True
  | x :: xs => env_ok q m x /\ env_run c q (fst (s_step c s x)) (mon_step c q s x m) xs
  end.

(** Nothing is under way for the queue: no doorbell waits, no operation on it is in
    the pipe, no slot of the operation table is its. *)
Definition quiet (c : scfg) (s : sst) (q : Z) : Prop :=
  ~ In q (doorbells s) /\ (forall o, In o (pipe_ops s) -> pop_q o <> q) /\
  (forall k, (k < s_n c)%nat -> t_act (m_tab s) k = true -> t_q (m_tab s) k <> q).
(** The queue may transmit whatever the global enable bit says. *)
Definition permitted (c : scfg) (s : sst) (q : Z) : Prop :=
  q_en (m_ram s q) = true /\ (s_ctl c = true -> q_sch (m_ram s q) = true).
