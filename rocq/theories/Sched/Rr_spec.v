(** What the claims about the round-robin scheduler (C19-C21) speak about. *)
From Verif Require Import Base.Prelude Rtl.Handshake_spec Stream.Axis_model Stream.Fifo_model Sched.Rr_model.
Local Open Scope Z_scope.

(** Parameters the module can be used with: the tail index has eight bits. *)
Definition cfg_ok (c : scfg) : Prop := (2 <= s_n c <= 256)%nat /\ (1 <= s_qw c)%nat /\ (2 <= s_pl c)%nat.
Definition in_range (c : scfg) (q : Z) : Prop := 0 <= q < 2 ^ Z.of_nat (s_qw c).
(** Queue numbers fit their ports. *)
Definition in_ok (c : scfg) (i : sin) : Prop :=
  (forall q, i_door i = Some q -> in_range c q) /\ (forall q e, i_ctl i = Some (q, e) -> in_range c q).
(** A register write that enables a queue selects the byte the enable bit is in. *)
Definition strobed (i : sin) : Prop :=
  forall a d sb, i_aw i = Some (a, d, sb) -> Z.testbit d 0 = true -> Z.testbit sb 0 = true.

Definition power_on (c : scfg) (s : sst) : Prop := exists m1 m2 ft fs, s = s_init c m1 m2 ft fs.
(** State and outputs of a run. *)
Definition after (c : scfg) (s : sst) (xs : list sin) : sst := fst (trace (s_step c) s xs).
Definition outs (c : scfg) (s : sst) (xs : list sin) : list sout := snd (trace (s_step c) s xs).

(** The words in a FIFO, oldest first: those in its output registers, then those
    in its memory. *)
Definition contents (a : nat) (s : fifo) : list Z :=
  map tdata (somes (z_pipe s)) ++
  map (fun k => tdata (w_mem (z_w s) ((z_rd s + Z.of_nat k) mod depth_of a)))
      (seq 0 (Z.to_nat (pdiff a (w_cm (z_w s)) (z_rd s)))).
(** The queues waiting for their turn. *)
Definition waiting (c : scfg) (s : sst) : list Z := contents (s_qw c) (m_rr s).
(** Doorbells not yet looked at. *)
Definition doorbells (s : sst) : list Z := contents 8 (m_db s).
(** Operations in the pipeline. *)
Definition pipe_ops (s : sst) : list pop := map fst (somes (m_pipe s)).
(** The queues whose turn it is. *)
Definition turn (s : sst) : list Z :=
  flat_map (fun o => match o with PReq q _ => [q] | _ => [] end) (pipe_ops s).
(** A queue whose state has been cleared after reset. *)
Definition ready (s : sst) (q : Z) : Prop := (m_init s = true \/ q < m_ix s) /\ ~ In (PInit q) (pipe_ops s).

(** The transmit request port. *)
Definition port (s : sst) : option (Z * nat) := guard (m_rv s) (m_rq s, m_rt s).
(** The request that begins to be presented after a cycle: the port is valid,
    and not because it still held an earlier request. *)
Definition begins (c : scfg) (s : sst) (i : sin) : option (Z * nat) :=
  match port (fst (s_step c s i)) with
  | Some r => match port s with Some _ => if i_reqrdy i then Some r else None | None => Some r end
  | None => None
  end.
(** The requests begun during a run, in order. *)
Fixpoint begun (c : scfg) (s : sst) (xs : list sin) : list (Z * nat) :=
  match xs with
  | [] => []
  | x :: xs => olist (begins c s x) ++ begun c (fst (s_step c s x)) xs
  end.
(** A queue may transmit: it is enabled, also by the scheduler control when there
    is one. *)
Definition enabled (c : scfg) (s : sst) (q : Z) : Prop :=
  q_en (m_ram s q) = true /\ (s_ctl c = true -> q_gl (m_ram s q) = true \/ q_sch (m_ram s q) = true).
Definition active (s : sst) (q : Z) : Prop := q_act (m_ram s q) = true.
Definition scheduled (s : sst) (q : Z) : Prop := q_sd (m_ram s q) = true.
(** [P] holds in every state of a run, the first and the last included. *)
Definition during (c : scfg) (s : sst) (xs : list sin) (P : sst -> Prop) : Prop :=
  forall n, P (after c s (firstn n xs)).

(** The enable bit the register writes and the clearing after reset leave. *)
Definition en_after (q : Z) (b : bool) (o : option pop) : bool :=
  match o with
  | Some (PWrite q' d sb) => if (q' =? q) && Z.testbit sb 0 then Z.testbit d 0 else b
  | Some (PInit q') => if q' =? q then false else b
  | _ => b
  end.
(** The word a register read returns. *)
Definition status_word (c : scfg) (d : qrec) (w : Z) : Prop :=
  0 <= w < 2 ^ 32 /\ Z.testbit w 0 = q_en d /\ Z.testbit w 16 = q_act d /\ Z.testbit w 24 = q_sd d /\
  Z.testbit w 1 = (s_ctl c && q_gl d) /\ Z.testbit w 2 = (s_ctl c && q_sch d).
