(** Vocabulary for the completion writer: a ledger of write requests, kept from what is handed over on its interfaces
    only. *)
From Verif Require Import Base.Prelude Base.Bits Rtl.Handshake_spec Stream.Axis_model Nic.CplWrite_model.
Local Open Scope Z_scope.

(** What is handed over in a cycle. *)
Definition req_in (i : win) (o : wout) : option creq := if o_ready o then i_req i else None.
Definition enq_out (i : win) (o : wout) : option (nat * Z * nat) :=
  match o_enq o with Some (p, q, t) => if i_qrdy i p then Some (p, q, t) else None | None => None end.
Definition resp_in (i : win) (o : wout) : option resp := match o_rrdy o with Some p => i_resp i p | None => None end.
Definition write_out (i : win) (o : wout) : option wd := if i_wrdy i then o_write o else None.
Definition commit_out (i : win) (o : wout) : option (nat * Z) :=
  match o_commit o with Some (p, t) => if i_crdy i p then Some (p, t) else None | None => None end.
Definition cmd_in (n : nat) (i : win) (o : wout) : option Z := if o_cmdrdy o n then i_cmd i n else None.
Definition data_out (n : nat) (i : win) (o : wout) : option Z := if i_rrdy i n then o_data o n else None.
Definition over {A} (f : win -> wout -> option A) (is : list win) (os : list wout) : list A :=
  somes (map (fun p => f (fst p) (snd p)) (combine is os)).

(** A request; whether its enqueue request was taken; the answer; whether its DMA write was taken, and reported done. *)
Record wop := mkWo { p_req : creq; p_asked : bool; p_ans : option resp; p_wr : bool; p_done : bool }.
(** The requests so far, and the answered ones in the order of the answers. *)
Record ledger := mkL { l_n : nat; l_op : nat -> wop; l_ans : list nat }.
Definition blank (r : creq) : wop := mkWo r false None false false.
Definition l0 : ledger := mkL 0 (fun _ => blank (mkCr 0 0 0 0)) [].
(** Request number [k] of [n] is the one a tag on an interface means: the newest with that tag. *)
Definition means (c : wcfg) (n k t : nat) : bool := ((k <? n) && (k mod w_n c =? t) && (n <=? k + w_n c))%nat.
Definition hit (c : wcfg) (n k : nat) (o : option nat) : bool := match o with Some t => means c n k t | None => false end.
Definition op_next (c : wcfg) (n : nat) (i : win) (o : wout) (k : nat) (p : wop) : wop :=
  mkWo (p_req p)
    (p_asked p || hit c n k (option_map snd (enq_out i o)))
    (match resp_in i o with Some r => if means c n k (r_tag r) then Some r else p_ans p | None => p_ans p end)
    (p_wr p || hit c n k (option_map d_tag (write_out i o)))
    (p_done p || hit c n k (i_done i)).
Definition keep (c : wcfg) (L : ledger) (io : win * wout) : ledger :=
  let (i, o) := io in
  let f k := op_next c (l_n L) i o k (l_op L k) in
  let a := l_ans L ++ match resp_in i o with Some r => filter (fun k => means c (l_n L) k (r_tag r)) (seq 0 (l_n L)) | None => [] end in
  match req_in i o with
  | Some r => mkL (S (l_n L)) (fun k => if (k =? l_n L)%nat then blank r else f k) a
  | None => mkL (l_n L) f a
  end.
Definition ledger_of (c : wcfg) (is : list win) (os : list wout) : ledger := fold_left (keep c) (combine is os) l0.

(** What the surroundings owe: requests are for a port there is; a queue manager answers what it was asked, once, and an
    answer stays until it is taken ([hold]: the answers offered in the cycle before and not taken); a DMA write is
    reported done once, after it was taken. *)
Definition owed (c : wcfg) (L : ledger) (hold : nat -> option resp) (i : win) (o : wout) : Prop :=
  let n := l_n L in let at_ k := l_op L k in
  i_rst i = false /\
  (forall r, req_in i o = Some r -> (q_sel r < w_ports c)%nat) /\
  (forall p r, (p < w_ports c)%nat -> hold p = Some r -> i_resp i p = Some r) /\
  (forall p r, (p < w_ports c)%nat -> i_resp i p = Some r -> exists k, means c n k (r_tag r) = true /\
     q_sel (p_req (at_ k)) = p /\ p_asked (at_ k) = true /\ p_ans (at_ k) = None) /\
  (forall t, i_done i = Some t -> exists k, means c n k t = true /\ p_wr (at_ k) = true /\ p_done (at_ k) = false).
Definition still (i : win) (o : wout) (p : nat) : option resp :=
  if match o_rrdy o with Some q => (q =? p)%nat | None => false end then None else i_resp i p.
Fixpoint lawful_from (c : wcfg) (L : ledger) (hold : nat -> option resp) (is : list win) (os : list wout) : Prop :=
  match is, os with
  | i :: is, o :: os => owed c L hold i o /\ lawful_from c (keep c L (i, o)) (still i o) is os
  | _, _ => True
  end.
Definition lawful (c : wcfg) := lawful_from c l0 (fun _ => None).

(** Parameters that fit together (cw 141-160). *)
Definition sane (c : wcfg) : Prop :=
  0 < w_bits c /\ 0 < w_seg c /\ (0 < w_pipe c)%nat /\ 0 <= w_sh c /\ Z.of_nat (w_cl c) + w_sh c <= w_raw c.
(** Power-up with any contents of the memories, or a reset in any reachable state. *)
Definition started (c : wcfg) (s : wst) : Prop :=
  (exists mem, s = w_init c mem) \/ exists mem js j, i_rst j = true /\ s = fst (trace (w_step c) (w_init c mem) (js ++ [j])).

(** The answer of a request lets it be written. *)
Definition goes (p : wop) : bool := match p_ans p with Some r => negb (r_full r) && negb (r_err r) | None => false end.
Definition refused (p : wop) : bool := match p_ans p with Some r => r_full r || r_err r | None => false end.
Definition status_of (p : wop) : Z * bool * bool :=
  match p_ans p with Some r => (q_tag (p_req p), r_full r, r_err r) | None => (0, false, false) end.
(** The DMA write of request [k]: from the row of the record memory that has its number, to the address of the answer. *)
Definition write_of (c : wcfg) (k : nat) (p : wop) : list wd :=
  match p_ans p with
  | Some r => if goes p then [mkWd (r_addr r) (Z.of_nat (k mod w_n c) * 2 ^ w_sh c) (w_bits c / 8) (k mod w_n c)] else []
  | None => []
  end.
(** A commit of request [k], written by then. *)
Definition commit_as (p : wop) (x : nat * Z) : Prop :=
  p_done p = true /\ exists r, p_ans p = Some r /\ x = (q_sel (p_req p), r_op r).
Definition passed (L : ledger) : list nat := filter (fun k => goes (l_op L k)) (seq 0 (l_n L)).
Definition settled (p : wop) : Prop := refused p = true \/ goes p = true /\ p_done p = true.

(** Bit [b] of the record to be written for a request: the data, its last bit replaced by the phase. *)
Definition record_bit (c : wcfg) (p : wop) (b : Z) : bool :=
  if b <? w_bits c - 1 then Z.testbit (q_data (p_req p)) b
  else if b =? w_bits c - 1 then match p_ans p with Some r => r_phase r | None => false end
  else false.
Definition data_ok (c : wcfg) (n : nat) (p : wop) (v : Z) : Prop :=
  forall j, 0 <= j < w_seg c -> Z.testbit v j = record_bit c p (w_seg c * Z.of_nat n + j).
(** What is read for it; a read of anything else may get anything. *)
Definition fits (c : wcfg) (n : nat) (e : option wop) (v : Z) : Prop := match e with Some p => data_ok c n p v | None => True end.
(** The requests read by the commands of segment [n]: those whose DMA write was taken and is not done. *)
Definition wanted (c : wcfg) (n : nat) (L : ledger) (i : win) (o : wout) : list (option wop) :=
  match cmd_in n i o with
  | Some a =>
      [option_map (l_op L) (find (fun k => means c (l_n L) k (Z.to_nat (a mod Z.of_nat (w_n c))) && p_wr (l_op L k) && negb (p_done (l_op L k)))
                                 (seq 0 (l_n L)))]
  | None => []
  end.
Fixpoint reads_from (c : wcfg) (n : nat) (L : ledger) (is : list win) (os : list wout) : list (option wop) :=
  match is, os with
  | i :: is, o :: os => wanted c n L i o ++ reads_from c n (keep c L (i, o)) is os
  | _, _ => []
  end.
Definition reads (c : wcfg) (n : nat) := reads_from c n l0.

(** A cycle in which everything offered is taken and nothing comes in; what the surroundings still owe a request. *)
Definition idle (c : wcfg) (i : win) : Prop :=
  i_rst i = false /\ i_en i = true /\ i_req i = None /\ i_done i = None /\ i_wrdy i = true /\
  (forall p, (p < w_ports c)%nat -> i_qrdy i p = true /\ i_resp i p = None /\ i_crdy i p = true).
Definition waits (p : wop) : Prop := p_asked p = true /\ p_ans p = None \/ p_wr p = true /\ p_done p = false.
