(** The completion writer, fpga/common/rtl/cpl_write.v (cited as cw). *)
From Verif Require Import Base.Prelude Base.Bits Stream.Axis_model.
Local Open Scope Z_scope.

(** Parameters (cw 18-50): DESC_TABLE_SIZE = 2 ^ [w_cl], PORTS, CPL_SIZE in bits, SEG_DATA_WIDTH, RAM_PIPELINE,
    $clog2(SEG_COUNT*SEG_BE_WIDTH), RAM_ADDR_WIDTH.  Queue indices, tags and host addresses are as wide as what
    comes in. *)
Record wcfg := mkWc { w_cl : nat; w_ports : nat; w_bits : Z; w_seg : Z; w_pipe : nat; w_sh : Z; w_raw : Z }.
Definition w_n (c : wcfg) : nat := (2 ^ w_cl c)%nat.
Definition wslot (c : wcfg) (p : nat) : nat := (p mod w_n c)%nat.
(** Table pointers have CL_DESC_TABLE_SIZE+1 bits (cw 198, 212). *)
Definition wnext (c : wcfg) (p : nat) : nat := (S p mod (2 * w_n c))%nat.
Definition wdiff (c : wcfg) (a b : nat) : nat := ((a + 2 * w_n c - b) mod (2 * w_n c))%nat.

(** A completion write request (cw 59-62), an answer of a queue manager (cw 85-90), a DMA write (cw 104-107). *)
Record creq := mkCr { q_sel : nat; q_queue : Z; q_tag : Z; q_data : Z }.
Record resp := mkRe { r_phase : bool; r_addr : Z; r_tag : nat; r_op : Z; r_full : bool; r_err : bool }.
Record wd := mkWd { d_addr : Z; d_ram : Z; d_len : Z; d_tag : nat }.

(** Inputs of a cycle: rst; enable; request; by port, m_axis_cpl_enqueue_req_ready, the answer offered, and
    m_axis_cpl_enqueue_commit_ready; m_axis_dma_write_desc_ready; write done (tag); by segment, the read command
    offered (address) and dma_ram_rd_resp_ready. *)
Record win := mkWin {
  i_rst : bool; i_en : bool; i_req : option creq; i_qrdy : nat -> bool; i_resp : nat -> option resp; i_crdy : nat -> bool;
  i_wrdy : bool; i_done : option nat; i_cmd : nat -> option Z; i_rrdy : nat -> bool }.
(** Outputs: s_axis_req_ready; status (tag, full, error); enqueue request (port, queue, tag); the port whose
    s_axis_cpl_enqueue_resp_ready is high; commit (port, operation tag); DMA write; by segment, dma_ram_rd_cmd_ready and
    the read response.  A vector with at most one bit set is an option. *)
Record wout := mkWout {
  o_ready : bool; o_stat : option (Z * bool * bool); o_enq : option (nat * Z * nat); o_rrdy : option nat;
  o_commit : option (nat * Z); o_write : option wd; o_cmdrdy : nat -> bool; o_data : nat -> option Z }.

(** An entry of the descriptor table (cw 184-196). *)
Record wentry := mkWe {
  n_act : bool; n_inv : bool; n_done : bool; n_sel : nat; n_tag : Z; n_data : Z; n_phase : bool; n_op : Z }.
(** Registers (cw 162-198, 212, 257-258).  A valid flag and what goes with it are one option.  The stages of a read
    pipeline are listed from the output back. *)
Record wst := mkWst {
  x_ready : bool; x_stat : option (Z * bool * bool); x_enq : option (nat * Z * nat); x_rrdy : option nat;
  x_commit : option (nat * Z); x_write : option wd; x_tab : nat -> wentry; x_sp : nat; x_fp : nat;
  x_pipe : nat -> list (option Z) }.

(** A stage takes what is behind it if it or a stage before it is empty or the output is taken (cw 269-279);
    cmd_ready likewise (cw 291). *)
Fixpoint pipe_step (go : bool) (l : list (option Z)) (x : option Z) : list (option Z) :=
  match l with
  | [] => []
  | y :: l =>
      let go := go || isnone y in
      (if go then match l with [] => x | z :: _ => z end else y) :: pipe_step go l x
  end.
Definition pipe_ready (rdy : bool) (l : list (option Z)) : bool := rdy || existsb isnone l.
(** What is read for segment [n] (cw 283): the phase bit over the data. *)
Definition word (c : wcfg) (e : wentry) : Z := (if n_phase e then 2 ^ (w_bits c - 1) else 0) + n_data e mod 2 ^ (w_bits c - 1).
Definition piece (c : wcfg) (n : nat) (x : Z) : Z := Z.shiftr x (w_seg c * Z.of_nat n) mod 2 ^ w_seg c.

(** A request accepted (cw 338). *)
Definition v_req (s : wst) (i : win) : option creq := if x_ready s then i_req i else None.
(** The answer processed (cw 240-249, 355): of the lowest port that offers one whose ready is low, if no DMA write is
    pending.  Its ready goes high in the next cycle; the answer must stay until then. *)
Definition v_resp (c : wcfg) (s : wst) (i : win) : option (nat * resp) :=
  if isnone (x_write s) then
    match find (fun p => negb (isnone (i_resp i p)) && negb (match x_rrdy s with Some q => (q =? p)%nat | None => false end)) (seq 0 (w_ports c)) with
    | Some p => match i_resp i p with Some r => Some (p, r) | None => None end
    | None => None
    end
  else None.
Definition bad (r : resp) : bool := r_err r || r_full r.
(** Operation complete (cw 397-411): nothing, an entry without a write dropped, or a commit. *)
Inductive go := Wait | Skip | Go.
Definition v_fin (c : wcfg) (s : wst) : go :=
  let e := x_tab s (wslot c (x_fp s)) in
  if n_act e && negb (x_fp s =? x_sp s)%nat then
    if n_inv e then Skip else if n_done e && isnone (x_commit s) then Go else Wait
  else Wait.
Definition moves (g : go) : bool := match g with Wait => false | _ => true end.

(** The next value of table entry [k] (cw 437-462); of two assignments to a register in one cycle the later one in the
    text counts. *)
Definition wentry_upd (c : wcfg) (s : wst) (i : win) (vr : option (nat * resp)) (vf : go) (k : nat) (e : wentry) : wentry :=
  let new := match v_req s i with Some r => if (wslot c (x_sp s) =? k)%nat then Some r else None | None => None end in
  let ans := match vr with Some (_, r) => if (wslot c (r_tag r) =? k)%nat then Some r else None | None => None end in
  mkWe
    (if moves vf && (wslot c (x_fp s) =? k)%nat then false else if isnone new then n_act e else true)
    (match ans with Some r => bad r | None => if isnone new then n_inv e else false end)
    (match i_done i with
     | Some t => if (wslot c t =? k)%nat then true else if isnone new then n_done e else false
     | None => if isnone new then n_done e else false end)
    (match new with Some r => q_sel r | None => n_sel e end)
    (match new with Some r => q_tag r | None => n_tag e end)
    (match new with Some r => q_data r | None => n_data e end)
    (match ans with Some r => r_phase r | None => n_phase e end)
    (match ans with Some r => r_op r | None => n_op e end).

(** [1 << p] in PORTS bits. *)
Definition onehot {A} (c : wcfg) (p : nat) (x : A) : option A := if (p <? w_ports c)%nat then Some x else None.

(** One clock edge (cw 299-480, and 268-291 for the read pipelines). *)
Definition w_step (c : wcfg) (s : wst) (i : win) : wst * wout :=
  let e_at p := x_tab s (wslot c p) in
  let vr := v_resp c s i in
  let vf := v_fin c s in
  let enq_free := match x_enq s with Some (p, _, _) => i_qrdy i p | None => true end in
  let cmdrdy n := pipe_ready (i_rrdy i n) (x_pipe s n) in
  let got n := match i_cmd i n with
               | Some a => if cmdrdy n then Some (piece c n (word c (e_at (Z.to_nat (a mod Z.of_nat (w_n c)))))) else None
               | None => None end in
  let s' := mkWst
    (match v_req s i with
     | Some _ => false
     | None => i_en i && negb (n_act (e_at (x_sp s))) && (wdiff c (x_sp s) (x_fp s) <? w_n c)%nat && enq_free end)
    (match vr with Some (_, r) => Some (n_tag (e_at (r_tag r)), r_full r, r_err r) | None => None end)
    (match v_req s i with
     | Some r => onehot c (q_sel r) (q_sel r, q_queue r, wslot c (x_sp s))
     | None => if enq_free then None else x_enq s end)
    (option_map fst vr)
    (match vf with
     | Go => onehot c (n_sel (e_at (x_fp s))) (n_sel (e_at (x_fp s)), n_op (e_at (x_fp s)))
     | _ => match x_commit s with Some (p, t) => if i_crdy i p then None else x_commit s | None => None end end)
    (match vr with
     | Some (_, r) =>
         if bad r then None
         else Some (mkWd (r_addr r) ((Z.of_nat (wslot c (r_tag r)) * 2 ^ w_sh c) mod 2 ^ w_raw c) (w_bits c / 8) (wslot c (r_tag r)))
     | None => if i_wrdy i then None else x_write s end)
    (fun k => wentry_upd c s i vr vf k (x_tab s k))
    (match v_req s i with Some _ => wnext c (x_sp s) | None => x_sp s end)
    (if moves vf then wnext c (x_fp s) else x_fp s)
    (fun n => pipe_step (i_rrdy i n) (x_pipe s n) (got n)) in
  let cleared e := mkWe false false (n_done e) (n_sel e) (n_tag e) (n_data e) (n_phase e) (n_op e) in
  (if i_rst i then
     mkWst false None None None None None (fun k => cleared (x_tab s' k)) 0 0 (fun n => repeat None (w_pipe c))
   else s',
   mkWout (x_ready s) (x_stat s) (x_enq s) (x_rrdy s) (x_commit s) (x_write s) cmdrdy (fun n => hd None (x_pipe s n))).

(** Power-on values (cw 162-198).  The contents of the distributed memories are unknown: [mem]. *)
Definition w_init (c : wcfg) (mem : nat -> wentry) : wst :=
  mkWst false None None None None None
    (fun k => let e := mem k in mkWe false false false (n_sel e) (n_tag e) (n_data e) (n_phase e) (n_op e)) 0 0 (fun n => repeat None (w_pipe c)).
