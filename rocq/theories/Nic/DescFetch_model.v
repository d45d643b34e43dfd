(** The descriptor fetcher, fpga/common/rtl/desc_fetch.v (cited as df). *)
From Verif Require Import Base.Prelude Base.Bits Stream.Axis_model.
Local Open Scope Z_scope.

(** Parameters (df 18-60): DESC_TABLE_SIZE = 2 ^ [f_cl], PORTS, CL_DESC_SIZE, LOG_BLOCK_SIZE_WIDTH, RAM_ADDR_WIDTH,
    DMA_LEN_WIDTH.  Queue indices, tags and host addresses are as wide as what comes in. *)
Record fcfg := mkFc { f_cl : nat; f_ports : nat; f_ds : Z; f_lb : Z; f_raw : Z; f_lw : Z }.
Definition f_n (c : fcfg) : nat := (2 ^ f_cl c)%nat.
Definition fslot (c : fcfg) (p : nat) : nat := (p mod f_n c)%nat.
(** Table pointers have CL_DESC_TABLE_SIZE+1 bits (df 237, 245, 249). *)
Definition fnext (c : fcfg) (p : nat) : nat := (S p mod (2 * f_n c))%nat.
Definition fdiff (c : fcfg) (a b : nat) : nat := ((a + 2 * f_n c - b) mod (2 * f_n c))%nat.

(** A descriptor request (df 69-73), an answer of a queue manager (df 108-118), a DMA read (df 130-135). *)
Record dreq := mkDr { q_sel : nat; q_queue : Z; q_tag : Z }.
Record dresp := mkDe { r_queue : Z; r_ptr : Z; r_addr : Z; r_bs : Z; r_cpl : Z; r_tag : Z; r_op : Z; r_empty : bool; r_err : bool }.
Record rd := mkRd { d_addr : Z; d_ram : Z; d_len : Z; d_tag : nat }.
(** A command to the reader that turns fetched descriptors into a stream (df 252-257, 366-376): where, how long, tag, tid.  The
    reader (dma_client_axis_source) and the memory (dma_psdpram), df 309-409, are not modelled: the command is an output
    and the reader's status an input. *)
Record rc := mkRc { c_ram : Z; c_len : Z; c_tag : nat; c_id : Z }.
(** Request status (df 78-84): queue, ptr, cpl, tag, empty, error. *)
Record dstat := mkDs { t_queue : Z; t_ptr : Z; t_cpl : Z; t_tag : Z; t_empty : bool; t_err : bool }.

(** Inputs of a cycle: rst; enable; request; by port, m_axis_desc_dequeue_req_ready, the answer offered, and
    m_axis_desc_dequeue_commit_ready; m_axis_dma_read_desc_ready; DMA read done (tag, error); dma_read_desc_ready; reader
    done (tag). *)
Record fin := mkFin {
  i_rst : bool; i_en : bool; i_req : option dreq; i_qrdy : nat -> bool; i_resp : nat -> option dresp; i_crdy : nat -> bool;
  i_drdy : bool; i_fet : option (nat * Z); i_rrdy : bool; i_done : option nat }.
(** Outputs: s_axis_req_ready; status; dequeue request (port, queue, tag); the port whose s_axis_desc_dequeue_resp_ready is
    high; commit (port, operation tag); DMA read; reader command.  A vector with at most one bit set is an option. *)
Record fout := mkFout {
  o_ready : bool; o_stat : option dstat; o_ask : option (nat * Z * Z); o_ack : option nat; o_commit : option (nat * Z);
  o_dma : option rd; o_cmd : option rc }.

(** An entry of the descriptor table (df 225-235). *)
Record fentry := mkFe { n_act : bool; n_fet : bool; n_done : bool; n_sel : nat; n_bs : Z; n_tag : Z; n_op : Z }.
(** Registers (df 195-257).  A valid flag and what goes with it are one option. *)
Record fst_ := mkFst {
  x_ready : bool; x_stat : option dstat; x_ask : option (nat * Z * Z); x_ack : option nat; x_commit : option (nat * Z);
  x_dma : option rd; x_cmd : option rc; x_cnt : Z; x_tab : nat -> fentry; x_sp : nat; x_rp : nat; x_fp : nat }.

(** A request accepted (df 463). *)
Definition v_req (s : fst_) (i : fin) : option dreq := if x_ready s then i_req i else None.
(** The answer processed (df 288-300, 476): of the lowest port that offers one whose
    ready is low, if no DMA read is pending and the table has room. *)
Definition v_room (c : fcfg) (s : fst_) : bool :=
  negb (n_act (x_tab s (fslot c (x_sp s)))) && (fdiff c (x_sp s) (x_fp s) <? f_n c)%nat.
Definition v_resp (c : fcfg) (s : fst_) (i : fin) : option (nat * dresp) :=
  if isnone (x_dma s) && v_room c s then
    match find (fun p => negb (isnone (i_resp i p)) && negb (match x_ack s with Some q => (q =? p)%nat | None => false end)) (seq 0 (f_ports c)) with
    | Some p => match i_resp i p with Some r => Some (p, r) | None => None end
    | None => None
    end
  else None.
Definition bad (r : dresp) : bool := r_err r || r_empty r.
(** Descriptor read start (df 526-527): of the commits only the one of the same port is looked at. *)
Definition v_read (c : fcfg) (s : fst_) : bool :=
  let e := x_tab s (fslot c (x_rp s)) in
  n_act e && negb (x_rp s =? x_sp s)%nat && n_fet e &&
  negb (match x_commit s with Some (p, _) => (p =? n_sel e)%nat | None => false end) && isnone (x_cmd s).
(** Operation complete (df 555-556). *)
Definition v_fin (c : fcfg) (s : fst_) : bool :=
  let e := x_tab s (fslot c (x_fp s)) in n_act e && negb (x_fp s =? x_sp s)%nat && n_done e.

(** The next value of table entry [k] (df 600-626); of two assignments to a register in one cycle the later one in the
    text counts.  The error a DMA read reports is not looked at (df 517-521). *)
Definition at_slot (c : fcfg) (k : nat) (t : option nat) : bool := match t with Some t => (fslot c t =? k)%nat | None => false end.
Definition fentry_upd (c : fcfg) (s : fst_) (i : fin) (vr : option (nat * dresp)) (vf : bool) (k : nat) (e : fentry) : fentry :=
  let new := match vr with Some (p, r) => if negb (bad r) && (fslot c (x_sp s) =? k)%nat then Some (p, r) else None | None => None end in
  mkFe
    (if vf && (fslot c (x_fp s) =? k)%nat then false else if isnone new then n_act e else true)
    (if at_slot c k (option_map fst (i_fet i)) then true else if isnone new then n_fet e else false)
    (if at_slot c k (i_done i) then true else if isnone new then n_done e else false)
    (match new with Some (p, _) => p | None => n_sel e end)
    (match new with Some (_, r) => r_bs r | None => n_bs e end)
    (match new with Some (_, r) => r_tag r | None => n_tag e end)
    (match new with Some (_, r) => r_op r | None => n_op e end).

(** [1 << p] in PORTS bits. *)
Definition onehot {A} (c : fcfg) (p : nat) (x : A) : option A := if (p <? f_ports c)%nat then Some x else None.
(** Where slot [k] keeps its descriptors (df 496, 536); how long they are (df 497, 537). *)
Definition row (c : fcfg) (k : nat) : Z := Z.shiftl (Z.of_nat k) (f_ds c + 2 ^ f_lb c - 1) mod 2 ^ f_raw c.
Definition len_of (c : fcfg) (w bs : Z) : Z := Z.shiftl (2 ^ f_ds c) bs mod 2 ^ w.
Definition one (b : bool) : Z := if b then 1 else 0.

(** One clock edge (df 411-649). *)
Definition f_step (c : fcfg) (s : fst_) (i : fin) : fst_ * fout :=
  let vr := v_resp c s i in
  let rd_ := v_read c s in
  let vf := v_fin c s in
  let er := x_tab s (fslot c (x_rp s)) in
  let ask_free := match x_ask s with Some (p, _, _) => i_qrdy i p | None => true end in
  let good := match vr with Some (_, r) => negb (bad r) | None => false end in
  let s' := mkFst
    (match v_req s i with
     | Some _ => false
     | None => i_en i && (x_cnt s <? Z.of_nat (f_n c)) && v_room c s && ask_free end)
    (match vr with Some (_, r) => Some (mkDs (r_queue r) (r_ptr r) (r_cpl r) (r_tag r) (r_empty r) (r_err r)) | None => None end)
    (match v_req s i with
     | Some r => onehot c (q_sel r) (q_sel r, q_queue r, q_tag r)
     | None => if ask_free then None else x_ask s end)
    (option_map fst vr)
    (if rd_ then onehot c (n_sel er) (n_sel er, n_op er)
     else match x_commit s with Some (p, t) => if i_crdy i p then None else x_commit s | None => None end)
    (match vr with
     | Some (_, r) =>
         if bad r then None
         else Some (mkRd (r_addr r) (row c (fslot c (x_sp s))) (len_of c (f_lw c) (r_bs r)) (fslot c (x_sp s)))
     | None => if i_drdy i then None else x_dma s end)
    (if rd_ then Some (mkRc (row c (fslot c (x_rp s))) (len_of c 8 (n_bs er)) (fslot c (x_rp s)) (n_tag er))
     else if i_rrdy i then None else x_cmd s)
    ((x_cnt s + one (negb (isnone (v_req s i))) - one (match vr with Some (_, r) => bad r | None => false end) - one (v_fin c s))
     mod 2 ^ (Z.of_nat (f_cl c) + 1))
    (fun k => fentry_upd c s i vr vf k (x_tab s k))
    (if good then fnext c (x_sp s) else x_sp s)
    (if rd_ then fnext c (x_rp s) else x_rp s)
    (if v_fin c s then fnext c (x_fp s) else x_fp s) in
  let cleared e := mkFe false false (n_done e) (n_sel e) (n_bs e) (n_tag e) (n_op e) in
  (if i_rst i then mkFst false None None None None None None 0 (fun k => cleared (x_tab s' k)) 0 0 0 else s',
   mkFout (x_ready s) (x_stat s) (x_ask s) (x_ack s) (x_commit s) (x_dma s) (x_cmd s)).

(** Power-on values (df 195-257).  The contents of the distributed memories are unknown: [mem]. *)
Definition f_init (mem : nat -> fentry) : fst_ :=
  mkFst false None None None None None None 0
    (fun k => let e := mem k in mkFe false false false (n_sel e) (n_bs e) (n_tag e) (n_op e)) 0 0 0.
