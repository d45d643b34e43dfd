(** The receive engine, fpga/common/rtl/rx_engine.v (cited as re). *)
From Verif Require Import Base.Prelude Base.Bits Stream.Axis_model.
Local Open Scope Z_scope.

(** Parameters (re 42-85): DESC_TABLE_SIZE = 2 ^ [g_cl] (the table pointers wrap at a power of two, re 239-240),
    MAX_DESC_REQ, MAX_RX_SIZE, RX_BUFFER_SIZE, log2 of RX_BUFFER_STEP_SIZE, RX_BUFFER_OFFSET, DMA_CLIENT_LEN_WIDTH,
    DMA_LEN_WIDTH, RAM_ADDR_WIDTH, PTP_TS_ENABLE, RX_HASH_ENABLE, RX_CHECKSUM_ENABLE.  Queue indices, pointers, request
    tags, ids and host addresses are as wide as what comes in. *)
Record gcfg := mkGc {
  g_cl : nat; g_req : Z; g_max : Z; g_size : Z; g_sl : Z; g_off : Z; g_lw : Z; g_dlw : Z; g_raw : Z;
  g_ptp : bool; g_hash : bool; g_csum : bool }.
Definition g_n (c : gcfg) : nat := (2 ^ g_cl c)%nat.
(** CL_RX_BUFFER_SIZE (re 243). *)
Definition g_bl (c : gcfg) : Z := Z.log2_up (g_size c).
Definition slot (c : gcfg) (p : nat) : nat := (p mod g_n c)%nat.
(** Table pointers have CL_DESC_TABLE_SIZE+1 bits (re 378, 392, 404, 407, 411). *)
Definition pnext (c : gcfg) (p : nat) : nat := (S p mod (2 * g_n c))%nat.
Definition pdiff (c : gcfg) (a b : nat) : nat := ((a + 2 * g_n c - b) mod (2 * g_n c))%nat.

(** A descriptor (re 666-668): length [63:32], address [127:64].  A DMA write (re 665-676). *)
Record desc := mkDesc { d_len : Z; d_addr : Z }.
Record wr := mkWr { w_addr : Z; w_ram : Z; w_len : Z; w_tag : nat }.
(** A receive command to the DMA client (re 690-693); its status (re 705-714), with the user signal in its parts. *)
Record rxd := mkRxd { x_addr : Z; x_room : Z; x_tag : nat }.
Record rxs := mkRxs { r_len : Z; r_id : Z; r_ts : Z; r_hash : Z; r_ht : Z }.
(** A completion request with the fields of its record (re 867-888). *)
Record cpl := mkCpl {
  c_queue : Z; c_tag : nat; c_q : Z; c_ptr : Z; c_len : Z; c_ts : Z; c_csum : Z; c_hash : Z; c_ht : Z; c_id : Z }.

(** Inputs of a cycle: rst; enable; mtu; request (tag); m_axis_rx_desc_ready; receive status (tag, what was received);
    answer of mqnic_rx_queue_map (tag, queue; re 477-560: that module, which is C48, is not part of this model);
    m_axis_desc_req_ready; answer to a descriptor request (tag, queue pointer, completion queue, empty or error);
    descriptor (tid, tlast); m_axis_dma_write_desc_ready; write done (tag); checksum; m_axis_cpl_req_ready; completion
    answer (tag).  The error fields of the receive and write statuses are not looked at by the code. *)
Record gin := mkGin {
  i_rst : bool; i_en : bool; i_mtu : Z; i_req : option Z; i_rxrdy : bool; i_rx : option (nat * rxs); i_map : option (nat * Z);
  i_drdy : bool; i_ans : option (nat * Z * Z * bool); i_desc : option (desc * nat * bool); i_wrdy : bool; i_wdone : option nat;
  i_csum : option Z; i_crdy : bool; i_cans : option nat }.
(** Outputs: s_axis_rx_req_ready; request status (length, tag); receive command; descriptor request (queue, tag);
    s_axis_desc_tready; DMA write; s_axis_rx_csum_ready; completion request. *)
Record gout := mkGout {
  o_ready : bool; o_stat : option (Z * Z); o_rx : option rxd; o_dreq : option (Z * nat); o_dready : bool; o_write : option wr;
  o_cready : bool; o_cpl : option cpl }.

(** An entry of the descriptor table (re 336-376).  desc_fetched, desc_len, read_commit and the write counts are written
    but not read. *)
Record entry := mkEn {
  n_act : bool; n_done : bool; n_inv : bool; n_wr : bool; n_cw : bool;
  n_tag : Z; n_queue : Z; n_qptr : Z; n_cq : Z; n_len : Z; n_id : Z; n_buf : Z; n_ts : Z; n_hash : Z; n_ht : Z; n_ck : Z }.

(** Registers (re 296-334, 378-411, 1071-1082).  A valid flag and what goes with it are one option; desc_start_reg only
    goes into the write counts.  Simplified: active_desc_req_count is a number; tags that index the table without a mask
    (re 671, 1012-1041) are below its size on lawful runs. *)
Record gst := mkGst {
  x_ready : bool; x_stat : option (Z * Z); x_rx : option rxd; x_dreq : option (Z * nat); x_dready : bool; x_cready : bool;
  x_cpl : option cpl; x_mtu : Z; x_wr : Z; x_rd : Z; x_done : bool; x_len : Z; x_cnt : Z; x_tab : nat -> entry;
  x_sp : nat; x_dp : nat; x_kp : nat; x_cp : nat; x_fp : nat; x_skid : skid wr }.

(** The end of the buffer region that begins at [p]: re 696-700, 851-855, 862-866. *)
Definition buf_after (c : gcfg) (p mtu : Z) : Z :=
  if g_size c - g_max c <? p mod 2 ^ g_bl c + mtu then (1 - p / 2 ^ g_bl c) * 2 ^ g_bl c
  else ((p + mtu + 2 ^ g_sl c - 1) / 2 ^ g_sl c * 2 ^ g_sl c) mod 2 ^ (g_bl c + 1).

(** What happens in a cycle, from the registers and the inputs.  A request accepted (re 681). *)
Definition v_req (s : gst) (i : gin) : option Z := if x_ready s then i_req i else None.
(** Descriptor request (re 724-725). *)
Definition v_deq (c : gcfg) (s : gst) : bool :=
  let e := x_tab s (slot c (x_dp s)) in
  n_act e && negb (x_dp s =? x_sp s)%nat && n_done e && isnone (x_dreq s) && (x_cnt s <? g_req c).
(** A descriptor accepted, for an active entry (re 767-768). *)
Definition v_desc (c : gcfg) (s : gst) (i : gin) : option (desc * nat * bool) :=
  if x_dready s then
    match i_desc i with Some (d, t, l) => if n_act (x_tab s (slot c t)) then Some (d, t, l) else None | None => None end
  else None.
(** What is left of the packet, in 32 bits; whether the descriptor is shorter; the length written (re 777-784). *)
Definition v_left (c : gcfg) (s : gst) (t : nat) : Z := (n_len (x_tab s (slot c t)) - x_len s) mod 2 ^ 32.
Definition v_short (c : gcfg) (s : gst) (d : desc) (t : nat) : bool := d_len d <? v_left c s t.
Definition v_wlen (c : gcfg) (s : gst) (d : desc) (t : nat) : Z := (if v_short c s d t then d_len d else v_left c s t) mod 2 ^ g_dlw c.
(** The DMA write of that cycle (re 775-794). *)
Definition v_write (c : gcfg) (s : gst) (i : gin) : option wr :=
  match v_desc c s i with
  | Some (d, t, _) =>
      if (v_wlen c s d t =? 0) || x_done s then None
      else Some (mkWr (d_addr d) ((n_buf (x_tab s (slot c t)) mod 2 ^ g_bl c + x_len s + g_off c) mod 2 ^ g_raw c) (v_wlen c s d t) (slot c t))
  | None => None
  end.
Inductive go := Wait | Skip | Go.
Definition moves (g : go) : bool := match g with Wait => false | _ => true end.
(** Store checksum (re 827-841): nothing, an invalid entry skipped, or a checksum. *)
Definition v_ckon (c : gcfg) (s : gst) : bool :=
  n_act (x_tab s (slot c (x_kp s))) && negb (x_kp s =? x_sp s)%nat && g_csum c.
Definition v_ck (c : gcfg) (s : gst) (i : gin) : go :=
  if v_ckon c s then
    if n_inv (x_tab s (slot c (x_kp s))) then Skip
    else if x_cready s && negb (isnone (i_csum i)) then Go else Wait
  else Wait.
(** Completion start (re 844-891); m_axis_cpl_req_valid_next is low if nothing is offered or it is taken. *)
Definition v_cpl (c : gcfg) (s : gst) (i : gin) : go :=
  let e := x_tab s (slot c (x_cp s)) in
  if n_act e && negb (x_cp s =? x_sp s)%nat && negb (x_cp s =? x_dp s)%nat && (negb (x_cp s =? x_kp s)%nat || negb (g_csum c)) then
    if n_inv e then Skip
    else if n_wr e && (isnone (x_cpl s) || i_crdy i) then Go
    else Wait
  else Wait.
(** Operation complete (re 902-920). *)
Definition v_fin (c : gcfg) (s : gst) : go :=
  let e := x_tab s (slot c (x_fp s)) in
  if n_act e && negb (x_fp s =? x_sp s)%nat && negb (x_fp s =? x_cp s)%nat then
    if n_inv e then Skip else if n_cw e then Go else Wait
  else Wait.

Definition is_tag (c : gcfg) (o : option nat) (k : nat) : bool := match o with Some t => (slot c t =? k)%nat | None => false end.

(** The next value of table entry [k] (re 962-1027), from the checksum stored [vk] and the operation completed [vf]; of
    two assignments to a register in one cycle the later one in the text counts.  Simplified: the checksum stored for an
    invalid entry that is skipped, which is not used, is the old one. *)
Definition entry_upd (c : gcfg) (s : gst) (i : gin) (vk vf : go) (k : nat) (e : entry) : entry :=
  let new := match v_req s i with Some _ => (slot c (x_sp s) =? k)%nat | None => false end in
  let rx := match i_rx i with Some (t, r) => if (slot c t =? k)%nat then Some r else None | None => None end in
  let qm := match i_map i with Some (t, q) => if (slot c t =? k)%nat then Some q else None | None => None end in
  let ans := match i_ans i with Some (t, p, q, b) => if (slot c t =? k)%nat then Some (p, q, b) else None | None => None end in
  let fin := moves vf && (slot c (x_fp s) =? k)%nat in
  mkEn
    (if fin then false else if new then true else n_act e)
    (match qm with Some _ => true | None => if new then false else n_done e end)
    (match ans with Some (_, _, true) => true | _ => if new then false else n_inv e end)
    (if is_tag c (i_wdone i) k then true else if new then false else n_wr e)
    (if is_tag c (i_cans i) k then true else if new then false else n_cw e)
    (match v_req s i with Some t => if new then t else n_tag e | None => n_tag e end)
    (match qm with Some q => q | None => n_queue e end)
    (match ans with Some (p, _, _) => p | None => n_qptr e end)
    (match ans with Some (_, q, _) => q | None => n_cq e end)
    (match rx with Some r => r_len r mod 2 ^ g_lw c | None => n_len e end)
    (match rx with Some r => r_id r | None => n_id e end)
    (if new then x_wr s else n_buf e)
    (match rx with Some r => r_ts r | None => n_ts e end)
    (match rx with Some r => r_hash r mod 2 ^ 32 | None => n_hash e end)
    (match rx with Some r => r_ht r mod 2 ^ 4 | None => n_ht e end)
    (match vk, i_csum i with Go, Some v => if (slot c (x_kp s) =? k)%nat then v else n_ck e | _, _ => n_ck e end).
(** The same for what happens in this cycle. *)
Definition entry_next (c : gcfg) (s : gst) (i : gin) (k : nat) (e : entry) : entry :=
  entry_upd c s i (v_ck c s i) (v_fin c s) k e.

(** The completion record (re 868-888). *)
Definition cpl_of (c : gcfg) (p : nat) (e : entry) : cpl :=
  mkCpl (n_cq e) (slot c p) (n_queue e mod 2 ^ 16) (n_qptr e mod 2 ^ 16) (n_len e mod 2 ^ 16)
        (if g_ptp c then n_ts e / 2 ^ 16 mod 2 ^ 48 else 0) (if g_csum c then n_ck e mod 2 ^ 16 else 0)
        (if g_hash c then n_hash e else 0) (if g_hash c then n_ht e else 0) (n_id e mod 2 ^ 9).

(** One clock edge (re 591-1166). *)
Definition g_step (c : gcfg) (s : gst) (i : gin) : gst * gout :=
  let e_at p := x_tab s (slot c p) in
  let early := i_wrdy i || (isnone (k_tmp (x_skid s)) && (isnone (k_out (x_skid s)) || isnone (v_write c s i))) in
  let inc := if v_deq c s then 1 else 0 in
  let dec1 := match i_ans i with Some (_, _, _, true) => 1 | _ => 0 end in
  let dec2 := match v_desc c s i with Some (_, _, true) => 1 | _ => 0 end in
  let s' := mkGst
    (match v_req s i with
     | Some _ => false
     | None => i_en i && ((x_wr s - x_rd s) mod 2 ^ (g_bl c + 1) <? g_size c - g_max c) && negb (n_act (e_at (x_sp s))) &&
               (pdiff c (x_sp s) (x_fp s) <? g_n c)%nat && (isnone (x_rx s) || i_rxrdy i) end)
    (match v_fin c s with
     | Wait => None
     | Skip => Some (0, n_tag (e_at (x_fp s)))
     | Go => Some (n_len (e_at (x_fp s)), n_tag (e_at (x_fp s))) end)
    (match v_req s i with
     | Some _ => Some (mkRxd ((x_wr s mod 2 ^ g_bl c + g_off c) mod 2 ^ g_raw c) (x_mtu s) (slot c (x_sp s)))
     | None => if i_rxrdy i then None else x_rx s end)
    (if v_deq c s then Some (n_queue (e_at (x_dp s)), slot c (x_dp s)) else if i_drdy i then None else x_dreq s)
    early
    (v_ckon c s && match v_ck c s i with Wait => true | _ => false end)
    (match v_cpl c s i with Go => Some (cpl_of c (x_cp s) (e_at (x_cp s))) | _ => if i_crdy i then None else x_cpl s end)
    (if g_max c <? i_mtu i then g_max c else i_mtu i)
    (match v_req s i with Some _ => buf_after c (x_wr s) (x_mtu s) | None => x_wr s end)
    (if moves (v_cpl c s i) then buf_after c (n_buf (e_at (x_cp s))) (x_mtu s) else x_rd s)
    (match v_desc c s i with Some (d, t, l) => if l then false else x_done s || negb (v_short c s d t) | None => x_done s end)
    (match v_desc c s i with Some (d, _, l) => if l then 0 else (x_len s + d_len d) mod 2 ^ g_lw c | None => x_len s end)
    (x_cnt s + inc - dec1 - dec2)
    (let vk := v_ck c s i in let vf := v_fin c s in fun k => entry_upd c s i vk vf k (x_tab s k))
    (match v_req s i with Some _ => pnext c (x_sp s) | None => x_sp s end)
    (if v_deq c s then pnext c (x_dp s) else x_dp s)
    (if moves (v_ck c s i) then pnext c (x_kp s) else x_kp s)
    (if moves (v_cpl c s i) then pnext c (x_cp s) else x_cp s)
    (if moves (v_fin c s) then pnext c (x_fp s) else x_fp s)
    (skid_step (x_skid s) (v_write c s i) (i_wrdy i)) in
  let cleared e := mkEn false false false false (n_cw e) (n_tag e) (n_queue e) (n_qptr e) (n_cq e) (n_len e) (n_id e) (n_buf e)
    (n_ts e) (n_hash e) (n_ht e) (n_ck e) in
  (if i_rst i then
     mkGst false None None None false false None (x_mtu s') 0 0 false 0 0 (fun k => cleared (x_tab s' k)) 0 0 0 0 0 skid0
   else s',
   mkGout (x_ready s) (x_stat s) (x_rx s) (x_dreq s) (x_dready s) (k_out (x_skid s)) (x_cready s) (x_cpl s)).

(** Power-on values (re 296-411, 571-589, 1071-1082). *)
Definition g_init : gst :=
  mkGst false None None None false false None 0 0 0 false 0 0
    (fun _ => mkEn false false false false false 0 0 0 0 0 0 0 0 0 0 0) 0 0 0 0 0 skid0.
