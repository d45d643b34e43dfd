(** The transmit engine, fpga/common/rtl/tx_engine.v (cited as te). *)
From Verif Require Import Base.Prelude Base.Bits Stream.Axis_model.
Local Open Scope Z_scope.

(** Parameters (te 33-82): DESC_TABLE_SIZE = 2 ^ [e_cl] (the table pointers wrap at a power of two, te 205-206),
    MAX_DESC_REQ, MAX_TX_SIZE, TX_BUFFER_SIZE, log2 of TX_BUFFER_STEP_SIZE, TX_BUFFER_OFFSET,
    DMA_CLIENT_LEN_WIDTH, DMA_LEN_WIDTH, RAM_ADDR_WIDTH, DESC_TABLE_DMA_OP_COUNT_WIDTH, TX_TAG_WIDTH, PTP_TS_ENABLE,
    TX_CHECKSUM_ENABLE.  Queue indices, pointers, request tags, destinations and host addresses are as wide as what
    comes in. *)
Record ecfg := mkEc {
  e_cl : nat; e_req : Z; e_max : Z; e_size : Z; e_sl : Z; e_off : Z;
  e_lw : Z; e_dlw : Z; e_raw : Z; e_cw : Z; e_ttw : Z; e_ptp : bool; e_csum : bool }.
Definition e_n (c : ecfg) : nat := (2 ^ e_cl c)%nat.
(** CL_TX_BUFFER_SIZE (te 209). *)
Definition e_bl (c : ecfg) : Z := Z.log2_up (e_size c).
Definition slot (c : ecfg) (p : nat) : nat := (p mod e_n c)%nat.
(** Table pointers have CL_DESC_TABLE_SIZE+1 bits (te 337-367). *)
Definition pnext (c : ecfg) (p : nat) : nat := (S p mod (2 * e_n c))%nat.
Definition pdiff (c : ecfg) (a b : nat) : nat := ((a + 2 * e_n c - b) mod (2 * e_n c))%nat.

(** A descriptor (te 540-545, 565-567): csum_start [23:16], csum_offset [30:24], csum_enable [31], length [63:32],
    address [127:64]. *)
Record desc := mkDesc { d_start : Z; d_coff : Z; d_cen : bool; d_len : Z; d_addr : Z }.
(** A DMA read request, a transmit request to the DMA client, a checksum command. *)
Record rd := mkRd { r_addr : Z; r_ram : Z; r_len : Z; r_tag : nat }.
Record txd := mkTxd { t_addr : Z; t_len : Z; t_tag : nat; t_id : Z; t_dest : Z; t_user : Z }.
Record ck := mkCk { k_en : bool; k_start : Z; k_coff : Z }.
(** A completion request with the fields of its record (te 768-779). *)
Record cpl := mkCpl { c_queue : Z; c_tag : nat; c_q : Z; c_ptr : Z; c_len : Z; c_ts : Z; c_dest : Z }.

(** Inputs of a cycle: rst; enable; request (queue, tag, dest); m_axis_desc_req_ready; answer to a descriptor request
    (tag, queue pointer, completion queue, empty or error); descriptor (tid, tlast); m_axis_cpl_req_ready; completion
    answer (tag); m_axis_dma_read_desc_ready; read done (tag); m_axis_tx_desc_ready; transmit DMA done (tag);
    m_axis_tx_csum_cmd_ready; transmit completion (tag, timestamp). *)
Record ein := mkEin {
  i_rst : bool; i_en : bool; i_req : option (Z * Z * Z); i_drdy : bool; i_ans : option (nat * Z * Z * bool);
  i_desc : option (desc * nat * bool); i_crdy : bool; i_cans : option nat; i_rrdy : bool; i_rdone : option nat;
  i_trdy : bool; i_tdone : option nat; i_krdy : bool; i_tcpl : option (Z * Z) }.
(** Outputs: s_axis_tx_req_ready; request status (length, tag); descriptor request (queue, tag); s_axis_desc_tready;
    completion request; DMA read; transmit descriptor; checksum command. *)
Record eout := mkEout {
  o_ready : bool; o_stat : option (Z * Z); o_dreq : option (Z * nat); o_dready : bool; o_cpl : option cpl;
  o_read : option rd; o_tx : option txd; o_ck : option ck }.

(** An entry of the descriptor table (te 301-335).  desc_table_data_fetched is written but not read. *)
Record entry := mkEn {
  n_act : bool; n_inv : bool; n_fet : bool; n_da : bool; n_db : bool; n_cw : bool;
  n_tag : Z; n_queue : Z; n_qptr : Z; n_cq : Z; n_dest : Z; n_cs : Z; n_co : Z; n_ce : bool;
  n_len : Z; n_buf : Z; n_ts : Z; n_com : bool; n_rs : Z; n_rf : Z }.

(** Registers (te 255-300, 337-367, 955-962).  A valid flag and what goes with it are one option.
    early_tx_req_status_valid_reg is never set: what sets it (te 603) is cleared in the same cycle (te 822).
    Simplified: active_desc_req_count is a number (no underflow on lawful runs: C62 quantifies over them); tags that
    index the table without a mask (te 741, 755, 873) are below its size on lawful runs; s_axis_tx_cpl_ready is not an
    output (it is high in every cycle but the first, and what is valid is taken whatever it says, te 752);
    s_axis_cpl_req_status_full and _error are not looked at by the code either. *)
Record est := mkEst {
  x_ready : bool; x_stat : option (Z * Z); x_dreq : option (Z * nat); x_dready : bool; x_cpl : option cpl;
  x_tx : option txd; x_ck : option ck; x_wr : Z; x_rd : Z; x_start : bool; x_len : Z; x_fin : option (Z * Z);
  x_cnt : Z; x_tab : nat -> entry; x_sp : nat; x_tp : nat; x_cp : nat; x_fp : nat; x_skid : skid rd }.

(** The ends of a buffer region that begins at [p]: te 667-671 and te 741-745. *)
Definition buf_after (c : ecfg) (p len : Z) : Z :=
  if e_size c - e_max c <? p mod 2 ^ e_bl c + len then (1 - p / 2 ^ e_bl c) * 2 ^ e_bl c
  else ((p + len + 2 ^ e_sl c - 1) / 2 ^ e_sl c * 2 ^ e_sl c) mod 2 ^ (e_bl c + 1).

(** What happens in a cycle, from the registers and the inputs.  A request accepted (te 577). *)
Definition v_req (s : est) (i : ein) : option (Z * Z * Z) := if x_ready s then i_req i else None.
(** A descriptor accepted, for an active entry (te 619-620). *)
Definition v_desc (c : ecfg) (s : est) (i : ein) : option (desc * nat * bool) :=
  if x_dready s then
    match i_desc i with Some (d, t, l) => if n_act (x_tab s (slot c t)) then Some (d, t, l) else None | None => None end
  else None.
(** desc_len_next before the end of the packet (te 622-626), and the length of the DMA read (te 642). *)
Definition v_len (c : ecfg) (s : est) (d : desc) : Z :=
  let l := (x_len s + d_len d) mod 2 ^ e_lw c in if e_max c <? l then e_max c else l.
Definition v_rlen (c : ecfg) (d : desc) : Z := d_len d mod 2 ^ e_dlw c.
(** The DMA read of that cycle (te 639-651). *)
Definition v_read (c : ecfg) (s : est) (i : ein) : option rd :=
  match v_desc c s i with
  | Some (d, t, _) =>
      if v_rlen c d =? 0 then None
      else Some (mkRd (d_addr d) ((x_wr s mod 2 ^ e_bl c + x_len s + e_off c) mod 2 ^ e_raw c) (v_rlen c d) (slot c t))
  | None => None
  end.
(** Transmit start (te 702-735): nothing, an invalid entry skipped, or a packet. *)
Inductive go := Wait | Skip | Go.
Definition v_tx (c : ecfg) (s : est) : go :=
  let e := x_tab s (slot c (x_tp s)) in
  if n_act e && negb (x_tp s =? x_sp s)%nat then
    if n_inv e then Skip
    else if n_fet e && n_com e && (n_rs e =? n_rf e) && isnone (x_tx s) && (isnone (x_ck s) || negb (e_csum c)) then Go
    else Wait
  else Wait.
(** Completion start (te 760-783); m_axis_cpl_req_valid_next is low if nothing is offered or it is taken. *)
Definition v_cpl (c : ecfg) (s : est) (i : ein) : go :=
  let e := x_tab s (slot c (x_cp s)) in
  if n_act e && negb (x_cp s =? x_sp s)%nat && negb (x_cp s =? x_tp s)%nat then
    if n_inv e then Skip
    else if xorb (n_da e) (n_db e) && (isnone (x_cpl s) || i_crdy i) then Go
    else Wait
  else Wait.
(** Operation complete (te 795-813). *)
Definition v_fin (c : ecfg) (s : est) : go :=
  let e := x_tab s (slot c (x_fp s)) in
  if n_act e && negb (x_fp s =? x_sp s)%nat && negb (x_fp s =? x_cp s)%nat && isnone (x_fin s) then
    if n_inv e then Skip else if n_cw e then Go else Wait
  else Wait.
Definition moves (g : go) : bool := match g with Wait => false | _ => true end.
(** A transmit completion with the top bit of its tag set (te 752), and its entry. *)
Definition v_tcpl (c : ecfg) (i : ein) : option (nat * Z) :=
  match i_tcpl i with
  | Some (t, ts) => if Z.testbit t (e_ttw c - 1) then Some (Z.to_nat (t mod Z.of_nat (e_n c)), ts) else None
  | None => None
  end.

Definition is_tag (o : option nat) (k : nat) : bool := match o with Some t => (t =? k)%nat | None => false end.

(** The next value of table entry [k] (te 881-945), from the descriptor accepted [vd] and the operation completed [vf];
    of two assignments to a register in one cycle the later one in the text counts. *)
Definition entry_upd (c : ecfg) (s : est) (i : ein) (vd : option (desc * nat * bool)) (vf : go) (k : nat) (e : entry) : entry :=
  let new := match v_req s i with Some _ => (slot c (x_sp s) =? k)%nat | None => false end in
  let ans := match i_ans i with Some (t, _, _, _) => (slot c t =? k)%nat | None => false end in
  let bad := match i_ans i with Some (_, _, _, b) => b | None => false end in
  let dv := match vd with Some (d, t, l) => if (slot c t =? k)%nat then Some (d, l) else None | None => None end in
  let first := match dv with Some _ => x_start s | None => false end in
  let tc := match v_tcpl c i with Some (t, ts) => if (t =? k)%nat then Some ts else None | None => None end in
  let rdone := is_tag (option_map (slot c) (i_rdone i)) k in
  let fin := moves vf && (slot c (x_fp s) =? k)%nat in
  mkEn
    (if fin then false else if new then true else n_act e)
    (if ans && bad then true else if new then false else n_inv e)
    (match dv with Some (_, true) => true | _ => if new then false else n_fet e end)
    (if new then n_db e else n_da e)
    (match tc with Some _ => negb (n_da e) | None => n_db e end)
    (if is_tag (option_map (slot c) (i_cans i)) k then true else if new then false else n_cw e)
    (match v_req s i with Some (_, t, _) => if new then t else n_tag e | None => n_tag e end)
    (match v_req s i with Some (q, _, _) => if new then q else n_queue e | None => n_queue e end)
    (match i_ans i with Some (_, p, _, _) => if ans then p else n_qptr e | None => n_qptr e end)
    (match i_ans i with Some (_, _, q, _) => if ans then q else n_cq e | None => n_cq e end)
    (match v_req s i with Some (_, _, d) => if new then d else n_dest e | None => n_dest e end)
    (match dv with Some (d, _) => if first then if e_csum c then d_start d mod 2 ^ 7 else 0 else n_cs e | None => n_cs e end)
    (match dv with Some (d, _) => if first then if e_csum c then d_coff d else 0 else n_co e | None => n_co e end)
    (match dv with Some (d, _) => if first then e_csum c && d_cen d else n_ce e | None => n_ce e end)
    (match dv with Some (d, true) => v_len c s d | _ => n_len e end)
    (if first then x_wr s else n_buf e)
    (match tc with Some ts => if e_ptp c then ts else n_ts e | None => n_ts e end)
    (match dv with
     | Some (d, l) => if negb (v_rlen c d =? 0) || l || first then l else n_com e
     | None => n_com e end)
    (match dv with
     | Some (d, _) =>
         if negb (v_rlen c d =? 0) then ((if first then n_rf e else n_rs e) + 1) mod 2 ^ e_cw c
         else if first then n_rf e else n_rs e
     | None => n_rs e end)
    (if rdone then (n_rf e + 1) mod 2 ^ e_cw c else n_rf e).
(** The same for what happens in this cycle. *)
Definition entry_next (c : ecfg) (s : est) (i : ein) (k : nat) (e : entry) : entry :=
  entry_upd c s i (v_desc c s i) (v_fin c s) k e.

(** What is offered when a packet starts (te 712-733); user is {1'b1, tag, 1'b0}.  [&] binds weaker than [+] in te 713. *)
Definition tx_of (c : ecfg) (p : nat) (e : entry) : txd :=
  mkTxd (Z.land (n_buf e) (2 ^ e_bl c - 1 + e_off c) mod 2 ^ e_raw c) (n_len e) (slot c p) (n_queue e) (n_dest e)
        (2 ^ e_ttw c + 2 * Z.of_nat (slot c p)).
Definition ck_of (e : entry) : ck := mkCk (n_ce e) (n_cs e) ((n_cs e + n_co e) mod 2 ^ 8).
(** The completion record (te 768-781). *)
Definition cpl_of (c : ecfg) (p : nat) (e : entry) : cpl :=
  mkCpl (n_cq e) (slot c p) (n_queue e mod 2 ^ 16) (n_qptr e mod 2 ^ 16) (n_len e mod 2 ^ 16)
        (if e_ptp c then n_ts e / 2 ^ 16 mod 2 ^ 48 else 0) (n_dest e mod 2 ^ 9).

(** One clock edge (te 475-962). *)
Definition e_step (c : ecfg) (s : est) (i : ein) : est * eout :=
  let e_at p := x_tab s (slot c p) in
  let early := i_rrdy i || (isnone (k_tmp (x_skid s)) && (isnone (k_out (x_skid s)) || isnone (v_read c s i))) in
  let fstat := match v_fin c s with Go => Some (n_len (e_at (x_fp s)), n_tag (e_at (x_fp s))) | _ => x_fin s end in
  let estat := match i_ans i with
               | Some (t, _, _, true) => Some (0, n_tag (x_tab s (slot c t)))
               | _ => None end in
  let inc := match v_req s i with Some _ => 1 | None => 0 end in
  let dec1 := match estat with Some _ => 1 | None => 0 end in
  let dec2 := match v_desc c s i with Some (_, _, true) => 1 | _ => 0 end in
  let s' := mkEst
    (match v_req s i with
     | Some _ => false
     | None => i_en i && (x_cnt s <? e_req c) && negb (n_act (e_at (x_sp s))) &&
               (pdiff c (x_sp s) (x_fp s) <? e_n c)%nat && (isnone (x_dreq s) || i_drdy i) end)
    (match estat with Some _ => estat | None => fstat end)
    (match v_req s i with Some (q, _, _) => Some (q, slot c (x_sp s)) | None => if i_drdy i then None else x_dreq s end)
    (early && ((x_wr s - x_rd s) mod 2 ^ (e_bl c + 1) <? e_size c - e_max c))
    (match v_cpl c s i with Go => Some (cpl_of c (x_cp s) (e_at (x_cp s))) | _ => if i_crdy i then None else x_cpl s end)
    (match v_tx c s with Go => Some (tx_of c (x_tp s) (e_at (x_tp s))) | _ => if i_trdy i then None else x_tx s end)
    (match v_tx c s with
     | Go => if e_csum c then Some (ck_of (e_at (x_tp s))) else if i_krdy i then None else x_ck s
     | _ => if i_krdy i then None else x_ck s end)
    (match v_desc c s i with Some (d, _, true) => buf_after c (x_wr s) (v_len c s d) | _ => x_wr s end)
    (match i_tdone i with Some t => buf_after c (n_buf (e_at t)) (n_len (e_at t)) | None => x_rd s end)
    (match v_desc c s i with Some (_, _, l) => l | None => x_start s end)
    (match v_desc c s i with Some (d, _, l) => if l then 0 else v_len c s d | None => x_len s end)
    (match estat with Some _ => fstat | None => None end)
    (x_cnt s + inc - dec1 - dec2)
    (let vd := v_desc c s i in let vf := v_fin c s in fun k => entry_upd c s i vd vf k (x_tab s k))
    (match v_req s i with Some _ => pnext c (x_sp s) | None => x_sp s end)
    (if moves (v_tx c s) then pnext c (x_tp s) else x_tp s)
    (if moves (v_cpl c s i) then pnext c (x_cp s) else x_cp s)
    (if moves (v_fin c s) then pnext c (x_fp s) else x_fp s)
    (skid_step (x_skid s) (v_read c s i) (i_rrdy i)) in
  let cleared e := mkEn false false false (n_da e) (n_db e) (n_cw e) (n_tag e) (n_queue e) (n_qptr e) (n_cq e) (n_dest e)
    (n_cs e) (n_co e) (n_ce e) (n_len e) (n_buf e) (n_ts e) (n_com e) (n_rs e) (n_rf e) in
  (if i_rst i then
     mkEst false None None false None None None 0 0 true 0 None 0 (fun k => cleared (x_tab s' k)) 0 0 0 0 skid0
   else s',
   mkEout (x_ready s) (x_stat s) (x_dreq s) (x_dready s) (x_cpl s) (k_out (x_skid s)) (x_tx s) (x_ck s)).

(** Power-on values (te 457-473 and the declarations). *)
Definition e_init : est :=
  mkEst false None None false None None None 0 0 true 0 None 0
    (fun _ => mkEn false false false false false false 0 0 0 0 0 0 0 false 0 0 0 false 0 0) 0 0 0 0 skid0.
