(** Cycle-accurate model of fpga/common/rtl/queue_manager.v (descriptor queue
    manager, used for transmit and receive queues).

    Simplifications, all stated once here:
    - reset is the initial state only ([qm0]); reset in mid-operation is not
      modelled;
    - the 128-bit RAM word is a record of its fields (lines 211-218), the byte
      enables become field updates; bits 74:72 and 54, which no read uses, are
      left out;
    - the read data pipeline (lines 208-209, 668-672) is carried by the pipeline
      stage it belongs to: the RAM is read in the cycle an operation enters
      the pipeline and the value is shifted along with it;
    - AXI4-Lite addresses are given as (queue, register) pairs, which is how
      lines 263-266 slice them; AXI4-Lite write data and address are taken
      together, as line 372 does;
    - parameters are the defaults QUEUE_PTR_WIDTH = 16, LOG_QUEUE_SIZE_WIDTH = 4,
      LOG_BLOCK_SIZE_WIDTH = 2, CPL_INDEX_WIDTH = 16, ADDR_WIDTH = 64; the
      pipeline depth PIPELINE, OP_TABLE_SIZE ([N]), DESC_SIZE ([cld] = its log)
      and the number of queues are arbitrary. *)
From Verif Require Import Base.Prelude Base.Bits Rtl.OpTable_model.
Open Scope Z_scope.

(** One queue's RAM word, queue_manager.v:211-218. *)
Record qrec := mkQ {
  q_prod : Z;      (* [15:0]   *)
  q_cons : Z;      (* [31:16]  *)
  q_cqn  : Z;      (* [47:32]  *)
  q_lsz  : Z;      (* [51:48]  log queue size *)
  q_lblk : Z;      (* [53:52]  log descriptor block size *)
  q_en   : bool;   (* [55]     *)
  q_opi  : Z;      (* [63:56]  op table index of the last operation started *)
  q_base : Z       (* {[127:76], 12'd0} *) }.

(** queue_manager.v:276-282 (RAM initialised to zero). *)
Definition qrec0 : qrec := mkQ 0 0 0 0 0 false 0 0.

(** An operation in the pipeline: queue_manager.v:164-173 (op_*_pipe_reg,
    queue_ram_addr_pipeline_reg, axil_reg_pipeline_reg, write_data_pipeline_reg,
    write_strobe_pipeline_reg, req_tag_pipeline_reg). *)
Inductive pop :=
| PWrite (q reg data : Z) (strb : Z)
| PRead (q reg : Z)
| PFin (q ptr : Z)
| PReq (q tag : Z).

Definition pop_q (o : pop) : Z :=
  match o with
  | PWrite q _ _ _ => q | PRead q _ => q | PFin q _ => q | PReq q _ => q
  end.

(** Dequeue response register, queue_manager.v:177-187. *)
Record resp := mkResp {
  rs_queue : Z; rs_ptr : Z; rs_phase : bool; rs_addr : Z; rs_blk : Z;
  rs_cpl : Z; rs_tag : Z; rs_optag : Z; rs_empty : bool; rs_err : bool }.

Notation stage := (option (pop * qrec)).

Record qm := mkQm {
  m_ram  : Z -> qrec;
  m_pipe : list stage;       (* head = stage 0, last = stage PIPELINE-1 *)
  m_tab  : optab;
  m_resp : option resp;      (* m_axis_dequeue_resp_*_reg *)
  m_b    : bool;             (* s_axil_bvalid_reg *)
  m_r    : option Z;         (* s_axil_rvalid_reg, s_axil_rdata_reg *)
  m_db   : option Z;         (* m_axis_doorbell_valid_reg, _queue_reg *)
  m_crdy : bool;             (* s_axis_dequeue_commit_ready_reg *)
  m_awrdy : bool;            (* s_axil_awready_reg = s_axil_wready_reg *)
  m_arrdy : bool;            (* s_axil_arready_reg *)
  m_qrdy : bool              (* s_axis_dequeue_req_ready_reg *) }.

(** State after configuration and reset: queue_manager.v:126-295,
    589-610.  [d] = PIPELINE. *)
Definition qm0 (d : nat) : qm :=
  mkQm (fun _ => qrec0) (repeat None d) tab0 None false None None false
       false false false.

(** Inputs of one clock cycle. *)
Record qin := mkIn {
  i_aw : option (Z * Z * Z * Z);  (* awvalid && wvalid: queue, register, wdata, wstrb *)
  i_bready : bool;
  i_ar : option (Z * Z);          (* arvalid: queue, register *)
  i_rready : bool;
  i_req : option (Z * Z);         (* dequeue_req_valid: queue, tag *)
  i_rspready : bool;              (* m_axis_dequeue_resp_ready *)
  i_commit : option Z;            (* dequeue_commit_valid: op_tag *)
  i_enable : bool }.

(** queue_manager.v:357-369: the hazard loop for queue [q]. *)
Definition hazard (p : list stage) (q : Z) : bool :=
  existsb (fun st => match st with Some (o, _) => pop_q o =? q | None => false end) p.

Definition is_write (o : pop) := match o with PWrite _ _ _ _ => true | _ => false end.
Definition is_read (o : pop) := match o with PRead _ _ => true | _ => false end.
Definition is_fin (o : pop) := match o with PFin _ _ => true | _ => false end.
Definition is_req (o : pop) := match o with PReq _ _ => true | _ => false end.

(** Reduction of op_*_pipe_reg in lines 372, 385, 404. *)
Definition in_pipe (f : pop -> bool) (p : list stage) : bool :=
  existsb (fun st => match st with Some (o, _) => f o | None => false end) p.

Definition stage0_fin (p : list stage) : bool :=
  match p with Some (o, _) :: _ => is_fin o | _ => false end.

Definition is_some {A} (x : option A) : bool :=
  match x with Some _ => true | None => false end.

(** Stage 0 acceptance, queue_manager.v:371-414: AXI4-Lite write, 372-384. *)
Definition acc_write (s : qm) (i : qin) : option pop :=
  match i_aw i with
  | Some (q, r, dt, sb) =>
      if (negb (m_b s) || i_bready i) && negb (in_pipe is_write (m_pipe s))
         && negb (hazard (m_pipe s) q)
      then Some (PWrite q r dt sb) else None
  | None => None
  end.

(** AXI4-Lite read, queue_manager.v:385-393. *)
Definition acc_read (s : qm) (i : qin) : option pop :=
  match i_ar i with
  | Some (q, r) =>
      if (negb (is_some (m_r s)) || i_rready i)
         && negb (in_pipe is_read (m_pipe s)) && negb (hazard (m_pipe s) q)
      then Some (PRead q r) else None
  | None => None
  end.

(** Dequeue commit finalize, queue_manager.v:394-403. *)
Definition acc_fin (s : qm) : option pop :=
  let t := m_tab s in
  if t_active t (t_finish t) && t_commit t (t_finish t)
     && negb (stage0_fin (m_pipe s)) && negb (hazard (m_pipe s) (t_queue t (t_finish t)))
  then Some (PFin (t_queue t (t_finish t)) (t_ptr t (t_finish t))) else None.

(** Dequeue request, queue_manager.v:404-414. *)
Definition acc_req (s : qm) (i : qin) : option pop :=
  match i_req i with
  | Some (q, tag) =>
      if i_enable i && negb (t_active (m_tab s) (t_start (m_tab s)))
         && (negb (is_some (m_resp s)) || i_rspready i)
         && negb (in_pipe is_req (m_pipe s)) && negb (hazard (m_pipe s) q)
      then Some (PReq q tag) else None
  | None => None
  end.

Definition orelse {A} (x y : option A) : option A :=
  match x with Some _ => x | None => y end.

(** At most one operation enters the pipeline per cycle; priority
    write > read > finish > request (queue_manager.v:371-414). *)
Definition accept (s : qm) (i : qin) : option pop :=
  orelse (acc_write s i) (orelse (acc_read s i) (orelse (acc_fin s) (acc_req s i))).

(** queue_manager.v:268 (queue_active) and 272 (queue_ram_read_active_cons_ptr). *)
Definition q_active (t : optab) (q : Z) (d : qrec) : bool :=
  t_active t (q_opi d) && (t_queue t (q_opi d) =? q).

Definition active_cons (t : optab) (q : Z) (d : qrec) : Z :=
  if q_active t q d then t_ptr t (q_opi d) else q_cons d.

(** Base address field writes, queue_manager.v:470-485: byte enables 9,10,11
    (bits 15:12, 23:16, 31:24 of the base) follow wstrb[1..3]; 12..15 follow
    wstrb[0..3]. *)
Definition base_lo (base data strb : Z) : Z :=
  let b1 := if Z.testbit strb 1 then setbits base 12 4 (bits data 12 4) else base in
  let b2 := if Z.testbit strb 2 then setbits b1 16 8 (bits data 16 8) else b1 in
  if Z.testbit strb 3 then setbits b2 24 8 (bits data 24 8) else b2.

Definition base_hi (base data strb : Z) : Z :=
  let b0 := if Z.testbit strb 0 then setbits base 32 8 (bits data 0 8) else base in
  let b1 := if Z.testbit strb 1 then setbits b0 40 8 (bits data 8 8) else b0 in
  let b2 := if Z.testbit strb 2 then setbits b1 48 8 (bits data 16 8) else b1 in
  if Z.testbit strb 3 then setbits b2 56 8 (bits data 24 8) else b2.

(** AXI4-Lite write at the last stage, queue_manager.v:461-538.  Returns the new
    RAM word and whether a doorbell is raised. *)
Definition do_write (d : qrec) (reg data strb : Z) : qrec * bool :=
  let '(mkQ prod co cqn lsz lblk en opi base) := d in
  if reg =? 0 then
    (mkQ prod co cqn lsz lblk en opi (if en then base else base_lo base data strb), false)
  else if reg =? 1 then
    (mkQ prod co cqn lsz lblk en opi (if en then base else base_hi base data strb), false)
  else if (reg =? 2) || (reg =? 3) || (reg =? 4) then
    if bits data 16 16 =? 0x8001 then (d, false)
    else if bits data 16 16 =? 0x8002 then
      (if en then d
       else mkQ prod co cqn (bits data 0 4) (bits data 8 2) en opi base, false)
    else if bits data 24 8 =? 0xC0 then
      (if en then d else mkQ prod co (bits data 0 16) lsz lblk en opi base, false)
    else if bits data 16 16 =? 0x8080 then
      (mkQ (bits data 0 16) co cqn lsz lblk en opi base, en)
    else if bits data 16 16 =? 0x8090 then
      (if en then d else mkQ prod (bits data 0 16) cqn lsz lblk en opi base, false)
    else if bits data 8 24 =? 0x400001 then
      (mkQ prod co cqn lsz lblk (Z.testbit data 0) opi base, false)
    else (d, false)
  else (d, false).

(** AXI4-Lite read at the last stage, queue_manager.v:539-579. *)
Definition do_read (t : optab) (q : Z) (d : qrec) (reg : Z) : Z :=
  if reg =? 0 then bits (q_base d) 12 20 * 2 ^ 12
  else if reg =? 1 then bits (q_base d) 32 32
  else if reg =? 2 then b2z (q_en d) + 8 * b2z (q_active t q d)
  else if reg =? 3 then q_cqn d + q_lsz d * 2 ^ 24 + q_lblk d * 2 ^ 28
  else if reg =? 4 then q_prod d + q_cons d * 2 ^ 16
  else 0.

(** Dequeue request at the last stage, queue_manager.v:417-452. *)
Definition do_req (cld : Z) (t : optab) (q tag : Z) (d : qrec) : resp * bool :=
  let ptr := active_cons t q d in
  let err := negb (q_en d) in
  let empty := q_en d && (q_prod d =? ptr) in
  (mkResp q ptr (negb (Z.testbit ptr (q_lsz d)))
     ((q_base d + (ptr mod 2 ^ q_lsz d) * 2 ^ (cld + q_lblk d)) mod 2 ^ 64)
     (q_lblk d) (q_cqn d) tag (t_start t) empty err,
   negb err && negb empty).

(** What happens in one cycle, for the specification: an operation leaving the
    pipeline with its result, a finish entering it, and a commit recorded. *)
Inductive qev :=
| EvFin (q ptr : Z)
| EvCommit (tag : Z)
| EvReq (r : resp)
| EvWrite (q reg data strb : Z) (doorbell : bool)
| EvRead (q reg rdata : Z).

(** Per-cycle observation: internal events, the operation accepted, and what is
    handed over on the output channels in this cycle. *)
Record qobs := mkObs {
  o_ev : list qev;
  o_acc : option pop;
  o_done : option pop;
  o_resp : option resp;         (* m_axis_dequeue_resp valid && ready *)
  o_b : bool;                   (* s_axil_b valid && ready *)
  o_r : option Z;               (* s_axil_r valid && ready *)
  o_db : option Z;              (* m_axis_doorbell valid *)
  o_aw : option (Z * Z * Z * Z);(* s_axil_aw/w valid && ready *)
  o_ar : option (Z * Z);        (* s_axil_ar valid && ready *)
  o_req : option (Z * Z)        (* s_axis_dequeue_req valid && ready *) }.

(** Last-stage logic, queue_manager.v:416-579: what the operation leaving the
    pipeline does.  (At most one kind of operation occupies a stage, so the
    if/else chain on op_*_pipe_reg[PIPELINE-1] is a case on the stage.) *)
Definition last_stage (N cld : Z) (ram : Z -> qrec) (t : optab) (st : stage)
  : (Z -> qrec) * optab * option resp * bool * option Z * option Z * list qev :=
  match st with
  | None => (ram, t, None, false, None, None, [])
  | Some (PReq q tag, d) =>
      let '(r, ok) := do_req cld t q tag d in
      if ok then
        (zupd ram q (mkQ (q_prod d) (q_cons d) (q_cqn d) (q_lsz d) (q_lblk d) (q_en d)
                         (t_start t mod 2 ^ 8) (q_base d)),
         tab_start N t q ((rs_ptr r + 1) mod 2 ^ 16), Some r, false, None, None, [EvReq r])
      else (ram, t, Some r, false, None, None, [EvReq r])
  | Some (PFin q ptr, d) =>
      (zupd ram q (mkQ (q_prod d) ptr (q_cqn d) (q_lsz d) (q_lblk d) (q_en d)
                       (q_opi d) (q_base d)),
       t, None, false, None, None, [])
  | Some (PWrite q reg data strb, d) =>
      let '(d', db) := do_write d reg data strb in
      (zupd ram q d', t, None, true, None, (if db then Some q else None),
       [EvWrite q reg data strb db])
  | Some (PRead q reg, d) =>
      let v := do_read t q d reg in
      (ram, t, None, false, Some v, None, [EvRead q reg v])
  end.

(** One clock cycle, queue_manager.v:298-682. *)
Definition qm_step (N cld : Z) (s : qm) (i : qin) : qm * qobs :=
  let acc := accept s i in
  let st0 := match acc with
             | Some o => Some (o, m_ram s (pop_q o))   (* RAM read, line 668 *)
             | None => None
             end in
  let lst := last (m_pipe s) None in
  let '(ram', t1, rsp, b, r, db, evs) := last_stage N cld (m_ram s) (m_tab s) lst in
  (* op table: finish, start and commit in one cycle, lines 581-586, 628-635, 674-681 *)
  let '(t2, ev1) := match acc with
            | Some (PFin q ptr) => (tab_finish N t1, [EvFin q ptr])
            | _ => (t1, [])
            end in
  let '(t3, ev2) := match i_commit i with
            | Some tag => if m_crdy s then (tab_commit t2 tag, [EvCommit tag]) else (t2, [])
            | None => (t2, [])
            end in
  (mkQm ram' (st0 :: removelast (m_pipe s)) t3
     (match rsp with Some x => Some x
                   | None => if i_rspready i then None else m_resp s end)
     (b || (m_b s && negb (i_bready i)))
     (match r with Some x => Some x
                 | None => if i_rready i then None else m_r s end)
     db (i_enable i)
     (match acc with Some o => is_write o | None => false end)
     (match acc with Some o => is_read o | None => false end)
     (match acc with Some o => is_req o | None => false end),
   mkObs (evs ++ ev1 ++ ev2) acc (option_map fst lst)
     (if i_rspready i then m_resp s else None)
     (m_b s && i_bready i)
     (if i_rready i then m_r s else None)
     (m_db s)
     (if m_awrdy s then i_aw i else None)
     (if m_arrdy s then i_ar i else None)
     (if m_qrdy s then i_req i else None)).
