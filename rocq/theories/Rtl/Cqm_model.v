(** Cycle-accurate model of fpga/common/rtl/cpl_queue_manager.v (completion
    queue manager, also used for event queues).

    Simplifications, all stated once here:
    - reset is the initial state only ([qm0]);
    - the 128-bit RAM word is a record of its fields (lines 211-219), the byte
      enables become field updates; bits 75:64 and 52, which no read uses, are
      left out;
    - the read data pipeline (lines 208-209, 700-704) is carried by the pipeline
      stage it belongs to;
    - AXI4-Lite addresses are given as (queue, register) pairs (lines 263-266);
      write data and address are taken together (line 372);
    - parameters are the defaults QUEUE_PTR_WIDTH = 16, LOG_QUEUE_SIZE_WIDTH = 4,
      EVENT_WIDTH = 16, ADDR_WIDTH = 64; PIPELINE, OP_TABLE_SIZE ([N]), CPL_SIZE
      ([csz]) and the number of queues are arbitrary. *)
From Verif Require Import Base.Prelude Base.Bits Rtl.OpTable_model.
Open Scope Z_scope.

(** One queue's RAM word, cpl_queue_manager.v:211-219. *)
Record qrec := mkQ {
  q_prod : Z;      (* [15:0]   *)
  q_cons : Z;      (* [31:16]  *)
  q_evt  : Z;      (* [47:32]  event (queue) number *)
  q_lsz  : Z;      (* [51:48]  *)
  q_cont : bool;   (* [53]     continuous *)
  q_arm  : bool;   (* [54]     armed *)
  q_en   : bool;   (* [55]     *)
  q_opi  : Z;      (* [63:56]  *)
  q_base : Z       (* {[127:76], 12'd0} *) }.

(** cpl_queue_manager.v:276-282. *)
Definition qrec0 : qrec := mkQ 0 0 0 0 false false false 0 0.

(** An operation in the pipeline: cpl_queue_manager.v:164-173. *)
Inductive pop :=
| PWrite (q reg data : Z) (strb : Z)
| PRead (q reg : Z)
| PFin (q ptr : Z)
| PReq (q tag : Z).

Definition pop_q (o : pop) : Z :=
  match o with
  | PWrite q _ _ _ => q | PRead q _ => q | PFin q _ => q | PReq q _ => q
  end.

(** Enqueue response register, cpl_queue_manager.v:177-186. *)
Record resp := mkResp {
  rs_queue : Z; rs_ptr : Z; rs_phase : bool; rs_addr : Z; rs_event : Z;
  rs_tag : Z; rs_optag : Z; rs_full : bool; rs_err : bool }.

Notation stage := (option (pop * qrec)).

Record qm := mkQm {
  m_ram  : Z -> qrec;
  m_pipe : list stage;       (* head = stage 0, last = stage PIPELINE-1 *)
  m_tab  : optab;
  m_resp : option resp;      (* m_axis_enqueue_resp_*_reg *)
  m_b    : bool;             (* s_axil_bvalid_reg *)
  m_r    : option Z;         (* s_axil_rvalid_reg, s_axil_rdata_reg *)
  m_ev   : option (Z * Z);   (* m_axis_event_valid_reg, event, source *)
  m_crdy : bool;             (* s_axis_enqueue_commit_ready_reg *)
  m_awrdy : bool;            (* s_axil_awready_reg = s_axil_wready_reg *)
  m_arrdy : bool;            (* s_axil_arready_reg *)
  m_qrdy : bool              (* s_axis_enqueue_req_ready_reg *) }.

(** State after configuration and reset: cpl_queue_manager.v:276-296, 622-643. *)
Definition qm0 (d : nat) : qm :=
  mkQm (fun _ => qrec0) (repeat None d) tab0 None false None None false
       false false false.

(** Inputs of one clock cycle. *)
Record qin := mkIn {
  i_aw : option (Z * Z * Z * Z);  (* awvalid && wvalid: queue, register, wdata, wstrb *)
  i_bready : bool;
  i_ar : option (Z * Z);          (* arvalid: queue, register *)
  i_rready : bool;
  i_req : option (Z * Z);         (* enqueue_req_valid: queue, tag *)
  i_rspready : bool;              (* m_axis_enqueue_resp_ready *)
  i_commit : option Z;            (* enqueue_commit_valid: op_tag *)
  i_evready : bool;               (* m_axis_event_ready *)
  i_enable : bool }.

(** cpl_queue_manager.v:357-369: the hazard loop for queue [q]. *)
Definition hazard (p : list stage) (q : Z) : bool :=
  existsb (fun st => match st with Some (o, _) => pop_q o =? q | None => false end) p.

Definition is_write (o : pop) := match o with PWrite _ _ _ _ => true | _ => false end.
Definition is_read (o : pop) := match o with PRead _ _ => true | _ => false end.
Definition is_fin (o : pop) := match o with PFin _ _ => true | _ => false end.
Definition is_req (o : pop) := match o with PReq _ _ => true | _ => false end.

(** Reduction of op_*_pipe_reg in lines 372, 385, 394, 404. *)
Definition in_pipe (f : pop -> bool) (p : list stage) : bool :=
  existsb (fun st => match st with Some (o, _) => f o | None => false end) p.

Definition is_some {A} (x : option A) : bool :=
  match x with Some _ => true | None => false end.

(** Stage 0 acceptance: AXI4-Lite write, cpl_queue_manager.v:372-384. *)
Definition acc_write (s : qm) (i : qin) : option pop :=
  match i_aw i with
  | Some (q, r, dt, sb) =>
      if (negb (m_b s) || i_bready i) && negb (in_pipe is_write (m_pipe s))
         && negb (hazard (m_pipe s) q)
      then Some (PWrite q r dt sb) else None
  | None => None
  end.

(** AXI4-Lite read, cpl_queue_manager.v:385-393. *)
Definition acc_read (s : qm) (i : qin) : option pop :=
  match i_ar i with
  | Some (q, r) =>
      if (negb (is_some (m_r s)) || i_rready i)
         && negb (in_pipe is_read (m_pipe s)) && negb (hazard (m_pipe s) q)
      then Some (PRead q r) else None
  | None => None
  end.

(** Enqueue commit finalize, cpl_queue_manager.v:394-403. *)
Definition acc_fin (s : qm) (i : qin) : option pop :=
  let t := m_tab s in
  if t_active t (t_finish t) && t_commit t (t_finish t)
     && (negb (is_some (m_ev s)) || i_evready i)
     && negb (in_pipe is_fin (m_pipe s)) && negb (hazard (m_pipe s) (t_queue t (t_finish t)))
  then Some (PFin (t_queue t (t_finish t)) (t_ptr t (t_finish t))) else None.

(** Enqueue request, cpl_queue_manager.v:404-414. *)
Definition acc_req (s : qm) (i : qin) : option pop :=
  match i_req i with
  | Some (q, tag) =>
      if i_enable i && negb (t_active (m_tab s) (t_start (m_tab s)))
         && (negb (is_some (m_resp s)) || i_rspready i)
         && negb (in_pipe is_req (m_pipe s)) && negb (hazard (m_pipe s) q)
      then Some (PReq q tag) else None
  | None => None
  end.

Definition orelse {A} (x y : option A) : option A :=
  match x with Some _ => x | None => y end.

(** At most one operation enters the pipeline per cycle; priority
    write > read > finish > request (cpl_queue_manager.v:371-414). *)
Definition accept (s : qm) (i : qin) : option pop :=
  orelse (acc_write s i) (orelse (acc_read s i) (orelse (acc_fin s i) (acc_req s i))).

(** cpl_queue_manager.v:268 (queue_active), 272 (queue_ram_read_active_prod_ptr). *)
Definition q_active (t : optab) (q : Z) (d : qrec) : bool :=
  t_active t (q_opi d) && (t_queue t (q_opi d) =? q).

Definition active_prod (t : optab) (q : Z) (d : qrec) : Z :=
  if q_active t q d then t_ptr t (q_opi d) else q_prod d.

(** cpl_queue_manager.v:269-271 (queue_full): any bit of the 16-bit difference at
    or above the log size. *)
Definition q_full (t : optab) (q : Z) (d : qrec) : bool :=
  negb (Z.land ((active_prod t q d - q_cons d) mod 2 ^ 16)
               ((Z.shiftl (2 ^ 16 - 1) (q_lsz d)) mod 2 ^ 16) =? 0).

(** Base address field writes, cpl_queue_manager.v:482-497.  The low word takes
    its three byte enables from wstrb[2:0]: line 487 assigns the 4-bit strobe to
    a 3-bit slice, so that byte n of the data is enabled by wstrb[n-1]. *)
Definition base_lo (base data strb : Z) : Z :=
  let b1 := if Z.testbit strb 0 then setbits base 12 4 (bits data 12 4) else base in
  let b2 := if Z.testbit strb 1 then setbits b1 16 8 (bits data 16 8) else b1 in
  if Z.testbit strb 2 then setbits b2 24 8 (bits data 24 8) else b2.

Definition base_hi (base data strb : Z) : Z :=
  let b0 := if Z.testbit strb 0 then setbits base 32 8 (bits data 0 8) else base in
  let b1 := if Z.testbit strb 1 then setbits b0 40 8 (bits data 8 8) else b0 in
  let b2 := if Z.testbit strb 2 then setbits b1 48 8 (bits data 16 8) else b1 in
  if Z.testbit strb 3 then setbits b2 56 8 (bits data 24 8) else b2.

(** AXI4-Lite write at the last stage, cpl_queue_manager.v:472-571.  Returns the
    new RAM word and the event number if an event is raised. *)
Definition do_write (d : qrec) (reg data strb : Z) : qrec * option Z :=
  let '(mkQ prod co evt lsz cont arm en opi base) := d in
  if reg =? 0 then
    (mkQ prod co evt lsz cont arm en opi (if en then base else base_lo base data strb), None)
  else if reg =? 1 then
    (mkQ prod co evt lsz cont arm en opi (if en then base else base_hi base data strb), None)
  else if (reg =? 2) || (reg =? 3) then
    if bits data 16 16 =? 0x8001 then (d, None)
    else if bits data 16 16 =? 0x8002 then
      (if en then d else mkQ prod co evt (bits data 0 4) cont arm en opi base, None)
    else if bits data 24 8 =? 0xC0 then
      (if en then d else mkQ prod co (bits data 0 16) lsz cont arm en opi base, None)
    else if bits data 16 16 =? 0x8080 then
      (if en then d else mkQ (bits data 0 16) co evt lsz cont arm en opi base, None)
    else if bits data 16 16 =? 0x8090 then
      (mkQ prod (bits data 0 16) evt lsz cont arm en opi base, None)
    else if bits data 16 16 =? 0x8091 then
      if en && negb (prod =? bits data 0 16)
      then (mkQ prod (bits data 0 16) evt lsz cont false en opi base, Some evt)
      else (mkQ prod (bits data 0 16) evt lsz cont true en opi base, None)
    else if bits data 8 24 =? 0x400001 then
      (mkQ prod co evt lsz cont arm (Z.testbit data 0) opi base, None)
    else if bits data 8 24 =? 0x400002 then
      if en && Z.testbit data 0 && negb (prod =? co)
      then (mkQ prod co evt lsz cont false en opi base, Some evt)
      else (mkQ prod co evt lsz cont (Z.testbit data 0) en opi base, None)
    else (d, None)
  else (d, None).

(** AXI4-Lite read at the last stage, cpl_queue_manager.v:572-612. *)
Definition do_read (t : optab) (q : Z) (d : qrec) (reg : Z) : Z :=
  if reg =? 0 then bits (q_base d) 12 20 * 2 ^ 12
  else if reg =? 1 then bits (q_base d) 32 32
  else if reg =? 2 then
    q_evt d + b2z (q_en d) * 2 ^ 16 + b2z (q_arm d) * 2 ^ 17 + b2z (q_cont d) * 2 ^ 18
    + b2z (q_active t q d) * 2 ^ 19 + q_lsz d * 2 ^ 28
  else if reg =? 3 then q_prod d + q_cons d * 2 ^ 16
  else 0.

(** Enqueue request at the last stage, cpl_queue_manager.v:417-452. *)
Definition do_req (csz : Z) (t : optab) (q tag : Z) (d : qrec) : resp * bool :=
  let ptr := active_prod t q d in
  let err := negb (q_en d) in
  let full := q_en d && q_full t q d in
  (mkResp q ptr (negb (Z.testbit ptr (q_lsz d)))
     ((q_base d + (ptr mod 2 ^ q_lsz d) * csz) mod 2 ^ 64)
     (q_evt d) tag (t_start t) full err,
   negb err && negb full).

(** Commit at the last stage, cpl_queue_manager.v:453-471: new RAM word, and the
    event number if the queue is armed. *)
Definition do_fin (d : qrec) (ptr : Z) : qrec * option Z :=
  let '(mkQ prod co evt lsz cont arm en opi base) := d in
  if arm then (mkQ ptr co evt lsz cont cont en opi base, Some evt)
  else (mkQ ptr co evt lsz cont arm en opi base, None).

(** What happens in one cycle, for the specification: an operation leaving the
    pipeline with its result, a finish entering it (with the event its RAM word
    will raise), and a commit recorded. *)
Inductive qev :=
| EvFin (q ptr : Z) (ev : option Z)
| EvCommit (tag : Z)
| EvReq (r : resp)
| EvWrite (q reg data strb : Z) (ev : option Z)
| EvRead (q reg rdata : Z).

(** Per-cycle observation. *)
Record qobs := mkObs {
  o_ev : list qev;
  o_acc : option pop;
  o_done : option pop;
  o_resp : option resp;         (* m_axis_enqueue_resp valid && ready *)
  o_b : bool;                   (* s_axil_b valid && ready *)
  o_r : option Z;               (* s_axil_r valid && ready *)
  o_gen : option (Z * Z);       (* event, source loaded into the event register *)
  o_evt : option (Z * Z);       (* m_axis_event valid && ready *)
  o_aw : option (Z * Z * Z * Z);(* s_axil_aw/w valid && ready *)
  o_ar : option (Z * Z);        (* s_axil_ar valid && ready *)
  o_req : option (Z * Z)        (* s_axis_enqueue_req valid && ready *) }.

(** Last-stage logic, cpl_queue_manager.v:416-612. *)
Definition last_stage (N csz : Z) (ram : Z -> qrec) (t : optab) (st : stage)
  : (Z -> qrec) * optab * option resp * bool * option Z * option (Z * Z) * list qev :=
  match st with
  | None => (ram, t, None, false, None, None, [])
  | Some (PReq q tag, d) =>
      let '(r, ok) := do_req csz t q tag d in
      if ok then
        (zupd ram q (mkQ (q_prod d) (q_cons d) (q_evt d) (q_lsz d) (q_cont d) (q_arm d) (q_en d)
                         (t_start t mod 2 ^ 8) (q_base d)),
         tab_start N t q ((rs_ptr r + 1) mod 2 ^ 16), Some r, false, None, None, [EvReq r])
      else (ram, t, Some r, false, None, None, [EvReq r])
  | Some (PFin q ptr, d) =>
      let '(d', ev) := do_fin d ptr in
      (zupd ram q d', t, None, false, None, option_map (fun e => (e, q)) ev, [])
  | Some (PWrite q reg data strb, d) =>
      let '(d', ev) := do_write d reg data strb in
      (zupd ram q d', t, None, true, None, option_map (fun e => (e, q)) ev,
       [EvWrite q reg data strb ev])
  | Some (PRead q reg, d) =>
      let v := do_read t q d reg in
      (ram, t, None, false, Some v, None, [EvRead q reg v])
  end.

(** One clock cycle, cpl_queue_manager.v:298-715. *)
Definition qm_step (N csz : Z) (s : qm) (i : qin) : qm * qobs :=
  let acc := accept s i in
  let st0 := match acc with
             | Some o => Some (o, m_ram s (pop_q o))   (* RAM read, line 700 *)
             | None => None
             end in
  let lst := last (m_pipe s) None in
  let '(ram', t1, rsp, b, r, gen, evs) := last_stage N csz (m_ram s) (m_tab s) lst in
  (* op table: finish, start and commit in one cycle, lines 614-619, 661-668, 706-713 *)
  let '(t2, ev1) := match acc with
            | Some (PFin q ptr) => (tab_finish N t1, [EvFin q ptr (snd (do_fin (m_ram s q) ptr))])
            | _ => (t1, [])
            end in
  let '(t3, ev2) := match i_commit i with
            | Some tag => if m_crdy s then (tab_commit t2 tag, [EvCommit tag]) else (t2, [])
            | None => (t2, [])
            end in
  (mkQm ram' (st0 :: removelast (m_pipe s)) t3
     (match rsp with Some x => Some x
                   | None => if i_rspready i then None else m_resp s end)
     (b || (m_b s && negb (i_bready i)))
     (match r with Some x => Some x
                 | None => if i_rready i then None else m_r s end)
     (match gen with Some x => Some x
                   | None => if i_evready i then None else m_ev s end)
     (i_enable i)
     (match acc with Some o => is_write o | None => false end)
     (match acc with Some o => is_read o | None => false end)
     (match acc with Some o => is_req o | None => false end),
   mkObs (evs ++ ev1 ++ ev2) acc (option_map fst lst)
     (if i_rspready i then m_resp s else None)
     (m_b s && i_bready i)
     (if i_rready i then m_r s else None)
     gen
     (if i_evready i then m_ev s else None)
     (if m_awrdy s then i_aw i else None)
     (if m_arrdy s then i_ar i else None)
     (if m_qrdy s then i_req i else None)).
