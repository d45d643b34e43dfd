(** Cycle-accurate model of fpga/common/rtl/tx_scheduler_rr.v (round-robin
    transmit scheduler) with its two instances of axis_fifo
    ([Stream.Fifo_model]) and its priority_encoder ([Stream.Arb_model]).

    Simplifications, all stated once here:
    - the 16-bit RAM word is a record of its fields (180-185), byte enables
      become updates of the low byte and of the tail index; bits 5:3, which
      nothing uses, are left out;
    - the read data pipeline (845-849) and the address and data pipelines are
      carried by the stage they belong to;
    - AXI4-Lite write data and address are taken together (497);
    - s_axis_tx_req_status_len enters only through its comparison with zero;
    - AXIL_DATA_WIDTH is 32 (checked at 113). *)
From Verif Require Import Base.Prelude Stream.Axis_model Stream.Fifo_model Stream.Arb_model.
Local Open Scope Z_scope.

(** Parameters (27-34): OP_TABLE_SIZE, QUEUE_INDEX_WIDTH, PIPELINE and
    SCHED_CTRL_ENABLE. *)
Record scfg := mkSc { s_n : nat; s_qw : nat; s_pl : nat; s_ctl : bool }.

(** CL_OP_TABLE_SIZE (101). *)
Definition cl (c : scfg) : nat := Nat.log2_up (s_n c).

(** One queue's RAM word (180-185). *)
Record qrec := mkQ {
  q_en : bool;    (* [0] enabled *)
  q_gl : bool;    (* [1] global enable *)
  q_sch : bool;   (* [2] sched enable *)
  q_act : bool;   (* [6] active *)
  q_sd : bool;    (* [7] scheduled *)
  q_tail : nat    (* [15:8] tail index in the operation table *) }.

(** An operation in the pipeline (143-155): the kind, the queue (151), and what
    the write data (152), strobe (153) and operation index (155) pipelines hold
    for it. *)
Inductive pop :=
| PInit (q : Z)
| PWrite (q data strb : Z)
| PRead (q : Z)
| PDoor (q : Z)
| PFin (q : Z) (i : nat) (more : bool)
| PCtl (q : Z) (en : bool)
| PReq (q : Z) (i : nat).

Definition pop_q (o : pop) : Z :=
  match o with
  | PInit q => q | PWrite q _ _ => q | PRead q => q | PDoor q => q | PFin q _ _ => q
  | PCtl q _ => q | PReq q _ => q
  end.

Notation stage := (option (pop * qrec)).

(** The operation table (187-197). *)
Record optab := mkT {
  t_act : nat -> bool; t_q : nat -> Z; t_db : nat -> bool; t_head : nat -> bool;
  t_next : nat -> nat; t_prev : nat -> nat }.

Record sst := mkS {
  m_ram : Z -> qrec;           (* queue_ram *)
  m_pipe : list stage;         (* head = stage 0, last = stage PIPELINE-1 *)
  m_tab : optab;
  m_fw : Z; m_fr : Z;          (* finish_fifo_wr_ptr_reg, finish_fifo_rd_ptr_reg *)
  m_ftag : Z -> Z; m_fst : Z -> bool;   (* finish_fifo_tag, finish_fifo_status *)
  m_fv : bool; m_fp : nat; m_fs : bool; (* finish_valid_reg, finish_ptr_reg, finish_status_reg *)
  m_init : bool; m_ix : Z;     (* init_reg, init_index_reg *)
  m_cnt : Z;                   (* active_queue_count_reg *)
  m_rv : bool; m_rq : Z; m_rt : nat;    (* m_axis_tx_req_valid_reg, queue, tag *)
  m_crdy : bool;               (* s_axis_sched_ctrl_ready_reg *)
  m_awrdy : bool;              (* s_axil_awready_reg = s_axil_wready_reg *)
  m_b : bool;                  (* s_axil_bvalid_reg *)
  m_arrdy : bool;              (* s_axil_arready_reg *)
  m_r : bool; m_rd : Z;        (* s_axil_rvalid_reg, s_axil_rdata_reg *)
  m_db : fifo;                 (* doorbell_fifo *)
  m_rr : fifo                  (* rr_fifo *) }.

(** Inputs of one cycle (37-96). *)
Record sin := mkIn {
  i_rst : bool;
  i_st : option (Z * bool);       (* tx_req_status_valid: tag, len != 0 *)
  i_door : option Z;              (* doorbell_valid: queue *)
  i_ctl : option (Z * bool);      (* sched_ctrl_valid: queue, enable *)
  i_aw : option (Z * Z * Z);      (* awvalid && wvalid: awaddr, wdata, wstrb *)
  i_bready : bool;
  i_ar : option Z;                (* arvalid: araddr *)
  i_rready : bool;
  i_reqrdy : bool;                (* m_axis_tx_req_ready *)
  i_enable : bool }.

(** Outputs of one cycle; [o_acc] is the operation entering the pipeline and
    [o_done] the one leaving it, which are not outputs of the module and serve
    the specification. *)
Record sout := mkOut {
  o_req : option (Z * nat);       (* m_axis_tx_req: queue, tag *)
  o_crdy : bool;
  o_awrdy : bool;
  o_b : bool;
  o_arrdy : bool;
  o_r : option Z;
  o_active : bool;                (* active (248) *)
  o_acc : option pop;
  o_done : option pop }.

(** The parameters of the two FIFOs (259-269, 308-318 and axis_fifo.v:34-96). *)
Definition fcfg_of (aw : nat) : fcfg :=
  mkFcfg aw 1 false false 1 1 false false false false false false
         (mkAx false 1 false false false false).
Definition db_cfg : fcfg := fcfg_of 8.
Definition rr_cfg (c : scfg) : fcfg := fcfg_of (s_qw c).
(** The other stream inputs are tied to zero (274-282, 323-331). *)
Definition qbeat (q : Z) : beat := mkBeat q 0 false 0 0 0.
(** axis_doorbell_fifo_valid and _queue, axis_scheduler_fifo_out_valid and _queue
    (255-257, 304-306). *)
Definition fifo_head (f : fcfg) (s : fifo) : option Z := option_map tdata (m_vis f s).

(** s_axil_awaddr_queue, s_axil_araddr_queue (250-251). *)
Definition queue_of (c : scfg) (addr : Z) : Z := Z.shiftr addr 2 mod 2 ^ Z.of_nat (s_qw c).

(** The hazard loop for queue [q] (473-482). *)
Definition hazard (p : list stage) (q : Z) : bool :=
  existsb (fun st : stage => match st with Some (o, _) => pop_q o =? q | None => false end) p.

Definition is_write (o : pop) := match o with PWrite _ _ _ => true | _ => false end.
Definition is_read (o : pop) := match o with PRead _ => true | _ => false end.
Definition is_req (o : pop) := match o with PReq _ _ => true | _ => false end.
Definition is_fin (o : pop) := match o with PFin _ _ _ => true | _ => false end.
Definition is_ctl (o : pop) := match o with PCtl _ _ => true | _ => false end.
Definition holds_op (f : pop -> bool) (st : stage) : bool :=
  match st with Some (o, _) => f o | None => false end.

(** op_table_start_ptr_valid and op_table_start_ptr (349-358). *)
Definition start_valid (c : scfg) (t : optab) : bool := pe_valid (s_n c) true (fun i => negb (t_act t i)).
Definition start_ptr (c : scfg) (t : optab) : nat := pe_encoded (s_n c) true (fun i => negb (t_act t i)).

Definition orelse {A} (x y : option A) : option A := match x with Some _ => x | None => y end.
Definition guard {A} (b : bool) (x : A) : option A := if b then Some x else None.

(** * Stage 0 (484-559) *)
(** Internal operation (485-496). *)
Definition acc_init (c : scfg) (s : sst) : option pop :=
  guard (negb (m_init s) && negb (hazard (m_pipe s) (m_ix s))) (PInit (m_ix s)).
(** 497-508. *)
Definition acc_write (c : scfg) (s : sst) (i : sin) : option pop :=
  match i_aw i with
  | Some (a, d, sb) =>
      guard ((negb (m_b s) || i_bready i) && negb (existsb (holds_op is_write) (m_pipe s))
             && negb (hazard (m_pipe s) (queue_of c a))) (PWrite (queue_of c a) d sb)
  | None => None
  end.
(** 509-516. *)
Definition acc_read (c : scfg) (s : sst) (i : sin) : option pop :=
  match i_ar i with
  | Some a =>
      guard ((negb (m_r s) || i_rready i) && negb (existsb (holds_op is_read) (m_pipe s))
             && negb (hazard (m_pipe s) (queue_of c a))) (PRead (queue_of c a))
  | None => None
  end.
(** 517-524. *)
Definition acc_door (c : scfg) (s : sst) : option pop :=
  match fifo_head db_cfg (m_db s) with
  | Some q => guard (negb (hazard (m_pipe s) q)) (PDoor q)
  | None => None
  end.
(** 525-535. *)
Definition acc_fin (c : scfg) (s : sst) : option pop :=
  guard (m_fv s && negb (holds_op is_fin (hd None (m_pipe s))) && negb (hazard (m_pipe s) (t_q (m_tab s) (m_fp s))))
        (PFin (t_q (m_tab s) (m_fp s)) (m_fp s) (m_fs s || t_db (m_tab s) (m_fp s))).
(** 536-545. *)
Definition acc_ctl (c : scfg) (s : sst) (i : sin) : option pop :=
  match i_ctl i with
  | Some (q, e) =>
      guard (s_ctl c && negb (holds_op is_ctl (hd None (m_pipe s))) && negb (hazard (m_pipe s) q)) (PCtl q e)
  | None => None
  end.
(** 546-559. *)
Definition acc_req (c : scfg) (s : sst) (i : sin) : option pop :=
  match fifo_head (rr_cfg c) (m_rr s) with
  | Some q =>
      guard (i_enable i && start_valid c (m_tab s) && (negb (m_rv s) || i_reqrdy i)
             && negb (existsb (holds_op is_req) (m_pipe s)) && negb (hazard (m_pipe s) q))
            (PReq q (start_ptr c (m_tab s)))
  | None => None
  end.
(** At most one operation enters the pipeline (484-559). *)
Definition accept (c : scfg) (s : sst) (i : sin) : option pop :=
  orelse (acc_init c s) (orelse (acc_write c s i) (orelse (acc_read c s i) (orelse (acc_door c s)
    (orelse (acc_fin c s) (orelse (acc_ctl c s i) (acc_req c s i)))))).

(** queue_ram_read_data_op_tail_index (185): the low CL_OP_TABLE_SIZE bits of
    the field. *)
Definition tail_ix (c : scfg) (d : qrec) : nat := (q_tail d mod 2 ^ cl c)%nat.
(** queue_tail_active (253). *)
Definition tail_active (c : scfg) (t : optab) (q : Z) (d : qrec) : bool :=
  t_act t (tail_ix c d) && (t_q t (tail_ix c d) =? q).

(** The enable test of a doorbell and of a transmit request (586, 620). *)
Definition may (c : scfg) (d : qrec) : bool := q_en d && (negb (s_ctl c) || q_gl d || q_sch d).

(** What the last stage does (561-736): the new low byte of the RAM word, the
    new tail index, the queue pushed to the scheduler FIFO, the change of
    active_queue_count, the operation table writes (doorbell, release, next,
    prev), the request issued. *)
Record eff := mkE {
  e_low : option qrec;            (* queue_ram_be[0]: bits 7:0 *)
  e_tail : option nat;            (* queue_ram_be[1]: bits 15:8 *)
  e_push : option Z;              (* axis_scheduler_fifo_in_valid, _queue *)
  e_cnt : Z;
  e_door : option nat;            (* op_table_doorbell_en, _ptr *)
  e_rel : option nat;             (* op_table_release_en, _ptr *)
  e_next : option (nat * nat);    (* op_table_update_next_en: ptr, index *)
  e_prev : option (nat * nat * bool); (* op_table_update_prev_en: ptr, index, is_head *)
  e_req : option (Z * nat);       (* m_axis_tx_req_queue_next, _tag_next *)
  e_issue : bool;                 (* m_axis_tx_req_valid_next set *)
  e_b : bool;                     (* s_axil_bvalid_next set *)
  e_r : option Z                  (* s_axil_rvalid_next set, s_axil_rdata_next *) }.
Definition eff0 : eff := mkE None None None 0 None None None None None false false None.

(** Internal operation (562-575). *)
Definition do_init (c : scfg) (d : qrec) : eff :=
  mkE (Some (mkQ false (if s_ctl c then false else q_gl d) (if s_ctl c then false else q_sch d) false false (q_tail d)))
      None None 0 None None None None None false false None.

(** Doorbell (576-599). *)
Definition do_door (c : scfg) (t : optab) (q : Z) (d : qrec) : eff :=
  let go := may c d && negb (q_sd d) in
  mkE (Some (mkQ (q_en d) (q_gl d) (q_sch d) true (if go then true else q_sd d) (q_tail d))) None
      (guard go q) (if go then 1 else 0) (guard (tail_active c t q d) (tail_ix c d)) None None None None false false None.

(** Transmit request (600-648). *)
Definition do_req (c : scfg) (t : optab) (q : Z) (i : nat) (d : qrec) : eff :=
  let linked := tail_active c t q d && negb (Nat.eqb i (tail_ix c d)) in
  if may c d && q_act d && q_sd d then
    mkE (Some (mkQ (q_en d) (q_gl d) (q_sch d) (q_act d) true (q_tail d))) (Some (i mod 2 ^ 8)%nat) (Some q) 0
        None None (guard linked (tail_ix c d, i)) (Some (i, tail_ix c d, negb linked))
        (Some (q, i)) true false None
  else
    mkE (Some (mkQ (q_en d) (q_gl d) (q_sch d) (q_act d) false (q_tail d))) None None (if q_sd d then -1 else 0)
        None (Some i) None None (Some (q, i)) false false None.

(** Completion (649-686).  Line 676 tests bit 1 of the write data, which a completion never sets. *)
Definition do_fin (c : scfg) (t : optab) (q : Z) (i : nat) (more : bool) (d : qrec) : eff :=
  let go := more && (negb (s_ctl c) || false || q_sch d) && negb (q_sd d) in
  mkE (Some (mkQ (q_en d) (q_gl d) (q_sch d) more (if go then true else q_sd d) (q_tail d))) None
      (guard go q) (if go then 1 else 0)
      (guard (negb (t_head t i) && t_db t i) (t_prev t i)) (Some i)
      (guard (negb (t_head t i)) (t_prev t i, t_next t i))
      (guard (negb (Nat.eqb i (tail_ix c d))) (t_next t i, t_prev t i, t_head t i)) None false false None.

(** Scheduler control (687-703). *)
Definition do_ctl (c : scfg) (q : Z) (e : bool) (d : qrec) : eff :=
  let go := q_en d && q_act d && (q_gl d || e) && negb (q_sd d) in
  mkE (Some (mkQ (q_en d) (q_gl d) e (q_act d) (if go then true else q_sd d) (q_tail d))) None
      (guard go q) (if go then 1 else 0) None None None None None false false None.

(** AXI4-Lite write (704-723). *)
Definition do_write (c : scfg) (q data strb : Z) (d : qrec) : eff :=
  let go := Z.testbit data 0 && q_act d && (negb (s_ctl c) || Z.testbit data 1 || q_sch d) && negb (q_sd d) in
  mkE (guard (Z.testbit strb 0)
        (mkQ (Z.testbit data 0) (Z.testbit data 1) (q_sch d) (q_act d) (if go then true else q_sd d) (q_tail d))) None
      (guard go q) (if go then 1 else 0) None None None None None false true None.

(** AXI4-Lite read (724-736). *)
Definition do_read (c : scfg) (d : qrec) : eff :=
  mkE None None None 0 None None None None None false false
    (Some (Z.b2z (q_en d) + (if s_ctl c then Z.b2z (q_gl d) * 2 + Z.b2z (q_sch d) * 4 else 0)
           + Z.b2z (q_act d) * 2 ^ 16 + Z.b2z (q_sd d) * 2 ^ 24)).

(** The operation in the last stage, whose kinds exclude each other (562-736). *)
Definition effect (c : scfg) (t : optab) (st : stage) : eff :=
  match st with
  | None => eff0
  | Some (PInit q, d) => do_init c d
  | Some (PDoor q, d) => do_door c t q d
  | Some (PReq q i, d) => do_req c t q i d
  | Some (PFin q i more, d) => do_fin c t q i more d
  | Some (PCtl q e, d) => if s_ctl c then do_ctl c q e d else eff0
  | Some (PWrite q data strb, d) => do_write c q data strb d
  | Some (PRead q, d) => do_read c d
  end.

(** RAM write (838-844). *)
Definition ram_write (ram : Z -> qrec) (st : stage) (e : eff) : Z -> qrec :=
  match st with
  | Some (o, _) =>
      let old := ram (pop_q o) in
      let low := match e_low e with Some x => x | None => old end in
      zupd ram (pop_q o) (mkQ (q_en low) (q_gl low) (q_sch low) (q_act low) (q_sd low)
        (match e_tail e with Some x => x | None => q_tail old end))
  | None => ram
  end.

(** Operation table writes (814-820, 851-864), those of the start first. *)
Definition tab_write (t : optab) (start : option (nat * Z)) (e : eff) : optab :=
  let act1 := match start with Some (i, _) => nupd (t_act t) i true | None => t_act t end in
  let q1 := match start with Some (i, q) => nupd (t_q t) i q | None => t_q t end in
  let db1 := match start with Some (i, _) => nupd (t_db t) i false | None => t_db t end in
  mkT (match e_rel e with Some i => nupd act1 i false | None => act1 end) q1
      (match e_door e with Some i => nupd db1 i true | None => db1 end)
      (match e_prev e with Some (i, _, h) => nupd (t_head t) i h | None => t_head t end)
      (match e_next e with Some (i, n) => nupd (t_next t) i n | None => t_next t end)
      (match e_prev e with Some (i, p, _) => nupd (t_prev t) i p | None => t_prev t end).

(** One clock cycle (386-870); resets at 755-784 leave the RAM, the data
    pipelines and the tables to their ordinary next values. *)
Definition s_step (c : scfg) (s : sst) (i : sin) : sst * sout :=
  let acc := accept c s i in
  let st0 : stage := match acc with Some o => Some (o, m_ram s (pop_q o)) | None => None end in
  let lst := last (m_pipe s) None in
  let e := effect c (m_tab s) lst in
  let start := match acc with Some (PReq q k) => Some (k, q) | _ => None end in
  let t' := tab_write (m_tab s) start e in
  let fmask := 2 ^ Z.of_nat (cl c) in
  let load := negb (m_fv s) && negb (m_fw s =? m_fr s) in
  let rst := i_rst i in
  (mkS (ram_write (m_ram s) lst e)
       (if rst then map (fun _ => None) (m_pipe s) else st0 :: removelast (m_pipe s))
       (if rst then mkT (fun _ => false) (t_q t') (t_db t') (t_head t') (t_next t') (t_prev t') else t')
       (if rst then 0 else match i_st i with Some _ => (m_fw s + 1) mod (2 * fmask) | None => m_fw s end)
       (if rst then 0 else if load then (m_fr s + 1) mod (2 * fmask) else m_fr s)
       (match i_st i with Some (tag, _) => zupd (m_ftag s) (m_fw s mod fmask) tag | None => m_ftag s end)
       (match i_st i with Some (_, ne) => zupd (m_fst s) (m_fw s mod fmask) ne | None => m_fst s end)
       (negb rst && (load || (m_fv s && negb (match acc with Some o => is_fin o | None => false end))))
       (if load then Z.to_nat (m_ftag s (m_fr s mod fmask) mod fmask) else m_fp s)
       (if load then m_fst s (m_fr s mod fmask) else m_fs s)
       (negb rst && (m_init s || match acc with Some (PInit q) => q =? 2 ^ Z.of_nat (s_qw c) - 1 | _ => false end))
       (if rst then 0 else match acc with Some (PInit q) => (q + 1) mod 2 ^ Z.of_nat (s_qw c) | _ => m_ix s end)
       (if rst then 0 else (m_cnt s + e_cnt e) mod 2 ^ (Z.of_nat (s_qw c) + 1))
       (negb rst && (e_issue e || (m_rv s && negb (i_reqrdy i))))
       (match e_req e with Some (q, _) => q | None => m_rq s end)
       (match e_req e with Some (_, k) => k | None => m_rt s end)
       (negb rst && match acc with Some o => is_ctl o | None => false end)
       (negb rst && match acc with Some o => is_write o | None => false end)
       (negb rst && (e_b e || (m_b s && negb (i_bready i))))
       (negb rst && match acc with Some o => is_read o | None => false end)
       (negb rst && (match e_r e with Some _ => true | None => m_r s && negb (i_rready i) end))
       (match e_r e with Some v => v | None => m_rd s end)
       (fst (f_step db_cfg (m_db s) (mkFin rst (match i_door i with Some _ => true | None => false end)
          (qbeat (match i_door i with Some q => q | None => 0 end))
          (match acc with Some (PDoor _) => true | _ => false end) false)))
       (fst (f_step (rr_cfg c) (m_rr s) (mkFin rst (match e_push e with Some _ => true | None => false end)
          (qbeat (match e_push e with Some q => q | None => 0 end))
          (match acc with Some (PReq _ _) => true | _ => false end) false))),
   mkOut (guard (m_rv s) (m_rq s, m_rt s)) (m_crdy s) (m_awrdy s) (m_b s) (m_arrdy s) (guard (m_r s) (m_rd s))
         (negb (m_cnt s =? 0)) acc (option_map fst lst)).

(** Power-on state (143-229, 362-384); the memories of the FIFOs and the
    finish FIFO hold arbitrary values. *)
Definition s_init (c : scfg) (mem mem2 : Z -> beat) (ft : Z -> Z) (fs : Z -> bool) : sst :=
  mkS (fun _ => mkQ false false false false false 0) (repeat None (s_pl c))
      (mkT (fun _ => false) (fun _ => 0) (fun _ => false) (fun _ => false) (fun _ => O) (fun _ => O))
      0 0 ft fs false 0 false false 0 0 false 0 0 false false false false false 0
      (f_init db_cfg mem mem) (f_init (rr_cfg c) mem2 mem2).
