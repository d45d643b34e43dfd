(** The stream FIFO fpga/lib/axis/rtl/axis_fifo.v, cycle by cycle, with every mode
    its parameters select. *)
From Verif Require Import Base.Prelude Base.Bits Stream.Axis_model.
Local Open Scope Z_scope.

(** Parameters (axis_fifo.v:34-96): ADDR_WIDTH (137), RAM_PIPELINE,
    OUTPUT_FIFO_ENABLE, FRAME_FIFO, USER_BAD_FRAME_VALUE, USER_BAD_FRAME_MASK,
    DROP_OVERSIZE_FRAME, DROP_BAD_FRAME, DROP_WHEN_FULL, MARK_WHEN_FULL,
    PAUSE_ENABLE, FRAME_PAUSE and the signal enables.  DEPTH enters only through
    ADDR_WIDTH. *)
Record fcfg := mkFcfg {
  f_aw : nat; f_pipe : nat; f_ofifo : bool; f_frame : bool; f_badv : Z; f_badm : Z;
  f_drop_over : bool; f_drop_bad : bool; f_drop_full : bool; f_mark : bool;
  f_pause : bool; f_fpause : bool; f_ax : axcfg }.

(** The combinations the elaboration checks let through (axis_fifo.v:141-177);
    the check that the bad frame mask is not zero is not needed below. *)
Definition fcfg_ok (c : fcfg) : bool :=
  (negb (f_frame c) || last_en (f_ax c)) &&
  (negb (f_drop_over c) || f_frame c) &&
  (negb (f_drop_bad c) || (f_frame c && f_drop_over c)) &&
  (negb (f_drop_full c) || (f_frame c && f_drop_over c)) &&
  (negb (f_mark c) || (negb (f_frame c) && last_en (f_ax c))).

(** 2**ADDR_WIDTH, the number of words of the memory (axis_fifo.v:191). *)
Definition depth_of (w : nat) : Z := 2 ^ Z.of_nat w.

(** OUTPUT_FIFO_ADDR_WIDTH (axis_fifo.v:139). *)
Definition ofaw (c : fcfg) : nat :=
  if (f_pipe c <? 2)%nat then 3%nat else Nat.log2_up (f_pipe c * 2 + 7).

(** Pointers have one bit more than an address: increment (axis_fifo.v:287 and the
    other [+ 1] assignments), the full and empty tests (199-203, 448-449), and the
    difference (368-369, 468). *)
Definition pinc (w : nat) (p : Z) : Z := (p + 1) mod (2 * depth_of w).
Definition pfull (w : nat) (wr rd : Z) : bool := wr =? Z.lxor rd (depth_of w).
Definition pempty (wr rd : Z) : bool := wr =? rd.
Definition pdiff (w : nat) (a b : Z) : Z := (a - b) mod (2 * depth_of w).

(** Write side registers (axis_fifo.v:186-187, 191, 205-209, 212-214): pointers,
    memory, s_frame_reg, drop_frame_reg, mark_frame_reg, send_frame_reg and the
    three status pulses. *)
Record wside := mkW {
  w_wr : Z; w_cm : Z; w_mem : Z -> beat; w_sframe : bool; w_drop : bool; w_mark : bool;
  w_send : bool; w_ovf : bool; w_bad : bool; w_good : bool }.

(** s_axis_tready (axis_fifo.v:216). *)
Definition sready (c : fcfg) (w : wside) (rd : Z) : bool :=
  let full := pfull (f_aw c) (w_wr w) rd in
  let full_wr := pfull (f_aw c) (w_wr w) (w_cm w) in
  if f_frame c then negb full || (full_wr && f_drop_over c) || f_drop_full c
  else negb full || f_mark c.

(** The word written to memory (axis_fifo.v:218-227). *)
Definition stored (c : fcfg) (w : wside) (b : beat) : beat :=
  mkBeat (tdata b) (tkeep b) (tlast b || w_mark w) (tid b) (tdest b)
         (if w_mark w then f_badv c else tuser b).

(** [USER_BAD_FRAME_MASK & ~(s_axis_tuser ^ USER_BAD_FRAME_VALUE)] as a condition
    (axis_fifo.v:291). *)
Definition bad_user (c : fcfg) (b : beat) : bool :=
  negb (Z.land (f_badm c) (Z.lnot (Z.lxor (tuser b) (f_badv c))) =? 0).

(** Write logic without reset (axis_fifo.v:260-350).  [v] is s_axis_tvalid and [b]
    the payload signals, which the terminating write of MARK_WHEN_FULL stores even
    when s_axis_tvalid is low (344). *)
Definition w_step (c : fcfg) (w : wside) (rd : Z) (v : bool) (b : beat) : wside :=
  let full := pfull (f_aw c) (w_wr w) rd in
  let full_wr := pfull (f_aw c) (w_wr w) (w_cm w) in
  let xfer := sready c w rd && v in
  let sf := if xfer && last_en (f_ax c) then negb (tlast b) else w_sframe w in
  let inc := pinc (f_aw c) (w_wr w) in
  let mem1 := zupd (w_mem w) (w_wr w mod depth_of (f_aw c)) (stored c w b) in
  if f_frame c then
    if xfer then
      if (full && f_drop_full c) || (full_wr && f_drop_over c) || w_drop w then
        if tlast b
        then mkW (w_cm w) (w_cm w) (w_mem w) sf false (w_mark w) (w_send w) true false false
        else mkW (w_wr w) (w_cm w) (w_mem w) sf true (w_mark w) (w_send w) false false false
      else if tlast b || (negb (f_drop_over c) && (full_wr || w_send w)) then
        if tlast b && f_drop_bad c && bad_user c b
        then mkW (w_cm w) (w_cm w) mem1 sf (w_drop w) (w_mark w) (negb (tlast b)) false true false
        else mkW inc inc mem1 sf (w_drop w) (w_mark w) (negb (tlast b)) false false (tlast b)
      else mkW inc (w_cm w) mem1 sf (w_drop w) (w_mark w) (w_send w) false false false
    else if v && full_wr && negb (f_drop_over c) then
      mkW (w_wr w) (w_wr w) (w_mem w) sf (w_drop w) (w_mark w) true false false false
    else mkW (w_wr w) (w_cm w) (w_mem w) sf (w_drop w) (w_mark w) (w_send w) false false false
  else
    if xfer then
      if w_drop w && f_mark c then
        if tlast b then
          if negb full && w_mark w
          then mkW inc inc mem1 sf false false (w_send w) true false false
          else mkW (w_wr w) (w_cm w) (w_mem w) sf false (w_mark w) (w_send w) true false false
        else mkW (w_wr w) (w_cm w) (w_mem w) sf (w_drop w) (w_mark w) (w_send w) false false false
      else if (full || w_mark w) && f_mark c then
        mkW (w_wr w) (w_cm w) (w_mem w) sf (negb (tlast b)) (w_mark w || w_sframe w) (w_send w)
            (tlast b) false false
      else mkW inc inc mem1 sf (w_drop w) (w_mark w) (w_send w) false false false
    else if negb full && negb (w_drop w) && w_mark w && f_mark c then
      mkW inc inc mem1 sf (w_drop w) false (w_send w) false false false
    else mkW (w_wr w) (w_cm w) (w_mem w) sf (w_drop w) (w_mark w) (w_send w) false false false.

(** Reset of the write side (axis_fifo.v:351-363); the memory is not cleared. *)
Definition w_rst (w : wside) : wside :=
  mkW 0 0 (w_mem w) false false false false false false false.

(** The read pipeline (axis_fifo.v:374-398): RAM_PIPELINE+1 stages, held here with
    the last stage first.  A stage takes the value before it when the output is ready
    or there is a bubble in it or after it; the first stage takes [x]. *)
Fixpoint pshift (adv : bool) (l : list (option beat)) (x : option beat) : list (option beat) :=
  match l with
  | [] => []
  | e :: t =>
      let adv' := adv || isnone e in
      (if adv' then match t with [] => x | p :: _ => p end else e) :: pshift adv' t x
  end.

(** m_axis_tready_pipe || ~m_axis_tvalid_pipe_reg (axis_fifo.v:389). *)
Definition pipe_adv (rdy : bool) (l : list (option beat)) : bool := rdy || existsb isnone l.

(** Output FIFO registers (axis_fifo.v:426-452). *)
Record oside := mkO { q_wr : Z; q_rd : Z; q_half : bool; q_mem : Z -> beat; q_out : option beat }.

(** Output FIFO without reset (axis_fifo.v:465-490): [x] is the last pipeline stage,
    [rdy] is m_axis_tready_out. *)
Definition o_step (c : fcfg) (q : oside) (x : option beat) (rdy : bool) : oside :=
  let full := pfull (ofaw c) (q_wr q) (q_rd q) in
  let empty := pempty (q_wr q) (q_rd q) in
  let half := 2 ^ (Z.of_nat (ofaw c) - 1) <=? pdiff (ofaw c) (q_wr q) (q_rd q) in
  let '(wr1, mem1) :=
    match x with
    | Some b => if full then (q_wr q, q_mem q)
                else (pinc (ofaw c) (q_wr q),
                      zupd (q_mem q) (q_wr q mod depth_of (ofaw c)) (present (f_ax c) b))
    | None => (q_wr q, q_mem q)
    end in
  if negb empty && (isnone (q_out q) || rdy)
  then mkO wr1 (pinc (ofaw c) (q_rd q)) half mem1 (Some (q_mem q (q_rd q mod depth_of (ofaw c))))
  else mkO wr1 (q_rd q) half mem1 (if rdy then None else q_out q).

(** Reset of the output FIFO (axis_fifo.v:492-496); out_fifo_half_full_reg is not
    reset, it takes its ordinary next value. *)
Definition o_rst (c : fcfg) (q : oside) : oside :=
  mkO 0 0 (2 ^ (Z.of_nat (ofaw c) - 1) <=? pdiff (ofaw c) (q_wr q) (q_rd q)) (q_mem q) None.

(** All registers; [z_depth], [z_depthc] are depth_reg and depth_commit_reg,
    [z_pause], [z_pframe] pause_reg and pause_frame_reg. *)
Record fifo := mkFifo {
  z_w : wside; z_rd : Z; z_pipe : list (option beat); z_q : oside;
  z_pause : bool; z_pframe : bool; z_depth : Z; z_depthc : Z }.

(** Inputs of one cycle (axis_fifo.v:98-124): reset, s_axis_tvalid, the payload
    signals, m_axis_tready and pause_req. *)
Record fin := mkFin { x_rst : bool; x_v : bool; x_b : beat; x_mready : bool; x_preq : bool }.

(** Outputs of one cycle (axis_fifo.v:106-134). *)
Record fout := mkFout {
  y_sready : bool; y_m : option beat; y_pack : bool; y_depth : Z; y_depthc : Z;
  y_ovf : bool; y_bad : bool; y_good : bool }.

(** pause_reg is a constant zero without PAUSE_ENABLE (axis_fifo.v:542-556). *)
Definition paused (c : fcfg) (s : fifo) : bool := f_pause c && z_pause s.

(** m_axis_tvalid and the payload (axis_fifo.v:229-239, 412-421, 454-463, 508-516). *)
Definition m_out (c : fcfg) (s : fifo) : option beat :=
  if f_ofifo c then option_map (present (f_ax c)) (q_out (z_q s))
  else option_map (present (f_ax c)) (hd None (z_pipe s)).
Definition m_vis (c : fcfg) (s : fifo) : option beat :=
  if paused c s then None else m_out c s.

(** Pause registers without reset (axis_fifo.v:518-533). *)
Definition pause_step (c : fcfg) (s : fifo) (i : fin) : bool * bool :=
  if f_fpause c then
    match (if x_mready i then m_vis c s else None) with
    | Some b => if tlast b then (x_preq i, false) else (z_pause s, true)
    | None => (if z_pframe s then z_pause s else x_preq i, z_pframe s)
    end
  else (x_preq i, z_pframe s).

Definition f_step (c : fcfg) (s : fifo) (i : fin) : fifo * fout :=
  let w := z_w s in
  let rdy_out := x_mready i && negb (paused c s) in
  let rdy_pipe := if f_ofifo c then true else rdy_out in
  let pipe_ready := if f_ofifo c then negb (q_half (z_q s)) else true in
  let take := pipe_adv rdy_pipe (z_pipe s) && negb (pempty (w_cm w) (z_rd s)) && pipe_ready in
  let x := if take then Some (w_mem w (z_rd s mod depth_of (f_aw c))) else None in
  let '(pa, pf) := pause_step c s i in
  ((if x_rst i then
      mkFifo (w_rst w) 0 (map (fun _ => None) (z_pipe s)) (o_rst c (z_q s)) false false
             (pdiff (f_aw c) (w_wr w) (z_rd s)) (pdiff (f_aw c) (w_cm w) (z_rd s))
    else
      mkFifo (w_step c w (z_rd s) (x_v i) (x_b i))
             (if take then pinc (f_aw c) (z_rd s) else z_rd s)
             (pshift rdy_pipe (z_pipe s) x)
             (o_step c (z_q s) (hd None (z_pipe s)) rdy_out)
             pa pf
             (pdiff (f_aw c) (w_wr w) (z_rd s)) (pdiff (f_aw c) (w_cm w) (z_rd s))),
   mkFout (sready c w (z_rd s)) (m_vis c s) (paused c s) (z_depth s) (z_depthc s)
          (w_ovf w) (w_bad w) (w_good w)).

(** Power-on values (axis_fifo.v:186-214, 443-446, 503-504); the memories hold
    arbitrary words. *)
Definition f_init (c : fcfg) (mem qmem : Z -> beat) : fifo :=
  mkFifo (mkW 0 0 mem false false false false false false false) 0
         (repeat None (f_pipe c + 1)) (mkO 0 0 false qmem None) false false 0 0.

Definition f_trace (c : fcfg) := trace (f_step c).
