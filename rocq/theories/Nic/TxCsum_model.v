(** The transmit checksum unit, fpga/common/rtl/tx_checksum.v (cited as tc), with its
    two instances of axis_fifo ([Stream.Fifo_model]).  The adder tree has the text of
    rx_checksum.v, whose definitions are used for it ([rc_masked], [rc_level0],
    [rc_level], [rc_fold] of [Nic.RxCsum_model]). *)
From Verif Require Import Base.Prelude Base.Bits Stream.Axis_model Stream.Fifo_model Nic.RxCsum_model.
Local Open Scope Z_scope.

(** Parameters (tc 17-39, 79): LEVELS with KEEP_WIDTH = 2 ^ LEVELS lanes (as for
    [rccfg], other widths do not line up), the address widths of the data FIFO and of
    the checksum FIFO, USE_INIT_VALUE, and ID_ENABLE, DEST_ENABLE, USER_ENABLE. *)
Record tccfg := mkTc { tc_l : nat; tc_daw : nat; tc_caw : nat; tc_init : bool; tc_id : bool; tc_dest : bool; tc_user : bool }.
Definition tc_rc (c : tccfg) : rccfg := mkRc (tc_l c) 0.
Definition tc_k (c : tccfg) : nat := rc_k (tc_rc c).

(** A FIFO with the default parameters (axis_fifo.v:34-96) but its depth and
    signals. *)
Definition plain (aw : nat) (ax : axcfg) : fcfg :=
  mkFcfg aw 1 false false 1 1 false false false false false false ax.
(** tc 169-182, 211-220. *)
Definition data_cfg (c : tccfg) : fcfg :=
  plain (tc_daw c) (mkAx true (Z.ones (Z.of_nat (tc_k c))) true (tc_id c) (tc_dest c) (tc_user c)).
Definition csum_cfg (c : tccfg) : fcfg := plain (tc_caw c) (mkAx false 1 false false false false).

(** A command (tc 71-74): csum_enable, csum_start, csum_offset, csum_init. *)
Record tcmd := mkCmd { cm_en : bool; cm_start : Z; cm_off : Z; cm_init : Z }.

(** Inputs of one cycle: rst, the command offered, the beat offered, m_axis_tready;
    outputs: s_axis_cmd_ready, s_axis_tready, what m_axis offers. *)
Record tin := mkTin { ti_rst : bool; ti_cmd : option tcmd; ti_s : option beat; ti_mready : bool }.
Record tout := mkTout { to_cmdready : bool; to_sready : bool; to_m : option beat }.

(** One stage of the adder tree: sum_valid_reg, sum_last_reg, sum_init_valid_reg,
    sum_odd_reg, sum_enable_reg, sum_offset_reg, sum_init_reg, sum_reg (tc 115-122). *)
Record tstage := mkTs {
  ts_valid : bool; ts_last : bool; ts_iv : bool; ts_odd : bool; ts_en : bool; ts_off : Z; ts_init : Z; ts_sums : list Z }.

(** A word of the checksum FIFO (tc 225, 234): {csum, offset, enable}. *)
Definition word (csum off : Z) (en : bool) : Z := (csum * 2 ^ 8 + off) * 2 + Z.b2z en.
Definition wd_csum (w : Z) : Z := w / 2 ^ 9.
Definition wd_off (w : Z) : Z := w / 2 mod 2 ^ 8.
Definition wd_en (w : Z) : bool := Z.odd w.

(** Registers (tc 89-125, 446-460).  csum_in_csum_reg, csum_in_offset_reg and
    csum_in_enable_reg are the word [x_ci], with csum_in_valid_reg as [x_civ]. *)
Record tcst := mkTcst {
  x_xfer : bool; x_mask : Z; x_ioff : Z; x_first : bool; x_stages : list tstage;
  x_acc : Z; x_ci : Z; x_civ : bool; x_data : fifo; x_csum : fifo;
  x_frame : bool; x_val : Z; x_off : Z; x_en : bool; x_split : bool; x_skid : skid beat }.

(** csum_in_ready (tc 228), s_axis_tready (tc 156) and s_axis_cmd_ready (tc 158). *)
Definition ci_ready (c : tccfg) (s : tcst) : bool := sready (csum_cfg c) (z_w (x_csum s)) (z_rd (x_csum s)).
Definition t_sready (c : tccfg) (s : tcst) : bool :=
  sready (data_cfg c) (z_w (x_data s)) (z_rd (x_data s)) && ci_ready c s && x_xfer s.
Definition t_cmdready (c : tccfg) (s : tcst) : bool := ci_ready c s && negb (x_xfer s).

(** tc 277-287, 298-304: mask_reg and input_offset_reg after a beat and after a
    command. *)
Definition mask_beat (c : tccfg) (mask ioff : Z) : Z * Z :=
  let k := Z.of_nat (tc_k c) in
  if 0 <? ioff then
    if k <=? ioff then (0, ioff - k) else (rc_shl (tc_rc c) (Z.to_nat ioff), 0)
  else (Z.ones k, ioff).
Definition mask_cmd (c : tccfg) (start : Z) : Z * Z :=
  let k := Z.of_nat (tc_k c) in
  if k <=? start then (0, start - k) else (rc_shl (tc_rc c) (Z.to_nat start), 0).

Definition to_cb (b : beat) : cbeat := mkCb (tdata b) (tkeep b) (tlast b).

(** tc 250-271, 290-297, 307-310: stage 0; [b] is the beat accepted, [m] the command accepted, [rdy] is
    csum_in_ready. *)
Definition stage0 (c : tccfg) (rst rdy : bool) (mask : Z) (first : bool) (b : option beat) (m : option tcmd) (cur : tstage) : tstage :=
  let cur := match m with
             | Some m => mkTs (ts_valid cur) (ts_last cur) (ts_iv cur) (Z.odd (cm_start m)) (cm_en m) (cm_off m) (cm_init m) (ts_sums cur)
             | None => cur end in
  match b with
  | Some b => mkTs (negb rst) (tlast b) first (ts_odd cur) (ts_en cur) (ts_off cur) (ts_init cur) (rc_level0 (tc_rc c) mask (to_cb b))
  | None => mkTs (negb rst && ts_valid cur && negb rdy) (ts_last cur) (ts_iv cur) (ts_odd cur) (ts_en cur) (ts_off cur) (ts_init cur) (ts_sums cur)
  end.

(** tc 317-338: stage [l] from stage [l-1]. *)
Definition stage_next (c : tccfg) (rst rdy : bool) (l : nat) (prev cur : tstage) : tstage :=
  if ts_valid prev && rdy then
    mkTs (negb rst) (ts_last prev) (ts_iv prev) (ts_odd prev) (ts_en prev) (ts_off prev) (ts_init prev) (rc_level (tc_rc c) l (ts_sums prev))
  else mkTs (negb rst && ts_valid cur && negb rdy) (ts_last cur) (ts_iv cur) (ts_odd cur) (ts_en cur) (ts_off cur) (ts_init cur) (ts_sums cur).

Fixpoint stages_next (c : tccfg) (rst rdy : bool) (l : nat) (prev : tstage) (rest : list tstage) : list tstage :=
  match rest with
  | [] => []
  | s :: rest' => stage_next c rst rdy l prev s :: stages_next c rst rdy (S l) s rest'
  end.

(** tc 348-350: sum_acc_temp for the last stage. *)
Definition acc_temp (c : tccfg) (st : tstage) (acc : Z) : Z :=
  rc_fold (tc_rc c) (nth 0 (ts_sums st) 0 mod 2 ^ (15 + Z.of_nat (tc_l c)))
          (if ts_iv st && tc_init c then ts_init st else acc) mod 2 ^ 16.

(** tc 352-362: the word from the sum of the frame; with an odd start the bytes are
    exchanged. *)
Definition ci_of (st : tstage) (t : Z) : Z :=
  let n := 65535 - t in
  word (if ts_odd st then n mod 256 * 256 + n / 256 else n) (ts_off st) (ts_en st).

(** [d[8*o +: 8] = v]. *)
Definition set_byte (d o v : Z) : Z := d + (v - bits d (8 * o) 8) * 2 ^ (8 * o).

(** tc 400-417: what a beat leaving becomes, and next csum_offset, csum_enable,
    csum_split. *)
Definition insert (c : tccfg) (val off : Z) (en split : bool) (d : Z) : Z * (Z * bool * bool) :=
  let k := Z.of_nat (tc_k c) in
  if en then
    if k <=? off then (d, (off - k, en, split))
    else if split then (set_byte d 0 (val mod 256), (off, false, split))
    else if off =? k - 1 then (set_byte d (k - 1) (val / 256), (off, en, true))
    else (set_byte (set_byte d off (val / 256)) (off + 1) (val mod 256), (off, false, split))
  else (d, (off, en, split)).

Definition set_data (b : beat) (d : Z) : beat := mkBeat d (tkeep b) (tlast b) (tid b) (tdest b) (tuser b).

(** The output stage (tc 445-542): as [skid_step] but for m_axis_tready_int_early
    (tc 476), which wants both registers empty. *)
Definition oskid_step {A} (s : skid A) (x : option A) (mrdy : bool) : skid A :=
  let early := mrdy || (isnone (k_tmp s) && isnone (k_out s)) in
  if k_rdy s then
    if mrdy || isnone (k_out s) then mkSkid early x (k_tmp s) else mkSkid early (k_out s) x
  else if mrdy then mkSkid early (k_tmp s) None
  else mkSkid early (k_out s) (k_tmp s).

Definition wbeat (w : Z) : beat := mkBeat w 0 false 0 0 0.

(** One clock edge (tc 260-443).  m_axis_tid, m_axis_tdest and m_axis_tuser (tc 471-473) are those
    of the FIFO, which has the same enables. *)
Definition tc_step (c : tccfg) (s : tcst) (i : tin) : tcst * tout :=
  let rst := ti_rst i in
  let rdy := ci_ready c s in
  let b := if t_sready c s then ti_s i else None in
  let m := if t_cmdready c s then ti_cmd i else None in
  let '(mask, ioff) := match m with
                       | Some m => mask_cmd c (cm_start m)
                       | None => match b with Some _ => mask_beat c (x_mask s) (x_ioff s) | None => (x_mask s, x_ioff s) end
                       end in
  let xfer := match m with
              | Some _ => true
              | None => match b with Some b => x_xfer s && negb (tlast b) | None => x_xfer s end end in
  let first := match m with Some _ => true | None => match b with Some _ => false | None => x_first s end end in
  let stages := match x_stages s with
                | [] => []
                | h :: t => stage0 c rst rdy (x_mask s) (x_first s) b m h :: stages_next c rst rdy 1 h t
                end in
  let top := last (x_stages s) (mkTs false false false false false 0 0 []) in
  let t := acc_temp c top (x_acc s) in
  let go := ts_valid top && rdy in
  let dr := k_rdy (x_skid s) && x_frame s in
  let dout := if dr then m_vis (data_cfg c) (x_data s) else None in
  let wout := option_map tdata (m_vis (csum_cfg c) (x_csum s)) in
  let '(int, frame, (val, (off, en, split))) :=
    if x_frame s then
      match dout with
      | Some d => let '(dd, n) := insert c (x_val s) (x_off s) (x_en s) (x_split s) (tdata d) in
                  (Some (set_data d dd), negb (tlast d), (x_val s, n))
      | None => (None, true, (x_val s, (x_off s, x_en s, x_split s)))
      end
    else
      match wout with
      | Some w => (None, true, (wd_csum w, (wd_off w, wd_en w, false)))
      | None => (None, false, (0, (0, false, false)))
      end in
  (mkTcst (negb rst && xfer) mask ioff first stages
     (if go then if ts_last top then 0 else t else x_acc s)
     (if go && ts_last top then ci_of top t else x_ci s) (negb rst && go && ts_last top)
     (fst (f_step (data_cfg c) (x_data s)
             (mkFin rst (negb (isnone (ti_s i)) && rdy && x_xfer s)
                    (match ti_s i with Some b => b | None => wbeat 0 end) dr false)))
     (fst (f_step (csum_cfg c) (x_csum s) (mkFin rst (x_civ s) (wbeat (x_ci s)) (negb (x_frame s)) false)))
     (negb rst && frame) val off (negb rst && en) split
     (if rst then skid0 else oskid_step (x_skid s) int (ti_mready i)),
   mkTout (t_cmdready c s) (t_sready c s) (k_out (x_skid s))).

(** Power-on values: LEVELS-1 stages; the FIFO memories hold anything.  (When no
    checksum is waiting and no frame is being sent, csum_reg, csum_offset_reg and
    csum_enable_reg take whatever the FIFO shows; they are read only after the next
    word, here they are zero.) *)
Definition tc_blank : tstage := mkTs false false false false false 0 0 [].
Definition tc_init_st (c : tccfg) (m1 m2 m3 m4 : Z -> beat) : tcst :=
  mkTcst false 0 0 false (repeat tc_blank (tc_l c - 1)) 0 0 false
    (f_init (data_cfg c) m1 m2) (f_init (csum_cfg c) m3 m4) false 0 0 false false skid0.
