(** AXI4-Stream beats, the enable parameters, and the stream register
    (fpga/lib/axis/rtl/axis_register.v). *)
From Verif Require Import Base.Prelude.

(** One transfer: the payload signals of an AXI stream interface
    (axis_register.v:68-75).  Widths are not represented: every signal is an
    unbounded number, so nothing below depends on a width. *)
Record beat := mkBeat {
  tdata : Z; tkeep : Z; tlast : bool; tid : Z; tdest : Z; tuser : Z }.

(** The ENABLE parameters and the all-ones value {KEEP_WIDTH{1'b1}}
    (axis_register.v:36-55). *)
Record axcfg := mkAx {
  keep_en : bool; keep_ones : Z; last_en : bool; id_en : bool; dest_en : bool; user_en : bool }.

(** What the output assigns show of a stored beat (axis_register.v:119-125,
    227-233, 278-284). *)
Definition present (c : axcfg) (b : beat) : beat :=
  mkBeat (tdata b)
         (if keep_en c then tkeep b else keep_ones c)
         (if last_en c then tlast b else true)
         (if id_en c then tid b else 0%Z)
         (if dest_en c then tdest b else 0%Z)
         (if user_en c then tuser b else 0%Z).

(** Inputs of one clock cycle of a module with one stream input and one stream
    output: reset, what the source offers ([None] when s_axis_tvalid is low) and
    m_axis_tready (axis_register.v:61-87). *)
Record sin := mkSin { i_rst : bool; i_s : option beat; i_mready : bool }.

(** Outputs in the same cycle: s_axis_tready and what is offered downstream
    ([None] when m_axis_tvalid is low). *)
Record sout := mkSout { o_sready : bool; o_m : option beat }.

Definition isnone {A} (x : option A) : bool := match x with None => true | Some _ => false end.

(** Skid buffer registers (axis_register.v:93-109): a valid bit together with its
    data register is an [option]; the contents of a data register whose valid bit
    is low are not represented (no assign or branch reads them).  The same source
    text is the output stage of axis_arb_mux.v:195-290. *)
Record skid (A : Type) := mkSkid { k_rdy : bool; k_out : option A; k_tmp : option A }.
Arguments mkSkid {A}.

(** Reset and power-on values (axis_register.v:93-109, 194-198). *)
Definition skid0 {A} : skid A := mkSkid false None None.

(** One clock edge without reset: combinational part axis_register.v:127-158
    (tready_early, the valid_next values and the store flags), registers 160-192.
    [x] is the input (valid and payload), [mrdy] is m_axis_tready. *)
Definition skid_step {A} (s : skid A) (x : option A) (mrdy : bool) : skid A :=
  let early := mrdy || (isnone (k_tmp s) && (isnone (k_out s) || isnone x)) in
  if k_rdy s then
    if mrdy || isnone (k_out s)
    then mkSkid early x (k_tmp s)
    else mkSkid early (k_out s) x
  else if mrdy
    then mkSkid early (k_tmp s) None
    else mkSkid early (k_out s) (k_tmp s).

(** REG_TYPE > 1 (axis_register.v:90-200). *)
Definition reg2_step (c : axcfg) (s : skid beat) (i : sin) : skid beat * sout :=
  (if i_rst i then skid0 else skid_step s (i_s i) (i_mready i),
   mkSout (k_rdy s) (option_map (present c) (k_out s))).

(** REG_TYPE = 1, the simple buffer (axis_register.v:202-272): s_axis_tready_reg and
    the output register. *)
Record sreg := mkSreg { g_rdy : bool; g_out : option beat }.
Definition sreg0 : sreg := mkSreg false None.

Definition reg1_step (c : axcfg) (s : sreg) (i : sin) : sreg * sout :=
  let out' := if g_rdy s then i_s i
              else if i_mready i then None else g_out s in
  (if i_rst i then sreg0 else mkSreg (isnone out') out',
   mkSout (g_rdy s) (option_map (present c) (g_out s))).

(** REG_TYPE = 0, bypass (axis_register.v:274-288): no state. *)
Definition reg0_step (c : axcfg) (s : unit) (i : sin) : unit * sout :=
  (s, mkSout (i_mready i) (option_map (present c) (i_s i))).
