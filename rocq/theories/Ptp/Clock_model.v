(** The PTP clock, fpga/lib/eth/rtl/ptp_clock.v.  A pair of registers holding
    nanoseconds and FNS_WIDTH bits of fraction, {ns, fns}, is one number in units
    of 2^-FNS_WIDTH ns. *)
From Verif Require Import Base.Prelude.
Local Open Scope Z_scope.

(** Parameters (ptp_clock.v:35-45): PERIOD_NS_WIDTH, OFFSET_NS_WIDTH,
    DRIFT_NS_WIDTH, FNS_WIDTH, {PERIOD_NS, PERIOD_FNS}, DRIFT_ENABLE,
    {DRIFT_NS, DRIFT_FNS}, DRIFT_RATE. *)
Record pcfg := mkPc { p_pw : Z; p_ow : Z; p_dw : Z; p_f : Z; p_period : Z; p_den : bool; p_drift : Z; p_rate : Z }.

(** ptp_clock.v:94. *)
Definition inc_ns_width (c : pcfg) : Z := Z.log2_up (2 ^ p_pw c + 2 ^ p_ow c + 2 ^ p_dw c).
Definition inc_width (c : pcfg) : Z := inc_ns_width c + p_f c.

(** Inputs (ptp_clock.v:51-82): each is present when its valid signal is high.
    96-bit time as seconds, nanoseconds and 16 bits of fraction; bits 47:46 are
    not looked at.  Period and adjustments as packed register values. *)
Record pin := mkPin { i_96 : option (Z * Z * Z); i_64 : option Z; i_period : option Z;
  i_adj : option (Z * Z); i_drift : option (Z * Z) }.

(** Outputs (ptp_clock.v:84-91): 96-bit time as seconds, nanoseconds, fraction;
    the 64-bit time; step, pps, and input_adj_active. *)
Record pout := mkPout { o_s : Z; o_ns : Z; o_fns : Z; o_64 : Z; o_step : bool; o_pps : bool; o_active : bool }.

(** ptp_clock.v:98-134. *)
Record pst := mkPst {
  q_period : Z; q_adj : Z; q_count : Z; q_active : bool; q_drift : Z; q_rate : Z; q_dcnt : Z;
  q_inc : Z; q_dly : Z; q_iovf : Z;
  q_s : Z; q_ns : Z; q_nsi : Z; q_ovf : Z; q_64 : Z; q_step : bool; q_pps : bool }.
Definition p_init (c : pcfg) : pst :=
  mkPst (p_period c) 0 0 false (p_drift c) (p_rate c) 0 0 0 0
    0 0 0 ((2 ^ 31 - 1) * 2 ^ p_f c + 65535 mod 2 ^ p_f c) 0 false false.

(** [$signed] of a value of [w] bits. *)
Definition signed (w v : Z) : Z := if v <? 2 ^ (w - 1) then v else v - 2 ^ w.

(** ptp_clock.v:236-239. *)
Definition p_inc (c : pcfg) (s : pst) : Z :=
  (q_period s + (if q_active s then signed (p_ow c + p_f c) (q_adj s) else 0)
   + (if p_den c && (q_dcnt s =? 0) then signed (p_dw c + p_f c) (q_drift s) else 0)) mod 2 ^ inc_width c.

(** ptp_clock.v:199-205, the parts of the outputs without pipeline:
    {fns, 16'd0} >> FNS_WIDTH is 16 bits of the fraction. *)
Definition out_fns (c : pcfg) (fns : Z) : Z := Z.shiftr (fns * 65536) (p_f c).
Definition p_out (c : pcfg) (s : pst) : pout :=
  mkPout (q_s s) (q_ns s / 2 ^ p_f c) (out_fns c (q_ns s mod 2 ^ p_f c))
    (q_64 s / 2 ^ p_f c * 65536 + out_fns c (q_64 s mod 2 ^ p_f c)) (q_step s) (q_pps s) (q_active s).

(** ptp_clock.v:284-285: the fraction loaded from 16 bits. *)
Definition in_fns (c : pcfg) (f16 : Z) : Z :=
  if 16 <? p_f c then Z.shiftl f16 (p_f c - 16) else Z.shiftr f16 (16 - p_f c).

(** ptp_clock.v:96: NS_PER_S with an empty fraction. *)
Definition ns_per_s (c : pcfg) : Z := 1000000000 * 2 ^ p_f c.

(** ptp_clock.v:212-329: one clock. *)
Definition p_next (c : pcfg) (s : pst) (x : bool * pin) : pst :=
  let '(rst, i) := x in
  let f := p_f c in
  let sec := negb (Z.testbit (q_ovf s) (30 + f)) in
  let force v := Z.setbit v (30 + f) in
  let counting := 0 <? q_count s in
  let nsi := ((if sec then q_ovf s else q_nsi s) + q_dly s) mod 2 ^ (30 + f) in
  let ovf := (q_nsi s - q_iovf s) mod 2 ^ (31 + f) in
  let ns := (if sec then q_ovf s else q_nsi s) mod 2 ^ (30 + f) in
  let secs := if sec then (q_s s + 1) mod 2 ^ 48 else q_s s in
  let '(secs, ns, nsi, ovf) :=
    match i_96 i with
    | Some (ls, lns, lf) => (ls, lns * 2 ^ f + in_fns c lf, lns * 2 ^ f + in_fns c lf, force ovf)
    | None => (secs, ns, nsi, if sec then force ovf else ovf)
    end in
  mkPst
    (if rst then p_period c else match i_period i with Some v => v | None => q_period s end)
    (if rst then 0 else match i_adj i with Some (v, _) => v | None => q_adj s end)
    (if rst then 0 else if counting then q_count s - 1 else match i_adj i with Some (_, n) => n | None => q_count s end)
    (if rst then false else counting)
    (if rst then p_drift c else match i_drift i with Some (v, _) => if p_den c then v else q_drift s | None => q_drift s end)
    (if rst then p_rate c else match i_drift i with Some (_, r) => if p_den c then r else q_rate s | None => q_rate s end)
    (if rst then 0 else if q_dcnt s =? 0 then (q_rate s - 1) mod 65536 else q_dcnt s - 1)
    (p_inc c s) (q_inc s) ((ns_per_s c - q_inc s) mod 2 ^ (31 + f))
    (if rst then 0 else secs) (if rst then 0 else ns) (if rst then 0 else nsi) (if rst then force ovf else ovf)
    (if rst then 0 else match i_64 i with Some v => v mod 2 ^ (48 + f) | None => (q_64 s + q_inc s) mod 2 ^ (48 + f) end)
    (if rst then false else counting || (match i_96 i with Some _ => true | None => false end) || (match i_64 i with Some _ => true | None => false end))
    (if rst then false else sec).

(** The module with PIPELINE_OUTPUT = 0. *)
Definition p_step (c : pcfg) (s : pst) (x : bool * pin) : pst * pout := (p_next c s x, p_out c s).

(** ptp_clock.v:142-195: with PIPELINE_OUTPUT > 0 the outputs other than
    input_adj_active pass through that many registers. *)
Definition blank : pout := mkPout 0 0 0 0 false false false.
Definition with_active (o : pout) (a : bool) : pout := mkPout (o_s o) (o_ns o) (o_fns o) (o_64 o) (o_step o) (o_pps o) a.
Definition pp_init (c : pcfg) (n : nat) : pst * list pout := (p_init c, repeat blank n).
Definition pp_step (c : pcfg) (sp : pst * list pout) (x : bool * pin) : (pst * list pout) * pout :=
  let '(s, pipe) := sp in
  ((p_next c s x, if fst x then map (fun _ => blank) pipe else removelast (p_out c s :: pipe)),
   with_active (last pipe (p_out c s)) (q_active s)).
