(** The arbitrated stream multiplexer (fpga/lib/axis/rtl/axis_arb_mux.v). *)
From Verif Require Import Base.Prelude Base.Bits Stream.Axis_model Stream.Arb_model.

(** Parameters (axis_arb_mux.v:35-67).  [m_idw] is M_ID_WIDTH. *)
Record muxcfg := mkMux {
  m_count : nat; m_ax : axcfg; m_idw : Z; m_upd : bool; m_rr : bool; m_lsb : bool }.

(** CL_S_COUNT (axis_arb_mux.v:95). *)
Definition m_cl (c : muxcfg) : Z := Z.of_nat (Nat.log2_up (m_count c)).

(** The arbiter instance (axis_arb_mux.v:153-169). *)
Definition m_arb (c : muxcfg) : arbcfg := mkArb (m_count c) (m_rr c) true true (m_lsb c).

(** Registers: the input registers (axis_arb_mux.v:121-128; a valid bit with its data is
    an [option], the data of an empty register is not represented), the arbiter, and
    the output stage (130-139, 210-229), whose text is that of the skid buffer. *)
Record mux := mkMuxSt { x_in : nat -> option beat; x_arb : arb; x_skid : skid beat }.

Definition mux0 : mux := mkMuxSt (fun _ => None) arb0 skid0.

Record muxin := mkMuxIn { mi_rst : bool; mi_s : nat -> option beat; mi_mready : bool }.
Record muxout := mkMuxOut { mo_sready : nat -> bool; mo_m : option beat }.

Definition issome {A} (x : option A) : bool := negb (isnone x).

(** s_axis_tready (axis_arb_mux.v:141). *)
Definition mux_sready (s : mux) (k : nat) : bool :=
  isnone (x_in s k) || (k_rdy (x_skid s) && a_grant (x_arb s) k).

(** m_axis_tid_int (axis_arb_mux.v:180-183): the input tid in M_ID_WIDTH bits, with
    the top CL_S_COUNT bits replaced by the port number. *)
Definition mux_tid (c : muxcfg) (p : nat) (t : Z) : Z :=
  if m_upd c && (1 <? m_count c)%nat%nat
  then setbits (bits t 0 (m_idw c)) (m_idw c - m_cl c) (m_cl c) (Z.of_nat p)
  else bits t 0 (m_idw c).

Definition mux_beat (c : muxcfg) (p : nat) (b : beat) : beat :=
  mkBeat (tdata b) (tkeep b) (tlast b) (mux_tid c p (tid b)) (tdest b) (tuser b).

(** The beat handed to the output stage (axis_arb_mux.v:143-151, 174-187). *)
Definition mux_int (c : muxcfg) (s : mux) : option beat :=
  if k_rdy (x_skid s) && a_valid (x_arb s)
  then option_map (mux_beat c (a_enc (x_arb s))) (x_in s (a_enc (x_arb s)))
  else None.

(** request and acknowledge (axis_arb_mux.v:171-172). *)
Definition mux_req (s : mux) (i : muxin) (k : nat) : bool :=
  (issome (x_in s k) && negb (a_grant (x_arb s) k)) || (issome (mi_s i k) && a_grant (x_arb s) k).
Definition mux_ack (c : muxcfg) (s : mux) (k : nat) : bool :=
  a_grant (x_arb s) k && k_rdy (x_skid s) &&
  match x_in s k with
  | Some b => if last_en (m_ax c) then tlast b else true
  | None => false
  end.

(** One clock edge (axis_arb_mux.v:189-207 input registers, 242-310 output stage). *)
Definition mux_step (c : muxcfg) (s : mux) (i : muxin) : mux * muxout :=
  (if mi_rst i then mux0
   else mkMuxSt
     (fun k => if mux_sready s k then mi_s i k else x_in s k)
     (arb_step (m_arb c) (x_arb s) (mkArbIn false (mux_req s i) (mux_ack c s)))
     (skid_step (x_skid s) (mux_int c s) (mi_mready i)),
   mkMuxOut (mux_sready s) (option_map (present (m_ax c)) (k_out (x_skid s)))).
