(** Model of block synchronisation: fpga/lib/eth/rtl/eth_phy_10g_rx_frame_sync.v. *)
From Coq Require Import List Arith Bool.
Import ListNotations.

(** eth_phy_10g_rx_frame_sync.v 71-77: the registers.  The bitslip counter is as
    wide as the larger of the two cycle counts needs (56-57), and only values
    below these are put in it, so it is a plain number here. *)
Record fs := { f_cnt : nat; f_inv : nat; f_wait : nat; f_slip : bool; f_lock : bool }.

(** eth_phy_10g_rx_frame_sync.v 41-47: reset and the two header bits (bit 1, bit 0). *)
Record fs_in := { i_rst : bool; i_hdr : bool * bool }.

(** eth_phy_10g_rx_frame_sync.v 71-77, 135-141: values at power-up and in reset. *)
Definition fs_init : fs := {| f_cnt := 0; f_inv := 0; f_wait := 0; f_slip := false; f_lock := false |}.

(** eth_phy_10g_rx_frame_sync.v 67-69, 96: SYNC_CTRL = 2'b01, SYNC_DATA = 2'b10. *)
Definition sync_hdr (h : bool * bool) : bool :=
  match h with (false, true) | (true, false) => true | _ => false end.

(** eth_phy_10g_rx_frame_sync.v 82-126: the next state; [hi] and [lo] are
    BITSLIP_HIGH_CYCLES and BITSLIP_LOW_CYCLES. *)
Definition fs_next (hi lo : nat) (s : fs) (h : bool * bool) : fs :=
  if negb (f_wait s =? 0) then
    {| f_cnt := f_cnt s; f_inv := f_inv s; f_wait := f_wait s - 1; f_slip := f_slip s; f_lock := f_lock s |}
  else if f_slip s then
    {| f_cnt := f_cnt s; f_inv := f_inv s; f_wait := lo - 1; f_slip := false; f_lock := f_lock s |}
  else if sync_hdr h then
    if f_cnt s =? 63 then
      {| f_cnt := 0; f_inv := 0; f_wait := 0; f_slip := false;
         f_lock := if f_inv s =? 0 then true else f_lock s |}
    else
      {| f_cnt := (f_cnt s + 1) mod 64; f_inv := f_inv s; f_wait := 0; f_slip := false; f_lock := f_lock s |}
  else if negb (f_lock s) || (f_inv s =? 15) then
    {| f_cnt := 0; f_inv := 0; f_wait := hi - 1; f_slip := true; f_lock := false |}
  else if f_cnt s =? 63 then
    {| f_cnt := 0; f_inv := 0; f_wait := 0; f_slip := false; f_lock := f_lock s |}
  else
    {| f_cnt := (f_cnt s + 1) mod 64; f_inv := (f_inv s + 1) mod 16; f_wait := 0; f_slip := false; f_lock := f_lock s |}.

(** eth_phy_10g_rx_frame_sync.v 128-142: one clock. *)
Definition fs_step (hi lo : nat) (s : fs) (i : fs_in) : fs :=
  if i_rst i then fs_init else fs_next hi lo s (i_hdr i).

(** Clock after clock; the outputs (79-80) are [f_slip] and [f_lock] of the state reached. *)
Definition fs_run (hi lo : nat) (s : fs) (l : list fs_in) : fs := fold_left (fs_step hi lo) l s.
