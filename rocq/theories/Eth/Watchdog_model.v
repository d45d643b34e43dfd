(** Model of the receive watchdog: fpga/lib/eth/rtl/eth_phy_10g_rx_watchdog.v. *)
From Coq Require Import List Arith Bool.
From Verif Require Import Eth.FrameSync_model Eth.BerMon_model.
Import ListNotations.

(** eth_phy_10g_rx_watchdog.v 40-57: the inputs; rx_high_ber is not used by the module and left out. *)
Record wd_in := { v_rst : bool; v_hdr : bool * bool; v_badblk : bool; v_seqerr : bool; v_lock : bool }.

(** eth_phy_10g_rx_watchdog.v 77-86: the registers. *)
Record wd := { d_time : nat; d_err : nat; d_st : nat; d_saw : bool; d_blk : nat; d_req : bool; d_status : bool }.

(** eth_phy_10g_rx_watchdog.v 71, 152-166: in reset; COUNT_125US as in the bit error rate monitor. *)
Definition wd_reset (n : nat) : wd :=
  {| d_time := bm_load n; d_err := 0; d_st := 0; d_saw := false; d_blk := 0; d_req := false; d_status := false |}.

(** eth_phy_10g_rx_watchdog.v 77-86: at power-up; the time starts at 0 here. *)
Definition wd_power : wd :=
  {| d_time := 0; d_err := 0; d_st := 0; d_saw := false; d_blk := 0; d_req := false; d_status := false |}.

(** eth_phy_10g_rx_watchdog.v 73-75: SYNC_CTRL. *)
Definition ctrl_hdr (h : bool * bool) : bool := match h with (false, true) => true | _ => false end.

(** eth_phy_10g_rx_watchdog.v 92-142: the next state. *)
Definition wd_next (n : nat) (s : wd) (i : wd_in) : wd :=
  (* 103-113 *)
  let saw := if v_lock i && ctrl_hdr (v_hdr i) then true else d_saw s in
  let blk := if v_lock i && ((v_badblk i || v_seqerr i) && negb (d_blk s =? 1023)) then (d_blk s + 1) mod 1024 else d_blk s in
  let status := if v_lock i then d_status s else false in
  let st := if v_lock i then d_st s else 0 in
  if negb (d_time s =? 0) then
    (* 115-116 *)
    {| d_time := d_time s - 1; d_err := d_err s; d_st := st; d_saw := saw; d_blk := blk; d_req := false; d_status := status |}
  else
    (* 117-141 *)
    let poor := negb (d_saw s) || (d_blk s =? 1023) in
    {| d_time := bm_load n;
       d_err := if d_err s =? 15 then 0 else if poor then (d_err s + 1) mod 16 else 0;
       d_st := if poor then 0 else if negb (d_st s =? 15) then (d_st s + 1) mod 16 else st;
       d_saw := false; d_blk := 0;
       d_req := (d_err s =? 15);
       d_status := if d_st s =? 15 then true else status |}.

(** eth_phy_10g_rx_watchdog.v 144-168: one clock.  Simplified: the request register is reset at once when
    rst rises (162), here with the next clock. *)
Definition wd_step (n : nat) (s : wd) (i : wd_in) : wd := if v_rst i then wd_reset n else wd_next n s i.

Definition wd_run (n : nat) (s : wd) (l : list wd_in) : wd := fold_left (wd_step n) l s.
