(** Model of the bit error rate monitor: fpga/lib/eth/rtl/eth_phy_10g_rx_ber_mon.v. *)
From Coq Require Import List Arith Bool.
From Verif Require Import Eth.FrameSync_model.
Import ListNotations.

(** eth_phy_10g_rx_ber_mon.v 62, 68: COUNT_125US as a register of $clog2 bits holds it.
    Simplified: COUNT_125US is a real in the source (37); here it is a whole number. *)
Definition bm_load (n : nat) : nat := n mod 2 ^ Nat.log2_up n.

(** eth_phy_10g_rx_ber_mon.v 68-71: the registers. *)
Record bm := { b_time : nat; b_ber : nat; b_high : bool }.

(** eth_phy_10g_rx_ber_mon.v 68-71, 115-119: values at power-up and in reset. *)
Definition bm_init (n : nat) : bm := {| b_time := bm_load n; b_ber := 0; b_high := false |}.

(** eth_phy_10g_rx_ber_mon.v 75-108: the next state. *)
Definition bm_next (n : nat) (s : bm) (h : bool * bool) : bm :=
  {| b_time := if b_time s =? 0 then bm_load n else b_time s - 1;
     b_ber := if b_time s =? 0 then 0
              else if sync_hdr h then b_ber s
              else if b_ber s =? 15 then b_ber s else (b_ber s + 1) mod 16;
     b_high := if sync_hdr h then
                 if negb (b_ber s =? 15) && (b_time s =? 0) then false else b_high s
               else if b_ber s =? 15 then true
               else if b_time s =? 0 then false else b_high s |}.

(** eth_phy_10g_rx_ber_mon.v 110-120: one clock; the inputs (40-46) are those of block synchronisation. *)
Definition bm_step (n : nat) (s : bm) (i : fs_in) : bm :=
  if i_rst i then bm_init n else bm_next n s (i_hdr i).

Definition bm_run (n : nat) (s : bm) (l : list fs_in) : bm := fold_left (bm_step n) l s.
