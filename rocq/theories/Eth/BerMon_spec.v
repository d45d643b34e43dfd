(** What the bit error rate monitor reports. *)
From Coq Require Import List Arith Bool.
From Verif Require Import Eth.FrameSync_model Eth.FrameSync_spec Eth.BerMon_model.
Import ListNotations.

(** The alarm after a history, from power-up (resets may be part of the history). *)
Definition alarm (n : nat) (h : list fs_in) : bool := b_high (bm_run n (bm_init n) h).

(** A history that ends in a known place: nothing yet, or a reset just now. *)
Definition anew (h : list fs_in) : Prop := h = [] \/ exists h' i, h = h' ++ [i] /\ i_rst i = true.

(** The verdict at the end of a window of headers: 16 invalid ones raise the alarm, fewer clear it,
    except that 15 before the last header and none there leave it as it was. *)
Definition verdict (was : bool) (w : list fs_in) : bool :=
  if 16 <=? bads w then true else if bads (removelast w) =? 15 then was else false.
