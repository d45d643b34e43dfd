(** What the receive watchdog reports and asks for. *)
From Coq Require Import List Arith Bool.
From Verif Require Import Eth.FrameSync_model Eth.BerMon_model Eth.Watchdog_model.
Import ListNotations.

Definition calm (l : list wd_in) : Prop := Forall (fun i => v_rst i = false) l.

(** A clock in lock with a control header; a clock in lock with an error. *)
Definition seen (i : wd_in) : bool := v_lock i && (negb (fst (v_hdr i)) && snd (v_hdr i)).
Definition fault (i : wd_in) : bool := v_lock i && (v_badblk i || v_seqerr i).

(** A poor window (its last clock does not count): no control header in lock, or 1023 errors or more in lock. *)
Definition poor (w : list wd_in) : Prop :=
  (forall i, In i (removelast w) -> seen i = false) \/ 1023 <= length (filter fault (removelast w)).

(** A history that ends with a reset, whatever it was, and windows after it. *)
Definition from_reset (h : list wd_in) : Prop := exists h' i, h = h' ++ [i] /\ v_rst i = true.
Definition windows (n : nat) (ws : list (list wd_in)) : Prop := Forall (fun w => calm w /\ length w = S n) ws.

(** Request and status after a history, from power-up. *)
Definition reset_req (n : nat) (h : list wd_in) : bool := d_req (wd_run n wd_power h).
Definition link_up (n : nat) (h : list wd_in) : bool := d_status (wd_run n wd_power h).
