(** What block synchronisation is to do, in terms of headers, bitslip and lock. *)
From Coq Require Import List Arith Bool.
From Verif Require Import Eth.FrameSync_model.
Import ListNotations.

(** A clock without reset with a header of two different bits, or of two equal bits. *)
Definition good (i : fs_in) : bool := negb (i_rst i) && xorb (fst (i_hdr i)) (snd (i_hdr i)).
Definition bad (i : fs_in) : bool := negb (i_rst i) && negb (xorb (fst (i_hdr i)) (snd (i_hdr i))).
Definition quiet (l : list fs_in) : Prop := Forall (fun i => i_rst i = false) l.
Definition bads (l : list fs_in) : nat := length (filter bad l).

(** Lock and bitslip after a history, from power-up (resets may be part of the history). *)
Definition locked (hi lo : nat) (h : list fs_in) : bool := f_lock (fs_run hi lo fs_init h).
Definition slipping (hi lo : nat) (h : list fs_in) : bool := f_slip (fs_run hi lo fs_init h).
Definition locks_at (hi lo : nat) (h : list fs_in) (i : fs_in) : Prop :=
  locked hi lo h = false /\ locked hi lo (h ++ [i]) = true.
Definition slips_at (hi lo : nat) (h : list fs_in) (i : fs_in) : Prop :=
  slipping hi lo h = false /\ slipping hi lo (h ++ [i]) = true.

(** A transceiver: the header it delivers depends in any way on the number of
    bits slipped so far, the time, and how long ago the last slip was asked for.
    It slips by one more bit whenever bitslip rises. *)
Fixpoint loop (hi lo : nat) (out : nat -> nat -> nat -> bool * bool) (n : nat) (s : fs) (a t g : nat) : fs * nat :=
  match n with
  | O => (s, a)
  | S n =>
    let s' := fs_step hi lo s {| i_rst := false; i_hdr := out a t g |} in
    if negb (f_slip s) && f_slip s' then loop hi lo out n s' (S a) (S t) 0
    else loop hi lo out n s' a (S t) (S g)
  end.

(** It settles within [d] clocks after a slip.  Then, in position [p] of the 66
    bit positions all headers are valid, and in every other position there is an
    invalid one among any 64. *)
Definition transceiver (out : nat -> nat -> nat -> bool * bool) (p d : nat) : Prop :=
  (forall a t g, d <= g -> a mod 66 = p -> xorb (fst (out a t g)) (snd (out a t g)) = true) /\
  (forall a t g, d <= g -> a mod 66 <> p ->
     exists k, k < 64 /\ xorb (fst (out a (t + k) (g + k))) (snd (out a (t + k) (g + k))) = false).
