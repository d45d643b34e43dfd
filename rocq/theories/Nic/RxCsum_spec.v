(** Vocabulary for the receive checksum. *)
From Verif Require Import Base.Prelude Nic.RxCsum_model.
Local Open Scope Z_scope.

(** Byte [j] of a beat, if the beat carries one there. *)
Definition lane (b : cbeat) (j : nat) : Z :=
  if Z.testbit (cb_keep b) (Z.of_nat j) then (cb_data b / 2 ^ (8 * Z.of_nat j)) mod 256 else 0.

(** The bytes of a frame on a bus of [k] lanes, by position, missing ones zero. *)
Definition frame_bytes (k : nat) (f : list cbeat) : list Z :=
  concat (map (fun b => map (lane b) (seq 0 k)) f).

Definition sum (l : list Z) : Z := fold_right Z.add 0 l.

(** Sum of the big-endian 16-bit words (bytes at even positions are the high
    halves) of the bytes from position [start] on. *)
Definition word_total (start : nat) (l : list Z) : Z :=
  sum (map (fun i => if (start <=? i)%nat then nth i l 0 * (if Nat.even i then 256 else 1) else 0)
           (seq 0 (length l))).

(** [r] is the 16-bit ones'-complement sum with total [t] (zero only for an
    all-zero total; this determines [r]). *)
Definition ones_complement (t r : Z) : Prop :=
  0 <= r <= 65535 /\ r mod 65535 = t mod 65535 /\ (r = 0 <-> t = 0).

(** The beats of the frame in progress after some cycles. *)
Definition in_progress (is : list (option cbeat)) : list cbeat :=
  fold_left (fun f i => match i with
                        | None => f
                        | Some b => if cb_last b then [] else f ++ [b]
                        end) is [].

(** The start position in beats is not a power of two (2, 4, 8, ...), which the
    beat counter cannot hold. *)
Definition start_ok (c : rccfg) : Prop :=
  ~ exists n, (1 <= n)%nat /\ (rc_start c / rc_k c)%nat = (2 ^ n)%nat.
