(** Vocabulary for the PHY link. *)
From Verif Require Import Base.Prelude Eth.Lfsr_model Eth.Lfsr_spec Eth.Phy_model.
Local Open Scope Z_scope.

(** Blocks of the right widths. *)
Definition block_ok (c : phycfg) (b : block) : Prop :=
  0 <= fst b < 2 ^ Z.of_nat (y_d c) /\ 0 <= snd b < 2 ^ Z.of_nat (y_h c).

(** Scrambler registers hold 58 bits, PRBS registers 31, everything in the
    pipelines has the right width; the contents are arbitrary. *)
Definition tx_ok (c : phycfg) (s : txif) : Prop :=
  0 <= tx_scr s < 2 ^ 58 /\ 0 <= tx_prbs s < 2 ^ 31 /\ block_ok c (tx_reg s) /\ Forall (block_ok c) (tx_pipe s).
Definition rx_ok (c : phycfg) (s : rxif) : Prop :=
  0 <= rx_scr s < 2 ^ 58 /\ 0 <= rx_prbs s < 2 ^ 31 /\ Forall (block_ok c) (rx_pipe s).

(** Cycles from the encoded input of the transmitter to the line, and from
    there to the encoded output of the receiver. *)
Definition tx_lag (s : txif) : nat := S (length (tx_pipe s)).
Definition rx_lag (s : rxif) : nat := S (length (rx_pipe s)).

(** The data bits and the header bits of a block in the order in which the
    line carries them: least significant first, or the reverse. *)
Definition line_data (c : phycfg) (b : block) : list bool :=
  if y_brev c then rev (vec (y_d c) (fst b)) else vec (y_d c) (fst b).
Definition line_hdr (c : phycfg) (b : block) : list bool :=
  if y_brev c then rev (vec (y_h c) (snd b)) else vec (y_h c) (snd b).

(** Bit [b] of the data stream of a sequence of blocks, given block by block. *)
Definition bit_of (d : nat) (f : nat -> list bool) (b : nat) : bool :=
  nth (b mod d) (f (b / d)%nat) false.

(** Ones in a list. *)
Definition ones (l : list bool) : nat := length (filter (fun b => b) l).

(** The block sent is header first: all bits of a block in line order. *)
Definition wd (c : phycfg) : nat := (y_d c + y_h c)%nat.
Definition line_bits (c : phycfg) (b : block) : list bool := line_hdr c b ++ line_data c b.

(** The test pattern is off, or on, throughout. *)
Definition off (c : phycfg) (is : list tx_in) : Prop := Forall (fun i => y_prbs c && snd i = false) is.
Definition on (c : phycfg) (is : list tx_in) : Prop := Forall (fun i => y_prbs c && snd i = true) is.

(** Empty block and default output. *)
Definition z2 : block := (0, 0).
Definition z3 : block * Z := (z2, 0).
