(** The SERDES side of the 10GBASE-R PHY: fpga/lib/eth/rtl/eth_phy_10g_tx_if.v
    and the data path of eth_phy_10g_rx_if.v (block lock, BER monitor and
    watchdog are separate modules that only observe the header). *)
From Verif Require Import Base.Prelude Eth.Lfsr_model.
Local Open Scope Z_scope.

(** Parameters (eth_phy_10g_tx_if.v:35-40, eth_phy_10g_rx_if.v): DATA_WIDTH,
    HDR_WIDTH, BIT_REVERSE, SCRAMBLER_DISABLE, PRBS31_ENABLE.  The modules
    insist on 64 and 2 (tx 66-76, rx 81-91); the model does not.
    SERDES_PIPELINE is the length of the pipeline list in the state. *)
Record phycfg := mkPhy { y_d : nat; y_h : nat; y_brev : bool; y_nscr : bool; y_prbs : bool }.

(** A block on the SERDES or encoded interface: data and header. *)
Notation block := (Z * Z)%type.

(** tx 122-130, rx 205-213: scrambler and descrambler; STYLE "AUTO" is the
    reduction style in simulation. *)
Definition scr_cfg (c : phycfg) (ff : bool) : lcfg := mkLc 58 0x8000000001 false ff true (y_d c) true.

(** tx 138-146, rx 221-229. *)
Definition prbs_cfg (c : phycfg) (ff : bool) : lcfg :=
  mkLc 31 0x10000001 false ff true (y_d c + y_h c) true.

(** tx 94-105, rx 97-108: optional bit reversal of data and of header. *)
Definition brev (c : phycfg) (b : block) : block :=
  if y_brev c then (mirror (y_d c) (fst b), mirror (y_h c) (snd b)) else b.

(** tx 107-120, rx 110-129: a pipeline of registers [p], first stage first:
    next contents and output. *)
Definition pipe_next {A} (x : A) (p : list A) : list A := removelast (x :: p).
Definition pipe_out {A} (x : A) (p : list A) : A := last p x.

Record txif := mkTx { tx_scr : Z; tx_prbs : Z; tx_reg : block; tx_pipe : list block }.

(** Inputs of a cycle: encoded block and cfg_tx_prbs31_enable. *)
Notation tx_in := (block * bool)%type.

(** tx 161-162: [~prbs31_data[DATA_WIDTH+HDR_WIDTH-1:HDR_WIDTH]], [~prbs31_data[HDR_WIDTH-1:0]]. *)
Definition prbs_block (c : phycfg) (p : Z) : block :=
  (assemble (y_d c) (fun i => negb (Z.testbit p (Z.of_nat (i + y_h c)))),
   assemble (y_h c) (fun i => negb (Z.testbit p (Z.of_nat i)))).

(** tx 90-91, 154-168: next state of one cycle and the SERDES outputs during it. *)
Definition tx_step (c : phycfg) (s : txif) (i : tx_in) : txif * block :=
  let '((d, h), en) := i in
  let on := y_prbs c && en in
  let int := brev c (tx_reg s) in
  (mkTx (lfsr_state (scr_cfg c false) (tx_scr s) d)
        (if on then lfsr_state (prbs_cfg c false) (tx_prbs s) 0 else tx_prbs s)
        (if on then prbs_block c (lfsr_data (prbs_cfg c false) (tx_prbs s) 0)
         else (if y_nscr c then d else lfsr_data (scr_cfg c false) (tx_scr s) d, h))
        (pipe_next int (tx_pipe s)),
   pipe_out int (tx_pipe s)).

Record rxif := mkRx {
  rx_scr : Z; rx_prbs : Z; rx_pipe : list block; rx_reg : block;
  rx_c1 : Z; rx_c2 : Z; rx_cnt : Z }.

(** rx 230: [~{serdes_rx_data_int, serdes_rx_hdr_int}]. *)
Definition prbs_word (c : phycfg) (b : block) : Z :=
  assemble (y_d c + y_h c) (fun i => negb (Z.testbit (vcat (y_h c) (fst b) (snd b)) (Z.of_nat i))).

(** rx 238-248: number of ones at odd or even positions, 6-bit accumulator. *)
Definition count_ones (c : phycfg) (odd : bool) (p : Z) : Z :=
  fold_left (fun acc i => if Bool.eqb (Nat.odd i) odd
                          then (acc + Z.b2z (Z.testbit p (Z.of_nat i))) mod 64 else acc)
            (seq 0 (y_d c + y_h c)) 0.

(** Inputs: SERDES block and cfg_rx_prbs31_enable; outputs: encoded block and
    rx_error_count (rx 131-135, 250-270). *)
Definition rx_step (c : phycfg) (s : rxif) (i : tx_in) : rxif * (block * Z) :=
  let '(b, en) := i in
  let on := y_prbs c && en in
  let int := pipe_out (brev c b) (rx_pipe s) in
  let p := lfsr_data (prbs_cfg c true) (rx_prbs s) (prbs_word c int) in
  (mkRx (lfsr_state (scr_cfg c true) (rx_scr s) (fst int))
        (if on then lfsr_state (prbs_cfg c true) (rx_prbs s) (prbs_word c int) else rx_prbs s)
        (pipe_next (brev c b) (rx_pipe s))
        (if y_nscr c then fst int else lfsr_data (scr_cfg c true) (rx_scr s) (fst int), snd int)
        (if on then count_ones c true p else rx_c1 s)
        (if on then count_ones c false p else rx_c2 s)
        (if on then (rx_c1 s + rx_c2 s) mod 128 else rx_cnt s),
   (rx_reg s, rx_cnt s)).

(** A transmitter connected to a receiver by a line that may flip bits: in
    each cycle the SERDES block is XORed with an error block. *)
Definition flip (b e : block) : block := (Z.lxor (fst b) (fst e), Z.lxor (snd b) (snd e)).

Definition link_step (c : phycfg) (s : txif * rxif) (i : tx_in * block) : (txif * rxif) * (block * Z) :=
  let '(t, o) := tx_step c (fst s) (fst i) in
  let '(r, q) := rx_step c (snd s) (flip o (snd i), snd (fst i)) in
  ((t, r), q).
