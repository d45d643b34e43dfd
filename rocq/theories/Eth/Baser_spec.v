(** What C33 speaks about: XGMII words and the block formats of 10GBASE-R
    (IEEE 802.3 figure 49-7). *)
From Verif Require Import Base.Prelude Base.Bits.
Local Open Scope Z_scope.

(** A word: 64 data bits and 8 control bits. *)
Notation word := (Z * Z)%type.
Definition wf (w : word) : Prop := 0 <= fst w < 2 ^ 64 /\ 0 <= snd w < 2 ^ 8.
Definition byte (w : word) (i : nat) : Z := (fst w / 2 ^ (8 * Z.of_nat i)) mod 256.
Definition is_ctl (w : word) (i : nat) : bool := Z.testbit (snd w) (Z.of_nat i).

(** What a lane holds: data, a control character that fills (idle, low power idle, error, reserved), start,
    terminate, ordered set. *)
Inductive kind := kD | kC | kS | kT | kO.
Definition fill : list Z := [0x07; 0x06; 0xfe; 0x1c; 0x3c; 0x7c; 0xbc; 0xdc; 0xf7].
Definition holds_kind (w : word) (i : nat) (k : kind) : Prop :=
  match k with
  | kD => is_ctl w i = false
  | kC => is_ctl w i = true /\ In (byte w i) fill
  | kS => is_ctl w i = true /\ byte w i = 0xfb
  | kT => is_ctl w i = true /\ byte w i = 0xfd
  | kO => is_ctl w i = true /\ byte w i = 0x9c
  end.
(** Lane 0 first. *)
Definition os_start : list kind := [kO; kD; kD; kD; kS; kD; kD; kD].
Definition formats : list (list kind) :=
  [ [kD; kD; kD; kD; kD; kD; kD; kD]; [kC; kC; kC; kC; kC; kC; kC; kC];
    [kC; kC; kC; kC; kO; kD; kD; kD]; [kC; kC; kC; kC; kS; kD; kD; kD]; os_start; [kO; kD; kD; kD; kO; kD; kD; kD];
    [kS; kD; kD; kD; kD; kD; kD; kD]; [kO; kD; kD; kD; kC; kC; kC; kC];
    [kT; kC; kC; kC; kC; kC; kC; kC]; [kD; kT; kC; kC; kC; kC; kC; kC]; [kD; kD; kT; kC; kC; kC; kC; kC]; [kD; kD; kD; kT; kC; kC; kC; kC];
    [kD; kD; kD; kD; kT; kC; kC; kC]; [kD; kD; kD; kD; kD; kT; kC; kC]; [kD; kD; kD; kD; kD; kD; kT; kC]; [kD; kD; kD; kD; kD; kD; kD; kT] ].
Definition has_format (w : word) (f : list kind) : Prop := forall i k, nth_error f i = Some k -> holds_kind w i k.
Definition legal (w : word) : Prop := exists f, In f formats /\ has_format w f.

Definition lane_is (w : word) (b : Z) (i : nat) : bool := is_ctl w i && (byte w i =? b).
Definition starts (w : word) : bool := lane_is w 0xfb 0 || lane_is w 0xfb 4.
Definition ends (w : word) : bool := existsb (lane_is w 0xfd) (seq 0 8).
(** An error character in some lane. *)
Definition has_error (w : word) : bool := existsb (lane_is w 0xfe) (seq 0 8).
(** Inside a frame after a word. *)
Definition inside (fr : bool) (w : word) : bool := if starts w then true else if ends w then false else fr.
(** A start inside a frame or an end outside. *)
Definition misplaced (fr : bool) (w : word) : bool := (starts w && fr) || (ends w && negb fr).

(** Inside a frame when word number [n] comes, for words with the receiver's reset in the cycle it takes each
    word; outside at power-on. *)
Definition frame_step (fr : bool) (p : word * bool) : bool := if snd p then false else inside fr (fst p).
Definition frame_before (fr : bool) (ws : list (word * bool)) (n : nat) : bool := fold_left frame_step (firstn n ws) fr.
(** The word coded in each cycle of a run with the reset in the next cycle, when it is decoded. *)
Definition taken (is : list (bool * word)) : list (word * bool) := combine (map snd is) (skipn 1 (map fst is)).

(** Blocks as they are on the line (figure 49-7).  The 7-bit codes of the control characters (table 49-1; low power
    idle by 802.3az) and the type field of each format. *)
Definition control_codes : list (Z * Z) :=
  [(0x07, 0x00); (0x06, 0x06); (0xfe, 0x1e); (0x1c, 0x2d); (0x3c, 0x33); (0x7c, 0x4b); (0xbc, 0x55); (0xdc, 0x66); (0xf7, 0x78)].
Definition block_types : list (list kind * Z) :=
  combine (skipn 1 formats) [0x1e; 0x2d; 0x33; 0x66; 0x55; 0x78; 0x4b; 0x87; 0x99; 0xaa; 0xb4; 0xcc; 0xd2; 0xe1; 0xff].
Definition part (x : Z) (lo w : nat) : Z := (x / 2 ^ Z.of_nat lo) mod 2 ^ Z.of_nat w.
Definition is_end (k : kind) : bool := match k with kT => true | _ => false end.
(** The block of a word with a control character: type in the first byte; the code of a control character in lane [i]
    at bit [8 + 7 i]; the data of lane [i] at bit [8 i], or one byte later if the frame ends in that word; the code of an
    ordered set at bit 32 or 36. *)
Definition control_block (w : word) (f : list kind) (x : Z) : Prop :=
  (exists t, In (f, t) block_types /\ part x 0 8 = t) /\
  forall i k, nth_error f i = Some k ->
    match k with
    | kC => exists v, In (byte w i, v) control_codes /\ part x (8 + 7 * i) 7 = v
    | kD => part x (8 * i + if existsb is_end f then 8 else 0) 8 = byte w i
    | kO => part x (if (i =? 0)%nat then 32 else 36) 4 = 0
    | kS | kT => True
    end.
