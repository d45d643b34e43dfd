(** The parallel LFSR / CRC module fpga/lib/eth/rtl/lfsr.v. *)
From Verif Require Import Base.Prelude.
Local Open Scope Z_scope.

(** Parameters (lfsr.v:36-52): LFSR_WIDTH, LFSR_POLY, LFSR_CONFIG ([true] for
    "GALOIS", [false] for "FIBONACCI"; any other string is an elaboration error
    that is not modelled), LFSR_FEED_FORWARD, REVERSE, DATA_WIDTH, and STYLE_INT
    ([true] for "REDUCTION", [false] for "LOOP"). *)
Record lcfg := mkLc {
  l_w : nat; l_poly : Z; l_galois : bool; l_ff : bool; l_rev : bool; l_d : nat; l_red : bool }.

(** A pair of bit masks: which bits of state_in and which of data_in take part. *)
Definition masks := (Z * Z)%type.

(** XOR of the two masks of a pair. *)
Definition mxor (a b : masks) : masks := (Z.lxor (fst a) (fst b), Z.lxor (snd a) (snd b)).

(** lfsr.v:208-212: initial masks of the shift register. *)
Definition init_lfsr (c : lcfg) : list masks :=
  map (fun i => (Z.shiftl 1 (Z.of_nat i), 0)) (seq 0 (l_w c)).

(** lfsr.v:213-219: initial masks of the output. *)
Definition init_out (c : lcfg) : list masks :=
  map (fun i => (if (i <? l_w c)%nat then Z.shiftl 1 (Z.of_nat i) else 0, 0)) (seq 0 (l_d c)).

(** The shift loops (lfsr.v:242-252, 272-282): running [j] downwards,
    [a[j] = a[j-1]], then [a[0] = x]. *)
Definition shift_in {A} (x : A) (l : list A) : list A := x :: removelast l.

(** lfsr.v:234-239: Fibonacci taps. *)
Definition fib_taps (c : lcfg) (l : list masks) (v : masks) : masks :=
  fold_left (fun v j => if Z.testbit (l_poly c) (Z.of_nat j) then mxor (nth (j - 1) l (0, 0)) v else v)
            (seq 1 (l_w c - 1)) v.

(** lfsr.v:292-297: Galois taps (each position is updated once). *)
Definition gal_taps (c : lcfg) (l : list masks) (v : masks) : list masks :=
  map (fun '(j, x) => if (0 <? j)%nat && Z.testbit (l_poly c) (Z.of_nat j) then mxor x v else x)
      (combine (seq 0 (l_w c)) l).

(** One pass of the simulation loop (lfsr.v:225-258, 262-298): [dm] is data_mask. *)
Definition mask_step (c : lcfg) (dm : Z) (st : list masks * list masks) : list masks * list masks :=
  let '(l, o) := st in
  let v := nth (l_w c - 1) l (0, 0) in
  let v := (fst v, Z.lxor (snd v) dm) in
  let v := if l_galois c then v else fib_taps c l v in
  let o' := shift_in v o in
  let v := if l_ff c then (0, dm) else v in
  let l' := shift_in v l in
  (if l_galois c then gal_taps c l' v else l', o').

(** The loop [for (data_mask = 1 << (DATA_WIDTH-1); data_mask != 0; data_mask >>= 1)]
    has [k] passes left. *)
Fixpoint mask_loop (k : nat) (c : lcfg) (st : list masks * list masks) : list masks * list masks :=
  match k with
  | O => st
  | S k' => mask_loop k' c (mask_step c (Z.shiftl 1 (Z.of_nat k')) st)
  end.

Definition all_masks (c : lcfg) : list masks * list masks :=
  mask_loop (l_d c) c (init_lfsr c, init_out c).

(** A vector assembled bit by bit. *)
Definition assemble (n : nat) (f : nat -> bool) : Z :=
  fold_left (fun v i => if f i then Z.lor v (Z.shiftl 1 (Z.of_nat i)) else v) (seq 0 n) 0.

(** lfsr.v:305-334: reversal of a mask of width [n]. *)
Definition mirror (n : nat) (m : Z) : Z := assemble n (fun i => Z.testbit m (Z.of_nat (n - i - 1))).

(** lfsr.v:304-344: the function lfsr_mask applied to [index]; the result is
    kept as the pair (state_val, data_val). *)
Definition lfsr_mask (c : lcfg) (index : nat) : masks :=
  let '(l, o) := all_masks c in
  if l_rev c then
    let m := if (index <? l_w c)%nat then nth (l_w c - index - 1) l (0, 0)
             else nth (l_d c - (index - l_w c) - 1) o (0, 0) in
    (mirror (l_w c) (fst m), mirror (l_d c) (snd m))
  else if (index <? l_w c)%nat then nth index l (0, 0) else nth (index - l_w c) o (0, 0).

(** Reduction operator [^x] of an [n]-bit vector. *)
Definition xor_reduce (n : nat) (x : Z) : bool :=
  fold_left (fun acc i => xorb acc (Z.testbit x (Z.of_nat i))) (seq 0 n) false.

(** Concatenation [{hi, lo}] with [lo] of width [w]. *)
Definition vcat (w : nat) (hi lo : Z) : Z := Z.lor (Z.shiftl hi (Z.of_nat w)) lo.

(** lfsr.v:375-382. *)
Definition reduce_bit (c : lcfg) (m : masks) (state_in data_in : Z) : bool :=
  xor_reduce (l_w c + l_d c)
    (Z.land (vcat (l_w c) data_in state_in) (vcat (l_w c) (snd m) (fst m))).

(** lfsr.v:402-414, 427-439: the nested loops, on the same mask vector. *)
Definition loop_bit (c : lcfg) (m : masks) (state_in data_in : Z) : bool :=
  let mask := vcat (l_w c) (snd m) (fst m) in
  let r := fold_left (fun r i => if Z.testbit mask (Z.of_nat i)
                                 then xorb r (Z.testbit state_in (Z.of_nat i)) else r)
                     (seq 0 (l_w c)) false in
  fold_left (fun r i => if Z.testbit mask (Z.of_nat (i + l_w c))
                        then xorb r (Z.testbit data_in (Z.of_nat i)) else r)
            (seq 0 (l_d c)) r.

Definition out_bit (c : lcfg) (index : nat) (state_in data_in : Z) : bool :=
  if l_red c then reduce_bit c (lfsr_mask c index) state_in data_in
  else loop_bit c (lfsr_mask c index) state_in data_in.

(** The output ports (lfsr.v:54-57, 374-382, 394-440). *)
Definition lfsr_state (c : lcfg) (state_in data_in : Z) : Z :=
  assemble (l_w c) (fun n => out_bit c n state_in data_in).

Definition lfsr_data (c : lcfg) (state_in data_in : Z) : Z :=
  assemble (l_d c) (fun n => out_bit c (n + l_w c) state_in data_in).

(** The register every instance puts around the module (for example
    eth_phy_10g_tx_if.v:122-130 with 154-155): state_in is the register and
    state_out its next value; data_out is the output of the cycle. *)
Definition word_step (c : lcfg) (s d : Z) : Z * Z := (lfsr_state c s d, lfsr_data c s d).
