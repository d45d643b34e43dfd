(** The bit-serial shift registers drawn in the comment of lfsr.v:94-157. *)
From Verif Require Import Base.Prelude.
Local Open Scope Z_scope.

(** A register is the list of its flip-flops, number 0 first. *)
Definition xor_all (l : list bool) : bool := fold_right xorb false l.

(** Flip-flops in front of the taps of polynomial [poly] for a register of
    width [w]: the term x^j taps the output of flip-flop j-1. *)
Definition tapped (w : nat) (poly : Z) (r : list bool) : list bool :=
  map (fun j => nth (j - 1) r false)
      (filter (fun j => Z.testbit poly (Z.of_nat j)) (seq 1 (w - 1))).

(** One clock of the Fibonacci register: new contents and output bit. *)
Definition fib_clock (w : nat) (poly : Z) (ff : bool) (r : list bool) (d : bool) : list bool * bool :=
  let out := xorb d (xorb (nth (w - 1) r false) (xor_all (tapped w poly r))) in
  ((if ff then d else out) :: firstn (w - 1) r, out).

(** One clock of the Galois register. *)
Definition gal_clock (w : nat) (poly : Z) (ff : bool) (r : list bool) (d : bool) : list bool * bool :=
  let out := xorb d (nth (w - 1) r false) in
  let v := if ff then d else out in
  (map (fun j => match j with
                 | O => v
                 | S k => xorb (nth k r false) (Z.testbit poly (Z.of_nat j) && v)
                 end) (seq 0 w), out).

Definition serial (w : nat) (poly : Z) (galois ff : bool) (r : list bool) (ds : list bool) : list bool * list bool :=
  trace (if galois then gal_clock w poly ff else fib_clock w poly ff) r ds.

(** The [n] low bits of a vector, bit 0 first. *)
Definition vec (n : nat) (x : Z) : list bool := map (fun i => Z.testbit x (Z.of_nat i)) (seq 0 n).

(** The order in which a module with or without bit reversal numbers things:
    by default flip-flop [i] is state bit [i] and data goes most significant
    bit first; with bit reversal both orders are turned round. *)
Definition register_of (rev : bool) (w : nat) (x : Z) : list bool :=
  if rev then List.rev (vec w x) else vec w x.
Definition stream_of (rev : bool) (d : nat) (x : Z) : list bool :=
  if rev then vec d x else List.rev (vec d x).

(** What a Fibonacci register with history [f] adds to the input at time [t]:
    the bit shifted in [w] clocks ago and those at the taps. *)
Definition mix (w : nat) (poly : Z) (f : nat -> bool) (t : nat) : bool :=
  xorb (f (t - w)%nat)
       (xor_all (map (fun j => f (t - j)%nat)
                     (filter (fun j => Z.testbit poly (Z.of_nat j)) (seq 1 (w - 1))))).

(** The bits of a sequence of words in the order in which they are shifted. *)
Definition bitstream (rev : bool) (d : nat) (ws : list Z) : list bool :=
  concat (map (stream_of rev d) ws).
