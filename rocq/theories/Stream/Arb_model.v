(** The priority encoder (fpga/lib/axis/rtl/priority_encoder.v) and the arbiter
    (fpga/lib/axis/rtl/arbiter.v).  A vector is a function from bit index to bit. *)
From Verif Require Import Base.Prelude.

(** LEVELS (priority_encoder.v:46): WIDTH > 2 ? $clog2(WIDTH) : 1. *)
Definition levels (w : nat) : nat := if 2 <? w then Nat.log2_up w else 1.

(** input_padded (priority_encoder.v:50). *)
Definition padded (w : nat) (inp : nat -> bool) : nat -> bool := fun k => (k <? w) && inp k.

(** stage_valid[l] and stage_enc[l] (priority_encoder.v:52-82), bit by bit, with the
    packing of the (l+1)-bit fields: bit [k] of stage_enc[l] is bit [k mod (l+1)] of
    field [k / (l+1)].  Bits of stage_enc beyond the last field are undriven in the
    source; here they carry some value and are never read. *)
Fixpoint stage (lsb : bool) (inp : nat -> bool) (l : nat) : (nat -> bool) * (nat -> bool) :=
  match l with
  | 0 => (fun n => inp (n * 2) || inp (n * 2 + 1),
          fun n => if lsb then negb (inp (n * 2)) else inp (n * 2 + 1))
  | S m =>
      let '(v, e) := stage lsb inp m in
      (fun n => v (n * 2) || v (n * 2 + 1),
       fun k =>
         let n := k / (l + 1) in
         let j := k mod (l + 1) in
         if lsb
         then if v (n * 2)
              then (if j =? l then false else e ((n * 2) * l + j))
              else (if j =? l then true else e ((n * 2 + 1) * l + j))
         else if v (n * 2 + 1)
              then (if j =? l then true else e ((n * 2 + 1) * l + j))
              else (if j =? l then false else e ((n * 2) * l + j)))
  end.

(** The number in bits [base+n-1:base] of a vector. *)
Fixpoint field (e : nat -> bool) (base n : nat) : nat :=
  match n with
  | 0 => 0
  | S m => field e base m + (if e (base + m) then 2 ^ m else 0)
  end.

(** output_valid, output_encoded, output_unencoded (priority_encoder.v:85-87). *)
Definition pe_valid (w : nat) (lsb : bool) (inp : nat -> bool) : bool :=
  fst (stage lsb (padded w inp) (levels w - 1)) 0.
Definition pe_encoded (w : nat) (lsb : bool) (inp : nat -> bool) : nat :=
  field (snd (stage lsb (padded w inp) (levels w - 1))) 0 (levels w).
Definition pe_unencoded (w : nat) (lsb : bool) (inp : nat -> bool) : nat -> bool :=
  fun k => (k <? w) && (k =? pe_encoded w lsb inp).

(** Arbiter parameters (arbiter.v:35-46). *)
Record arbcfg := mkArb { ports : nat; rr : bool; block : bool; block_ack : bool; lsb_high : bool }.

(** Registers (arbiter.v:60-62, 85); the outputs are these registers (64-66). *)
Record arb := mkArbSt {
  a_grant : nat -> bool; a_valid : bool; a_enc : nat; a_mask : nat -> bool }.

Definition arb0 : arb := mkArbSt (fun _ => false) false 0 (fun _ => false).

Record arbin := mkArbIn { ar_rst : bool; ar_req : nat -> bool; ar_ack : nat -> bool }.

(** A vector used as a condition: some bit is set. *)
Definition any (n : nat) (f : nat -> bool) : bool := existsb f (seq 0 n).

(** mask_next (arbiter.v:127-131, 137-141): {PORTS{1'b1}} << (i+1), or
    {PORTS{1'b1}} >> (PORTS-i). *)
Definition mask_after (c : arbcfg) (i : nat) : nat -> bool :=
  if lsb_high c
  then fun k => (k <? ports c) && (i + 1 <=? k)
  else fun k => k + (ports c - i) <? ports c.

(** arbiter.v:103-151 (next values) and 153-165 (registers). *)
Definition arb_step (c : arbcfg) (s : arb) (x : arbin) : arb :=
  let n := ports c in
  let mreq := fun k => ar_req x k && a_mask s k in
  if ar_rst x then arb0
  else if block c && negb (block_ack c) && any n (fun k => a_grant s k && ar_req x k) then s
  else if block c && block_ack c && a_valid s && negb (any n (fun k => a_grant s k && ar_ack x k)) then s
  else if pe_valid n (lsb_high c) (ar_req x) then
    if rr c then
      if pe_valid n (lsb_high c) mreq then
        mkArbSt (pe_unencoded n (lsb_high c) mreq) true (pe_encoded n (lsb_high c) mreq)
                (mask_after c (pe_encoded n (lsb_high c) mreq))
      else
        mkArbSt (pe_unencoded n (lsb_high c) (ar_req x)) true (pe_encoded n (lsb_high c) (ar_req x))
                (mask_after c (pe_encoded n (lsb_high c) (ar_req x)))
    else
      mkArbSt (pe_unencoded n (lsb_high c) (ar_req x)) true (pe_encoded n (lsb_high c) (ar_req x)) (a_mask s)
  else mkArbSt (fun _ => false) false 0 (a_mask s).
