(** What "the next-pointer chain" is, independently of the enumeration loop. *)
From Verif Require Import Base.Prelude Driver.RegBlock_model.
Local Open Scope Z_scope.

(** The k-th offset on the chain: follow the next pointer k times. *)
Fixpoint chain (regs : regfile) (start : Z) (k : nat) : Z :=
  match k with
  | O => start
  | S j => regs (chain regs start j + 8)
  end.

(** The block the registers describe at an offset. *)
Definition block_at (regs : regfile) (o : Z) : rblock := mkRB o (regs o) (regs (o + 4)).

Definition dwords (regs : regfile) : Prop := forall a, 0 <= regs a < 2 ^ 32.

(** [legal_upto n]: the first n links (to chain elements 1..n) are nonzero,
    4-byte aligned and lead to offsets not seen before. *)
Definition legal_upto (regs : regfile) (start : Z) (n : nat) : Prop :=
  forall k, (1 <= k <= n)%nat ->
    chain regs start k <> 0 /\
    chain regs start k mod 4 = 0 /\
    (forall j, (j < k)%nat -> chain regs start j <> chain regs start k).

Definition chain_blocks (regs : regfile) (start : Z) (n : nat) : list rblock :=
  map (fun k => block_at regs (chain regs start k)) (seq 0 n).
