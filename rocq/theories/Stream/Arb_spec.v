From Verif Require Import Base.Prelude Stream.Arb_model.

(** [i] is the least (or greatest) set bit below [w]. *)
Definition extreme_bit (least : bool) (w : nat) (f : nat -> bool) (i : nat) : Prop :=
  i < w /\ f i = true /\
  forall j, j < w -> f j = true -> if least then i <= j else j <= i.

(** What the arbiter's user sees as "the grant is held": blocking is on, a grant is
    active, and the granted port has not released it: with ARB_BLOCK_ACK it has not
    acknowledged, otherwise it still requests. *)
Definition held (c : arbcfg) (s : arb) (x : arbin) : bool :=
  block c && a_valid s &&
  (if block_ack c then negb (ar_ack x (a_enc s)) else ar_req x (a_enc s)).

(** The ports chosen in the cycles in which the grant is not held and some port
    requests, in order. *)
Fixpoint grants (c : arbcfg) (s : arb) (xs : list arbin) : list nat :=
  match xs with
  | [] => []
  | x :: r =>
      let s' := arb_step c s x in
      (if negb (held c s x) && a_valid s' then [a_enc s'] else []) ++ grants c s' r
  end.

(** Every state the arbiter can be in. *)
Definition arb_reach (c : arbcfg) (s : arb) : Prop := exists xs, s = run (arb_step c) arb0 xs.
