(** Vocabulary for time arithmetic: a time is a whole number of nanoseconds. *)
From Verif Require Import Base.Prelude Utils.Timespec_model.
Local Open Scope Z_scope.

Definition value (t : ts) : Z := sec t * 1000000000 + nsec t.

(** Seconds and nanoseconds never of opposite sign, less than a second of
    nanoseconds. *)
Definition norm (t : ts) : Prop :=
  - 1000000000 < nsec t < 1000000000 /\ ((0 <= sec t /\ 0 <= nsec t) \/ (sec t <= 0 /\ nsec t <= 0)).

(** The time that stands for [v] nanoseconds: both fields cut towards zero. *)
Definition canon (v : Z) : ts := mkTs (Z.quot v 1000000000) (Z.rem v 1000000000).

(** Fields far enough from overflow: seconds within 2^61, any nanoseconds. *)
Definition fits (t : ts) : Prop :=
  - 2 ^ 61 <= sec t <= 2 ^ 61 /\ - 2 ^ 63 <= nsec t < 2 ^ 63.

(** A bounded computation that gives [r] whenever the bound is large enough. *)
Definition gives {A} (f : nat -> option A) (r : A) : Prop :=
  exists n, forall m, (n <= m)%nat -> f m = Some r.
