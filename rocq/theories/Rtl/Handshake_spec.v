(** Valid/ready channels: vocabulary shared by the hardware modules. *)
From Verif Require Import Base.Prelude.

Definition somes {A} (l : list (option A)) : list A :=
  flat_map (fun x => match x with Some v => [v] | None => [] end) l.

Definition olist {A} (x : option A) : list A :=
  match x with Some v => [v] | None => [] end.

(** A source that keeps [valid] and the payload until the handshake: [vs] is
    what it offers in each cycle, [hs] what was taken in that cycle. *)
Definition holds_until {A} (vs hs : list (option A)) : Prop :=
  forall t x, nth_error vs t = Some (Some x) -> nth_error hs t = Some None ->
    S t < length vs -> nth_error vs (S t) = Some (Some x).
