(** Well-linked capability lists. *)
From Verif Require Import Base.Prelude Pcie.Cap_model.
Open Scope Z_scope.

Definition has_reg (c : cap) (reg : Z) : Prop := c_off c <= reg < c_off c + c_len c.
(** Sorted by offset. *)
Definition sorted (l : list cap) : Prop :=
  forall i j a b, (i < j)%nat -> nth_error l i = Some a -> nth_error l j = Some b -> c_off a <= c_off b.
(** No register belongs to two capabilities. *)
Definition disjoint (l : list cap) : Prop :=
  forall i j a b reg, i <> j -> nth_error l i = Some a -> nth_error l j = Some b ->
    has_reg a reg -> has_reg b reg -> False.
(** Each next pointer is the byte offset of the following capability, the last is 0. *)
Definition linked (l : list cap) : Prop :=
  forall i c, nth_error l i = Some c ->
    c_next c = Some (match nth_error l (S i) with Some d => 4 * c_off d | None => 0 end).
(** The place of a capability: identity, length and offset, without the pointer. *)
Definition place_of (c : cap) : Z * Z * Z := (c_id c, c_len c, c_off c).
(** Several registrations (id, length, offset; 0 for none). *)
Fixpoint register_all (start : Z) (l : list cap) (rs : list (Z * Z * Z)) : option (list cap) :=
  match rs with
  | [] => Some l
  | (id, len, off) :: rs => match register start l id len off with
                            | Some l => register_all start l rs
                            | None => None
                            end
  end.
(** Capabilities laid out back to back from [o]. *)
Fixpoint packed (o : Z) (ls : list (Z * Z)) : list (Z * Z * Z) :=
  match ls with [] => [] | (id, len) :: t => (id, len, o) :: packed (o + len) t end.
