(** Vocabulary for closing queues and interfaces. *)
From Verif Require Import Base.Prelude Driver.Ring_model Driver.Close_model.
Local Open Scope Z_scope.

(** The buffers of the ring slots from pointer [c] on, [n] of them, when every
    one of them holds a buffer of the pool and no two pointers share a slot. *)
Fixpoint holds_buffers (k : Z) (p : pool) (info : Z -> option nat) (c : Z) (bs : list nat) : Prop :=
  match bs with
  | [] => True
  | b :: bs' => info (c mod 2 ^ k) = Some b /\ (b < p_n p)%nat /\ holds_buffers k p info (c + 1) bs'
  end.

(** Does a list of register writes switch off queue [index] of kind [k]? *)
Definition switched_off (k : qkind) (index : Z) (ws : list regwrite) : Prop :=
  In (WQueueEnable k index false) ws.
