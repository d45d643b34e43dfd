(** Outstanding operations of a queue manager, oldest first. *)
From Verif Require Import Base.Prelude.
Open Scope Z_scope.

(** An operation handed out and not yet retired: its queue, the queue pointer
    just past it, and whether the user has committed it. *)
Record sop := mkOp { so_q : Z; so_ptr : Z; so_done : bool }.

(** The pointer just past the youngest outstanding operation of queue [q]. *)
Fixpoint last_ptr (q : Z) (l : list sop) : option Z :=
  match l with
  | [] => None
  | o :: t => match last_ptr q t with
              | Some p => Some p
              | None => if so_q o =? q then Some (so_ptr o) else None
              end
  end.

Definition busy (q : Z) (l : list sop) : bool := existsb (fun o => so_q o =? q) l.

(** Mark operation [j] (0 = oldest) as committed. *)
Fixpoint mark (l : list sop) (j : nat) : list sop :=
  match l, j with
  | [], _ => []
  | o :: t, O => mkOp (so_q o) (so_ptr o) true :: t
  | o :: t, S k => o :: mark t k
  end.
