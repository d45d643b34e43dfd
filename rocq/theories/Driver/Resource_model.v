(** Model of class [Resource] in fpga/common/tb/mqnic.py, lines 354-376
    (index allocator for EQ/CQ/TXQ/RXQ). *)
From Verif Require Import Base.Prelude.

(** mqnic.py:354-361.  [free_list] is the Python list [list(range(count))];
    [windows] is the dict of windows already created, as an association list
    from index to the byte offset of the window in the parent window.
    Simplification: the window object is represented by its offset and size. *)
Record resource := mkRes {
  r_count : nat;
  r_stride : Z;
  r_free : list nat;
  r_windows : list (nat * (Z * Z))
}.

(** mqnic.py:355-361 [__init__]. *)
Definition res_init (count : nat) (stride : Z) : resource :=
  mkRes count stride (seq 0 count) [].

(** Python [list.sort()] on ints: insertion into the sorted prefix.
    Simplification: Timsort is replaced by insertion sort (same result on a
    total order). *)
Fixpoint insert (x : nat) (l : list nat) : list nat :=
  match l with
  | [] => [x]
  | y :: t => if Nat.leb x y then x :: y :: t else y :: insert x t
  end.

Definition py_sort (l : list nat) : list nat := fold_right insert [] l.

(** mqnic.py:363-364 [alloc]: [self.free_list.pop(0)]; [None] is IndexError. *)
Definition res_alloc (r : resource) : option (nat * resource) :=
  match r_free r with
  | [] => None
  | i :: t => Some (i, mkRes (r_count r) (r_stride r) t (r_windows r))
  end.

(** mqnic.py:366-368 [free]: append, then sort. *)
Definition res_free (r : resource) (i : nat) : resource :=
  mkRes (r_count r) (r_stride r) (py_sort (r_free r ++ [i])) (r_windows r).

(** mqnic.py:370-371. *)
Definition res_get_count (r : resource) : nat := r_count r.

Fixpoint assoc {B} (k : nat) (l : list (nat * B)) : option B :=
  match l with
  | [] => None
  | (k', v) :: t => if Nat.eqb k k' then Some v else assoc k t
  end.

(** mqnic.py:373-376 [get_window]: create on first use, cached afterwards. *)
Definition res_get_window (r : resource) (i : nat) : (Z * Z) * resource :=
  match assoc i (r_windows r) with
  | Some w => (w, r)
  | None =>
      let w := (Z.of_nat i * r_stride r, r_stride r)%Z in
      (w, mkRes (r_count r) (r_stride r) (r_free r) ((i, w) :: r_windows r))
  end.

(** A history of calls as made by EQ/CQ/TXQ/RXQ open and close
    (mqnic.py:480,530,614,664,717,769,897,951). *)
Inductive res_op := OpAlloc | OpFree (i : nat) | OpWindow (i : nat).

(** Observable result of a call. *)
Inductive res_ret := RetIndex (i : nat) | RetIndexError | RetNone | RetWin (w : Z * Z).

Definition res_step (r : resource) (o : res_op) : resource * res_ret :=
  match o with
  | OpAlloc => match res_alloc r with
               | Some (i, r') => (r', RetIndex i)
               | None => (r, RetIndexError)
               end
  | OpFree i => (res_free r i, RetNone)
  | OpWindow i => let '(w, r') := res_get_window r i in (r', RetWin w)
  end.
