(** Independent specification of an index pool: the set of held indices.
    Nothing here mentions free lists or sorting. *)
From Verif Require Import Base.Prelude Driver.Resource_model.

(** [held] is the list of indices currently handed out. *)
Definition spec_alloc_ok (count : nat) (held : list nat) (i : nat) : Prop :=
  i < count /\ ~ In i held /\ (forall j, j < i -> In j held).

Definition spec_exhausted (count : nat) (held : list nat) : Prop :=
  forall j, j < count -> In j held.

(** The histories and results a correct pool may show, starting from a set
    of held indices.  A free is only made on a held index. *)
Inductive spec_history (count : nat) (stride : Z) :
  list nat -> list res_op -> list res_ret -> Prop :=
| sh_nil held : spec_history count stride held [] []
| sh_alloc held i ops rets :
    spec_alloc_ok count held i ->
    spec_history count stride (i :: held) ops rets ->
    spec_history count stride held (OpAlloc :: ops) (RetIndex i :: rets)
| sh_fail held ops rets :
    spec_exhausted count held ->
    spec_history count stride held ops rets ->
    spec_history count stride held (OpAlloc :: ops) (RetIndexError :: rets)
| sh_free held i ops rets :
    spec_history count stride (remove Nat.eq_dec i held) ops rets ->
    spec_history count stride held (OpFree i :: ops) (RetNone :: rets)
| sh_win held i ops rets :
    spec_history count stride held ops rets ->
    spec_history count stride held (OpWindow i :: ops)
      (RetWin (Z.of_nat i * stride, stride)%Z :: rets).

(** Client discipline: a history in which every freed index is held at that
    time, expressed on the calls and the results seen so far. *)
Fixpoint well_used (held : list nat) (ops : list res_op) (rets : list res_ret) : Prop :=
  match ops, rets with
  | [], [] => True
  | OpAlloc :: ops', RetIndex i :: rets' => well_used (i :: held) ops' rets'
  | OpAlloc :: ops', _ :: rets' => well_used held ops' rets'
  | OpFree i :: ops', _ :: rets' =>
      In i held /\ well_used (remove Nat.eq_dec i held) ops' rets'
  | OpWindow _ :: ops', _ :: rets' => well_used held ops' rets'
  | _, _ => False
  end.
