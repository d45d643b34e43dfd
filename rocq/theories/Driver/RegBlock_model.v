(** Register block enumeration and lookup.
    Python: class [RegBlockList], fpga/common/tb/mqnic.py:387-414.
    C: modules/mqnic/mqnic_reg_block.c:8-88 (same text in lib/mqnic/reg_block.c). *)
From Verif Require Import Base.Prelude.
Local Open Scope Z_scope.

(** mqnic.py:379-384: a register block window: its offset in the parent
    window, and the type and version read from it. *)
Record rblock := mkRB { rb_off : Z; rb_type : Z; rb_ver : Z }.

(** The register file seen through the window: byte offset -> dword read
    there ([window.read_dword]).  Simplifications: reads have no side effects,
    and [window.create_window] (an object constructor) never fails. *)
Definition regfile := Z -> Z.

(** mqnic.py:22-24. *)
Definition RB_REG_TYPE := 0.
Definition RB_REG_VER := 4.
Definition RB_REG_NEXT_PTR := 8.

Inductive enum_result :=
| EnumDone (blocks : list rblock)         (* the method returned *)
| EnumMisaligned (blocks : list rblock)   (* AssertionError, line 403 *)
| EnumLoop (blocks : list rblock)         (* AssertionError, line 405 *)
| EnumOutOfFuel.                          (* artefact: model ran out of fuel *)

(** mqnic.py:391-405 [enumerate_reg_blocks], the [while True] loop with fuel.
    [blocks] is [self.blocks], in list order. *)
Fixpoint enumerate (fuel : nat) (regs : regfile) (blocks : list rblock) (offset : Z)
  : enum_result :=
  match fuel with
  | O => EnumOutOfFuel
  | S fuel' =>
      let ty := regs (offset + RB_REG_TYPE) in
      let ver := regs (offset + RB_REG_VER) in
      let blocks' := blocks ++ [mkRB offset ty ver] in
      let offset' := regs (offset + RB_REG_NEXT_PTR) in
      if offset' =? 0 then EnumDone blocks'
      else if negb (Z.land offset' 3 =? 0) then EnumMisaligned blocks'
      else if existsb (fun b => rb_off b =? offset') blocks' then EnumLoop blocks'
      else enumerate fuel' regs blocks' offset'
  end.

(** mqnic.py:407-414 [find].  [version] is [None] or an int; [not version]
    is true for [None] and for 0. *)
Definition ver_match (version : option Z) (b : rblock) : bool :=
  match version with
  | None => true
  | Some v => (v =? 0) || (rb_ver b =? v)
  end.

Fixpoint find (blocks : list rblock) (ty : Z) (version : option Z) (index : Z)
  : option rblock :=
  match blocks with
  | [] => None
  | b :: t =>
      if (rb_type b =? ty) && ver_match version b
      then if index <=? 0 then Some b else find t ty version (index - 1)
      else find t ty version index
  end.

(** ** The C implementation *)

Inductive cenum_result :=
| CDone (blocks : list rblock) (reads : list Z)   (* returned list and offsets read *)
| CLoop                                            (* NULL, "form a loop" *)
| CBadIndex                                        (* artefact: array write out of bounds *)
| COutOfFuel.

(** mqnic_reg_block.c:23-62, the [while (1)] loop.  [count] is the length of
    [blocks]; [max_count] is the capacity of the array; the terminator entry
    is written at index [count] (lines 24-27).  [offset] is a size_t, [ioread32]
    results are unsigned.  Simplification: allocation never fails. *)
Fixpoint cenumerate (fuel : nat) (regs : regfile) (size : Z)
  (blocks : list rblock) (reads : list Z) (max_count : nat) (offset : Z) : cenum_result :=
  match fuel with
  | O => COutOfFuel
  | S fuel' =>
      if negb (Nat.ltb (length blocks) max_count) then CBadIndex
      else if ((offset =? 0) && negb (Nat.eqb (length blocks) 0)) || (size <=? offset)
      then CDone blocks reads
      else if existsb (fun b => rb_off b =? offset) blocks then CLoop
      else
        let ty := regs (offset + RB_REG_TYPE) in
        let ver := regs (offset + RB_REG_VER) in
        let offset' := regs (offset + RB_REG_NEXT_PTR) in
        let reads' := reads ++ [offset + RB_REG_TYPE; offset + RB_REG_VER; offset + RB_REG_NEXT_PTR] in
        let blocks' := blocks ++ [mkRB offset ty ver] in
        let max_count' := if Nat.leb max_count (length blocks') then (max_count + 4)%nat else max_count in
        cenumerate fuel' regs size blocks' reads' max_count' offset'
  end.

(** mqnic_reg_block.c:10-13: initial capacity 8, count 0. *)
Definition cenum (fuel : nat) (regs : regfile) (size offset : Z) : cenum_result :=
  cenumerate fuel regs size [] [] 8 offset.

(** mqnic_reg_block.c:71-87 [mqnic_find_reg_block]: [version] 0 is the
    wildcard; [index] is an int.  Walking stops at the terminator, i.e. at the
    end of the list. *)
Fixpoint cfind (blocks : list rblock) (ty version index : Z) : option rblock :=
  match blocks with
  | [] => None
  | b :: t =>
      if (rb_type b =? ty) && ((version =? 0) || (rb_ver b =? version))
      then if 0 <? index then cfind t ty version (index - 1) else Some b
      else cfind t ty version index
  end.
