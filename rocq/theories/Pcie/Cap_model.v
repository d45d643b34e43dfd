(** Capability lists of the PCIe simulation model, fpga/lib/pcie/tb/pcie.py 201-326. *)
From Verif Require Import Base.Prelude.
Open Scope Z_scope.

(** pcie.py 201-209: a registered capability; offsets and lengths count 32-bit
    registers.  [c_next = None] is Python's None.  The callbacks are not modelled. *)
Record cap := mkCap { c_id : Z; c_len : Z; c_off : Z; c_next : option Z }.
Definition set_next (c : cap) (n : Z) : cap := mkCap (c_id c) (c_len c) (c_off c) (Some n).

(** pcie.py 242-246: find_by_reg. *)
Definition find_by_reg (l : list cap) (reg : Z) : option cap :=
  find (fun c => (c_off c <=? reg) && (reg <? c_off c + c_len c)) l.
(** pcie.py 236-240: find_by_id. *)
Definition find_by_id (l : list cap) (id : Z) : option cap := find (fun c => c_id c =? id) l.
(** pcie.py 211-215: the next pointer in the capability header; [None & 0xff]
    raises TypeError, here [None]. *)
Definition header_next (c : cap) : option Z :=
  match c_next c with Some n => Some (Z.land n 0xff) | None => None end.

(** pcie.py 308: list.sort(key = offset), a stable sort. *)
Fixpoint ins (c : cap) (l : list cap) : list cap :=
  match l with
  | [] => [c]
  | d :: t => if c_off c <=? c_off d then c :: l else d :: ins c t
  end.
Definition sort_caps (l : list cap) : list cap := fold_right ins [] l.

(** pcie.py 310-313: the next pointers; a list of one keeps its pointer. *)
Fixpoint chain (l : list cap) : list cap :=
  match l with
  | [] => []
  | c :: t => match t with
              | [] => [set_next c 0]
              | d :: _ => set_next c (c_off d * 4) :: chain t
              end
  end.
Definition relink (l : list cap) : list cap :=
  match l with [] => [] | [c] => [c] | _ => chain l end.
(** pcie.py 305-313. *)
Definition add_cap (l : list cap) (c : cap) : list cap := relink (sort_caps (l ++ [c])).

(** pcie.py 299-303: automatic placement. *)
Definition place (start : Z) (l : list cap) (len : Z) : Z :=
  fold_left (fun o c => if (c_off c <? o + len - 1) && (o <=? c_off c + c_len c - 1)
                        then c_off c + c_len c else o) l start.
Definition add_auto (start : Z) (l : list cap) (c : cap) : list cap :=
  add_cap l (mkCap (c_id c) (c_len c) (place start l (c_len c)) (c_next c)).

(** pcie.py 292-298, 315-318: explicit placement; overlapping capabilities are taken
    out and placed automatically afterwards. *)
Definition overlaps (o len : Z) (c : cap) : bool :=
  (c_off c <=? o + len - 1) && (o <=? c_off c + c_len c - 1).
Definition add_at (start : Z) (l : list cap) (c : cap) : list cap :=
  let bump := filter (overlaps (c_off c) (c_len c)) l in
  let keep := filter (fun d => negb (overlaps (c_off c) (c_len c) d)) l in
  fold_left (add_auto start) bump (add_cap keep c).

(** pcie.py 259-318: register.  [len = 0] is no length given; [off = 0] no offset.
    [None]: the exception for a missing parameter. *)
Definition remove_id (id : Z) (l : list cap) : list cap := filter (fun c => negb (c_id c =? id)) l.
Definition register (start : Z) (l : list cap) (id len off : Z) : option (list cap) :=
  let '(l, c) :=
    match find_by_id l id with
    | Some c => (remove_id id l,
                 mkCap id (if len =? 0 then c_len c else len) (if off =? 0 then c_off c else off) (c_next c))
    | None => (l, mkCap id len off None)
    end in
  if c_len c =? 0 then None
  else Some (if c_off c =? 0 then add_auto start l c else add_at start l c).
