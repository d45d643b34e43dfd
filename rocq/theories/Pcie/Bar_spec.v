(** Base address registers as the PCI specification describes them. *)
From Verif Require Import Base.Prelude Pcie.Bar_model.
Open Scope Z_scope.

(** A declared region of 2^k bytes: 32-bit memory, 64-bit memory (two registers) or
    IO; [pf]: prefetchable. *)
Inductive decl := Unused | Mem32 (k : Z) (pf : bool) | Mem64 (k : Z) (pf : bool) | Io (k : Z).
Definition lgsize (d : decl) : Z := match d with Unused => 0 | Mem32 k _ | Mem64 k _ | Io k => k end.
Definition size (d : decl) : Z := 2 ^ lgsize d.
Definition regs_used (d : decl) : nat := match d with Mem64 _ _ => 2 | _ => 1 end.
Definition wf_decl (d : decl) : Prop :=
  match d with
  | Unused => True
  | Mem32 k _ => 4 <= k <= 31
  | Mem64 k _ => 4 <= k <= 63
  | Io k => 2 <= k <= 31
  end.
(** The address space a region is taken from. *)
Inductive space := SIo | SMem | SPf.
Definition space_of (d : decl) : option space :=
  match d with
  | Unused => None
  | Mem32 _ _ | Mem64 _ false => Some SMem
  | Mem64 _ true => Some SPf
  | Io _ => Some SIo
  end.
Definition limit_of (l : limits) (s : space) : Z :=
  match s with SIo => l_io l | SMem => l_mem l | SPf => l_pf l end.
Definition is_mem (d : decl) : bool := match d with Mem32 _ _ | Mem64 _ _ => true | _ => false end.

(** The type bits and register values of a region at [base], and the writable bits. *)
Definition kind_bits (d : decl) : Z :=
  match d with
  | Unused => 0
  | Mem32 _ pf => if pf then 8 else 0
  | Mem64 _ pf => if pf then 12 else 4
  | Io _ => 1
  end.
Definition regs_of (d : decl) (base : Z) : list (Z * Z) :=
  match d with
  | Unused => [(0, 0)]
  | Mem32 k _ | Io k => [(base + kind_bits d, 2 ^ 32 - 2 ^ k)]
  | Mem64 k _ => [(base mod 2 ^ 32 + kind_bits d, 2 ^ 32 - 2 ^ (Z.min k 32));
                  (base / 2 ^ 32, 2 ^ 32 - 2 ^ (Z.max 0 (k - 32)))]
  end.
Fixpoint layout (ps : list (decl * Z)) : list (Z * Z) :=
  match ps with [] => [] | (d, b) :: ps => regs_of d b ++ layout ps end.
Definition func_of (ps : list (decl * Z)) : func := mkFunc (map fst (layout ps)) (map snd (layout ps)).

(** A region [d] at [base] whose first register is number [i]. *)
Fixpoint placed (ps : list (decl * Z)) (i : nat) (d : decl) (base : Z) : Prop :=
  match ps with
  | [] => False
  | (d', b') :: ps => (i = 0%nat /\ d = d' /\ base = b') \/
                      ((regs_used d' <= i)%nat /\ placed ps (i - regs_used d') d base)
  end.
(** Registers hold bases aligned to the sizes. *)
Definition aligned (p : decl * Z) : Prop :=
  fst p = Unused \/ 0 <= snd p /\ snd p mod size (fst p) = 0.
Definition fits_reg (p : decl * Z) : Prop :=
  match fst p with
  | Unused => True
  | Mem64 _ _ => snd p + size (fst p) <= 2 ^ 64
  | _ => snd p + size (fst p) <= 2 ^ 32
  end.
(** Regions of the same space (every region, when [b] and [b'] are compared as bus
    addresses) do not meet. *)
Definition apart_regions (b sz b' sz' : Z) : Prop := b + sz <= b' \/ b' + sz' <= b.
(** 64-bit regions below 4 GiB in size; no 32-bit region when the address needs more
    than 32 bits. *)
Definition moderate (addr : Z) (d : decl) : Prop :=
  match d with
  | Mem64 k _ => k < 32
  | Mem32 _ _ | Io _ => addr < 2 ^ 32
  | Unused => True
  end.

(** What enumeration reports for the regions from register [i] on. *)
Fixpoint report (i : nat) (ps : list (decl * Z)) : list (nat * Z * Z) :=
  match ps with
  | [] => []
  | (Unused, _) :: ps => report (S i) ps
  | (d, b) :: ps => (i, b + kind_bits d, size d) :: report (i + regs_used d) ps
  end.

(** Regions following one another within the limits of their spaces. *)
Fixpoint stacked (l : limits) (ps : list (decl * Z)) (l' : limits) : Prop :=
  match ps with
  | [] => l = l'
  | (d, b) :: ps =>
    match space_of d with
    | None => stacked l ps l'
    | Some s =>
      b mod size d = 0 /\ limit_of l s <= b < limit_of l s + size d /\
      exists l1, limit_of l1 s = b + size d /\ (forall s', s' <> s -> limit_of l1 s' = limit_of l s') /\
        stacked l1 ps l'
    end
  end.
(** Where regions go: every one at the next multiple of its size in its space. *)
Definition up (x s : Z) : Z := (x + s - 1) / s * s.
Definition set_limit (l : limits) (s : space) (v : Z) : limits :=
  match s with SIo => mkLim v (l_mem l) (l_pf l) | SMem => mkLim (l_io l) v (l_pf l) | SPf => mkLim (l_io l) (l_mem l) v end.
Fixpoint assign (l : limits) (ds : list decl) : list (decl * Z) * limits :=
  match ds with
  | [] => ([], l)
  | d :: ds =>
    match space_of d with
    | None => let (ps, l') := assign l ds in ((d, 0) :: ps, l')
    | Some s => let b := up (limit_of l s) (size d) in let (ps, l') := assign (set_limit l s (b + size d)) ds in ((d, b) :: ps, l')
    end
  end.
Definition fits (l : limits) : Prop := l_io l <= 2 ^ 32 /\ l_mem l <= 2 ^ 32 /\ l_pf l <= 2 ^ 64.
Definition nonneg (l : limits) : Prop := 0 <= l_io l /\ 0 <= l_mem l /\ 0 <= l_pf l.

(** Configure the declared regions in turn. *)
Definition configure1 (lg : Z -> Z) (f : func) (i : nat) (d : decl) (sz : Z) : option func :=
  match d with
  | Unused => Some f
  | Mem32 _ pf => configure_bar lg f i sz false pf false
  | Mem64 _ pf => configure_bar lg f i sz true pf false
  | Io _ => configure_bar lg f i sz false false true
  end.
Fixpoint configure_all (lg : Z -> Z) (f : func) (i : nat) (ds : list (decl * Z)) : option func :=
  match ds with
  | [] => Some f
  | (d, sz) :: ds => match configure1 lg f i d sz with
                     | Some f => configure_all lg f (i + regs_used d) ds
                     | None => None
                     end
  end.
