(** Topologies, and where an enumerated one puts what. *)
From Verif Require Import Base.Prelude Pcie.Mem_model Pcie.Bar_model Pcie.Bar_spec Pcie.Tree_model.
Open Scope Z_scope.
#[local] Unset Implicit Arguments.

(** A topology: a device with its device number and, by function number, the regions its functions declare; a switch with the
    device number of its upstream port and, by device number, what is connected to its downstream ports. *)
Inductive topo := TDev (n : nat) (fs : list (nat * list decl)) | TSw (n : nat) (xs : list (nat * topo)).

Fixpoint ascending (lo : nat) (l : list nat) : Prop :=
  match l with [] => True | x :: l => (lo <= x)%nat /\ ascending (S x) l end.
Definition all {X} (P : X -> Prop) : list X -> Prop := fix go l := match l with [] => True | x :: l => P x /\ go l end.
Definition all2 {X Y} (R : X -> Y -> Prop) : list X -> list Y -> Prop :=
  fix go l m := match l, m with [], [] => True | x :: l, y :: m => R x y /\ go l m | _, _ => False end.

(** Regions a function with six registers can declare; 64-bit ones smaller than 4 GiB (larger ones do not work, see C53). *)
Definition wf_fn (ds : list decl) : Prop :=
  (forall d, In d ds -> wf_decl d /\ match d with Mem64 k _ => k < 32 | _ => True end) /\
  length (layout (map (fun d => (d, 0)) ds)) = 6%nat.
(** Numbers as they are given out: functions ascending from 0, below 8; ports ascending, below 32. *)
Fixpoint wf_topo (x : topo) : Prop :=
  match x with
  | TDev n fs => (n < 32)%nat /\ (exists ds fs', fs = (0%nat, ds) :: fs') /\ ascending 0 (map fst fs) /\
      (forall k ds, In (k, ds) fs -> (k < 8)%nat /\ wf_fn ds)
  | TSw n xs => (n < 32)%nat /\ ascending 0 (map fst xs) /\ (forall k, In k (map fst xs) -> (k < 32)%nat) /\
      all (fun kx => wf_topo (snd kx)) xs
  end.
(** Root ports are numbered from 1. *)
Definition wf_ports (xs : list (nat * topo)) : Prop :=
  ascending 1 (map fst xs) /\ (forall k, In k (map fst xs) -> (k < 32)%nat) /\ all (fun kx => wf_topo (snd kx)) xs.

(** Registers of a bridge that can have come about: bases and limits on the boundaries the hardware keeps. *)
Definition wf_win (n k : Z) (w : win) : Prop :=
  0 <= w_base w < 2 ^ n /\ w_base w mod 2 ^ k = 0 /\ 0 <= w_limit w < 2 ^ n /\ w_limit w mod 2 ^ k = 2 ^ k - 1.
Definition wf_bridge (b : bridge) : Prop :=
  0 <= b_sec b < 256 /\ 0 <= b_sub b < 256 /\ wf_win 32 12 (b_io b) /\ wf_win 32 20 (b_mem b) /\ wf_win 64 20 (b_pf b).
(** A tree of a topology, whatever its registers hold. *)
Fixpoint shape (x : topo) (t : tree) : Prop :=
  match x, t with
  | TDev n fs, Dev d => d_num d = n /\
      all2 (fun x y => fst x = fst y /\ exists ps, map fst ps = snd x /\ snd y = func_of ps /\ Forall aligned ps /\ Forall fits_reg ps) fs (d_fns d)
  | TSw n xs, Sw b ps => b_dev b = n /\ wf_bridge b /\
      all2 (fun x y => b_dev (fst y) = fst x /\ wf_bridge (fst y) /\ shape (snd x) (snd y)) xs ps
  | _, _ => False
  end.
Definition shape_ports (xs : list (nat * topo)) (ps : list (bridge * tree)) : Prop :=
  all2 (fun x y => b_dev (fst y) = fst x /\ wf_bridge (fst y) /\ shape (snd x) (snd y)) xs ps.

(* ----- the plan ----- *)
Definition al (l : limits) : limits := mkLim (up (l_io l) (2 ^ 12)) (up (l_mem l) (2 ^ 20)) (up (l_pf l) (2 ^ 20)).
Fixpoint plan_fns (l : limits) (fs : list (nat * list decl)) : list (nat * func) * limits :=
  match fs with
  | [] => ([], l)
  | (k, ds) :: fs => let (ps, l1) := assign l ds in let (r, l2) := plan_fns l1 fs in ((k, func_of ps) :: r, l2)
  end.
Definition windows (l l' : limits) : win * win * win :=
  (mkWin (l_io l) (l_io l' - 1), mkWin (l_mem l) (l_mem l' - 1), mkWin (l_pf l) (l_pf l' - 1)).
(** A bridge with everything behind it between [l] and [l'], on the buses [sec] to [sub]. *)
Definition bridge_at (bus : Z) (n : nat) (sec sub : Z) (l l' : limits) : bridge :=
  mkBr bus n sec sub (mkWin (l_io l) (l_io l' - 1)) (mkWin (l_mem l) (l_mem l' - 1)) (mkWin (l_pf l) (l_pf l' - 1)).
(** The ports on bus [bus], the next bus number being [next], the last one used [sub]. *)
Definition plan_ports (plan : topo -> Z -> limits -> tree * limits * Z) (bus : Z) :
  list (nat * topo) -> Z -> limits -> list (bridge * tree) * limits * Z :=
  fix go xs last l :=
    match xs with
    | [] => ([], l, last)
    | (n, x) :: xs =>
      let l0 := al l in
      let '(t, l1, sub) := plan x (last + 1) l0 in
      let l1 := al l1 in
      let '(ps, l2, sub') := go xs sub l1 in
      ((bridge_at bus n (last + 1) sub l0 l1, t) :: ps, l2, sub')
    end.
(** What is connected to a link on bus [bus]: the tree, where the spaces end, the last bus number used. *)
Fixpoint plan (x : topo) (bus : Z) (l : limits) : tree * limits * Z :=
  match x with
  | TDev n fs => let (r, l') := plan_fns l fs in (Dev (mkDev bus n r), l', bus)
  | TSw n xs =>
    let l0 := al l in
    let '(ps, l1, sub) := plan_ports plan (bus + 1) xs (bus + 1) l0 in
    let l1 := al l1 in
    (Sw (bridge_at bus n (bus + 1) sub l0 l1) ps, l1, sub)
  end.
Fixpoint depth (x : topo) : nat :=
  match x with TDev _ _ => 1 | TSw _ xs => 2 + fold_right (fun x m => Nat.max (depth (snd x)) m) 0 xs end%nat.
Definition depths (xs : list (nat * topo)) : nat := fold_right (fun x m => Nat.max (depth (snd x)) m) 0%nat xs.

(** Where the three spaces end; how many bridges there are, one bus each. *)
Definition ends (xs : list (nat * topo)) (lim : limits) : limits := al (snd (fst (plan_ports plan 0 xs 0 (al lim)))).
Fixpoint bridges (x : topo) : Z :=
  match x with TDev _ _ => 0 | TSw _ xs => 1 + fold_right (fun x n => 1 + bridges (snd x) + n) 0 xs end.
Definition all_bridges (xs : list (nat * topo)) : Z := fold_right (fun x n => 1 + bridges (snd x) + n) 0 xs.
(** Spaces within what the registers can hold, and not beginning at 0. *)
Definition fits1 (l : limits) : Prop := l_io l < 2 ^ 32 /\ l_mem l < 2 ^ 32 /\ l_pf l < 2 ^ 64.
Definition pos (l : limits) : Prop := 0 < l_io l /\ 0 < l_mem l /\ 0 < l_pf l.
(** A topology, registers in any state, and enough buses and space for it: depth of nested bridges [fuel], bases of the three
    spaces [lim]. *)
Definition ready (xs : list (nat * topo)) (hb : bridge) (ps : list (bridge * tree)) (lim : limits) (fuel : nat) : Prop :=
  wf_ports xs /\ shape_ports xs ps /\ b_sec hb = 0 /\ b_sub hb = 255 /\ pos lim /\ (depths xs < fuel)%nat /\
  all_bridges xs <= 255 /\ fits1 (ends xs lim).
(** The state after enumeration, prefetchable memory above the other memory. *)
Definition enumerated (xs : list (nat * topo)) (lim : limits) (h : host) (l : limits) : Prop :=
  exists hb ps fuel, ready xs hb ps lim fuel /\ enumerate fuel (mkHost hb ps) lim = Some (h, l) /\ l_mem l <= l_pf lim.

(* ----- who is where ----- *)
(** The function at a place: its bus, device and function number and, for an endpoint function, its registers. *)
Fixpoint at_place (t : tree) (p : list nat) : option (pid * option func) :=
  match p with
  | [] => None
  | k :: q =>
    match t with
    | Dev d => match q, nth_error (d_fns d) k with [], Some (n, f) => Some ((d_bus d, d_num d, n), Some f) | _, _ => None end
    | Sw b ps =>
      match k with
      | O => match q with [] => Some (b_id b, None) | _ => None end
      | S i => match nth_error ps i with
               | Some (b', t') => match q with [] => Some (b_id b', None) | _ => at_place t' q end
               | None => None end
      end
    end
  end.
Definition in_ports (ps : list (bridge * tree)) (p : list nat) : option (pid * option func) :=
  match p with
  | S i :: q => match nth_error ps i with
                | Some (b', t') => match q with [] => Some (b_id b', None) | _ => at_place t' q end
                | None => None end
  | _ => None
  end.
(** The TLP is for that function: completions by its number, memory and IO requests by its registers. *)
Definition aims (m : tlp) (i : pid) (f : option func) : Prop :=
  match m, f with
  | TCpl r, _ => r = i
  | TMem _ a, Some f => claims a false f = true
  | TIo a, Some f => claims a true f = true
  | _, _ => False
  end.
(** Addresses of 64 bits that are not mistaken for 32-bit ones: below 4 GiB, or their low half below the memory space. *)
Definition clear_of (l : limits) (m : tlp) : Prop :=
  match m with
  | TMem _ a => 0 <= a < 2 ^ 64 /\ (a < 2 ^ 32 \/ a mod 2 ^ 32 < l_mem l)
  | TIo a => 0 <= a < 2 ^ 32
  | TCpl _ => True
  | _ => False
  end.
