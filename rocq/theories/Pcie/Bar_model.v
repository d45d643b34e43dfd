(** Base address registers, their configuration, matching and enumeration,
    fpga/lib/pcie/tb/pcie.py. *)
From Verif Require Import Base.Prelude Pcie.Mem_model.
Open Scope Z_scope.

(** pcie.py 150-160: byte_mask_update; the loop runs once per bit of the mask. *)
Fixpoint bmu_loop (n : nat) (m1 m2 old mask new : Z) : Z :=
  match n with
  | O => old
  | S n => bmu_loop n (m1 * 2) (m2 * 256)
             (if Z.land mask m1 =? 0 then old else Z.lor (Z.land old (Z.lnot m2)) (Z.land new m2)) mask new
  end.
Definition byte_mask_update (old mask new bitmask : Z) : Z :=
  let new := Z.lor (Z.land new bitmask) (Z.land old (Z.lnot bitmask)) in
  bmu_loop (if mask <=? 0 then 0%nat else Z.to_nat (Z.log2 mask + 1)) 1 0xff old mask new.

(** pcie.py 1579-1580, 2125-2126, 2493-2494: the registers and their writable bits. *)
Record func := mkFunc { f_bar : list Z; f_mask : list Z }.
Definition reg_of (f : func) (i : nat) : Z := nth i (f_bar f) 0.
Definition mask_of (f : func) (i : nat) : Z := nth i (f_mask f) 0.
(** pcie.py 2173-2178, 2560-2561: configuration read of a base address register. *)
Definition bar_read (f : func) (i : nat) : Z := reg_of f i.
(** pcie.py 2188-2193, 2576-2578: configuration write of a base address register. *)
Definition bar_write (f : func) (i : nat) (data be : Z) : func :=
  mkFunc (lset (f_bar f) i (byte_mask_update (reg_of f i) be data (mask_of f i))) (f_mask f).

(** pcie.py 1712-1731: configure_bar; [None] is the exception.  [lg] is
    [math.ceil(math.log(size, 2))], computed in floating point by the code and left as
    a parameter. *)
Definition configure_bar (lg : Z -> Z) (f : func) (idx : nat) (size : Z) (ext prefetch io : bool) : option func :=
  let mask := 2 ^ lg size - 1 in
  if (length (f_bar f) <=? idx)%nat || (ext && (length (f_bar f) <=? S idx)%nat) then None
  else if io then
    Some (mkFunc (lset (f_bar f) idx 1) (lset (f_mask f) idx (Z.land 0xfffffffc (Z.lnot mask))))
  else
    let v := Z.lor (if ext then 4 else 0) (if prefetch then 8 else 0) in
    let f := mkFunc (lset (f_bar f) idx v) (lset (f_mask f) idx (Z.land 0xfffffff0 (Z.lnot mask))) in
    Some (if ext
          then mkFunc (lset (f_bar f) (S idx) 0)
                      (lset (f_mask f) (S idx) (Z.land 0xffffffff (Z.shiftr (Z.lnot mask) 32)))
          else f).

(** pcie.py 1733-1770: match_bar, from register [bar] on; [None] is the exception. *)
Fixpoint match_from (bars masks : list Z) (bar : nat) (addr : Z) (io : bool) : option (list (nat * Z)) :=
  match bars, masks with
  | v :: bars, m :: masks =>
    let hit v m := if Z.land addr m =? Z.land v m then [(bar, Z.land addr (Z.lnot m))] else [] in
    if m =? 0 then match_from bars masks (S bar) addr io
    else if negb (Z.land v 1 =? 0) then
      option_map (app (if io then hit v m else [])) (match_from bars masks (S bar) addr io)
    else if negb (Z.land v 4 =? 0) then
      match bars, masks with
      | v2 :: bars, m2 :: masks =>
        option_map (app (if io then [] else hit (Z.lor v (Z.shiftl v2 32)) (Z.lor m (Z.shiftl m2 32))))
                   (match_from bars masks (S (S bar)) addr io)
      | _, _ => None
      end
    else option_map (app (if io then [] else hit v m)) (match_from bars masks (S bar) addr io)
  | _, _ => Some []
  end.
Definition match_bar (f : func) (addr : Z) (io : bool) : option (list (nat * Z)) :=
  match_from (f_bar f) (f_mask f) 0 addr io.

(** pcie.py 3238-3243: the ends of the space given out so far: IO, memory,
    prefetchable memory. *)
Record limits := mkLim { l_io : Z; l_mem : Z; l_pf : Z }.

(** pcie.py 4285-4380: the base address registers of one function are sized by
    writing ones, given space and written back.  Every configuration access is taken
    to reach the function.  Result: the function, the limits and (register, value,
    size) for each; [None]: the exception, or not finished in [fuel] turns. *)
Fixpoint enum_bars (fuel : nat) (bar cnt : nat) (f : func) (lim : limits)
  : option (func * limits * list (nat * Z * Z)) :=
  match fuel with
  | O => None
  | S fuel =>
    if (cnt <=? bar)%nat then Some (f, lim, [])
    else
      let f := bar_write f bar 0xffffffff 0xf in
      let val := bar_read f bar in
      let next n f lim a :=
        match enum_bars fuel n cnt f lim with
        | Some (f, lim, r) => Some (f, lim, a ++ r)
        | None => None
        end in
      if val =? 0 then next (S bar) f lim []
      else if negb (Z.land val 1 =? 0) then
        let mask := Z.lor (Z.land (Z.lnot val) 0xffffffff) 3 in
        let base := align_up (l_io lim) mask in
        let v := Z.lor (Z.land val 3) base in
        next (S bar) (bar_write f bar v 0xf) (mkLim (base + (mask + 1)) (l_mem lim) (l_pf lim)) [(bar, v, mask + 1)]
      else if negb (Z.land val 4 =? 0) then
        if (cnt - 1 <=? bar)%nat then None
        else
          let f := bar_write f (S bar) 0xffffffff 0xf in
          let val := Z.lor val (Z.shiftl (bar_read f (S bar)) 32) in
          let mask := Z.lor (Z.land (Z.lnot val) 0xffffffffffffffff) 15 in
          let '(v, lim) :=
            if negb (Z.land val 8 =? 0)
            then let base := align_up (l_pf lim) mask in
                 (Z.lor (Z.land val 15) base, mkLim (l_io lim) (l_mem lim) (base + (mask + 1)))
            else let base := align_up (l_mem lim) mask in
                 (Z.lor (Z.land val 15) base, mkLim (l_io lim) (base + (mask + 1)) (l_pf lim)) in
          let f := bar_write f bar (Z.land v 0xffffffff) 0xf in
          let f := bar_write f (S bar) (Z.land (Z.shiftr v 32) 0xffffffff) 0xf in
          next (S (S bar)) f lim [(bar, v, mask + 1)]
      else
        let mask := Z.lor (Z.land (Z.lnot val) 0xffffffff) 15 in
        let base := align_up (l_mem lim) mask in
        let v := Z.lor (Z.land val 15) base in
        next (S bar) (bar_write f bar v 0xf) (mkLim (l_io lim) (base + (mask + 1)) (l_pf lim)) [(bar, v, mask + 1)]
  end.
