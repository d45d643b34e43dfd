(** Routing of TLPs through bridges and switches, and enumeration of the tree below the root complex,
    fpga/lib/pcie/tb/pcie.py. *)
From Verif Require Import Base.Prelude Pcie.Mem_model Pcie.Bar_model.
Open Scope Z_scope.
#[local] Unset Implicit Arguments.

(** pcie.py 166-199: bus, device and function number. *)
Definition pid := (Z * nat * nat)%type.
Definition pid_eqb (a b : pid) : bool :=
  let '(b1, d1, f1) := a in let '(b2, d2, f2) := b in (b1 =? b2) && (d1 =? d2)%nat && (f1 =? f2)%nat.
Definition bus_of (a : pid) : Z := fst (fst a).

(** A base and a limit register of a bridge; the limit is the last address (pcie.py 2498-2506). *)
Record win := mkWin { w_base : Z; w_limit : Z }.
Definition in_win (w : win) (a : Z) : bool := (w_base w <=? a) && (a <=? w_limit w).

(** pcie.py 2486-2516: a bridge function: captured bus number, device number, secondary and subordinate bus number, the three
    windows.  Bridges have function number 0 (3100-3104) and no base address registers of their own (2493-2494).  The
    primary bus number is looked at in the host bridge only, where it stays 0 (2902-2904). *)
Record bridge := mkBr { b_bus : Z; b_dev : nat; b_sec : Z; b_sub : Z; b_io : win; b_mem : win; b_pf : win }.
Definition b_id (b : bridge) : pid := (b_bus b, b_dev b, 0%nat).
Definition in_buses (b : bridge) (x : Z) : bool := (b_sec b <=? x) && (x <=? b_sub b).

(** pcie.py 2922-2942: a device: captured bus number, device number, its functions in the order of their numbers. *)
Record device := mkDev { d_bus : Z; d_num : nat; d_fns : list (nat * func) }.

(** What is connected to the link below a port: a device, or a switch (3069-3115): its upstream port and, on its internal
    bus, its downstream ports with what is connected to them.  Left out: ports with nothing connected, which raise an
    exception when a TLP is sent (785-787). *)
Inductive tree := Dev (d : device) | Sw (b : bridge) (ps : list (bridge * tree)).
(** The root complex (3215-3236): host bridge and root ports. *)
Record host := mkHost { h_b : bridge; h_ps : list (bridge * tree) }.

(** A TLP as far as routing looks at it: configuration (type 1 or 0), completion, ID routed message (requester,
    destination), IO and memory request ([wr]: write). *)
Inductive tlp := TCfg (ty1 : bool) (dest : pid) | TCpl (req : pid) | TMsg (req dest : pid) | TIo (a : Z) | TMem (wr : bool) (a : Z).

(** Who handles it.  Places in a tree: function [k] of a device is [k]; the upstream port of a switch is [0]; the [i]-th
    downstream port of a switch (or root port) is [S i], what is connected to it continues that list.  [Lost]: dropped
    without an answer; [Ur]: answered as unsupported; [Raise]: an exception.  Delays of links (762-790) are not modelled. *)
Inductive outcome := Got (p : list nat) | Lost | Ur (p : list nat) | Raise | AtRoot.
Definition under (i : nat) (o : outcome) : outcome :=
  match o with Got p => Got (i :: p) | Ur p => Ur (i :: p) | o => o end.

(** A function of the list that satisfies [f], the first one. *)
Fixpoint first {X} (f : X -> bool) (l : list X) : option nat :=
  match l with [] => None | x :: l => if f x then Some 0%nat else option_map S (first f l) end.
Definition claims (a : Z) (io : bool) (f : func) : bool :=
  match match_bar f a io with Some (_ :: _) => true | _ => false end.

(** pcie.py 2978-3057: Device.upstream_recv.  A message raises an exception. *)
Definition dev_recv (d : device) (m : tlp) : outcome :=
  let pick (f : nat * func -> bool) := first f (d_fns d) in
  let ur := Ur [length (d_fns d)] in
  match m with
  | TCfg false (bus, dv, fn) =>
    if (dv =? d_num d)%nat
    then match pick (fun x => (fst x =? fn)%nat) with Some k => Got [k] | None => ur end
    else ur
  | TCfg true _ => Raise
  | TCpl (bus, dv, fn) =>
    if (bus =? d_bus d) && (dv =? d_num d)%nat
    then match pick (fun x => (fst x =? fn)%nat) with Some k => Got [k] | None => Lost end
    else Lost
  | TMsg _ _ => Raise
  | TIo a => match pick (fun x => claims a true (snd x)) with Some k => Got [k] | None => ur end
  | TMem wr a =>
    match pick (fun x => claims a false (snd x)) with Some k => Got [k] | None => if wr then Lost else ur end
  end.

(** pcie.py 2616-2695: Bridge.upstream_recv: from above.  [me]: where the bridge itself is; [down]: what becomes of a TLP sent
    on (route_downstream_tlp).  Configuration requests of type 0 go to handle_config_0_tlp (1826-1851), which ignores those for
    another device or function. *)
Definition bridge_recv (root : bool) (b : bridge) (me : list nat) (down : tlp -> outcome) (m : tlp) : outcome :=
  match m with
  | TCfg false (bus, dv, fn) => if (dv =? b_dev b)%nat && (fn =? 0)%nat then Got me else Lost
  | TCfg true (bus, dv, fn) => if in_buses b bus then down (TCfg (negb (bus =? b_sec b)) (bus, dv, fn)) else Lost
  | TCpl r => if negb root && pid_eqb r (b_id b) then Got me else if in_buses b (bus_of r) then down m else Lost
  | TMsg _ r => if negb root && pid_eqb r (b_id b) then Got me else if in_buses b (bus_of r) then down m else Lost
  | TIo a => if in_win (b_io b) a then down m else Lost
  | TMem _ a => if in_win (b_mem b) a || in_win (b_pf b) a then down m else Lost
  end.

(** pcie.py 2706-2772: Bridge.downstream_recv: from below, or sent by the bridge itself (2776-2778); [None]: passed on
    upwards. *)
Definition turn (root : bool) (b : bridge) (me : list nat) (down : tlp -> outcome) (m : tlp) : option outcome :=
  let by_id (r : pid) :=
    if negb root && pid_eqb r (b_id b) then Some (Got me)
    else if in_buses b (bus_of r) then
      if root && (bus_of r =? 0) && (snd (fst r) =? 0)%nat then None else Some (down m)
    else None in
  match m with
  | TCfg _ _ => Some Lost
  | TCpl r => by_id r
  | TMsg _ r => by_id r
  | TIo a => if in_win (b_io b) a then Some (down m) else None
  | TMem _ a => if in_win (b_mem b) a || in_win (b_pf b) a then Some (down m) else None
  end.

(** pcie.py 2797-2862: the port on the internal bus that a TLP is passed to: the first one that ...  For an ID routed message
    the code looks at the requester's bus number (2826). *)
Definition takes (b : bridge) (m : tlp) : bool :=
  match m with
  | TCfg false (bus, dv, fn) => (dv =? b_dev b)%nat && (fn =? 0)%nat
  | TCfg true (bus, dv, fn) => in_buses b bus
  | TCpl r => pid_eqb r (b_id b) || in_buses b (bus_of r)
  | TMsg q r => pid_eqb r (b_id b) || in_buses b (bus_of q)
  | TIo a => in_win (b_io b) a
  | TMem _ a => in_win (b_mem b) a || in_win (b_pf b) a
  end.
(** pcie.py 2797-2875: SwitchUpstreamPort.route_downstream_tlp; [link]: what becomes of a TLP sent down the link of a
    port.  No port: an unsupported request completion, by the upstream port. *)
Definition to_bus (link : tree -> tlp -> outcome) : list (bridge * tree) -> nat -> tlp -> outcome :=
  fix go (ps : list (bridge * tree)) (i : nat) (m : tlp) : outcome :=
    match ps with
    | [] => Ur [0%nat]
    | (b, t) :: ps => if takes b m then under (S i) (bridge_recv false b [] (link t) m) else go ps (S i) m
    end.
(** A TLP sent down a link (724-790). *)
Fixpoint to_link (t : tree) (m : tlp) : outcome :=
  match t with
  | Dev d => dev_recv d m
  | Sw b ps => bridge_recv false b [0%nat] (to_bus to_link ps 0) m
  end.

(** A TLP sent by whoever is at place [p] of a tree, or of a bus; [None]: it leaves the tree upwards. *)
Definition from_bus (rise : tree -> list nat -> tlp -> option outcome) : list (bridge * tree) -> nat -> nat -> list nat -> tlp -> option outcome :=
  fix go (ps : list (bridge * tree)) (i n : nat) (q : list nat) (m : tlp) : option outcome :=
    match ps, n with
    | [], _ => None
    | (b, t) :: _, O =>
      match match q with [] => None | _ => rise t q m end with
      | Some o => Some (under (S i) o)
      | None => option_map (under (S i)) (turn false b [] (to_link t) m)
      end
    | _ :: ps, S n => go ps (S i) n q m
    end.
Fixpoint from_link (t : tree) (p : list nat) (m : tlp) : option outcome :=
  match t, p with
  | Sw b ps, S i :: q =>
    match from_bus from_link ps 0 i q m with
    | Some o => Some o
    | None => turn false b [0%nat] (to_bus to_link ps 0) m
    end
  | Sw b ps, O :: _ => turn false b [0%nat] (to_bus to_link ps 0) m
  | Sw _ _, [] => None
  | Dev _, _ => None
  end.

(** pcie.py 3373-3381, 3383-3389: sent by the root complex; sent from below. *)
Definition from_root (h : host) (m : tlp) : outcome := bridge_recv true (h_b h) [0%nat] (to_bus to_link (h_ps h) 0) m.
Definition from_place (h : host) (p : list nat) (m : tlp) : outcome :=
  match p with
  | S i :: q =>
    match from_bus from_link (h_ps h) 0 i q m with
    | Some o => o
    | None => match turn true (h_b h) [0%nat] (to_bus to_link (h_ps h) 0) m with Some o => o | None => AtRoot end
    end
  | _ => Raise
  end.

(* ----- configuration ----- *)

(** What a configuration access does to the registers of a bridge or of an endpoint function ([mf]: one of several,
    pcie.py 2963-2966), and what it returns. *)
Record op (A : Type) := mkOp { on_br : bridge -> bridge * A; on_fn : bool -> func -> func * A }.
Arguments mkOp {A}.  Arguments on_br {A}.  Arguments on_fn {A}.

Definition at_nth {X B} (f : X -> X * option B) : list X -> nat -> list X * option B :=
  fix go l i := match l, i with
    | [], _ => ([], None)
    | x :: l, O => let (x', a) := f x in (x' :: l, a)
    | x :: l, S i => let (l', a) := go l i in (x :: l', a)
    end.
Definition set_bus_num (b : bridge) (bus : Z) : bridge := mkBr bus (b_dev b) (b_sec b) (b_sub b) (b_io b) (b_mem b) (b_pf b).
Definition access_br {A} (bus : Z) (o : op A) (b : bridge) : bridge * option A :=
  let (b, a) := on_br o (set_bus_num b bus) in (b, Some a).
(** A type 0 configuration request for bus [bus] handled at place [p].  Bridges and devices capture their bus number
    (1832, 2986-2990). *)
Fixpoint at_link {A} (bus : Z) (o : op A) (t : tree) (p : list nat) : tree * option A :=
  match t, p with
  | Dev d, k :: _ =>
    let (fs, a) := at_nth (fun x => let (f, a) := on_fn o (1 <? length (d_fns d))%nat (snd x) in ((fst x, f), Some a)) (d_fns d) k in
    (Dev (mkDev bus (d_num d) fs), a)
  | Sw b ps, O :: _ => let (b, a) := access_br bus o b in (Sw b ps, a)
  | Sw b ps, S i :: q =>
    let (ps, a) := at_nth (fun x => match q with
      | [] => let (b, a) := access_br bus o (fst x) in ((b, snd x), a)
      | _ => let (t, a) := at_link bus o (snd x) q in ((fst x, t), a) end) ps i in (Sw b ps, a)
  | t, _ => (t, None)
  end.
Definition at_bus {A} (bus : Z) (o : op A) (ps : list (bridge * tree)) (p : list nat) : list (bridge * tree) * option A :=
  match p with
  | S i :: q => at_nth (fun x => match q with
      | [] => let (b, a) := access_br bus o (fst x) in ((b, snd x), a)
      | _ => let (t, a) := at_link bus o (snd x) q in ((fst x, t), a) end) ps i
  | _ => (ps, None)
  end.
(** A configuration access (pcie.py 3647-3678, 3712-3732) from above a link whose bus number is [own], or from above an
    internal bus.  An access that is not answered, or answered as unsupported, reads as all ones: [None].  Simplified: a device
    captures its bus number also from a request for a function it does not have, here only from one it handles. *)
Definition acc_link (own : Z) (A : Type) (t : tree) (bus : Z) (d f : nat) (o : op A) : tree * option A :=
  match to_link t (TCfg (negb (bus =? own)) (bus, d, f)) with Got p => at_link bus o t p | _ => (t, None) end.
Definition acc_bus (own : Z) (A : Type) (ps : list (bridge * tree)) (bus : Z) (d f : nat) (o : op A) : list (bridge * tree) * option A :=
  match to_bus to_link ps 0 (TCfg (negb (bus =? own)) (bus, d, f)) with Got p => at_bus bus o ps p | _ => (ps, None) end.
Definition acc_host (A : Type) (h : host) (bus : Z) (d f : nat) (o : op A) : host * option A :=
  match from_root h (TCfg true (bus, d, f)) with
  | Got p => let (ps, a) := at_bus bus o (h_ps h) p in (mkHost (h_b h) ps, a)
  | _ => (h, None)
  end.

(** pcie.py 2574-2607: writing the configuration registers 6 to 12 of a bridge. *)
Definition byte_of (old mask new : Z) : Z := byte_mask_update old mask new (-1).
Definition b_write (b : bridge) (reg data mask : Z) : bridge :=
  let (bus, dv, sec, sub, io, mem, pf) := b in
  if reg =? 6 then mkBr bus dv (byte_of sec (Z.land (Z.shiftr mask 1) 1) (Z.shiftr data 8)) (byte_of sub (Z.land (Z.shiftr mask 2) 1) (Z.shiftr data 16)) io mem pf
  else if reg =? 7 then
    mkBr bus dv sec sub (mkWin (byte_mask_update (w_base io) (Z.shiftl (Z.land mask 1) 1) (Z.shiftl data 8) 0xf000)
                               (Z.lor (byte_mask_update (w_limit io) (Z.land mask 2) data 0xf000) 0xfff)) mem pf
  else if reg =? 8 then
    mkBr bus dv sec sub io (mkWin (byte_mask_update (w_base mem) (Z.shiftl (Z.land mask 3) 2) (Z.shiftl data 16) 0xfff00000)
                                  (Z.lor (byte_mask_update (w_limit mem) (Z.land mask 0xc) data 0xfff00000) 0xfffff)) pf
  else if reg =? 9 then
    mkBr bus dv sec sub io mem (mkWin (byte_mask_update (w_base pf) (Z.shiftl (Z.land mask 3) 2) (Z.shiftl data 16) 0xfff00000)
                                      (Z.lor (byte_mask_update (w_limit pf) (Z.land mask 0xc) data 0xfff00000) 0xfffff))
  else if reg =? 10 then mkBr bus dv sec sub io mem (mkWin (byte_of (w_base pf) (Z.shiftl mask 4) (Z.shiftl data 32)) (w_limit pf))
  else if reg =? 11 then mkBr bus dv sec sub io mem (mkWin (w_base pf) (byte_of (w_limit pf) (Z.shiftl mask 4) (Z.shiftl data 32)))
  else if reg =? 12 then
    mkBr bus dv sec sub (mkWin (byte_of (w_base io) (Z.shiftl (Z.land mask 3) 2) (Z.shiftl data 16)) (byte_of (w_limit io) (Z.land mask 0xc) data)) mem pf
  else b.

(** pcie.py 4434, 4443: the three bus numbers. *)
Definition set_buses (pri sec sub : Z) (b : bridge) : bridge := b_write b 6 (pri + 256 * sec + 65536 * sub) 7.
(** pcie.py 4449-4463: base and limit registers. *)
Definition hh (a b : Z) : Z := a + 65536 * b.
Definition set_windows (io mem pf : win) (b : bridge) : bridge :=
  let b := b_write b 7 (Z.land (Z.shiftr (w_base io) 8) 0xf0 + 256 * Z.land (Z.shiftr (w_limit io) 8) 0xf0) 3 in
  let b := b_write b 12 (hh (Z.shiftr (w_base io) 16) (Z.shiftr (w_limit io) 16)) 0xf in
  let b := b_write b 8 (hh (Z.land (Z.shiftr (w_base mem) 16) 0xfff0) (Z.land (Z.shiftr (w_limit mem) 16) 0xfff0)) 0xf in
  let b := b_write b 9 (hh (Z.land (Z.shiftr (w_base pf) 16) 0xfff0) (Z.land (Z.shiftr (w_limit pf) 16) 0xfff0)) 0xf in
  let b := b_write b 10 (Z.shiftr (w_base pf) 32) 0xf in
  b_write b 11 (Z.shiftr (w_limit pf) 32) 0xf.
(** struct.pack raises an exception for a value that does not fit; where the code masks the value it always fits. *)
Definition packs (io pf : win) : bool :=
  let h x := (0 <=? x) && (x <? 65536) in let l x := (0 <=? x) && (x <? 2 ^ 32) in
  h (Z.shiftr (w_base io) 16) && h (Z.shiftr (w_limit io) 16) && l (Z.shiftr (w_base pf) 32) && l (Z.shiftr (w_limit pf) 32).

(* ----- enumeration ----- *)

(** pcie.py 4218-4221, 4471-4473: the ends of the spaces, rounded up to what bridge registers can express. *)
Definition align3 (l : limits) : limits := mkLim (align_up (l_io l) 0xfff) (align_up (l_mem l) 0xfffff) (align_up (l_pf l) 0xfffff).

Definition op_type : op (bool * bool) := mkOp (fun b => (b, (true, false))) (fun mf f => (f, (false, mf))).
(** Sizing and placing the base address registers (4281-4380), as in [enum_bars]; bridges have none.  One access here stands
    for all accesses to the registers of one function that do not change bus numbers; routing of configuration requests does
    not look at base address registers. *)
Definition op_bars (lim : limits) : op (option limits) :=
  mkOp (fun b => (b, Some lim))
       (fun _ f => match enum_bars 7 0 6 f lim with Some (f', lim', _) => (f', Some lim') | None => (f, None) end).
Definition op_br (g : bridge -> bridge) : op unit := mkOp (fun b => (g b, tt)) (fun _ f => (f, tt)).

Section Enum.
  Context {St : Type} (acc : forall A, St -> Z -> nat -> nat -> op A -> St * option A).
  Definition est : Type := St * limits * Z * Z.
  Definition eres : Type := St * limits * Z * (win * win * win).

  Fixpoint foldo {X Y} (f : X -> Y -> option Y) (l : list X) (y : Y) : option Y :=
    match l with [] => Some y | x :: l => match f x y with Some y => foldo f l y | None => None end end.

  (** pcie.py 4255-4465: function [f] of device [d] on bus [bus]; [rec] enumerates the bus behind a bridge.  Capabilities,
      payload size, bus mastering and MSI (4385-4427) are left out.  Bus numbers above 255 cannot be written (bytearray,
      4434). *)
  Definition visit (rec : Z -> St -> limits -> option eres) (bus : Z) (d : nat) (f : nat) (x : est) : option est :=
    let '(s, lim, sec, sub) := x in
    match acc _ s bus d f op_type with
    | (s, None) => Some (s, lim, sec, sub)
    | (s, Some (br, _)) =>
      match acc _ s bus d f (op_bars lim) with
      | (s, Some (Some lim)) =>
        if br then
          if 255 <? sec then None else
          let (s, _) := acc _ s bus d f (op_br (set_buses bus sec 255)) in
          match rec sec s lim with
          | Some (s, lim, sub, (io, mem, pf)) =>
            if packs io pf then
              let (s, _) := acc _ s bus d f (op_br (set_buses bus sec sub)) in
              let (s, _) := acc _ s bus d f (op_br (set_windows io mem pf)) in
              Some (s, lim, sub + 1, sub)
            else None
          | None => None
          end
        else Some (s, lim, sec, sub)
      | _ => None
      end
    end.
  (** pcie.py 4231-4253: device [d] of the bus: one function, or eight when function 0 is one of several. *)
  Definition visit_dev (rec : Z -> St -> limits -> option eres) (bus : Z) (d : nat) (x : est) : option est :=
    let '(s, lim, sec, sub) := x in
    if (bus =? 0) && (d =? 0)%nat then Some x else
    match acc _ s bus d 0%nat op_type with
    | (s, None) => Some (s, lim, sec, sub)
    | (s, Some (_, mf)) => foldo (visit rec bus d) (seq 0 (if mf then 8 else 1)) (s, lim, sec, sub)
    end.
  (** pcie.py 4211-4482: enumerate_segment; [fuel] bounds the depth of nested bridges. *)
  Fixpoint enum_seg (fuel : nat) (bus : Z) (s : St) (lim : limits) : option eres :=
    match fuel with
    | O => None
    | S fuel =>
      let l0 := align3 lim in
      match foldo (visit_dev (enum_seg fuel) bus) (seq 0 32) (s, l0, bus + 1, bus) with
      | Some (s, lim, _, sub) =>
        let l1 := align3 lim in
        Some (s, l1, sub, (mkWin (l_io l0) (l_io l1 - 1), mkWin (l_mem l0) (l_mem l1 - 1), mkWin (l_pf l0) (l_pf l1 - 1)))
      | None => None
      end
    end.
End Enum.

(** pcie.py 4484-4505: enumerate; [lim]: the bases of the three spaces (3238-3243).  The windows of the host bridge are set
    directly; their limits are one more than the last address given out. *)
Definition enumerate (fuel : nat) (h : host) (lim : limits) : option (host * limits) :=
  match enum_seg acc_host fuel 0 h lim with
  | Some (h, l, _, _) =>
    let b := h_b h in
    Some (mkHost (mkBr (b_bus b) (b_dev b) (b_sec b) (b_sub b) (mkWin (l_io lim) (l_io l)) (mkWin (l_mem lim) (l_mem l)) (mkWin (l_pf lim) (l_pf l))) (h_ps h), l)
  | None => None
  end.
