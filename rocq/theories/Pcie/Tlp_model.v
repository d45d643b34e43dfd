(** Transaction layer packets of the PCIe simulation model,
    fpga/lib/pcie/tb/pcie.py lines 31-200 and 329-668. *)
From Verif Require Import Base.Prelude.
Open Scope Z_scope.

(** Results of functions that can raise; the exceptions that matter here.  [ELoop]
    is not an exception of the code: a loop did not end within the fuel of its
    model (the theorems show that it never occurs). *)
Inductive exc := EIndex | EUnknownType | EStruct | EAssert | ETimeout | EStatus | EAddr | ELoop.
Inductive res (A : Type) := Ok (a : A) | Raise (e : exc).
Arguments Ok {A} a.
Arguments Raise {A} e.

(** pcie.py 166-198: class PcieId (bus, device, function); [from_int], [__int__]. *)
Record pid := mkPid { p_bus : Z; p_dev : Z; p_fn : Z }.
Definition pid0 := mkPid 0 0 0.
Definition pid_of_int (v : Z) : pid :=
  mkPid (Z.land (Z.shiftr v 8) 0xff) (Z.land (Z.shiftr v 3) 0x1f) (Z.land v 0x7).
Definition pid_int (p : pid) : Z :=
  Z.lor (Z.lor (Z.shiftl (Z.land (p_bus p) 0xff) 8) (Z.shiftl (Z.land (p_dev p) 0x1f) 3))
        (Z.land (p_fn p) 0x7).

(** pcie.py 329-354: the attributes of class TLP (Python ints are [Z]; [th] is
    packed but neither copied nor compared by the class). *)
Record tlp := mkTlp {
  t_fmt : Z; t_type : Z; t_tc : Z; t_th : Z; t_td : Z; t_ep : Z; t_attr : Z; t_at : Z;
  t_length : Z; t_completer : pid; t_status : Z; t_bcm : Z; t_byte_count : Z;
  t_requester : pid; t_dest : pid; t_tag : Z; t_first_be : Z; t_last_be : Z;
  t_lower : Z; t_addr : Z; t_regno : Z; t_data : list Z }.

(** pcie.py 330-354: a new TLP. *)
Definition tlp0 : tlp :=
  mkTlp 0 0 0 0 0 0 0 0 0 pid0 0 0 0 pid0 pid0 0 0 0 0 0 0 [].

(** pcie.py 32-65: formats and types used below. *)
Definition FMT_3DW := 0.
Definition FMT_4DW := 1.
Definition FMT_3DW_DATA := 2.
Definition FMT_4DW_DATA := 3.
Definition TLP_MEM_READ := (FMT_3DW, 0x00).
Definition TLP_MEM_READ_64 := (FMT_4DW, 0x00).
Definition TLP_MEM_READ_LOCKED := (FMT_3DW, 0x01).
Definition TLP_MEM_READ_LOCKED_64 := (FMT_4DW, 0x01).
Definition TLP_MEM_WRITE := (FMT_3DW_DATA, 0x00).
Definition TLP_MEM_WRITE_64 := (FMT_4DW_DATA, 0x00).
Definition TLP_IO_READ := (FMT_3DW, 0x02).
Definition TLP_IO_WRITE := (FMT_3DW_DATA, 0x02).
Definition TLP_CFG_READ_0 := (FMT_3DW, 0x04).
Definition TLP_CFG_WRITE_0 := (FMT_3DW_DATA, 0x04).
Definition TLP_CFG_READ_1 := (FMT_3DW, 0x05).
Definition TLP_CFG_WRITE_1 := (FMT_3DW_DATA, 0x05).
Definition TLP_CPL := (FMT_3DW, 0x0A).
Definition TLP_CPL_DATA := (FMT_3DW_DATA, 0x0A).
Definition TLP_CPL_LOCKED := (FMT_3DW, 0x0B).
Definition TLP_CPL_LOCKED_DATA := (FMT_3DW_DATA, 0x0B).

Definition ft_eqb (a b : Z * Z) : bool := (fst a =? fst b) && (snd a =? snd b).
Definition ft (t : tlp) : Z * Z := (t_fmt t, t_type t).
Definition isft (t : tlp) (l : list (Z * Z)) : bool := existsb (ft_eqb (ft t)) l.

Definition cfg_types := [TLP_CFG_READ_0; TLP_CFG_WRITE_0; TLP_CFG_READ_1; TLP_CFG_WRITE_1].
Definition mem_types :=
  [TLP_MEM_READ; TLP_MEM_READ_64; TLP_MEM_READ_LOCKED; TLP_MEM_READ_LOCKED_64;
   TLP_MEM_WRITE; TLP_MEM_WRITE_64].
Definition io_types := [TLP_IO_READ; TLP_IO_WRITE].
Definition cpl_types := [TLP_CPL; TLP_CPL_DATA; TLP_CPL_LOCKED; TLP_CPL_LOCKED_DATA].

(** pcie.py 409-436: TLP.check.  The length range test [0 > length > 1024] is
    always false, hence absent. *)
Definition tlp_check (t : tlp) : bool :=
  (if (t_fmt t =? FMT_3DW_DATA) || (t_fmt t =? FMT_4DW_DATA)
   then t_length t =? Z.of_nat (length (t_data t)) else true) &&
  (if isft t mem_types
   then negb (t_length t * 4 >? 0x1000 - Z.land (t_addr t) 0xfff) else true) &&
  (if isft t io_types then (t_length t =? 1) && (t_last_be t =? 0) else true) &&
  (if ft_eqb (ft t) TLP_CPL_DATA
   then negb (t_byte_count t + Z.land (t_lower t) 3 + 3 <? t_length t * 4) else true).

(** pcie.py 438-453: TLP.set_completion with status SC and data (on a new TLP). *)
Definition cpl_data_for (t : tlp) (completer : pid) : tlp :=
  let '(mkTlp _ _ tc _ _ _ attr _ _ _ _ _ _ rq _ tag _ _ _ _ _ _) := t in
  mkTlp FMT_3DW_DATA 0x0A tc 0 0 0 attr 0 0 completer 0 0 0 rq pid0 tag 0 0 0 0 0 [].

(** pcie.py 467-479: TLP.set_be, sets address, length, first_be and last_be.
    [math.ceil] of the exact quotient by 4. *)
Definition set_be (t : tlp) (addr len : Z) : tlp :=
  let first_pad := addr mod 4 in
  let last_pad := 3 - (addr + len - 1) mod 4 in
  let dw := (len + first_pad + last_pad + 3) / 4 in
  let fbe := Z.land (Z.shiftl 0xf first_pad) 0xf in
  let lbe := Z.shiftr 0xf last_pad in
  let '(mkTlp f ty tc th td ep at1 at2 _ co st bc byc rq de tag _ _ lo _ rn da) := t in
  mkTlp f ty tc th td ep at1 at2 dw co st bc byc rq de tag
    (if dw =? 1 then Z.land fbe lbe else fbe) (if dw =? 1 then 0 else lbe)
    lo (Z.land addr (Z.lnot 3)) rn da.
Definition set_be_pads (addr len : Z) : Z * Z := (addr mod 4, 3 - (addr + len - 1) mod 4).

(** struct.pack('<L') and struct.unpack('<L') on 4 bytes. *)
Definition le_dword (b0 b1 b2 b3 : Z) : Z := b0 + 256 * b1 + 65536 * b2 + 16777216 * b3.
Definition le_bytes (d : Z) : list Z :=
  [d mod 256; (d / 256) mod 256; (d / 65536) mod 256; (d / 16777216) mod 256].

(** pcie.py 483-485: the loop of TLP.set_data; a tail shorter than 4 bytes makes
    struct.unpack raise. *)
Fixpoint dwords_of (data : list Z) : res (list Z) :=
  match data with
  | [] => Ok []
  | b0 :: b1 :: b2 :: b3 :: t =>
      match dwords_of t with Ok l => Ok (le_dword b0 b1 b2 b3 :: l) | Raise e => Raise e end
  | _ => Raise EStruct
  end.
(** pcie.py 481-486: TLP.set_data. *)
Definition set_data (t : tlp) (data : list Z) : res tlp :=
  match dwords_of data with
  | Ok l =>
      let '(mkTlp f ty tc th td ep at1 at2 _ co st bc byc rq de tag fb lb lo ad rn _) := t in
      Ok (mkTlp f ty tc th td ep at1 at2 (Z.of_nat (length l)) co st bc byc rq de tag fb lb lo ad rn l)
  | Raise e => Raise e
  end.
(** pcie.py 488-492: TLP.set_be_data. *)
Definition set_be_data (t : tlp) (addr : Z) (data : list Z) : res tlp :=
  let n := Z.of_nat (length data) in
  let '(fp, lp) := set_be_pads addr n in
  set_data (set_be t addr n) (repeat 0 (Z.to_nat fp) ++ data ++ repeat 0 (Z.to_nat lp)).
(** pcie.py 494-498: TLP.get_data. *)
Definition get_data (t : tlp) : list Z := flat_map le_bytes (t_data t).

(** pcie.py 500-509: get_first_be_offset. *)
Definition first_be_offset (t : tlp) : Z :=
  let be := t_first_be t in
  if Z.land be 7 =? 0 then 3 else if Z.land be 3 =? 0 then 2 else if Z.land be 1 =? 0 then 1 else 0.
(** pcie.py 511-524: get_last_be_offset. *)
Definition last_be_offset (t : tlp) : Z :=
  let be := if t_length t =? 1 then t_first_be t else t_last_be t in
  if Z.land be 0xf =? 1 then 3 else if Z.land be 0xe =? 2 then 2
  else if Z.land be 0xc =? 4 then 1 else 0.
(** pcie.py 526-528: get_be_byte_count. *)
Definition be_byte_count (t : tlp) : Z := t_length t * 4 - first_be_offset t - last_be_offset t.
(** pcie.py 530-532: get_lower_address; [+] binds tighter than [&] in Python. *)
Definition lower_address (t : tlp) : Z := Z.land (t_addr t) (0x7c + first_be_offset t).

(** pcie.py 553-610: TLP.pack. *)
Definition pack_dw0 (t : tlp) : Z :=
  let l := Z.land (t_length t) 0x3ff in
  let l := Z.lor l (Z.shiftl (Z.land (t_at t) 0x3) 10) in
  let l := Z.lor l (Z.shiftl (Z.land (t_attr t) 0x3) 12) in
  let l := Z.lor l (Z.shiftl (Z.land (t_ep t) 1) 14) in
  let l := Z.lor l (Z.shiftl (Z.land (t_td t) 1) 15) in
  let l := Z.lor l (Z.shiftl (Z.land (t_th t) 1) 16) in
  let l := Z.lor l (Z.shiftl (Z.land (t_attr t) 0x4) 16) in
  let l := Z.lor l (Z.shiftl (Z.land (t_tc t) 0x7) 20) in
  let l := Z.lor l (Z.shiftl (Z.land (t_type t) 0x1f) 24) in
  Z.lor l (Z.shiftl (Z.land (t_fmt t) 0x7) 29).
Definition has_data (t : tlp) : bool := (t_fmt t =? FMT_3DW_DATA) || (t_fmt t =? FMT_4DW_DATA).
Definition is_4dw (t : tlp) : bool := (t_fmt t =? FMT_4DW) || (t_fmt t =? FMT_4DW_DATA).
Definition pack_body (t : tlp) : res (list Z) :=
  if isft t (cfg_types ++ mem_types ++ io_types) then
    let l := Z.land (t_first_be t) 0xf in
    let l := Z.lor l (Z.shiftl (Z.land (t_last_be t) 0xf) 4) in
    let l := Z.lor l (Z.shiftl (Z.land (t_tag t) 0xff) 8) in
    let l1 := Z.lor l (Z.shiftl (pid_int (t_requester t)) 16) in
    if isft t cfg_types then
      let l := Z.shiftl (Z.land (t_regno t) 0x3ff) 2 in
      Ok [l1; Z.lor l (Z.shiftl (pid_int (t_dest t)) 16)]
    else
      let hi := Z.lor 0 (Z.land (Z.shiftr (t_addr t) 32) 0xffffffff) in
      if is_4dw t
      then Ok [l1; hi; Z.lor hi (Z.land (t_addr t) 0xfffffffc)]
      else Ok [l1; Z.lor 0 (Z.land (t_addr t) 0xfffffffc)]
  else if isft t cpl_types then
    let l := Z.land (t_byte_count t) 0xfff in
    let l := Z.lor l (Z.shiftl (Z.land (t_bcm t) 1) 12) in
    let l := Z.lor l (Z.shiftl (Z.land (t_status t) 0x7) 13) in
    let l1 := Z.lor l (Z.shiftl (pid_int (t_completer t)) 16) in
    let l := Z.land (t_lower t) 0x7f in
    let l := Z.lor l (Z.shiftl (Z.land (t_tag t) 0xff) 8) in
    Ok [l1; Z.lor l (Z.shiftl (pid_int (t_requester t)) 16)]
  else Raise EUnknownType.
Definition pack (t : tlp) : res (list Z) :=
  match pack_body t with
  | Ok b => Ok (pack_dw0 t :: b ++ (if has_data t then t_data t else []))
  | Raise e => Raise e
  end.

(** pcie.py 612-668: TLP.unpack, on a new TLP; [pkt[i]] out of range raises
    IndexError. *)
Definition idx (pkt : list Z) (i : nat) : res Z :=
  match nth_error pkt i with Some v => Ok v | None => Raise EIndex end.
Definition bind {A B} (r : res A) (f : A -> res B) : res B :=
  match r with Ok a => f a | Raise e => Raise e end.
Definition unpack (pkt : list Z) : res tlp :=
  bind (idx pkt 0) (fun d0 =>
  let len := Z.land d0 0x3ff in
  let at2 := Z.land (Z.shiftr d0 10) 0x3 in
  let attr := Z.lor (Z.land (Z.shiftr d0 12) 0x3) (Z.land (Z.shiftr d0 16) 0x4) in
  let ep := Z.land (Z.shiftr d0 14) 1 in
  let td := Z.land (Z.shiftr d0 15) 1 in
  let th := Z.land (Z.shiftr d0 16) 1 in
  let tc := Z.land (Z.shiftr d0 20) 0x7 in
  let ty := Z.land (Z.shiftr d0 24) 0x1f in
  let fmt := Z.land (Z.shiftr d0 29) 0x7 in
  let hd t := mkTlp fmt ty tc th td ep attr at2 t in
  let probe := hd 0 pid0 0 0 0 pid0 pid0 0 0 0 0 0 0 [] in
  let len := if has_data probe && (len =? 0) then 1024 else len in
  let data := if fmt =? FMT_3DW_DATA then skipn 3 pkt
              else if fmt =? FMT_4DW_DATA then skipn 4 pkt else [] in
  if isft probe (cfg_types ++ mem_types ++ io_types) then
    bind (idx pkt 1) (fun d1 =>
    let fb := Z.land d1 0xf in
    let lb := Z.land (Z.shiftr d1 4) 0xf in
    let tag := Z.land (Z.shiftr d1 8) 0xff in
    let rq := pid_of_int (Z.shiftr d1 16) in
    if isft probe cfg_types then
      bind (idx pkt 2) (fun d2 =>
      Ok (hd len pid0 0 0 0 rq (pid_of_int (Z.shiftr d2 16)) tag fb lb 0 0
             (Z.shiftr (Z.shiftr d2 2) 0x3ff) data))
    else if (fmt =? FMT_3DW) || (fmt =? FMT_3DW_DATA) then
      bind (idx pkt 3) (fun d3 =>
      Ok (hd len pid0 0 0 0 rq pid0 tag fb lb 0 (Z.land d3 0xfffffffc) 0 data))
    else
      bind (idx pkt 4) (fun d4 =>
      Ok (hd len pid0 0 0 0 rq pid0 tag fb lb 0
             (Z.lor (Z.shiftl (Z.land d4 0xffffffff) 32) (Z.land d4 0xfffffffc)) 0 data)))
  else if isft probe cpl_types then
    bind (idx pkt 1) (fun d1 =>
    bind (idx pkt 2) (fun d2 =>
    let bc := Z.land d1 0xfff in
    Ok (hd len (pid_of_int (Z.shiftr d1 16)) (Z.land (Z.shiftr d1 13) 0x7)
           (Z.land (Z.shiftr d1 12) 1) (if bc =? 0 then 4096 else bc)
           (pid_of_int (Z.shiftr d2 16)) pid0 (Z.land (Z.shiftr d2 8) 0xff) 0 0
           (Z.land d2 0x7f) 0 0 data)))
  else Raise EUnknownType).
