(** The 64b/66b block coder of 10GBASE-R: fpga/lib/eth/rtl/xgmii_baser_enc_64.v
    and xgmii_baser_dec_64.v (cited as enc and dec).  A Verilog concatenation
    is a list of fields, lowest first, each with its width. *)
From Verif Require Import Base.Prelude Base.Bits.
Local Open Scope Z_scope.

Fixpoint pack (l : list (Z * Z)) : Z :=
  match l with [] => 0 | (w, v) :: l => v + 2 ^ w * pack l end.

(** XGMII control characters and their 7-bit codes (enc 80-104, dec 81-105):
    idle, LPI, error and the six reserved ones. *)
Definition codes : list (Z * Z) :=
  [(0x07, 0x00); (0x06, 0x06); (0xfe, 0x1e); (0x1c, 0x2d); (0x3c, 0x33); (0x7c, 0x4b); (0xbc, 0x55); (0xdc, 0x66); (0xf7, 0x78)].
(** START, TERM, SEQ_OS, ERROR. *)
Definition XS := 0xfb.
Definition XT := 0xfd.
Definition XO := 0x9c.
Definition XE := 0xfe.

(** Byte [i] of an XGMII word. *)
Definition lane (d : Z) (i : Z) : Z := bits d (8 * i) 8.
Definition span (a b : Z) : list Z := map Z.of_nat (seq (Z.to_nat a) (Z.to_nat (b - a))).

(** enc 149-201: the code of lane [i] and its error flag. *)
Definition ec (d c i : Z) : Z * bool :=
  if Z.testbit c i then
    match find (fun p => fst p =? lane d i) codes with Some p => (snd p, false) | None => (0x1e, true) end
  else (0x1e, true).
(** encoded_ctrl[7*b-1:7*a] and encode_err[b-1:a] != 0. *)
Definition ectl (d c a b : Z) : list (Z * Z) := map (fun i => (7, fst (ec d c i))) (span a b).
Definition eerr (d c a b : Z) : bool := existsb (fun i => snd (ec d c i)) (span a b).

(** enc 203-272: data, header, bad block. *)
Definition encode (d c : Z) : Z * Z * bool :=
  if c =? 0x00 then (d, 2, false)
  else if (c =? 0x1f) && (lane d 4 =? XO) then
    (pack ([(8, 0x2d)] ++ ectl d c 0 4 ++ [(4, 0); (24, bits d 40 24)]), 1, eerr d c 0 4)
  else if (c =? 0x1f) && (lane d 4 =? XS) then
    (pack ([(8, 0x33)] ++ ectl d c 0 4 ++ [(4, 0); (24, bits d 40 24)]), 1, eerr d c 0 4)
  else if (c =? 0x11) && (lane d 0 =? XO) && (lane d 4 =? XS) then
    (pack [(8, 0x66); (24, bits d 8 24); (4, 0); (4, 0); (24, bits d 40 24)], 1, false)
  else if (c =? 0x11) && (lane d 0 =? XO) && (lane d 4 =? XO) then
    (pack [(8, 0x55); (24, bits d 8 24); (4, 0); (4, 0); (24, bits d 40 24)], 1, false)
  else if (c =? 0x01) && (lane d 0 =? XS) then (pack [(8, 0x78); (56, bits d 8 56)], 1, false)
  else if (c =? 0xf1) && (lane d 0 =? XO) then
    (pack ([(8, 0x4b); (24, bits d 8 24); (4, 0)] ++ ectl d c 4 8), 1, eerr d c 4 8)
  else if (c =? 0xff) && (lane d 0 =? XT) then (pack ([(8, 0x87); (7, 0)] ++ ectl d c 1 8), 1, eerr d c 1 8)
  else if (c =? 0xfe) && (lane d 1 =? XT) then (pack ([(8, 0x99); (8, bits d 0 8); (6, 0)] ++ ectl d c 2 8), 1, eerr d c 2 8)
  else if (c =? 0xfc) && (lane d 2 =? XT) then (pack ([(8, 0xaa); (16, bits d 0 16); (5, 0)] ++ ectl d c 3 8), 1, eerr d c 3 8)
  else if (c =? 0xf8) && (lane d 3 =? XT) then (pack ([(8, 0xb4); (24, bits d 0 24); (4, 0)] ++ ectl d c 4 8), 1, eerr d c 4 8)
  else if (c =? 0xf0) && (lane d 4 =? XT) then (pack ([(8, 0xcc); (32, bits d 0 32); (3, 0)] ++ ectl d c 5 8), 1, eerr d c 5 8)
  else if (c =? 0xe0) && (lane d 5 =? XT) then (pack ([(8, 0xd2); (40, bits d 0 40); (2, 0)] ++ ectl d c 6 8), 1, eerr d c 6 8)
  else if (c =? 0xc0) && (lane d 6 =? XT) then (pack ([(8, 0xe1); (48, bits d 0 48); (1, 0)] ++ ectl d c 7 8), 1, eerr d c 7 8)
  else if (c =? 0x80) && (lane d 7 =? XT) then (pack [(8, 0xff); (56, bits d 0 56)], 1, false)
  else if c =? 0xff then (pack ([(8, 0x1e)] ++ ectl d c 0 8), 1, eerr d c 0 8)
  else (pack ((8, 0x1e) :: repeat (7, 0x1e) 8), 1, true).

(** dec 157-200: control character [i] of a block and its error flag. *)
Definition dc (x i : Z) : Z * bool :=
  match find (fun p => snd p =? bits x (7 * i + 8) 7) codes with Some p => (fst p, false) | None => (XE, true) end.
Definition dctl (x a b : Z) : list (Z * Z) := map (fun i => (8, fst (dc x i))) (span a b).
Definition derr (x a b : Z) : bool := existsb (fun i => snd (dc x i)) (span a b).
(** The ordered set code at bit [lo] (O_SEQ_OS or else). *)
Definition os (x lo : Z) : Z := if bits x lo 4 =? 0 then XO else XE.
Definition oserr (x lo : Z) : bool := negb (bits x lo 4 =? 0).

(** Word, control bits, bad block, sequence error, next frame_reg. *)
Record dres := mkD { d_rxd : Z; d_rxc : Z; d_bad : bool; d_seq : bool; d_frame : bool }.

(** dec 151-155, 202-371. *)
Definition decode (fr : bool) (x h : Z) : dres :=
  let t := bits x 0 8 in
  let data lo w := (w, bits x lo w) in
  let bad := mkD (pack (repeat (8, XE) 8)) 0xff true false fr in
  if h =? 2 then mkD x 0x00 false false fr
  else if h =? 1 then
    if t =? 0x1e then mkD (pack (dctl x 0 8)) 0xff (derr x 0 8) false fr
    else if t =? 0x2d then
      mkD (pack (dctl x 0 4 ++ [(8, os x 36); data 40 24])) 0x1f (if oserr x 36 then true else derr x 0 4) false fr
    else if t =? 0x33 then mkD (pack (dctl x 0 4 ++ [(8, XS); data 40 24])) 0x1f (derr x 0 4) fr true
    else if t =? 0x66 then
      mkD (pack [(8, os x 32); data 8 24; (8, XS); data 40 24]) 0x1f (oserr x 32) fr true
    else if t =? 0x55 then
      mkD (pack [(8, os x 32); data 8 24; (8, os x 36); data 40 24]) 0x11 (oserr x 32 || oserr x 36) false fr
    else if t =? 0x78 then mkD (pack [(8, XS); data 8 56]) 0x01 false fr true
    else if t =? 0x4b then
      mkD (pack ([(8, os x 32); data 8 24] ++ dctl x 4 8)) 0xf1 (if oserr x 32 then true else derr x 4 8) false fr
    else if t =? 0x87 then mkD (pack ([(8, XT)] ++ dctl x 1 8)) 0xff (derr x 1 8) (negb fr) false
    else if t =? 0x99 then mkD (pack ([data 8 8; (8, XT)] ++ dctl x 2 8)) 0xfe (derr x 2 8) (negb fr) false
    else if t =? 0xaa then mkD (pack ([data 8 16; (8, XT)] ++ dctl x 3 8)) 0xfc (derr x 3 8) (negb fr) false
    else if t =? 0xb4 then mkD (pack ([data 8 24; (8, XT)] ++ dctl x 4 8)) 0xf8 (derr x 4 8) (negb fr) false
    else if t =? 0xcc then mkD (pack ([data 8 32; (8, XT)] ++ dctl x 5 8)) 0xf0 (derr x 5 8) (negb fr) false
    else if t =? 0xd2 then mkD (pack ([data 8 40; (8, XT)] ++ dctl x 6 8)) 0xe0 (derr x 6 8) (negb fr) false
    else if t =? 0xe1 then mkD (pack ([data 8 48; (8, XT)] ++ dctl x 7 8)) 0xc0 (derr x 7 8) (negb fr) false
    else if t =? 0xff then mkD (pack [data 8 56; (8, XT)]) 0x80 false (negb fr) false
    else bad
  else bad.

(** Registers: enc 133-141, 275-280; dec 134-146, 373-384.  The reset of the decoder clears frame_reg only. *)
Definition e_step (s : Z * Z * bool) (i : Z * Z) : (Z * Z * bool) * (Z * Z * bool) := (encode (fst i) (snd i), s).
Definition d_step (s : dres) (i : bool * (Z * Z)) : dres * dres :=
  let r := decode (d_frame s) (fst (snd i)) (snd (snd i)) in
  (if fst i then mkD (d_rxd r) (d_rxc r) (d_bad r) (d_seq r) false else r, s).
Definition e_init : Z * Z * bool := (0, 0, false).
Definition d_init : dres := mkD 0 0 false false false.

(** A coder feeding a decoder, as over an error-free link; the outputs are those
    of the decoder and tx_bad_block. *)
Definition link_step (s : (Z * Z * bool) * dres) (i : bool * (Z * Z)) : ((Z * Z * bool) * dres) * (dres * bool) :=
  let '(e, oe) := e_step (fst s) (snd i) in
  let '(d, od) := d_step (snd s) (fst i, (fst (fst oe), snd (fst oe))) in
  ((e, d), (od, snd oe)).
Definition link_init : (Z * Z * bool) * dres := (e_init, d_init).
(** The outputs over a run (one input per clock edge: the decoder's rst and the word on xgmii_txd/txc), and xgmii_rxd/rxc in one of them. *)
Definition outs (s : (Z * Z * bool) * dres) (is : list (bool * (Z * Z))) : list (dres * bool) := snd (trace link_step s is).
Definition received (o : dres * bool) : Z * Z := (d_rxd (fst o), d_rxc (fst o)).
