(** The frame objects of the Ethernet test library: fpga/lib/eth/tb/eth_ep.py,
    arp_ep.py, ip_ep.py and udp_ep.py.  Bytes are integers 0..255, byte strings lists.
    Only the frame classes are modelled, not the sources and sinks that drive signals;
    an AXIStreamFrame is its data bytes.  [None]: struct raised an error. *)
From Verif Require Import Base.Prelude.
Open Scope Z_scope.

(** struct.pack of an unsigned big-endian field of [n] bytes ('B', '>H', '>L', '>Q'):
    struct.error out of range. *)
Fixpoint be (n : nat) (v : Z) : list Z :=
  match n with O => [] | S k => be k (v / 256) ++ [v mod 256] end.
Definition pack (n : nat) (v : Z) : option (list Z) :=
  if (0 <=? v) && (v <? 256 ^ Z.of_nat n) then Some (be n v) else None.
(** struct.unpack of the same: struct.error on a wrong length. *)
Definition value (l : list Z) : Z := fold_left (fun a x => a * 256 + x) l 0.
Definition unpack (n : nat) (l : list Z) : option Z :=
  if (length l =? n)%nat then Some (value l) else None.
(** struct.pack('<L', v) and struct.unpack('<L', l). *)
Definition packl (n : nat) (v : Z) : option (list Z) := option_map (@rev Z) (pack n v).
Definition unpackl (n : nat) (l : list Z) : option Z := unpack n (rev l).
(** data[a:b]. *)
Definition slice (l : list Z) (a b : nat) : list Z := firstn (b - a) (skipn a l).

Definition bind {A B} (x : option A) (f : A -> option B) : option B :=
  match x with Some a => f a | None => None end.
Notation "'do' x <- e ; k" := (bind e (fun x => k)) (at level 200, x name, e at level 100, k at level 200).
(** data += a; data += b; ... *)
Fixpoint cat (l : list (option (list Z))) : option (list Z) :=
  match l with
  | [] => Some []
  | x :: t => do a <- x; do b <- cat t; Some (a ++ b)
  end.

(** * eth_ep.py *)
(** EthFrame (30-61). *)
Record eth := mkEth { e_dst : Z; e_src : Z; e_type : Z; e_pay : list Z }.
(** struct.pack('>Q', mac)[2:] (74-75). *)
Definition pack_mac (v : Z) : option (list Z) := option_map (skipn 2) (pack 8 v).
(** struct.unpack('>Q', b'\x00\x00' + l)[0] (94-95). *)
Definition unpack_mac (l : list Z) : option Z := unpack 8 ([0; 0] ++ l).
(** EthFrame.build_axis (71-80). *)
Definition eth_build (f : eth) : option (list Z) :=
  cat [pack_mac (e_dst f); pack_mac (e_src f); pack 2 (e_type f); Some (e_pay f)].
(** EthFrame.parse_axis (92-98). *)
Definition eth_parse (d : list Z) : option eth :=
  do dst <- unpack_mac (slice d 0 6);
  do src <- unpack_mac (slice d 6 12);
  do ty <- unpack 2 (slice d 12 14);
  Some (mkEth dst src ty (skipn 14 d)).

(** zlib.crc32: reflected CRC-32, bit by bit. *)
Definition crc_bit (c : Z) : Z :=
  if Z.odd c then Z.lxor (c / 2) 0xEDB88320 else c / 2.
Definition crc_byte (c b : Z) : Z :=
  crc_bit (crc_bit (crc_bit (crc_bit (crc_bit (crc_bit (crc_bit (crc_bit (Z.lxor c b)))))))).
Definition crc32 (l : list Z) : Z := Z.lxor (fold_left crc_byte l 0xFFFFFFFF) 0xFFFFFFFF.
(** EthFrame.calc_fcs (63-66), update_fcs (68-69). *)
Definition eth_fcs (f : eth) : option Z := option_map crc32 (eth_build f).
(** EthFrame.build_axis_fcs (82-90); [fcs] is the attribute eth_fcs. *)
Definition eth_build_fcs (f : eth) (fcs : option Z) : option (list Z) :=
  do c <- match fcs with Some c => Some c | None => eth_fcs f end;
  cat [eth_build f; packl 4 c].
(** EthFrame.parse_axis_fcs (100-104): data[:-4] and data[-4:]. *)
Definition eth_parse_fcs (d : list Z) : option (eth * Z) :=
  do f <- eth_parse d;
  let n := length (e_pay f) in
  do c <- unpackl 4 (skipn (n - 4) (e_pay f));
  Some (mkEth (e_dst f) (e_src f) (e_type f) (firstn (n - 4) (e_pay f)), c).

(** * arp_ep.py *)
(** ARPFrame (30-84). *)
Record arp := mkArp {
  a_dst : Z; a_src : Z; a_type : Z; a_htype : Z; a_ptype : Z; a_hlen : Z; a_plen : Z;
  a_oper : Z; a_sha : Z; a_spa : Z; a_tha : Z; a_tpa : Z }.
(** ARPFrame.build_eth (89-102). *)
Definition arp_build_eth (f : arp) : option eth :=
  do d <- cat [pack 2 (a_htype f); pack 2 (a_ptype f); pack 1 (a_hlen f); pack 1 (a_plen f);
               pack 2 (a_oper f); pack_mac (a_sha f); pack 4 (a_spa f); pack_mac (a_tha f); pack 4 (a_tpa f)];
  Some (mkEth (a_dst f) (a_src f) (a_type f) d).
(** ARPFrame.build_axis (86-87). *)
Definition arp_build (f : arp) : option (list Z) := do e <- arp_build_eth f; eth_build e.
(** ARPFrame.parse_eth (109-122). *)
Definition arp_parse_eth (e : eth) : option arp :=
  let d := e_pay e in
  do ht <- unpack 2 (slice d 0 2); do pt <- unpack 2 (slice d 2 4);
  do hl <- unpack 1 (slice d 4 5); do pl <- unpack 1 (slice d 5 6);
  do op <- unpack 2 (slice d 6 8);
  do sha <- unpack_mac (slice d 8 14); do spa <- unpack 4 (slice d 14 18);
  do tha <- unpack_mac (slice d 18 24); do tpa <- unpack 4 (slice d 24 28);
  Some (mkArp (e_dst e) (e_src e) (e_type e) ht pt hl pl op sha spa tha tpa).
(** ARPFrame.parse_axis (104-107). *)
Definition arp_parse (d : list Z) : option arp := do e <- eth_parse d; arp_parse_eth e.

(** * ip_ep.py *)
(** IPFrame (30-116); ip_length and ip_header_checksum may be None. *)
Record ip := mkIp {
  i_dst : Z; i_src : Z; i_type : Z; i_ver : Z; i_ihl : Z; i_dscp : Z; i_ecn : Z;
  i_len : option Z; i_id : Z; i_flags : Z; i_frag : Z; i_ttl : Z; i_proto : Z;
  i_ck : option Z; i_sip : Z; i_dip : Z; i_pay : list Z }.
Definition len (l : list Z) : Z := Z.of_nat (length l).
(** The fold of calc_checksum (131-132): the sum of the low and high halves. *)
Definition fold16 (s : Z) : Z := Z.land s 0xffff + Z.shiftr s 16.
(** IPFrame.calc_checksum (121-133), with ip_length [l]. *)
Definition ip_calc (f : ip) (l : Z) : Z :=
  let s := Z.lor (Z.lor (Z.lor (Z.shiftl (i_ver f) 12) (Z.shiftl (i_ihl f) 8)) (Z.shiftl (i_dscp f) 2)) (i_ecn f) in
  let s := s + l in
  let s := s + i_id f in
  let s := s + Z.lor (Z.shiftl (i_flags f) 13) (i_frag f) in
  let s := s + Z.lor (Z.shiftl (i_ttl f) 8) (i_proto f) in
  let s := s + Z.land (i_sip f) 0xffff in
  let s := s + Z.land (Z.shiftr (i_sip f) 16) 0xffff in
  let s := s + Z.land (i_dip f) 0xffff in
  let s := s + Z.land (Z.shiftr (i_dip f) 16) 0xffff in
  Z.land (Z.lnot (fold16 (fold16 s))) 0xffff.
(** IPFrame.build (141-145) with update_length (118-119) and update_checksum (135-136):
    the length and checksum used. *)
Definition ip_len (f : ip) : Z := match i_len f with Some l => l | None => len (i_pay f) + 20 end.
Definition ip_ck (f : ip) : Z := match i_ck f with Some c => c | None => ip_calc f (ip_len f) end.
(** IPFrame.build_eth (150-167). *)
Definition ip_build_eth (f : ip) : option eth :=
  do d <- cat [pack 1 (Z.lor (Z.shiftl (i_ver f) 4) (i_ihl f)); pack 1 (Z.lor (Z.shiftl (i_dscp f) 2) (i_ecn f));
               pack 2 (ip_len f); pack 2 (i_id f); pack 2 (Z.lor (Z.shiftl (i_flags f) 13) (i_frag f));
               pack 1 (i_ttl f); pack 1 (i_proto f); pack 2 (ip_ck f); pack 4 (i_sip f); pack 4 (i_dip f);
               Some (i_pay f)];
  Some (mkEth (i_dst f) (i_src f) (i_type f) d).
(** IPFrame.build_axis (147-148). *)
Definition ip_build (f : ip) : option (list Z) := do e <- ip_build_eth f; eth_build e.
(** IPFrame.parse_eth (174-196). *)
Definition ip_parse_eth (e : eth) : option ip :=
  let d := e_pay e in
  do v0 <- unpack 1 (slice d 0 1); do v1 <- unpack 1 (slice d 1 2);
  do l <- unpack 2 (slice d 2 4); do idn <- unpack 2 (slice d 4 6);
  do v6 <- unpack 2 (slice d 6 8);
  do ttl <- unpack 1 (slice d 8 9); do pr <- unpack 1 (slice d 9 10);
  do ck <- unpack 2 (slice d 10 12);
  do sip <- unpack 4 (slice d 12 16); do dip <- unpack 4 (slice d 16 20);
  Some (mkIp (e_dst e) (e_src e) (e_type e)
             (Z.land (Z.shiftr v0 4) 0xF) (Z.land v0 0xF) (Z.land (Z.shiftr v1 2) 0x3F) (Z.land v1 0x3)
             (Some l) idn (Z.land (Z.shiftr v6 13) 0x7) (Z.land v6 0x1FFF) ttl pr (Some ck) sip dip
             (slice d 20 (Z.to_nat l))).
(** IPFrame.parse_axis (169-172). *)
Definition ip_parse (d : list Z) : option ip := do e <- eth_parse d; ip_parse_eth e.
(** IPFrame.verify_checksum (138-139); a None length raises TypeError. *)
Definition ip_verify (f : ip) : option bool :=
  do l <- i_len f;
  Some (match i_ck f with Some c => c =? ip_calc f l | None => false end).

(** * udp_ep.py *)
(** UDPFrame (31-133): the IP fields, whose payload is the UDP payload here. *)
Record udp := mkUdp { u_ip : ip; u_sport : Z; u_dport : Z; u_len : option Z; u_ck : option Z }.
(** update_udp_length (138-139), as used by build (213-214). *)
Definition udp_len (f : udp) : Z := match u_len f with Some l => l | None => len (i_pay (u_ip f)) + 8 end.
(** calc_udp_pseudo_header_checksum (165-174). *)
Definition udp_pseudo (f : udp) (l : Z) : Z :=
  let s := Z.land (i_sip (u_ip f)) 0xffff in
  let s := s + Z.land (Z.shiftr (i_sip (u_ip f)) 16) 0xffff in
  let s := s + Z.land (i_dip (u_ip f)) 0xffff in
  let s := s + Z.land (Z.shiftr (i_dip (u_ip f)) 16) 0xffff in
  let s := s + i_proto (u_ip f) in
  let s := s + l in
  fold16 (fold16 s).
(** The payload loop of calc_udp_checksum (186-192). *)
Fixpoint udp_loop (d : list Z) (odd : bool) (s : Z) : Z :=
  match d with
  | [] => s
  | x :: t => udp_loop t (negb odd) (if odd then s + x else s + Z.shiftl x 8)
  end.
(** calc_udp_checksum (181-195). *)
Definition udp_calc (f : udp) (l : Z) : Z :=
  let s := udp_pseudo f l in
  let s := s + u_sport f in
  let s := s + u_dport f in
  let s := s + l in
  let s := udp_loop (i_pay (u_ip f)) false s in
  Z.land (Z.lnot (fold16 (fold16 s))) 0xffff.
(** update_udp_checksum (197-200), as used by build (215-216). *)
Definition udp_ck (f : udp) : Z := match u_ck f with Some c => c | None => udp_calc f (udp_len f) end.
(** build (212-220), calc_ip_checksum (145-157): ip_length from udp_length; the IP checksum over that length. *)
Definition udp_ip_len (f : udp) : Z := match i_len (u_ip f) with Some l => l | None => udp_len f + 20 end.
Definition udp_ip_ck (f : udp) : Z :=
  match i_ck (u_ip f) with Some c => c | None => ip_calc (u_ip f) (udp_ip_len f) end.
(** build_ip (228-257). *)
Definition udp_build_ip (f : udp) : option ip :=
  let i := u_ip f in
  do d <- cat [pack 2 (u_sport f); pack 2 (u_dport f); pack 2 (udp_len f); pack 2 (udp_ck f); Some (i_pay i)];
  Some (mkIp (i_dst i) (i_src i) (i_type i) (i_ver i) (i_ihl i) (i_dscp i) (i_ecn i) (Some (udp_ip_len f)) (i_id i)
             (i_flags i) (i_frag i) (i_ttl i) (i_proto i) (Some (udp_ip_ck f)) (i_sip i) (i_dip i) d).
(** build_axis (222-223), build_eth (225-226). *)
Definition udp_build (f : udp) : option (list Z) := do i <- udp_build_ip f; ip_build i.
(** parse_ip (269-292). *)
Definition udp_parse_ip (i : ip) : option udp :=
  let d := i_pay i in
  do sp <- unpack 2 (slice d 0 2); do dp <- unpack 2 (slice d 2 4);
  do l <- unpack 2 (slice d 4 6); do ck <- unpack 2 (slice d 6 8);
  Some (mkUdp (mkIp (i_dst i) (i_src i) (i_type i) (i_ver i) (i_ihl i) (i_dscp i) (i_ecn i) (i_len i) (i_id i)
                    (i_flags i) (i_frag i) (i_ttl i) (i_proto i) (i_ck i) (i_sip i) (i_dip i)
                    (slice d 8 (Z.to_nat l)))
              sp dp (Some l) (Some ck)).
(** parse_axis (259-262), parse_eth (264-267). *)
Definition udp_parse (d : list Z) : option udp := do i <- ip_parse d; udp_parse_ip i.
(** verify_udp_checksum (202-203). *)
Definition udp_verify (f : udp) : option bool :=
  do l <- u_len f;
  Some (match u_ck f with Some c => c =? udp_calc f l | None => false end).
