(** C34, C35: the Ethernet, ARP, IPv4 and UDP frame objects of the test library. *)
From Verif Require Import Base.Prelude Net.Codec_model Net.Codec_spec Net.Codec_proof Net.Codec_ip_proof Net.Codec_udp_proof.
Open Scope Z_scope.

(** * C34: wire layout and round trips *)
Theorem C34_ethernet_layout f d : eth_ok f -> eth_build f = Some d ->
  at_octets d 0 6 = e_dst f /\ at_octets d 6 6 = e_src f /\ at_octets d 12 2 = e_type f /\ skipn 14 d = e_pay f.
Proof. exact (@eth_shows f d). Qed.
Print Assumptions C34_ethernet_layout.

Theorem C34_ethernet_round_trip f : eth_ok f ->
  exists d, eth_build f = Some d /\ octets d /\ length d = (14 + length (e_pay f))%nat /\ eth_parse d = Some f.
Proof. exact (@eth_round f). Qed.
Print Assumptions C34_ethernet_round_trip.

Theorem C34_ethernet_rebuild d f : octets d -> eth_parse d = Some f -> eth_build f = Some d.
Proof. exact (@eth_back_build d f). Qed.
Print Assumptions C34_ethernet_rebuild.

(** With the FCS: the frame and FCS come back; a computed FCS leaves the CRC-32 residue. *)
Theorem C34_fcs_round_trip f fcs : eth_ok f -> auto_or (fits 32) fcs ->
  exists d c, eth_build_fcs f fcs = Some d /\ eth_parse_fcs d = Some (f, c) /\ shows fcs (Some c) /\
  (fcs = None -> crc32 d = 0x2144DF1C).
Proof. exact (@eth_fcs_round f fcs). Qed.
Print Assumptions C34_fcs_round_trip.

Definition ex_eth := mkEth 0xDAD1D2D3D4D5 0x5A5152535455 0x8000 [1; 2; 3].
Example C34_ethernet_nonvacuous :
  eth_ok ex_eth /\ eth_build ex_eth = Some [0xDA; 0xD1; 0xD2; 0xD3; 0xD4; 0xD5; 0x5A; 0x51; 0x52; 0x53; 0x54; 0x55; 0x80; 0; 1; 2; 3].
Proof.
  split; [|vm_compute; reflexivity].
  unfold eth_ok, fits, ex_eth, octets, octet. cbn [e_dst e_src e_type e_pay].
  split; [lia|split; [lia|split; [lia|]]]. repeat (constructor; [lia|]). constructor.
Qed.
(** The check value of CRC-32: "123456789". *)
Example C34_crc_check : crc32 [0x31; 0x32; 0x33; 0x34; 0x35; 0x36; 0x37; 0x38; 0x39] = 0xCBF43926.
Proof. vm_compute. reflexivity. Qed.

Theorem C34_arp_layout f d : arp_ok f -> arp_build f = Some d ->
  at_octets d 0 6 = a_dst f /\ at_octets d 6 6 = a_src f /\ at_octets d 12 2 = a_type f /\
  at_octets d 14 2 = a_htype f /\ at_octets d 16 2 = a_ptype f /\ at_octets d 18 1 = a_hlen f /\
  at_octets d 19 1 = a_plen f /\ at_octets d 20 2 = a_oper f /\ at_octets d 22 6 = a_sha f /\
  at_octets d 28 4 = a_spa f /\ at_octets d 32 6 = a_tha f /\ at_octets d 38 4 = a_tpa f.
Proof. exact (@arp_shows f d). Qed.
Print Assumptions C34_arp_layout.

(** Padding after the frame is ignored. *)
Theorem C34_arp_round_trip f pad : arp_ok f ->
  exists d, arp_build f = Some d /\ length d = 42%nat /\ arp_parse (d ++ pad) = Some f.
Proof. exact (@arp_round f pad). Qed.
Print Assumptions C34_arp_round_trip.

Definition ex_arp := mkArp 0xFFFFFFFFFFFF 0x5A5152535455 0x0806 1 0x0800 6 4 1 0x5A5152535455 0xC0A80164 0 0xC0A80165.
Example C34_arp_nonvacuous : arp_ok ex_arp /\ (match arp_build ex_arp with Some d => nth 41 d 0 | None => 0 end) = 0x65.
Proof.
  split; [|vm_compute; reflexivity]. unfold arp_ok, fits, ex_arp.
  cbn [a_dst a_src a_type a_htype a_ptype a_hlen a_plen a_oper a_sha a_spa a_tha a_tpa].
  assert (forall a b : Prop, a -> b -> a /\ b) as K by auto.
  repeat (apply K; [lia|]). lia.
Qed.

Theorem C34_ip_layout f d : ip_ok f -> ip_build f = Some d ->
  at_octets d 0 6 = i_dst f /\ at_octets d 6 6 = i_src f /\ at_octets d 12 2 = i_type f /\
  at_octets d 14 1 / 16 = i_ver f /\ at_octets d 14 1 mod 16 = i_ihl f /\
  at_octets d 15 1 / 4 = i_dscp f /\ at_octets d 15 1 mod 4 = i_ecn f /\
  at_octets d 16 2 = Z.of_nat (length (i_pay f)) + 20 /\ at_octets d 18 2 = i_id f /\
  at_octets d 20 2 / 8192 = i_flags f /\ at_octets d 20 2 mod 8192 = i_frag f /\
  at_octets d 22 1 = i_ttl f /\ at_octets d 23 1 = i_proto f /\ shows (i_ck f) (Some (at_octets d 24 2)) /\
  at_octets d 26 4 = i_sip f /\ at_octets d 30 4 = i_dip f /\ skipn 34 d = i_pay f.
Proof. exact (@ip_shows f d). Qed.
Print Assumptions C34_ip_layout.

Theorem C34_ip_round_trip f pad : ip_ok f -> exists d g, ip_build f = Some d /\ length d = (34 + length (i_pay f))%nat
  /\ ip_parse (d ++ pad) = Some g
  /\ ip_header_same f g /\ i_len g = Some (Z.of_nat (length (i_pay f)) + 20) /\ shows (i_ck f) (i_ck g).
Proof. exact (@ip_round f pad). Qed.
Print Assumptions C34_ip_round_trip.

(** Rebuilding a parsed packet that is complete gives its octets back, without the padding. *)
Theorem C34_ip_rebuild d f : octets d -> ip_parse d = Some f ->
  (forall l, i_len f = Some l -> 20 <= l /\ 14 + l <= Z.of_nat (length d)) ->
  exists l, i_len f = Some l /\ ip_build f = Some (firstn (14 + Z.to_nat l) d).
Proof. exact (@ip_rebuild d f). Qed.
Print Assumptions C34_ip_rebuild.

Definition ex_ip := mkIp 0xDAD1D2D3D4D5 0x5A5152535455 0x0800 4 5 0 0 None 0 2 0 64 17 None 0xC0A80164 0xC0A80165 [1; 2; 3].
Lemma ex_ip_hdr : ip_hdr_ok ex_ip.
Proof.
  unfold ip_hdr_ok, fits, octets, octet, ex_ip.
  cbn [i_pay i_dst i_src i_type i_ver i_ihl i_dscp i_ecn i_id i_flags i_frag i_ttl i_proto i_sip i_dip].
  assert (forall a b : Prop, a -> b -> a /\ b) as K by auto.
  repeat (apply K; [lia|]). repeat (constructor; [lia|]). constructor.
Qed.
Example C34_ip_nonvacuous : ip_ok ex_ip /\
  (match ip_build ex_ip with Some d => firstn 20 (skipn 14 d) | None => [] end) =
  [0x45; 0; 0; 23; 0; 0; 0x40; 0; 64; 17; 0xB6; 0xBC; 0xC0; 0xA8; 1; 0x64; 0xC0; 0xA8; 1; 0x65].
Proof.
  split; [|vm_compute; reflexivity].
  split; [exact ex_ip_hdr|]. cbn. split; [lia|split; exact Logic.I].
Qed.

Theorem C34_udp_layout f d : udp_ok f -> udp_build f = Some d ->
  at_octets d 0 6 = i_dst (u_ip f) /\ at_octets d 6 6 = i_src (u_ip f) /\ at_octets d 12 2 = i_type (u_ip f) /\
  at_octets d 14 1 / 16 = i_ver (u_ip f) /\ at_octets d 14 1 mod 16 = i_ihl (u_ip f) /\
  at_octets d 15 1 / 4 = i_dscp (u_ip f) /\ at_octets d 15 1 mod 4 = i_ecn (u_ip f) /\
  at_octets d 16 2 = Z.of_nat (length (i_pay (u_ip f))) + 28 /\ at_octets d 18 2 = i_id (u_ip f) /\
  at_octets d 20 2 / 8192 = i_flags (u_ip f) /\ at_octets d 20 2 mod 8192 = i_frag (u_ip f) /\
  at_octets d 22 1 = i_ttl (u_ip f) /\ at_octets d 23 1 = i_proto (u_ip f) /\
  shows (i_ck (u_ip f)) (Some (at_octets d 24 2)) /\
  at_octets d 26 4 = i_sip (u_ip f) /\ at_octets d 30 4 = i_dip (u_ip f) /\
  at_octets d 34 2 = u_sport f /\ at_octets d 36 2 = u_dport f /\
  at_octets d 38 2 = Z.of_nat (length (i_pay (u_ip f))) + 8 /\ shows (u_ck f) (Some (at_octets d 40 2)) /\
  skipn 42 d = i_pay (u_ip f).
Proof. exact (@udp_shows f d). Qed.
Print Assumptions C34_udp_layout.

Theorem C34_udp_round_trip f pad : udp_ok f ->
  exists d g, udp_build f = Some d /\ length d = (42 + length (i_pay (u_ip f)))%nat
  /\ udp_parse (d ++ pad) = Some g
  /\ ip_header_same (u_ip f) (u_ip g) /\ u_sport g = u_sport f /\ u_dport g = u_dport f
  /\ i_len (u_ip g) = Some (Z.of_nat (length (i_pay (u_ip f))) + 28) /\ shows (i_ck (u_ip f)) (i_ck (u_ip g))
  /\ u_len g = Some (Z.of_nat (length (i_pay (u_ip f))) + 8) /\ shows (u_ck f) (u_ck g).
Proof. exact (@udp_round f pad). Qed.
Print Assumptions C34_udp_round_trip.

Definition ex_udp := mkUdp ex_ip 5678 1234 None None.
Example C34_udp_nonvacuous : udp_ok ex_udp /\
  (match udp_build ex_udp with Some d => firstn 11 (skipn 34 d) | None => [] end) =
  [0x16; 0x2E; 0x04; 0xD2; 0; 11; 0x5C; 0xBC; 1; 2; 3].
Proof.
  split; [|vm_compute; reflexivity]. unfold udp_ok, ex_udp. cbn [u_ip u_sport u_dport u_len u_ck].
  split; [exact ex_ip_hdr|]. cbn. unfold fits. assert (forall a b : Prop, a -> b -> a /\ b) as K by auto.
  repeat (apply K; [lia || exact Logic.I|]). exact Logic.I.
Qed.

(** A MAC address of more than 48 bits is cut silently: the frame builds and comes back
    with another address.  (Every other field out of range makes struct raise an error.) *)
Theorem C34_wide_mac_refuted :
  ~ (forall f d, eth_build f = Some d -> eth_parse d = Some f).
Proof.
  intro K. pose (f := mkEth (2 ^ 48 + 5) 1 2 []).
  destruct (eth_build f) as [d|] eqn:E; [|vm_compute in E; discriminate E].
  specialize (K f d E). vm_compute in E. apply some_inj in E. subst d. vm_compute in K. discriminate K.
Qed.
Print Assumptions C34_wide_mac_refuted.

(** * C35: ones-complement checksums *)
Theorem C35_ip_checksum f d : ip_ok f -> i_ck f = None -> ip_build f = Some d ->
  ones_sum (firstn 20 (skipn 14 d)) = 0xFFFF.
Proof. exact (@ip_checksum_built f d). Qed.
Print Assumptions C35_ip_checksum.

(** The verifier on received octets: sound; and complete unless the stored field is 0xFFFF. *)
Theorem C35_ip_verify d f : octets d -> ip_parse d = Some f ->
  (ip_verify f = Some true -> ones_sum (firstn 20 (skipn 14 d)) = 0xFFFF) /\
  (ones_sum (firstn 20 (skipn 14 d)) = 0xFFFF -> i_ck f <> Some 0xFFFF -> ip_verify f = Some true) /\
  ip_verify f <> None.
Proof. exact (@ip_verify_spec d f). Qed.
Print Assumptions C35_ip_verify.

Theorem C35_udp_checksum f d : udp_ok f -> u_ck f = None -> udp_build f = Some d ->
  ones_sum (pseudo_header d (Z.of_nat (length (i_pay (u_ip f))) + 8) ++ skipn 34 d) = 0xFFFF.
Proof. exact (@udp_checksum_built f d). Qed.
Print Assumptions C35_udp_checksum.

Theorem C35_udp_ip_checksum f d : udp_ok f -> i_ck (u_ip f) = None -> udp_build f = Some d ->
  ones_sum (firstn 20 (skipn 14 d)) = 0xFFFF.
Proof. exact (@udp_ip_checksum_built f d). Qed.
Print Assumptions C35_udp_ip_checksum.

Theorem C35_udp_verify d f : octets d -> udp_parse d = Some f ->
  exists ul, u_len f = Some ul /\ ul = at_octets d 38 2 /\
  let sum := ones_sum (pseudo_header d ul ++ firstn 8 (skipn 34 d) ++ i_pay (u_ip f)) in
  (udp_verify f = Some true -> sum = 0xFFFF) /\
  (sum = 0xFFFF -> u_ck f <> Some 0xFFFF -> udp_verify f = Some true) /\ udp_verify f <> None.
Proof. exact (@udp_verify_spec d f). Qed.
Print Assumptions C35_udp_verify.

Example C35_nonvacuous :
  match udp_build ex_udp with
  | Some d =>
      forallb (fun x => (0 <=? x) && (x <? 256)) d = true /\
      match udp_parse d, ip_parse d with
      | Some f, Some g => udp_verify f = Some true /\ ip_verify g = Some true
      | _, _ => False
      end
  | None => False
  end.
Proof. vm_compute. split; [reflexivity|split; reflexivity]. Qed.

(** Headers whose checksum field is 0xFFFF where the computation gives 0 sum to 0xFFFF
    but are rejected; so are UDP datagrams, where 0xFFFF is what RFC 768 prescribes. *)
Definition ffff_packet : list Z :=
  [0;0;0;0;0;1; 0;0;0;0;0;2; 8;0; 0x45;0;0;20; 0xBA;0xEB;0;0; 0;0; 0xFF;0xFF; 0;0;0;0; 0;0;0;0].
Theorem C35_ip_verify_ffff_refuted : 
  ~ (forall d f, octets d -> ip_parse d = Some f -> ones_sum (firstn 20 (skipn 14 d)) = 0xFFFF -> ip_verify f = Some true).
Proof.
  intro K.
  assert (octets ffff_packet) as Ho by (unfold ffff_packet, octets, octet; repeat (constructor; [lia|]); constructor).
  destruct (ip_parse ffff_packet) as [f|] eqn:E; [|vm_compute in E; discriminate E].
  assert (ones_sum (firstn 20 (skipn 14 ffff_packet)) = 0xFFFF) as E2 by (vm_compute; reflexivity).
  specialize (K ffff_packet f Ho E E2). vm_compute in E. apply some_inj in E. subst f. vm_compute in K. discriminate K.
Qed.
Print Assumptions C35_ip_verify_ffff_refuted.

(** RFC 768: a computed UDP checksum of zero is sent as 0xFFFF, zero meaning "none".  The
    builder sends zero. *)
Definition zero_udp : udp :=
  mkUdp (mkIp 1 2 0x0800 4 5 0 0 None 0 0 0 64 17 None 0 0 [0; 0]) 0xFFDA 0 None None.
Theorem C35_udp_zero_checksum_refuted :
  ~ (forall f d, udp_ok f -> u_ck f = None -> udp_build f = Some d -> at_octets d 40 2 <> 0).
Proof.
  intro K. assert (udp_ok zero_udp) as Hok.
  { unfold udp_ok, zero_udp, ip_hdr_ok, fits, octets, octet. cbn. assert (forall a b : Prop, a -> b -> a /\ b) as P by auto.
    apply P; [|repeat (apply P; [lia || exact Logic.I|]); exact Logic.I].
    repeat (apply P; [lia|]). repeat (constructor; [lia|]). constructor. }
  destruct (udp_build zero_udp) as [d|] eqn:E; [|vm_compute in E; discriminate E].
  apply (K zero_udp d Hok eq_refl E). vm_compute in E. apply some_inj in E. subst d. vm_compute. reflexivity.
Qed.
Print Assumptions C35_udp_zero_checksum_refuted.
