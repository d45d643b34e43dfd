(** Vocabulary for the frame codecs: octets at wire offsets, field ranges and the
    ones-complement sum of RFC 1071. *)
From Verif Require Import Base.Prelude Net.Codec_model.
Open Scope Z_scope.

Definition octet (x : Z) : Prop := 0 <= x < 256.
Definition octets (l : list Z) : Prop := Forall octet l.
(** [v] fits [n] bits. *)
Definition fits (n : Z) (v : Z) : Prop := 0 <= v < 2 ^ n.
(** The unsigned number in network byte order at octets [off .. off+n-1] of [d]. *)
Fixpoint number (l : list Z) : Z :=
  match l with [] => 0 | x :: t => x * 2 ^ (8 * Z.of_nat (length t)) + number t end.
Definition at_octets (d : list Z) (off n : nat) : Z := number (firstn n (skipn off d)).

(** 16-bit big-endian words, the last zero padded; their end-around-carry sum. *)
Fixpoint words (l : list Z) : list Z :=
  match l with
  | a :: b :: t => (a * 256 + b) :: words t
  | [a] => [a * 256]
  | [] => []
  end.
Definition oadd (a b : Z) : Z := let s := a + b in if s <? 65536 then s else s - 65535.
Definition ones_sum (l : list Z) : Z := fold_left oadd (words l) 0.

(** Frames whose fields fit the header. *)
Definition eth_ok (f : eth) : Prop :=
  fits 48 (e_dst f) /\ fits 48 (e_src f) /\ fits 16 (e_type f) /\ octets (e_pay f).
Definition arp_ok (f : arp) : Prop :=
  fits 48 (a_dst f) /\ fits 48 (a_src f) /\ fits 16 (a_type f) /\ fits 16 (a_htype f) /\ fits 16 (a_ptype f)
  /\ fits 8 (a_hlen f) /\ fits 8 (a_plen f) /\ fits 16 (a_oper f) /\ fits 48 (a_sha f) /\ fits 32 (a_spa f)
  /\ fits 48 (a_tha f) /\ fits 32 (a_tpa f).
Definition ip_hdr_ok (f : ip) : Prop :=
  fits 48 (i_dst f) /\ fits 48 (i_src f) /\ fits 16 (i_type f) /\ fits 4 (i_ver f) /\ fits 4 (i_ihl f)
  /\ fits 6 (i_dscp f) /\ fits 2 (i_ecn f) /\ fits 16 (i_id f) /\ fits 3 (i_flags f) /\ fits 13 (i_frag f)
  /\ fits 8 (i_ttl f) /\ fits 8 (i_proto f) /\ fits 32 (i_sip f) /\ fits 32 (i_dip f) /\ octets (i_pay f).
(** Left to be computed, or given in range. *)
Definition auto_or (ok : Z -> Prop) (o : option Z) : Prop := match o with Some v => ok v | None => True end.
Definition ip_ok (f : ip) : Prop :=
  ip_hdr_ok f /\ Z.of_nat (length (i_pay f)) + 20 < 2 ^ 16
  /\ auto_or (fun l => l = Z.of_nat (length (i_pay f)) + 20) (i_len f) /\ auto_or (fits 16) (i_ck f).
Definition udp_ok (f : udp) : Prop :=
  ip_hdr_ok (u_ip f) /\ fits 16 (u_sport f) /\ fits 16 (u_dport f)
  /\ Z.of_nat (length (i_pay (u_ip f))) + 28 < 2 ^ 16
  /\ auto_or (fun l => l = Z.of_nat (length (i_pay (u_ip f))) + 8) (u_len f) /\ auto_or (fits 16) (u_ck f)
  /\ auto_or (fun l => l = Z.of_nat (length (i_pay (u_ip f))) + 28) (i_len (u_ip f)) /\ auto_or (fits 16) (i_ck (u_ip f)).

(** [g] shows the fields of [f]; a field left to be computed may hold anything. *)
Definition shows (o o' : option Z) : Prop := match o with Some v => o' = Some v | None => o' <> None end.
Definition ip_header_same (f g : ip) : Prop :=
  i_dst g = i_dst f /\ i_src g = i_src f /\ i_type g = i_type f /\ i_ver g = i_ver f /\ i_ihl g = i_ihl f
  /\ i_dscp g = i_dscp f /\ i_ecn g = i_ecn f /\ i_id g = i_id f /\ i_flags g = i_flags f /\ i_frag g = i_frag f
  /\ i_ttl g = i_ttl f /\ i_proto g = i_proto f /\ i_sip g = i_sip f /\ i_dip g = i_dip f /\ i_pay g = i_pay f.

(** The pseudo header of RFC 768 for the IPv4 packet at octet 14 of [d], with UDP length [l]. *)
Definition pseudo_header (d : list Z) (l : Z) : list Z :=
  firstn 8 (skipn 26 d) ++ [0; nth 23 d 0] ++ [l / 256; l mod 256].
