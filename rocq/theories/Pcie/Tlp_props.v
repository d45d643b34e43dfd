(** C36, C37: byte enables and the wire format of transaction layer packets. *)
From Verif Require Import Base.Prelude Pcie.Tlp_model Pcie.Tlp_spec Pcie.Tlp_proof.
Open Scope Z_scope.

(** C36: a request for [n >= 1] bytes at byte address [a] is dword aligned, spans
    exactly the dwords containing those bytes, and its byte enables select the
    bytes [a .. a+n-1] and no other. *)
Theorem C36_enabled_bytes_exact t a n : 1 <= n ->
  let r := set_be t a n in
  t_addr r mod 4 = 0 /\ t_length r = (a + n - 1) / 4 - a / 4 + 1 /\
  0 <= t_first_be r < 16 /\ 0 <= t_last_be r < 16 /\ (t_length r = 1 -> t_last_be r = 0) /\
  forall b, touches r b = true <-> a <= b < a + n.
Proof. exact (@c36_exact t a n). Qed.
Print Assumptions C36_enabled_bytes_exact.
Example C36_enabled_bytes_exact_nonvacuous :
  let r := set_be tlp0 0x1003 6 in
  t_addr r = 0x1000 /\ t_length r = 3 /\ t_first_be r = 8 /\ t_last_be r = 1 /\
  touches r 0x1003 = true /\ touches r 0x1008 = true /\ touches r 0x1009 = false.
Proof. vm_compute. splits; reflexivity. Qed.

(** C36: the byte count a completer derives from the byte enables of any request
    whose first and last enables are not empty is the distance between the first
    and the last enabled byte, and the first offset is the first enabled byte
    (PCIe base specification, table of byte counts). *)
Theorem C36_byte_count t : 0 <= t_first_be t < 16 -> 0 <= t_last_be t < 16 -> 1 <= t_length t ->
  t_first_be t <> 0 -> (t_length t <> 1 -> t_last_be t <> 0) ->
  exists lo hi, enabled t lo = true /\ enabled t hi = true /\
    (forall i, enabled t i = true -> lo <= i <= hi) /\
    first_be_offset t = lo /\ be_byte_count t = hi - lo + 1.
Proof. exact (@byte_count_spec t). Qed.
Print Assumptions C36_byte_count.
Example C36_byte_count_nonvacuous :
  let t := set_be tlp0 0x1003 6 in
  t_first_be t <> 0 /\ t_last_be t <> 0 /\ first_be_offset t = 3 /\ be_byte_count t = 6.
Proof. vm_compute. splits; congruence. Qed.

(** C36: for a request built from an address and a length the byte count is the length. *)
Theorem C36_byte_count_of_request t a n : 1 <= n ->
  first_be_offset (set_be t a n) = a mod 4 /\ be_byte_count (set_be t a n) = n.
Proof. exact (@set_be_count t a n). Qed.
Print Assumptions C36_byte_count_of_request.

(** C36: building a write from an address and a non-empty byte string always
    succeeds; the packet passes its own length check, enables exactly the bytes
    of the string and carries each of them at its address. *)
Theorem C36_write_carries_data t a data : data <> [] -> bytes_ok data ->
  exists r, set_be_data t a data = Ok r /\
    t_length r = Z.of_nat (length (t_data r)) /\ t_addr r mod 4 = 0 /\
    (forall b, touches r b = true <-> a <= b < a + Z.of_nat (length data)) /\
    (forall i, (i < length data)%nat -> byte_at r (a + Z.of_nat i) = nth i data 0).
Proof. exact (@c36_data t a data). Qed.
Print Assumptions C36_write_carries_data.
Example C36_write_carries_data_nonvacuous :
  exists r, set_be_data tlp0 0x1003 [1;2;3;4;5;6] = Ok r /\ t_length r = 3 /\
   byte_at r 0x1003 = 1 /\ byte_at r 0x1008 = 6 /\ t_data r = [0x01000000; 0x05040302; 6].
Proof. eexists. split; [vm_compute; reflexivity|]. vm_compute. auto. Qed.

(** C36: the lower address is right for requests starting at a dword boundary ... *)
Theorem C36_lower_address_partial t a n : 1 <= n -> a mod 4 = 0 ->
  lower_address (set_be t a n) = a mod 128.
Proof. exact (@c36_lower t a n). Qed.
Print Assumptions C36_lower_address_partial.
(** ... and wrong for every other request: the two low address bits are lost
    (operator precedence in the source). *)
Theorem C36_lower_address_refuted t a n : 1 <= n -> a mod 4 <> 0 ->
  lower_address (set_be t a n) <> a mod 128.
Proof. exact (@c36_lower_wrong t a n). Qed.
Print Assumptions C36_lower_address_refuted.
Example C36_lower_address_nonvacuous :
  lower_address (set_be tlp0 0x1048 6) = 0x48 /\ lower_address (set_be tlp0 0x1049 6) = 0x48 /\
  0x1049 mod 128 = 0x49.
Proof. vm_compute. auto. Qed.

(** C37: unpacking a packed completion returns the completion. *)
Theorem C37_completion_round_trip t : wf_cpl t -> bind (pack t) unpack = Ok t.
Proof. exact (@cpl_roundtrip t). Qed.
Print Assumptions C37_completion_round_trip.
Definition a_completion : tlp :=
  mkTlp 2 0x0A 5 1 0 1 7 2 3 (mkPid 255 31 7) 0 0 4096 (mkPid 1 2 3) pid0 255 0 0 127 0 0
        [0xffffffff; 1; 2].
Example C37_completion_nonvacuous : wf_cpl a_completion.
Proof. unfold wf_cpl, wf_hdr, wf_pid. vm_compute. intuition congruence. Qed.

(** C37: a configuration request comes back with register number 0 ... *)
Theorem C37_config_round_trip_partial t : wf_cfg t ->
  bind (pack t) unpack = Ok (with_regno t 0).
Proof. exact (@cfg_roundtrip t). Qed.
Print Assumptions C37_config_round_trip_partial.
(** ... so the round trip fails exactly when another register was addressed. *)
Theorem C37_config_round_trip_refuted t : wf_cfg t ->
  (bind (pack t) unpack = Ok t <-> t_regno t = 0).
Proof. exact (@c37_cfg t). Qed.
Print Assumptions C37_config_round_trip_refuted.
Definition a_config : tlp :=
  mkTlp 2 0x04 0 0 0 0 0 0 1 pid0 0 0 0 (mkPid 0 0 0) (mkPid 3 4 5) 17 0xf 0 0 0 4 [0x12345678].
Example C37_config_nonvacuous : wf_cfg a_config /\ t_regno a_config = 4.
Proof. unfold wf_cfg, wf_hdr, wf_pid. vm_compute. intuition congruence. Qed.

(** C37: memory and IO requests.  Without data the decoder indexes past the end;
    with data the first data dword is taken for the address. *)
Theorem C37_request_round_trip_refuted t : wf_req t ->
  bind (pack t) unpack =
  if has_data t then
    match t_data t with
    | d :: _ => Ok (with_addr t (if is_4dw t then Z.lor (Z.shiftl (Z.land d 0xffffffff) 32) (Z.land d 0xfffffffc)
                                 else Z.land d 0xfffffffc))
    | [] => Raise EIndex
    end
  else Raise EIndex.
Proof. exact (@req_unpack t). Qed.
Print Assumptions C37_request_round_trip_refuted.
Definition a_read : tlp :=
  mkTlp 0 0 0 0 0 0 0 0 4 pid0 0 0 0 (mkPid 0 0 0) pid0 17 0xf 0xf 0 0x1000 0 [].
Definition a_write : tlp :=
  mkTlp 2 0 0 0 0 0 0 0 1 pid0 0 0 0 (mkPid 0 0 0) pid0 17 0xf 0 0 0x1000 0 [0x12345678].
Example C37_request_nonvacuous : wf_req a_read /\ wf_req a_write /\
  bind (pack a_read) unpack = Raise EIndex /\ bind (pack a_write) unpack = Ok (with_addr a_write 0x12345678).
Proof. unfold wf_req, wf_hdr, wf_pid. vm_compute. intuition congruence. Qed.

(** C37: the dwords of a packed request with a 32-bit address carry the address;
    with a 64-bit address the low address dword is mixed with the high one. *)
Theorem C37_request_address_on_wire t : wf_req t ->
  exists d0 d1 rest, pack t = Ok (d0 :: d1 :: rest) /\
  if is_4dw t
  then firstn 2 rest = [t_addr t / 2 ^ 32; Z.lor (t_addr t / 2 ^ 32) (t_addr t mod 2 ^ 32)]
  else firstn 1 rest = [t_addr t].
Proof. exact (@c37_wire t). Qed.
Print Assumptions C37_request_address_on_wire.
Example C37_wire_nonvacuous :
  let t := mkTlp 1 0 0 0 0 0 0 0 4 pid0 0 0 0 (mkPid 0 0 0) pid0 17 0xf 0xf 0 0x100001000 0 [] in
  wf_req t /\ pack t = Ok [0x20000004; 0x000011ff; 1; 0x1001].
Proof. unfold wf_req, wf_hdr, wf_pid. vm_compute. intuition congruence. Qed.
