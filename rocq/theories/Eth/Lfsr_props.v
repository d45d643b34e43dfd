(** C31: parallel LFSR and CRC. *)
From Verif Require Import Base.Prelude Net.Codec_model Net.Codec_spec
  Eth.Lfsr_model Eth.Lfsr_spec Eth.Lfsr_proof Eth.Lfsr_words_proof.
Local Open Scope nat_scope.

(** One word through the module is DATA_WIDTH clocks of the serial shift
    register: same next contents, same output bits, in every configuration. *)
Theorem C31_parallel_is_serial : forall c s d, 0 < l_w c -> (0 <= s < 2 ^ Z.of_nat (l_w c))%Z ->
  serial (l_w c) (l_poly c) (l_galois c) (l_ff c)
    (register_of (l_rev c) (l_w c) s) (stream_of (l_rev c) (l_d c) d) =
  (register_of (l_rev c) (l_w c) (lfsr_state c s d), stream_of (l_rev c) (l_d c) (lfsr_data c s d)).
Proof. exact lfsr_serial. Qed.
Print Assumptions C31_parallel_is_serial.

(** The outputs are vectors of the declared widths. *)
Theorem C31_output_widths : forall c s d,
  (0 <= lfsr_state c s d < 2 ^ Z.of_nat (l_w c))%Z /\ (0 <= lfsr_data c s d < 2 ^ Z.of_nat (l_d c))%Z.
Proof. exact (fun c s d => conj (state_bound c s d) (data_bound c s d)). Qed.
Print Assumptions C31_output_widths.

(** Hence the final state and the output bits for a message do not depend on
    the word width nor on the implementation style. *)
Theorem C31_width_independent : forall c1 c2 s ds1 ds2 s1 s2 os1 os2, 0 < l_w c1 ->
  l_w c2 = l_w c1 -> l_poly c2 = l_poly c1 -> l_galois c2 = l_galois c1 -> l_ff c2 = l_ff c1 -> l_rev c2 = l_rev c1 ->
  (0 <= s < 2 ^ Z.of_nat (l_w c1))%Z ->
  bitstream (l_rev c1) (l_d c1) ds1 = bitstream (l_rev c1) (l_d c2) ds2 ->
  trace (word_step c1) s ds1 = (s1, os1) -> trace (word_step c2) s ds2 = (s2, os2) ->
  s1 = s2 /\ bitstream (l_rev c1) (l_d c1) os1 = bitstream (l_rev c1) (l_d c2) os2.
Proof. exact width_free. Qed.
Print Assumptions C31_width_independent.

(** In the Ethernet configuration, with any word width, the inverted final
    state is the CRC-32 of the octets fed (the one of the frame codecs, C34). *)
Theorem C31_ethernet_crc : forall d red ws l s' os, octets l ->
  bitstream true d ws = bitstream true 8 l ->
  trace (word_step (mkLc 32 0x04c11db7%Z true false true d red)) 0xffffffff%Z ws = (s', os) ->
  Z.lxor s' 0xffffffff%Z = crc32 l.
Proof. exact crc_hardware. Qed.
Print Assumptions C31_ethernet_crc.

(** The octets "123456789" as octets and as one 72-bit word, both styles:
    the check value of CRC-32. *)
Definition c31_msg : list Z := [49; 50; 51; 52; 53; 54; 55; 56; 57]%Z.
Definition c31_word : Z := fold_right (fun b v => (b + 256 * v)%Z) 0%Z c31_msg.

Example C31_nonvacuous :
  bitstream true 72 [c31_word] = bitstream true 8 c31_msg /\
  Z.lxor (fst (trace (word_step (mkLc 32 0x04c11db7%Z true false true 8 true)) 0xffffffff%Z c31_msg)) 0xffffffff%Z
    = 0xCBF43926%Z /\
  Z.lxor (fst (trace (word_step (mkLc 32 0x04c11db7%Z true false true 72 false)) 0xffffffff%Z [c31_word])) 0xffffffff%Z
    = 0xCBF43926%Z /\
  lfsr_data (mkLc 7 0x41%Z false false false 16 true) 0x7f%Z 0%Z <> 0%Z.
Proof. vm_compute. repeat split; discriminate. Qed.
