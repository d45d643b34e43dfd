(** C32 and C59: scrambling, self-synchronisation, error propagation and the
    PRBS31 test pattern of the 10GBASE-R PHY. *)
From Verif Require Import Base.Prelude Eth.Lfsr_model Eth.Lfsr_spec Eth.Lfsr_words_proof
  Eth.Phy_model Eth.Phy_spec Eth.Phy_proof Eth.Prbs_proof.
Local Open Scope nat_scope.

(** Any LFSR in feed-forward form started in the same state undoes the
    feedback form word by word and ends in the same state. *)
Theorem C32_inverse : forall c c' s ds, 0 < l_w c ->
  l_w c' = l_w c -> l_poly c' = l_poly c -> l_galois c' = l_galois c ->
  l_rev c' = l_rev c -> l_d c' = l_d c -> l_ff c = false -> l_ff c' = true ->
  (0 <= s < 2 ^ Z.of_nat (l_w c))%Z -> Forall (fun d => 0 <= d < 2 ^ Z.of_nat (l_d c))%Z ds ->
  trace (word_step c') s (snd (trace (word_step c) s ds)) = (fst (trace (word_step c) s ds), ds).
Proof. exact words_inverse. Qed.
Print Assumptions C32_inverse.

(** Transmitter and receiver started in any states, connected by a line that
    flips arbitrary bits: from bit 58 of the stream on, a received bit is the
    sent one, wrong exactly if an odd number of the line bits at distances 0,
    39 and 58 were flipped. *)
Theorem C32_error_propagation : forall c t r is es b,
  0 < y_d c -> tx_ok c t -> rx_ok c r -> length es = length is -> off c is ->
  y_nscr c = false -> 58 <= b -> b / y_d c + (tx_lag t + rx_lag r) < length is ->
  let err := bit_of (y_d c) (fun u => line_data c (nth (u + tx_lag t) es z2)) in
  bit_of (y_d c) (fun u => vec (y_d c) (fst (fst (nth (u + (tx_lag t + rx_lag r))
    (snd (trace (link_step c) (t, r) (combine is es))) z3)))) b =
  xorb (bit_of (y_d c) (fun u => vec (y_d c) (fst (fst (nth u is (z2, false))))) b)
       (xorb (err b) (xorb (err (b - 39)) (err (b - 58)))).
Proof. exact link_scrambled. Qed.
Print Assumptions C32_error_propagation.

(** The header is not scrambled: only its own flipped bits are wrong, from
    the first block on. *)
Theorem C32_header : forall c t r is es u k, length es = length is -> off c is ->
  u + tx_lag t + rx_lag r < length is ->
  nth k (vec (y_h c) (snd (fst (nth (u + tx_lag t + rx_lag r) (snd (trace (link_step c) (t, r) (combine is es))) z3)))) false =
  xorb (nth k (vec (y_h c) (snd (fst (nth u is (z2, false))))) false)
       (nth k (line_hdr c (nth (u + tx_lag t) es z2)) false).
Proof. exact link_header. Qed.
Print Assumptions C32_header.

(** With the scrambler disabled the same holds for the data. *)
Theorem C32_scrambler_disabled : forall c t r is es u k, 0 < y_d c -> length es = length is -> off c is ->
  y_nscr c = true -> u + (tx_lag t + rx_lag r) < length is ->
  nth k (vec (y_d c) (fst (fst (nth (u + (tx_lag t + rx_lag r))
    (snd (trace (link_step c) (t, r) (combine is es))) z3)))) false =
  xorb (nth k (vec (y_d c) (fst (fst (nth u is (z2, false))))) false)
       (nth k (line_data c (nth (u + tx_lag t) es z2)) false).
Proof. exact link_plain. Qed.
Print Assumptions C32_scrambler_disabled.

(** Without line errors the receiver outputs exactly the blocks sent, after
    the fixed latency, from the first block that starts 58 bits into the
    stream, whatever the initial states were. *)
Theorem C32_self_synchronizing : forall c t r is es u,
  0 < y_d c -> tx_ok c t -> rx_ok c r -> length es = length is -> off c is ->
  Forall (fun i => block_ok c (fst i)) is -> Forall (fun e => e = z2) es ->
  y_nscr c = true \/ 58 <= u * y_d c -> u + (tx_lag t + rx_lag r) < length is ->
  fst (nth (u + (tx_lag t + rx_lag r)) (snd (trace (link_step c) (t, r) (combine is es))) z3) =
  fst (nth u is (z2, false)).
Proof. exact link_clean. Qed.
Print Assumptions C32_self_synchronizing.

(** With the test pattern on, the line carries an inverted PRBS31 sequence,
    header bits first. *)
Theorem C59_prbs31_on_the_line : forall c t is b, on c is -> 0 < wd c -> tx_ok c t ->
  31 <= b -> b / wd c + tx_lag t < length is ->
  let p j := negb (bit_of (wd c) (fun u => line_bits c (nth (u + tx_lag t) (snd (trace (tx_step c) t is)) z2)) j) in
  p b = xorb (p (b - 28)) (p (b - 31)).
Proof. exact prbs_line. Qed.
Print Assumptions C59_prbs31_on_the_line.

(** The reported error count of a block is the number of its bits for which an
    odd number of the line bits at distances 0, 28 and 31 were flipped. *)
Theorem C59_error_count : forall c t r is es u,
  0 < wd c -> wd c <= 125 -> tx_ok c t -> rx_ok c r -> length es = length is -> on c is ->
  Forall (block_ok c) es -> 31 <= u * wd c -> S (u + (tx_lag t + rx_lag r)) < length is ->
  let err := bit_of (wd c) (fun v => line_bits c (nth (v + tx_lag t) es z2)) in
  snd (nth (S (u + (tx_lag t + rx_lag r))) (snd (trace (link_step c) (t, r) (combine is es))) z3) =
  Z.of_nat (ones (map (fun k => let b := u * wd c + k in
    xorb (err b) (xorb (err (b - 28)) (err (b - 31)))) (seq 0 (wd c)))).
Proof. exact prbs_count. Qed.
Print Assumptions C59_error_count.

(** A clean line reports no errors once synchronised. *)
Theorem C59_no_false_errors : forall c t r is es u,
  0 < wd c -> wd c <= 125 -> tx_ok c t -> rx_ok c r -> length es = length is -> on c is ->
  Forall (fun e => e = z2) es -> 31 <= u * wd c -> S (u + (tx_lag t + rx_lag r)) < length is ->
  snd (nth (S (u + (tx_lag t + rx_lag r))) (snd (trace (link_step c) (t, r) (combine is es))) z3) = 0%Z.
Proof. exact prbs_clean. Qed.
Print Assumptions C59_no_false_errors.

(** A reversed link with pipelines; the receiver starts in a wrong state and
    one bit is flipped. *)
Definition c32_cfg (p : bool) : phycfg := mkPhy 16 2 true false p.
Definition c32_tx : txif := mkTx 0x3ffffffffffffff%Z 0x7fffffff%Z (5, 1)%Z [(7, 2)%Z].
Definition c32_rx : rxif := mkRx 0x123456789%Z 0x55%Z [(3, 3)%Z; (1, 0)%Z] (0, 0)%Z 0%Z 0%Z 0%Z.
Definition c32_is (p : bool) : list ((Z * Z) * bool) := map (fun i => ((Z.of_nat i * 1234, 2)%Z, p)) (seq 0 16).
Definition c32_es : list (Z * Z) := map (fun i => if i =? 8 then (4, 0)%Z else (0, 0)%Z) (seq 0 16).

Example C32_nonvacuous :
  tx_ok (c32_cfg false) c32_tx /\ rx_ok (c32_cfg false) c32_rx /\ off (c32_cfg false) (c32_is false) /\
  Forall (fun i => block_ok (c32_cfg false) (fst i)) (c32_is false) /\
  tx_lag c32_tx = 2 /\ rx_lag c32_rx = 3 /\
  map fst (skipn 9 (snd (trace (link_step (c32_cfg false)) (c32_tx, c32_rx) (combine (c32_is false) (repeat z2 16))))) =
    firstn 7 (skipn 4 (map fst (c32_is false))) /\
  map (fun p => Z.lxor (fst (fst p)) (snd p))
      (combine (map fst (skipn 9 (snd (trace (link_step (c32_cfg false)) (c32_tx, c32_rx) (combine (c32_is false) c32_es)))))
               (firstn 7 (skipn 4 (map (fun i => fst (fst i)) (c32_is false))))) = [0; 0; 8192; 0; 0; 16; 128]%Z.
Proof.
  unfold tx_ok, rx_ok, off, on, block_ok.
  repeat match goal with |- _ /\ _ => split | |- Forall _ (?f _) => unfold f | |- Forall _ ?l => let x := eval vm_compute in l in change l with x; repeat constructor end;
  vm_compute; try congruence; reflexivity.
Qed.

Example C59_nonvacuous :
  on (c32_cfg true) (c32_is true) /\ Forall (block_ok (c32_cfg true)) c32_es /\
  map snd (skipn 8 (snd (trace (link_step (c32_cfg true)) (c32_tx, c32_rx) (combine (c32_is true) c32_es)))) =
    [0; 0; 0; 0; 1; 0; 2; 0]%Z.
Proof.
  unfold tx_ok, rx_ok, off, on, block_ok.
  repeat match goal with |- _ /\ _ => split | |- Forall _ (?f _) => unfold f | |- Forall _ ?l => let x := eval vm_compute in l in change l with x; repeat constructor end;
  vm_compute; try congruence; reflexivity.
Qed.
