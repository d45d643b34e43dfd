(** C38, C39, C41, C51, C52: memory transactions and host memory. *)
From Verif Require Import Base.Prelude Pcie.Tlp_model Pcie.Tlp_spec Pcie.Mem_model Pcie.Mem_spec
  Pcie.Tlp_proof Pcie.Mem_proof Pcie.Host_proof.
Open Scope Z_scope.

(** A 64-byte memory and requests used in the examples. *)
Definition ramp (n : nat) : list Z := map (fun i => Z.of_nat (i mod 256)) (seq 0 n).
Definition tags (k : nat) : Z := Z.of_nat k mod 32.

(** C38: a memory write of any byte string to any address, by a function or by
    the root complex, is cut into packets that are all legal, cover exactly the
    bytes of the string once and in order, and carry them. *)
Theorem C38_writes_tile mx rq attr tc addr data : 0 <= mx -> bytes_ok data ->
  exists ts, mem_write mx rq attr tc addr data = Ok ts /\
    Forall (legal_req (Z.shiftl 128 mx) true) ts /\ carries addr ts data /\
    tiles addr ts (addr + Z.of_nat (length data)).
Proof. exact (@mem_write_ok mx rq attr tc addr data). Qed.
Print Assumptions C38_writes_tile.
Example C38_writes_tile_nonvacuous :
  exists ts, mem_write 0 pid0 0 0 0xffffff85 (ramp 300) = Ok ts /\
   map t_addr ts = [0xffffff84; 0x100000000; 0x100000080] /\ map t_length ts = [31; 32; 13] /\
   map t_fmt ts = [2; 3; 3] /\ map t_first_be ts = [14; 15; 15] /\ map t_last_be ts = [15; 15; 1].
Proof. eexists. split; [vm_compute; reflexivity|]. vm_compute. splits; reflexivity. Qed.

(** C38: a memory read by the root complex from any completer that answers
    legal requests sends only legal requests, that cover exactly the range once and
    in order, and returns the bytes of the range. *)
Theorem C38_root_reads_tile mrrs mx base mem resp rq attr tc tag addr len : 0 <= mrrs ->
  completer mx base mem resp -> base mod 4 = 0 -> Z.of_nat (length mem) mod 4 = 0 ->
  0 <= len -> base <= addr -> addr + len <= base + Z.of_nat (length mem) ->
  exists ts, rc_mem_read mrrs rq attr tc tag resp addr len = Ok (ts, slice mem (addr - base) (addr - base + len)) /\
    Forall (legal_req (Z.shiftl 128 mrrs) false) ts /\ tiles addr ts (addr + len).
Proof. exact (@rc_mem_read_ok mrrs mx base mem resp rq attr tc tag addr len). Qed.
Print Assumptions C38_root_reads_tile.
Example C38_root_reads_tile_nonvacuous :
  exists ts, rc_mem_read 0 pid0 0 0 tags
      (fun t => sent (ep_mem_read 0 pid0 (Some (0x1000, ramp 1024)) t)) 0x1003 300 =
      Ok (ts, slice (ramp 1024) 3 303) /\ length ts = 3%nat.
Proof. eexists. split; [vm_compute; reflexivity|]. reflexivity. Qed.

(** C38: a memory read by a function works when one request is enough ... *)
Theorem C38_function_read_partial mrrs mx base mem resp rq attr tc tag addr len : 0 <= mrrs ->
  completer mx base mem resp -> base mod 4 = 0 -> Z.of_nat (length mem) mod 4 = 0 ->
  0 <= len -> base <= addr -> addr + len <= base + Z.of_nat (length mem) ->
  (0 < len -> chunk_len mrrs addr len = len) ->
  exists ts, function_mem_read mrrs rq attr tc tag resp addr len =
      Ok (ts, slice mem (addr - base) (addr - base + len)).
Proof. exact (@function_read_one mrrs mx base mem resp rq attr tc tag addr len). Qed.
Print Assumptions C38_function_read_partial.
(** ... and never otherwise: the first request asks for the whole length, so that
    answering it fails the byte count assertion, and discarding it times out. *)
Theorem C38_function_read_refuted mrrs mx base mem resp rq attr tc tag addr len : 0 <= mrrs ->
  completer mx base mem resp -> 0 < len -> chunk_len mrrs addr len < len ->
  let t := set_be (new_req false addr rq (tag 0%nat) attr tc) addr len in
  (exists id data, answers mx t id (addr mod 4) len data (resp t)) \/ resp t = [] ->
  function_mem_read mrrs rq attr tc tag resp addr len = Raise EAssert \/
  function_mem_read mrrs rq attr tc tag resp addr len = Raise ETimeout.
Proof. exact (@function_read_many mrrs mx base mem resp rq attr tc tag addr len). Qed.
Print Assumptions C38_function_read_refuted.
Example C38_function_read_nonvacuous :
  let rs := [mkRegion 0 1024 (ramp 1024)] in
  let resp t := sent (rc_handle_read 0 rs t) in
  chunk_len 2 0 512 = 512 /\ chunk_len 2 0 600 = 512 /\
  (exists ts, function_mem_read 2 pid0 0 0 tags resp 0 512 = Ok (ts, slice (ramp 1024) 0 512)) /\
  function_mem_read 2 pid0 0 0 tags resp 0 600 = Raise EAssert /\
  function_mem_read 2 pid0 0 0 tags (fun t => sent (rc_handle_read 0 [mkRegion 0 8192 (ramp 8192)] t)) 4000 200
    = Raise ETimeout.
Proof. cbv zeta. split; [reflexivity|]. split; [reflexivity|].
  split; [eexists; vm_compute; reflexivity|]. vm_compute. split; reflexivity. Qed.

(** C39: for any request (any address, length and byte enables) and any maximum
    payload size the completions, put together, are the requested dwords; each
    is within the payload size, has the right byte count and lower address and,
    but for the last, ends at a 128-byte boundary. *)
Theorem C39_completions_answer mps t id data : 0 <= mps -> t_addr t mod 4 = 0 -> 1 <= t_length t ->
  bytes_ok data -> Z.of_nat (length data) = 4 * t_length t ->
  exists cs, completions mps t id data = Ok cs /\
    answers (Z.shiftl 128 mps) t id (first_be_offset t) (be_byte_count t) data cs.
Proof. exact (@completions_be mps t id data). Qed.
Print Assumptions C39_completions_answer.
Example C39_completions_nonvacuous :
  let t := set_be (new_req false 0x1043 pid0 5 0 0) 0x1043 200 in
  exists cs, completions 0 t pid0 (ramp 204) = Ok cs /\
    map t_length cs = [16; 32; 3] /\ map t_byte_count cs = [200; 139; 11] /\ map t_lower cs = [0x43; 0; 0].
Proof. cbv zeta. eexists. split; [vm_compute; reflexivity|]. vm_compute. splits; reflexivity. Qed.

(** C39: a requester reassembles exactly the requested bytes from completions cut
    in any legal way. *)
Theorem C39_reassembly mx t id lo cnt data cs : t_addr t mod 4 = 0 -> 0 <= lo < 4 -> 1 <= cnt ->
  4 * t_length t - 4 < lo + cnt <= 4 * t_length t ->
  answers mx t id lo cnt data cs ->
  read_cpls cs cnt 0 = Ok (slice data lo (lo + cnt)).
Proof. exact (@read_cpls_ok mx t id lo cnt data cs). Qed.
Print Assumptions C39_reassembly.

(** C39: the memory behind an endpoint's BAR and the host memory are completers in
    the sense used by the theorems above: they answer every legal request. *)
Theorem C39_endpoint_is_completer mps id base mem : 0 <= mps -> bytes_ok mem -> base mod 4 = 0 ->
  Z.of_nat (length mem) mod 4 = 0 -> page_ok base mem ->
  completer (Z.shiftl 128 mps) base mem (fun t => sent (ep_mem_read mps id (Some (base, mem)) t)).
Proof. exact (@ep_completer mps id base mem). Qed.
Print Assumptions C39_endpoint_is_completer.
Theorem C39_host_is_completer mps rs r : 0 <= mps -> wf_regions rs -> In r rs -> bytes_ok (r_mem r) ->
  completer (Z.shiftl 128 mps) (r_base r) (r_mem r) (fun t => sent (rc_handle_read mps rs t)).
Proof. exact (@rc_completer mps rs r). Qed.
Print Assumptions C39_host_is_completer.

(** C41: with even sizes, successive allocations give regions of those sizes that
    do not overlap; an address in a region resolves to it and no other address
    resolves.  ([lg] stands for the rounded-up binary logarithm the code computes in
    floating point; only [1 <= lg n] is used.) *)
Theorem C41_regions_disjoint lg sizes :
  Forall (fun n => 2 <= n /\ n mod 2 = 0 /\ 1 <= lg n) sizes ->
  let rs := rc_regions (alloc_all lg sizes rc_empty) in
  wf_regions rs /\ map r_size rs = sizes /\
  (forall r b, In r rs -> within r b -> find_region rs b = Some r) /\
  (forall b r, find_region rs b = Some r -> In r rs /\ within r b).
Proof. exact (@c41_alloc lg sizes). Qed.
Print Assumptions C41_regions_disjoint.
(** C41: every region starts at a multiple of its size rounded up to a power of two. *)
Theorem C41_regions_aligned lg s n : 0 <= lg n -> snd (alloc_region lg s n) mod 2 ^ lg n = 0.
Proof. exact (@c41_aligned lg s n). Qed.
Print Assumptions C41_regions_aligned.
Example C41_nonvacuous :
  map r_base (rc_regions (alloc_all Z.log2_up [4096; 10; 1024; 2] rc_empty)) = [0; 4096; 5120; 6144] /\
  Forall (fun n => 2 <= n /\ n mod 2 = 0 /\ 1 <= Z.log2_up n) [4096; 10; 1024; 2].
Proof. split; [vm_compute; reflexivity|]. repeat (constructor; [vm_compute; intuition congruence|]). constructor. Qed.
(** C41: with odd sizes regions can overlap (the limit kept is the last address of a
    region, not the one after it). *)
Theorem C41_odd_sizes_overlap_refuted :
  exists sizes, Forall (fun n => 1 <= n) sizes /\
    let rs := rc_regions (alloc_all Z.log2_up sizes rc_empty) in
    exists r1 r2 b, nth_error rs 0 = Some r1 /\ nth_error rs 1 = Some r2 /\ within r1 b /\ within r2 b.
Proof.
  exists [3; 2]. split; [repeat constructor; lia|]. cbv zeta.
  do 3 eexists. split; [vm_compute; reflexivity|]. split; [vm_compute; reflexivity|].
  unfold within. cbn [r_base r_size]. instantiate (1 := 2). lia.
Qed.
Print Assumptions C41_odd_sizes_overlap_refuted.

(** C51: a write request with any byte enables (contiguous or not, empty or not)
    changes exactly the bytes it enables and leaves every other byte alone. *)
Theorem C51_write_enables_exact base mem t :
  1 <= t_length t -> t_length t = Z.of_nat (length (t_data t)) ->
  (forall b, touches t b = true -> base <= b < base + Z.of_nat (length mem)) ->
  4 * t_length t <= 4096 - (t_addr t - base) mod 4096 ->
  length (ep_mem_write base mem t) = length mem /\
  forall b, at_ (ep_mem_write base mem t) (b - base) =
    if touches t b then byte_at t b else at_ mem (b - base).
Proof. exact (@ep_write_ok base mem t). Qed.
Print Assumptions C51_write_enables_exact.
Example C51_nonvacuous :
  let t := mkTlp 2 0 0 0 0 0 0 0 3 pid0 0 0 0 pid0 pid0 0 5 10 0 0x1004 0 [0x44434241; 0x48474645; 0x4c4b4a49] in
  ep_mem_write 0x1000 (ramp 16) t = [0;1;2;3; 0x41;5;0x43;7; 0x45;0x46;0x47;0x48; 12;0x4a;14;0x4c].
Proof. vm_compute. reflexivity. Qed.

(** C52: writing a byte string to an endpoint's memory changes exactly that range ... *)
Theorem C52_endpoint_write_exact mx rq attr tc addr data base mem : 0 <= mx -> bytes_ok data ->
  base mod 4 = 0 -> Z.of_nat (length mem) mod 4 = 0 -> page_ok base mem ->
  base <= addr -> addr + Z.of_nat (length data) <= base + Z.of_nat (length mem) ->
  exists ts, mem_write mx rq attr tc addr data = Ok ts /\
    fold_left (ep_mem_write base) ts mem = splice mem (addr - base) data.
Proof. exact (@ep_write_stream mx rq attr tc addr data base mem). Qed.
Print Assumptions C52_endpoint_write_exact.
(** ... and reading it back returns the string, whatever the payload and request
    size limits on either side. *)
Theorem C52_write_then_read mx mrrs mps rq attr tc attr' tc' tag id addr data base mem :
  0 <= mx -> 0 <= mrrs -> 0 <= mps -> bytes_ok data -> bytes_ok mem ->
  base mod 4 = 0 -> Z.of_nat (length mem) mod 4 = 0 -> page_ok base mem ->
  base <= addr -> addr + Z.of_nat (length data) <= base + Z.of_nat (length mem) ->
  exists ts, mem_write mx rq attr tc addr data = Ok ts /\
    let mem' := fold_left (ep_mem_write base) ts mem in
    exists rs, rc_mem_read mrrs rq attr' tc' tag
      (fun t => sent (ep_mem_read mps id (Some (base, mem')) t)) addr (Z.of_nat (length data)) = Ok (rs, data).
Proof. exact (@write_then_read mx mrrs mps rq attr tc attr' tc' tag id addr data base mem). Qed.
Print Assumptions C52_write_then_read.
Example C52_nonvacuous :
  exists ts, mem_write 0 pid0 0 0 0x1f05 (ramp 300) = Ok ts /\ length ts = 3%nat /\
    slice (fold_left (ep_mem_write 0x1000) ts (ramp 8192)) 0xf05 (0xf05 + 300) = ramp 300.
Proof. eexists. split; [vm_compute; reflexivity|]. vm_compute. split; reflexivity. Qed.

(** C52: a function writing to host memory (DMA write) changes exactly the bytes of
    the range, in whichever region it lies, and no other byte of any region. *)
Theorem C52_host_write_exact mx rq attr tc addr data rs r : 0 <= mx -> bytes_ok data -> data <> [] ->
  wf_regions rs -> find_region rs addr = Some r -> r_base r mod 4 = 0 ->
  addr + Z.of_nat (length data) <= r_base r + r_size r ->
  exists ts rs', mem_write mx rq attr tc addr data = Ok ts /\ host_after rs ts = Ok rs' /\ wf_regions rs' /\
    forall b, host_byte rs' b = if (addr <=? b) && (b <? addr + Z.of_nat (length data))
                                then nth_error data (Z.to_nat (b - addr)) else host_byte rs b.
Proof. exact (@host_write_stream mx rq attr tc addr data rs r). Qed.
Print Assumptions C52_host_write_exact.
Example C52_host_nonvacuous :
  let rs := rc_regions (alloc_all Z.log2_up [64; 512] rc_empty) in
  exists ts rs', mem_write 0 pid0 0 0 0x203 (ramp 200) = Ok ts /\ host_after rs ts = Ok rs' /\
    (exists r, find_region rs 0x203 = Some r /\ r_base r = 0x200 /\ r_size r = 512) /\
    host_byte rs' 0x2ca = Some 199 /\ host_byte rs' 0x2cb = Some 0 /\ host_byte rs' 63 = Some 0.
Proof.
  cbv zeta. do 2 eexists. split; [vm_compute; reflexivity|]. split; [vm_compute; reflexivity|].
  split; [eexists; split; [vm_compute; reflexivity|split; reflexivity]|]. vm_compute. splits; reflexivity.
Qed.
