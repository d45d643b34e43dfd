(** Driver rings: completion/event ring polling, TX ring, RX ring and packet
    buffer pool of fpga/common/tb/mqnic.py, composed with the hardware side of
    the ring protocol as an arbitrary environment. *)
From Verif Require Import Base.Prelude.
Local Open Scope Z_scope.

(** ** Pointer registers *)

(** mqnic.py:541, 669 [read_prod_ptr]: [val] is the dword read. *)
Definition read_prod_ptr (prod_ptr val : Z) : Z :=
  prod_ptr + Z.land (Z.land val 65535 - prod_ptr) 65535.

(** mqnic.py:796, 978 [read_cons_ptr]. *)
Definition read_cons_ptr (cons_ptr val : Z) : Z :=
  cons_ptr + Z.land (Z.shiftr val 16 - cons_ptr) 65535.

(** mqnic.py:484-486, 618-620, 721-725, 901-905: [size.bit_length() - 1],
    [2**log_size], [size-1]. *)
Definition ring_log (size : Z) : Z := Z.log2 size.
Definition ring_size (k : Z) : Z := 2 ^ k.
Definition slot (k p : Z) : Z := Z.land p (ring_size k - 1).

(** ** Completion / event records *)

(** The fields of a 32-byte completion record that the driver uses:
    ring index (16 bit), length, and bit 31 of the last dword.
    mqnic.py:828, 1036 ([cpl_data[1]], [cpl_data[2]], [cpl_data[-1]]). *)
Record cpl := mkCpl { c_index : Z; c_len : Z; c_phase : bool }.

(** mqnic.py:566, 833, 1041: "empty" test. *)
Definition cq_empty_at (k : Z) (mem : Z -> cpl) (cons : Z) : bool :=
  Bool.eqb (c_phase (mem (slot k cons))) (negb (Z.land cons (ring_size k) =? 0)).

(** Memory after [self.buf[0:buf_size] = zeros] (mqnic.py:494, 628). *)
Definition zero_cq : Z -> cpl := fun _ => mkCpl 0 0 false.

(** Hardware side: the phase bit written with the record for pointer [p].
    fpga/common/rtl/cpl_queue_manager.v (response phase = complement of bit
    [log_size] of the 16-bit pointer) and cpl_write.v. *)
Definition hw_phase (k p : Z) : bool := negb (Z.testbit (p mod 65536) k).

Inductive drain_result (A : Type) :=
| DrainDone (acc : A) (cons : Z)
| DrainRaise                      (* the handler raised *)
| DrainFuel.                      (* artefact *)
Arguments DrainDone {A}. Arguments DrainRaise {A}. Arguments DrainFuel {A}.

(** The [while True] loops of mqnic.py:827-842 and 1035-1065: read the record
    at the consumer index, stop when the phase says empty, otherwise handle it
    and advance.  There is no [await] inside, so memory is constant. *)
Fixpoint drain {A} (fuel : nat) (k : Z) (mem : Z -> cpl)
  (handle : A -> cpl -> option A) (acc : A) (cons : Z) : drain_result A :=
  match fuel with
  | O => DrainFuel
  | S fuel' =>
      if cq_empty_at k mem cons then DrainDone acc cons
      else match handle acc (mem (slot k cons)) with
           | None => DrainRaise
           | Some acc' => drain fuel' k mem handle acc' (cons + 1)
           end
  end.

(** ** A completion ring shared by hardware and one polling driver task *)

(** [q_hp]: hardware producer pointer; [q_chw]: consumer pointer last written
    to hardware ([write_cons_ptr], mqnic.py:543-544, 671-672); [q_csw]: the
    driver's consumer pointer.  Pointers are kept full width; the hardware's
    16-bit registers hold them mod 65536 (see C04 and the queue manager
    models). *)
Record cqs := mkCq { q_mem : Z -> cpl; q_hp : Z; q_chw : Z; q_csw : Z }.

Definition cq_init : cqs := mkCq zero_cq 0 0 0.

(** Hardware writes the next record unless the ring is full as far as the
    hardware knows. *)
Definition cq_full (k : Z) (q : cqs) : bool := ring_size k <=? q_hp q - q_chw q.

Definition cq_hw_write (k : Z) (q : cqs) (idx len : Z) : cqs :=
  mkCq (zupd (q_mem q) (slot k (q_hp q)) (mkCpl idx len (hw_phase k (q_hp q))))
       (q_hp q + 1) (q_chw q) (q_csw q).

Definition cq_write_cons (q : cqs) : cqs := mkCq (q_mem q) (q_hp q) (q_csw q) (q_csw q).

(** One iteration of the EQ loop (mqnic.py:561-577); the event handler awaits,
    so hardware may write between iterations: each iteration is one step. *)
Definition cq_iter (k : Z) (q : cqs) : cqs * option cpl :=
  if cq_empty_at k (q_mem q) (q_csw q) then (q, None)
  else (mkCq (q_mem q) (q_hp q) (q_chw q) (q_csw q + 1),
        Some (q_mem q (slot k (q_csw q)))).

(** The whole CQ loop in one step (mqnic.py:824-844 without the handler). *)
Definition cq_poll (k : Z) (q : cqs) : cqs * option (list cpl) :=
  match drain (S (Z.to_nat (ring_size k))) k (q_mem q)
          (fun acc r => Some (acc ++ [r])) [] (q_csw q) with
  | DrainDone rs c => (mkCq (q_mem q) (q_hp q) (q_chw q) c, Some rs)
  | _ => (q, None)
  end.

Inductive cq_op :=
| CqHwWrite (idx len : Z)  (* hardware produces a record (dropped if full) *)
| CqIter                   (* driver: one EQ loop iteration *)
| CqPoll                   (* driver: whole CQ loop *)
| CqWriteCons.             (* driver: publish the consumer pointer *)

(** What an observer sees: records produced and records consumed. *)
Inductive cq_obs := ObsProduced (idx len : Z) | ObsFull | ObsGot (rs : list cpl) | ObsStuck | ObsNone.

Definition cq_step (k : Z) (q : cqs) (o : cq_op) : cqs * cq_obs :=
  match o with
  | CqHwWrite idx len =>
      if cq_full k q then (q, ObsFull) else (cq_hw_write k q idx len, ObsProduced idx len)
  | CqIter =>
      let '(q', r) := cq_iter k q in
      (q', ObsGot (match r with Some x => [x] | None => [] end))
  | CqPoll =>
      let '(q', r) := cq_poll k q in
      (q', match r with Some l => ObsGot l | None => ObsStuck end)
  | CqWriteCons => (cq_write_cons q, ObsNone)
  end.

(** ** Packet buffer pool *)

(** mqnic.py:1656-1658, 1780-1791.  Buffers are numbered in the order in which
    [pool.alloc_region] created them; [p_n] is [len(allocated_packets)];
    [p_free] is the deque [free_packets]. *)
Record pool := mkPool { p_n : nat; p_free : list nat }.

Definition pool_init : pool := mkPool 0 [].

(** mqnic.py:1780-1786. *)
Definition alloc_pkt (p : pool) : nat * pool :=
  match p_free p with
  | b :: t => (b, mkPool (p_n p) t)
  | [] => (p_n p, mkPool (S (p_n p)) [])
  end.

(** mqnic.py:1788-1791; [None] models AssertionError ([pkt is not None],
    [pkt in self.allocated_packets]). *)
Definition free_pkt (p : pool) (pkt : option nat) : option pool :=
  match pkt with
  | None => None
  | Some b => if Nat.ltb b (p_n p) then Some (mkPool (p_n p) (p_free p ++ [b])) else None
  end.

(** A history of calls on the pool, with the results the caller sees. *)
Inductive pool_op := PAlloc | PFree (b : nat).
Inductive pool_ret := PGot (b : nat) | PFreed | PAssert.

(** mqnic.py:1780-1791. *)
Definition pool_step (p : pool) (o : pool_op) : pool * pool_ret :=
  match o with
  | PAlloc => let '(b, p') := alloc_pkt p in (p', PGot b)
  | PFree b =>
      match free_pkt p (Some b) with
      | Some p' => (p', PFreed)
      | None => (p, PAssert)
      end
  end.

(** mqnic.py:1656. *)
Definition pkt_buf_size : Z := 16384.

(** ** Descriptors *)

(** A descriptor segment: (length, pointer). *)
Definition seg := (Z * Z)%type.

(** mqnic.py:1532-1535 and 1003-1006: the loop over the remaining [n]
    descriptors of the block; [k < desc_block_size-1] holds except in the last
    iteration. *)
Fixpoint segs_loop (n : nat) (length ptr offset : Z) : list seg :=
  match n with
  | O => []
  | S m =>
      let s := match m with O => length - offset | S _ => Z.min (length - offset) 4096 end in
      (s, if s =? 0 then 0 else ptr + offset) :: segs_loop m length ptr (offset + s)
  end.

(** mqnic.py:1528-1535: TX descriptor block. *)
Definition tx_segs (dbs : nat) (length ptr : Z) : list seg :=
  let s := if Nat.ltb 1 dbs then Z.min length 42 else length in
  (s, if s =? 0 then 0 else ptr) :: segs_loop (dbs - 1) length ptr s.

(** mqnic.py:998-1006: RX descriptor block. *)
Definition rx_segs (dbs : nat) (length ptr : Z) : list seg := segs_loop dbs length ptr 0.

(** mqnic.py:1519-1522: checksum command field. *)
Definition csum_cmd (start offset : option Z) : Z :=
  match start, offset with
  | Some s, Some o => Z.lor (Z.lor 32768 (Z.shiftl o 8)) s
  | _, _ => 0
  end.

(** Host memory: byte address -> byte. *)
Definition memory := Z -> Z.

Fixpoint mem_write (m : memory) (a : Z) (bs : list Z) : memory :=
  match bs with
  | [] => m
  | b :: t => mem_write (zupd m a b) (a + 1) t
  end.

Fixpoint mem_read_nat (m : memory) (a : Z) (n : nat) : list Z :=
  match n with
  | O => []
  | S j => m a :: mem_read_nat m (a + 1) j
  end.

Definition mem_read (m : memory) (a len : Z) : list Z := mem_read_nat m a (Z.to_nat len).

(** What the hardware gathers for a descriptor block: the bytes of each
    segment in order (the DMA of tx_engine.v / desc_op_mux, as environment). *)
Definition gather (m : memory) (segs : list seg) : list Z :=
  flat_map (fun s => mem_read m (snd s) (fst s)) segs.

(** Scattering a received packet over the segments of a descriptor block. *)
Fixpoint scatter (m : memory) (segs : list seg) (data : list Z) : memory :=
  match segs with
  | [] => m
  | (len, ptr) :: t =>
      scatter (mem_write m ptr (firstn (Z.to_nat len) data)) t (skipn (Z.to_nat len) data)
  end.

(** ** TX and RX rings *)

(** Static parameters of a ring: log2 ring size, log2 completion ring size,
    descriptor block size, base address of each packet buffer, MTU limit. *)
Record rparams := mkRP {
  rp_k : Z; rp_kc : Z; rp_dbs : nat; rp_base : nat -> Z; rp_mtu : Z }.

(** Ring state.  [r_info] is [tx_info]/[rx_info]; [r_desc] is the descriptor
    ring memory by slot; [r_mem] host memory (packet buffers).  Hardware side:
    [r_hwprod] the producer pointer last written to hardware; [r_pend] the
    descriptors published and not yet completed; [r_cq] the completion ring.
    [r_err] is set when an assertion in the driver fails.
    Simplification: the ring memory region and the packet buffers are
    disjoint regions (different [alloc_region] results), so they are separate
    components. *)
Record ring := mkRing {
  r_info : Z -> option nat;
  r_prod : Z;
  r_cons : Z;
  r_desc : Z -> list seg;
  r_mem : memory;
  r_pool : pool;
  r_cq : cqs;
  r_hwprod : Z;
  r_pend : list Z;
  r_err : bool }.

Definition ring_init (m : memory) : ring :=
  mkRing (fun _ => None) 0 0 (fun _ => []) m pool_init cq_init 0 [] false.

Definition set_err (r : ring) : ring :=
  mkRing (r_info r) (r_prod r) (r_cons r) (r_desc r) (r_mem r) (r_pool r) (r_cq r)
         (r_hwprod r) (r_pend r) true.

(** mqnic.py:726: [full_size = size >> 1]. *)
Definition full_size (P : rparams) : Z := Z.shiftr (ring_size (rp_k P)) 1.

Fixpoint zrange (n : nat) (a : Z) : list Z :=
  match n with O => [] | S m => a :: zrange m (a + 1) end.

(** Hardware sees the producer pointer ([write_prod_ptr], mqnic.py:798-799,
    980-981): the descriptors up to it become pending. *)
Definition ring_doorbell (r : ring) : ring :=
  mkRing (r_info r) (r_prod r) (r_cons r) (r_desc r) (r_mem r) (r_pool r) (r_cq r)
         (r_prod r) (r_pend r ++ zrange (Z.to_nat (r_prod r - r_hwprod r)) (r_hwprod r)) (r_err r).

(** Hardware completes pending descriptor [p] (in any order) if the
    completion ring has room; the record carries the 16-bit index. *)
Definition ring_complete (P : rparams) (r : ring) (p len : Z) : option ring :=
  if existsb (Z.eqb p) (r_pend r) && negb (cq_full (rp_kc P) (r_cq r)) then
    Some (mkRing (r_info r) (r_prod r) (r_cons r) (r_desc r) (r_mem r) (r_pool r)
            (cq_hw_write (rp_kc P) (r_cq r) (p mod 65536) len)
            (r_hwprod r) (remove Z.eq_dec p (r_pend r)) (r_err r))
  else None.

Definition set_cq (r : ring) (q : cqs) : ring :=
  mkRing (r_info r) (r_prod r) (r_cons r) (r_desc r) (r_mem r) (r_pool r) q
         (r_hwprod r) (r_pend r) (r_err r).

(** mqnic.py:801-804, 983-986 [free_desc]. *)
Definition free_desc (r : ring) (i : Z) : option ring :=
  match free_pkt (r_pool r) (r_info r i) with
  | None => None
  | Some p' =>
      Some (mkRing (zupd (r_info r) i None) (r_prod r) (r_cons r) (r_desc r) (r_mem r) p'
              (r_cq r) (r_hwprod r) (r_pend r) (r_err r))
  end.

(** mqnic.py:847-858, 1070-1081: advance the consumer pointer over freed
    slots; [n] iterations at most ([prod - cons] of them suffice). *)
Fixpoint adv_loop (n : nat) (k : Z) (info : Z -> option nat) (prod c : Z) : Z :=
  match n with
  | O => c
  | S m =>
      if c =? prod then c
      else match info (slot k c) with
           | Some _ => c
           | None => adv_loop m k info prod (c + 1)
           end
  end.

Definition ring_advance (P : rparams) (r : ring) : ring :=
  mkRing (r_info r) (r_prod r)
    (adv_loop (Z.to_nat (r_prod r - r_cons r)) (rp_k P) (r_info r) (r_prod r) (r_cons r))
    (r_desc r) (r_mem r) (r_pool r) (r_cq r) (r_hwprod r) (r_pend r) (r_err r).

(** ** TX *)

(** mqnic.py:1506-1537: the part of [start_xmit] after the space check; no
    await inside, so one atomic step. *)
Definition tx_post (P : rparams) (r : ring) (data : list Z) : ring :=
  let i := slot (rp_k P) (r_prod r) in
  let '(b, p') := alloc_pkt (r_pool r) in
  match r_info r i with
  | Some _ => set_err r
  | None =>
      let ptr := rp_base P b + 10 in
      mkRing (zupd (r_info r) i (Some b)) (r_prod r + 1) (r_cons r)
        (zupd (r_desc r) i (tx_segs (rp_dbs P) (Z.of_nat (length data)) ptr))
        (mem_write (r_mem r) ptr data) p' (r_cq r) (r_hwprod r) (r_pend r) (r_err r)
  end.

(** mqnic.py:812-845 [process_tx_cq], first half (until the await). *)
Definition tx_handle (P : rparams) (r : ring) (c : cpl) : option ring :=
  free_desc r (Z.land (c_index c) (ring_size (rp_k P) - 1)).

Definition tx_poll (P : rparams) (r : ring) : ring :=
  match drain (S (Z.to_nat (ring_size (rp_kc P)))) (rp_kc P) (q_mem (r_cq r))
          (tx_handle P) r (q_csw (r_cq r)) with
  | DrainDone r' c => set_cq r' (mkCq (q_mem (r_cq r)) (q_hp (r_cq r)) (q_chw (r_cq r)) c)
  | _ => set_err r
  end.

Inductive tx_op :=
| TxXmit (data : list Z)      (* driver: start_xmit called / retried *)
| TxDoorbell                  (* the pending write_prod_ptr reaches hardware *)
| TxFetch (p : Z)             (* hardware reads the packet of descriptor p *)
| TxComplete (p : Z)          (* hardware completes descriptor p *)
| TxPoll                      (* driver: process_tx_cq, CQ loop *)
| TxWriteCons                 (* driver: write_cons_ptr reaches hardware *)
| TxClean.                    (* driver: process_tx_cq, ring loop *)

Inductive tx_out :=
| TxRaised                    (* AssertionError to the caller (MTU) *)
| TxBlocked                   (* waits for space *)
| TxPosted                    (* descriptor written *)
| TxFetched (p : Z) (data : list Z)
| TxCompleted (p : Z)
| TxNone.

Definition tx_step (P : rparams) (r : ring) (o : tx_op) : ring * tx_out :=
  match o with
  | TxXmit data =>
      (* mqnic.py:1488 *)
      if negb (Z.of_nat (length data) <? rp_mtu P) then (r, TxRaised)
      (* mqnic.py:1499 *)
      else if r_prod r - r_cons r <? full_size P then (tx_post P r data, TxPosted)
      else (r, TxBlocked)
  | TxDoorbell => (ring_doorbell r, TxNone)
  | TxFetch p =>
      if existsb (Z.eqb p) (r_pend r)
      then (r, TxFetched p (gather (r_mem r) (r_desc r (slot (rp_k P) p))))
      else (r, TxNone)
  | TxComplete p =>
      match ring_complete P r p 0 with
      | Some r' => (r', TxCompleted p)
      | None => (r, TxNone)
      end
  | TxPoll => (tx_poll P r, TxNone)
  | TxWriteCons => (set_cq r (cq_write_cons (r_cq r)), TxNone)
  | TxClean => (ring_advance P r, TxNone)
  end.

(** ** RX *)

(** mqnic.py:994-1006 [prepare_desc] followed by [prod_ptr += 1] (1016). *)
Definition rx_prepare (P : rparams) (r : ring) : ring :=
  let i := slot (rp_k P) (r_prod r) in
  let '(b, p') := alloc_pkt (r_pool r) in
  mkRing (zupd (r_info r) i (Some b)) (r_prod r + 1) (r_cons r)
    (zupd (r_desc r) i (rx_segs (rp_dbs P) pkt_buf_size (rp_base P b)))
    (r_mem r) p' (r_cq r) (r_hwprod r) (r_pend r) (r_err r).

Fixpoint rx_fill (n : nat) (P : rparams) (r : ring) : ring :=
  match n with
  | O => r
  | S m => rx_fill m P (rx_prepare P r)
  end.

(** mqnic.py:1008-1016 [refill_buffers], until the await. *)
Definition rx_refill (P : rparams) (r : ring) : ring :=
  let missing := ring_size (rp_k P) - (r_prod r - r_cons r) in
  if missing <? 8 then r else rx_fill (Z.to_nat missing) P r.

(** mqnic.py:1045-1062: body of the CQ loop: the packet delivered is
    [pkt[:length]] of the buffer in the slot; then the buffer is freed. *)
Definition rx_handle (P : rparams) (rl : ring * list (list Z)) (c : cpl)
  : option (ring * list (list Z)) :=
  let '(r, l) := rl in
  let i := Z.land (c_index c) (ring_size (rp_k P) - 1) in
  match r_info r i with
  | None => None                                     (* pkt is None: pkt[:length] raises *)
  | Some b =>
      let data := mem_read (r_mem r) (rp_base P b) (Z.min (c_len c) pkt_buf_size) in
      match free_desc r i with
      | None => None
      | Some r' => Some (r', l ++ [data])
      end
  end.

Definition rx_poll (P : rparams) (r : ring) : ring * list (list Z) :=
  match drain (S (Z.to_nat (ring_size (rp_kc P)))) (rp_kc P) (q_mem (r_cq r))
          (rx_handle P) (r, []) (q_csw (r_cq r)) with
  | DrainDone (r', l) c =>
      (set_cq r' (mkCq (q_mem (r_cq r)) (q_hp (r_cq r)) (q_chw (r_cq r)) c), l)
  | _ => (set_err r, [])
  end.

Inductive rx_op :=
| RxDoorbell
| RxReceive (p : Z) (data : list Z)  (* hardware: packet into descriptor p, then completion *)
| RxPoll                              (* driver: process_rx_cq, CQ loop *)
| RxWriteCons
| RxClean.                            (* driver: ring loop and refill *)

Inductive rx_out :=
| RxReceived (data : list Z)          (* hardware accepted a packet *)
| RxDelivered (l : list (list Z))     (* appended to pkt_rx_queue *)
| RxNone.

(** Hardware writes the packet into the segments of descriptor [p] and then
    completes it; a packet longer than the buffer is not accepted here
    (the hardware truncates; excluded by the MTU). *)
Definition rx_receive (P : rparams) (r : ring) (p : Z) (data : list Z) : option ring :=
  if Z.of_nat (length data) <=? pkt_buf_size then
    match ring_complete P r p (Z.of_nat (length data)) with
    | None => None
    | Some r' =>
        Some (mkRing (r_info r') (r_prod r') (r_cons r') (r_desc r')
                (scatter (r_mem r') (r_desc r' (slot (rp_k P) p)) data)
                (r_pool r') (r_cq r') (r_hwprod r') (r_pend r') (r_err r'))
    end
  else None.

Definition rx_step (P : rparams) (r : ring) (o : rx_op) : ring * rx_out :=
  match o with
  | RxDoorbell => (ring_doorbell r, RxNone)
  | RxReceive p data =>
      match rx_receive P r p data with
      | Some r' => (r', RxReceived data)
      | None => (r, RxNone)
      end
  | RxPoll => let '(r', l) := rx_poll P r in (r', RxDelivered l)
  | RxWriteCons => (set_cq r (cq_write_cons (r_cq r)), RxNone)
  | RxClean => (rx_refill P (ring_advance P r), RxNone)
  end.

(** mqnic.py:893-933 [Rxq.open]: the ring is filled once at open. *)
Definition rx_open (P : rparams) (m : memory) : ring := rx_refill P (ring_init m).
