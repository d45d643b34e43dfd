(** Memory transactions of the PCIe simulation model: requesters, completers and
    host memory regions, fpga/lib/pcie/tb/pcie.py. *)
From Verif Require Import Base.Prelude Pcie.Tlp_model.
Open Scope Z_scope.

(** Python [l[a:b]] for [0 <= a]. *)
Definition slice {A} (l : list A) (a b : Z) : list A :=
  firstn (Z.to_nat (b - a)) (skipn (Z.to_nat a) l).
(** Python [l[a:a+len(d)] = d] on a bytearray, [0 <= a]. *)
Definition splice {A} (l : list A) (a : Z) (d : list A) : list A :=
  firstn (Z.to_nat a) l ++ d ++ skipn (Z.to_nat a + length d) l.

(** A new request TLP: pcie.py 1986-1994 (Function.mem_read), 3975-3983
    (RootComplex.mem_read), 2071-2078 (Function.mem_write), 4062-4069
    (RootComplex.mem_write).  64-bit formats above 4 GiB. *)
Definition new_req (wr : bool) (addr : Z) (rq : pid) (tag attr tc : Z) : tlp :=
  let f := if addr >? 0xffffffff
           then (if wr then FMT_4DW_DATA else FMT_4DW)
           else (if wr then FMT_3DW_DATA else FMT_3DW) in
  mkTlp f 0 tc 0 0 0 attr 0 0 pid0 0 0 0 rq pid0 tag 0 0 0 0 0 [].

(** pcie.py 1996-1999, 2080-2083, 3985-3988, 4071-4074: number of bytes of the
    next request; [mx] is max_read_request_size or max_payload_size. *)
Definition chunk_len (mx addr remaining : Z) : Z :=
  let first_pad := addr mod 4 in
  let byte_length := remaining in
  let byte_length := Z.min byte_length (Z.shiftl 128 mx - first_pad) in
  Z.min byte_length (0x1000 - Z.land addr 0xfff).

(** pcie.py 2063-2089 (Function.mem_write, bus mastering enabled) and 4054-4080
    (RootComplex.mem_write, address outside host memory): the packets sent. *)
Fixpoint write_loop (fuel : nat) (mx : Z) (rq : pid) (attr tc addr : Z) (data : list Z)
  : res (list tlp) :=
  match fuel with
  | O => Raise ELoop
  | S fuel =>
      if 0 <? Z.of_nat (length data) then
        let n := chunk_len mx addr (Z.of_nat (length data)) in
        bind (set_be_data (new_req true addr rq 0 attr tc) addr (slice data 0 n)) (fun t =>
        bind (write_loop fuel mx rq attr tc (addr + n) (skipn (Z.to_nat n) data)) (fun ts =>
        Ok (t :: ts)))
      else Ok []
  end.
Definition mem_write (mx : Z) (rq : pid) (attr tc addr : Z) (data : list Z) : res (list tlp) :=
  write_loop (S (length data)) mx rq attr tc addr data.

(** pcie.py 2003-2024 and 3994-4015: collect the completions [cs] of one
    request of [byte_length] bytes, [m] received so far; an empty [cs] stands
    for no further completion arriving. *)
Fixpoint read_cpls (cs : list tlp) (byte_length m : Z) : res (list Z) :=
  if m <? byte_length then
    match cs with
    | [] => Raise ETimeout
    | c :: cs =>
        if negb (t_status c =? 0) then Raise EStatus
        else if negb (t_byte_count c + 3 + Z.land (t_lower c) 3 >=? t_length c * 4) then Raise EAssert
        else if negb (t_byte_count c =? byte_length - m) then Raise EAssert
        else if Z.of_nat (length (t_data c)) <? t_length c then Raise EIndex
        else
          let d := flat_map le_bytes (firstn (Z.to_nat (t_length c)) (t_data c)) in
          let offset := Z.land (t_lower c) 3 in
          bind (read_cpls cs byte_length (m + Z.of_nat (length d) - offset)) (fun r =>
          Ok (slice d offset (offset + t_byte_count c) ++ r))
    end
  else Ok [].

(** pcie.py 1976-2029 (Function.mem_read, [whole = true]: set_be is called with
    the whole length) and 3967-4020 (RootComplex.mem_read, address outside host
    memory, [whole = false]).  [resp t] are the completions that arrive for
    request [t]; [tag k] is the tag chosen for the [k]-th request (the free-tag
    search is not part of this definition).  The result pairs the requests sent
    with the data. *)
Fixpoint read_loop (fuel : nat) (whole : bool) (mx : Z) (rq : pid) (attr tc : Z) (tag : nat -> Z)
  (k : nat) (resp : tlp -> list tlp) (total addr remaining : Z) : res (list tlp * list Z) :=
  match fuel with
  | O => Raise ELoop
  | S fuel =>
      if 0 <? remaining then
        let n := chunk_len mx addr remaining in
        let t := set_be (new_req false addr rq (tag k) attr tc) addr (if whole then total else n) in
        bind (read_cpls (resp t) n 0) (fun d =>
        bind (read_loop fuel whole mx rq attr tc tag (S k) resp total (addr + n) (remaining - n)) (fun r =>
        Ok (t :: fst r, d ++ snd r)))
      else Ok ([], [])
  end.
Definition function_mem_read mx rq attr tc tag resp addr len :=
  read_loop (S (Z.to_nat len)) true mx rq attr tc tag 0 resp len addr len.
Definition rc_mem_read mx rq attr tc tag resp addr len :=
  read_loop (S (Z.to_nat len)) false mx rq attr tc tag 0 resp len addr len.

(** pcie.py 2381-2409 (MemoryEndpoint) and 3545-3573 (RootComplex): the
    completions for request [t] given the data read; [m] dwords and [n] bytes
    completed, [addr] the next byte address. *)
Fixpoint cpl_loop (fuel : nat) (mps : Z) (t : tlp) (id : pid) (data : list Z) (m n addr : Z)
  : res (list tlp) :=
  match fuel with
  | O => Raise ELoop
  | S fuel =>
      if m <? t_length t then
        let cpl := cpl_data_for t id in
        let dw := t_length t - m in
        let bc := be_byte_count t - n in
        let dw := if dw >? Z.shiftl 32 mps
                  then Z.shiftl 32 mps - Z.shiftr (Z.land addr 0x7c) 2 else dw in
        let lower := Z.land addr 0x7f in
        let '(mkTlp f ty tc th td ep at1 at2 le co st bcm _ rq de tag fb lb _ ad rn da) := cpl in
        bind (set_data (mkTlp f ty tc th td ep at1 at2 le co st bcm bc rq de tag fb lb lower ad rn da)
                       (slice data (m * 4) ((m + dw) * 4))) (fun c =>
        bind (cpl_loop fuel mps t id data (m + dw) (n + (dw * 4 - Z.land addr 3))
                       (addr + (dw * 4 - Z.land addr 3))) (fun cs =>
        Ok (c :: cs)))
      else Ok []
  end.
Definition completions (mps : Z) (t : tlp) (id : pid) (data : list Z) : res (list tlp) :=
  cpl_loop (S (Z.to_nat (t_length t))) mps t id data 0 0 (t_addr t + first_be_offset t).

(** pcie.py 439-452 with status UR, no data. *)
Definition ur_cpl (t : tlp) (completer : pid) : tlp :=
  let '(mkTlp _ _ tc _ _ _ attr _ _ _ _ _ _ rq _ tag _ _ _ _ _ _) := t in
  mkTlp FMT_3DW 0x0A tc 0 0 0 attr 0 0 completer 1 0 0 rq pid0 tag 0 0 0 0 0 [].

(** pcie.py 2364-2420: MemoryEndpoint.handle_mem_read_tlp; [m] is the result of
    matching the address against the BARs (BAR base address and the bytearray
    behind it); regions with callbacks are not modelled. *)
Definition ep_mem_read (mps : Z) (id : pid) (m : option (Z * list Z)) (t : tlp) : res (list tlp) :=
  match m with
  | Some (base, mem) =>
      let addr := t_addr t - base in
      if t_length t * 4 >? 0x1000 - Z.land addr 0xfff then Ok []
      else completions mps t id (slice mem addr (addr + t_length t * 4))
  | None => Ok [ur_cpl t id]
  end.

(** pcie.py 2444-2453 and 2465-2474 (MemoryEndpoint), 3606-3615 and 3627-3636
    (RootComplex): one byte enable; the state is (start_offset, offset, region
    writes so far, relative to the request address, latest last). *)
Definition scan_st := (option Z * Z * list (Z * list Z))%type.
Definition be_step (data : list Z) (mask : Z) (st : scan_st) (k : Z) : scan_st :=
  let '(start, offset, w) := st in
  if Z.testbit mask k
  then (match start with None => Some offset | Some s => Some s end, offset + 1, w)
  else (None, offset + 1,
        match start with
        | Some s => if negb (offset =? s) then w ++ [(s, slice data s offset)] else w
        | None => w
        end).
(** pcie.py 2430-2477 (MemoryEndpoint) and 3593-3639 (RootComplex): the slices of
    the region written for request [t]. *)
Definition be_writes (t : tlp) : list (Z * list Z) :=
  let data := get_data t in
  let st := fold_left (be_step data (t_first_be t)) [0; 1; 2; 3] (None, 0, []) in
  let st := if t_length t >? 2 then
              let '(start, offset, w) := st in
              (match start with None => Some offset | Some s => Some s end,
               offset + (t_length t - 2) * 4, w)
            else st in
  let st := if t_length t >? 1 then fold_left (be_step data (t_last_be t)) [0; 1; 2; 3] st else st in
  let '(start, offset, w) := st in
  match start with
  | Some s => if negb (offset =? s) then w ++ [(s, slice data s offset)] else w
  | None => w
  end.

(** pcie.py 2422-2484: MemoryEndpoint.handle_mem_write_tlp on the bytearray
    behind the matching BAR. *)
Definition ep_mem_write (base : Z) (mem : list Z) (t : tlp) : list Z :=
  let addr := t_addr t - base in
  if t_length t * 4 >? 0x1000 - Z.land addr 0xfff then mem
  else fold_left (fun mem w => splice mem (addr + fst w) (snd w)) (be_writes t) mem.

(** A host memory region (addr, size, mmap), pcie.py 3289-3290; regions backed by
    functions are not modelled. *)
Record region := mkRegion { r_base : Z; r_size : Z; r_mem : list Z }.
(** pcie.py 3310-3314: find_region. *)
Definition in_region (a : Z) (r : region) : bool := (r_base r <=? a) && (a <? r_base r + r_size r).
Definition find_region (rs : list region) (a : Z) : option region := find (in_region a) rs.
(** pcie.py 3322-3328: RootComplex.read_region. *)
Definition rc_read (rs : list region) (a len : Z) : res (list Z) :=
  match find_region rs a with
  | None => Raise EAddr
  | Some r => let off := a - r_base r in Ok (slice (r_mem r) off (off + len))
  end.
(** pcie.py 3335-3341: RootComplex.write_region; assigning a slice of an mmap of
    another size than the data raises IndexError. *)
Fixpoint rc_write (rs : list region) (a : Z) (d : list Z) : res (list region) :=
  match rs with
  | [] => Raise EAddr
  | r :: rs =>
      if in_region a r then
        let off := a - r_base r in
        if Z.of_nat (length (r_mem r)) <? off + Z.of_nat (length d) then Raise EIndex
        else Ok (mkRegion (r_base r) (r_size r) (splice (r_mem r) off d) :: rs)
      else bind (rc_write rs a d) (fun rs => Ok (r :: rs))
  end.
(** pcie.py 3528-3584: RootComplex.handle_mem_read_tlp. *)
Definition rc_handle_read (mps : Z) (rs : list region) (t : tlp) : res (list tlp) :=
  match find_region rs (t_addr t) with
  | Some _ =>
      if t_length t * 4 >? 0x1000 - Z.land (t_addr t) 0xfff then Ok []
      else bind (rc_read rs (t_addr t) (t_length t * 4)) (fun d => completions mps t pid0 d)
  | None => Ok [ur_cpl t pid0]
  end.
(** pcie.py 3586-3645: RootComplex.handle_mem_write_tlp. *)
Definition rc_handle_write (rs : list region) (t : tlp) : res (list region) :=
  match find_region rs (t_addr t) with
  | Some _ =>
      if t_length t * 4 >? 0x1000 - Z.land (t_addr t) 0xfff then Ok rs
      else fold_left (fun r w => bind r (fun rs => rc_write rs (t_addr t + fst w) (snd w)))
                     (be_writes t) (Ok rs)
  | None => Ok rs
  end.

(** pcie.py 143-147 (align), 3282-3294: alloc_region for a memory region;
    [lg] is [math.ceil(math.log(size, 2))], computed in floating point by the
    code and left as a parameter; the mmap starts zeroed. *)
Definition align_up (v mask : Z) : Z :=
  if Z.land v mask =? 0 then v else v + mask + 1 - Z.land v mask.
Record rc_mem := mkRc { rc_limit : Z; rc_regions : list region }.
Definition alloc_region (lg : Z -> Z) (s : rc_mem) (size : Z) : rc_mem * Z :=
  let addr := align_up (rc_limit s) (2 ^ lg size - 1) in
  (mkRc (addr + size - 1)
        (rc_regions s ++ [mkRegion addr size (repeat 0 (Z.to_nat size))]), addr).
