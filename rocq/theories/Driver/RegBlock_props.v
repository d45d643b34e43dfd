(** C02, C03: register block enumeration and lookup. *)
From Verif Require Import Base.Prelude Driver.RegBlock_model Driver.RegBlock_spec Driver.RegBlock_proof.
Local Open Scope Z_scope.

(** C02 (Python).  For every register file, enumeration terminates, and its
    result is described by the next-pointer chain: the blocks listed are
    exactly the first n+1 chain elements, all links so far are legal, and the
    method returned iff the last link is 0, raised "not aligned" iff it is
    misaligned, raised "loop" iff it goes back to a listed block. *)
Theorem C02_enumerate_terminates_and_lists_chain : forall regs start,
  dwords regs ->
  exists fuel0, forall fuel, (fuel0 <= fuel)%nat ->
    exists n, legal_upto regs start n /\
      let next := chain regs start (S n) in
      match enumerate fuel regs [] start with
      | EnumDone bs => bs = chain_blocks regs start (S n) /\ next = 0
      | EnumMisaligned bs =>
          bs = chain_blocks regs start (S n) /\ next <> 0 /\ next mod 4 <> 0
      | EnumLoop bs =>
          bs = chain_blocks regs start (S n) /\ next <> 0 /\ next mod 4 = 0 /\
          exists j, (j <= n)%nat /\ chain regs start j = next
      | EnumOutOfFuel => False
      end.
Proof. exact enumerate_correct. Qed.
Print Assumptions C02_enumerate_terminates_and_lists_chain.

(** The chain description determines the outcome, so "raises exactly when". *)
Theorem C02_outcome_determined_by_chain : forall regs start r1 r2,
  enum_describes regs start r1 -> enum_describes regs start r2 -> r1 = r2.
Proof. exact describes_unique. Qed.
Print Assumptions C02_outcome_determined_by_chain.

(** C02 (C driver).  Terminates on every register file; never writes beyond
    the array it grows; lists exactly the chain up to the first zero or
    out-of-range link; reports a loop exactly when a link goes back. *)
Theorem C02_c_enumerate_terminates_and_lists_chain : forall regs size start,
  dwords regs ->
  exists fuel0, forall fuel, (fuel0 <= fuel)%nat ->
    exists n, clegal regs size start n /\
      match cenum fuel regs size start with
      | CDone bs rd => bs = chain_blocks regs start n /\
          rd = flat_map (fun k => [chain regs start k; chain regs start k + 4; chain regs start k + 8]) (seq 0 n) /\
          ((n <> 0%nat /\ chain regs start n = 0) \/ size <= chain regs start n)
      | CLoop => chain regs start n < size /\
          (exists j, (j < n)%nat /\ chain regs start j = chain regs start n)
      | CBadIndex => False
      | COutOfFuel => False
      end.
Proof. exact cenum_correct. Qed.
Print Assumptions C02_c_enumerate_terminates_and_lists_chain.

(** Finding: the C enumeration checks only that the block offset is below
    [size], so a block placed in the last bytes of the window makes it read
    registers beyond the end of the mapped window. *)
Theorem C02_c_reads_stay_in_window_refuted :
  exists regs size, dwords regs /\
    match cenum 5 regs size 0 with
    | CDone _ reads => exists r, In r reads /\ size < r + 4
    | _ => False
    end.
Proof.
  exists (fun a => if a =? 8 then 60 else 0), 64. split.
  - intros a. destruct (a =? 8); lia.
  - vm_compute. exists 68. tauto.
Qed.
Print Assumptions C02_c_reads_stay_in_window_refuted.

(** A three-block register file; and one with a loop. *)
Example C02_nonvacuous :
  let regs := fun a => if a =? 0 then 11 else if a =? 4 then 256 else if a =? 8 then 64
              else if a =? 64 then 22 else if a =? 68 then 1 else if a =? 72 then 32
              else if a =? 32 then 11 else if a =? 36 then 512 else 0 in
  enumerate 10 regs [] 0 = EnumDone [mkRB 0 11 256; mkRB 64 22 1; mkRB 32 11 512] /\
  enumerate 10 (fun a => if a =? 8 then 64 else 0) [] 64 = EnumDone [mkRB 64 0 0] /\
  enumerate 10 (fun a => if a =? 8 then 64 else if a =? 72 then 16 else if a =? 24 then 64 else 0) [] 0
    = EnumLoop [mkRB 0 0 0; mkRB 64 0 0; mkRB 16 0 0] /\
  enumerate 10 (fun a => if a =? 8 then 65 else 0) [] 0 = EnumMisaligned [mkRB 0 0 0].
Proof. vm_compute. tauto. Qed.

(** C03: find returns the index-th matching block. *)
Theorem C03_find_returns_nth_match : forall blocks ty version index,
  find blocks ty version index =
  nth_error
    (filter (fun b => (rb_type b =? ty) &&
               match version with None => true | Some 0 => true | Some v => rb_ver b =? v end) blocks)
    (Z.to_nat index).
Proof. exact find_correct. Qed.
Print Assumptions C03_find_returns_nth_match.

(** The C driver's lookup is the same function (version 0 = unspecified). *)
Theorem C03_c_find_agrees : forall blocks ty version index,
  cfind blocks ty version index = find blocks ty (Some version) index.
Proof. exact cfind_find. Qed.
Print Assumptions C03_c_find_agrees.

Example C03_nonvacuous :
  let bs := [mkRB 0 11 256; mkRB 64 22 1; mkRB 32 11 512; mkRB 96 11 256] in
  find bs 11 (Some 256) 1 = Some (mkRB 96 11 256) /\
  find bs 11 None 1 = Some (mkRB 32 11 512) /\
  find bs 11 (Some 256) 2 = None.
Proof. vm_compute. tauto. Qed.
