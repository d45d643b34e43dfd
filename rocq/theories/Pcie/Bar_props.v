(** Properties C53, C54: base address registers and masked register writes. *)
From Verif Require Import Base.Prelude Base.Bits Pcie.Mem_model Pcie.Bar_model Pcie.Bar_spec Pcie.Bar_proof Pcie.Bar_run.
Open Scope Z_scope.

(** A masked write changes exactly the writable bits of the enabled bytes. *)
Theorem C54_masked_write_exact : forall old mask new writable i, 0 <= mask -> 0 <= i ->
  Z.testbit (byte_mask_update old mask new writable) i =
  if Z.testbit mask (i / 8) && Z.testbit writable i then Z.testbit new i else Z.testbit old i.
Proof. exact bmu_bits. Qed.
Print Assumptions C54_masked_write_exact.
Example C54_masked_write_nonvacuous : byte_mask_update 0x11223344 0x5 0xaabbccdd 0xfffffff0 = 0x11bb33d4.
Proof. vm_compute. reflexivity. Qed.

(** Declaring regions of 2^k bytes on a fresh function gives the registers and writable
    bits the specification asks for. *)
Theorem C53_configured : forall lg ds rest,
  Forall (fun p => wf_decl (fst p) /\ (fst p = Unused \/ lg (snd p) = lgsize (fst p))) ds ->
  let bare := map (fun p => (fst p, 0)) ds in
  configure_all lg (mkFunc (map fst (repeat (0, 0) (length (layout bare) + rest)))
                           (map snd (repeat (0, 0) (length (layout bare) + rest)))) 0 ds =
  Some (mkFunc (map fst (layout bare ++ repeat (0, 0) rest)) (map snd (layout bare ++ repeat (0, 0) rest))).
Proof. exact (fun lg ds rest => @configure_run lg ds [] rest). Qed.
Print Assumptions C53_configured.
Example C53_configured_nonvacuous :
  configure_all Z.log2_up (mkFunc [0; 0; 0; 0; 0; 0] [0; 0; 0; 0; 0; 0]) 0
    [(Mem64 24 true, 2 ^ 24); (Mem32 12 false, 4096); (Io 8, 200)] =
  Some (mkFunc [12; 0; 0; 1; 0; 0] [0xff000000; 0xffffffff; 0xfffff000; 0xffffff00; 0; 0]).
Proof. vm_compute. reflexivity. Qed.

(** Enumerating a function with any declared regions, whatever its registers held
    before: each region gets the next base aligned to its size in the space of its kind, no
    two regions of a space meet, nothing below the starting limit or above the final one is
    given out.  If the spaces suffice, the registers hold those bases afterwards, and an
    address in a memory region is matched by that register alone, at its offset. *)
Theorem C53_enumeration : forall ps lim,
  Forall (fun p => wf_decl (fst p)) ps -> Forall aligned ps -> Forall fits_reg ps -> nonneg lim ->
  let ps' := fst (assign lim (map fst ps)) in let lim' := snd (assign lim (map fst ps)) in
    map fst ps' = map fst ps /\
    (forall i d b s, placed ps' i d b -> space_of d = Some s ->
       b mod size d = 0 /\ limit_of lim s <= b /\ b + size d <= limit_of lim' s) /\
    (forall i j d d' b b' s, placed ps' i d b -> placed ps' j d' b' -> i <> j ->
       space_of d = Some s -> space_of d' = Some s -> apart_regions b (size d) b' (size d')) /\
    (fits lim' ->
     enum_bars (S (length (layout ps))) 0 (length (layout ps)) (func_of ps) lim =
       Some (func_of ps', lim', report 0 ps') /\
     (l_mem lim' <= l_pf lim -> forall i d b addr, placed ps' i d b -> is_mem d = true -> b <= addr < b + size d ->
        (forall j d' b', placed ps' j d' b' -> moderate addr d') ->
        match_bar (func_of ps') addr false = Some [(i, addr - b)])).
Proof. exact enumeration. Qed.
Print Assumptions C53_enumeration.
Example C53_enumeration_nonvacuous :
  let ps := [(Mem64 24 true, 0); (Mem32 12 false, 0); (Io 8, 0x100); (Unused, 0); (Mem32 20 true, 0)] in
  enum_bars 7 0 6 (func_of ps) (mkLim 0x80000040 0x80000000 0x800000000000) =
    Some (mkFunc [12; 0x8000; 0x80000000; 0x80000101; 0; 0x80100008]
                 [0xff000000; 0xffffffff; 0xfffff000; 0xffffff00; 0; 0xfff00000],
          mkLim 0x80000200 0x80200000 0x800001000000,
          [(0%nat, 0x80000000000c, 2 ^ 24); (2%nat, 0x80000000, 4096); (3%nat, 0x80000101, 256);
           (5%nat, 0x80100008, 2 ^ 20)]) /\
  match_bar (mkFunc [12; 0x8000; 0x80000000; 0x80000101; 0; 0x80100008]
                 [0xff000000; 0xffffffff; 0xfffff000; 0xffffff00; 0; 0xfff00000]) 0x80100abc false = Some [(5%nat, 0xabc)].
Proof. split; vm_compute; reflexivity. Qed.

(** A 64-bit region of 4 GiB or more never matches: its low register has no writable
    bits and is taken for an unused one. *)
Theorem C53_large_region_refuted :
  ~ (forall ps i d b addr, Forall (fun p => wf_decl (fst p)) ps -> Forall aligned ps -> Forall fits_reg ps ->
       placed ps i d b -> is_mem d = true -> b <= addr < b + size d ->
       exists l, match_bar (func_of ps) addr false = Some l /\ In (i, addr - b) l).
Proof. exact large_region. Qed.
Print Assumptions C53_large_region_refuted.

(** The upper half of a 64-bit address is ignored by a 32-bit region: one address can
    match two regions. *)
Theorem C53_alias_refuted :
  ~ (forall ps addr l, Forall (fun p => wf_decl (fst p)) ps -> Forall aligned ps -> Forall fits_reg ps ->
       match_bar (func_of ps) addr false = Some l -> (length l <= 1)%nat).
Proof. exact alias_region. Qed.
Print Assumptions C53_alias_refuted.
