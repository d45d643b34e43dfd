(** Property C40: configuration capability lists. *)
From Coq Require Import Sorting.Permutation.
From Verif Require Import Base.Prelude Pcie.Cap_model Pcie.Cap_spec Pcie.Cap_proof.
Open Scope Z_scope.

(** After any sequence of registrations - automatic or explicit, repeated or
    overlapping - the list is sorted by offset, and with two or more capabilities every
    next pointer names the following one and the last is 0. *)
Theorem C40_sorted_and_linked : forall start rs l,
  register_all start [] rs = Some l -> sorted l /\ ((2 <= length l)%nat -> linked l).
Proof. exact (fun start rs l => @register_all_good start rs [] l good_nil). Qed.
Print Assumptions C40_sorted_and_linked.

(** Every registered identity is in the list exactly once, and nothing else is. *)
Theorem C40_every_capability_once : forall start rs l,
  register_all start [] rs = Some l ->
  NoDup (map c_id l) /\ (forall id, In id (map c_id l) <-> In id (map (fun r => fst (fst r)) rs)).
Proof.
  exact (fun start rs l H =>
    match @register_all_ids start rs [] l (NoDup_nil _) H with
    | conj a b => conj a (fun id => conj (fun x => match proj1 (b id) x with or_introl y => y | or_intror f => False_ind _ f end)
                                         (fun y => proj2 (b id) (or_introl y)))
    end).
Qed.
Print Assumptions C40_every_capability_once.

Example C40_sorted_nonvacuous :
  exists l, register_all 0x10 [] [(1, 2, 0); (5, 6, 0x30); (0x10, 15, 0); (0x11, 3, 0x31); (1, 4, 0)] = Some l /\
    map place_of l = [(1, 4, 0x10); (5, 6, 0x21); (0x11, 3, 0x31); (0x10, 15, 0x34)] /\
    map c_next l = [Some 0x84; Some 0xc4; Some 0xd0; Some 0].
Proof. eexists. split; [vm_compute; reflexivity|]. split; vm_compute; reflexivity. Qed.

(** A capability registered at a given offset is found there. *)
Theorem C40_explicit_offset_honoured : forall start l id len off l',
  len <> 0 -> off <> 0 -> register start l id len off = Some l' -> In (id, len, off) (map place_of l').
Proof. exact register_takes_place. Qed.
Print Assumptions C40_explicit_offset_honoured.

(** Registering a capability again changes what is given and keeps the rest. *)
Theorem C40_registering_again_updates : forall start l c len off,
  NoDup (map c_id l) -> In c l -> c_len c <> 0 -> c_off c <> 0 ->
  exists l', register start l (c_id c) len off = Some l' /\
    In (c_id c, (if len =? 0 then c_len c else len), (if off =? 0 then c_off c else off)) (map place_of l').
Proof. exact register_again. Qed.
Print Assumptions C40_registering_again_updates.

Example C40_registering_again_nonvacuous :
  exists l l', register_all 0x10 [] [(1, 2, 0); (5, 6, 0)] = Some l /\ register 0x10 l 5 0 0x40 = Some l' /\
    map place_of l' = [(1, 2, 0x10); (5, 6, 0x40)].
Proof. eexists. eexists. split; [vm_compute; reflexivity|]. split; vm_compute; reflexivity. Qed.

(** A new capability registered at a free place leaves every other where it is, and no
    two share a register. *)
Theorem C40_free_place_keeps_others : forall start l id len off,
  disjoint l -> Forall (fun c => 1 <= c_len c) l -> 1 <= len -> off <> 0 -> ~ In id (map c_id l) ->
  (forall c reg, In c l -> has_reg c reg -> off <= reg < off + len -> False) ->
  exists l', register start l id len off = Some l' /\ disjoint l' /\
    Permutation (map place_of l') ((id, len, off) :: map place_of l).
Proof. exact explicit_register. Qed.
Print Assumptions C40_free_place_keeps_others.

Example C40_free_place_nonvacuous :
  let l := [mkCap 1 2 0x10 (Some 0xc0); mkCap 5 6 0x30 (Some 0)] in
  disjoint l /\ (forall c reg, In c l -> has_reg c reg -> 0x12 <= reg < 0x12 + 15 -> False).
Proof.
  cbv zeta. split.
  - apply pw_disjoint. cbn. constructor; [constructor; [cbn [place_of c_id c_len c_off]; intros; lia|constructor]|constructor; constructor].
  - intros c reg [<-|[<-|[]]]; unfold has_reg; cbn [c_off c_len]; intros H1 H2; lia.
Qed.

(** Automatic placement among disjoint capabilities: every other one stays where it is
    and the new one shares at most its last register with the first register of
    another; if no capability starts there, no register is shared. *)
Theorem C40_automatic_place_partial : forall start l id len l',
  sorted l -> disjoint l -> Forall (fun c => 1 <= c_len c) l -> 1 <= len -> ~ In id (map c_id l) ->
  register start l id len 0 = Some l' ->
  exists o, start <= o /\ Permutation (map place_of l') ((id, len, o) :: map place_of l) /\
    (forall c, In c l -> forall reg, has_reg c reg -> o <= reg < o + len -> reg = o + len - 1 /\ reg = c_off c) /\
    ((forall c, In c l -> c_off c <> o + len - 1) -> disjoint l').
Proof. exact auto_register. Qed.
Print Assumptions C40_automatic_place_partial.

Example C40_automatic_place_nonvacuous :
  let l := [mkCap 1 2 0x10 (Some 0x50); mkCap 5 6 0x14 (Some 0)] in
  sorted l /\ disjoint l /\ place 0x10 l 15 = 0x1a /\ place 0x10 l 2 = 0x12.
Proof.
  cbv zeta. split; [|split; [|split; reflexivity]].
  - apply ss_sorted. repeat constructor; unfold leo; cbn; lia.
  - apply pw_disjoint. cbn. constructor; [constructor; [cbn [place_of c_id c_len c_off]; intros; lia|constructor]|constructor; constructor].
Qed.

(** Registered without offsets only, capabilities of two or more registers lie back to
    back from the first offset of the list, in registration order. *)
Theorem C40_automatic_packed : forall start ls,
  NoDup (map fst ls) -> Forall (fun p => 2 <= snd p) ls ->
  exists l, register_all start [] (map (fun p => (fst p, snd p, 0)) ls) = Some l /\
    map place_of l = packed start ls /\ disjoint l.
Proof.
  exact (fun start ls ND P =>
    match @auto_packed start ls [] [] eq_refl (proj1 good_nil) (Forall_nil _) P ND with
    | ex_intro _ l (conj a b) =>
        ex_intro _ l (conj a (conj b (proj1 (pw_disjoint l) (eq_ind_r pw
          (@pw_packed ls start (Forall_impl _ (fun p (H : 2 <= snd p) => Z.le_trans 1 2 _ ltac:(discriminate) H) P)) b))))
    end).
Qed.
Print Assumptions C40_automatic_packed.

Example C40_automatic_packed_nonvacuous :
  exists l, register_all 0x10 [] [(1, 2, 0); (0x10, 15, 0); (5, 6, 0)] = Some l /\
    map place_of l = [(1, 2, 0x10); (0x10, 15, 0x12); (5, 6, 0x21)].
Proof. eexists. split; vm_compute; reflexivity. Qed.

(** In a disjoint list every register of a capability resolves to that capability. *)
Theorem C40_register_resolves : forall l reg, disjoint l ->
  forall c, In c l -> has_reg c reg -> find_by_reg l reg = Some c.
Proof. exact find_reg_spec. Qed.
Print Assumptions C40_register_resolves.

(** Automatic placement can overlap: it misses a capability starting at the last
    register of the new one. *)
Theorem C40_automatic_overlap_refuted :
  ~ (forall start rs l, Forall (fun r => 1 <= snd (fst r)) rs -> NoDup (map (fun r => fst (fst r)) rs) ->
       register_all start [] rs = Some l -> disjoint l).
Proof.
  exact (fun H => H 0x10 [(1, 2, 0x12); (5, 3, 0)] _
    ltac:(repeat constructor; cbn; lia) ltac:(repeat constructor; cbn; intuition lia) eq_refl
    0%nat 1%nat _ _ 0x12 ltac:(discriminate) eq_refl eq_refl ltac:(unfold has_reg; cbn; lia) ltac:(unfold has_reg; cbn; lia)).
Qed.
Print Assumptions C40_automatic_overlap_refuted.

(** A list of one capability has no next pointer at all: reading its header fails. *)
Theorem C40_single_header_refuted :
  ~ (forall start rs l c, register_all start [] rs = Some l -> In c l -> header_next c <> None).
Proof. exact (fun H => H 0x10 [(1, 2, 0)] _ _ eq_refl (or_introl eq_refl) eq_refl). Qed.
Print Assumptions C40_single_header_refuted.
