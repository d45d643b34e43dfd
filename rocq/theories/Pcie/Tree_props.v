(** C65: enumeration of a PCIe tree, and routing in the enumerated tree. *)
From Verif Require Import Base.Prelude Pcie.Mem_model Pcie.Bar_model Pcie.Bar_spec Pcie.Tree_model Pcie.Tree_spec Pcie.Tree_route_proof Pcie.Tree_final_proof.
From Coq Require Import Lia.
Open Scope Z_scope.
#[local] Unset Implicit Arguments.

(** Two root ports: a device with functions 0 and 2, and a switch with two devices. *)
Definition ex_xs : list (nat * topo) :=
  [(1%nat, TDev 0 [(0%nat, [Mem64 24 true; Mem32 12 false; Io 8; Unused; Unused]); (2%nat, [Mem32 20 false; Unused; Unused; Unused; Unused; Unused])]);
   (4%nat, TSw 0 [(0%nat, TDev 0 [(0%nat, [Mem64 16 false; Io 4; Unused; Unused; Unused])]); (3%nat, TDev 0 [(0%nat, [Mem64 20 true; Mem64 12 true; Mem32 4 true; Unused])])])].
Definition ex_br (n : nat) : bridge := mkBr 0 n 0 0 (mkWin 0 0xfff) (mkWin 0 0xfffff) (mkWin 0 0xfffff).
Definition ex_fn (ds : list decl) : func := func_of (map (fun d => (d, 0)) ds).
Definition ex_ps : list (bridge * tree) :=
  [(ex_br 1, Dev (mkDev 0 0 [(0%nat, ex_fn [Mem64 24 true; Mem32 12 false; Io 8; Unused; Unused]); (2%nat, ex_fn [Mem32 20 false; Unused; Unused; Unused; Unused; Unused])]));
   (ex_br 4, Sw (ex_br 0) [(ex_br 0, Dev (mkDev 0 0 [(0%nat, ex_fn [Mem64 16 false; Io 4; Unused; Unused; Unused])]));
                           (ex_br 3, Dev (mkDev 0 0 [(0%nat, ex_fn [Mem64 20 true; Mem64 12 true; Mem32 4 true; Unused])]))])].
Definition ex_hb : bridge := mkBr 0 0 0 255 (mkWin 0x80000000 0x80000000) (mkWin 0x80000000 0x80000000) (mkWin 0x8000000000000000 0x8000000000000000).
Definition ex_lim : limits := mkLim 0x80000000 0x80000000 0x8000000000000000.
Definition ex_h : host := match enumerate 4 (mkHost ex_hb ex_ps) ex_lim with Some (h, _) => h | None => mkHost ex_hb [] end.
Definition ex_l : limits := mkLim 0x80002000 0x80400000 0x8000000001200000.
Lemma ex_ready : ready ex_xs ex_hb ex_ps ex_lim 4.
Proof.
  assert (Wf : forall ds, ds = [Mem64 24 true; Mem32 12 false; Io 8; Unused; Unused] \/ ds = [Mem32 20 false; Unused; Unused; Unused; Unused; Unused] \/
    ds = [Mem64 16 false; Io 4; Unused; Unused; Unused] \/ ds = [Mem64 20 true; Mem64 12 true; Mem32 4 true; Unused] ->
    wf_fn ds /\ exists ps, map fst ps = ds /\ ex_fn ds = func_of ps /\ Forall aligned ps /\ Forall fits_reg ps).
  { intros ds H. decompose [or] H; subst ds;
      (split; [split; [cbn [In]; intros d D; repeat (destruct D as [<-|D]; [cbn; lia|]); destruct D|reflexivity]|]);
      match goal with |- exists ps, map fst ps = ?ds /\ _ => exists (map (fun d => (d, 0)) ds) end;
      (split; [reflexivity|split; [reflexivity|split]]; cbn [map]; repeat (apply Forall_cons; [unfold aligned, fits_reg; cbn; first [left; reflexivity|right; split; [lia|reflexivity]|lia|exact I]|]); apply Forall_nil). }
  assert (Wb : forall n, wf_bridge (ex_br n)) by (intros n; unfold wf_bridge, wf_win; cbn; splits; try reflexivity; lia).
  unfold ready. splits.
  - assert (Fn : forall k ds fs, (forall k' ds', In (k', ds') fs -> (k' < 8)%nat /\ wf_fn ds') -> (k < 8)%nat -> wf_fn ds -> forall k' ds', In (k', ds') ((k, ds) :: fs) -> (k' < 8)%nat /\ wf_fn ds').
    { intros k ds fs H K W k' ds' [E|E]; [injection E as <- <-; auto|exact (H k' ds' E)]. }
    assert (N : forall k' ds', In (k', ds') ([] : list (nat * list decl)) -> (k' < 8)%nat /\ wf_fn ds') by (intros ? ? []).
    assert (D : forall n ds fs, (n < 32)%nat -> ascending 0 (0%nat :: map fst fs) -> (forall k' ds', In (k', ds') fs -> (k' < 8)%nat /\ wf_fn ds') -> wf_fn ds -> wf_topo (TDev n ((0%nat, ds) :: fs))).
    { intros n ds fs Hn As H W. cbn [wf_topo]. splits; [exact Hn|exists ds, fs; reflexivity|exact As|exact (Fn 0%nat ds fs H ltac:(lia) W)]. }
    unfold wf_ports. split; [cbn; lia|]. split; [cbn; intros k H; lia|]. cbn [all snd ex_xs]. split; [|split; [|exact I]].
    + apply D; [lia|cbn; lia| |apply Wf; tauto]. apply Fn; [exact N|lia|apply Wf; tauto].
    + cbn [wf_topo]. splits; [lia|cbn; lia|cbn; intros k H; lia|]. cbn [all snd]. splits; [| |exact I]; (apply D; [lia|cbn; lia|exact N|apply Wf; tauto]).
  - unfold shape_ports. cbn [all2 ex_xs ex_ps shape fst snd b_dev ex_br d_num d_fns]. splits; auto; apply Wf; tauto.
  - reflexivity.
  - reflexivity.
  - unfold pos. cbn. lia.
  - cbn. lia.
  - cbn. lia.
  - vm_compute. splits; reflexivity.
Qed.
Lemma ex_enumerated : enumerated ex_xs ex_lim ex_h ex_l.
Proof. exists ex_hb, ex_ps, 4%nat. split; [exact ex_ready|]. split; [vm_compute; reflexivity|]. cbn. lia. Qed.

(** Enumeration finishes; the tree has the topology it had, every region of every function is aligned.  The spaces
    end where the declared regions, laid out in order, end. *)
Theorem C65_enumerates : forall xs hb ps lim fuel, ready xs hb ps lim fuel ->
  exists h, enumerate fuel (mkHost hb ps) lim = Some (h, ends xs lim) /\ shape_ports xs (h_ps h).
Proof. exact enumerates. Qed.
Print Assumptions C65_enumerates.
Example C65_enumerates_nonvacuous : ready ex_xs ex_hb ex_ps ex_lim 4 /\ ends ex_xs ex_lim = ex_l /\
  in_ports (h_ps ex_h) [2; 2; 0]%nat = Some ((5, 0%nat, 0%nat), Some (mkFunc [12 + 0x1000000; 0x80000000; 12 + 0x1100000; 0x80000000; 8 + 0x80300000; 0] [0xfff00000; 0xffffffff; 0xfffff000; 0xffffffff; 0xfffffff0; 0])) /\
  in_ports (h_ps ex_h) [2; 2]%nat = Some ((3, 3%nat, 0%nat), None).
Proof. split; [exact ex_ready|]. vm_compute. splits; reflexivity. Qed.

(** A configuration request from the root complex reaches exactly the function with that bus, device and function number. *)
Theorem C65_config : forall xs lim h l, enumerated xs lim h l -> forall i p, (exists f, in_ports (h_ps h) p = Some (i, f)) <-> from_root h (TCfg true i) = Got p.
Proof. exact config. Qed.
Print Assumptions C65_config.
Example C65_config_nonvacuous : enumerated ex_xs ex_lim ex_h ex_l /\ from_root ex_h (TCfg true (1, 0%nat, 2%nat)) = Got [1; 1]%nat /\ from_root ex_h (TCfg true (2, 0%nat, 0%nat)) = Got [2; 0]%nat /\
  from_root ex_h (TCfg true (1, 0%nat, 1%nat)) = Ur [1; 2]%nat.
Proof. split; [exact ex_enumerated|]. vm_compute. splits; reflexivity. Qed.

(** A completion reaches the requester, from wherever it is sent; one for the root complex reaches the root complex. *)
Theorem C65_completions : forall xs lim h l, enumerated xs lim h l ->
  (forall p i f, in_ports (h_ps h) p = Some (i, f) -> from_root h (TCpl i) = Got p /\ forall n q, from_place h (S n :: q) (TCpl i) = Got p) /\
  (forall n q k, from_place h (S n :: q) (TCpl (0, 0%nat, k)) = AtRoot).
Proof.
  intros xs lim h l En. split; [intros p i f Hp; exact (arrives xs lim h l En (TCpl i) p i f I Hp eq_refl)|intros n q k; exact (leaves xs lim h l En (TCpl (0, 0%nat, k)) n q (conj eq_refl eq_refl))].
Qed.
Print Assumptions C65_completions.
Example C65_completions_nonvacuous : enumerated ex_xs ex_lim ex_h ex_l /\ in_ports (h_ps ex_h) [2; 1; 0]%nat <> None /\ from_place ex_h [1; 0]%nat (TCpl (4, 0%nat, 0%nat)) = Got [2; 1; 0]%nat.
Proof. split; [exact ex_enumerated|]. vm_compute. split; [discriminate|reflexivity]. Qed.

(** A memory request for an address in a region of a function reaches that function, from wherever it is sent.  Not covered:
    addresses above 4 GiB whose low half lies above the beginning of the memory space (see C53). *)
Theorem C65_memory : forall xs lim h l, enumerated xs lim h l -> forall p i rs d b a wr,
  in_ports (h_ps h) p = Some (i, Some (func_of rs)) -> wf_fn (map fst rs) -> Forall aligned rs -> Forall fits_reg rs ->
  In (d, b) rs -> is_mem d = true -> b <= a < b + size d -> clear_of lim (TMem wr a) ->
  from_root h (TMem wr a) = Got p /\ forall n q, from_place h (S n :: q) (TMem wr a) = Got p.
Proof.
  intros xs lim h l En p i rs d b a wr Hp W A F Hi Hm Ha C. refine (arrives xs lim h l En (TMem wr a) p i _ C Hp _).
  apply (region_claimed rs d b a false W A F Hi Ha). destruct d; try discriminate; reflexivity.
Qed.
Print Assumptions C65_memory.
Example C65_memory_nonvacuous : enumerated ex_xs ex_lim ex_h ex_l /\
  in_ports (h_ps ex_h) [2; 2; 0]%nat = Some ((5, 0%nat, 0%nat), Some (func_of [(Mem64 20 true, 0x8000000001000000); (Mem64 12 true, 0x8000000001100000); (Mem32 4 true, 0x80300000); (Unused, 0)])) /\
  from_root ex_h (TMem false 0x8000000001100abc) = Got [2; 2; 0]%nat /\ from_place ex_h [1; 0]%nat (TMem true 0x8000000001100abc) = Got [2; 2; 0]%nat /\
  from_place ex_h [2; 1; 0]%nat (TMem true 0x80300008) = Got [2; 2; 0]%nat /\ clear_of ex_lim (TMem true 0x8000000001100abc).
Proof. split; [exact ex_enumerated|]. vm_compute. splits; try reflexivity; try discriminate. right. reflexivity. Qed.

(** The same for IO requests. *)
Theorem C65_io : forall xs lim h l, enumerated xs lim h l -> forall p i rs k b a,
  in_ports (h_ps h) p = Some (i, Some (func_of rs)) -> wf_fn (map fst rs) -> Forall aligned rs -> Forall fits_reg rs ->
  In (Io k, b) rs -> b <= a < b + 2 ^ k -> 0 <= a < 2 ^ 32 ->
  from_root h (TIo a) = Got p /\ forall n q, from_place h (S n :: q) (TIo a) = Got p.
Proof.
  intros xs lim h l En p i rs k b a Hp W A F Hi Ha C. refine (arrives xs lim h l En (TIo a) p i _ C Hp _). exact (region_claimed rs (Io k) b a true W A F Hi Ha eq_refl).
Qed.
Print Assumptions C65_io.
Example C65_io_nonvacuous : enumerated ex_xs ex_lim ex_h ex_l /\
  in_ports (h_ps ex_h) [2; 1; 0]%nat = Some ((4, 0%nat, 0%nat), Some (func_of [(Mem64 16 false, 0x80200000); (Io 4, 0x80001000); (Unused, 0); (Unused, 0); (Unused, 0)])) /\
  from_root ex_h (TIo 0x80001008) = Got [2; 1; 0]%nat.
Proof. split; [exact ex_enumerated|]. vm_compute. splits; reflexivity. Qed.

(** A request from below for an address outside the spaces given out reaches the root complex. *)
Theorem C65_host_memory : forall xs lim h l, enumerated xs lim h l -> forall n q wr a,
  ~ l_mem lim <= a <= l_mem l -> ~ l_pf lim <= a <= l_pf l -> from_place h (S n :: q) (TMem wr a) = AtRoot.
Proof. intros xs lim h l En n q wr a H1 H2. exact (leaves xs lim h l En (TMem wr a) n q (conj H1 H2)). Qed.
Print Assumptions C65_host_memory.
Example C65_host_memory_nonvacuous : enumerated ex_xs ex_lim ex_h ex_l /\ ~ l_mem ex_lim <= 0x1234 <= l_mem ex_l /\ ~ l_pf ex_lim <= 0x1234 <= l_pf ex_l /\ from_place ex_h [2; 2; 0]%nat (TMem true 0x1234) = AtRoot.
Proof. split; [exact ex_enumerated|]. cbn [l_mem l_pf ex_lim ex_l]. splits; [lia|lia|vm_compute; reflexivity]. Qed.

(** Whoever handles a request or completion is the one it is for, in any tree. *)
Theorem C65_only : forall h n q m p, match m with TCpl _ | TIo _ | TMem _ _ => True | _ => False end ->
  from_root h m = Got p \/ from_place h (S n :: q) m = Got p -> exists i f, in_ports (h_ps h) p = Some (i, f) /\ aims m i f.
Proof. exact only_aimed. Qed.
Print Assumptions C65_only.
Example C65_only_nonvacuous : from_root ex_h (TMem true 0x80100010) = Got [1; 1]%nat.
Proof. vm_compute. reflexivity. Qed.

(** ID routed messages go by the requester's bus: one from the root complex to the upstream port of a switch is answered as
    unsupported. *)
Theorem C65_messages_refuted : enumerated ex_xs ex_lim ex_h ex_l /\ in_ports (h_ps ex_h) [2; 0]%nat = Some ((2, 0%nat, 0%nat), None) /\
  from_root ex_h (TMsg (0, 0%nat, 0%nat) (2, 0%nat, 0%nat)) = Ur [0%nat].
Proof. split; [exact ex_enumerated|]. vm_compute. split; reflexivity. Qed.
Print Assumptions C65_messages_refuted.

(** The window of the host bridge is one address too long: the first address after the space given out does not reach the root
    complex. *)
Theorem C65_end_refuted : enumerated ex_xs ex_lim ex_h ex_l /\ from_place ex_h [1; 0]%nat (TMem false (l_mem ex_l)) = Ur [0%nat].
Proof. split; [exact ex_enumerated|]. vm_compute. reflexivity. Qed.
Print Assumptions C65_end_refuted.
