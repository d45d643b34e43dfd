From Coq Require Import Permutation.
From Verif Require Import Base.Prelude Base.Bits Rtl.Handshake_spec Rtl.Handshake_proof Stream.Axis_model Stream.Axis_proof
  Nic.TxEngine_model Nic.TxEngine_spec Nic.TxEngine_proof.
From Coq Require Import Lia Arith ZArith.
Local Open Scope Z_scope.
#[local] Unset Implicit Arguments.

Definition rds (L : ledger) (k : nat) : list rd := p_reads (l_op L k).
Lemma step_reads c s L T C F h i R : inv c s L T C F h -> owed c L i (snd (e_step c s i)) ->
  Permutation R (flat_map (rds L) (seq 0 (l_n L))) ->
  let L' := keep c L (i, snd (e_step c s i)) in
  Permutation (R ++ olist (read_out i (snd (e_step c s i)))) (flat_map (rds L') (seq 0 (l_n L'))).
Proof.
  intros I W P L'. pose proof (iv_cnt _ _ _ _ _ _ _ I) as Q. set (o := snd (e_step c s i)) in *.
  assert (Nw : flat_map (rds L') (seq 0 (l_n L')) = flat_map (rds L') (seq 0 (l_n L))).
  { unfold L', keep. destruct (req_in i o) as [[[q t] d]|]; [|reflexivity]. cbn [l_n]. rewrite seq_S, flat_map_app. cbn [flat_map Nat.add].
    unfold rds at 2. cbn [l_op]. rewrite Nat.eqb_refl. apply app_nil_r. }
  rewrite Nw. clear Nw.
  set (ew := fun k => match read_out i o with Some r => if means c (l_n L) k (r_tag r) then [r] else [] | None => [] end).
  assert (P2 : Permutation (flat_map (rds L') (seq 0 (l_n L))) (flat_map (rds L) (seq 0 (l_n L)) ++ flat_map ew (seq 0 (l_n L)))).
  { apply flat_map_plus. intros k Hk. apply in_seq in Hk. unfold rds, ew, L', keep.
    assert (E : l_op (let f k := op_next c (l_n L) i o k (l_op L k) in match req_in i o with Some (q, t, d) => mkL (S (l_n L)) (fun k => if (k =? l_n L)%nat then blank q t d else f k) | None => mkL (l_n L) f end) k = op_next c (l_n L) i o k (l_op L k)).
    { cbv zeta. destruct (req_in i o) as [[[q t] d]|]; cbn [l_op]; [|reflexivity]. destruct (Nat.eqb_spec k (l_n L)); [lia|reflexivity]. }
    cbv zeta in E |- *. rewrite E. unfold op_next. cbn [p_reads].
    destruct (read_out i o) as [r|]; [destruct (means c (l_n L) k (r_tag r))|]; rewrite ?app_nil_r; reflexivity. }
  rewrite P2, P. apply Permutation_app_head. apply Permutation_refl'. unfold ew. destruct (read_out i o) as [r|] eqn:E.
  - assert (Hin : In r (skid_content (x_skid s))).
    { revert E. unfold o, read_out. change (o_read (snd (e_step c s i))) with (k_out (x_skid s)). destruct (i_rrdy i); [|discriminate]. unfold skid_content. intros ->. left. reflexivity. }
    destruct (iv_tags _ _ _ _ _ _ _ I r Hin) as (j & J1 & J2). symmetry. rewrite (flat_map_one _ (l_n L) j).
    + rewrite J2, means_live by lia. rewrite Nat.eqb_refl. reflexivity.
    + lia.
    + intros x Hx Ne. rewrite J2. destruct (means c (l_n L) x (slot c j)) eqn:M; [|reflexivity]. exfalso. apply Ne.
      apply (means_one c (l_n L) x j (slot c j)); [exact M|]. rewrite means_live by lia. apply Nat.eqb_refl.
  - symmetry. apply flat_map_none. reflexivity.
Qed.
Lemma run_reads c : sane c -> forall is s L T C F h R, inv c s L T C F h -> Permutation R (flat_map (rds L) (seq 0 (l_n L))) ->
  let os := snd (trace (e_step c) s is) in lawful_from c L is os ->
  let L' := fold_left (keep c) (combine is os) L in Permutation (R ++ over read_out is os) (flat_map (rds L') (seq 0 (l_n L'))).
Proof.
  intros S is. induction is as [|i is IH]; intros s L T C F h R I P os W.
  - unfold os, over. cbn. rewrite app_nil_r. exact P.
  - unfold os in *. clear os. cbn [trace]. cbn [trace] in W. destruct (e_step c s i) as [s' o] eqn:E. destruct (trace (e_step c) s' is) as [s'' os] eqn:Er.
    cbn [fst snd combine fold_left lawful_from] in *. destruct W as [W1 W2].
    pose proof (step_inv c s L T C F h i S I) as St. rewrite E in St. cbn [fst snd] in St. specialize (St W1).
    pose proof (step_reads c s L T C F h i R I) as Sr. rewrite E in Sr. cbn [snd] in Sr. specialize (Sr W1 P). cbv zeta in Sr.
    specialize (IH _ _ _ _ _ _ _ St Sr). rewrite Er in IH. cbn [fst snd] in IH. specialize (IH W2). rewrite keep_somes, app_assoc. exact IH.
Qed.
Lemma reads_result : forall c s is, sane c -> started c s ->
  let os := snd (trace (e_step c) s is) in let L := ledger_of c is os in lawful c is os ->
  Permutation (over read_out is os) (flat_map (fun k => p_reads (l_op L k)) (seq 0 (l_n L))).
Proof. intros c s is S St os L W. exact (run_reads c S is s l0 0 0 0 _ [] (fresh_inv c s S St) (perm_nil _) W). Qed.
