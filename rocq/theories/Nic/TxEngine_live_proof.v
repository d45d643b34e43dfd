From Coq Require Import Permutation.
From Verif Require Import Base.Prelude Base.Bits Rtl.Handshake_spec Rtl.Handshake_proof Stream.Axis_model Stream.Axis_proof
  Nic.TxEngine_model Nic.TxEngine_spec Nic.TxEngine_proof.
From Coq Require Import Lia Arith ZArith.
Local Open Scope Z_scope.
#[local] Unset Implicit Arguments.

Definition w {A} (x : option A) : nat := match x with Some _ => 1 | None => 0 end.
Definition work (s : est) (L : ledger) (T C F : nat) : nat :=
  (2 * (l_n L - T) + Nat.max (w (x_tx s)) (w (x_ck s)) + 2 * (l_n L - C) + w (x_cpl s) + 3 * (l_n L - F) + 2 * w (x_fin s) + w (x_stat s) +
   length (skid_content (x_skid s)) + w (x_dreq s))%nat.
Definition still (c : ecfg) (s : est) (i : ein) : Prop :=
  v_tx c s = Wait /\ v_cpl c s i = Wait /\ v_fin c s = Wait /\ x_tx s = None /\ x_ck s = None /\ x_cpl s = None /\ x_fin s = None /\ x_stat s = None /\
  skid_content (x_skid s) = [] /\ x_dreq s = None.

Lemma idle_owed c L i o : idle i -> owed c L i o.
Proof.
  intros (R & _ & _ & A & D & Ca & Rd & Td & Tc & _). unfold owed. splits; try congruence.
  intros d t l. unfold desc_in. rewrite D. destruct (o_dready o); discriminate.
Qed.
Lemma idle_n c s i L : idle i -> l_n (keep c L (i, snd (e_step c s i))) = l_n L.
Proof. intros (_ & _ & R & _). unfold keep, req_in. rewrite R. destruct (o_ready _); reflexivity. Qed.

Lemma idle_work c s L T C F h i : sane c -> inv c s L T C F h -> idle i ->
  still c s i \/ (work (fst (e_step c s i)) (keep c L (i, snd (e_step c s i))) (if moves (v_tx c s) then S T else T)
    (if moves (v_cpl c s i) then S C else C) (if moves (v_fin c s) then S F else F) < work s L T C F)%nat.
Proof.
  intros Sn I Id. pose proof (idle_owed c L i (snd (e_step c s i)) Id) as W.
  pose proof (tx_moves c s L T C F h Sn I) as Mt. pose proof (cpl_moves c s L T C F h i I) as Mc. pose proof (fin_moves c s L T C F h I) as Mf.
  pose proof (content c s L T C F h i I W) as Ct.
  unfold work. rewrite idle_n by exact Id. destruct Id as (R & _ & Rq & A & D & Ca & Rd & Td & Tc & Y1 & Y2 & Y3 & Y4 & Y5).
  assert (Vq : v_req s i = None) by (unfold v_req; rewrite Rq; destruct (x_ready s); reflexivity).
  assert (Vr : v_read c s i = None) by (unfold v_read, v_desc; rewrite D; destruct (x_dready s); reflexivity).
  rewrite Vr in Ct. cbn [olist] in Ct. rewrite app_nil_r in Ct. unfold read_out in Ct. rewrite Y3 in Ct.
  assert (Ck : (length (skid_content (x_skid (fst (e_step c s i)))) < length (skid_content (x_skid s)))%nat \/
               skid_content (x_skid s) = [] /\ skid_content (x_skid (fst (e_step c s i))) = []).
  { change (o_read (snd (e_step c s i))) with (k_out (x_skid s)) in Ct. set (k' := skid_content (x_skid (fst (e_step c s i)))) in *. clearbody k'.
    destruct (k_out (x_skid s)) as [r|] eqn:Ek.
    - left. rewrite Ct. cbn [olist app length]. clear. lia.
    - right. assert (Z : skid_content (x_skid s) = []).
      { unfold skid_content. rewrite Ek. destruct (iv_skid _ _ _ _ _ _ _ I) as [_ B]. rewrite (B Ek). reflexivity. }
      rewrite Z in Ct. cbn [olist app] in Ct. auto. }
  assert (Xt : x_tx (fst (e_step c s i)) = match v_tx c s with Go => Some (tx_of c (x_tp s) (x_tab s (slot c (x_tp s)))) | _ => None end).
  { unfold e_step. rewrite R. cbn [fst x_tx]. rewrite Y4. reflexivity. }
  assert (Xk : x_ck (fst (e_step c s i)) = match v_tx c s with Go => if e_csum c then Some (ck_of (x_tab s (slot c (x_tp s)))) else None | _ => None end).
  { unfold e_step. rewrite R. cbn [fst x_ck]. rewrite Y5. reflexivity. }
  assert (Xc : x_cpl (fst (e_step c s i)) = match v_cpl c s i with Go => Some (cpl_of c (x_cp s) (x_tab s (slot c (x_cp s)))) | _ => None end).
  { unfold e_step. rewrite R. cbn [fst x_cpl]. rewrite Y2. reflexivity. }
  assert (Xf : x_fin (fst (e_step c s i)) = None).
  { unfold e_step. rewrite R. cbn [fst x_fin]. rewrite A. reflexivity. }
  assert (Xs : x_stat (fst (e_step c s i)) = match v_fin c s with Go => Some (n_len (x_tab s (slot c (x_fp s))), n_tag (x_tab s (slot c (x_fp s)))) | _ => x_fin s end).
  { unfold e_step. rewrite R. cbn [fst x_stat]. rewrite A. reflexivity. }
  assert (Xd : x_dreq (fst (e_step c s i)) = None).
  { unfold e_step. rewrite R. cbn [fst x_dreq]. rewrite Vq, Y1. reflexivity. }
  rewrite Xt, Xk, Xc, Xf, Xs, Xd. pose proof (iv_cnt _ _ _ _ _ _ _ I) as Q.
  set (lc := length (skid_content (x_skid s))) in *. set (lc' := length (skid_content (x_skid (fst (e_step c s i))))) in *.
  assert (Lc : (lc' < lc)%nat \/ skid_content (x_skid s) = [] /\ (lc' <= lc)%nat).
  { destruct Ck as [Ck|[Ck1 Ck2]]; [left; exact Ck|right]. split; [exact Ck1|]. unfold lc'. rewrite Ck2. cbn [length]. clear. lia. }
  clear Ck Ct Xt Xk Xc Xf Xs Xd. clearbody lc lc'. clear W R Rq A D Ca Rd Td Tc Y1 Y2 Y3 Y4 Y5 Vq Vr.
  assert (Gt : (2 * (l_n L - (if moves (v_tx c s) then S T else T)) + Nat.max (w match v_tx c s with Go => Some (tx_of c (x_tp s) (x_tab s (slot c (x_tp s)))) | _ => None end)
     (w match v_tx c s with Go => if e_csum c then Some (ck_of (x_tab s (slot c (x_tp s)))) else None | _ => None end) < 2 * (l_n L - T) + Nat.max (w (x_tx s)) (w (x_ck s)))%nat
    \/ v_tx c s = Wait /\ x_tx s = None /\ x_ck s = None).
  { destruct (v_tx c s) eqn:E; cbn [moves].
    - destruct (x_tx s), (x_ck s); cbn; try (left; lia). right; auto.
    - left. destruct Mt as (M & _); [discriminate|]. cbn. destruct (x_tx s), (x_ck s); cbn; lia.
    - left. destruct Mt as (M & _); [discriminate|]. cbn. destruct (e_csum c), (x_tx s), (x_ck s); cbn; lia. }
  assert (Gc : (2 * (l_n L - (if moves (v_cpl c s i) then S C else C)) + w match v_cpl c s i with Go => Some (cpl_of c (x_cp s) (x_tab s (slot c (x_cp s)))) | _ => None end
     < 2 * (l_n L - C) + w (x_cpl s))%nat \/ v_cpl c s i = Wait /\ x_cpl s = None).
  { destruct (v_cpl c s i) eqn:E; cbn [moves].
    - destruct (x_cpl s); cbn; [left; lia|right; auto].
    - left. destruct Mc as (M & _); [discriminate|]. cbn. destruct (x_cpl s); cbn; lia.
    - left. destruct Mc as (M & _); [discriminate|]. cbn. destruct (x_cpl s); cbn; lia. }
  assert (Gf : (3 * (l_n L - (if moves (v_fin c s) then S F else F)) + w match v_fin c s with Go => Some (n_len (x_tab s (slot c (x_fp s))), n_tag (x_tab s (slot c (x_fp s)))) | _ => x_fin s end
     < 3 * (l_n L - F) + 2 * w (x_fin s) + w (x_stat s))%nat \/ v_fin c s = Wait /\ x_fin s = None /\ x_stat s = None).
  { destruct (v_fin c s) eqn:E; cbn [moves].
    - destruct (x_fin s), (x_stat s); cbn; try (left; lia). right; auto.
    - left. destruct Mf as (M & _); [discriminate|]. cbn. destruct (x_fin s), (x_stat s); cbn; lia.
    - left. destruct Mf as (M & _); [discriminate|]. cbn. destruct (x_fin s), (x_stat s); cbn; lia. }
  assert (Gd : (w (x_dreq s) = 1 \/ w (x_dreq s) = 0 /\ x_dreq s = None)%nat) by (destruct (x_dreq s); cbn; auto).
  cbn [w]. unfold still.
  destruct Gt as [Gt|(Gt1 & Gt2 & Gt3)]; [right|].
  { clear - Gt Gc Gf Gd Lc. destruct Gc as [Gc|(Gc1 & Gc2)]; [|rewrite Gc1, Gc2 in *; cbn [moves w]]; (destruct Gf as [Gf|(Gf1 & Gf2 & Gf3)]; [|rewrite Gf1, Gf2, Gf3 in *; cbn [moves w]]); lia. }
  destruct Gc as [Gc|(Gc1 & Gc2)]; [right|].
  { rewrite Gt1, Gt2, Gt3 in *. cbn [moves w]. clear - Gc Gf Gd Lc. destruct Gf as [Gf|(Gf1 & Gf2 & Gf3)]; [|rewrite Gf1, Gf2, Gf3 in *; cbn [moves w]]; cbn; lia. }
  destruct Gf as [Gf|(Gf1 & Gf2 & Gf3)]; [right|].
  { rewrite Gt1, Gt2, Gt3, Gc1, Gc2 in *. cbn [moves w]. clear - Gf Gd Lc. cbn. lia. }
  rewrite Gt1, Gt2, Gt3, Gc1, Gc2, Gf1, Gf2, Gf3. cbn [moves w].
  destruct Lc as [Lc|[Lc1 Lc2]]; [right; clear - Lc Gd; cbn; lia|].
  destruct Gd as [Gd|[Gd1 Gd2]]; [right; clear - Lc2 Gd; cbn; lia|]. left. splits; auto.
Qed.

Lemma still_same c s i : idle i -> still c s i ->
  (forall k, x_tab (fst (e_step c s i)) k = x_tab s k) /\ x_sp (fst (e_step c s i)) = x_sp s /\ x_fp (fst (e_step c s i)) = x_fp s /\ x_cnt (fst (e_step c s i)) = x_cnt s /\
  x_ready (fst (e_step c s i)) = (x_cnt s <? e_req c) && negb (n_act (x_tab s (slot c (x_sp s)))) && (pdiff c (x_sp s) (x_fp s) <? e_n c)%nat.
Proof.
  intros Id (S1 & S2 & S3 & S4 & S5 & S6 & S7 & S8 & S9 & S10).
  destruct Id as (R & En & Rq & A & D & Ca & Rd & Td & Tc & Y1 & Y2 & Y3 & Y4 & Y5).
  assert (Vq : v_req s i = None) by (unfold v_req; rewrite Rq; destruct (x_ready s); reflexivity).
  assert (Vd : v_desc c s i = None) by (unfold v_desc; rewrite D; destruct (x_dready s); reflexivity).
  assert (Vt : v_tcpl c i = None) by (unfold v_tcpl; rewrite Tc; reflexivity).
  split; [intros k; unfold e_step; rewrite R; cbn [fst x_tab]; unfold entry_next, entry_upd; rewrite Vq, Vd, Vt, A, Ca, Rd, S3; cbn; destruct (x_tab s k); reflexivity|].
  unfold e_step. rewrite R. cbn [fst x_sp x_fp x_cnt x_ready]. rewrite Vq, Vd, A, S3, En, S10. cbn [moves andb isnone orb]. splits; try reflexivity; [lia|].
  rewrite andb_true_r. reflexivity.
Qed.
Lemma still_step c s i j : idle i -> idle j -> skid_inv (x_skid s) -> still c s i ->
  still c (fst (e_step c s i)) j.
Proof.
  intros Id Jd Ki (S1 & S2 & S3 & S4 & S5 & S6 & S7 & S8 & S9 & S10).
  destruct Id as (R & _ & Rq & A & D & Ca & Rd & Td & Tc & Y1 & Y2 & Y3 & Y4 & Y5). destruct Jd as (_ & _ & _ & _ & _ & _ & _ & _ & _ & _ & Jc & _).
  assert (Vq : v_req s i = None) by (unfold v_req; rewrite Rq; destruct (x_ready s); reflexivity).
  assert (Vd : v_desc c s i = None) by (unfold v_desc; rewrite D; destruct (x_dready s); reflexivity).
  assert (Vr : v_read c s i = None) by (unfold v_read; rewrite Vd; reflexivity).
  assert (Vt : v_tcpl c i = None) by (unfold v_tcpl; rewrite Tc; reflexivity).
  assert (Et : forall k, x_tab (fst (e_step c s i)) k = x_tab s k).
  { intros k. unfold e_step. rewrite R. cbn [fst x_tab]. unfold entry_next, entry_upd. rewrite Vq, Vd, Vt, A, Ca, Rd, S3. cbn. destruct (x_tab s k). reflexivity. }
  assert (E0 : x_sp (fst (e_step c s i)) = x_sp s /\ x_tp (fst (e_step c s i)) = x_tp s /\ x_cp (fst (e_step c s i)) = x_cp s /\ x_fp (fst (e_step c s i)) = x_fp s /\
    x_tx (fst (e_step c s i)) = None /\ x_ck (fst (e_step c s i)) = None /\ x_cpl (fst (e_step c s i)) = None /\ x_fin (fst (e_step c s i)) = None /\
    x_stat (fst (e_step c s i)) = None /\ x_dreq (fst (e_step c s i)) = None /\ skid_content (x_skid (fst (e_step c s i))) = []).
  { unfold e_step. rewrite R. cbn [fst x_sp x_tp x_cp x_fp x_tx x_ck x_cpl x_fin x_stat x_dreq x_skid].
    rewrite Vq, Vr, A, S1, S2, S3, Y1, Y2, Y3, Y4, Y5, S7. splits; try reflexivity.
    pose proof (@skid_step_content rd (x_skid s) None true Ki) as X. rewrite S9 in X. destruct (k_rdy (x_skid s)); cbn [app olist] in X; symmetry in X; apply app_eq_nil in X; apply X. }
  destruct E0 as (E1 & E2 & E3 & E4 & E5 & E6 & E7 & E8 & E9 & E10 & E11). unfold still. rewrite E5, E6, E7, E8, E9, E10, E11. splits; auto.
  - rewrite <- S1. unfold v_tx. rewrite Et, E1, E2, E5, E6, S4, S5. reflexivity.
  - rewrite <- S2. unfold v_cpl. rewrite Et, E1, E2, E3, E7, S6, Y2, Jc. reflexivity.
  - rewrite <- S3. unfold v_fin. rewrite Et, E1, E3, E4, E8, S7. reflexivity.
Qed.

(** In a state that stands still, the requests are over or the surroundings owe something. *)
Ltac lq := repeat match goal with
  | H : context [Nat.modulo] |- _ => clear H
  | H : context [Wait] |- _ => clear H
  | H : inv _ _ _ _ _ _ _ |- _ => clear H end; lia.
Lemma still_means c s L T C F h i : sane c -> inv c s L T C F h -> idle i -> still c s i ->
  (exists k, (k < l_n L)%nat /\ waits (l_op L k)) \/ (F = l_n L /\ C = l_n L /\ T = l_n L).
Proof.
  intros Sn I Id (S1 & S2 & S3 & S4 & S5 & S6 & S7 & S8 & S9 & S10). pose proof (iv_cnt _ _ _ _ _ _ _ I) as Q.
  pose proof (iv_ptr _ _ _ _ _ _ _ I) as (P1 & P2 & P3 & P4).
  assert (Sp : slot c (x_tp s) = slot c T /\ slot c (x_cp s) = slot c C /\ slot c (x_fp s) = slot c F).
  { rewrite P2, P3, P4, !slot_ptr. auto. }
  destruct Sp as (Sp1 & Sp2 & Sp3).
  destruct (Nat.eq_dec T (l_n L)) as [Et|Et].
  - destruct (Nat.eq_dec C T) as [Ec|Ec].
    + destruct (Nat.eq_dec F C) as [Ef|Ef]; [right; lq|left].
      exists F. split; [lq|]. pose proof (iv_live _ _ _ _ _ _ _ I F ltac:(lq)) as G.
      unfold v_fin in S3. rewrite Sp3, P1, P3, P4, !ptr_eqb, S7 in S3 by lq. rewrite (iv_on _ _ _ _ _ _ _ I F) in S3 by lq.
      destruct (Nat.eqb_spec F (l_n L)); [lq|]. destruct (Nat.eqb_spec F C); [lq|]. cbn in S3.
      rewrite (ag_inv _ _ _ _ _ G), (ag_cw _ _ _ _ _ G) in S3.
      destruct (iv_T _ _ _ _ _ _ _ I F ltac:(lq)) as [(X & _)|(X & _)]; [rewrite X in S3; discriminate|].
      assert (Y : p_written (l_op L F) = false).
      { unfold has_packet in X. destruct (p_ans (l_op L F)) as [[|]|]; try discriminate. destruct (p_written (l_op L F)); [discriminate|reflexivity]. }
      right. right. right. right. split; [|exact Y]. destruct (iv_cplq _ _ _ _ _ _ _ I F ltac:(lq) X) as [Z|(d & Z & _)]; [exact Z|congruence].
    + left. exists C. split; [lq|]. pose proof (iv_live _ _ _ _ _ _ _ I C ltac:(lq)) as G.
      unfold v_cpl in S2. rewrite Sp2, P1, P2, P3, !ptr_eqb, S6 in S2 by lq. rewrite (iv_on _ _ _ _ _ _ _ I C) in S2 by lq.
      destruct (Nat.eqb_spec C (l_n L)); [lq|]. destruct (Nat.eqb_spec C T); [lq|]. cbn in S2.
      rewrite (ag_inv _ _ _ _ _ G), (ag_done _ _ _ _ _ G) in S2.
      destruct (iv_T _ _ _ _ _ _ _ I C ltac:(lq)) as [(X & _)|(X & _)]; [rewrite X in S2; discriminate|].
      assert (Y : p_ts (l_op L C) = None).
      { unfold has_packet in X. destruct (p_ans (l_op L C)) as [[|]|]; try discriminate. destruct (p_ts (l_op L C)); [discriminate|reflexivity]. }
      right. right. right. left. split; [|exact Y]. destruct (iv_txq _ _ _ _ _ _ _ I C ltac:(lq) X) as [Z|(d & Z & _)]; [exact Z|congruence].
  - left. exists T. split; [lq|]. pose proof (iv_live _ _ _ _ _ _ _ I T ltac:(lq)) as G.
    unfold v_tx in S1. rewrite Sp1, P1, P2, !ptr_eqb, S4, S5 in S1 by lq. rewrite (iv_on _ _ _ _ _ _ _ I T) in S1 by lq.
    destruct (Nat.eqb_spec T (l_n L)); [lq|]. cbn [negb andb isnone orb] in S1.
    rewrite (ag_inv _ _ _ _ _ G), (ag_fet _ _ _ _ _ G) in S1.
    destruct (p_ans (l_op L T)) as [[aq|]|] eqn:Ea; [|discriminate|].
    + destruct (p_whole (l_op L T)) eqn:Ew.
      * destruct (p_descs (l_op L T)) as [|d ds] eqn:Ed; [destruct (ag_none _ _ _ _ _ G Ed); congruence|].
        destruct (ag_desc _ _ _ _ _ G _ _ Ed) as (_ & _ & _ & _ & X4 & X5 & X6 & _). rewrite X4, Ew in S1. cbn [andb] in S1.
        pose proof (iv_range _ _ _ _ _ _ _ I (slot c T)) as [R1 R2]. rewrite S9 in X6. cbn [filter] in X6. rewrite app_nil_r in X6.
        assert (Y1 : length (p_reads (l_op L T)) = issued (p_descs (l_op L T))) by (rewrite X6; apply places_length).
        pose proof (ag_got _ _ _ _ _ G) as Y2. pose proof (issued_le (p_descs (l_op L T))) as Y3. pose proof (ag_few _ _ _ _ _ G) as Y4.
        rewrite (counters _ _ _ _ _ (proj1 (proj2 (proj2 Sn))) R1 R2 X5) in S1 by (clear - Y1 Y2 Y3 Y4; lia).
        right. right. left. destruct (Z.eqb_spec (Z.of_nat (issued (p_descs (l_op L T)))) (Z.of_nat (p_got (l_op L T)))) as [Z|Z]; [discriminate|].
        clear - Y1 Y2 Z. lia.
      * right. left. split; [unfold has_packet; rewrite Ea; reflexivity|exact Ew].
    + left. split; [|exact Ea]. destruct (iv_ask _ _ _ _ _ _ _ I T ltac:(lq)) as [X|[_ X]]; [exact X|congruence].
Qed.

Lemma idle_lawful c is : Forall idle is -> forall s L, lawful_from c L is (snd (trace (e_step c) s is)).
Proof.
  induction 1 as [|i is Hi H IH]; intros s L; cbn [trace]; [exact Logic.I|]. destruct (e_step c s i) as [s' o] eqn:E. specialize (IH s').
  destruct (trace (e_step c) s' is) as [s'' os]. cbn [snd lawful_from]. split; [apply idle_owed; exact Hi|apply IH].
Qed.
Lemma idle_settles c : sane c -> forall is, Forall idle is -> forall s L T C F h, inv c s L T C F h ->
  (work s L T C F < length is)%nat -> forall j, idle j -> still c (fst (trace (e_step c) s is)) j.
Proof.
  intros Sn is H.
  assert (Keepst : forall is, Forall idle is -> forall s L T C F h i j, idle i -> inv c s L T C F h -> still c s i -> idle j -> still c (fst (trace (e_step c) s is)) j).
  { clear is H. induction 1 as [|i1 is1 Hi1 H1 IH]; intros s L T C F h i j Hi I St Hj; cbn [trace fst].
    - destruct St as (S1 & S2 & S3 & S4). unfold still. splits; auto; try apply S4. unfold v_cpl in *.
      destruct Hi as (_ & _ & _ & _ & _ & _ & _ & _ & _ & _ & Hc & _). destruct Hj as (_ & _ & _ & _ & _ & _ & _ & _ & _ & _ & Hc' & _). rewrite Hc in S2. rewrite Hc'. exact S2.
    - assert (St1 : still c s i1).
      { destruct St as (S1 & S2 & S3 & S4). unfold still. splits; auto; try apply S4. unfold v_cpl in *.
        destruct Hi as (_ & _ & _ & _ & _ & _ & _ & _ & _ & _ & Hc & _). destruct Hi1 as (_ & _ & _ & _ & _ & _ & _ & _ & _ & _ & Hc' & _). rewrite Hc in S2. rewrite Hc'. exact S2. }
      pose proof (step_inv c s L T C F h i1 Sn I (idle_owed c L i1 _ Hi1)) as I1.
      pose proof (still_step c s i1 j Hi1 Hj (iv_skid _ _ _ _ _ _ _ I) St1) as St2.
      destruct (e_step c s i1) as [s' o] eqn:E. cbn [fst snd] in *. specialize (IH _ _ _ _ _ _ j j Hj I1 St2 Hj).
      destruct (trace (e_step c) s' is1) as [s'' os]. exact IH. }
  induction H as [|i is Hi H IH]; intros s L T C F h I Lt j Hj; [cbn in Lt; lia|].
  destruct (idle_work c s L T C F h i Sn I Hi) as [St|Dec].
  - apply (Keepst (i :: is) (Forall_cons _ Hi H) s L T C F h i j Hi I St Hj).
  - pose proof (step_inv c s L T C F h i Sn I (idle_owed c L i _ Hi)) as I1. cbn [trace].
    destruct (e_step c s i) as [s' o] eqn:E. cbn [fst snd] in *. cbn [length] in Lt.
    specialize (IH _ _ _ _ _ _ I1 ltac:(lia) j Hj). destruct (trace (e_step c) s' is) as [s'' os]. exact IH.
Qed.
Lemma work_bound c s L T C F h : inv c s L T C F h -> (work s L T C F <= 7 * e_n c + 8)%nat.
Proof.
  intros I. pose proof (iv_cnt _ _ _ _ _ _ _ I) as Q. unfold work, skid_content. rewrite app_length.
  assert (W : forall A (x : option A), (w x <= 1)%nat) by (intros A []; cbn; lia).
  assert (O : forall A (x : option A), (length (olist x) <= 1)%nat) by (intros A []; cbn; lia).
  pose proof (W _ (x_tx s)). pose proof (W _ (x_ck s)). pose proof (W _ (x_cpl s)). pose proof (W _ (x_fin s)). pose proof (W _ (x_stat s)). pose proof (W _ (x_dreq s)).
  pose proof (O _ (k_out (x_skid s))). pose proof (O _ (k_tmp (x_skid s))). lia.
Qed.

Lemma flat_map_ext_in {A B} (f g : A -> list B) l : (forall x, In x l -> f x = g x) -> flat_map f l = flat_map g l.
Proof. induction l as [|x l IH]; intros H; cbn; [reflexivity|]. rewrite H, IH; [reflexivity|intros; apply H; right; assumption|left; reflexivity]. Qed.
Lemma trace_snoc {S I O} (f : S -> I -> S * O) s is i : fst (trace f s (is ++ [i])) = fst (f (fst (trace f s is)) i) /\
  snd (trace f s (is ++ [i])) = snd (trace f s is) ++ [snd (f (fst (trace f s is)) i)].
Proof.
  rewrite trace_app. destruct (trace f s is) as [s1 o1]. cbn [trace fst snd]. destruct (f s1 i) as [s2 o2]. auto.
Qed.
Lemma lawful_app c is1 : forall is2 os1 os2 L, length is1 = length os1 ->
  lawful_from c L is1 os1 -> lawful_from c (fold_left (keep c) (combine is1 os1) L) is2 os2 -> lawful_from c L (is1 ++ is2) (os1 ++ os2).
Proof.
  induction is1 as [|i is1 IH]; intros is2 [|o os1] os2 L E A B; cbn in *; try discriminate; [exact B|].
  destruct A as [A1 A2]. split; [exact A1|]. apply IH; [lia|exact A2|exact B].
Qed.

Section Live.
  Variables (c : ecfg) (s : est) (is1 is2 : list ein).
  Hypothesis Sane : sane c.
  Hypothesis St : started c s.
  Notation is := (is1 ++ is2).
  Notation os := (snd (trace (e_step c) s is)).
  Notation L := (ledger_of c is os).
  Hypothesis W : lawful c is1 (snd (trace (e_step c) s is1)).
  Hypothesis Idle : Forall idle is2.
  Hypothesis Long : (7 * e_n c + 10 <= length is2)%nat.

  Lemma live_result : (exists k, (k < l_n L)%nat /\ waits (l_op L k)) \/
    (forall k, (k < l_n L)%nat -> settled (l_op L k)) /\
    Forall2 (fun k d => tx_as c k (l_op L k) d) (packets L) (over tx_out is os) /\
    (e_csum c = true -> Forall2 (fun k d => ck_as (l_op L k) d) (packets L) (over ck_out is os)) /\
    Forall2 (fun k d => cpl_as c k (l_op L k) d) (packets L) (over cpl_out is os) /\
    Permutation (statuses os) (flat_map (fun k => due (l_op L k)) (seq 0 (l_n L))) /\
    (forall i, o_ready (snd (e_step c (fst (trace (e_step c) s is)) i)) = true).
  Proof.
    destruct (run_inv c Sane is1 s l0 0 0 0 _ (fresh_inv c s Sane St) W) as (T1 & C1 & F1 & I1). cbn [h_dr h_tx h_ck h_cpl h_st app] in I1.
    set (s1 := fst (trace (e_step c) s is1)) in *. set (o1 := snd (trace (e_step c) s is1)) in *.
    assert (Tr : forall is3, trace (e_step c) s (is1 ++ is3) = (fst (trace (e_step c) s1 is3), o1 ++ snd (trace (e_step c) s1 is3))).
    { intros is3. rewrite trace_app. unfold s1, o1. destruct (trace (e_step c) s is1) as [a b]. cbn [fst snd]. destruct (trace (e_step c) a is3). reflexivity. }
    assert (L1 : length is1 = length o1) by (unfold o1; rewrite trace_length; reflexivity).
    assert (Wf : lawful c is os).
    { rewrite Tr. cbn [snd]. apply lawful_app; [exact L1|exact W|]. apply idle_lawful. exact Idle. }
    destruct (final c s is Sane St Wf) as (T & C & F & I).
    pose proof (work_bound _ _ _ _ _ _ _ I1) as Wb.
    assert (Hl : is2 <> []) by (intros X; rewrite X in Long; cbn in Long; lia).
    destruct (exists_last Hl) as (is3 & j & E2).
    assert (Hj : idle j /\ Forall idle is3) by (rewrite E2 in Idle; apply Forall_app in Idle; destruct Idle as [A B]; inversion B; auto). destruct Hj as [Hj Id3].
    assert (Ll : (work s1 (fold_left (keep c) (combine is1 o1) l0) T1 C1 F1 < length is3)%nat).
    { rewrite E2, app_length in Long. cbn [length] in Long. lia. }
    pose proof (idle_settles c Sane is2 Idle _ _ _ _ _ _ I1 ltac:(lia) j Hj) as Stl.
    pose proof (idle_settles c Sane is3 Id3 _ _ _ _ _ _ I1 Ll j Hj) as Stl3.
    assert (Ef : fst (trace (e_step c) s is) = fst (trace (e_step c) s1 is2)) by (rewrite Tr; reflexivity). rewrite <- Ef in Stl.
    assert (Es : fst (trace (e_step c) s is) = fst (e_step c (fst (trace (e_step c) s1 is3)) j)).
    { rewrite Ef, E2. apply trace_snoc. }
    set (s3 := fst (trace (e_step c) s1 is3)) in *.
    destruct (still_means c _ L T C F _ j Sane I Hj Stl) as [X|(Xf & Xc & Xt)]; [left; exact X|right].
    assert (All : forall k, (k < l_n L)%nat -> settled (l_op L k)) by (intros k A; apply (iv_old _ _ _ _ _ _ _ I); lia).
    pose proof Stl as (_ & _ & _ & Z4 & Z5 & Z6 & Z7 & Z8 & _ & _).
    splits.
    - exact All.
    - pose proof (iv_tx _ _ _ _ _ _ _ I) as Y. cbn [h_tx] in Y. rewrite Z4, Xt in Y. cbn [olist] in Y. rewrite app_nil_r in Y. exact Y.
    - intros Hc. pose proof (iv_ck _ _ _ _ _ _ _ I) as Y. cbn [h_ck] in Y. rewrite Hc, Z5, Xt in Y. cbn [olist] in Y. rewrite app_nil_r in Y. exact Y.
    - pose proof (iv_cpl _ _ _ _ _ _ _ I) as Y. cbn [h_cpl] in Y. rewrite Z6, Xc in Y. cbn [olist] in Y. rewrite app_nil_r in Y. exact Y.
    - pose proof (iv_st _ _ _ _ _ _ _ I) as Y. cbn [h_st] in Y. rewrite Z7, Z8 in Y. cbn [olist app] in Y. rewrite app_nil_r in Y.
      rewrite Y. apply Permutation_refl'. apply flat_map_ext_in. intros k Hk. apply in_seq in Hk. unfold duef, due. destruct (Nat.ltb_spec k F); [|lia].
      destruct (All k ltac:(lia)) as [B|(_ & _ & _ & _ & B)]; [rewrite B; reflexivity|]. rewrite B. destruct (p_ans (l_op L k)) as [[|]|]; reflexivity.
    - intros i. change (x_ready (fst (trace (e_step c) s is)) = true).
      destruct (still_same c s3 j Hj Stl3) as (Q1 & Q2 & Q3 & Q4 & Q5). rewrite <- Es in Q1, Q2, Q3, Q4, Q5. rewrite Q5, <- Q4, <- Q2, <- Q3, <- Q1.
      pose proof (iv_ptr _ _ _ _ _ _ _ I) as (P1 & _ & _ & P4). pose proof (iv_cnt _ _ _ _ _ _ _ I) as Qc. pose proof (N_pos c).
      rewrite P1, P4, pdiff_ok by lia. rewrite slot_ptr. rewrite (iv_off _ _ _ _ _ _ _ I) by lia.
      rewrite (iv_num _ _ _ _ _ _ _ I). rewrite flat_map_none.
      + destruct Sane as (_ & _ & _ & _ & _ & _ & _ & Sr & _). cbn [length]. destruct (Z.ltb_spec (Z.of_nat 0) (e_req c)); [|lia].
        destruct (Nat.ltb_spec (l_n L - F) (e_n c)); [reflexivity|lia].
      + intros k Hk. unfold unf. destruct (All k Hk) as [B|(B & _)]; [rewrite B; reflexivity|].
        destruct (iv_T _ _ _ _ _ _ _ I k ltac:(lia)) as [(D & _)|(D & _)]; [rewrite D; reflexivity|].
        unfold has_packet in D. destruct (p_ans (l_op L k)) as [[|]|]; try discriminate. rewrite B. reflexivity.
  Qed.
End Live.
