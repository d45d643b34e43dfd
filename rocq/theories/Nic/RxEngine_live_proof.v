From Coq Require Import Permutation.
From Verif Require Import Base.Prelude Base.Bits Rtl.Handshake_spec Rtl.Handshake_proof Stream.Axis_model Stream.Axis_proof
  Nic.RxEngine_model Nic.RxEngine_spec Nic.RxEngine_proof.
From Coq Require Import Lia Arith ZArith.
Local Open Scope Z_scope.
#[local] Unset Implicit Arguments.

Definition w {A} (x : option A) : nat := match x with Some _ => 1 | None => 0 end.
Definition work (s : gst) (L : ledger) (D C F : nat) : nat :=
  (2 * (l_n L - D) + w (x_dreq s) + 2 * (l_n L - C) + w (x_cpl s) + 2 * (l_n L - F) + w (x_stat s) + length (skid_content (x_skid s)) + w (x_rx s))%nat.
Definition still (c : gcfg) (s : gst) (i : gin) : Prop :=
  v_deq c s = false /\ v_cpl c s i = Wait /\ v_fin c s = Wait /\ x_dreq s = None /\ x_cpl s = None /\ x_stat s = None /\
  skid_content (x_skid s) = [] /\ x_rx s = None.

Lemma idle_owed c L i o : idle i -> owed c L i o.
Proof.
  intros (R & _ & _ & Rx & Mp & An & Ds & Wd & _ & Ca & _). unfold owed. splits; try congruence.
  intros d t l. unfold desc_in. rewrite Ds. destruct (o_dready o); discriminate.
Qed.
Lemma idle_n c s i L : idle i -> l_n (keep c L (i, snd (g_step c s i))) = l_n L.
Proof. intros (_ & _ & R & _). unfold keep, req_in. rewrite R. destruct (o_ready _); reflexivity. Qed.

Lemma idle_work c s L D C F h i : sane c -> inv c s L D C F h -> idle i ->
  still c s i \/ (work (fst (g_step c s i)) (keep c L (i, snd (g_step c s i))) (if v_deq c s then S D else D)
    (if moves (v_cpl c s i) then S C else C) (if moves (v_fin c s) then S F else F) < work s L D C F)%nat.
Proof.
  intros Sn I Id. pose proof (idle_owed c L i (snd (g_step c s i)) Id) as W.
  pose proof (deq_moves c s L D C F h I) as Mt. pose proof (cpl_moves c s L D C F h i I) as Mc. pose proof (fin_moves c s L D C F h I) as Mf.
  pose proof (content c s L D C F h i I W) as Ct.
  unfold work. rewrite idle_n by exact Id. destruct Id as (R & _ & Rq & Rx & Mp & An & Ds & Wd & Cs & Ca & Y1 & Y2 & Y3 & Y4).
  assert (Vq : v_req s i = None) by (unfold v_req; rewrite Rq; destruct (x_ready s); reflexivity).
  assert (Vr : v_write c s i = None) by (unfold v_write, v_desc; rewrite Ds; destruct (x_dready s); reflexivity).
  rewrite Vr in Ct. cbn [olist] in Ct. rewrite app_nil_r in Ct. unfold write_out in Ct. rewrite Y3 in Ct.
  assert (Ck : (length (skid_content (x_skid (fst (g_step c s i)))) < length (skid_content (x_skid s)))%nat \/
               skid_content (x_skid s) = [] /\ skid_content (x_skid (fst (g_step c s i))) = []).
  { change (o_write (snd (g_step c s i))) with (k_out (x_skid s)) in Ct. set (k' := skid_content (x_skid (fst (g_step c s i)))) in *. clearbody k'.
    destruct (k_out (x_skid s)) as [r|] eqn:Ek.
    - left. rewrite Ct. cbn [olist app length]. clear. lia.
    - right. assert (Z : skid_content (x_skid s) = []).
      { unfold skid_content. rewrite Ek. destruct (iv_skid _ _ _ _ _ _ _ I) as [_ B]. rewrite (B Ek). reflexivity. }
      rewrite Z in Ct. cbn [olist app] in Ct. auto. }
  assert (Xt : w (x_dreq (fst (g_step c s i))) = if v_deq c s then 1%nat else 0%nat).
  { unfold g_step. rewrite R. cbn [fst x_dreq]. rewrite Y2. destruct (v_deq c s); reflexivity. }
  assert (Xc : w (x_cpl (fst (g_step c s i))) = match v_cpl c s i with Go => 1%nat | _ => 0%nat end).
  { unfold g_step. rewrite R. cbn [fst x_cpl]. rewrite Y4. destruct (v_cpl c s i); reflexivity. }
  assert (Xs : w (x_stat (fst (g_step c s i))) = if moves (v_fin c s) then 1%nat else 0%nat).
  { unfold g_step. rewrite R. cbn [fst x_stat]. destruct (v_fin c s); reflexivity. }
  assert (Xd : w (x_rx (fst (g_step c s i))) = 0%nat).
  { unfold g_step. rewrite R. cbn [fst x_rx]. rewrite Vq, Y1. reflexivity. }
  rewrite Xt, Xc, Xs, Xd. pose proof (iv_cnt _ _ _ _ _ _ _ I) as Q.
  set (lc := length (skid_content (x_skid s))) in *. set (lc' := length (skid_content (x_skid (fst (g_step c s i))))) in *.
  assert (Lc : (lc' < lc)%nat \/ skid_content (x_skid s) = [] /\ (lc' <= lc)%nat).
  { destruct Ck as [Ck|[Ck1 Ck2]]; [left; exact Ck|right]. split; [exact Ck1|]. unfold lc'. rewrite Ck2. cbn [length]. clear. lia. }
  clear Ck Ct Xt Xc Xs Xd. clearbody lc lc'. clear W R Rq Rx Mp An Ds Wd Cs Ca Y1 Y2 Y3 Y4 Vq Vr.
  assert (Gt : (2 * (l_n L - (if v_deq c s then S D else D)) + (if v_deq c s then 1 else 0) < 2 * (l_n L - D) + w (x_dreq s))%nat
    \/ v_deq c s = false /\ x_dreq s = None).
  { destruct (v_deq c s) eqn:E.
    - left. destruct (Mt eq_refl) as (M & M2 & _). rewrite M2. cbn [w]. lia.
    - destruct (x_dreq s); cbn; [left; lia|right; auto]. }
  assert (Gc : (2 * (l_n L - (if moves (v_cpl c s i) then S C else C)) + match v_cpl c s i with Go => 1 | _ => 0 end
     < 2 * (l_n L - C) + w (x_cpl s))%nat \/ v_cpl c s i = Wait /\ x_cpl s = None).
  { destruct (v_cpl c s i) eqn:E; cbn [moves].
    - destruct (x_cpl s); cbn; [left; lia|right; auto].
    - left. destruct Mc as (M & _); [discriminate|]. cbn. destruct (x_cpl s); cbn; lia.
    - left. destruct Mc as (M & _); [discriminate|]. cbn. destruct (x_cpl s); cbn; lia. }
  assert (Gf : (2 * (l_n L - (if moves (v_fin c s) then S F else F)) + (if moves (v_fin c s) then 1 else 0)
     < 2 * (l_n L - F) + w (x_stat s))%nat \/ v_fin c s = Wait /\ x_stat s = None).
  { destruct (v_fin c s) eqn:E; cbn [moves].
    - destruct (x_stat s); cbn; [left; lia|right; auto].
    - left. destruct Mf as (M & _); [discriminate|]. cbn. destruct (x_stat s); cbn; lia.
    - left. destruct Mf as (M & _); [discriminate|]. cbn. destruct (x_stat s); cbn; lia. }
  assert (Gd : (w (x_rx s) = 1 \/ w (x_rx s) = 0 /\ x_rx s = None)%nat) by (destruct (x_rx s); cbn; auto).
  unfold still.
  destruct Gt as [Gt|(Gt1 & Gt2)]; [right|].
  { clear - Gt Gc Gf Gd Lc. destruct Gc as [Gc|(Gc1 & Gc2)]; [|rewrite Gc1, Gc2 in *; cbn [moves w]]; (destruct Gf as [Gf|(Gf1 & Gf2)]; [|rewrite Gf1, Gf2 in *; cbn [moves w]]); lia. }
  destruct Gc as [Gc|(Gc1 & Gc2)]; [right|].
  { rewrite Gt1, Gt2 in *. cbn [w]. clear - Gc Gf Gd Lc. destruct Gf as [Gf|(Gf1 & Gf2)]; [|rewrite Gf1, Gf2 in *; cbn [moves w]]; lia. }
  destruct Gf as [Gf|(Gf1 & Gf2)]; [right|].
  { rewrite Gt1, Gt2, Gc1, Gc2 in *. cbn [moves w]. clear - Gf Gd Lc. lia. }
  rewrite Gt1, Gt2, Gc1, Gc2, Gf1, Gf2. cbn [moves w].
  destruct Lc as [Lc|[Lc1 Lc2]]; [right; clear - Lc Gd; lia|].
  destruct Gd as [Gd|[Gd1 Gd2]]; [right; clear - Lc2 Gd; lia|]. left. splits; auto.
Qed.

Lemma still_same c s L D C F h i : inv c s L D C F h -> idle i -> still c s i ->
  (forall k, x_tab (fst (g_step c s i)) k = x_tab s k) /\ x_sp (fst (g_step c s i)) = x_sp s /\ x_dp (fst (g_step c s i)) = x_dp s /\
  x_kp (fst (g_step c s i)) = x_kp s /\ x_cp (fst (g_step c s i)) = x_cp s /\ x_fp (fst (g_step c s i)) = x_fp s /\ x_cnt (fst (g_step c s i)) = x_cnt s /\
  x_wr (fst (g_step c s i)) = x_wr s /\ x_rd (fst (g_step c s i)) = x_rd s /\
  x_ready (fst (g_step c s i)) = ((x_wr s - x_rd s) mod 2 ^ (g_bl c + 1) <? g_size c - g_max c) && negb (n_act (x_tab s (slot c (x_sp s)))) && (pdiff c (x_sp s) (x_fp s) <? g_n c)%nat.
Proof.
  intros I Id (S1 & S2 & S3 & S4 & S5 & S6 & S7 & S8). pose proof (ck_same c s L D C F h i I) as Vk.
  destruct Id as (R & En & Rq & Rx & Mp & An & Ds & Wd & Cs & Ca & Y1 & Y2 & Y3 & Y4).
  assert (Vq : v_req s i = None) by (unfold v_req; rewrite Rq; destruct (x_ready s); reflexivity).
  assert (Vd : v_desc c s i = None) by (unfold v_desc; rewrite Ds; destruct (x_dready s); reflexivity).
  unfold csum_in in Vk. rewrite Cs in Vk. assert (Vk' : v_ck c s i = Wait) by (destruct (o_cready _); exact Vk). clear Vk.
  split; [intros k; unfold g_step; rewrite R; cbn [fst x_tab]; unfold entry_upd, is_tag; rewrite Vq, Rx, Mp, An, Wd, Ca, S3, Vk'; cbn; destruct (x_tab s k); reflexivity|].
  unfold g_step. rewrite R. cbn [fst x_sp x_dp x_kp x_cp x_fp x_cnt x_wr x_rd x_ready]. rewrite Vq, Vd, An, S1, S2, S3, Vk', En, S8. cbn [moves andb isnone orb].
  splits; try reflexivity; [lia|]. rewrite andb_true_r. reflexivity.
Qed.
Lemma still_step c s L D C F h i j : inv c s L D C F h -> idle i -> idle j -> still c s i -> still c (fst (g_step c s i)) j.
Proof.
  intros I Id Jd St. destruct (still_same c s L D C F h i I Id St) as (Et & E1 & E2 & E3 & E4 & E5 & E6 & _).
  pose proof (iv_skid _ _ _ _ _ _ _ I) as Ki. clear I. destruct St as (S1 & S2 & S3 & S4 & S5 & S6 & S7 & S8).
  destruct Id as (R & En & Rq & Rx & Mp & An & Ds & Wd & Cs & Ca & Y1 & Y2 & Y3 & Y4). destruct Jd as (_ & _ & _ & _ & _ & _ & _ & _ & _ & _ & _ & _ & _ & Jc).
  assert (Vq : v_req s i = None) by (unfold v_req; rewrite Rq; destruct (x_ready s); reflexivity).
  assert (Vd : v_desc c s i = None) by (unfold v_desc; rewrite Ds; destruct (x_dready s); reflexivity).
  assert (Vr : v_write c s i = None) by (unfold v_write; rewrite Vd; reflexivity).
  assert (E0 : x_dreq (fst (g_step c s i)) = None /\ x_cpl (fst (g_step c s i)) = None /\ x_stat (fst (g_step c s i)) = None /\
    skid_content (x_skid (fst (g_step c s i))) = [] /\ x_rx (fst (g_step c s i)) = None).
  { unfold g_step. rewrite R. cbn [fst x_dreq x_cpl x_stat x_skid x_rx]. rewrite Vq, Vr, S1, S2, S3, Y1, Y2, Y3, Y4. splits; try reflexivity.
    pose proof (@skid_step_content wr (x_skid s) None true Ki) as X. rewrite S7 in X. destruct (k_rdy (x_skid s)); cbn [app olist] in X; symmetry in X; apply app_eq_nil in X; apply X. }
  destruct E0 as (E7 & E8 & E9 & E10 & E11). unfold still. rewrite E7, E8, E9, E10, E11. splits; auto.
  - rewrite <- S1. unfold v_deq. rewrite Et, E1, E2, E6, E7, S4. reflexivity.
  - rewrite <- S2. unfold v_cpl. rewrite Et, E1, E2, E3, E4, E8, S5, Y4, Jc. reflexivity.
  - rewrite <- S3. unfold v_fin. rewrite Et, E1, E4, E5. reflexivity.
Qed.

Ltac lq := repeat match goal with
  | H : context [Nat.modulo] |- _ => clear H
  | H : context [Wait] |- _ => clear H
  | H : inv _ _ _ _ _ _ _ |- _ => clear H end; lia.
Lemma flat_map_ne {A B} (f : A -> list B) l : (length (flat_map f l) <> 0)%nat -> exists x, In x l /\ f x <> [].
Proof.
  induction l as [|x l IH]; cbn; [congruence|]. destruct (f x) as [|y ys] eqn:E; [cbn|].
  - intros H. destruct (IH H) as (z & Z1 & Z2). eauto.
  - intros _. exists x. rewrite E. split; [auto|discriminate].
Qed.
(** In a state that stands still, the requests are over or the surroundings owe something. *)
Lemma still_means c s L D C F h i : sane c -> inv c s L D C F h -> idle i -> still c s i ->
  (exists k, (k < l_n L)%nat /\ waits c L k) \/ (F = l_n L /\ C = l_n L /\ D = l_n L).
Proof.
  intros Sn I Id (S1 & S2 & S3 & S4 & S5 & S6 & S7 & S8). pose proof (iv_cnt _ _ _ _ _ _ _ I) as Q.
  pose proof (iv_ptr _ _ _ _ _ _ _ I) as (P1 & P2 & P3 & P4).
  assert (Sp : slot c (x_dp s) = slot c D /\ slot c (x_cp s) = slot c C /\ slot c (x_fp s) = slot c F) by (rewrite P2, P3, P4, !slot_ptr; auto).
  destruct Sp as (Sp1 & Sp2 & Sp3).
  assert (Ask : forall k, (k < D)%nat -> p_dreq (l_op L k) = true).
  { intros k Hk. destruct (iv_ask _ _ _ _ _ _ _ I k Hk) as [X|[_ X]]; [exact X|congruence]. }
  destruct (Nat.eq_dec D (l_n L)) as [Et|Et].
  - destruct (Nat.eq_dec C D) as [Ec|Ec].
    + destruct (Nat.eq_dec F C) as [Ef|Ef]; [right; lq|left].
      exists F. split; [lq|]. pose proof (iv_live _ _ _ _ _ _ _ I F ltac:(lq)) as G.
      unfold v_fin in S3. rewrite Sp3, P1, P3, P4, !ptr_eqb in S3 by lq. rewrite (iv_on _ _ _ _ _ _ _ I F) in S3 by lq.
      destruct (Nat.eqb_spec F (l_n L)); [lq|]. destruct (Nat.eqb_spec F C); [lq|]. cbn in S3.
      rewrite (ag_inv _ _ _ _ _ G), (ag_cw _ _ _ _ _ G) in S3.
      destruct (iv_C _ _ _ _ _ _ _ I F ltac:(lq)) as [(X & _)|(X & _)]; [rewrite X in S3; discriminate|].
      assert (Y : p_written (l_op L F) = false).
      { unfold has_packet in X. destruct (p_ans (l_op L F)) as [[|]|]; try discriminate. destruct (p_written (l_op L F)); [discriminate|reflexivity]. }
      do 6 right. split; [|exact Y]. destruct (iv_cplq _ _ _ _ _ _ _ I F ltac:(lq) X) as [Z|(d & Z & _)]; [exact Z|congruence].
    + left. exists C. split; [lq|]. pose proof (iv_live _ _ _ _ _ _ _ I C ltac:(lq)) as G.
      unfold v_cpl in S2. rewrite Sp2 in S2. rewrite (iv_on _ _ _ _ _ _ _ I C) in S2 by lq. cbn [andb] in S2.
      assert (B : negb (x_cp s =? x_sp s)%nat = true /\ negb (x_cp s =? x_dp s)%nat = true).
      { rewrite P1, P2, P3, !ptr_eqb by lq. destruct (Nat.eqb_spec C (l_n L)); [lq|]. destruct (Nat.eqb_spec C D); [lq|]. auto. }
      destruct B as [B1 B2]. rewrite B1, B2 in S2. cbn [andb] in S2.
      destruct (g_csum c) eqn:Hc.
      * destruct (Nat.le_gt_cases (length (l_cks L)) C) as [Lk|Lk]; [right; right; left; split; [exact Hc|exact Lk]|].
        destruct (iv_k _ _ _ _ _ _ _ I Hc) as ((K1 & K2) & Kp). rewrite P3, Kp, ptr_eqb in S2 by lq. destruct (Nat.eqb_spec C (length (l_cks L))); [lq|]. cbn [negb orb] in S2.
        rewrite (ag_inv _ _ _ _ _ G), (ag_nw _ _ _ _ _ G), S5 in S2. cbn [isnone orb] in S2. rewrite andb_true_r in S2.
        destruct (p_ans (l_op L C)) as [[aq|]|] eqn:Ea; [|discriminate|].
        -- do 5 right. left. split; [unfold has_packet; rewrite Ea; reflexivity|]. destruct (Nat.ltb_spec 0 (p_got (l_op L C))); [discriminate|lia].
        -- do 3 right. left. split; [apply Ask; lq|exact Ea].
      * rewrite orb_true_r in S2.
        rewrite (ag_inv _ _ _ _ _ G), (ag_nw _ _ _ _ _ G), S5 in S2. cbn [isnone orb] in S2. rewrite andb_true_r in S2.
        destruct (p_ans (l_op L C)) as [[aq|]|] eqn:Ea; [|discriminate|].
        -- do 5 right. left. split; [unfold has_packet; rewrite Ea; reflexivity|]. destruct (Nat.ltb_spec 0 (p_got (l_op L C))); [discriminate|lia].
        -- do 3 right. left. split; [apply Ask; lq|exact Ea].
  - left. pose proof (iv_live _ _ _ _ _ _ _ I D ltac:(lq)) as G.
    unfold v_deq in S1. rewrite Sp1, (iv_on _ _ _ _ _ _ _ I D), P1, P2, ptr_eqb, S4 in S1 by lq. destruct (Nat.eqb_spec D (l_n L)); [lq|]. cbn [negb andb isnone] in S1. rewrite andb_true_r in S1.
    destruct (p_queue (l_op L D)) as [q|] eqn:Eq.
    + pose proof (ag_q _ _ _ _ _ G) as Gq. rewrite Eq in Gq. destruct Gq as (Gq & _). rewrite Gq in S1. cbn [andb] in S1. apply Z.ltb_ge in S1.
      rewrite (iv_num _ _ _ _ _ _ _ I) in S1. destruct Sn as (_ & _ & _ & _ & _ & _ & Sr).
      destruct (flat_map_ne (unf L) (seq 0 D)) as (k & K1 & K2); [clear - S1 Sr; lia|]. apply in_seq in K1. exists k. split; [lq|]. unfold unf in K2.
      destruct (p_ans (l_op L k)) as [[aq|]|] eqn:Ea; [|congruence|].
      * do 4 right. left. split; [unfold has_packet; rewrite Ea; reflexivity|]. destruct (p_whole (l_op L k)); [congruence|reflexivity].
      * do 3 right. left. split; [apply Ask; lq|exact Ea].
    + exists D. split; [lq|]. destruct (p_rx (l_op L D)) as [r|] eqn:Er; [right; left; split; [congruence|exact Eq]|]. left. split; [|exact Er].
      pose proof (iv_rxn _ _ _ _ _ _ _ I) as Ln. rewrite S8 in Ln. cbn [olist] in Ln. rewrite app_nil_r in Ln. pose proof (iv_rxl _ _ _ _ _ _ _ I) as Y. rewrite Ln in Y.
      replace (l_n L) with (D + S (l_n L - D - 1))%nat in Y by lq. rewrite seq_app in Y. apply Forall2_app_inv_l in Y. destruct Y as (l1 & l2 & _ & Y & _).
      cbn [seq] in Y. inversion Y as [|? ? ? ? Y1 Y2]. subst. cbn [Nat.add] in Y1. destruct Y1 as [Y1 _]. rewrite Y1. discriminate.
Qed.

Lemma idle_lawful c is : Forall idle is -> forall s L, lawful_from c L is (snd (trace (g_step c) s is)).
Proof.
  induction 1 as [|i is Hi H IH]; intros s L; cbn [trace]; [exact Logic.I|]. destruct (g_step c s i) as [s' o] eqn:E. specialize (IH s').
  destruct (trace (g_step c) s' is) as [s'' os]. cbn [snd lawful_from]. split; [apply idle_owed; exact Hi|apply IH].
Qed.
Lemma still_any c s i j : idle i -> idle j -> still c s i -> still c s j.
Proof.
  intros (_ & _ & _ & _ & _ & _ & _ & _ & _ & _ & _ & _ & _ & Hc) (_ & _ & _ & _ & _ & _ & _ & _ & _ & _ & _ & _ & _ & Hc') (S1 & S2 & S3).
  split; [exact S1|]. split; [|exact S3]. unfold v_cpl in *. rewrite Hc in S2. rewrite Hc'. exact S2.
Qed.
Lemma idle_settles c : sane c -> forall is, Forall idle is -> forall s L D C F h, inv c s L D C F h ->
  (work s L D C F < length is)%nat -> forall j, idle j -> still c (fst (trace (g_step c) s is)) j.
Proof.
  intros Sn is H.
  assert (Keepst : forall is, Forall idle is -> forall s L D C F h i j, idle i -> inv c s L D C F h -> still c s i -> idle j -> still c (fst (trace (g_step c) s is)) j).
  { clear is H. induction 1 as [|i1 is1 Hi1 H1 IH]; intros s L D C F h i j Hi I St Hj; cbn [trace fst]; [exact (still_any c s i j Hi Hj St)|].
    pose proof (step_inv c s L D C F h i1 Sn I (idle_owed c L i1 _ Hi1)) as I1.
    pose proof (still_step c s L D C F h i1 j I Hi1 Hj (still_any c s i i1 Hi Hi1 St)) as St2.
    destruct (g_step c s i1) as [s' o] eqn:E. cbn [fst snd] in *. specialize (IH _ _ _ _ _ _ j j Hj I1 St2 Hj).
    destruct (trace (g_step c) s' is1) as [s'' os]. exact IH. }
  induction H as [|i is Hi H IH]; intros s L D C F h I Lt j Hj; [cbn in Lt; lia|].
  destruct (idle_work c s L D C F h i Sn I Hi) as [St|Dec].
  - apply (Keepst (i :: is) (Forall_cons _ Hi H) s L D C F h i j Hi I St Hj).
  - pose proof (step_inv c s L D C F h i Sn I (idle_owed c L i _ Hi)) as I1. cbn [trace].
    destruct (g_step c s i) as [s' o] eqn:E. cbn [fst snd] in *. cbn [length] in Lt.
    specialize (IH _ _ _ _ _ _ I1 ltac:(lia) j Hj). destruct (trace (g_step c) s' is) as [s'' os]. exact IH.
Qed.
Lemma work_bound c s L D C F h : inv c s L D C F h -> (work s L D C F <= 6 * g_n c + 6)%nat.
Proof.
  intros I. pose proof (iv_cnt _ _ _ _ _ _ _ I) as Q. unfold work, skid_content. rewrite app_length.
  assert (W : forall A (x : option A), (w x <= 1)%nat) by (intros A []; cbn; lia).
  assert (O : forall A (x : option A), (length (olist x) <= 1)%nat) by (intros A []; cbn; lia).
  pose proof (W _ (x_rx s)). pose proof (W _ (x_cpl s)). pose proof (W _ (x_stat s)). pose proof (W _ (x_dreq s)).
  pose proof (O _ (k_out (x_skid s))). pose proof (O _ (k_tmp (x_skid s))). lia.
Qed.
Lemma trace_snoc {S I O} (f : S -> I -> S * O) s is i : fst (trace f s (is ++ [i])) = fst (f (fst (trace f s is)) i) /\
  snd (trace f s (is ++ [i])) = snd (trace f s is) ++ [snd (f (fst (trace f s is)) i)].
Proof.
  rewrite trace_app. destruct (trace f s is) as [s1 o1]. cbn [trace fst snd]. destruct (f s1 i) as [s2 o2]. auto.
Qed.
Lemma lawful_app c is1 : forall is2 os1 os2 L, length is1 = length os1 ->
  lawful_from c L is1 os1 -> lawful_from c (fold_left (keep c) (combine is1 os1) L) is2 os2 -> lawful_from c L (is1 ++ is2) (os1 ++ os2).
Proof.
  induction is1 as [|i is1 IH]; intros is2 [|o os1] os2 L E A B; cbn in *; try discriminate; [exact B|].
  destruct A as [A1 A2]. split; [exact A1|]. apply IH; [lia|exact A2|exact B].
Qed.

Section Live.
  Variables (c : gcfg) (s : gst) (is1 is2 : list gin).
  Hypothesis Sane : sane c.
  Hypothesis St : started c s.
  Notation is := (is1 ++ is2).
  Notation os := (snd (trace (g_step c) s is)).
  Notation L := (ledger_of c is os).
  Hypothesis W : lawful c is1 (snd (trace (g_step c) s is1)).
  Hypothesis Idle : Forall idle is2.
  Hypothesis Long : (6 * g_n c + 8 <= length is2)%nat.

  Lemma live_inv : lawful c is os /\ exists D C F, inv c (fst (trace (g_step c) s is)) L D C F
    (mkH (over rx_out is os) (over dreq_out is os) (over write_out is os) (over cpl_out is os) (statuses os)) /\
    (exists j s3 L3 D3 C3 F3 h3, idle j /\ still c (fst (trace (g_step c) s is)) j /\ inv c s3 L3 D3 C3 F3 h3 /\ still c s3 j /\ fst (trace (g_step c) s is) = fst (g_step c s3 j)).
  Proof.
    destruct (run_inv c Sane is1 s l0 0 0 0 _ (fresh_inv c s Sane St) W) as (D1 & C1 & F1 & I1). cbn [h_rx h_dr h_w h_cpl h_st app] in I1.
    set (s1 := fst (trace (g_step c) s is1)) in *. set (o1 := snd (trace (g_step c) s is1)) in *.
    assert (Tr : forall is3, trace (g_step c) s (is1 ++ is3) = (fst (trace (g_step c) s1 is3), o1 ++ snd (trace (g_step c) s1 is3))).
    { intros is3. rewrite trace_app. unfold s1, o1. destruct (trace (g_step c) s is1) as [a b]. cbn [fst snd]. destruct (trace (g_step c) a is3). reflexivity. }
    assert (L1 : length is1 = length o1) by (unfold o1; rewrite trace_length; reflexivity).
    assert (Wf : lawful c is os).
    { rewrite Tr. cbn [snd]. apply lawful_app; [exact L1|exact W|]. apply idle_lawful. exact Idle. }
    split; [exact Wf|]. destruct (final c s is Sane St Wf) as (D & C & F & I). exists D, C, F. split; [exact I|].
    pose proof (work_bound _ _ _ _ _ _ _ I1) as Wb.
    assert (Hl : is2 <> []) by (intros X; rewrite X in Long; cbn in Long; lia).
    destruct (exists_last Hl) as (is3 & j & E2).
    assert (Hj : idle j /\ Forall idle is3) by (rewrite E2 in Idle; apply Forall_app in Idle; destruct Idle as [A B]; inversion B; auto). destruct Hj as [Hj Id3].
    assert (Ll : (work s1 (fold_left (keep c) (combine is1 o1) l0) D1 C1 F1 < length is3)%nat).
    { rewrite E2, app_length in Long. cbn [length] in Long. lia. }
    pose proof (idle_settles c Sane is2 Idle _ _ _ _ _ _ I1 ltac:(lia) j Hj) as Stl.
    pose proof (idle_settles c Sane is3 Id3 _ _ _ _ _ _ I1 Ll j Hj) as Stl3.
    assert (Ef : fst (trace (g_step c) s is) = fst (trace (g_step c) s1 is2)) by (rewrite Tr; reflexivity). rewrite <- Ef in Stl.
    assert (Es : fst (trace (g_step c) s is) = fst (g_step c (fst (trace (g_step c) s1 is3)) j)) by (rewrite Ef, E2; apply trace_snoc).
    destruct (run_inv c Sane is3 s1 _ _ _ _ _ I1 (idle_lawful c is3 Id3 _ _)) as (D3 & C3 & F3 & I3).
    exists j. eexists. do 5 eexists. split; [exact Hj|]. split; [exact Stl|]. split; [exact I3|]. split; [exact Stl3|exact Es].
  Qed.
  Lemma live_result : (exists k, (k < l_n L)%nat /\ waits c L k) \/
    (forall k, (k < l_n L)%nat -> settled c k (l_op L k)) /\
    length (over rx_out is os) = l_n L /\ length (over dreq_out is os) = l_n L /\
    Forall2 (cpl_as c L) (packets L) (over cpl_out is os) /\
    statuses os = map (fun k => status_of (l_op L k)) (seq 0 (l_n L)).
  Proof.
    destruct live_inv as (Wf & D & C & F & I & j & _ & _ & _ & _ & _ & _ & Hj & Stl & _).
    destruct (still_means c _ L D C F _ j Sane I Hj Stl) as [X|(Xf & Xc & Xd)]; [left; exact X|right].
    pose proof Stl as (_ & _ & _ & Z4 & Z5 & Z6 & _ & Z8).
    split; [intros k A; apply (iv_old _ _ _ _ _ _ _ I); lia|]. split; [|split; [|split]].
    - pose proof (iv_rxn _ _ _ _ _ _ _ I) as Y. cbn [h_rx] in Y. rewrite Z8 in Y. cbn [olist] in Y. rewrite app_nil_r in Y. exact Y.
    - pose proof (iv_dr _ _ _ _ _ _ _ I) as Y. cbn [h_dr] in Y. rewrite Z4, Xd in Y. cbn [olist] in Y. rewrite app_nil_r in Y.
      apply Forall2_len in Y. rewrite seq_length in Y. auto.
    - pose proof (iv_cpl _ _ _ _ _ _ _ I) as Y. cbn [h_cpl] in Y. rewrite Z5, Xc in Y. cbn [olist] in Y. rewrite app_nil_r in Y. exact Y.
    - pose proof (iv_st _ _ _ _ _ _ _ I) as Y. cbn [h_st] in Y. rewrite Z6, Xf in Y. cbn [olist] in Y. rewrite app_nil_r in Y. exact Y.
  Qed.
End Live.
