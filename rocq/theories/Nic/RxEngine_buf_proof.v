From Coq Require Import Permutation.
From Verif Require Import Base.Prelude Base.Bits Rtl.Handshake_spec Rtl.Handshake_proof Stream.Axis_model Stream.Axis_proof
  Nic.RxEngine_model Nic.RxEngine_spec Nic.RxEngine_proof Nic.RxEngine_live_proof.
From Coq Require Import Lia Arith ZArith.
Local Open Scope Z_scope.
#[local] Unset Implicit Arguments.

Section Places.
  Variables (c : gcfg) (m : Z).
  Hypothesis Sn : sane c.
  Hypothesis Rm : roomy c m.
  Notation M := (mtu_of c m).
  Notation B := (2 ^ g_bl c).
  Notation T := (2 ^ g_sl c).
  (** Where packet number [k] begins, with laps counted. *)
  Definition after (a : Z) : Z := if g_size c - g_max c <? a mod B + M then (a / B + 1) * B else up c (a + M).
  Fixpoint at_ (k : nat) : Z := match k with O => 0 | S k => after (at_ k) end.

  Lemma T_pos : 0 < T.
  Proof. apply Z.pow_pos_nonneg; [lia|]. apply Sn. Qed.
  Lemma bl_nonneg : 0 <= g_bl c.
  Proof. apply Z.log2_up_nonneg. Qed.
  Lemma B_pos : 0 < B.
  Proof. apply Z.pow_pos_nonneg; [lia|apply bl_nonneg]. Qed.
  Lemma size_B : g_size c <= B.
  Proof.
    destruct (Z.eq_dec (g_size c) 1) as [E|E]; [rewrite E; pose proof B_pos; lia|]. destruct Sn as (_ & _ & _ & _ & _ & S6 & _).
    destruct (Z.log2_up_spec (g_size c)) as [_ X]; [lia|]. exact X.
  Qed.
  Lemma T_B : exists q, B = q * T.
  Proof.
    exists (2 ^ (g_bl c - g_sl c)). destruct Rm as (_ & _ & _ & R & _). destruct Sn as (_ & _ & _ & _ & S5 & _). rewrite <- Z.pow_add_r by lia. f_equal. lia.
  Qed.
  Lemma up_spec x : x <= up c x < x + T /\ exists q, up c x = q * T.
  Proof.
    pose proof T_pos. unfold up. pose proof (Z.div_mod (x + T - 1) T ltac:(lia)). pose proof (Z.mod_pos_bound (x + T - 1) T ltac:(lia)). split; [lia|eauto].
  Qed.
  Lemma up_shift x q : up c (x + q * T) = up c x + q * T.
  Proof. unfold up. replace (x + q * T + T - 1) with (x + T - 1 + q * T) by lia. rewrite Z.div_add by (pose proof T_pos; lia). lia. Qed.
  Lemma up_mono x y : x <= y -> up c x <= up c y.
  Proof. intros H. unfold up. pose proof T_pos. apply Z.mul_le_mono_nonneg_r; [lia|]. apply Z.div_le_mono; lia. Qed.
  Lemma M_pos : 0 < M <= g_max c.
  Proof. destruct Rm as (R & _). destruct Sn as ((S1 & _) & _). unfold mtu_of. lia. Qed.

  Definition fits (a : Z) : Prop := 0 <= a /\ a mod B + M <= g_size c.
  Lemma after_ok a : fits a -> fits (after a) /\ a + M <= after a /\ after a <= a + B.
  Proof.
    intros (A0 & A). pose proof B_pos as Bp. pose proof size_B as Sb. pose proof M_pos as Mp. pose proof (Z.div_mod a B ltac:(lia)) as Dm. pose proof (Z.mod_pos_bound a B Bp) as Mb.
    destruct Rm as (_ & R2 & R3 & _). unfold after, fits. destruct (Z.ltb_spec (g_size c - g_max c) (a mod B + M)) as [X|X].
    - replace ((a / B + 1) * B) with (B * (a / B) + B) by ring. replace ((B * (a / B) + B) mod B) with 0.
      + assert (M <= g_size c) by (pose proof (up_spec (g_size c - g_max c)); lia). lia.
      + symmetry. replace (B * (a / B) + B) with ((a / B + 1) * B) by ring. apply Z.mod_mul. lia.
    - destruct T_B as (q & Eq). pose proof (up_spec (a + M)) as (U & _).
      assert (E : up c (a + M) = up c (a mod B + M) + a / B * B).
      { rewrite Dm at 1. replace (B * (a / B) + a mod B + M) with (a mod B + M + (a / B * q) * T) by (rewrite Eq; ring). rewrite up_shift. rewrite Eq. ring. }
      pose proof (up_mono _ _ X) as U2. pose proof (up_spec (a mod B + M)) as (U3 & _).
      rewrite E. rewrite Z.mod_add by lia. rewrite (Z.mod_small (up c (a mod B + M))) by lia. rewrite E in U. clear E Eq. lia.
  Qed.
  Lemma at_fits k : fits (at_ k).
  Proof.
    induction k as [|k IH]; cbn [at_]; [|apply after_ok; exact IH]. unfold fits. rewrite Z.mod_0_l by (pose proof B_pos; lia).
    destruct Rm as (_ & R2 & R3 & _). pose proof (up_spec (g_size c - g_max c)). lia.
  Qed.
  Lemma at_step k : at_ k + M <= at_ (S k) <= at_ k + B.
  Proof. cbn [at_]. destruct (after_ok _ (at_fits k)) as (_ & A). exact A. Qed.
  Lemma at_mono j k : (j <= k)%nat -> at_ j <= at_ k.
  Proof. intros H. induction H as [|k H IH]; [lia|]. pose proof (at_step k). pose proof M_pos. lia. Qed.
  Lemma at_lt j k : (j < k)%nat -> at_ j + M <= at_ k.
  Proof. intros H. pose proof (at_step j). pose proof (at_mono (S j) k ltac:(lia)). lia. Qed.
  Lemma BB : 2 ^ (g_bl c + 1) = 2 * B.
  Proof. rewrite Z.pow_add_r by (pose proof bl_nonneg; lia). change (2 ^ 1) with 2. ring. Qed.
  Lemma mod_BB a : (a mod (2 * B)) mod B = a mod B.
  Proof.
    pose proof B_pos. rewrite (Z.mod_eq a (2 * B)) by lia. replace (a - 2 * B * (a / (2 * B))) with (a + (- (2 * (a / (2 * B)))) * B) by ring. apply Z.mod_add. lia.
  Qed.
  Lemma buf_after_ok a : 0 <= a -> buf_after c (a mod 2 ^ (g_bl c + 1)) M = after a mod 2 ^ (g_bl c + 1).
  Proof.
    intros A. rewrite BB. unfold buf_after, after. rewrite mod_BB, BB. pose proof B_pos as Bp.
    destruct (g_size c - g_max c <? a mod B + M).
    - assert (E : (a mod (2 * B)) / B = (a / B) mod 2).
      { rewrite (Z.mod_eq a (2 * B)) by lia. replace (a - 2 * B * (a / (2 * B))) with (a + (- (2 * (a / (2 * B)))) * B) by ring. rewrite Z.div_add by lia.
        rewrite Z.mod_eq by lia. rewrite Z.div_div by lia. replace (B * 2) with (2 * B) by ring. ring. }
      rewrite E. rewrite Z.mul_mod_distr_r by lia. f_equal.
      pose proof (Z.mod_pos_bound (a / B) 2 ltac:(lia)). pose proof (Z.div_mod (a / B) 2 ltac:(lia)) as Dm.
      destruct (Z.eq_dec ((a / B) mod 2) 0) as [X|X].
      + rewrite X in *. apply (Z.mod_unique _ _ (a / B / 2)); lia.
      + assert (Y : (a / B) mod 2 = 1) by lia. rewrite Y in *. apply (Z.mod_unique _ _ (a / B / 2 + 1)); lia.
    - destruct T_B as (q & Eq). change (up c (a mod (2 * B) + M) mod (2 * B) = up c (a + M) mod (2 * B)).
      rewrite (Z.mod_eq a (2 * B)) by lia. rewrite <- (Z.mod_add (up c (a - 2 * B * (a / (2 * B)) + M)) (a / (2 * B)) (2 * B)) by lia. f_equal.
      replace (a - 2 * B * (a / (2 * B)) + M) with (a + M + (- (2 * q * (a / (2 * B)))) * T) by (rewrite Eq; ring). rewrite up_shift. rewrite Eq. ring.
  Qed.
  (** Two packets less than the window apart do not overlap. *)
  Lemma apart j k : (j < k)%nat -> at_ k - at_ j < g_size c - g_max c ->
    at_ j mod B + M <= at_ k mod B \/ at_ k mod B + M <= at_ j mod B.
  Proof.
    intros H D. pose proof (at_lt j k H) as A. pose proof B_pos as Bp. pose proof size_B as Sb. pose proof M_pos as Mp.
    pose proof (Z.div_mod (at_ j) B ltac:(lia)) as Dj. pose proof (Z.div_mod (at_ k) B ltac:(lia)) as Dk.
    pose proof (Z.mod_pos_bound (at_ j) B Bp) as Mj. pose proof (Z.mod_pos_bound (at_ k) B Bp) as Mk. destruct (at_fits j) as (_ & Fj). destruct (at_fits k) as (_ & Fk).
    set (u := at_ j) in *. set (v := at_ k) in *. set (x := u / B) in *. set (y := v / B) in *. clearbody x y. set (p := u mod B) in *. set (q := v mod B) in *. clearbody p q u v.
    assert (x <= y) by nia. destruct (Z.eq_dec x y) as [->|Ne]; [left; lia|]. assert (y = x + 1) by nia. subst y. right. lia.
  Qed.

  Record binv (s : gst) (L : ledger) (C F : nat) (h : logs) : Prop := mkB {
    bv_mtu : x_ready s = true \/ (0 < l_n L)%nat -> x_mtu s = M;
    bv_wr : x_wr s = at_ (l_n L) mod 2 ^ (g_bl c + 1);
    bv_rd : x_rd s = at_ C mod 2 ^ (g_bl c + 1);
    bv_buf : forall k, (F <= k < l_n L)%nat -> n_buf (x_tab s (slot c k)) = at_ k mod 2 ^ (g_bl c + 1);
    bv_ready : x_ready s = true -> at_ (l_n L) - at_ C < g_size c - g_max c;
    bv_win : forall k, (C <= k < l_n L)%nat -> at_ k - at_ C < g_size c - g_max c;
    bv_rx : h_rx h ++ olist (x_rx s) = map (fun k => mkRxd (g_off c + at_ k mod B) M (slot c k)) (seq 0 (l_n L)) }.

  Lemma dist_small s L D C F h : inv c s L D C F h -> binv s L C F h -> (x_wr s - x_rd s) mod 2 ^ (g_bl c + 1) = at_ (l_n L) - at_ C.
  Proof.
    intros I Bv. rewrite (bv_wr _ _ _ _ _ Bv), (bv_rd _ _ _ _ _ Bv). rewrite <- Zminus_mod. pose proof (iv_cnt _ _ _ _ _ _ _ I) as Q.
    pose proof (at_mono C (l_n L) ltac:(lia)) as Mo. rewrite BB. apply Z.mod_small. split; [lia|]. pose proof B_pos. pose proof size_B. pose proof M_pos.
    destruct (Nat.eq_dec C (l_n L)) as [->|X]; [lia|]. pose proof (bv_win _ _ _ _ _ Bv (l_n L - 1)%nat ltac:(lia)) as Wd.
    pose proof (at_step (l_n L - 1)) as St. replace (S (l_n L - 1)) with (l_n L) in St by lia. lia.
  Qed.

  Lemma step_binv s L D C F h i : inv c s L D C F h -> binv s L C F h -> owed c L i (snd (g_step c s i)) -> i_mtu i = m ->
    binv (fst (g_step c s i)) (keep c L (i, snd (g_step c s i))) (if moves (v_cpl c s i) then S C else C) (if moves (v_fin c s) then S F else F)
      (mkH (h_rx h ++ olist (rx_out i (snd (g_step c s i)))) (h_dr h) (h_w h) (h_cpl h) (h_st h)).
  Proof.
    intros I Bv W Em. pose proof (w_rst c s L i W) as R. pose proof (iv_cnt _ _ _ _ _ _ _ I) as Q.
    pose proof (cpl_moves c s L D C F h i I) as Mc. pose proof (fin_moves c s L D C F h I) as Mf.
    pose proof (n_next c s L i) as Nn. set (L' := keep c L (i, snd (g_step c s i))) in *. clearbody L'.
    assert (Xm : x_mtu (fst (g_step c s i)) = M).
    { unfold g_step. rewrite R. cbn [fst x_mtu]. rewrite Em. unfold mtu_of. destruct (Z.ltb_spec (g_max c) m); lia. }
    assert (Mq : forall t, v_req s i = Some t -> x_ready s = true /\ x_mtu s = M).
    { intros t E. unfold v_req in E. destruct (x_ready s) eqn:Er; [|discriminate]. split; [reflexivity|]. apply (bv_mtu _ _ _ _ _ Bv). auto. }
    assert (Cm : at_ C <= at_ (if moves (v_cpl c s i) then S C else C)) by (apply at_mono; destruct (moves (v_cpl c s i)); lia).
    assert (Cn : (C <= (if moves (v_cpl c s i) then S C else C) <= l_n L)%nat).
    { destruct (v_cpl c s i) eqn:E; cbn [moves]; [lia| |]; destruct Mc as (M1 & _); try discriminate; lia. }
    assert (Fn : (F <= (if moves (v_fin c s) then S F else F))%nat) by (destruct (moves (v_fin c s)); lia).
    pose proof (dist_small s L D C F h I Bv) as Ds.
    constructor; cbn [h_rx].
    - intros _. exact Xm.
    - unfold g_step. rewrite R. cbn [fst x_wr]. rewrite Nn. destruct (v_req s i) as [t|] eqn:E.
      + destruct (Mq t eq_refl) as (_ & ->). rewrite (bv_wr _ _ _ _ _ Bv). cbn [at_]. apply buf_after_ok. apply at_fits.
      + apply (bv_wr _ _ _ _ _ Bv).
    - unfold g_step. rewrite R. cbn [fst x_rd]. destruct (moves (v_cpl c s i)) eqn:E; [|apply (bv_rd _ _ _ _ _ Bv)].
      destruct Mc as (M1 & _); [intros X; rewrite X in E; discriminate|].
      rewrite (cp_slot c s L D C F h I), (bv_buf _ _ _ _ _ Bv) by lia. rewrite (bv_mtu _ _ _ _ _ Bv) by (right; lia). cbn [at_]. apply buf_after_ok. apply at_fits.
    - intros k Hk. rewrite (s_tab c s L i W). unfold entry_next, entry_upd. cbn [n_buf]. rewrite Nn in Hk.
      destruct (v_req s i) as [t|] eqn:E; [|apply (bv_buf _ _ _ _ _ Bv); lia]. rewrite (sp_slot c s L D C F h I).
      destruct (Nat.eq_dec k (l_n L)) as [->|Nk]; [rewrite Nat.eqb_refl; apply (bv_wr _ _ _ _ _ Bv)|].
      pose proof (new_slot c s L D C F h i I k t E ltac:(lia)) as Ns. apply Nat.eqb_neq in Ns. rewrite Ns. apply (bv_buf _ _ _ _ _ Bv). lia.
    - unfold g_step. rewrite R. cbn [fst x_ready]. rewrite Nn. destruct (v_req s i) as [t|] eqn:E; [discriminate|]. rewrite Ds. intros X.
      do 3 (apply andb_true_iff in X; destruct X as [X _]). apply andb_true_iff in X. destruct X as [_ X]. apply Z.ltb_lt in X. lia.
    - intros k Hk. rewrite Nn in Hk. destruct (v_req s i) as [t|] eqn:E.
      + destruct (Nat.eq_dec k (l_n L)) as [->|Nk].
        * destruct (Mq t eq_refl) as (Y & _). pose proof (bv_ready _ _ _ _ _ Bv Y). lia.
        * pose proof (bv_win _ _ _ _ _ Bv k ltac:(lia)). lia.
      + pose proof (bv_win _ _ _ _ _ Bv k ltac:(lia)). lia.
    - pose proof (bv_rx _ _ _ _ _ Bv) as Hr. unfold rx_out. change (o_rx (snd (g_step c s i))) with (x_rx s).
      assert (Xr : x_rx (fst (g_step c s i)) = match v_req s i with
        | Some _ => Some (mkRxd ((x_wr s mod 2 ^ g_bl c + g_off c) mod 2 ^ g_raw c) (x_mtu s) (slot c (x_sp s)))
        | None => if i_rxrdy i then None else x_rx s end) by (unfold g_step; rewrite R; reflexivity).
      rewrite Xr, Nn. destruct (v_req s i) as [t|] eqn:E.
      + destruct (Mq t eq_refl) as (Y & ->). destruct (iv_ready _ _ _ _ _ _ _ I Y) as (_ & Z0). rewrite Z0 in *. rewrite seq_S, map_app. cbn [map Nat.add].
        rewrite <- Hr. cbn [olist]. rewrite (sp_slot c s L D C F h I), (bv_wr _ _ _ _ _ Bv), BB, mod_BB.
        destruct (at_fits (l_n L)) as (_ & Ft). destruct Rm as (_ & _ & _ & _ & R5 & R6). pose proof (Z.mod_pos_bound (at_ (l_n L)) B B_pos). pose proof M_pos.
        rewrite (Z.mod_small (at_ (l_n L) mod B + g_off c)) by lia. rewrite (Z.add_comm (at_ (l_n L) mod B)). destruct (i_rxrdy i); rewrite !app_nil_r; reflexivity.
      + destruct (i_rxrdy i); cbn [olist]; rewrite <- Hr; rewrite ?app_nil_r; reflexivity.
  Qed.
  Lemma run_binv is : Forall (fun i => i_mtu i = m) is -> forall s L D C F h, inv c s L D C F h -> binv s L C F h ->
    let os := snd (trace (g_step c) s is) in lawful_from c L is os ->
    exists D' C' F', inv c (fst (trace (g_step c) s is)) (fold_left (keep c) (combine is os) L) D' C' F'
      (mkH (h_rx h ++ over rx_out is os) (h_dr h ++ over dreq_out is os) (h_w h ++ over write_out is os) (h_cpl h ++ over cpl_out is os) (h_st h ++ statuses os)) /\
      binv (fst (trace (g_step c) s is)) (fold_left (keep c) (combine is os) L) C' F'
      (mkH (h_rx h ++ over rx_out is os) (h_dr h ++ over dreq_out is os) (h_w h ++ over write_out is os) (h_cpl h ++ over cpl_out is os) (h_st h ++ statuses os)).
  Proof.
    induction 1 as [|i is Hi H IH]; intros s L D C F h I Bv os W.
    - exists D, C, F. unfold os, over, statuses. cbn. rewrite !app_nil_r. destruct h. split; [exact I|exact Bv].
    - unfold os in *. clear os. cbn [trace]. cbn [trace] in W. destruct (g_step c s i) as [s' o] eqn:E. destruct (trace (g_step c) s' is) as [s'' os] eqn:Er.
      cbn [fst snd combine fold_left lawful_from] in *. destruct W as [W1 W2].
      pose proof (step_inv c s L D C F h i Sn I) as St. rewrite E in St. cbn [fst snd] in St. specialize (St W1).
      pose proof (step_binv s L D C F h i I Bv) as Sb. rewrite E in Sb. cbn [fst snd] in Sb. specialize (Sb W1 Hi).
      assert (Sb' : binv s' (keep c L (i, o)) (if moves (v_cpl c s i) then S C else C) (if moves (v_fin c s) then S F else F)
        (mkH (h_rx h ++ olist (rx_out i o)) (h_dr h ++ olist (dreq_out i o)) (h_w h ++ olist (write_out i o)) (h_cpl h ++ olist (cpl_out i o)) (h_st h ++ olist (o_stat o)))) by (destruct Sb; constructor; assumption).
      specialize (IH _ _ _ _ _ _ St Sb'). rewrite Er in IH. cbn [fst snd] in IH. specialize (IH W2). destruct IH as (D' & C' & F' & IH).
      cbn [h_rx h_dr h_w h_cpl h_st] in IH. exists D', C', F'. rewrite !keep_somes. unfold statuses. cbn [map]. rewrite somes_cons, !app_assoc.
      exact IH.
  Qed.
  Lemma fresh_binv s : started c s -> binv s l0 0 0 (mkH [] [] [] [] []).
  Proof.
    intros St. destruct (fresh c s Sn St) as (u & tab & _ & -> & _). constructor; cbn [l0 l_n x_ready x_mtu x_wr x_rd x_tab x_rx h_rx olist app seq map at_];
      try (intros; lia); try discriminate; try reflexivity.
  Qed.
End Places.

Section BufResults.
  Variables (c : gcfg) (m : Z) (s : gst) (is : list gin).
  Hypothesis Sane : sane c.
  Hypothesis Rm : roomy c m.
  Hypothesis St : started c s.
  Hypothesis Mt : Forall (fun i => i_mtu i = m) is.
  Notation os := (snd (trace (g_step c) s is)).
  Notation L := (ledger_of c is os).
  Hypothesis W : lawful c is os.

  Lemma buf_final : exists D C F, inv c (fst (trace (g_step c) s is)) L D C F
    (mkH (over rx_out is os) (over dreq_out is os) (over write_out is os) (over cpl_out is os) (statuses os)) /\
    binv c m (fst (trace (g_step c) s is)) L C F
    (mkH (over rx_out is os) (over dreq_out is os) (over write_out is os) (over cpl_out is os) (statuses os)).
  Proof. exact (run_binv c m Sane Rm is Mt s l0 0 0 0 _ (fresh_inv c s Sane St) (fresh_binv c m Sane s St) W). Qed.

  Lemma nth_map_seq {A} (f : nat -> A) l w n k d : l ++ w = map f (seq 0 n) -> nth_error l k = Some d -> (k < n)%nat /\ d = f k.
  Proof.
    intros E H. assert (K : (k < length l)%nat) by (apply nth_error_Some; congruence).
    assert (Ln : (length l + length w = n)%nat) by (rewrite <- app_length, E, map_length, seq_length; reflexivity).
    rewrite <- (nth_error_app1 l w K), E in H. rewrite nth_error_map in H. assert (Hk : (k < n)%nat) by lia. split; [exact Hk|].
    rewrite (nth_error_nth' (seq 0 n) 0%nat) in H by (rewrite seq_length; lia). rewrite seq_nth in H by lia. cbn in H. congruence.
  Qed.
  Lemma buf_result : (forall d, In d (over rx_out is os) -> g_off c <= x_addr d /\ x_addr d + x_room d <= g_off c + g_size c /\ x_room d = mtu_of c m) /\
    (forall j k d d', (j < k)%nat -> nth_error (over rx_out is os) j = Some d -> nth_error (over rx_out is os) k = Some d' ->
       ~ released c j (l_op L j) -> x_addr d + x_room d <= x_addr d' \/ x_addr d' + x_room d' <= x_addr d).
  Proof.
    destruct buf_final as (D & C & F & I & Bv). pose proof (bv_rx _ _ _ _ _ _ _ Bv) as Hr. cbn [h_rx] in Hr. split.
    - intros d Hd. apply In_nth_error in Hd. destruct Hd as (k & Hk). destruct (nth_map_seq _ _ _ _ _ _ Hr Hk) as (Kn & ->). cbn [x_addr x_room].
      destruct (at_fits c m Sane Rm k) as (_ & Ft). pose proof (Z.mod_pos_bound (at_ c m k) (2 ^ g_bl c) (B_pos c)). lia.
    - intros j k d d' Hjk Hj Hk Nr. destruct (nth_map_seq _ _ _ _ _ _ Hr Hj) as (Jn & ->). destruct (nth_map_seq _ _ _ _ _ _ Hr Hk) as (Kn & ->). cbn [x_addr x_room].
      assert (Cj : (C <= j)%nat).
      { destruct (Nat.le_gt_cases C j) as [X|X]; [exact X|]. exfalso. apply Nr. destruct (iv_C _ _ _ _ _ _ _ I j X) as [(Y & _)|Y]; [left; exact Y|right; exact Y]. }
      pose proof (bv_win _ _ _ _ _ _ _ Bv k ltac:(lia)) as Wk. pose proof (at_mono c m Sane Rm C j Cj) as Mo.
      destruct (apart c m Sane Rm j k Hjk ltac:(lia)); lia.
  Qed.
End BufResults.

Section Ready.
  Variables (c : gcfg) (m : Z) (s : gst) (is1 is2 : list gin).
  Hypothesis Sane : sane c.
  Hypothesis Rm : roomy c m.
  Hypothesis St : started c s.
  Notation is := (is1 ++ is2).
  Notation os := (snd (trace (g_step c) s is)).
  Notation L := (ledger_of c is os).
  Hypothesis Mt : Forall (fun i => i_mtu i = m) is.
  Hypothesis W : lawful c is1 (snd (trace (g_step c) s is1)).
  Hypothesis Idle : Forall idle is2.
  Hypothesis Long : (6 * g_n c + 8 <= length is2)%nat.
  Lemma ready_result : (forall k, (k < l_n L)%nat -> ~ waits c L k) -> forall i, o_ready (snd (g_step c (fst (trace (g_step c) s is)) i)) = true.
  Proof.
    intros Nw i. change (x_ready (fst (trace (g_step c) s is)) = true).
    destruct (live_inv c s is1 is2 Sane St W Idle Long) as (Wf & _ & _ & _ & _ & j & s3 & L3 & D3 & C3 & F3 & h3 & Hj & Stl & I3 & Stl3 & Es).
    destruct (buf_final c m s is Sane Rm St Mt Wf) as (D & C & F & I & Bv).
    destruct (still_means c _ L D C F _ j Sane I Hj Stl) as [(k & K1 & K2)|(Xf & Xc & Xd)]; [exfalso; exact (Nw k K1 K2)|].
    pose proof (still_same c s3 L3 D3 C3 F3 h3 j I3 Hj Stl3) as (Et & E1 & _ & _ & _ & E5 & _ & E7 & E8 & E9). rewrite <- Es in *. rewrite E9.
    rewrite <- (Et _), <- E1, <- E5, <- E7, <- E8. pose proof (iv_ptr _ _ _ _ _ _ _ I) as (P1 & _ & _ & P4). pose proof (N_pos c) as Np.
    rewrite P1, P4, slot_ptr, (iv_off _ _ _ _ _ _ _ I) by lia. rewrite pdiff_ok by lia.
    rewrite (dist_small c m Sane Rm _ _ _ _ _ _ I Bv), Xc, Xf, Z.sub_diag, Nat.sub_diag.
    destruct Rm as (_ & R2 & _). destruct (Z.ltb_spec 0 (g_size c - g_max c)); [|lia]. destruct (Nat.ltb_spec 0 (g_n c)); [reflexivity|lia].
  Qed.
End Ready.
