From Verif Require Import Base.Prelude Base.Bits Rtl.Handshake_spec Rtl.Handshake_proof Stream.Axis_model Nic.DescFetch_model Nic.DescFetch_spec Nic.DescFetch_proof.
From Coq Require Import Lia Arith ZArith.
Local Open Scope Z_scope.
#[local] Unset Implicit Arguments.

(** An answer offered and not yet processed leaves room in the table: the count of requests in hand covers it. *)
Section Serve.
  Variables (b : bool) (c : fcfg) (s : fst_) (L : ledger) (hold : nat -> option dresp) (A : list (nat * dresp)) (R F : nat) (h : logs) (i : fin) (p : nat) (r : dresp).
  Hypothesis Sane : sane c.
  Hypothesis I : inv b c s L hold A R F h.
  Hypothesis W : owed c L hold i (snd (f_step c s i)).
  Hypothesis Pp : (p < f_ports c)%nat.
  Hypothesis Of : i_resp i p = Some r.
  Hypothesis Na : x_ack s <> Some p.
  Lemma offer_room : (length (fetches A) < F + f_n c)%nat.
  Proof.
    assert (T : (length (map fst A ++ [p]) <= length (l_ask L))%nat).
    { apply times_le. intros q. rewrite times_app. pose proof (iv_times _ _ _ _ _ _ _ _ _ I q) as T.
      replace (times q [p]) with (if Nat.eq_dec p q then 1 else 0)%nat by reflexivity. destruct (Nat.eq_dec p q) as [<-|E]; [|lia].
      destruct W as (_ & _ & _ & W4 & _). destruct (W4 p r Pp Of) as (W5 & _).
      assert (Q : times p (map fst A) = times p (l_ans L)); [|lia].
      rewrite (iv_A _ _ _ _ _ _ _ _ _ I). unfold ans. rewrite map_app, times_app, (iv_lans _ _ _ _ _ _ _ _ _ I). unfold pend.
      destruct (x_ack s) as [q|]; [|apply Nat.add_0_r]. destruct (hold q) as [d|]; [|apply Nat.add_0_r].
      replace (times p (map fst (olist (Some (q, d))))) with (if Nat.eq_dec q p then 1 else 0)%nat by reflexivity. destruct (Nat.eq_dec q p); [congruence|apply Nat.add_0_r]. }
    rewrite app_length, map_length in T. cbn [length] in T. pose proof (iv_len _ _ _ _ _ _ _ _ _ I). destruct (iv_n _ _ _ _ _ _ _ _ _ I). lia.
  Qed.
  Lemma serve : x_dma s = None -> exists q x, (q <= p)%nat /\ v_resp c s i = Some (q, x).
  Proof.
    intros D. assert (RM : v_room c s = true) by (eapply room_if; eauto using offer_room). unfold v_resp. rewrite D, RM. cbn [isnone andb].
    assert (G : forall n m, (m <= p < m + n)%nat -> exists q, (q <= p)%nat /\
      find (fun p0 => negb (isnone (i_resp i p0)) && negb (match x_ack s with Some q => (q =? p0)%nat | None => false end)) (seq m n) = Some q /\ i_resp i q <> None).
    { induction n as [|n IH]; intros m M; [lia|]. cbn [seq find]. destruct (_ && _) eqn:E.
      - exists m. splits; [lia|reflexivity|]. apply andb_true_iff in E. destruct E as (E & _). intros X. rewrite X in E. discriminate.
      - apply IH. destruct (Nat.eq_dec m p) as [->|]; [|lia]. exfalso. rewrite Of in E. cbn [isnone negb andb] in E. destruct (x_ack s) as [q|]; [|discriminate].
        destruct (Nat.eqb_spec q p); [congruence|discriminate]. }
    destruct (G (f_ports c) 0%nat ltac:(lia)) as (q & Hq & E & X). rewrite E. destruct (i_resp i q) as [x|]; [|congruence]. exists q, x. auto.
  Qed.
End Serve.

Lemma taken_result c s is i1 i2 i3 p r : sane c -> started c s -> lawful c (is ++ [i1; i2; i3]) (snd (trace (f_step c) s (is ++ [i1; i2; i3]))) ->
  (p < f_ports c)%nat -> i_resp i1 p = Some r -> i_drdy i1 = true ->
  exists q x, (q <= p)%nat /\ In (q, x) (over resp_in [i1; i2; i3] (snd (trace (f_step c) (fst (trace (f_step c) s is)) [i1; i2; i3]))).
Proof.
  intros Sane St W Pp Of Dr. apply lawful_app in W. destruct W as (W0 & W).
  destruct (run' c s is Sane St W0) as (A & R & F & I). unfold ledger_of in I. fold (ledger_from c l0 is (snd (trace (f_step c) s is))) in I.
  set (s0 := fst (trace (f_step c) s is)) in *. set (L0 := ledger_from c l0 is _) in *. set (H0 := hold_end _ _ _) in *. set (hh := hplus _ _ _) in *.
  clearbody s0 L0 H0 hh. rewrite !trace_cons' in *. cbn [snd fst lawful_from] in W. destruct W as (W1 & W2 & W3 & _).
  cbn [snd fst trace]. rewrite !over_cons.
  pose proof (step_inv false c s0 L0 H0 A R F hh i1 Sane I W1 ltac:(discriminate)) as I1. unfold s', L', hold' in I1.
  pose proof (step_inv false c _ _ _ _ _ _ _ i2 Sane I1 W2 ltac:(discriminate)) as I2. unfold s', L', hold' in I2.
  rewrite (resp_is _ _ _ _ _ _ _ _ _ _ I W1), (resp_is _ _ _ _ _ _ _ _ _ _ I1 W2), (resp_is _ _ _ _ _ _ _ _ _ _ I2 W3).
  pose proof (pend_next _ _ _ _ _ _ _ _ _ _ I W1) as P1. unfold s', hold' in P1. rewrite P1.
  pose proof (pend_next _ _ _ _ _ _ _ _ _ _ I1 W2) as P2. unfold s', hold' in P2. rewrite P2.
  assert (C : x_ack s0 = Some p \/ x_ack s0 <> Some p) by (destruct (x_ack s0) as [q|]; [destruct (Nat.eq_dec q p); [left|right]; congruence|right; discriminate]).
  destruct C as [C|C].
  - pose proof (iv_pend _ _ _ _ _ _ _ _ _ I) as P. rewrite C in P. destruct P as (x & Hx & _). exists p, x. split; [lia|]. apply in_or_app. left. unfold pend. rewrite C, Hx. left. reflexivity.
  - destruct (x_dma s0) as [d|] eqn:D.
    + assert (V : v_resp c s0 i1 = None) by (unfold v_resp; rewrite D; reflexivity).
      assert (A1 : x_ack (fst (f_step c s0 i1)) = None).
      { unfold f_step. destruct W1 as (Wr & _). rewrite Wr. cbn [fst x_ack]. rewrite V. reflexivity. }
      assert (D1 : x_dma (fst (f_step c s0 i1)) = None).
      { unfold f_step. destruct W1 as (Wr & _). rewrite Wr. cbn [fst x_dma]. rewrite V, Dr. reflexivity. }
      assert (O2 : i_resp i2 p = Some r).
      { destruct W2 as (_ & _ & W23 & _). apply W23; [exact Pp|]. unfold still. change (o_ack (snd (f_step c s0 i1))) with (x_ack s0). rewrite Of.
        destruct (x_ack s0) as [q|]; [|reflexivity]. destruct (Nat.eqb_spec q p); [congruence|reflexivity]. }
      destruct (serve _ _ _ _ _ _ _ _ _ _ _ _ I1 W2 Pp O2 ltac:(congruence) D1) as (q & x & Hq & V2).
      exists q, x. split; [exact Hq|]. rewrite V2. apply in_or_app. right. apply in_or_app. right. apply in_or_app. left. left. reflexivity.
    + destruct (serve _ _ _ _ _ _ _ _ _ _ _ _ I W1 Pp Of C D) as (q & x & Hq & V1).
      exists q, x. split; [exact Hq|]. rewrite V1. apply in_or_app. right. apply in_or_app. left. left. reflexivity.
Qed.

(** Left alone, the fetcher finishes. *)
Section Idle.
  Variables (b : bool) (c : fcfg).
  Hypothesis Sane : sane c.
  Definition load (s : fst_) (A : list (nat * dresp)) (R F : nat) : nat :=
    (3 * (length (fetches A) - R) + (length (fetches A) - F) + wt (x_dma s) + wt (x_cmd s) + wt (x_ask s) + wt (x_commit s))%nat.

  Lemma idle_step s L hold A R F h i : inv b c s L hold A R F h -> owed c L hold i (snd (f_step c s i)) -> idle c i ->
    ~ waits (keep c L (i, snd (f_step c s i))) ->
    v_resp c s i = None /\ A' c s A i = A /\ x_ack (fst (f_step c s i)) = None /\
    (load s A R F = 0 -> load (fst (f_step c s i)) A (R' c s R) (F' c s F) = 0 /\ x_ready (fst (f_step c s i)) = true)%nat /\
    (0 < load s A R F -> load (fst (f_step c s i)) A (R' c s R) (F' c s F) < load s A R F)%nat.
  Proof.
    intros I W Id NW.
    assert (V : v_resp c s i = None).
    { unfold v_resp. destruct (_ && _); [|reflexivity]. destruct (find _ _) as [q|] eqn:Fi; [|reflexivity]. apply find_some in Fi. destruct Fi as (Fi & _). apply in_seq in Fi.
      destruct Id as (_ & _ & _ & _ & _ & _ & _ & Id). destruct (Id q ltac:(lia)) as (_ & -> & _). reflexivity. }
    assert (EA : A' c s A i = A) by (unfold A'; rewrite V; cbn [olist]; apply app_nil_r).
    pose proof Id as (I1 & I2 & I3 & I4 & I5 & I6 & I7 & I8).
    assert (VQ : v_req s i = None) by (unfold v_req; rewrite I3; destruct (x_ready s); reflexivity).
    assert (AC : x_ack s = None).
    { pose proof (iv_pend _ _ _ _ _ _ _ _ _ I) as P. destruct (x_ack s) as [q|]; [|reflexivity]. destruct P as (r & Hr & Hq & _). destruct W as (_ & _ & W3 & _).
      specialize (W3 q r Hq Hr). destruct (I8 q Hq) as (_ & X & _). congruence. }
    assert (QR : forall p q t, x_ask s = Some (p, q, t) -> i_qrdy i p = true).
    { intros p q t E. apply (iv_ap _ _ _ _ _ _ _ _ _ I) in E. apply I8. exact E. }
    assert (CR : forall p t, x_commit s = Some (p, t) -> i_crdy i p = true).
    { intros p t E. apply (iv_cp _ _ _ _ _ _ _ _ _ I) in E. apply I8. exact E. }
    splits; try assumption.
    - unfold f_step. rewrite I1. cbn [fst x_ack]. rewrite V. reflexivity.
    - intros Z. unfold load in Z |- *. pose proof (iv_cnt _ _ _ _ _ _ _ _ _ I) as Cn.
      assert (ER : R = length (fetches A)) by lia. assert (EF : F = length (fetches A)) by lia.
      assert (D : x_dma s = None /\ x_cmd s = None /\ x_ask s = None /\ x_commit s = None).
      { destruct (x_dma s), (x_cmd s), (x_ask s), (x_commit s); cbn [wt] in Z; try lia. auto. }
      destruct D as (D1 & D2 & D3 & D4).
      assert (VR : v_read c s = false). { destruct (v_read c s) eqn:Q; [|reflexivity]. eapply read_some in Q; eauto. lia. }
      assert (VF : v_fin c s = false). { destruct (v_fin c s) eqn:Q; [|reflexivity]. eapply fin_some in Q; eauto. lia. }
      assert (RM : v_room c s = true). { pose proof (N_pos c). eapply room_if; eauto. lia. }
      unfold R', F'. rewrite VR, VF. unfold f_step. rewrite I1. cbn [fst x_dma x_cmd x_ask x_commit x_ready]. rewrite V, VQ, VR, D1, D2, D3, D4, I2, RM, I6, I7. cbn [wt andb].
      split; [lia|]. rewrite !andb_true_r. apply Z.ltb_lt.
      destruct (iv_n _ _ _ _ _ _ _ _ _ I) as (En & _). pose proof (iv_len _ _ _ _ _ _ _ _ _ I) as El. rewrite D3 in El. cbn [wt] in El.
      assert (LA : length A = length (l_ans L)).
      { rewrite (iv_A _ _ _ _ _ _ _ _ _ I), (iv_lans _ _ _ _ _ _ _ _ _ I). unfold ans, pend. rewrite AC. cbn [olist]. rewrite app_nil_r, map_length. reflexivity. }
      assert (LK : (length (l_ask L) <= length (l_ans L))%nat).
      { destruct (Nat.le_gt_cases (length (l_ask L)) (length (l_ans L))) as [|X]; [assumption|]. exfalso. apply NW. left. unfold keep. cbn [l_ans l_ask].
        unfold resp_in. change (o_ack (snd (f_step c s i))) with (x_ack s). rewrite AC. cbn [option_map olist]. rewrite !app_length. cbn [length]. lia. }
      pose proof (N_pos c). lia.
    - intros Z. unfold load in Z |- *. pose proof (iv_cnt _ _ _ _ _ _ _ _ _ I) as Cn.
      assert (FL : (F <= F' c s F <= R)%nat) by (eapply F_le; eauto). assert (RL : (R <= R' c s R <= length (fetches A))%nat) by (eapply R_le; eauto).
      assert (X1 : wt (x_dma (fst (f_step c s i))) = 0%nat). { unfold f_step. rewrite I1. cbn [fst x_dma]. rewrite V, I6. reflexivity. }
      assert (X2 : wt (x_ask (fst (f_step c s i))) = 0%nat).
      { unfold f_step. rewrite I1. cbn [fst x_ask]. rewrite VQ. destruct (x_ask s) as [[[p q] t]|]; [|reflexivity]. rewrite (QR p q t eq_refl). reflexivity. }
      assert (X3 : (wt (x_cmd (fst (f_step c s i))) + wt (x_commit (fst (f_step c s i))) <= if v_read c s then 2 else 0)%nat).
      { unfold f_step. rewrite I1. cbn [fst x_cmd x_commit]. rewrite I7. destruct (v_read c s); [unfold onehot; destruct (_ <? _)%nat; cbn; lia|].
        destruct (x_commit s) as [[p t]|]; [|cbn; lia]. rewrite (CR p t eq_refl). cbn. lia. }
      rewrite X1, X2. unfold R' in *. destruct (v_read c s) eqn:VR.
      + clear - X3 FL RL Z. lia.
      + destruct (Nat.eq_dec (wt (x_dma s) + wt (x_cmd s) + wt (x_ask s) + wt (x_commit s)) 0) as [E|E]; [|clear - E X3 FL RL; lia].
        assert (D : x_dma s = None /\ x_cmd s = None /\ x_ask s = None /\ x_commit s = None).
        { destruct (x_dma s), (x_cmd s), (x_ask s), (x_commit s); cbn [wt] in E; try lia. auto. }
        destruct D as (D1 & D2 & D3 & D4). pose proof (iv_dma _ _ _ _ _ _ _ _ _ I) as ED. pose proof (iv_cmd _ _ _ _ _ _ _ _ _ I) as EC. rewrite D1 in ED. rewrite D2 in EC. cbn [wt] in ED, EC.
        destruct (iv_ptr _ _ _ _ _ _ _ _ _ I) as (P1 & P2 & P3).
        assert (ER : R = length (fetches A)).
        { destruct (Nat.eq_dec R (length (fetches A))) as [|X]; [assumption|]. exfalso. destruct (nth_error (fetches A) R) as [x|] eqn:Hx; [|apply nth_error_None in Hx; lia].
          destruct (iv_tab _ _ _ _ _ _ _ _ _ I R x ltac:(lia) Hx) as (_ & _ & _ & _ & T5 & _).
          assert (Lf : l_fet L R = true).
          { destruct (l_fet L R) eqn:Q; [reflexivity|]. exfalso. apply NW. right. left. exists R. unfold keep. cbn [l_dma l_fet]. rewrite plus1_wt, Q, I4. split; [lia|reflexivity]. }
          unfold v_read in VR. rewrite P2, P1, slot_ptr in VR. rewrite (iv_on _ _ _ _ _ _ _ _ _ I) in VR by lia. rewrite ptr_eqb in VR by lia.
          rewrite T5, Lf, D4, D2 in VR. apply Nat.eqb_neq in X. rewrite X in VR. discriminate. }
        assert (VF : v_fin c s = true).
        { assert (K : (F < length (fetches A))%nat) by (clear - Z E ER Cn; lia). destruct (nth_error (fetches A) F) as [x|] eqn:Hx; [|apply nth_error_None in Hx; lia].
          destruct (iv_tab _ _ _ _ _ _ _ _ _ I F x ltac:(lia) Hx) as (_ & _ & _ & _ & _ & T6).
          assert (Lf : l_done L F = true).
          { destruct (l_done L F) eqn:Q; [reflexivity|]. exfalso. apply NW. right. right. exists F. unfold keep. cbn [l_cmd l_done]. rewrite plus1_wt, Q, I5. split; [lia|reflexivity]. }
          unfold v_fin. rewrite P3, P1, slot_ptr, (iv_on _ _ _ _ _ _ _ _ _ I) by lia. rewrite ptr_eqb by lia. rewrite T6, Lf. apply Nat.lt_neq, Nat.eqb_neq in K. rewrite K. reflexivity. }
        unfold F' in *. rewrite VF in *. clear - Z E ER X3 FL. lia.
  Qed.

  Lemma waits_mono L io : resp_in (fst io) (snd io) = None -> i_fet (fst io) = None -> i_done (fst io) = None -> waits L -> waits (keep c L io).
  Proof.
    destruct io as [i o]. cbn [fst snd]. intros E1 E2 E3 H. unfold keep, waits. cbn [l_ans l_ask l_dma l_fet l_cmd l_done]. rewrite E1, E2, E3. cbn [option_map olist hit]. rewrite app_nil_r, app_length, !plus1_wt.
    destruct H as [H|[(k & K & H)|(k & K & H)]]; [left; lia|right; left|right; right]; exists k; rewrite H; split; auto; lia.
  Qed.
  Definition waitsb (L : ledger) : bool := (length (l_ans L) <? length (l_ask L))%nat || existsb (fun k => negb (l_fet L k)) (seq 0 (l_dma L)) || existsb (fun k => negb (l_done L k)) (seq 0 (l_cmd L)).
  Lemma waits_dec L : waits L \/ ~ waits L.
  Proof.
    destruct (waitsb L) eqn:E; unfold waitsb in E.
    - left. rewrite !orb_true_iff, Nat.ltb_lt, !existsb_exists in E. destruct E as [[E|(k & K & E)]|(k & K & E)]; [left; exact E|right; left|right; right]; exists k; apply in_seq in K; apply negb_true_iff in E; split; auto; lia.
    - right. rewrite !orb_false_iff, Nat.ltb_ge in E. destruct E as [[E1 E2] E3]. intros [X|[(k & K & X)|(k & K & X)]]; [lia| |].
      + assert (Q : existsb (fun k => negb (l_fet L k)) (seq 0 (l_dma L)) = true); [|congruence]. apply existsb_exists. exists k. rewrite in_seq, X. split; [lia|reflexivity].
      + assert (Q : existsb (fun k => negb (l_done L k)) (seq 0 (l_cmd L)) = true); [|congruence]. apply existsb_exists. exists k. rewrite in_seq, X. split; [lia|reflexivity].
  Qed.
  Lemma inv_weak s L hold A R F h : inv b c s L hold A R F h -> inv false c s L hold A R F h.
  Proof. intros I. destruct I. constructor; auto. discriminate. Qed.
  Lemma still_waits : forall ws s L hold A R F h, inv false c s L hold A R F h -> lawful_from c L hold ws (snd (trace (f_step c) s ws)) -> Forall (idle c) ws ->
    waits L -> waits (ledger_from c L ws (snd (trace (f_step c) s ws))).
  Proof.
    induction ws as [|i ws IH]; intros s L hold A R F h I W Id C; [exact C|]. rewrite trace_cons' in *. cbn [snd lawful_from] in *. destruct W as (W1 & W2).
    inversion Id as [|i' ws' Id1 Id2]; subst i' ws'. unfold ledger_from. cbn [combine fold_left].
    pose proof (step_inv false c s L hold A R F h i Sane I W1 ltac:(discriminate)) as I1. apply (IH _ _ _ _ _ _ _ I1 W2 Id2). apply waits_mono; [|apply Id1|apply Id1|exact C].
    cbn [fst snd]. unfold resp_in. change (o_ack (snd (f_step c s i))) with (x_ack s). pose proof (iv_pend _ _ _ _ _ _ _ _ _ I) as P. destruct (x_ack s) as [q|]; [|reflexivity].
    destruct P as (r & _ & Hq & _). destruct Id1 as (_ & _ & _ & _ & _ & _ & _ & Id1). destruct (Id1 q Hq) as (_ & -> & _). reflexivity.
  Qed.
  Lemma hplus_cons h s i ws os : hplus (h' c s h i) ws os = hplus h (i :: ws) (snd (f_step c s i) :: os).
  Proof. unfold hplus. rewrite !over_cons. cbn [map]. rewrite somes_cons. unfold h'. cbn [h_req h_ask h_ans h_st h_dma h_cmd h_cm]. rewrite !app_assoc. reflexivity. Qed.
  Lemma hplus_nil h : hplus h [] [] = h.
  Proof. unfold hplus, over. cbn. rewrite !app_nil_r. destruct h; reflexivity. Qed.

  Lemma idle_run : forall ws s L hold A R F h, inv b c s L hold A R F h -> lawful_from c L hold ws (snd (trace (f_step c) s ws)) ->
    (b = true -> prompt c ws (snd (trace (f_step c) s ws))) -> Forall (idle c) ws -> (load s A R F < length ws)%nat ->
    waits (ledger_from c L ws (snd (trace (f_step c) s ws))) \/
    exists R' F', 
      inv b c (fst (trace (f_step c) s ws)) (ledger_from c L ws (snd (trace (f_step c) s ws))) (hold_end hold ws (snd (trace (f_step c) s ws))) A R' F' (hplus h ws (snd (trace (f_step c) s ws))) /\
      load (fst (trace (f_step c) s ws)) A R' F' = 0%nat /\ x_ready (fst (trace (f_step c) s ws)) = true /\ x_ack (fst (trace (f_step c) s ws)) = None.
  Proof.
    induction ws as [|i ws IH]; intros s L hold A R F h I W P Id Ld; [cbn in Ld; lia|].
    rewrite trace_cons' in *. cbn [snd fst lawful_from hold_end] in *. destruct W as (W1 & W2). inversion Id as [|i' ws' Id1 Id2]; subst i' ws'.
    unfold ledger_from. cbn [combine fold_left]. fold (ledger_from c (keep c L (i, snd (f_step c s i))) ws (snd (trace (f_step c) (fst (f_step c s i)) ws))).
    assert (P1 : b = true -> f_ports c = 1%nat \/ forall p t, x_commit s = Some (p, t) -> i_crdy i p = true).
    { intros B. destruct (P B) as [Q|Q]; [left; exact Q|right]. intros p t E. apply (Q i (snd (f_step c s i)) (or_introl eq_refl) p t). exact E. }
    assert (P2 : b = true -> prompt c ws (snd (trace (f_step c) (fst (f_step c s i)) ws))).
    { intros B. destruct (P B) as [Q|Q]; [left; exact Q|right]. intros j o Hin. apply Q. right. exact Hin. }
    pose proof (step_inv b c s L hold A R F h i Sane I W1 P1) as I1.
    destruct (waits_dec (keep c L (i, snd (f_step c s i)))) as [C|C].
    - left. exact (still_waits ws _ _ _ _ _ _ _ (inv_weak _ _ _ _ _ _ _ I1) W2 Id2 C).
    - destruct (idle_step s L hold A R F h i I W1 Id1 C) as (V & EA & AC & H1 & H2). unfold s', L', hold' in I1. rewrite EA in I1. rewrite <- hplus_cons.
      destruct ws as [|i2 ws].
      + right. cbn [trace fst snd]. exists (R' c s R), (F' c s F). cbn [length] in Ld. assert (H : (load s A R F = 0)%nat) by lia. destruct (H1 H) as (H3 & H4).
        rewrite hplus_nil. cbn [hold_end ledger_from combine fold_left]. splits; auto.
      + apply (IH _ _ _ _ _ _ _ I1 W2 P2 Id2). cbn [length] in *.
        destruct (Nat.eq_dec (load s A R F) 0) as [E|E]; [destruct (H1 E); lia|specialize (H2 ltac:(lia)); lia].
  Qed.
End Idle.

Lemma combine_app_len {X Y} (a1 a2 : list X) (b1 b2 : list Y) : length a1 = length b1 -> combine (a1 ++ a2) (b1 ++ b2) = combine a1 b1 ++ combine a2 b2.
Proof. revert b1. induction a1 as [|x a1 IH]; intros [|y b1] E; try discriminate; cbn; [reflexivity|]. f_equal. apply IH. cbn in E. congruence. Qed.
Lemma over_app' {X} (f : fin -> fout -> option X) a1 a2 b1 b2 : length a1 = length b1 -> over f (a1 ++ a2) (b1 ++ b2) = over f a1 b1 ++ over f a2 b2.
Proof. intros E. unfold over. rewrite combine_app_len, map_app, somes_app by exact E. reflexivity. Qed.
Lemma ledger_app c is1 is2 os1 os2 : length is1 = length os1 -> ledger_of c (is1 ++ is2) (os1 ++ os2) = ledger_from c (ledger_of c is1 os1) is2 os2.
Proof. intros E. unfold ledger_of, ledger_from. rewrite combine_app_len, fold_left_app by exact E. reflexivity. Qed.
Lemma trace_app' {S I O} (f : S -> I -> S * O) s a b : trace f s (a ++ b) = (fst (trace f (fst (trace f s a)) b), snd (trace f s a) ++ snd (trace f (fst (trace f s a)) b)).
Proof. rewrite trace_app. destruct (trace f s a) as [s1 o1]. cbn [fst snd]. destruct (trace f s1 b). reflexivity. Qed.

Section Progress.
  Variables (b : bool) (c : fcfg) (s : fst_) (is ws : list fin).
  Hypothesis Sane : sane c.
  Hypothesis St : started c s.
  Notation js := (is ++ ws).
  Notation os := (snd (trace (f_step c) s js)).
  Hypothesis W : lawful c js os.
  Hypothesis P : b = true -> prompt c js os.
  Hypothesis Id : Forall (idle c) ws.
  Hypothesis Long : (4 * f_n c + 5 <= length ws)%nat.
  Notation L := (ledger_of c js os).
  Notation T := (over resp_in js os).
  Lemma progress_result : waits L \/
    over ask_out js os = map (fun r => (q_sel r, q_queue r, q_tag r)) (over req_in js os) /\
    over dma_out js os = map (dma_of c) (number (fetches T)) /\ over cmd_out js os = map (cmd_of c) (number (fetches T)) /\
    (b = true -> over commit_out js os = map commit_of (fetches T)) /\ finished L = length (fetches T) /\
    forall i, o_ready (snd (f_step c (fst (trace (f_step c) s js)) i)) = true.
  Proof.
    apply lawful_app in W as W'. destruct W' as (W0 & W1). set (os1 := snd (trace (f_step c) s is)) in *. set (s1 := fst (trace (f_step c) s is)) in *.
    set (os2 := snd (trace (f_step c) s1 ws)) in *.
    assert (EO : os = os1 ++ os2) by (rewrite trace_app'; reflexivity).
    assert (Len : length is = length os1) by (symmetry; apply trace_length).
    assert (P0 : b = true -> prompt c is os1).
    { intros B. destruct (P B) as [Q|Q]; [left; exact Q|right]. intros i o Hin. apply Q. rewrite EO, combine_app_len by exact Len. apply in_or_app. left. exact Hin. }
    assert (P1 : b = true -> prompt c ws os2).
    { intros B. destruct (P B) as [Q|Q]; [left; exact Q|right]. intros i o Hin. apply Q. rewrite EO, combine_app_len by exact Len. apply in_or_app. right. exact Hin. }
    destruct (run c s is Sane St W0 b P0) as (A & R & F & I). fold os1 s1 in I.
    assert (Ld : (load s1 A R F < length ws)%nat).
    { pose proof (iv_cnt _ _ _ _ _ _ _ _ _ I) as Cn. unfold load. assert (Wt : forall X (x : option X), (wt x <= 1)%nat) by (intros X [?|]; cbn; lia).
      pose proof (Wt _ (x_dma s1)). pose proof (Wt _ (x_cmd s1)). pose proof (Wt _ (x_ask s1)). pose proof (Wt _ (x_commit s1)). lia. }
    pose proof (idle_run b c Sane ws s1 _ _ A R F _ I W1 P1 Id Ld) as [X|(R2 & F2 & I2 & L0 & Rd & Ac)].
    - left. rewrite EO, ledger_app by exact Len. exact X.
    - right. fold os2 in I2. rewrite trace_app'. cbn [fst]. fold s1.
      assert (EL : ledger_from c (ledger_of c is os1) ws os2 = L) by (rewrite EO, ledger_app by exact Len; reflexivity).
      unfold ledger_of in I2 at 1. rewrite <- EO || idtac.
      set (s2 := fst (trace (f_step c) s1 ws)) in *.
      assert (OV : forall X (f : fin -> fout -> option X), over f js (os1 ++ os2) = over f is os1 ++ over f ws os2) by (intros; apply over_app'; exact Len).
      unfold load in L0. pose proof (iv_cnt _ _ _ _ _ _ _ _ _ I2) as Cn.
      assert (D : x_dma s2 = None /\ x_cmd s2 = None /\ x_ask s2 = None /\ x_commit s2 = None).
      { destruct (x_dma s2), (x_cmd s2), (x_ask s2), (x_commit s2); cbn [wt] in L0; try lia. auto. }
      destruct D as (D1 & D2 & D3 & D4).
      assert (ER : R2 = length (fetches A)) by lia. assert (EF : F2 = length (fetches A)) by lia.
      assert (EA : A = T).
      { rewrite (iv_A _ _ _ _ _ _ _ _ _ I2). unfold ans, pend. rewrite Ac. cbn [olist hplus h_ans h0 app]. rewrite app_nil_r, trace_app'. cbn [snd]. fold os1 s1 os2. rewrite OV. reflexivity. }
      rewrite EO in *. rewrite EA in *. rewrite !OV in *. pose proof (iv_asks _ _ _ _ _ _ _ _ _ I2) as E1. pose proof (iv_dmas _ _ _ _ _ _ _ _ _ I2) as E2.
      pose proof (iv_cmds _ _ _ _ _ _ _ _ _ I2) as E3. pose proof (iv_cm _ _ _ _ _ _ _ _ _ I2) as E4.
      rewrite D3, app_nil_r in E1. rewrite D1, app_nil_r in E2. rewrite D2, app_nil_r, ER, firstn_all2 in E3 by (rewrite map_length, number_len; lia).
      rewrite D4, app_nil_r, ER, firstn_all2 in E4 by (rewrite map_length; lia).
      splits; auto; try (intros i; exact Rd).
      pose proof (iv_cmd _ _ _ _ _ _ _ _ _ I2) as EC. rewrite D2 in EC. cbn [wt] in EC.
      cbn [snd]. fold os1 os2. rewrite ledger_app by exact Len. unfold finished. unfold ledger_of. rewrite Nat.add_0_r in EC. rewrite EC.
      pose proof (iv_old _ _ _ _ _ _ _ _ _ I2) as O.
      assert (GG : forall (f : nat -> bool) n, (forall k, (k < n)%nat -> f k = true) -> length (filter f (seq 0 n)) = n).
      { clear. intros f n H. rewrite <- (seq_length n 0) at 2. f_equal. assert (G : forall l, (forall x, In x l -> f x = true) -> filter f l = l).
        { induction l as [|x l IH]; intros Hl; cbn; [reflexivity|]. rewrite Hl by (left; reflexivity). f_equal. apply IH. intros; apply Hl; right; assumption. }
        apply G. intros x Hx. apply H. apply in_seq in Hx. lia. }
      rewrite GG; [exact ER|]. intros k K. apply O. lia.
  Qed.
End Progress.

(** The error of a DMA read changes nothing. *)
Lemma blind_step c s i j : same_but_errors i j -> f_step c s j = f_step c s i.
Proof.
  intros (E & Ef). rewrite E. destruct i as [a1 a2 a3 a4 a5 a6 a7 a8 a9 a10]. cbn [i_fet] in Ef.
  cbn [i_rst i_en i_req i_qrdy i_resp i_crdy i_drdy i_fet i_rrdy i_done] in *. unfold f_step, fentry_upd.
  change (i_fet (mkFin a1 a2 a3 a4 a5 a6 a7 (i_fet j) a9 a10)) with (i_fet j). rewrite Ef. reflexivity.
Qed.
Lemma blind_result c : forall is js s, Forall2 same_but_errors is js -> trace (f_step c) s js = trace (f_step c) s is.
Proof.
  intros is js s H. revert s. induction H as [|i j is js E H IH]; intros s; [reflexivity|]. rewrite !trace_cons', (blind_step c s i j E), IH. reflexivity.
Qed.
