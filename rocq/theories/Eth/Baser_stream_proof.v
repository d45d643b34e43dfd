From Verif Require Import Base.Prelude Base.Bits Eth.Baser_model Eth.Baser_spec Eth.Baser_proof.
From Coq Require Import Lia.
Local Open Scope Z_scope.
#[local] Unset Implicit Arguments.


Lemma outs_cons s i is : outs s (i :: is) = (snd s, snd (fst s)) :: outs (fst (link_step s i)) is.
Proof.
  unfold outs. cbn [trace]. destruct s as [e d]. unfold link_step. cbn [e_step d_step fst snd].
  destruct (trace _ _ is). reflexivity.
Qed.

Lemma step_state e d i : fst (link_step (e, d) i) =
  (encode (fst (snd i)) (snd (snd i)),
   let r := decode (d_frame d) (fst (fst e)) (snd (fst e)) in
   if fst i then mkD (d_rxd r) (d_rxc r) (d_bad r) (d_seq r) false else r).
Proof. reflexivity. Qed.

(* tx_bad_block *)
Lemma bad_out is : forall s n w o, nth_error (map snd is) n = Some w -> nth_error (outs s is) (S n) = Some o ->
  snd o = snd (encode (fst w) (snd w)).
Proof.
  induction is as [|i is IH]; intros [e d] n w o A B; [destruct n; discriminate|].
  rewrite outs_cons in B. cbn [nth_error] in B. destruct n as [|n]; cbn in A.
  - inversion A; subst w. destruct is as [|j is]; [discriminate|]. rewrite outs_cons in B. cbn [nth_error] in B.
    match type of B with Some ?x = Some _ => assert (o = x) as -> by (symmetry; injection B; trivial) end. rewrite step_state. reflexivity.
  - eapply IH; eassumption.
Qed.

Lemma wf_bad d c : wf (d, c) -> (snd (encode d c) = true <-> ~ legal (d, c)).
Proof.
  intros W. split.
  - intros E L. rewrite (encode_legal d c W L) in E. discriminate.
  - intros N. pose proof (word_rt d c false W) as K. unfold outcome in K. destruct (encode d c) as [[x h] b].
    destruct b; [reflexivity|]. destruct K as [K _]. destruct (K eq_refl) as [L _]. destruct (N L).
Qed.

(* the word two cycles later *)
Lemma word_out is : forall s n w o, nth_error (map snd is) n = Some w -> nth_error (outs s is) (S (S n)) = Some o ->
  exists f, let r := decode f (fst (fst (encode (fst w) (snd w)))) (snd (fst (encode (fst w) (snd w)))) in
    d_rxd (fst o) = d_rxd r /\ d_rxc (fst o) = d_rxc r /\ d_bad (fst o) = d_bad r.
Proof.
  induction is as [|i is IH]; intros [e d] n w o A B; [destruct n; discriminate|].
  rewrite outs_cons in B. cbn [nth_error] in B. destruct n as [|n]; cbn in A.
  - inversion A; subst w. destruct is as [|j is]; [discriminate|]. rewrite outs_cons in B. cbn [nth_error] in B.
    destruct is as [|k is]; [discriminate|]. rewrite outs_cons in B. cbn [nth_error] in B.
    match type of B with Some ?x = Some _ => assert (o = x) as -> by (symmetry; injection B; trivial) end. rewrite !step_state. cbn [fst snd].
    eexists. cbv zeta. destruct (fst j); splits; reflexivity.
  - eapply IH; eassumption.
Qed.

Lemma rc_os d c : wf (d, c) -> has_format (d, c) os_start -> rc d c = 0x1f.
Proof.
  intros [Hd Hc] H. cbn [fst snd] in *. unfold rc.
  assert (c = 0x11) as ->.
  { apply c_bits in Hc. cbn [seq map] in Hc.
    pose proof (H 0%nat _ eq_refl) as H0; pose proof (H 1%nat _ eq_refl) as H1; pose proof (H 2%nat _ eq_refl) as H2;
    pose proof (H 3%nat _ eq_refl) as H3; pose proof (H 4%nat _ eq_refl) as H4; pose proof (H 5%nat _ eq_refl) as H5;
    pose proof (H 6%nat _ eq_refl) as H6; pose proof (H 7%nat _ eq_refl) as H7.
    cbn [holds_kind] in *; unfold is_ctl in *; cbn [fst snd] in *.
    destruct H0 as [H0 _], H4 as [H4 _]. rewrite H0, H1, H2, H3, H4, H5, H6, H7 in Hc. exact Hc. }
  pose proof (H 0%nat _ eq_refl) as [_ H0]; pose proof (H 4%nat _ eq_refl) as [_ H4].
  change (lane d 0 = XO) in H0. change (lane d 4 = XS) in H4. rewrite H0, H4. reflexivity.
Qed.
Lemma rc_other d c : ~ has_format (d, c) os_start -> rc d c = c.
Proof.
  intros N. unfold rc. destruct (_ && _ && _) eqn:E; [|reflexivity]. exfalso. apply N.
  apply andb_true_iff in E. destruct E as [E E4]. apply andb_true_iff in E. destruct E as [E E0].
  apply Z.eqb_eq in E, E0, E4. subst c. apply fmt8; cbn [holds_kind]; try reflexivity; split; try reflexivity; assumption.
Qed.


Lemma round_trip s is n w o : nth_error (map snd is) n = Some w -> nth_error (outs s is) (S (S n)) = Some o ->
  wf w -> legal w -> ~ has_format w os_start -> received o = w /\ d_bad (fst o) = false.
Proof.
  intros A B W L N. destruct (word_out is s n w o A B) as [f K]. destruct w as [d c]. cbn [fst snd] in K.
  pose proof (word_rt d c f W) as G. unfold outcome in G. pose proof (encode_legal d c W L) as E.
  destruct (encode d c) as [[x h] b]. cbn [fst snd] in *. subst b. destruct G as [G _].
  destruct (G eq_refl) as (_ & G1 & G2 & G3 & _). destruct K as (K1 & K2 & K3). unfold received.
  rewrite K1, K2, K3, G1, G2, G3, (rc_other d c N). auto.
Qed.
Lemma round_trip_os s is n w o : nth_error (map snd is) n = Some w -> nth_error (outs s is) (S (S n)) = Some o ->
  wf w -> has_format w os_start -> received o = (fst w, 0x1f) /\ d_bad (fst o) = false.
Proof.
  intros A B W L. destruct (word_out is s n w o A B) as [f K]. destruct w as [d c]. cbn [fst snd] in K.
  pose proof (word_rt d c f W) as G. unfold outcome in G.
  assert (legal (d, c)) as LL by (exists os_start; split; [unfold formats; cbn [In]; tauto|exact L]).
  pose proof (encode_legal d c W LL) as E.
  destruct (encode d c) as [[x h] b]. cbn [fst snd] in *. subst b. destruct G as [G _].
  destruct (G eq_refl) as (_ & G1 & G2 & G3 & _). destruct K as (K1 & K2 & K3). unfold received.
  rewrite K1, K2, K3, G1, G2, G3, (rc_os d c W L). auto.
Qed.
Lemma illegal_error s is n w o : nth_error (map snd is) n = Some w -> nth_error (outs s is) (S (S n)) = Some o ->
  wf w -> ~ legal w -> has_error (received o) = true.
Proof.
  intros A B W N. destruct (word_out is s n w o A B) as [f K]. destruct w as [d c]. cbn [fst snd] in K.
  pose proof (word_rt d c f W) as G. unfold outcome in G. pose proof (proj2 (wf_bad d c W) N) as E.
  destruct (encode d c) as [[x h] b]. cbn [fst snd] in *. subst b. destruct G as [_ G].
  destruct (G eq_refl) as (G1 & G2). destruct K as (K1 & K2 & K3). unfold received.
  rewrite K1, K2. exact G1.
Qed.

(* sequence errors *)

Lemma seq_out is : forall e d n w o,
  (forall m w, (m <= n)%nat -> nth_error (map snd is) m = Some w -> wf w /\ legal w) ->
  nth_error (map snd is) n = Some w -> nth_error (outs (e, d) is) (S (S n)) = Some o ->
  d_seq (fst o) =
    misplaced (frame_before (match is with i :: _ => if fst i then false else d_frame (decode (d_frame d) (fst (fst e)) (snd (fst e))) | [] => false end)
                            (taken is) n) w.
Proof.
  induction is as [|i is IH]; intros e d n w o G A B; [destruct n; discriminate|].
  rewrite outs_cons in B. cbn [nth_error] in B.
  destruct (G 0%nat (snd i) ltac:(lia) eq_refl) as [W0 L0].
  destruct is as [|j is]; [destruct n; discriminate|].
  set (f0 := if fst i then false else d_frame (decode (d_frame d) (fst (fst e)) (snd (fst e)))).
  change (d_seq (fst o) = misplaced (frame_before f0 (taken (i :: j :: is)) n) w).
  assert (good (fst (snd i)) (snd (snd i)) f0 (decode f0 (fst (fst (encode (fst (snd i)) (snd (snd i))))) (snd (fst (encode (fst (snd i)) (snd (snd i)))))) ) as GD.
  { destruct (snd i) as [d0 c0]. cbn [fst snd]. pose proof (word_rt d0 c0 f0 W0) as K. pose proof (encode_legal d0 c0 W0 L0) as E.
    unfold outcome in K. destruct (encode d0 c0) as [[x h] b]. cbn [fst snd] in *. subst b. apply K. reflexivity. }
  rewrite step_state in B.
  match type of B with context [outs (_, ?x)] => set (d' := x) in B end.
  assert (d_frame d' = f0) as F0 by (unfold d', f0; destruct (fst i); reflexivity).
  clearbody d' f0.
  destruct n as [|n]; cbn in A.
  - inversion A; subst w. rewrite outs_cons in B. cbn [nth_error] in B.
    destruct is as [|k is]; [discriminate|]. rewrite outs_cons in B. cbn [nth_error] in B.
    match type of B with Some ?x = Some _ => assert (o = x) as -> by (symmetry; injection B; trivial) end. rewrite !step_state. cbn [fst snd]. unfold frame_before. cbn [firstn fold_left].
    rewrite F0. destruct GD as (_ & _ & _ & _ & S & _). destruct (snd i) as [d0 c0]. cbn [fst snd] in *.
    destruct (fst j); cbn [d_seq]; exact S.
  - change (nth_error (map snd (j :: is)) n = Some w) in A.
    rewrite (IH _ _ n w o (fun m w Lm => G (S m) w ltac:(lia)) A B). rewrite F0.
    cbn [fst snd]. f_equal. unfold taken. cbn [map skipn combine]. unfold frame_before. cbn [firstn fold_left].
    assert (d_frame (decode f0 (fst (fst (encode (fst (snd i)) (snd (snd i))))) (snd (fst (encode (fst (snd i)) (snd (snd i)))))) = inside f0 (snd i)) as FF.
    { destruct GD as (_ & _ & _ & _ & _ & S). destruct (snd i); exact S. }
    rewrite FF. change (frame_step f0 (snd i, fst j)) with (if fst j then false else inside f0 (snd i)).
    destruct is; reflexivity.
Qed.

(* ----- any block ----- *)
Lemma dc_bad x i : snd (dc x i) = true -> fst (dc x i) = XE.
Proof. unfold dc. destruct (find _ _); [discriminate|reflexivity]. Qed.
Lemma dc_range x i : 0 <= fst (dc x i) < 2 ^ 8.
Proof.
  unfold dc. destruct (find _ _) as [p|] eqn:E; [|split; vm_compute; congruence].
  apply find_some in E. destruct E as [I _]. unfold codes in I. cbn [In] in I.
  repeat (destruct I as [<-|I]; [cbn [fst]; split; vm_compute; congruence|]). destruct I.
Qed.
Lemma os_range x i : 0 <= os x i < 2 ^ 8.
Proof. unfold os. destruct (_ =? _); split; vm_compute; congruence. Qed.
Lemma os_bad x i : oserr x i = true -> os x i = XE.
Proof. unfold os, oserr. destruct (_ =? _); [discriminate|reflexivity]. Qed.

Ltac fok_tac3 := repeat (apply Forall_cons; [cbn [fst snd]; split; [lia|]; first [apply dc_range | apply os_range | apply bits_range; lia | split; vm_compute; congruence]|]); apply Forall_nil.

Ltac bad_tac x :=
  let E := fresh "E" in cbn [d_bad d_rxd d_rxc]; intros E; first [discriminate E|
  unfold derr in E;
  repeat match type of E with context [span ?a ?b] => let l := eval vm_compute in (span a b) in change (span a b) with l in E end;
  cbn [existsb] in E; unfold dctl; spans; cbn [map app];
  match goal with |- has_error (pack ?L, _) = true => let K := fresh "K" in assert (K : fok L) by fok_tac3;
    repeat first
     [ match type of E with (if oserr x ?o then true else _) = true => let Q := fresh "Q" in destruct (oserr x o) eqn:Q; [clear E; rename Q into E|clear Q] end
     | match type of E with oserr x 32 = true =>
         apply (@has_error_at _ 0); [lia|reflexivity|]; rewrite (@lane_of L _ 0 (os x 32) K eq_refl); apply os_bad; exact E end
     | match type of E with oserr x 36 = true =>
         apply (@has_error_at _ 4); [lia|reflexivity|]; rewrite (@lane_of L _ 4 (os x 36) K eq_refl); apply os_bad; exact E end
     | match type of E with snd (dc x ?i) = true =>
         let n := eval vm_compute in (Z.to_nat i) in
         apply (@has_error_at _ n); [lia|reflexivity|];
         rewrite (@lane_of L _ n (fst (dc x i)) K eq_refl); apply dc_bad; exact E end
     | discriminate E
     | apply orb_true_iff in E; destruct E as [E|E] ]
  end].

Lemma decode_bad f x h : let r := decode f x h in d_bad r = true -> has_error (d_rxd r, d_rxc r) = true.
Proof.
  cbv zeta. unfold decode. cbv zeta.
  destruct (h =? 2); [bad_tac x|].
  destruct (h =? 1); [|intros _; reflexivity].
  repeat match goal with |- context [if ?t =? ?v then _ else _] => destruct (t =? v); [solve [bad_tac x]|] end.
  intros _; reflexivity.
Qed.

Lemma bad_iff s is n w o : nth_error (map snd is) n = Some w -> nth_error (outs s is) (S n) = Some o ->
  wf w -> (snd o = true <-> ~ legal w).
Proof. intros A B W. rewrite (bad_out is s n w o A B). destruct w as [d c]. apply wf_bad. exact W. Qed.

Lemma seq_from_init is n w o :
  (forall m w, (m <= n)%nat -> nth_error (map snd is) m = Some w -> wf w /\ legal w) ->
  nth_error (map snd is) n = Some w -> nth_error (outs link_init is) (S (S n)) = Some o ->
  d_seq (fst o) = misplaced (frame_before false (taken is) n) w.
Proof.
  intros G A B. rewrite (seq_out is e_init d_init n w o G A B). destruct is as [|i is]; [reflexivity|].
  destruct (fst i); reflexivity.
Qed.

Lemma os_start_lost s is n w o : nth_error (map snd is) n = Some w -> nth_error (outs s is) (S (S n)) = Some o ->
  wf w -> has_format w os_start -> legal w /\ d_bad (fst o) = false /\ received o = (fst w, 0x1f) /\ received o <> w.
Proof.
  intros A B W F. destruct (round_trip_os s is n w o A B W F) as [R S].
  splits; [exists os_start; split; [unfold formats; cbn [In]; tauto|exact F]|exact S|exact R|].
  rewrite R. destruct w as [d c]. cbn [fst]. intros E. inversion E; subst c.
  pose proof (F 1%nat _ eq_refl) as H. discriminate H.
Qed.
