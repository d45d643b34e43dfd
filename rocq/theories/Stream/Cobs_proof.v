(** Stuffing as such, the two modules together, and the stability of the outputs. *)
From Verif Require Import Base.Prelude Rtl.Handshake_spec Rtl.Handshake_proof Stream.Axis_model Stream.Axis_proof
  Stream.Fifo_model Stream.Cobs_model Stream.Cobs_spec Stream.CobsFifo_proof Stream.CobsDec_proof Stream.CobsEnc_proof.
From Coq Require Import Lia.
Local Open Scope Z_scope.
#[local] Unset Implicit Arguments.

(* ----- stuffing ----- *)
Lemma cobs_total f : Forall byte f -> exists e, is_cobs f e.
Proof.
  intros F. destruct f as [|b f].
  - exists [1]. apply (@cobs_last []); [constructor|cbn; lia].
  - destruct (@exists_last _ (b :: f) ltac:(discriminate)) as (p & x & E). rewrite E in *.
    destruct (good_frame true (map plain p) st0 (lastb x) eok0) as (o & _ & e & C & _).
    + apply Forall_forall. intros y Hy. apply in_map_iff in Hy. destruct Hy as (z & <- & _). reflexivity.
    + reflexivity.
    + reflexivity.
    + rewrite map_app, map_map. cbn. rewrite map_id. exact F.
    + exists e. rewrite map_app, map_map in C. cbn in C. rewrite map_id in C. exact C.
Qed.

Lemma cobs_nonzero f e : is_cobs f e -> Forall nonzero e.
Proof.
  induction 1 as [g F L|g f e F L H IH|g f e F L N H IH]; constructor; try (unfold nonzero; lia); auto; apply Forall_app; auto.
Qed.

Lemma cobs_length f e : is_cobs f e -> (length f + 1 <= length e <= length f + length f / 254 + 1)%nat.
Proof.
  induction 1 as [g F L|g f e F L H IH|g f e F L N H IH]; cbn [length]; rewrite ?app_length; cbn [length].
  - pose proof (Nat.div_le_lower_bound (length g) 254 0). lia.
  - pose proof (Nat.div_le_mono (length f) (length g + S (length f)) 254). lia.
  - rewrite L. replace (254 + length f)%nat with (length f + 1 * 254)%nat by lia. rewrite Nat.div_add by lia. lia.
Qed.

(* reading stuffed bytes back *)
Lemma app_eq_split {A} (a b c d : list A) : length a = length b -> a ++ c = b ++ d -> a = b /\ c = d.
Proof.
  revert b. induction a as [|x a IH]; intros [|y b] L E; try discriminate L; [auto|]. cbn in E. injection E as -> E. cbn in L.
  destruct (IH b ltac:(lia) E) as [-> ->]. auto.
Qed.
Lemma cobs_view f e : is_cobs f e -> exists g r, e = Z.of_nat (length g) + 1 :: g ++ r /\
  ((r = [] /\ f = g) \/ ((length g <= 253)%nat /\ r <> [] /\ exists f', f = g ++ 0 :: f' /\ is_cobs f' r) \/
   (length g = 254%nat /\ r <> [] /\ exists f', f = g ++ f' /\ is_cobs f' r)).
Proof.
  destruct 1 as [g F L|g f e F L H|g f e F L N H].
  - exists g, []. rewrite app_nil_r. auto.
  - exists g, e. split; auto. right. left. splits; auto; [destruct H; discriminate|eauto].
  - exists g, e. split; [rewrite L; reflexivity|]. right. right. splits; auto; [destruct H; discriminate|eauto].
Qed.
Lemma cobs_inj f1 e : is_cobs f1 e -> forall f2, is_cobs f2 e -> f1 = f2.
Proof.
  assert (G : forall n e f1 f2, (length e <= n)%nat -> is_cobs f1 e -> is_cobs f2 e -> f1 = f2).
  { clear. induction n as [|n IH]; intros e f1 f2 L H1 H2.
    - destruct e; [|cbn in L; lia]. inversion H1.
    - destruct (cobs_view _ _ H1) as (g & r & -> & C1). destruct (cobs_view _ _ H2) as (g' & r' & E & C2).
      injection E as E1 E2. assert (length g = length g') as El by lia. destruct (app_eq_split g g' r r' El E2) as [<- <-].
      assert (Lr : (length r <= n)%nat) by (cbn [length] in L; rewrite app_length in L; lia).
      destruct C1 as [[-> ->]|[(L1 & N1 & k1 & -> & K1)|(L1 & N1 & k1 & -> & K1)]], C2 as [[? ->]|[(L2 & N2 & k2 & -> & K2)|(L2 & N2 & k2 & -> & K2)]];
        try congruence; try lia; rewrite (IH r k1 k2 Lr K1 K2); reflexivity. }
  intros H1 f2 H2. exact (G (length e) e f1 f2 (le_n _) H1 H2).
Qed.

(* ----- one after the other ----- *)
Lemma coded_sent app f bs : coded app f bs -> sent_as f bs.
Proof.
  unfold coded, sent_as. destruct (f_bad f).
  - intros (p & x & e & Ef & C & B). left. exists [], p, x, e. splits; auto. destruct app; [left; exists true, true; exact B|right; exact B].
  - intros (e & C & B). exists [], e. splits; auto. destruct app; [left; exists true; exact B|right; exact B].
Qed.

Definition bare (b : cb) : cb := plain (c_d b).
Lemma bare_plain l : map bare (map plain l) = map plain l.
Proof. rewrite map_map. reflexivity. Qed.
Lemma coded_bare f bs : coded true f bs -> sent_as f (map bare bs).
Proof.
  unfold coded, sent_as. destruct (f_bad f).
  - intros (p & x & e & Ef & C & ->). left. exists [], p, x, e. splits; auto. left. exists false, false. rewrite map_app, bare_plain. reflexivity.
  - intros (e & C & ->). exists [], e. splits; auto. left. exists false. rewrite map_app, bare_plain. reflexivity.
Qed.
Lemma Forall2_imp {A B} (P Q : A -> B -> Prop) l m : (forall a b, P a b -> Q a b) -> Forall2 P l m -> Forall2 Q l m.
Proof. induction 2; constructor; auto. Qed.
Lemma Forall2_map_r {A B C} (P : A -> C -> Prop) (h : B -> C) l m : Forall2 (fun a b => P a (h b)) l m -> Forall2 P l (map h m).
Proof. induction 1; constructor; auto. Qed.
Lemma map_concat {A B} (h : A -> B) l : map h (concat l) = concat (map (map h) l).
Proof. induction l as [|a l IH]; [reflexivity|]. cbn. rewrite map_app, IH. reflexivity. Qed.
Lemma map_prefix {A B} (h : A -> B) a b : prefix a b -> prefix (map h a) (map h b).
Proof. intros (c & ->). exists (map h c). apply map_app. Qed.
Lemma prefix_trans {A} (a b c : list A) : prefix a b -> prefix b c -> prefix a c.
Proof. intros (x & ->) (y & ->). exists (x ++ y). rewrite app_assoc. reflexivity. Qed.

Lemma carried_frames app strip fs oss : (strip = true -> app = true) -> Forall2 (coded app) fs oss ->
  exists bss, Forall2 sent_as fs bss /\ (if strip then map bare (concat oss) else concat oss) = concat bss.
Proof.
  intros A H. destruct strip.
  - rewrite (A eq_refl) in H. exists (map (map bare) oss). split; [|apply map_concat].
    apply Forall2_map_r. revert H. apply Forall2_imp. apply coded_bare.
  - exists oss. split; [|reflexivity]. revert H. apply Forall2_imp. apply coded_sent.
Qed.

Lemma link_safe app strip se ie sd id fs bss : (strip = true -> app = true) ->
  e_started app se -> d_started sd -> no_reset ie -> no_reset id -> Forall frame_ok fs -> Forall2 frame_on fs bss ->
  prefix (went_in ie (e_outs app se ie)) (concat bss) ->
  prefix (went_in id (d_outs sd id)) (carried strip (went_out ie (e_outs app se ie))) ->
  exists oss, Forall2 comes_out fs oss /\ prefix (went_out id (d_outs sd id)) (concat oss).
Proof.
  intros A Se Sd Ne Nd Ok H P C. destruct (enc_safe app se ie fs bss Se Ne Ok H P) as (oss & Co & Po).
  destruct (carried_frames app strip fs oss A Co) as (bs2 & S2 & E2).
  apply (dec_safe sd id fs bs2 Sd Nd Ok S2). eapply prefix_trans; [exact C|]. rewrite <- E2. unfold carried. destruct strip; [apply map_prefix|]; exact Po.
Qed.

Lemma link_complete app strip se ie te sd id td fs bss : (strip = true -> app = true) ->
  e_started app se -> d_started sd -> no_reset (ie ++ te) -> no_reset (id ++ td) -> Forall frame_ok fs -> Forall2 frame_on fs bss ->
  went_in ie (e_outs app se ie) = concat bss -> source_quiet te -> sink_ready te -> (1564 <= length te)%nat ->
  went_in id (d_outs sd id) = carried strip (went_out (ie ++ te) (e_outs app se (ie ++ te))) -> source_quiet td -> sink_ready td -> (3 <= length td)%nat ->
  exists oss, Forall2 comes_out fs oss /\ went_out (id ++ td) (d_outs sd (id ++ td)) = concat oss.
Proof.
  intros A Se Sd Ne Nd Ok H P Qe Re Le C Qd Rd Ld.
  destruct (enc_complete app se ie te fs bss Se Ne Ok H P Qe Re Le) as (oss & Co & Po).
  destruct (carried_frames app strip fs oss A Co) as (bs2 & S2 & E2).
  apply (dec_complete sd id td fs bs2 Sd Nd Ok S2); auto. rewrite C, Po. exact E2.
Qed.

(* ----- what comes out of the encoder, byte by byte ----- *)
Lemma coded_zero app f bs : coded app f bs -> forall a b c, bs = a ++ b :: c -> (c_d b = 0 -> app = true /\ c = []) /\ (c_l b = true <-> c = []) /\ (c_u b = true -> c = [] /\ f_bad f = true) /\ (app = true -> c = [] -> c_d b = 0).
Proof.
  assert (G : forall e, Forall nonzero e -> forall l, l <> [] -> forall a b c, map plain e ++ l = a ++ b :: c ->
     (nonzero (c_d b) /\ c_l b = false /\ c_u b = false /\ c <> []) \/ exists a', l = a' ++ b :: c).
  { clear. induction e as [|x e IH]; intros F l N a b c E; cbn [map app] in E; [right; exists a; exact E|].
    inversion F as [|? ? Fx F']; subst. destruct a as [|y a]; cbn [app] in E; injection E as E1 E2.
    - subst b c. left. cbn. splits; auto. destruct (map plain e); [exact N|discriminate].
    - destruct (IH F' l N a b c E2) as [X|X]; auto. }
  intros H a b c E. unfold coded in H. destruct (f_bad f) eqn:Bd.
  - destruct H as (p & x & e & Ef & C & B). pose proof (cobs_nonzero _ _ C) as Nz. apply Forall_app in Nz. destruct Nz as [Nz _].
    destruct app.
    + rewrite B in E. destruct (G e Nz [plain 2; mkCb 0 true true] ltac:(discriminate) a b c E) as [(Nb & Lb & Ub & Nc)|(a' & E')].
      * unfold nonzero in Nb. rewrite Lb, Ub. splits; try lia; try discriminate; try congruence; split; [discriminate|congruence].
      * destruct a' as [|? [|? [|? ?]]]; cbn in E'; inversion E'; subst; cbn; splits; auto; try discriminate; split; congruence.
    + rewrite B in E. destruct (G e Nz [mkCb 2 true true] ltac:(discriminate) a b c E) as [(Nb & Lb & Ub & Nc)|(a' & E')].
      * unfold nonzero in Nb. rewrite Lb, Ub. splits; try lia; try discriminate; try congruence; split; [discriminate|congruence].
      * destruct a' as [|? [|? ?]]; cbn in E'; inversion E'; subst; cbn; splits; auto; try discriminate; split; congruence.
  - destruct H as (e & C & B). pose proof (cobs_nonzero _ _ C) as Nz. destruct app.
    + rewrite B in E. destruct (G e Nz [lastb 0] ltac:(discriminate) a b c E) as [(Nb & Lb & Ub & Nc)|(a' & E')].
      * unfold nonzero in Nb. rewrite Lb, Ub. splits; try lia; try discriminate; try congruence; split; [discriminate|congruence].
      * destruct a' as [|? [|? ?]]; cbn in E'; inversion E'; subst; cbn; splits; auto; try discriminate; split; congruence.
    + destruct B as (p & x & -> & B). apply Forall_app in Nz. destruct Nz as [Nz Nx]. rewrite B in E. pose proof (Forall_inv Nx) as Nx'.
      destruct (G p Nz [lastb x] ltac:(discriminate) a b c E) as [(Nb & Lb & Ub & Nc)|(a' & E')].
      * unfold nonzero in Nb. rewrite Lb, Ub. splits; try lia; try discriminate; try congruence; split; [discriminate|congruence].
      * unfold nonzero in Nx'. destruct a' as [|? [|? ?]]; cbn in E'; inversion E'; subst; cbn; splits; auto; try discriminate; try lia; split; congruence.
Qed.

(* ----- an offered byte stays until it is taken ----- *)
Lemma enc_stable app s i b : ci_rst i = false -> ci_mready i = false -> co_m (snd (e_step app s i)) = Some b ->
  forall j, co_m (snd (e_step app (fst (e_step app s i)) j)) = Some b.
Proof.
  intros R M H j. unfold e_step in *. cbn [snd fst co_m e_skid] in *. rewrite R, M. apply skid_out_stable. exact H.
Qed.
Lemma dec_stable s i b : ci_rst i = false -> ci_mready i = false -> co_m (snd (d_step s i)) = Some b ->
  forall j, co_m (snd (d_step (fst (d_step s i)) j)) = Some b.
Proof.
  intros R M H j. unfold d_step in *. cbn [snd fst co_m d_skid] in *. rewrite R, M. apply skid_out_stable. exact H.
Qed.

(* ----- a redundant empty group at the end ----- *)
Definition ones254 : list Z := repeat 1 254.
Lemma redundant : exists f1 e1 f2 e2, is_cobs_loose f1 e1 /\ is_cobs f2 e2 /\ f1 <> [] /\ f2 <> [] /\
  forall s is tl, d_started s -> no_reset (is ++ tl) -> went_in is (d_outs s is) = map plain (e1 ++ [0] ++ e2 ++ [0]) ->
    source_quiet tl -> sink_ready tl -> (3 <= length tl)%nat ->
    went_out (is ++ tl) (d_outs s (is ++ tl)) = map plain f1 ++ [lastb 85] /\ f2 = [85].
Proof.
  exists ones254, (255 :: ones254 ++ [1]), [85], [2; 85]. splits.
  - rewrite <- (app_nil_r ones254) at 1. apply loose_full; [|reflexivity|apply loose_strict; apply (@cobs_last []); [constructor|cbn; lia]].
    apply Forall_forall. intros x Hx. apply repeat_spec in Hx. subst x. unfold nonzero. lia.
  - apply (@cobs_last [85]); [repeat constructor|cbn; lia].
  - discriminate.
  - discriminate.
  - intros s is tl St N E Q Sr L. split; [|reflexivity]. destruct (d_started_state s St) as (I & R & W).
    destruct (d_run (is ++ tl) s N I) as (o & Eo & Co & _). rewrite W in Co. cbn [app] in Co.
    rewrite (proj1 (went_app_d s is tl)), (quiet_in_d tl _ Q), app_nil_r, E in Eo.
    apply Forall_app in N. destruct N as [N1 N2]. destruct (d_run is s N1 I) as (_ & _ & _ & I1).
    rewrite trace_fin_app in Co. destruct (d_drain tl (d_fin s is) N2 Sr Q I1 L) as (Wd & _). rewrite Wd, app_nil_r in Co. rewrite <- Co.
    destruct R as [R1 R2]. destruct (core s) as [cst cc csup ctd ctv]. cbn [a_st a_tv] in R1, R2. subst cst ctv.
    apply (f_equal snd) in Eo. cbn [snd] in Eo. rewrite <- Eo. vm_compute. reflexivity.
Qed.
