(** Enumeration puts everything where the plan says. *)
From Verif Require Import Base.Prelude Base.Bits Base.Masks Pcie.Mem_model Pcie.Host_proof Pcie.Bar_model Pcie.Bar_spec Pcie.Bar_proof Pcie.Bar_run Pcie.Tree_model Pcie.Tree_spec
  Pcie.Tree_regs_proof Pcie.Tree_sim_proof.
From Coq Require Import Lia ZArith.
Open Scope Z_scope.
#[local] Unset Implicit Arguments.

Section TopoInd.
  Variable P : topo -> Prop.
  Hypothesis Pd : forall n fs, P (TDev n fs).
  Hypothesis Ps : forall n xs, all (fun kx => P (snd kx)) xs -> P (TSw n xs).
  Fixpoint topo_all (x : topo) : P x :=
    match x with
    | TDev n fs => Pd n fs
    | TSw n xs => Ps n xs ((fix go l : all (fun kx => P (snd kx)) l := match l with [] => I | kx :: l => conj (topo_all (snd kx)) (go l) end) xs)
    end.
End TopoInd.

(* ----- first ----- *)
Lemma first_none {X} (f : X -> bool) l : (forall x, In x l -> f x = false) -> first f l = None.
Proof. induction l as [|x l IH]; intros H; [reflexivity|]. cbn. rewrite (H x (or_introl eq_refl)), IH; auto. intros y Hy. apply H. right. exact Hy. Qed.
Lemma first_at {X} (f : X -> bool) pre x post : (forall y, In y pre -> f y = false) -> f x = true -> first f (pre ++ x :: post) = Some (length pre).
Proof. induction pre as [|y pre IH]; intros H E; cbn; [rewrite E; reflexivity|]. rewrite (H y (or_introl eq_refl)), IH; auto. intros z Hz. apply H. right. exact Hz. Qed.
Lemma at_nth_at {X B} (f : X -> X * option B) pre x post : at_nth f (pre ++ x :: post) (length pre) = (pre ++ fst (f x) :: post, snd (f x)).
Proof. induction pre as [|y pre IH]; cbn; [destruct (f x); reflexivity|]. cbn in IH. rewrite IH. reflexivity. Qed.

(* ----- places are not empty ----- *)
Lemma to_bus_got link : forall ps i m p, to_bus link ps i m = Got p -> exists j q, p = S j :: q.
Proof.
  induction ps as [|[b t] ps IH]; intros i m p E; cbn in E; [discriminate|]. destruct (takes b m); [|eapply IH; exact E].
  destruct (bridge_recv false b [] (link t) m); cbn in E; try discriminate. injection E as <-. eauto.
Qed.
Lemma to_link_got t m p : to_link t m = Got p -> p <> [].
Proof.
  destruct t as [d|b ps]; cbn [to_link].
  - unfold dev_recv. destruct m as [[] [[? ?] ?]|[[? ?] ?]| | |];
      repeat match goal with |- context [if ?b then _ else _] => destruct b | |- context [match first ?f ?l with _ => _ end] => destruct (first f l) end; intros E; try discriminate; injection E as <-; discriminate.
  - unfold bridge_recv. destruct m as [[] [[? ?] ?]| | | |];
      repeat match goal with |- context [if ?b then _ else _] => destruct b end; intros E; try discriminate; try (injection E as <-; discriminate);
      apply to_bus_got in E; destruct E as (j & q & ->); discriminate.
Qed.

(* ----- accesses ----- *)
Lemma dev_idle own A d dn f (o : op A) : d_num d <> dn \/ ~ In f (map fst (d_fns d)) -> acc_link own A (Dev d) own dn f o = (Dev d, None).
Proof.
  intros H. unfold acc_link. cbn [to_link]. rewrite Z.eqb_refl. cbn [negb dev_recv]. destruct (Nat.eqb_spec dn (d_num d)) as [E|E]; [|reflexivity].
  destruct H as [H|H]; [congruence|]. rewrite first_none; [reflexivity|]. intros x Hx. apply Nat.eqb_neq. intros E'. apply H. rewrite <- E'. apply in_map. exact Hx.
Qed.
Lemma dev_acc own A bus n pre f fn post (o : op A) : ~ In f (map fst pre) ->
  acc_link own A (Dev (mkDev bus n (pre ++ (f, fn) :: post))) own n f o =
    (Dev (mkDev own n (pre ++ (f, fst (on_fn o (1 <? length (pre ++ (f, fn) :: post))%nat fn)) :: post)), Some (snd (on_fn o (1 <? length (pre ++ (f, fn) :: post))%nat fn))).
Proof.
  intros H. unfold acc_link. cbn [to_link]. rewrite Z.eqb_refl. cbn [negb dev_recv d_num d_fns]. rewrite Nat.eqb_refl.
  rewrite first_at; [|intros y Hy; apply Nat.eqb_neq; intros E; apply H; rewrite <- E; apply in_map; exact Hy|apply Nat.eqb_refl].
  cbn [at_link d_fns d_num]. rewrite at_nth_at. cbn [snd fst]. destruct (on_fn o _ fn) as [f' a]. reflexivity.
Qed.
Lemma up_idle own A b ps d (o : op A) : b_dev b <> d -> acc_link own A (Sw b ps) own d 0%nat o = (Sw b ps, None).
Proof. intros H. unfold acc_link. cbn [to_link]. rewrite Z.eqb_refl. cbn [negb bridge_recv]. destruct (Nat.eqb_spec d (b_dev b)); [congruence|reflexivity]. Qed.
Lemma up_acc own A b ps (o : op A) : acc_link own A (Sw b ps) own (b_dev b) 0%nat o =
  (Sw (fst (on_br o (set_bus_num b own))) ps, Some (snd (on_br o (set_bus_num b own)))).
Proof. unfold acc_link. cbn [to_link]. rewrite Z.eqb_refl. cbn [negb bridge_recv]. rewrite !Nat.eqb_refl. cbn [andb at_link]. unfold access_br. destruct (on_br o (set_bus_num b own)). reflexivity. Qed.
Lemma up_below own A b ps bus d f (o : op A) : b_sub b = 255 -> own < b_sec b <= bus -> bus <= 255 ->
  acc_link own A (Sw b ps) bus d f o = (Sw b (fst (acc_bus (b_sec b) A ps bus d f o)), snd (acc_bus (b_sec b) A ps bus d f o)).
Proof.
  intros H1 H2 H3. unfold acc_link, acc_bus. cbn [to_link]. destruct (Z.eqb_spec bus own); [lia|]. cbn [negb bridge_recv].
  replace (in_buses b bus) with true by (unfold in_buses; symmetry; apply andb_true_iff; split; apply Z.leb_le; lia).
  destruct (to_bus to_link ps 0 (TCfg (negb (bus =? b_sec b)) (bus, d, f))) as [p| |p| |] eqn:E; try reflexivity.
  apply to_bus_got in E. destruct E as (j & q & ->). cbn [at_link at_bus]. match goal with |- context [at_nth ?g ps j] => destruct (at_nth g ps j) end. reflexivity.
Qed.
Lemma to_bus_skip link : forall pre ps i m, (forall b t, In (b, t) pre -> takes b m = false) -> to_bus link (pre ++ ps) i m = to_bus link ps (i + length pre) m.
Proof.
  induction pre as [|[b t] pre IH]; intros ps i m H; cbn [app length]; [rewrite Nat.add_0_r; reflexivity|]. cbn. rewrite (H b t (or_introl eq_refl)).
  fold (to_bus link). rewrite IH by (intros b' t' H'; apply (H b' t'); right; exact H'). f_equal. lia.
Qed.
Lemma bus_idle own A ps d (o : op A) : (forall b t, In (b, t) ps -> b_dev b <> d) -> acc_bus own A ps own d 0%nat o = (ps, None).
Proof.
  intros H. unfold acc_bus. rewrite Z.eqb_refl. cbn [negb]. rewrite <- (app_nil_r ps) at 1. rewrite to_bus_skip; [reflexivity|].
  intros b t Hb. cbn. destruct (Nat.eqb_spec d (b_dev b)); [|reflexivity]. exfalso. apply (H b t Hb). congruence.
Qed.
Lemma bus_acc own A pre b t post (o : op A) : (forall b' t', In (b', t') pre -> b_dev b' <> b_dev b) ->
  acc_bus own A (pre ++ (b, t) :: post) own (b_dev b) 0%nat o = (pre ++ (fst (on_br o (set_bus_num b own)), t) :: post, Some (snd (on_br o (set_bus_num b own)))).
Proof.
  intros H. unfold acc_bus. rewrite Z.eqb_refl. cbn [negb]. rewrite to_bus_skip.
  - cbn. rewrite Nat.eqb_refl. cbn [andb Nat.eqb under at_bus]. rewrite at_nth_at. cbn [fst snd]. unfold access_br. destruct (on_br o (set_bus_num b own)). reflexivity.
  - intros b' t' Hb. cbn. destruct (Nat.eqb_spec (b_dev b) (b_dev b')); [|reflexivity]. exfalso. apply (H b' t' Hb). congruence.
Qed.
Lemma bus_below own A pre b t post bus d f (o : op A) : (forall b' t', In (b', t') pre -> b_sub b' < b_sec b) -> b_sub b = 255 -> own < b_sec b <= bus -> bus <= 255 ->
  acc_bus own A (pre ++ (b, t) :: post) bus d f o = (pre ++ (b, fst (acc_link (b_sec b) A t bus d f o)) :: post, snd (acc_link (b_sec b) A t bus d f o)).
Proof.
  intros H H1 H2 H3. unfold acc_bus, acc_link. destruct (Z.eqb_spec bus own); [lia|]. cbn [negb].
  assert (T : in_buses b bus = true) by (unfold in_buses; apply andb_true_iff; split; apply Z.leb_le; lia).
  rewrite to_bus_skip.
  - cbn [to_bus takes]. rewrite T. cbn [bridge_recv]. rewrite T.
    destruct (to_link t (TCfg (negb (bus =? b_sec b)) (bus, d, f))) as [p| |p| |] eqn:E; try reflexivity.
    pose proof (to_link_got _ _ _ E) as N. cbn [under at_bus]. change (0 + length pre)%nat with (length pre). rewrite at_nth_at. destruct p as [|k p]; [congruence|]. cbn [fst snd]. destruct (at_link bus o t (k :: p)). reflexivity.
  - intros b' t' Hb. cbn. unfold in_buses. specialize (H b' t' Hb). destruct (Z.leb_spec bus (b_sub b')); [lia|]. apply andb_false_r.
Qed.

(* ----- alignment ----- *)
Lemma up_mul x s : 0 < s -> x mod s = 0 -> up x s = x.
Proof. intros Hs M. symmetry. apply up_unique; lia. Qed.
Lemma al_idem l : al (al l) = al l.
Proof.
  unfold al. cbn [l_io l_mem l_pf]. f_equal; apply up_mul; try lia; apply up_spec; lia.
Qed.
Lemma mod_pred x k : 0 < k -> x mod k = 0 -> (x - 1) mod k = k - 1.
Proof. intros Hk M. apply Z.div_exact in M; [|lia]. rewrite M. symmetry. apply Z.mod_unique with (q := x / k - 1); lia. Qed.
Lemma windows_wf l l' : pos (al l) -> mono (al l) (al l') -> fits1 (al l') ->
  wf_win 32 12 (mkWin (l_io (al l)) (l_io (al l') - 1)) /\ wf_win 32 20 (mkWin (l_mem (al l)) (l_mem (al l') - 1)) /\ wf_win 64 20 (mkWin (l_pf (al l)) (l_pf (al l') - 1)).
Proof.
  intros P M F. unfold pos, mono, fits1 in *. unfold wf_win. cbn [w_base w_limit].
  assert (A : forall x, l_io (al x) mod 2 ^ 12 = 0 /\ l_mem (al x) mod 2 ^ 20 = 0 /\ l_pf (al x) mod 2 ^ 20 = 0).
  { intros x. unfold al. cbn [l_io l_mem l_pf]. splits; apply up_spec; lia. }
  destruct (A l) as (A1 & A2 & A3). destruct (A l') as (B1 & B2 & B3). clear A. splits; try lia; apply mod_pred; lia.
Qed.
Lemma windows_pack l l' : pos (al l) -> mono (al l) (al l') -> fits1 (al l') -> packs (mkWin (l_io (al l)) (l_io (al l') - 1)) (mkWin (l_pf (al l)) (l_pf (al l') - 1)) = true.
Proof.
  intros P M F. unfold pos, mono, fits1 in *. unfold packs. cbn [w_base w_limit]. rewrite !Z.shiftr_div_pow2 by lia.
  assert (D : forall x n k, 0 <= x < 2 ^ n -> 0 <= k <= n -> (0 <=? x / 2 ^ k) && (x / 2 ^ k <? 2 ^ (n - k)) = true).
  { intros x n k Hx Hk. assert (0 < 2 ^ k) by (apply Z.pow_pos_nonneg; lia). apply andb_true_iff. split; [apply Z.leb_le, Z.div_pos; lia|]. apply Z.ltb_lt. apply Z.div_lt_upper_bound; [lia|].
    rewrite <- Z.pow_add_r by lia. replace (k + (n - k)) with n by lia. lia. }
  change 65536 with (2 ^ (32 - 16)). change (2 ^ 32) with (2 ^ (64 - 32)). rewrite !D by lia. reflexivity.
Qed.

(* ----- the plan grows ----- *)
Lemma plan_fns_mono : forall fs l, (forall k ds, In (k, ds) fs -> wf_fn ds) -> mono l (snd (plan_fns l fs)).
Proof.
  induction fs as [|[k ds] fs IH]; intros l W; cbn [plan_fns]; [apply mono_refl|].
  pose proof (assign_mono ds l (fun d H => proj1 (proj1 (W k ds (or_introl eq_refl)) d H))) as A. destruct (assign l ds) as [ps l1]. cbn [snd] in A.
  specialize (IH l1 (fun k' ds' H => W k' ds' (or_intror H))). destruct (plan_fns l1 fs) as [r l2]. cbn [snd] in *. eapply mono_trans; eassumption.
Qed.
Definition grows (x : topo) : Prop := wf_topo x -> forall bus l t l' sub, plan x bus l = (t, l', sub) -> mono l l' /\ bus <= sub.
Lemma ports_grow : forall xs, all (fun kx => grows (snd kx)) xs -> all (fun kx => wf_topo (snd kx)) xs ->
  forall bus last l ps l' sub, plan_ports plan bus xs last l = (ps, l', sub) -> mono l l' /\ last <= sub.
Proof.
  induction xs as [|[n x] xs IH]; intros G W bus last l ps l' sub E; cbn in E; [injection E as <- <- <-; split; [apply mono_refl|lia]|].
  cbn [all snd] in G, W. destruct (plan x (last + 1) (al l)) as [[t l1] s1] eqn:P.
  fold (plan_ports plan bus) in E. destruct (plan_ports plan bus xs s1 (al l1)) as [[qs l2] s2] eqn:Q. injection E as <- <- <-.
  destruct (proj1 G (proj1 W) _ _ _ _ _ P) as (M1 & S1). destruct (IH (proj2 G) (proj2 W) _ _ _ _ _ _ Q) as (M2 & S2). split; [|lia].
  eapply mono_trans; [apply mono_al|]. eapply mono_trans; [exact M1|]. eapply mono_trans; [apply mono_al|]. exact M2.
Qed.
Lemma plan_grows x : grows x.
Proof.
  induction x as [n fs|n xs IH] using topo_all; intros W bus l t l' sub E; cbn [plan] in E; cbn [wf_topo] in W.
  - destruct W as (_ & _ & _ & W). pose proof (plan_fns_mono fs l (fun k ds H => proj2 (W k ds H))) as M. destruct (plan_fns l fs) as [r lf]. injection E as <- <- <-. split; [exact M|lia].
  - destruct W as (_ & _ & _ & W). destruct (plan_ports plan (bus + 1) xs (bus + 1) (al l)) as [[ps l1] s1] eqn:Q. injection E as <- <- <-.
    destruct (ports_grow xs IH W _ _ _ _ _ _ Q) as (M & S). split; [|lia]. eapply mono_trans; [apply mono_al|]. eapply mono_trans; [exact M|apply mono_al].
Qed.

(* ----- devices ----- *)
Lemma fns_chain rec bus n sec sub nums : forall fs cur pre lim,
  all2 (fun x y => fst x = fst y /\ exists ps, map fst ps = snd x /\ snd y = func_of ps /\ Forall aligned ps /\ Forall fits_reg ps) fs cur ->
  (forall k ds, In (k, ds) fs -> wf_fn ds) -> NoDup (map fst pre ++ map fst fs) -> nums = map fst pre ++ map fst fs -> pos lim -> fits1 (snd (plan_fns lim fs)) ->
  chain (visit (acc_link bus) rec bus n) (fun y => exists fns l, y = (Dev (mkDev bus n fns), l, sec, sub) /\ map fst fns = nums) (map fst fs)
    (Dev (mkDev bus n (pre ++ cur)), lim, sec, sub) (Dev (mkDev bus n (pre ++ fst (plan_fns lim fs))), snd (plan_fns lim fs), sec, sub).
Proof.
  induction fs as [|[k ds] fs IH]; intros cur pre lim Sh W ND EN P F; destruct cur as [|[k' fn] cur]; cbn [all2] in Sh; try contradiction; [reflexivity|].
  destruct Sh as ((Ek & ps & M & Ef & Al & Fr) & Sh). cbn [fst snd] in Ek, M, Ef. subst k' fn. cbn [map fst chain plan_fns] in *.
  assert (Wk := W k ds (or_introl eq_refl)).
  assert (Nk : ~ In k (map fst pre)).
  { intros H. apply NoDup_remove_2 in ND. apply ND. apply in_or_app. left. exact H. }
  pose proof (assign_mono ds lim (fun d H => proj1 (proj1 Wk d H))) as Mo.
  destruct (assign lim ds) as [ps' l1] eqn:Ea. cbn [snd] in Mo.
  pose proof (plan_fns_mono fs l1 (fun k' ds' H => W k' ds' (or_intror H))) as Mo2.
  destruct (plan_fns l1 fs) as [r l2] eqn:Ep. cbn [fst snd] in *.
  assert (Fi : fits1 (snd (assign lim ds))) by (rewrite Ea; exact (fits1_mono _ _ F Mo2)).
  destruct (bars_result ds ps lim Wk M Al Fr P Fi) as (rep & EB). rewrite Ea in EB. cbn [fst snd] in EB.
  exists (Dev (mkDev bus n ((pre ++ [(k, func_of ps')]) ++ cur)), l1, sec, sub). splits.
  - unfold visit. rewrite dev_acc by exact Nk. cbn [op_type on_fn fst snd]. rewrite dev_acc by exact Nk. cbn [op_bars on_fn]. rewrite EB. cbn [fst snd]. rewrite <- app_assoc. reflexivity.
  - exists ((pre ++ [(k, func_of ps')]) ++ cur), l1. split; [reflexivity|]. rewrite !map_app. cbn [map fst]. rewrite <- app_assoc. rewrite EN. f_equal. cbn [app]. f_equal.
    clear -Sh. revert cur Sh. induction fs as [|x fs IH]; intros [|y cur] Sh; cbn [all2] in Sh; try contradiction; [reflexivity|]. cbn. destruct Sh as ((E & _) & Sh). rewrite <- E, (IH cur Sh). reflexivity.
  - specialize (IH cur (pre ++ [(k, func_of ps')]) l1 Sh (fun k' ds' H => W k' ds' (or_intror H))). rewrite Ep in IH. cbn [fst snd] in IH.
    rewrite map_app in IH. cbn [map fst] in IH. rewrite <- app_assoc in IH. cbn [app] in IH. replace (pre ++ (k, func_of ps') :: r) with ((pre ++ [(k, func_of ps')]) ++ r) by (rewrite <- app_assoc; reflexivity).
    apply IH; auto. exact (pos_mono _ _ P Mo).
Qed.
Lemma ascending_nodup : forall l a, ascending a l -> NoDup l /\ forall x, In x l -> (a <= x)%nat.
Proof.
  induction l as [|x l IH]; intros a H; cbn in H; [split; [constructor|intros ? []]|]. destruct (IH _ (proj2 H)) as (N & L). split.
  - constructor; [|exact N]. intros K. specialize (L x K). lia.
  - intros y [->|K]; [lia|]. specialize (L y K). lia.
Qed.
Lemma all2_nums {X Y} (R : nat * X -> nat * Y -> Prop) : (forall x y, R x y -> fst x = fst y) -> forall l m, all2 R l m -> map fst m = map fst l.
Proof. intros H. induction l as [|x l IH]; intros [|y m] A; cbn [all2] in A; try contradiction; [reflexivity|]. cbn. rewrite (IH m (proj2 A)), (H x y (proj1 A)). reflexivity. Qed.

Definition runs (x : topo) : Prop := wf_topo x -> forall t bus lim fuel t' l' sub,
  shape x t -> pos lim -> 0 < bus -> (depth x <= fuel)%nat -> plan x bus (al lim) = (t', l', sub) -> fits1 (al l') -> sub <= 255 ->
  enum_seg (acc_link bus) fuel bus t lim = Some (t', al l', sub, windows (al lim) (al l')).

Lemma run_dev n fs : runs (TDev n fs).
Proof.
  intros W t bus lim fuel t' l' sub Sh P Hb Hf E F S. cbn [wf_topo] in W. destruct W as (Wn & (ds0 & fs0 & E0) & As & W).
  destruct t as [d|]; cbn [shape] in Sh; [|contradiction]. destruct d as [db dn fns]. cbn [d_num d_fns] in Sh. destruct Sh as (-> & Sh).
  cbn [depth] in Hf. destruct fuel as [|fuel]; [lia|]. cbn [enum_seg]. rewrite !align3_al. cbn [plan] in E.
  assert (EN : map fst fns = map fst fs) by (eapply all2_nums; [|exact Sh]; intros x y [H _]; exact H).
  destruct (plan_fns (al lim) fs) as [r lf] eqn:Ep. injection E as <- <- <-.
  assert (P' : pos (al lim)) by (exact (pos_mono _ _ P (mono_al lim))).
  assert (F' : fits1 lf) by (exact (fits1_mono _ _ F (mono_al lf))).
  assert (NDn : NoDup (map fst fs)) by (apply (ascending_nodup _ _ As)).
  rewrite (sparse (visit_dev (acc_link bus) (enum_seg (acc_link bus) fuel) bus) (fun y => exists dd l, y = (Dev dd, l, bus + 1, bus) /\ d_num dd = n) 32 0 [n]
    (Dev (mkDev db n fns), al lim, bus + 1, bus) (Dev (mkDev bus n r), lf, bus + 1, bus)).
  - rewrite align3_al. reflexivity.
  - intros k y _ Nk (dd & l & -> & En). unfold visit_dev. destruct ((bus =? 0) && (k =? 0)%nat); [reflexivity|]. rewrite dev_idle; [reflexivity|]. left. intros E. apply Nk. left. congruence.
  - cbn. lia.
  - intros k [<-|[]]. lia.
  - exists (mkDev db n fns), (al lim). split; reflexivity.
  - cbn [chain]. exists (Dev (mkDev bus n r), lf, bus + 1, bus). splits; [|exists (mkDev bus n r), lf; split; reflexivity|reflexivity].
    unfold visit_dev. replace (bus =? 0) with false by (symmetry; apply Z.eqb_neq; lia). cbn [andb].
    destruct fns as [|[k0 f0] fns']; [rewrite E0 in EN; discriminate|]. assert (k0 = 0%nat) by (rewrite E0 in EN; cbn in EN; congruence). subst k0.
    pose proof (dev_acc bus _ db n [] 0%nat f0 fns' op_type ltac:(intros [])) as DA. cbn [app op_type on_fn fst snd] in DA. rewrite DA. clear DA.
    assert (C := fns_chain (enum_seg (acc_link bus) fuel) bus n (bus + 1) bus (map fst fs) fs ((0%nat, f0) :: fns') [] (al lim) Sh (fun k ds H => proj2 (W k ds H)) NDn eq_refl P').
    rewrite Ep in C. cbn [fst snd app] in C. specialize (C F').
    refine (sparse _ _ _ 0%nat (map fst fs) _ _ _ As _ _ C).
    + intros k y _ Nk (gs & l & -> & En). unfold visit. rewrite dev_idle; [reflexivity|]. right. cbn [d_fns]. rewrite En. exact Nk.
    + intros k Hk. apply in_map_iff in Hk. destruct Hk as ([k' ds] & <- & Hk). cbn [fst]. destruct (1 <? length ((0%nat, f0) :: fns'))%nat eqn:L.
      * destruct (W _ _ Hk). lia.
      * apply Nat.ltb_ge in L. assert (LL : length ((0%nat, f0) :: fns') = length fs) by (rewrite <- (map_length fst), EN, map_length; reflexivity). rewrite E0 in LL, Hk. cbn in LL, L.
        destruct fs0; [|cbn in LL; lia]. destruct Hk as [Hk|[]]. injection Hk as <- <-. lia.
    + exists ((0%nat, f0) :: fns'), (al lim). split; [reflexivity|exact EN].
Qed.

(* ----- a bridge ----- *)
Section Bridge.
  Context {St R : Type} (acc : forall A, St -> Z -> nat -> nat -> op A -> St * option A) (rec : Z -> St -> limits -> option (@eres St)).
  Variables (k : bridge -> R -> St) (bus : Z) (n : nat).
  Hypothesis Hk : forall A b r (o : op A), b_dev b = n -> acc A (k b r) bus n 0%nat o = (k (fst (on_br o (set_bus_num b bus))) r, Some (snd (on_br o (set_bus_num b bus)))).
  Lemma visit_bridge b r r' lim l' sec sub s0 : b_dev b = n -> wf_bridge b -> 0 <= bus < sec -> sec <= 255 -> sec <= sub <= 255 ->
    pos (al lim) -> mono (al lim) (al l') -> fits1 (al l') ->
    (forall b1, b_sec b1 = sec -> b_sub b1 = 255 -> b_dev b1 = n -> rec sec (k b1 r) lim = Some (k b1 r', al l', sub, windows (al lim) (al l'))) ->
    visit acc rec bus n 0%nat (k b r, lim, sec, s0) = Some (k (bridge_at bus n sec sub (al lim) (al l')) r', al l', sub + 1, sub).
  Proof.
    intros Hn W Hb Hs Hsub P M F Hrec. unfold visit. rewrite Hk by exact Hn. cbn [op_type on_br fst snd]. rewrite Hk by exact Hn. cbn [op_bars on_br fst snd].
    replace (255 <? sec) with false by (symmetry; apply Z.ltb_ge; lia). rewrite Hk by exact Hn. cbn [op_br on_br fst snd].
    change (set_bus_num (set_bus_num (set_bus_num b bus) bus) bus) with (set_bus_num b bus).
    assert (W' : wf_bridge (set_bus_num b bus)) by exact W.
    rewrite set_buses_result; [|lia|lia|lia|apply W'|apply W']. cbn [set_bus_num b_bus b_dev b_io b_mem b_pf]. rewrite Hn.
    rewrite Hrec by reflexivity. unfold windows. cbv beta iota. rewrite windows_pack by assumption.
    rewrite Hk by reflexivity. cbn [op_br on_br fst snd]. unfold set_bus_num. cbn [b_bus b_dev b_sec b_sub b_io b_mem b_pf].
    rewrite set_buses_result by (cbn [b_sec b_sub]; lia). cbn [b_bus b_dev b_io b_mem b_pf].
    rewrite Hk by reflexivity. cbn [op_br on_br fst snd]. unfold set_bus_num. cbn [b_bus b_dev b_sec b_sub b_io b_mem b_pf].
    destruct (windows_wf lim l' P M F) as (W1 & W2 & W3). rewrite set_windows_result; try assumption; [reflexivity|].
    unfold wf_bridge in *. cbn [b_sec b_sub b_io b_mem b_pf] in *. splits; try lia; apply W.
  Qed.
End Bridge.

(* ----- a bus ----- *)
Definition devs (ps : list (bridge * tree)) : list nat := map (fun x => b_dev (fst x)) ps.
Lemma shape_devs : forall xs ps, shape_ports xs ps -> devs ps = map fst xs.
Proof.
  induction xs as [|x xs IH]; intros [|y ps] H; unfold shape_ports in H; cbn [all2] in H; try contradiction; [reflexivity|]. cbn. destruct H as ((E & _) & H).
  rewrite E. f_equal. apply IH. exact H.
Qed.
Lemma in_devs b t ps : In (b, t) ps -> In (b_dev b) (devs ps).
Proof. intros H. apply (in_map (fun x : bridge * tree => b_dev (fst x))) in H. exact H. Qed.
Lemma ports_chain fuel own nums : forall xs cur pre last lim ps' l' sub,
  all (fun kx => runs (snd kx)) xs -> all (fun kx => wf_topo (snd kx)) xs -> shape_ports xs cur -> nums = devs pre ++ map fst xs -> NoDup nums ->
  (forall b t, In (b, t) pre -> b_sub b <= last) -> 0 <= own <= last -> (depths xs <= fuel)%nat -> plan_ports plan own xs last lim = (ps', l', sub) ->
  pos lim -> fits1 l' -> sub <= 255 -> (own = 0 -> ~ In 0%nat (map fst xs)) ->
  chain (visit_dev (acc_bus own) (enum_seg (acc_bus own) fuel) own) (fun y => exists qs l s1 s2, y = (qs, l, s1, s2) /\ devs qs = nums) (map fst xs)
    (pre ++ cur, lim, last + 1, last) (pre ++ ps', l', sub + 1, sub).
Proof.
  induction xs as [|[n x] xs IH]; intros cur pre last lim ps' l' sub R W Sh EN ND Hpre Ho Hf E P F Hs H0; destruct cur as [|[b t] cur]; unfold shape_ports in Sh; cbn [all2] in Sh; try contradiction.
  - cbn in E. injection E as <- <- <-. reflexivity.
  - destruct Sh as ((Ed & Wb & Sx) & Sh). cbn [fst snd] in Ed, Wb, Sx. cbn [all snd] in R, W. cbn [depths fold_right snd] in Hf. fold (depths xs) in Hf.
    cbn in E. fold (plan_ports plan own) in E. destruct (plan x (last + 1) (al lim)) as [[t1 l1] s1] eqn:Px.
    destruct (plan_ports plan own xs s1 (al l1)) as [[qs l2] s2] eqn:Pq. injection E as <- <- <-.
    destruct (plan_grows x (proj1 W) _ _ _ _ _ Px) as (M1 & S1).
    assert (GW : all (fun kx : nat * topo => grows (snd kx)) xs) by (clear; induction xs; cbn; [exact I|split; [apply plan_grows|assumption]]).
    destruct (ports_grow xs GW (proj2 W) _ _ _ _ _ _ Pq) as (M2 & S2).
    assert (P1 : pos (al lim)) by exact (pos_mono _ _ P (mono_al lim)).
    assert (M3 : mono (al lim) (al l1)) by (eapply mono_trans; [exact M1|apply mono_al]).
    assert (F1 : fits1 (al l1)) by exact (fits1_mono _ _ F M2).
    cbn [map fst chain]. cbn [map fst] in EN, H0.
    assert (Nn : ~ In n (devs pre)).
    { intros H. rewrite EN in ND. apply NoDup_remove_2 in ND. apply ND, in_or_app. left. exact H. }
    exists ((pre ++ [(bridge_at own n (last + 1) s1 (al lim) (al l1), t1)]) ++ cur, al l1, s1 + 1, s1). splits.
    + pose (k := fun b r => pre ++ ((b, r) : bridge * tree) :: cur).
      assert (Hk : forall A b' r (o : op A), b_dev b' = n -> acc_bus own A (k b' r) own n 0%nat o = (k (fst (on_br o (set_bus_num b' own))) r, Some (snd (on_br o (set_bus_num b' own))))).
      { intros A b' r o Hn. unfold k. rewrite <- Hn at 1. apply bus_acc. intros b2 t2 H2. rewrite Hn. intros E2. apply Nn. rewrite <- E2. exact (in_devs _ _ _ H2). }
      unfold visit_dev. change (pre ++ (b, t) :: cur) with (k b t).
      replace ((own =? 0) && (n =? 0)%nat) with false.
      2:{ symmetry. apply andb_false_iff. destruct (Z.eqb_spec own 0) as [E0|]; [right|left; reflexivity]. apply Nat.eqb_neq. intros ->. apply (H0 E0). left. reflexivity. }
      rewrite Hk by exact Ed. cbn [op_type on_br fst snd seq foldo].
      rewrite (visit_bridge (acc_bus own) (enum_seg (acc_bus own) fuel) k own n Hk (set_bus_num b own) t t1 lim l1 (last + 1) s1 last); try assumption; try lia.
      * unfold k. rewrite <- app_assoc. reflexivity.
      * intros b1 E1 E2 E3. unfold k.
        rewrite (enum_sim (acc_link (last + 1)) (acc_bus own) (fun r => pre ++ (b1, r) :: cur) (last + 1)); [|intros A s bus d f o Hb; rewrite <- E1; apply bus_below; try lia; intros b' t' H'; specialize (Hpre b' t' H'); lia|lia].
        rewrite (proj1 R (proj1 W) t (last + 1) lim fuel t1 l1 s1); try assumption; try lia. reflexivity.
    + exists ((pre ++ [(bridge_at own n (last + 1) s1 (al lim) (al l1), t1)]) ++ cur), (al l1), (s1 + 1), s1. split; [reflexivity|].
      unfold devs. rewrite !map_app. cbn [map fst bridge_at b_dev]. fold (devs pre) (devs cur). rewrite (shape_devs xs cur Sh), EN, <- app_assoc. reflexivity.
    + replace (pre ++ (bridge_at own n (last + 1) s1 (al lim) (al l1), t1) :: qs) with ((pre ++ [(bridge_at own n (last + 1) s1 (al lim) (al l1), t1)]) ++ qs) by (rewrite <- app_assoc; reflexivity).
      apply (IH cur); auto; try lia; try apply R; try apply W.
      * unfold devs. rewrite map_app. cbn [map fst bridge_at b_dev]. fold (devs pre). rewrite <- app_assoc. exact EN.
      * intros b' t' H'. apply in_app_or in H'. destruct H' as [H'|[H'|[]]]; [specialize (Hpre b' t' H'); lia|]. injection H' as <- <-. cbn. lia.
      * exact (pos_mono _ _ P1 M3).
      * intros E0 H'. apply (H0 E0). right. exact H'.
Qed.
Lemma run_bus xs : all (fun kx => runs (snd kx)) xs -> all (fun kx => wf_topo (snd kx)) xs -> (exists a, ascending a (map fst xs)) -> (forall k, In k (map fst xs) -> (k < 32)%nat) ->
  forall ps own lim fuel ps' l' sub, shape_ports xs ps -> 0 <= own -> (depths xs <= fuel)%nat -> plan_ports plan own xs own (al lim) = (ps', l', sub) -> pos lim -> fits1 (al l') -> sub <= 255 ->
  (own = 0 -> ~ In 0%nat (map fst xs)) -> enum_seg (acc_bus own) (S fuel) own ps lim = Some (ps', al l', sub, windows (al lim) (al l')).
Proof.
  intros R W (a & As) L ps own lim fuel ps' l' sub Sh Ho Hf E P F Hs H0. cbn [enum_seg]. rewrite align3_al.
  assert (ND : NoDup (map fst xs)) by apply (ascending_nodup _ _ As).
  assert (P1 : pos (al lim)) by exact (pos_mono _ _ P (mono_al lim)).
  assert (F1 : fits1 l') by exact (fits1_mono _ _ F (mono_al l')).
  assert (C := ports_chain fuel own (map fst xs) xs ps [] own (al lim) ps' l' sub R W Sh eq_refl ND (fun b t (H : In (b, t) []) => match H with end) ltac:(lia) Hf E P1 F1 Hs H0).
  assert (A0 : ascending 0 (map fst xs)) by (destruct xs as [|x xs']; [exact I|cbn in As |- *; split; [lia|apply As]]).
  cbn [app] in C.
  assert (G : foldo (visit_dev (acc_bus own) (enum_seg (acc_bus own) fuel) own) (seq 0 32) (ps, al lim, own + 1, own) = Some (ps', l', sub + 1, sub)).
  { refine (sparse _ _ 32 0 (map fst xs) _ _ _ A0 _ _ C).
    - intros k y _ Nk (qs & l & s1 & s2 & -> & Ed). unfold visit_dev. destruct ((own =? 0) && (k =? 0)%nat); [reflexivity|]. rewrite bus_idle; [reflexivity|].
      intros b t Hb E0. apply Nk. rewrite <- Ed, <- E0. exact (in_devs _ _ _ Hb).
    - intros k H. specialize (L k H). lia.
    - exists ps, (al lim), (own + 1), own. split; [reflexivity|]. exact (shape_devs xs ps Sh). }
  rewrite G, align3_al. reflexivity.
Qed.

Lemma run_sw n xs : all (fun kx => runs (snd kx)) xs -> runs (TSw n xs).
Proof.
  intros R W t bus lim fuel t' l' sub Sh P Hb Hf E F Hs. cbn [wf_topo] in W. destruct W as (Wn & As & L & W).
  destruct t as [|b ps]; cbn [shape] in Sh; [contradiction|]. destruct Sh as (Ed & Wb & Sh). fold (shape_ports xs ps) in Sh.
  cbn [depth] in Hf. fold (depths xs) in Hf. destruct fuel as [|[|fuel]]; [lia|lia|]. cbn [plan] in E.
  destruct (plan_ports plan (bus + 1) xs (bus + 1) (al (al lim))) as [[qs l1] s1] eqn:Pq. injection E as <- <- <-.
  assert (GW : all (fun kx : nat * topo => grows (snd kx)) xs) by (clear; induction xs; cbn; [exact I|split; [apply plan_grows|assumption]]).
  destruct (ports_grow xs GW W _ _ _ _ _ _ Pq) as (M2 & S2).
  assert (P1 : pos (al lim)) by exact (pos_mono _ _ P (mono_al lim)).
  rewrite al_idem in F |- *.
  assert (M3 : mono (al (al lim)) (al l1)) by (eapply mono_trans; [exact M2|apply mono_al]).
  remember (S fuel) as fu eqn:Efu. cbn [enum_seg]. rewrite align3_al.
  rewrite (sparse (visit_dev (acc_link bus) (enum_seg (acc_link bus) fu) bus) (fun y => exists bb qs l s1 s2, y = (Sw bb qs, l, s1, s2) /\ b_dev bb = n) 32 0 [n]
    (Sw b ps, al lim, bus + 1, bus) (Sw (bridge_at bus n (bus + 1) s1 (al (al lim)) (al l1)) qs, al l1, s1 + 1, s1)).
  - rewrite align3_al, !al_idem. reflexivity.
  - intros k y _ Nk (bb & rs & l & s3 & s4 & -> & En). unfold visit_dev. destruct ((bus =? 0) && (k =? 0)%nat); [reflexivity|]. rewrite up_idle; [reflexivity|]. intros E. apply Nk. left. congruence.
  - cbn. lia.
  - intros k [<-|[]]. lia.
  - exists b, ps, (al lim), (bus + 1), bus. split; [reflexivity|exact Ed].
  - cbn [chain]. eexists. splits; [|exists (bridge_at bus n (bus + 1) s1 (al (al lim)) (al l1)), qs, (al l1), (s1 + 1), s1; split; reflexivity|reflexivity].
    unfold visit_dev. replace (bus =? 0) with false by (symmetry; apply Z.eqb_neq; lia). cbn [andb].
    assert (Hk : forall A b' r (o : op A), b_dev b' = n -> acc_link bus A (Sw b' r) bus n 0%nat o = (Sw (fst (on_br o (set_bus_num b' bus))) r, Some (snd (on_br o (set_bus_num b' bus))))).
    { intros A b' r o <-. apply up_acc. }
    rewrite Hk by exact Ed. cbn [op_type on_br fst snd seq foldo].
    rewrite (visit_bridge (acc_link bus) (enum_seg (acc_link bus) fu) Sw bus n Hk (set_bus_num b bus) ps qs (al lim) l1 (bus + 1) s1 bus); try assumption; try lia; try reflexivity.
    + rewrite al_idem. exact P1.
    + intros b1 E1 E2 E3.
      rewrite (enum_sim (acc_bus (bus + 1)) (acc_link bus) (Sw b1) (bus + 1)); [|intros A s bu d f o Hbu; rewrite <- E1; apply up_below; lia|lia].
      rewrite Efu. rewrite (run_bus xs R W (ex_intro _ 0%nat As) L ps (bus + 1) (al lim) fuel qs l1 s1); try assumption; try lia. reflexivity.
Qed.
Lemma all_run x : runs x.
Proof. induction x as [n fs|n xs IH] using topo_all; [apply run_dev|apply run_sw; exact IH]. Qed.
Lemma all_all {X} (P : X -> Prop) : (forall x, P x) -> forall l, all P l.
Proof. intros H. induction l; cbn; auto. Qed.

Lemma enumerate_run xs hb ps lim fuel ps' l' sub : wf_ports xs -> shape_ports xs ps -> b_sec hb = 0 -> b_sub hb = 255 -> pos lim -> (depths xs < fuel)%nat ->
  plan_ports plan 0 xs 0 (al lim) = (ps', l', sub) -> fits1 (al l') -> sub <= 255 ->
  enumerate fuel (mkHost hb ps) lim =
    Some (mkHost (mkBr (b_bus hb) (b_dev hb) 0 255 (mkWin (l_io lim) (l_io (al l'))) (mkWin (l_mem lim) (l_mem (al l'))) (mkWin (l_pf lim) (l_pf (al l')))) ps', al l').
Proof.
  intros (As & L & W) Sh H1 H2 P Hf E F Hs. unfold enumerate.
  rewrite (enum_sim (acc_bus 0) acc_host (mkHost hb) 0); [|intros A s bu d f o Hbu|lia].
  - destruct fuel as [|fuel]; [lia|]. rewrite (run_bus xs (all_all _ (fun kx => all_run (snd kx)) xs) W (ex_intro _ 1%nat As) L ps 0 lim fuel ps' l' sub); try assumption; try lia.
    + cbn [option_map hr h_b h_ps]. rewrite H1, H2. reflexivity.
    + intros _ H. pose proof (proj2 (ascending_nodup _ _ As) _ H). lia.
  - unfold acc_host, acc_bus, from_root. cbn [h_b h_ps bridge_recv]. rewrite H1.
    replace (in_buses hb bu) with true by (unfold in_buses; symmetry; apply andb_true_iff; split; apply Z.leb_le; lia).
    destruct (to_bus to_link s 0 (TCfg (negb (bu =? 0)) (bu, d, f))); try reflexivity. destruct (at_bus bu o s p). reflexivity.
Qed.
