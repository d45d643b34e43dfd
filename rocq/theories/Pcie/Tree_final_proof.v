(** Enumeration and routing, put together. *)
From Verif Require Import Base.Prelude Base.Bits Base.Masks Pcie.Mem_model Pcie.Host_proof Pcie.Bar_model Pcie.Bar_spec Pcie.Bar_proof Pcie.Bar_run Pcie.Tree_model Pcie.Tree_spec
  Pcie.Tree_regs_proof Pcie.Tree_sim_proof Pcie.Tree_proof Pcie.Tree_route_proof.
From Coq Require Import Lia ZArith.
Open Scope Z_scope.
#[local] Unset Implicit Arguments.

(* ----- buses used ----- *)
Definition counts (x : topo) : Prop := forall bus l, snd (plan x bus l) = bus + bridges x.
Lemma ports_count bus : forall xs, all (fun kx => counts (snd kx)) xs -> forall last l, snd (plan_ports plan bus xs last l) = last + all_bridges xs.
Proof.
  induction xs as [|[n x] xs IH]; intros G last l; cbn [plan_ports all_bridges fold_right snd fst]; [lia|]. cbn [all snd] in G. fold (plan_ports plan bus) (all_bridges xs). pose proof (proj1 G (last + 1) (al l)) as E1.
  destruct (plan x (last + 1) (al l)) as [[t l1] s1]. cbn [snd] in E1. pose proof (IH (proj2 G) s1 (al l1)) as E2.
  destruct (plan_ports plan bus xs s1 (al l1)) as [[qs l2] s2]. cbn [snd] in *. lia.
Qed.
Lemma plan_counts x : counts x.
Proof.
  induction x as [n fs|n xs IH] using topo_all; intros bus l; cbn [plan bridges].
  - destruct (plan_fns l fs). cbn. lia.
  - pose proof (ports_count (bus + 1) xs IH (bus + 1) (al l)) as E. destruct (plan_ports plan (bus + 1) xs (bus + 1) (al l)) as [[ps l1] s1]. cbn [snd] in *. fold (all_bridges xs). lia.
Qed.

(* ----- the result has the topology ----- *)
Definition shaped (x : topo) : Prop := wf_topo x -> forall bus l t l' sub, plan x bus l = (t, l', sub) -> pos l -> fits1 (al l') -> 0 <= bus -> sub <= 255 -> shape x t.
Lemma bridge_wf bus n s u l l' : 0 <= s <= u -> u <= 255 -> pos (al l) -> mono (al l) (al l') -> fits1 (al l') -> wf_bridge (bridge_at bus n s u (al l) (al l')).
Proof. intros Hs Hu P M F. destruct (windows_wf l l' P M F) as (A & B & C). unfold wf_bridge. cbn. splits; auto; lia. Qed.
Lemma ports_shaped : forall xs, all (fun kx => shaped (snd kx)) xs -> all (fun kx => wf_topo (snd kx)) xs ->
  forall bus last l ps l' sub, plan_ports plan bus xs last l = (ps, l', sub) -> pos l -> fits1 l' -> 0 <= last -> sub <= 255 -> shape_ports xs ps.
Proof.
  induction xs as [|[n x] xs IH]; intros G W bus last l ps l' sub E P F Hl Hs; cbn in E; [injection E as <- <- <-; exact I|].
  cbn [all snd] in G, W. fold (plan_ports plan bus) in E. destruct (plan x (last + 1) (al l)) as [[t l1] s1] eqn:Px.
  destruct (plan_ports plan bus xs s1 (al l1)) as [[qs l2] s2] eqn:Pq. injection E as <- <- <-.
  destruct (plan_grows x (proj1 W) _ _ _ _ _ Px) as (M1 & S1). destruct (ports_grow xs (all_all _ (fun kx => plan_grows (snd kx)) xs) (proj2 W) _ _ _ _ _ _ Pq) as (M2 & S2).
  assert (P1 : pos (al l)) by exact (pos_mono _ _ P (mono_al l)). assert (M3 : mono (al l) (al l1)) by (eapply mono_trans; [exact M1|apply mono_al]).
  assert (F1 : fits1 (al l1)) by exact (fits1_mono _ _ F M2).
  unfold shape_ports. cbn [all2 fst snd]. fold (shape_ports xs qs). splits; [reflexivity|apply bridge_wf; auto; lia| |].
  - apply (proj1 G (proj1 W) (last + 1) (al l) t l1 s1); auto; lia.
  - apply (IH (proj2 G) (proj2 W) bus s1 (al l1) qs l2 s2); auto; [exact (pos_mono _ _ P1 M3)|lia].
Qed.
Lemma fns_shaped : forall fs l, (forall k ds, In (k, ds) fs -> wf_fn ds) -> pos l -> fits1 (snd (plan_fns l fs)) ->
  all2 (fun x y => fst x = fst y /\ exists ps, map fst ps = snd x /\ snd y = func_of ps /\ Forall aligned ps /\ Forall fits_reg ps) fs (fst (plan_fns l fs)).
Proof.
  induction fs as [|[k ds] fs IH]; intros l W P F; cbn [plan_fns] in *; [exact I|].
  assert (Wd := W k ds (or_introl eq_refl)). assert (W1 : forall d, In d ds -> wf_decl d) by (intros d Hd; exact (proj1 (proj1 Wd d Hd))).
  pose proof (assign_mono ds l W1) as Mo. destruct (assign_stacked ds l W1) as (ST & EM).
  destruct (assign l ds) as [ps l1]. cbn [fst snd] in *. pose proof (plan_fns_mono fs l1 (fun k ds H => W k ds (or_intror H))) as Mo2. specialize (IH l1 (fun k ds H => W k ds (or_intror H)) (pos_mono _ _ P Mo)).
  destruct (plan_fns l1 fs) as [r l2]. cbn [fst snd all2] in *. split; [|exact (IH F)]. split; [reflexivity|]. exists ps.
  assert (W3 : Forall (fun p : decl * Z => wf_decl (fst p)) ps) by (apply Forall_forall; intros p Hp; apply W1; rewrite <- EM; apply in_map; exact Hp).
  assert (NN : nonneg l) by (unfold nonneg, pos in *; lia). assert (FF : fits l1) by (pose proof (fits1_mono _ _ F Mo2); unfold fits, fits1 in *; lia).
  destruct (stacked_ok W3 ST NN FF). auto.
Qed.
Lemma plan_shaped x : shaped x.
Proof.
  induction x as [n fs|n xs IH] using topo_all; intros W bus l t l' sub E P F Hb Hs; cbn [plan] in E; cbn [wf_topo] in W.
  - destruct W as (_ & _ & _ & W). pose proof (fns_shaped fs l (fun k ds H => proj2 (W k ds H)) P) as S. destruct (plan_fns l fs) as [r lf]. injection E as <- <- <-. cbn [shape d_num d_fns]. split; [reflexivity|].
    apply S. exact (fits1_mono _ _ F (mono_al lf)).
  - destruct W as (_ & _ & _ & W). destruct (plan_ports plan (bus + 1) xs (bus + 1) (al l)) as [[ps l1] s1] eqn:Q. injection E as <- <- <-. rewrite al_idem in F.
    destruct (ports_grow xs (all_all _ (fun kx => plan_grows (snd kx)) xs) W _ _ _ _ _ _ Q) as (M & S).
    assert (P1 : pos (al l)) by exact (pos_mono _ _ P (mono_al l)).
    cbn [shape]. splits; [reflexivity|apply bridge_wf; auto; [lia|eapply mono_trans; [exact M|apply mono_al]]|]. fold (shape_ports xs ps).
    apply (ports_shaped xs IH W (bus + 1) (bus + 1) (al l) ps l1 s1); auto; [exact (fits1_mono _ _ F (mono_al l1))|lia].
Qed.

(* ----- configuration requests ----- *)
Definition cfgs (x : topo) : Prop := wf_topo x -> forall bus l t l' sub, plan x bus l = (t, l', sub) -> forall bu d f p,
  (forall g, at_place t p = Some ((bu, d, f), g) -> bus <= bu <= sub /\ to_link t (TCfg (negb (bu =? bus)) (bu, d, f)) = Got p) /\
  (to_link t (TCfg (negb (bu =? bus)) (bu, d, f)) = Got p -> exists g, at_place t p = Some ((bu, d, f), g)).
Lemma first_some {X} (f : X -> bool) : forall l k, first f l = Some k -> exists x, nth_error l k = Some x /\ f x = true.
Proof.
  induction l as [|x l IH]; intros k H; cbn in H; [discriminate|]. destruct (f x) eqn:E; [injection H as <-; exists x; auto|].
  destruct (first f l) as [j|]; [|discriminate]. injection H as <-. exact (IH j eq_refl).
Qed.
Lemma dev_cfg n fs : cfgs (TDev n fs).
Proof.
  intros W bus l t l' sub E bu d f p. cbn [wf_topo] in W. destruct W as (_ & _ & As & _). cbn [plan] in E.
  assert (EN : map fst (fst (plan_fns l fs)) = map fst fs).
  { clear. revert l. induction fs as [|[k ds] fs IH]; intros l; [reflexivity|]. cbn [plan_fns map fst]. destruct (assign l ds) as [ps l1]. specialize (IH l1). destruct (plan_fns l1 fs). cbn in *. rewrite IH. reflexivity. }
  destruct (plan_fns l fs) as [r lf]. cbn [fst] in EN. injection E as <- <- <-. split.
  - intros g Hp. destruct p as [|k [|]]; try discriminate. cbn [at_place d_fns d_bus d_num] in Hp. destruct (nth_error r k) as [[nf fn]|] eqn:Ek; [|discriminate]. injection Hp as <- <- <- <-. split; [lia|].
    rewrite Z.eqb_refl. cbn [negb to_link dev_recv d_num d_fns]. rewrite Nat.eqb_refl, (first_nth _ r k (nf, fn) Ek (Nat.eqb_refl nf)); [reflexivity|].
    intros j [nj fj] Hj Hn. cbn [fst]. apply Nat.eqb_neq. apply (nodup_nth r j k nj nf); [rewrite EN; apply (ascending_nodup _ _ As)|exact Hj|rewrite Hn; reflexivity|rewrite Ek; reflexivity].
  - destruct (Z.eqb_spec bu bus) as [->|]; cbn [negb to_link dev_recv d_num d_fns]; [|discriminate]. destruct (Nat.eqb_spec d n) as [->|]; [|discriminate].
    destruct (first _ r) as [k|] eqn:Ef; [|discriminate]. intros E. injection E as <-. apply first_some in Ef. destruct Ef as ([nf fn] & Hn & Hf). cbn [fst] in Hf. apply Nat.eqb_eq in Hf. subst nf.
    exists (Some fn). cbn [at_place d_fns d_bus d_num]. rewrite Hn. reflexivity.
Qed.
Lemma to_bus_got_at link : forall ps i m p, to_bus link ps i m = Got p -> exists j b t, nth_error ps j = Some (b, t) /\ takes b m = true /\ under (S (i + j)) (bridge_recv false b [] (link t) m) = Got p.
Proof.
  induction ps as [|[b t] ps IH]; intros i m p H; cbn in H; [discriminate|]. destruct (takes b m) eqn:T.
  - exists 0%nat, b, t. rewrite Nat.add_0_r. auto.
  - destruct (IH (S i) m p H) as (j & b' & t' & X1 & X2 & X3). exists (S j), b', t'. splits; auto. replace (i + S j)%nat with (S i + j)%nat by lia. exact X3.
Qed.
Lemma bus_cfg xs : all (fun kx => cfgs (snd kx)) xs -> all (fun kx => wf_topo (snd kx)) xs -> NoDup (map fst xs) ->
  forall bus last l ps l' sub, plan_ports plan bus xs last l = (ps, l', sub) -> bus <= last -> forall bu d f p,
  (forall g, in_ports ps p = Some ((bu, d, f), g) -> bus <= bu <= sub /\ to_bus to_link ps 0 (TCfg (negb (bu =? bus)) (bu, d, f)) = Got p) /\
  (to_bus to_link ps 0 (TCfg (negb (bu =? bus)) (bu, d, f)) = Got p -> exists g, in_ports ps p = Some ((bu, d, f), g)).
Proof.
  intros R W ND bus last l ps l' sub E Hb bu d f p.
  destruct (ports_grow xs (all_all _ (fun kx => plan_grows (snd kx)) xs) W _ _ _ _ _ _ E) as (M0 & S0).
  assert (PN := fun j b t => ports_nth xs W bus last l ps l' sub j b t E).
  assert (RX : forall j n x, nth_error xs j = Some (n, x) -> cfgs x).
  { clear -R. induction xs as [|[k y] xs IH]; intros [|j] n x H; try discriminate; cbn in H; cbn [all snd] in R; [injection H as -> ->; apply R|exact (IH (proj2 R) j n x H)]. }
  split.
  - intros g Hp. destruct p as [|[|j] q]; try discriminate. cbn [in_ports] in Hp. destruct (nth_error ps j) as [[b t]|] eqn:Hj; [|discriminate].
    destruct (PN j b t Hj) as (n & x & s & u & la & l1 & X1 & X2 & X3 & X4 & X5 & X6 & X7 & _). destruct q as [|k q].
    + rewrite X3 in Hp. injection Hp as <- <- <- <-. split; [lia|]. rewrite Z.eqb_refl. cbn [negb]. rewrite (to_bus_at to_link ps 0 j b t _ Hj).
      * rewrite X3. cbn. rewrite Nat.eqb_refl. reflexivity.
      * intros i b' t' Hij Hi. destruct (PN i b' t' Hi) as (n' & x' & s' & u' & la' & l1' & Y1 & _ & Y3 & _). rewrite Y3. cbn. rewrite andb_true_r. apply Nat.eqb_neq. intros Ed.
        apply (nodup_nth xs i j n' n ND Hij); [rewrite Y1; reflexivity|rewrite X1; reflexivity|congruence].
      * rewrite X3. cbn. rewrite Nat.eqb_refl. reflexivity.
    + destruct (proj1 (RX j n x X1 X2 s la t l1 u X4 bu d f (k :: q)) g Hp) as (B & T). split; [lia|]. replace (bu =? bus) with false by (symmetry; apply Z.eqb_neq; lia). cbn [negb].
      assert (IB : in_buses b bu = true) by (rewrite X3; unfold in_buses; cbn; apply andb_true_iff; split; apply Z.leb_le; lia).
      rewrite (to_bus_at to_link ps 0 j b t _ Hj); [cbn [bridge_recv]; rewrite IB| |exact IB].
      * rewrite X3 at 1. cbn [b_sec bridge_at]. rewrite T. reflexivity.
      * intros i b' t' Hij Hi. destruct (PN i b' t' Hi) as (n' & x' & s' & u' & la' & l1' & _ & _ & Y3 & _ & _ & _ & _ & _ & _ & _ & Y11).
        destruct (Y11 j b t Hij Hj) as (n2 & s2 & u2 & la2 & lb2 & _ & Z2 & Z3 & _). rewrite X3 in Z2. unfold bridge_at in Z2. assert (s = s2) by congruence. subst s2.
        rewrite Y3. cbn. unfold in_buses. cbn. destruct (Z.leb_spec bu u'); [lia|]. apply andb_false_r.
  - intros T. apply to_bus_got_at in T. destruct T as (j & b & t & Hj & Tk & T). cbn [Nat.add] in T.
    destruct (PN j b t Hj) as (n & x & s & u & la & l1 & X1 & X2 & X3 & X4 & X5 & X6 & X7 & _).
    destruct (Z.eqb_spec bu bus) as [->|N]; cbn [negb] in *.
    + cbn [takes] in Tk. cbn [bridge_recv] in T. rewrite Tk in T. injection T as <-. apply andb_true_iff in Tk. rewrite !Nat.eqb_eq in Tk. destruct Tk as (-> & ->). exists None. cbn [in_ports]. rewrite Hj, X3. reflexivity.
    + cbn [takes] in Tk. cbn [bridge_recv] in T. rewrite Tk in T. rewrite X3 in T at 1. cbn [b_sec bridge_at] in T.
      destruct (to_link t (TCfg (negb (bu =? s)) (bu, d, f))) as [q| | | |] eqn:TL; try discriminate. injection T as <-. pose proof (to_link_got _ _ _ TL) as Nq.
      destruct (proj2 (RX j n x X1 X2 s la t l1 u X4 bu d f q) TL) as (g & Hg). exists g. cbn [in_ports]. rewrite Hj. destruct q; [congruence|exact Hg].
Qed.
Lemma sw_cfg n xs : all (fun kx => cfgs (snd kx)) xs -> cfgs (TSw n xs).
Proof.
  intros R W bus l t l' sub E bu d f p. cbn [wf_topo] in W. destruct W as (_ & As & _ & W). cbn [plan] in E.
  destruct (plan_ports plan (bus + 1) xs (bus + 1) (al l)) as [[qs l1] s1] eqn:Pq. injection E as <- <- <-.
  destruct (ports_grow xs (all_all _ (fun kx => plan_grows (snd kx)) xs) W _ _ _ _ _ _ Pq) as (M0 & S0).
  destruct (bus_cfg xs R W (proj1 (ascending_nodup _ _ As)) (bus + 1) (bus + 1) (al l) qs l1 s1 Pq ltac:(lia) bu d f p) as (R1 & R2).
  split.
  - intros g Hp. destruct p as [|[|k] q]; [discriminate| |].
    + cbn in Hp. destruct q; [|discriminate]. injection Hp as <- <- <- <-. split; [lia|]. rewrite Z.eqb_refl. cbn. rewrite Nat.eqb_refl. reflexivity.
    + destruct (R1 g Hp) as (B & T). split; [lia|]. replace (bu =? bus) with false by (symmetry; apply Z.eqb_neq; lia). cbn [negb to_link bridge_recv].
      replace (in_buses _ bu) with true by (unfold in_buses; cbn; symmetry; apply andb_true_iff; split; apply Z.leb_le; lia). exact T.
  - destruct (Z.eqb_spec bu bus) as [->|N]; cbn [negb to_link bridge_recv b_dev bridge_at].
    + destruct ((d =? n)%nat && (f =? 0)%nat) eqn:Q; [|discriminate]. intros T. injection T as <-. apply andb_true_iff in Q. rewrite !Nat.eqb_eq in Q. destruct Q as (-> & ->). exists None. reflexivity.
    + destruct (in_buses _ bu); [|discriminate]. intros T. cbn [b_sec] in T. destruct (R2 T) as (g & Hg). exists g. apply to_bus_got in T. destruct T as (j & q & ->). exact Hg.
Qed.
Lemma all_cfg x : cfgs x.
Proof. induction x as [n fs|n xs IH] using topo_all; [apply dev_cfg|apply sw_cfg; exact IH]. Qed.

(* ----- nobody else gets it ----- *)
Section TreeInd.
  Variable P : tree -> Prop.
  Hypothesis Pd : forall d, P (Dev d).
  Hypothesis Ps : forall b ps, all (fun x => P (snd x)) ps -> P (Sw b ps).
  Fixpoint tree_all (t : tree) : P t :=
    match t with
    | Dev d => Pd d
    | Sw b ps => Ps b ps ((fix go l : all (fun x => P (snd x)) l := match l with [] => I | x :: l => conj (tree_all (snd x)) (go l) end) ps)
    end.
End TreeInd.
Lemma recv_got b me down m p : kind m -> bridge_recv false b me down m = Got p -> p = me /\ m = TCpl (b_id b) \/ down m = Got p.
Proof.
  destruct m as [ |r| |a|wr a]; cbn; intros K H; try contradiction.
  - destruct (pid_eqb r (b_id b)) eqn:E; [apply pid_eqb_spec in E; left; split; congruence|]. destruct (in_buses b (bus_of r)); [auto|discriminate].
  - destruct (in_win (b_io b) a); [auto|discriminate].
  - destruct (in_win (b_mem b) a || in_win (b_pf b) a); [auto|discriminate].
Qed.
Lemma turn_got root b me down m p : kind m -> turn root b me down m = Some (Got p) -> root = false /\ p = me /\ m = TCpl (b_id b) \/ down m = Got p.
Proof.
  destruct m as [ |r| |a|wr a]; cbn; intros K H; try contradiction.
  - destruct root; cbn [negb andb] in H.
    + destruct (in_buses b (bus_of r)); [|discriminate]. destruct ((bus_of r =? 0) && _); [discriminate|]. right. congruence.
    + destruct (pid_eqb r (b_id b)) eqn:E; [apply pid_eqb_spec in E; left; splits; congruence|]. destruct (in_buses b (bus_of r)); [right; congruence|discriminate].
  - destruct (in_win (b_io b) a); [right; congruence|discriminate].
  - destruct (in_win (b_mem b) a || in_win (b_pf b) a); [right; congruence|discriminate].
Qed.
Definition sound_to (t : tree) : Prop := forall m p, kind m -> to_link t m = Got p -> exists i f, at_place t p = Some (i, f) /\ aims m i f.
Lemma bus_sound ps : all (fun x => sound_to (snd x)) ps -> forall m p, kind m -> to_bus to_link ps 0 m = Got p -> exists i f, in_ports ps p = Some (i, f) /\ aims m i f.
Proof.
  intros R m p K H. apply to_bus_got_at in H. destruct H as (j & b & t & Hj & _ & H). cbn [Nat.add] in H.
  assert (RX : sound_to t). { clear -R Hj. revert j Hj. induction ps as [|[b0 t0] ps IH]; intros [|j] Hj; try discriminate; cbn in Hj; cbn [all snd] in R; [injection Hj as -> ->; apply R|exact (IH (proj2 R) j Hj)]. }
  destruct (bridge_recv false b [] (to_link t) m) as [q| | | |] eqn:B; try discriminate. injection H as <-. cbn [in_ports]. rewrite Hj.
  apply recv_got in B; [|exact K]. destruct B as [(-> & ->)|B]; [exists (b_id b), None; split; reflexivity|].
  pose proof (to_link_got _ _ _ B) as N. destruct q; [congruence|]. exact (RX m _ K B).
Qed.
Lemma link_sound t : sound_to t.
Proof.
  induction t as [d|b ps IH] using tree_all; intros m p K H; cbn [to_link] in H.
  - destruct m as [ |[[bu dv] fn]| |a|wr a]; cbn in K; try contradiction; cbn [dev_recv] in H.
    + destruct ((bu =? d_bus d) && (dv =? d_num d)%nat) eqn:E; [|discriminate]. apply andb_true_iff in E. rewrite Z.eqb_eq, Nat.eqb_eq in E. destruct E as (-> & ->).
      destruct (first _ (d_fns d)) as [k|] eqn:Ef; [|discriminate]. injection H as <-. apply first_some in Ef. destruct Ef as ([nf f] & Hn & Hf). cbn [fst] in Hf. apply Nat.eqb_eq in Hf. subst nf.
      exists (d_bus d, d_num d, fn), (Some f). cbn [at_place]. rewrite Hn. split; reflexivity.
    + destruct (first _ (d_fns d)) as [k|] eqn:Ef; [|discriminate]. injection H as <-. apply first_some in Ef. destruct Ef as ([nf f] & Hn & Hf).
      exists (d_bus d, d_num d, nf), (Some f). cbn [at_place]. rewrite Hn. split; [reflexivity|exact Hf].
    + destruct (first _ (d_fns d)) as [k|] eqn:Ef; [|destruct wr; discriminate]. injection H as <-. apply first_some in Ef. destruct Ef as ([nf f] & Hn & Hf).
      exists (d_bus d, d_num d, nf), (Some f). cbn [at_place]. rewrite Hn. split; [reflexivity|exact Hf].
  - apply recv_got in H; [|exact K]. destruct H as [(-> & ->)|H]; [exists (b_id b), None; split; reflexivity|].
    destruct (bus_sound ps IH m p K H) as (i & f & Hp & Ha). exists i, f. split; [|exact Ha]. destruct p as [|[|k] q]; try discriminate. exact Hp.
Qed.
Lemma ports_sound ps m p : kind m -> to_bus to_link ps 0 m = Got p -> exists i f, in_ports ps p = Some (i, f) /\ aims m i f.
Proof. apply bus_sound. apply all_all. intros x. apply link_sound. Qed.
Definition sound_from (t : tree) : Prop := forall q m p, kind m -> from_link t q m = Some (Got p) -> exists i f, at_place t p = Some (i, f) /\ aims m i f.
Lemma from_bus_sound ps : all (fun x => sound_from (snd x)) ps -> forall n q m p, kind m -> from_bus from_link ps 0 n q m = Some (Got p) -> exists i f, in_ports ps p = Some (i, f) /\ aims m i f.
Proof.
  intros R n q m p K H. rewrite from_bus_at in H. destruct (nth_error ps n) as [[b t]|] eqn:Hn; [|discriminate]. cbn [Nat.add] in H.
  assert (RX : sound_from t). { clear -R Hn. revert n Hn. induction ps as [|[b0 t0] ps IH]; intros [|n] Hn; try discriminate; cbn in Hn; cbn [all snd] in R; [injection Hn as -> ->; apply R|]. exact (IH (proj2 R) n Hn). }
  assert (T : forall q', turn false b [] (to_link t) m = Some (Got q') -> S n :: q' = p -> exists i f, in_ports ps p = Some (i, f) /\ aims m i f).
  { intros q' T <-. cbn [in_ports]. rewrite Hn. apply turn_got in T; [|exact K]. destruct T as [(_ & -> & ->)|T]; [exists (b_id b), None; split; reflexivity|].
    pose proof (to_link_got _ _ _ T) as N. destruct q'; [congruence|]. exact (link_sound t m _ K T). }
  destruct (match q with [] => None | _ => from_link t q m end) as [o|] eqn:O.
  - destruct q as [|k q]; [discriminate|]. destruct o as [q'| | | |]; try discriminate. injection H as <-. destruct (RX (k :: q) m q' K O) as (i & f & Hp & Ha). exists i, f. split; [|exact Ha].
    cbn [in_ports]. rewrite Hn. destruct q'; [discriminate|exact Hp].
  - destruct (turn false b [] (to_link t) m) as [[q'| | | |]|] eqn:T'; try discriminate. injection H as <-. exact (T q' eq_refl eq_refl).
Qed.
Lemma from_sound t : sound_from t.
Proof.
  induction t as [d|b ps IH] using tree_all; intros q m p K H; [discriminate|].
  assert (Lift : (exists i f, in_ports ps p = Some (i, f) /\ aims m i f) -> exists i f, at_place (Sw b ps) p = Some (i, f) /\ aims m i f).
  { intros (i & f & Hp & Ha). exists i, f. split; [|exact Ha]. destruct p as [|[|k] r]; try discriminate. exact Hp. }
  assert (T : turn false b [0%nat] (to_bus to_link ps 0) m = Some (Got p) -> exists i f, at_place (Sw b ps) p = Some (i, f) /\ aims m i f).
  { intros T. apply turn_got in T; [|exact K]. destruct T as [(_ & -> & ->)|T]; [exists (b_id b), None; split; reflexivity|]. apply Lift. exact (ports_sound ps m p K T). }
  destruct q as [|[|k] q]; [discriminate|exact (T H)|]. cbn [from_link] in H. destruct (from_bus from_link ps 0 k q m) as [o|] eqn:O; [|exact (T H)].
  injection H as ->. apply Lift. exact (from_bus_sound ps IH k q m p K O).
Qed.

(* ----- the host ----- *)
Lemma only_aimed h n q m p : kind m -> from_root h m = Got p \/ from_place h (S n :: q) m = Got p -> exists i f, in_ports (h_ps h) p = Some (i, f) /\ aims m i f.
Proof.
  intros K [H|H].
  - unfold from_root in H. apply (ports_sound _ m p K). destruct m as [ |r| |a|wr a]; cbn in K, H; try contradiction.
    + destruct (in_buses (h_b h) (bus_of r)); [exact H|discriminate].
    + destruct (in_win (b_io (h_b h)) a); [exact H|discriminate].
    + destruct (in_win (b_mem (h_b h)) a || in_win (b_pf (h_b h)) a); [exact H|discriminate].
  - cbn [from_place] in H. destruct (from_bus from_link (h_ps h) 0 n q m) as [o|] eqn:O.
    + subst o. exact (from_bus_sound (h_ps h) (all_all _ (fun x => from_sound (snd x)) _) n q m p K O).
    + destruct (turn true (h_b h) [0%nat] (to_bus to_link (h_ps h) 0) m) as [o|] eqn:T; [|discriminate]. subst o. apply turn_got in T; [|exact K].
      destruct T as [(X & _)|T]; [discriminate|]. exact (ports_sound _ m p K T).
Qed.
Lemma ready_run xs hb ps lim fuel : ready xs hb ps lim fuel -> exists ps' l' sub, plan_ports plan 0 xs 0 (al lim) = (ps', l', sub) /\ sub <= 255 /\ fits1 (al l') /\ ends xs lim = al l' /\
  enumerate fuel (mkHost hb ps) lim = Some (mkHost (mkBr (b_bus hb) (b_dev hb) 0 255 (mkWin (l_io lim) (l_io (al l'))) (mkWin (l_mem lim) (l_mem (al l'))) (mkWin (l_pf lim) (l_pf (al l')))) ps', al l').
Proof.
  intros (W & Sh & H1 & H2 & P & Hf & Hb & F). unfold ends in F.
  pose proof (ports_count 0 xs (all_all _ (fun kx => plan_counts (snd kx)) xs) 0 (al lim)) as Cn.
  unfold ends. destruct (plan_ports plan 0 xs 0 (al lim)) as [[ps' l'] sub] eqn:E. cbn [fst snd] in *. exists ps', l', sub. splits; auto; try lia; try apply F.
  apply (enumerate_run xs hb ps lim fuel ps' l' sub); auto. lia.
Qed.
Lemma enumerates xs hb ps lim fuel : ready xs hb ps lim fuel -> exists h, enumerate fuel (mkHost hb ps) lim = Some (h, ends xs lim) /\ shape_ports xs (h_ps h).
Proof.
  intros R. destruct (ready_run _ _ _ _ _ R) as (ps' & l' & sub & E & Hs & F & -> & ->). eexists. split; [reflexivity|]. cbn [h_ps].
  destruct R as ((As & L & W) & _ & _ & _ & P & _).
  apply (ports_shaped xs (all_all _ (fun kx => plan_shaped (snd kx)) xs) W 0 0 (al lim) ps' l' sub); auto; [exact (pos_mono _ _ P (mono_al lim))|exact (fits1_mono _ _ F (mono_al l'))|lia].
Qed.
Section Host.
  Variables (xs : list (nat * topo)) (lim : limits) (h : host) (l : limits).
  Hypothesis En : enumerated xs lim h l.
  Lemma en_data : exists hb l' sub, plan_ports plan 0 xs 0 (al lim) = (h_ps h, l', sub) /\ sub <= 255 /\ fits1 (al l') /\ l = al l' /\ l_mem l <= l_pf lim /\ pos lim /\ wf_ports xs /\
    h_b h = mkBr (b_bus hb) (b_dev hb) 0 255 (mkWin (l_io lim) (l_io l)) (mkWin (l_mem lim) (l_mem l)) (mkWin (l_pf lim) (l_pf l)).
  Proof.
    destruct En as (hb & ps & fuel & R & E & Sep). destruct (ready_run _ _ _ _ _ R) as (ps' & l' & sub & Ep & Hs & F & _ & E2). rewrite E in E2. injection E2 as -> ->.
    exists hb, l', sub. cbn [h_ps h_b]. splits; auto; try apply F; try apply R.
  Qed.
  Lemma config i p : (exists f, in_ports (h_ps h) p = Some (i, f)) <-> from_root h (TCfg true i) = Got p.
  Proof.
    destruct en_data as (hb & l' & sub & E & Hs & F & El & Sep & P & (As & L & W) & Eh). destruct i as [[bu d] f].
    destruct (bus_cfg xs (all_all _ (fun kx => all_cfg (snd kx)) xs) W (proj1 (ascending_nodup _ _ As)) 0 0 (al lim) (h_ps h) l' sub E ltac:(lia) bu d f p) as (R1 & R2).
    unfold from_root. rewrite Eh. cbn [bridge_recv b_sec]. unfold in_buses. cbn [b_sec b_sub]. split.
    - intros (g & Hg). destruct (R1 g Hg) as (B & T). replace ((0 <=? bu) && (bu <=? 255)) with true by (symmetry; apply andb_true_iff; split; apply Z.leb_le; lia). exact T.
    - destruct ((0 <=? bu) && (bu <=? 255)); [|discriminate]. exact R2.
  Qed.
  Lemma arrives m p i f : clear_of lim m -> in_ports (h_ps h) p = Some (i, f) -> aims m i f ->
    from_root h m = Got p /\ forall n q, from_place h (S n :: q) m = Got p.
  Proof.
    intros C Hp Ha. destruct en_data as (hb & l' & sub & E & Hs & F & El & Sep & P & (As & L & W) & Eh).
    pose proof (clear_kind _ _ C) as K. pose proof (mono_al lim) as Ma. pose proof (mono_al l') as Mb.
    assert (Sep1 : l_mem l' <= l_pf (al lim)) by (rewrite El in Sep; unfold mono in *; lia).
    destruct (bus_routes xs (all_all _ (fun kx => all_routes (snd kx)) xs) W (proj1 (ascending_nodup _ _ As)) 0 0 (al lim) (h_ps h) l' sub m E ltac:(lia) (pos_mono _ _ P Ma) (fits1_mono _ _ F Mb) Sep1 K) as (R1 & R2 & R3).
    specialize (R1 (clear_mono _ _ _ C Ma)). specialize (R3 (clear_mono _ _ _ C Ma)). destruct (R1 p i f Hp Ha) as (H1 & H2).
    assert (X : match m with TCpl r => in_buses (h_b h) (bus_of r) = true /\ (bus_of r =? 0) && (snd (fst r) =? 0)%nat = false | TIo a => in_win (b_io (h_b h)) a = true | TMem _ a => in_win (b_mem (h_b h)) a || in_win (b_pf (h_b h)) a = true | _ => True end).
    { rewrite Eh, El. unfold in_buses, in_win. cbn [b_sec b_sub b_io b_mem b_pf w_base w_limit]. unfold mono in Ma, Mb. destruct m as [ |r| |a|wr a]; cbn in K; try contradiction; cbn [hit] in H1.
      - split; [apply andb_true_iff; split; apply Z.leb_le; lia|]. cbn [aims] in Ha. subst r. apply andb_false_iff. destruct (Z.eqb_spec (bus_of i) 0) as [E0|]; [right|left; reflexivity].
        apply Nat.eqb_neq. intros D0. destruct i as [[bu d] g]. cbn in E0, D0. subst bu d. destruct p as [|[|j] q]; try discriminate. cbn [in_ports] in Hp.
        destruct (nth_error (h_ps h) j) as [[b t]|] eqn:Hj; [|discriminate].
        destruct (ports_nth xs W 0 0 (al lim) (h_ps h) l' sub j b t E Hj) as (n & x & s & u & la & l1 & X1 & X2 & X3 & X4 & X5 & X6 & X7 & _). destruct q as [|k q].
        + rewrite X3 in Hp. injection Hp as Hn _ _. pose proof (proj2 (ascending_nodup _ _ As) n (in_map fst _ _ (nth_error_In _ _ X1))). lia.
        + destruct (proj1 (all_cfg x X2 s la t l1 u X4 0 0%nat g (k :: q)) f Hp) as (B & _). lia.
      - apply andb_true_iff; split; apply Z.leb_le; lia.
      - apply orb_true_iff. rewrite !andb_true_iff, !Z.leb_le. lia. }
    split.
    - unfold from_root. destruct m as [ |r| |a|wr a]; cbn in K; try contradiction; cbn [bridge_recv negb andb]; [rewrite (proj1 X)|rewrite X|rewrite X]; exact H2.
    - intros n q. cbn [from_place].
      assert (T : turn true (h_b h) [0%nat] (to_bus to_link (h_ps h) 0) m = Some (Got p)).
      { destruct m as [ |r| |a|wr a]; cbn in K; try contradiction; cbn [turn negb andb]; [rewrite (proj1 X), (proj2 X)|rewrite X|rewrite X]; rewrite H2; reflexivity. }
      destruct (R3 n q p i f Hp Ha) as [-> | ->]; [rewrite T|]; reflexivity.
  Qed.
  Lemma leaves m n q : match m with TCpl r => bus_of r = 0 /\ snd (fst r) = 0%nat | TIo a => ~ l_io lim <= a <= l_io l
      | TMem _ a => ~ l_mem lim <= a <= l_mem l /\ ~ l_pf lim <= a <= l_pf l | _ => False end -> from_place h (S n :: q) m = AtRoot.
  Proof.
    intros H. destruct en_data as (hb & l' & sub & E & Hs & F & El & Sep & P & (As & L & W) & Eh).
    assert (K : kind m) by (destruct m; cbn in *; auto). pose proof (mono_al lim) as Ma. pose proof (mono_al l') as Mb.
    assert (Sep1 : l_mem l' <= l_pf (al lim)) by (rewrite El in Sep; unfold mono in *; lia).
    destruct (bus_routes xs (all_all _ (fun kx => all_routes (snd kx)) xs) W (proj1 (ascending_nodup _ _ As)) 0 0 (al lim) (h_ps h) l' sub m E ltac:(lia) (pos_mono _ _ P Ma) (fits1_mono _ _ F Mb) Sep1 K) as (_ & R2 & _).
    cbn [from_place]. rewrite R2.
    - rewrite Eh. destruct m as [ |r| |a|wr a]; cbn in K; try contradiction; cbn [turn negb andb b_io b_mem b_pf].
      + destruct H as (-> & ->). reflexivity.
      + unfold in_win. cbn [w_base w_limit]. destruct (Z.leb_spec (l_io lim) a); [destruct (Z.leb_spec a (l_io l)); [lia|]|]; reflexivity.
      + unfold in_win. cbn [w_base w_limit]. destruct (Z.leb_spec (l_mem lim) a); [destruct (Z.leb_spec a (l_mem l)); [lia|]|];
          (destruct (Z.leb_spec (l_pf lim) a); [destruct (Z.leb_spec a (l_pf l)); [lia|]|]); reflexivity.
    - intros k Hk ->. cbn in H. pose proof (proj2 (ascending_nodup _ _ As) k Hk). lia.
    - rewrite El in H. unfold mono in Ma, Mb. destruct m; cbn in *; lia.
  Qed.
End Host.
Lemma region_claimed rs d b a io : wf_fn (map fst rs) -> Forall aligned rs -> Forall fits_reg rs -> In (d, b) rs -> b <= a < b + size d ->
  match d with Unused => False | Io _ => io = true | _ => io = false end -> claims a io (func_of rs) = true.
Proof.
  intros (W & _) A F Hi Ha Hd.
  assert (W2 : Forall (fun p : decl * Z => wf_decl (fst p) /\ match fst p with Mem64 k _ => k < 32 | _ => True end) rs).
  { apply Forall_forall. intros p Hp. apply W. apply in_map. exact Hp. }
  pose proof (proj1 (Forall_forall _ _) A _ Hi) as A1. pose proof (proj1 (Forall_forall _ _) F _ Hi) as F1. unfold aligned, fits_reg in A1, F1. cbn [fst snd] in A1, F1.
  assert (Ha0 : 0 <= a < 2 ^ 64) by (destruct d; try contradiction; destruct A1 as [A1|A1]; try discriminate; lia).
  destruct (match_sees rs 0 a io Ha0 W2 A F) as (L & E & HL). unfold claims, match_bar, func_of. cbn [f_bar f_mask]. rewrite E.
  assert (X : L <> []); [|destruct L; [congruence|reflexivity]]. apply HL. apply existsb_exists. exists (d, b). split; [exact Hi|].
  destruct d; try contradiction; destruct A1 as [A1|A1]; try discriminate; subst io; cbn [sees negb andb]; try rewrite Z.mod_small by lia; apply andb_true_iff; split; try apply Z.leb_le; try apply Z.ltb_lt; lia.
Qed.
