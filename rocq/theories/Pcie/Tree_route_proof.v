(** Routing in an enumerated tree. *)
From Verif Require Import Base.Prelude Base.Bits Base.Masks Pcie.Mem_model Pcie.Host_proof Pcie.Bar_model Pcie.Bar_spec Pcie.Bar_proof Pcie.Bar_run Pcie.Tree_model Pcie.Tree_spec
  Pcie.Tree_regs_proof Pcie.Tree_sim_proof Pcie.Tree_proof.
From Coq Require Import Lia ZArith.
Open Scope Z_scope.
#[local] Unset Implicit Arguments.

(* ----- which function claims an address ----- *)
Definition sees (a : Z) (io : bool) (p : decl * Z) : bool :=
  let (d, b) := p in let inr x := (b <=? x) && (x <? b + size d) in
  match d with Unused => false | Io _ => io && inr (a mod 2 ^ 32) | Mem32 _ _ => negb io && inr (a mod 2 ^ 32) | Mem64 _ _ => negb io && inr a end.
Lemma land_low a m : 0 <= m < 2 ^ 32 -> Z.land a m = Z.land (a mod 2 ^ 32) m.
Proof.
  intros Hm. rewrite <- Z.land_ones by lia. rewrite <- Z.land_assoc. f_equal. rewrite Z.land_comm, Z.land_ones by lia. symmetry. apply Z.mod_small. lia.
Qed.
Lemma match_sees : forall ps i addr io, 0 <= addr < 2 ^ 64 ->
  Forall (fun p => wf_decl (fst p) /\ match fst p with Mem64 k _ => k < 32 | _ => True end) ps -> Forall aligned ps -> Forall fits_reg ps ->
  exists L, match_from (map fst (layout ps)) (map snd (layout ps)) i addr io = Some L /\ (L <> [] <-> existsb (sees addr io) ps = true).
Proof.
  induction ps as [|[d b] ps IH]; intros i addr io H0 W A F; [exists []; split; [reflexivity|]; cbn; split; [congruence|discriminate]|].
  inversion W as [|? ? [W1 S1] W2]; inversion A as [|? ? A1 A2]; inversion F as [|? ? F1 F2]; subst. clear W A F.
  assert (Hm : 0 <= addr mod 2 ^ 32 < 2 ^ 32) by (apply Z.mod_pos_bound; lia).
  unfold aligned, fits_reg, size in A1, F1. cbn [fst snd] in W1, A1, F1, S1. cbn [existsb].
  assert (Cons : forall (c : bool) (x : nat * Z) L B, (L <> [] <-> B = true) -> (((if c then [x] else []) ++ L) <> [] <-> c || B = true)).
  { intros [] x L B HL; cbn; [split; [reflexivity|discriminate]|exact HL]. }
  destruct d as [|k pf|k pf|k]; cbn [layout regs_of app map fst snd regs_used wf_decl lgsize kind_bits sees] in *;
    try (destruct A1 as [A1|(A1 & A1')]; [discriminate|]).
  - cbn [match_from]. destruct (IH (S i) addr io H0 W2 A2 F2) as (L & -> & HL). exists L. split; [reflexivity|exact HL].
  - set (t := if pf then 8 else 0). assert (Ht : t = 0 \/ t = 8) by (unfold t; destruct pf; lia).
    assert (P16 : 2 ^ 4 <= 2 ^ k) by (apply Z.pow_le_mono_r; lia). change (2 ^ 4) with 16 in P16.
    assert (P32 : 2 ^ k <= 2 ^ 31) by (apply Z.pow_le_mono_r; lia).
    cbn [match_from]. replace (2 ^ 32 - 2 ^ k =? 0) with false by lia.
    rewrite land1, (@odd_reg 32 k t b) by (auto; lia).
    replace (t mod 2 =? 0) with true by (destruct Ht as [-> | ->]; reflexivity).
    rewrite (@bit2_reg 32 k t b) by (auto; lia).
    replace (t mod 8 - t mod 4 =? 0) with true by (destruct Ht as [-> | ->]; reflexivity). cbn [negb].
    destruct (IH (S i) addr io H0 W2 A2 F2) as (L & -> & HL). cbn [option_map]. eexists. split; [reflexivity|].
    rewrite (land_low addr) by lia. destruct (@hit_iff 32 k t b (addr mod 2 ^ 32)) as (X & Y); [lia|lia|auto|lia|lia|lia|].
    rewrite X. unfold size. cbn [lgsize]. destruct io; cbn [negb andb orb app]; [exact HL|apply Cons; exact HL].
  - set (t := if pf then 12 else 4). assert (Ht : t = 4 \/ t = 12) by (unfold t; destruct pf; lia).
    assert (P16 : 2 ^ 4 <= 2 ^ k) by (apply Z.pow_le_mono_r; lia). change (2 ^ 4) with 16 in P16.
    assert (P32 : 2 ^ k <= 2 ^ 31) by (apply Z.pow_le_mono_r; lia).
    replace (Z.min k 32) with k by lia. replace (Z.max 0 (k - 32)) with 0 by lia.
    pose proof (@low_aligned k b ltac:(lia) A1') as LA. pose proof (@low_room k b ltac:(lia) A1') as LR.
    replace (Z.min k 32) with k in LA, LR by lia.
    assert (BL : 0 <= b mod 2 ^ 32) by (apply Z.mod_pos_bound; lia).
    cbn [match_from]. replace (2 ^ 32 - 2 ^ k =? 0) with false by lia.
    rewrite land1, (@odd_reg 32 k t (b mod 2 ^ 32)) by (auto; lia).
    replace (t mod 2 =? 0) with true by (destruct Ht as [-> | ->]; reflexivity).
    rewrite (@bit2_reg 32 k t (b mod 2 ^ 32)) by (auto; lia).
    replace (t mod 8 - t mod 4 =? 0) with false by (destruct Ht as [-> | ->]; reflexivity). cbn [negb].
    destruct (IH (S (S i)) addr io H0 W2 A2 F2) as (L & -> & HL). cbn [option_map]. eexists. split; [reflexivity|].
    rewrite !combine64 by lia.
    replace (b mod 2 ^ 32 + t + b / 2 ^ 32 * 2 ^ 32) with (b + t) by (pose proof (Z.div_mod b (2 ^ 32) ltac:(lia)); lia).
    replace (2 ^ 32 - 2 ^ k + (2 ^ 32 - 2 ^ 0) * 2 ^ 32) with (2 ^ 64 - 2 ^ k)
      by (clear; change (2 ^ 0) with 1; change (2 ^ 64) with (2 ^ 32 * 2 ^ 32); lia).
    destruct (@hit_iff 64 k t b addr) as (X & Y); [lia|lia|auto|lia|lia|lia|].
    rewrite X. unfold size. cbn [lgsize]. destruct io; cbn [negb andb orb app]; [exact HL|apply Cons; exact HL].
  - assert (P4 : 2 ^ 2 <= 2 ^ k) by (apply Z.pow_le_mono_r; lia). change (2 ^ 2) with 4 in P4.
    assert (P32 : 2 ^ k <= 2 ^ 31) by (apply Z.pow_le_mono_r; lia).
    cbn [match_from]. replace (2 ^ 32 - 2 ^ k =? 0) with false by lia.
    rewrite land1, (@odd_reg 32 k 1 b) by (auto; lia). change (1 mod 2 =? 0) with false. cbn [negb].
    destruct (IH (S i) addr io H0 W2 A2 F2) as (L & -> & HL). cbn [option_map]. eexists. split; [reflexivity|].
    rewrite (land_low addr) by lia. destruct (@hit_iff 32 k 1 b (addr mod 2 ^ 32)) as (X & Y); [lia|lia|auto|lia|lia|lia|].
    rewrite X. unfold size. cbn [lgsize]. destruct io; cbn [negb andb orb app]; [apply Cons; exact HL|exact HL].
Qed.
(** The request is in this range of buses, or of the spaces. *)
Definition hit (m : tlp) (lo hi : Z) (l l' : limits) : Prop :=
  match m with
  | TCpl r => lo <= bus_of r <= hi
  | TIo a => l_io l <= a < l_io l'
  | TMem _ a => l_mem l <= a < l_mem l' \/ l_pf l <= a < l_pf l'
  | _ => False
  end.
Lemma hit_mono m lo hi l l' lo2 hi2 l2 l2' : hit m lo hi l l' -> lo2 <= lo -> hi <= hi2 -> mono l2 l -> mono l' l2' -> hit m lo2 hi2 l2 l2'.
Proof. unfold mono. destruct m; cbn; lia. Qed.
Lemma clear_mono l l' m : clear_of l m -> mono l l' -> clear_of l' m.
Proof. unfold mono. destruct m; cbn; auto; lia. Qed.
Lemma claim_hit ds l m f lo hi : wf_fn ds -> pos l -> fits1 (snd (assign l ds)) -> clear_of l m -> f = func_of (fst (assign l ds)) ->
  match m with TMem _ a => claims a false f = true | TIo a => claims a true f = true | _ => False end -> hit m lo hi l (snd (assign l ds)).
Proof.
  intros (W & _) P F C -> H. assert (W1 : forall d, In d ds -> wf_decl d) by (intros d Hd; exact (proj1 (W d Hd))).
  destruct (assign_stacked ds l W1) as (ST & EM). set (ps := fst (assign l ds)) in *. set (l' := snd (assign l ds)) in *.
  assert (W2 : Forall (fun p : decl * Z => wf_decl (fst p) /\ match fst p with Mem64 k _ => k < 32 | _ => True end) ps).
  { apply Forall_forall. intros p Hp. apply W. rewrite <- EM. apply in_map. exact Hp. }
  assert (W3 : Forall (fun p : decl * Z => wf_decl (fst p)) ps) by (eapply Forall_impl; [|exact W2]; intros p []; assumption).
  assert (NN : nonneg l) by (unfold nonneg, pos in *; lia). assert (FF : fits l') by (unfold fits, fits1 in *; lia).
  destruct (stacked_ok W3 ST NN FF) as (A & FR).
  assert (K : forall a io, 0 <= a < 2 ^ 64 -> claims a io (func_of ps) = true -> exists d b, In (d, b) ps /\ sees a io (d, b) = true).
  { intros a io Ha Hc. unfold claims, match_bar, func_of in Hc. cbn [f_bar f_mask] in Hc. destruct (match_sees ps 0 a io Ha W2 A FR) as (L & E & HL). rewrite E in Hc.
    destruct L as [|x L]; [discriminate|]. assert (X : existsb (sees a io) ps = true) by (apply HL; discriminate). apply existsb_exists in X. destruct X as ([d b] & X1 & X2). eauto. }
  assert (Rg : forall d b s, In (d, b) ps -> space_of d = Some s -> limit_of l s <= b /\ b + size d <= limit_of l' s).
  { intros d b s Hi Sp. destruct (@in_placed ps d b Hi) as (i & Pl). destruct (@stacked_range ps l l' i d b s W3 ST Pl Sp) as (_ & X). exact X. }
  destruct m as [ | | |a|wr a]; try contradiction; cbn [clear_of] in C; cbn [hit].
  - destruct (K a true ltac:(lia) H) as (d & b & Hi & Hs). destruct d; cbn in Hs; try discriminate. specialize (Rg _ b SIo Hi eq_refl). cbn [limit_of] in Rg.
    rewrite Z.mod_small in Hs by lia. lia.
  - destruct (K a false ltac:(lia) H) as (d & b & Hi & Hs). destruct d as [|k pf|k pf|k]; cbn in Hs; try discriminate.
    + specialize (Rg _ b SMem Hi eq_refl). cbn [limit_of] in Rg. destruct C as (C1 & [C2|C2]); [rewrite Z.mod_small in Hs by lia; lia|lia].
    + destruct pf; [specialize (Rg _ b SPf Hi eq_refl)|specialize (Rg _ b SMem Hi eq_refl)]; cbn [limit_of] in Rg; lia.
Qed.

(* ----- functions of a device ----- *)
Lemma fns_nth : forall fs l k n f, (forall k ds, In (k, ds) fs -> wf_fn ds) -> nth_error (fst (plan_fns l fs)) k = Some (n, f) ->
  exists ds la, wf_fn ds /\ f = func_of (fst (assign la ds)) /\ mono l la /\ mono (snd (assign la ds)) (snd (plan_fns l fs)) /\
    forall j n2 f2, (k < j)%nat -> nth_error (fst (plan_fns l fs)) j = Some (n2, f2) ->
      exists ds2 lb, wf_fn ds2 /\ f2 = func_of (fst (assign lb ds2)) /\ mono (snd (assign la ds)) lb /\ mono (snd (assign lb ds2)) (snd (plan_fns l fs)).
Proof.
  induction fs as [|[k0 ds] fs IH]; intros l k n f W H; cbn [plan_fns] in *; [destruct k; discriminate|].
  pose proof (W k0 ds (or_introl eq_refl)) as Wd. pose proof (assign_mono ds l (fun d Hd => proj1 (proj1 Wd d Hd))) as Mo.
  destruct (assign l ds) as [ps l1] eqn:Ea. cbn [snd] in Mo. specialize (IH l1). pose proof (plan_fns_mono fs l1 (fun k ds H => W k ds (or_intror H))) as Mo2.
  destruct (plan_fns l1 fs) as [r l2] eqn:Ep. cbn [fst snd] in *. destruct k as [|k]; cbn in H.
  - injection H as <- <-. exists ds, l. rewrite Ea. cbn [fst snd]. splits; auto; [apply mono_refl|]. intros j n2 f2 Hj Hn. destruct j as [|j]; [lia|]. cbn in Hn.
    destruct (IH j n2 f2 (fun k ds H => W k ds (or_intror H)) Hn) as (ds2 & lb & X1 & X2 & X3 & X4 & _). eauto 10.
  - destruct (IH k n f (fun k ds H => W k ds (or_intror H)) H) as (ds2 & lb & X1 & X2 & X3 & X4 & X5). exists ds2, lb. splits; auto; [eapply mono_trans; eassumption|].
    intros j n2 f2 Hj Hn. destruct j as [|j]; [lia|]. cbn in Hn. apply (X5 j n2 f2); [lia|exact Hn].
Qed.
Lemma first_nth {X} (f : X -> bool) : forall l k x, nth_error l k = Some x -> f x = true -> (forall j y, (j < k)%nat -> nth_error l j = Some y -> f y = false) -> first f l = Some k.
Proof.
  induction l as [|y l IH]; intros [|k] x Hn Hf Ho; try discriminate; cbn in *.
  - injection Hn as ->. rewrite Hf. reflexivity.
  - rewrite (Ho 0%nat y) by (auto; lia). rewrite (IH k x Hn Hf); [reflexivity|]. intros j z Hj Hz. apply (Ho (S j) z); [lia|exact Hz].
Qed.

(* ----- bridges ----- *)
Definition kind (m : tlp) : Prop := match m with TCpl _ | TIo _ | TMem _ _ => True | _ => False end.
Lemma clear_kind l m : clear_of l m -> kind m.
Proof. destruct m; cbn; auto. Qed.
Lemma pid_eqb_spec a b : pid_eqb a b = true <-> a = b.
Proof.
  destruct a as [[a1 a2] a3], b as [[b1 b2] b3]. cbn. rewrite !andb_true_iff, Z.eqb_eq, !Nat.eqb_eq. split; [intros ((-> & ->) & ->); reflexivity|intros E; injection E as -> -> ->; auto].
Qed.
Lemma pid_neq a b : a <> b -> pid_eqb a b = false.
Proof. intros N. destruct (pid_eqb a b) eqn:E; [|reflexivity]. apply pid_eqb_spec in E. contradiction. Qed.
Section BridgeAt.
  Variables (bus : Z) (n : nat) (s u : Z) (la lb : limits) (m : tlp) (me : list nat) (down : tlp -> outcome).
  Hypotheses (Hk : kind m) (Hs : bus < s).
  Let b := bridge_at bus n s u la lb.
  Lemma takes_spec : takes b m = true <-> m = TCpl (bus, n, 0%nat) \/ hit m s u la lb.
  Proof.
    clear down me.
    destruct m as [ |r| |a|wr a]; cbn in Hk; try contradiction; cbn [takes b hit].
    - rewrite orb_true_iff, pid_eqb_spec. unfold in_buses. cbn [b_sec b_sub bridge_at b_id b_bus b_dev]. rewrite andb_true_iff, !Z.leb_le. unfold b, b_id. cbn. split; intros [E|E]; auto; left; congruence.
    - unfold in_win. cbn. rewrite andb_true_iff, !Z.leb_le. split; [intros; right; lia|intros [E|E]; [discriminate|lia]].
    - unfold in_win. cbn. rewrite orb_true_iff, !andb_true_iff, !Z.leb_le. split; [intros; right; lia|intros [E|E]; [discriminate|lia]].
  Qed.
  Lemma recv_id : m = TCpl (bus, n, 0%nat) -> bridge_recv false b me down m = Got me.
  Proof. intros ->. cbn. rewrite Z.eqb_refl, Nat.eqb_refl. reflexivity. Qed.
  Lemma turn_id : m = TCpl (bus, n, 0%nat) -> turn false b me down m = Some (Got me).
  Proof. intros ->. cbn. rewrite Z.eqb_refl, Nat.eqb_refl. reflexivity. Qed.
  Lemma hit_range : hit m s u la lb -> match m with TCpl r => pid_eqb r (b_id b) = false /\ in_buses b (bus_of r) = true | TIo a => in_win (b_io b) a = true
    | TMem _ a => in_win (b_mem b) a || in_win (b_pf b) a = true | _ => True end.
  Proof.
    destruct m as [ |r| |a|wr a]; cbn in Hk; try contradiction; cbn [hit]; intros H.
    - split; [apply pid_neq; intros ->; cbn in H; lia|]. unfold in_buses. cbn. rewrite andb_true_iff, !Z.leb_le. lia.
    - unfold in_win. cbn. rewrite andb_true_iff, !Z.leb_le. lia.
    - unfold in_win. cbn. rewrite orb_true_iff, !andb_true_iff, !Z.leb_le. lia.
  Qed.
  Lemma recv_hit : hit m s u la lb -> bridge_recv false b me down m = down m.
  Proof.
    intros H. apply hit_range in H. destruct m as [ |r| |a|wr a]; cbn in Hk; try contradiction; cbn [bridge_recv negb andb]; [destruct H as (-> & ->)|rewrite H|rewrite H]; reflexivity.
  Qed.
  Lemma turn_hit : hit m s u la lb -> turn false b me down m = Some (down m).
  Proof.
    intros H. apply hit_range in H. destruct m as [ |r| |a|wr a]; cbn in Hk; try contradiction; cbn [turn negb andb]; [destruct H as (-> & ->)|rewrite H|rewrite H]; reflexivity.
  Qed.
  Lemma turn_miss : m <> TCpl (bus, n, 0%nat) -> ~ hit m s u la lb -> turn false b me down m = None.
  Proof.
    intros N H. destruct m as [ |r| |a|wr a]; cbn in Hk; try contradiction; cbn [turn negb andb hit] in *.
    - rewrite pid_neq by (intros ->; apply N; reflexivity). destruct (in_buses b (bus_of r)) eqn:E; [|reflexivity]. exfalso. apply H. unfold in_buses in E. cbn in E. rewrite andb_true_iff, !Z.leb_le in E. exact E.
    - destruct (in_win (b_io b) a) eqn:E; [|reflexivity]. exfalso. apply H. unfold in_win in E. cbn in E. rewrite andb_true_iff, !Z.leb_le in E. lia.
    - destruct (in_win (b_mem b) a || in_win (b_pf b) a) eqn:E; [|reflexivity]. exfalso. apply H. unfold in_win in E. cbn in E. rewrite orb_true_iff, !andb_true_iff, !Z.leb_le in E. lia.
  Qed.
End BridgeAt.

(* ----- ports ----- *)
Lemma ports_nth : forall xs, all (fun kx => wf_topo (snd kx)) xs -> forall bus last l ps l' sub j b t, plan_ports plan bus xs last l = (ps, l', sub) -> nth_error ps j = Some (b, t) ->
  exists n x s u la l1, nth_error xs j = Some (n, x) /\ wf_topo x /\ b = bridge_at bus n s u la (al l1) /\ plan x s la = (t, l1, u) /\ last < s /\ s <= u /\ u <= sub /\
    mono l la /\ mono la l1 /\ mono (al l1) l' /\
    forall j2 b2 t2, (j < j2)%nat -> nth_error ps j2 = Some (b2, t2) -> exists n2 s2 u2 la2 lb2, option_map fst (nth_error xs j2) = Some n2 /\ b2 = bridge_at bus n2 s2 u2 la2 lb2 /\ u < s2 /\ mono (al l1) la2 /\ mono lb2 l'.
Proof.
  induction xs as [|[n x] xs IH]; intros W bus last l ps l' sub j b t E H; cbn in E; [injection E as <- <- <-; destruct j; discriminate|].
  cbn [all snd] in W. fold (plan_ports plan bus) in E. destruct (plan x (last + 1) (al l)) as [[t1 l1] s1] eqn:Px.
  destruct (plan_ports plan bus xs s1 (al l1)) as [[qs l2] s2] eqn:Pq. injection E as <- <- <-.
  destruct (plan_grows x (proj1 W) _ _ _ _ _ Px) as (M1 & S1).
  destruct (ports_grow xs (all_all _ (fun kx => plan_grows (snd kx)) xs) (proj2 W) _ _ _ _ _ _ Pq) as (M2 & S2).
  destruct j as [|j]; cbn in H.
  - injection H as <- <-. exists n, x, (last + 1), s1, (al l), l1. splits; auto; try lia; try apply W; [apply mono_al|].
    intros [|j2] b2 t2 Hj Hn; [lia|]. cbn in Hn. destruct (IH (proj2 W) _ _ _ _ _ _ _ _ _ Pq Hn) as (n2 & x2 & s3 & u3 & la3 & l3 & X1 & _ & X2 & _ & X3 & _ & _ & X4 & _ & X5 & _).
    exists n2, s3, u3, la3, (al l3). cbn [nth_error]. rewrite X1. splits; auto.
  - destruct (IH (proj2 W) _ _ _ _ _ _ _ _ _ Pq H) as (n2 & x2 & s3 & u3 & la3 & l3 & X1 & X1' & X2 & X3 & X4 & X5 & X6 & X7 & X8 & X9 & X10).
    exists n2, x2, s3, u3, la3, l3. cbn [nth_error]. splits; auto; try lia.
    + eapply mono_trans; [apply mono_al|]. eapply mono_trans; [exact M1|]. eapply mono_trans; [apply mono_al|exact X7].
    + intros [|j2] b2 t2 Hj Hn; [lia|]. cbn in Hn. cbn [nth_error]. apply (X10 j2 b2 t2); [lia|exact Hn].
Qed.
Lemma nodup_nth {X} (l : list (nat * X)) i j a b : NoDup (map fst l) -> (i < j)%nat -> option_map fst (nth_error l i) = Some a -> option_map fst (nth_error l j) = Some b -> a <> b.
Proof.
  intros ND L H1 H2 ->. assert (E1 : nth_error (map fst l) i = Some b) by (rewrite nth_error_map; exact H1). assert (E2 : nth_error (map fst l) j = Some b) by (rewrite nth_error_map; exact H2).
  assert (i = j); [|lia]. eapply (proj1 (NoDup_nth_error _) ND); [|congruence]. apply nth_error_Some. congruence.
Qed.
Lemma to_bus_at link : forall ps i j b t m, nth_error ps j = Some (b, t) -> (forall k b' t', (k < j)%nat -> nth_error ps k = Some (b', t') -> takes b' m = false) -> takes b m = true ->
  to_bus link ps i m = under (S (i + j)) (bridge_recv false b [] (link t) m).
Proof.
  induction ps as [|[b0 t0] ps IH]; intros i [|j] b t m Hn Ho Ht; try discriminate; cbn in Hn.
  - injection Hn as -> ->. cbn. rewrite Ht, Nat.add_0_r. reflexivity.
  - cbn. rewrite (Ho 0%nat b0 t0) by (auto; lia). fold (to_bus link). rewrite (IH (S i) j b t m Hn); [f_equal; lia| |exact Ht]. intros k b' t' Hk Hk'. apply (Ho (S k) b' t'); [lia|exact Hk'].
Qed.
Lemma from_bus_at rise : forall ps i n q m, from_bus rise ps i n q m =
  match nth_error ps n with
  | None => None
  | Some (b, t) => match match q with [] => None | _ => rise t q m end with
      | Some o => Some (under (S (i + n)) o)
      | None => option_map (under (S (i + n))) (turn false b [] (to_link t) m) end
  end.
Proof.
  induction ps as [|[b t] ps IH]; intros i [|n] q m; cbn [nth_error]; try reflexivity.
  - cbn. rewrite Nat.add_0_r. reflexivity.
  - cbn. fold (from_bus rise). rewrite IH. replace (S i + n)%nat with (i + S n)%nat by lia. reflexivity.
Qed.

Definition routes (x : topo) : Prop := wf_topo x -> forall bus l t l' sub m, plan x bus l = (t, l', sub) -> pos l -> fits1 (al l') -> l_mem (al l') <= l_pf l -> kind m ->
  (clear_of l m -> forall p i f, at_place t p = Some (i, f) -> aims m i f -> hit m bus sub l l' /\ to_link t m = Got p) /\
  (forall q, ~ hit m bus sub l l' -> from_link t q m = None) /\
  (clear_of l m -> forall q p i f, at_place t p = Some (i, f) -> aims m i f -> from_link t q m = None \/ from_link t q m = Some (Got p)).

Lemma dev_routes n fs : routes (TDev n fs).
Proof.
  intros W bus l t l' sub m E P F Sep K. cbn [wf_topo] in W. destruct W as (_ & _ & As & W). cbn [plan] in E.
  pose proof (fns_nth fs l) as FN. pose proof (plan_fns_mono fs l (fun k ds H => proj2 (W k ds H))) as Mo.
  assert (EN : map fst (fst (plan_fns l fs)) = map fst fs).
  { clear. revert l. induction fs as [|[k ds] fs IH]; intros l; [reflexivity|]. cbn [plan_fns map fst]. destruct (assign l ds) as [ps l1]. specialize (IH l1). destruct (plan_fns l1 fs). cbn in *. rewrite IH. reflexivity. }
  destruct (plan_fns l fs) as [r lf]. cbn [fst snd] in *. injection E as <- <- <-. assert (F1 : fits1 lf) by exact (fits1_mono _ _ F (mono_al lf)).
  assert (Sep1 : l_mem lf <= l_pf l) by (pose proof (mono_al lf) as M; unfold mono in M; lia). clear F Sep.
  assert (W' := fun k ds H => proj2 (W k ds H)). specialize (fun k n f => FN k n f W').
  split; [|split; [reflexivity|left; reflexivity]].
  intros C p i f Hp Ha. destruct p as [|k [|]]; try discriminate.
  cbn [at_place d_fns d_bus d_num] in Hp. destruct (nth_error r k) as [[nf fn]|] eqn:Ek; [|discriminate]. injection Hp as <- <-.
  destruct (FN k nf fn Ek) as (ds & la & Wd & Ef & Ma & Mb & _).
  destruct m as [ |rq| |a|wr a]; cbn [aims] in Ha; try contradiction.
  - subst rq. split; [cbn; lia|]. cbn. rewrite Z.eqb_refl, Nat.eqb_refl. cbn [andb]. rewrite (first_nth _ r k (nf, fn) Ek (Nat.eqb_refl nf)); [reflexivity|].
    intros j [nj fj] Hj Hn. cbn [fst]. apply Nat.eqb_neq. apply (nodup_nth r j k nj nf); [rewrite EN; apply (ascending_nodup _ _ As)|exact Hj|rewrite Hn; reflexivity|rewrite Ek; reflexivity].
  - assert (H0 := claim_hit ds la (TIo a) fn bus bus Wd (pos_mono _ _ P Ma) (fits1_mono _ _ F1 Mb) (clear_mono _ _ _ C Ma) Ef Ha). split.
    { exact (hit_mono _ _ _ _ _ bus bus l lf H0 ltac:(lia) ltac:(lia) Ma Mb). }
    cbn [to_link dev_recv d_fns]. rewrite (first_nth _ r k (nf, fn) Ek Ha); [reflexivity|].
    intros j [nj fj] Hj Hn. cbn [snd]. destruct (claims a true fj) eqn:Cj; [exfalso|reflexivity].
    destruct (FN j nj fj Hn) as (ds2 & lb & Wd2 & Ef2 & Ma2 & Mb2 & Ord). destruct (Ord k nf fn Hj Ek) as (ds3 & lc & Wd3 & Ef3 & Ma3 & Mb3).
    assert (Ma3' : mono l lc) by (eapply mono_trans; [exact Ma2|]; eapply mono_trans; [apply assign_mono; intros d Hd; exact (proj1 (proj1 Wd2 d Hd))|exact Ma3]).
    assert (H1 := claim_hit ds2 lb (TIo a) fj bus bus Wd2 (pos_mono _ _ P Ma2) (fits1_mono _ _ F1 Mb2) (clear_mono _ _ _ C Ma2) Ef2 Cj).
    assert (H2 := claim_hit ds3 lc (TIo a) fn bus bus Wd3 (pos_mono _ _ P Ma3') (fits1_mono _ _ F1 Mb3) (clear_mono _ _ _ C Ma3') Ef3 Ha).
    clear -H1 H2 Ma3. cbn [hit] in H1, H2. unfold mono in Ma3. lia.
  - assert (H0 := claim_hit ds la (TMem wr a) fn bus bus Wd (pos_mono _ _ P Ma) (fits1_mono _ _ F1 Mb) (clear_mono _ _ _ C Ma) Ef Ha). split.
    { exact (hit_mono _ _ _ _ _ bus bus l lf H0 ltac:(lia) ltac:(lia) Ma Mb). }
    cbn [to_link dev_recv d_fns]. rewrite (first_nth _ r k (nf, fn) Ek Ha); [reflexivity|].
    intros j [nj fj] Hj Hn. cbn [snd]. destruct (claims a false fj) eqn:Cj; [exfalso|reflexivity].
    destruct (FN j nj fj Hn) as (ds2 & lb & Wd2 & Ef2 & Ma2 & Mb2 & Ord). destruct (Ord k nf fn Hj Ek) as (ds3 & lc & Wd3 & Ef3 & Ma3 & Mb3).
    assert (Ma3' : mono l lc) by (eapply mono_trans; [exact Ma2|]; eapply mono_trans; [apply assign_mono; intros d Hd; exact (proj1 (proj1 Wd2 d Hd))|exact Ma3]).
    assert (H1 := claim_hit ds2 lb (TMem wr a) fj bus bus Wd2 (pos_mono _ _ P Ma2) (fits1_mono _ _ F1 Mb2) (clear_mono _ _ _ C Ma2) Ef2 Cj).
    assert (H2 := claim_hit ds3 lc (TMem wr a) fn bus bus Wd3 (pos_mono _ _ P Ma3') (fits1_mono _ _ F1 Mb3) (clear_mono _ _ _ C Ma3') Ef3 Ha).
    clear -H1 H2 Ma2 Mb2 Ma3 Ma3' Mb3 Sep1. cbn [hit] in H1, H2. unfold mono in *. lia.
Qed.

Lemma bus_routes xs : all (fun kx => routes (snd kx)) xs -> all (fun kx => wf_topo (snd kx)) xs -> NoDup (map fst xs) ->
  forall bus last l ps l' sub m, plan_ports plan bus xs last l = (ps, l', sub) -> bus <= last -> pos l -> fits1 l' -> l_mem l' <= l_pf l -> kind m ->
  (clear_of l m -> forall p i f, in_ports ps p = Some (i, f) -> aims m i f -> hit m bus sub l l' /\ to_bus to_link ps 0 m = Got p) /\
  (forall n q, (forall k, In k (map fst xs) -> m <> TCpl (bus, k, 0%nat)) -> ~ hit m (last + 1) sub l l' -> from_bus from_link ps 0 n q m = None) /\
  (clear_of l m -> forall n q p i f, in_ports ps p = Some (i, f) -> aims m i f -> from_bus from_link ps 0 n q m = None \/ from_bus from_link ps 0 n q m = Some (Got p)).
Proof.
  intros R W ND bus last l ps l' sub m E Hb P F Sep K.
  destruct (ports_grow xs (all_all _ (fun kx => plan_grows (snd kx)) xs) W _ _ _ _ _ _ E) as (M0 & S0).
  assert (PN := fun j b t => ports_nth xs W bus last l ps l' sub j b t E).
  assert (RX : forall j n x, nth_error xs j = Some (n, x) -> routes x).
  { clear -R. induction xs as [|[k y] xs IH]; intros [|j] n x H; try discriminate; cbn in H; cbn [all snd] in R; [injection H as -> ->; apply R|exact (IH (proj2 R) j n x H)]. }
  (* what port j does *)
  assert (Port : forall j b t, nth_error ps j = Some (b, t) -> exists n s u la lb, b = bridge_at bus n s u la lb /\ option_map fst (nth_error xs j) = Some n /\ last < s /\ u <= sub /\ mono l la /\ mono lb l' /\
     (clear_of l m -> forall p i f, at_place t p = Some (i, f) -> aims m i f -> hit m s u la lb /\ to_link t m = Got p) /\
     (forall q, ~ hit m s u la lb -> from_link t q m = None) /\
     (clear_of l m -> forall q p i f, at_place t p = Some (i, f) -> aims m i f -> from_link t q m = None \/ from_link t q m = Some (Got p))).
  { intros j b t Hj. destruct (PN j b t Hj) as (n & x & s & u & la & l1 & X1 & X2 & X3 & X4 & X5 & X6 & X7 & X8 & X9 & X10 & _).
    assert (Sep1 : l_mem (al l1) <= l_pf la) by (unfold mono in X8, X10; lia).
    destruct (RX j n x X1 X2 s la t l1 u m X4 (pos_mono _ _ P X8) (fits1_mono _ _ F X10) Sep1 K) as (R1 & R2 & R3).
    exists n, s, u, la, (al l1). rewrite X1. splits; auto; try lia.
    - intros C p i f Hp Ha. destruct (R1 (clear_mono _ _ _ C X8) p i f Hp Ha) as (H1 & H2). split; [|exact H2]. exact (hit_mono _ _ _ _ _ s u la (al l1) H1 ltac:(lia) ltac:(lia) (mono_refl la) (mono_al l1)).
    - intros q Hq. apply R2. intros H. apply Hq. exact (hit_mono _ _ _ _ _ s u la (al l1) H ltac:(lia) ltac:(lia) (mono_refl la) (mono_al l1)).
    - intros C. apply R3. exact (clear_mono _ _ _ C X8). }
  assert (Excl : forall i j b t b' t', (i < j)%nat -> nth_error ps i = Some (b, t) -> nth_error ps j = Some (b', t') -> takes b m = true -> takes b' m = true -> False).
  { intros i j b t b' t' Hij Hi Hj T1 T2. destruct (PN i b t Hi) as (n & x & s & u & la & l1 & X1 & X2 & X3 & X4 & X5 & X6 & X7 & X8 & X9 & X10 & X11).
    destruct (X11 j b' t' Hij Hj) as (n2 & s2 & u2 & la2 & lb2 & Y1 & Y2 & Y3 & Y4 & Y5). subst b b'.
    apply takes_spec in T1; [|exact K]. apply takes_spec in T2; [|exact K].
    assert (Nn : n <> n2) by (apply (nodup_nth xs i j n n2 ND Hij); [rewrite X1; reflexivity|exact Y1]).
    destruct T1 as [->|T1]; [destruct T2 as [T2|T2]; [congruence|cbn in T2; lia]|]. destruct T2 as [->|T2]; [cbn in T1; lia|].
    pose proof (mono_al l1) as Ml. clear - K T1 T2 X5 X8 X9 X10 Y3 Y4 Y5 Sep Ml. unfold mono in *. destruct m; cbn in *; try contradiction; lia. }
  (* where the target is *)
  assert (Target : clear_of l m -> forall p i f, in_ports ps p = Some (i, f) -> aims m i f -> exists j q b t n s u la lb, p = S j :: q /\ nth_error ps j = Some (b, t) /\ b = bridge_at bus n s u la lb /\ bus < s /\ u <= sub /\ mono l la /\ mono lb l' /\
     (q = [] /\ m = TCpl (bus, n, 0%nat) \/ q <> [] /\ hit m s u la lb /\ at_place t q = Some (i, f) /\ to_link t m = Got q)).
  { intros C p i f Hp Ha. destruct p as [|[|j] q]; try discriminate. cbn [in_ports] in Hp. destruct (nth_error ps j) as [[b t]|] eqn:Hj; [|discriminate].
    destruct (Port j b t Hj) as (n & s & u & la & lb & Eb & _ & X1 & X2 & X3 & X4 & X5 & _). exists j, q, b, t, n, s, u, la, lb. splits; auto; try lia. destruct q as [|k q].
    - left. injection Hp as <- <-. split; [reflexivity|]. destruct m; cbn in Ha; try contradiction. subst. reflexivity.
    - right. destruct (X5 C _ _ _ Hp Ha). splits; auto; try discriminate. }
  split; [|split].
  - intros C p i f Hp Ha. destruct (Target C p i f Hp Ha) as (j & q & b & t & n & s & u & la & lb & -> & Hj & Eb & Hs & Hu & Ml & Mr & D).
    assert (T : takes b m = true) by (rewrite Eb; apply takes_spec; [exact K|]; destruct D as [(_ & D)|(_ & D & _)]; auto).
    split.
    + destruct D as [(_ & ->)|(_ & D & _)]; [cbn; lia|]. exact (hit_mono _ _ _ _ _ bus sub l l' D ltac:(lia) Hu Ml Mr).
    + rewrite (to_bus_at to_link ps 0 j b t m Hj); [|intros k b' t' Hk Hk'; destruct (takes b' m) eqn:T'; [exfalso; exact (Excl k j b' t' b t Hk Hk' Hj T' T)|reflexivity]|exact T].
      cbn [Nat.add]. rewrite Eb. destruct D as [(-> & D)|(_ & D & _ & D')]; [rewrite (recv_id bus n s u la lb m [] (to_link t) K D)|rewrite (recv_hit bus n s u la lb m [] (to_link t) K Hs D), D']; reflexivity.
  - intros n q Hid H. rewrite from_bus_at. destruct (nth_error ps n) as [[b t]|] eqn:Hn; [|reflexivity].
    destruct (Port n b t Hn) as (k & s & u & la & lb & Eb & Ek & Hs & Hu & Ml & Mr & _ & X2 & _).
    assert (H' : ~ hit m s u la lb) by (intros X; apply H; exact (hit_mono _ _ _ _ _ (last + 1) sub l l' X ltac:(lia) Hu Ml Mr)).
    assert (N : m <> TCpl (bus, k, 0%nat)).
    { apply Hid. destruct (nth_error xs n) as [kx|] eqn:Ex; [|discriminate]. injection Ek as <-. apply in_map. exact (nth_error_In _ _ Ex). }
    rewrite Eb, (turn_miss bus k s u la lb m [] (to_link t) K N H'). destruct q; [reflexivity|]. rewrite (X2 _ H'). reflexivity.
  - intros C n q p i f Hp Ha. rewrite from_bus_at. destruct (nth_error ps n) as [[b t]|] eqn:Hn; [|left; reflexivity].
    destruct (Port n b t Hn) as (k & s & u & la & lb & Eb & _ & Hs0 & Hu & Ml & Mr & _ & X2 & X3). assert (Hs : bus < s) by lia. specialize (X3 C).
    destruct (Target C p i f Hp Ha) as (j & q' & b' & t' & n' & s' & u' & la' & lb' & -> & Hj & Eb' & Hs' & Hu' & Ml' & Mr' & D).
    assert (T : takes b' m = true) by (rewrite Eb'; apply takes_spec; [exact K|]; destruct D as [(_ & D)|(_ & D & _)]; auto).
    destruct (Nat.eq_dec j n) as [->|Nj].
    + right. rewrite Hn in Hj. injection Hj as <- <-. rewrite Eb in Eb'. unfold bridge_at in Eb'. assert (k = n') by congruence. assert (s = s') by congruence. assert (u = u') by congruence. subst n' s' u'.
      destruct D as [(-> & D)|(Nq & D & D2 & D')].
      * assert (H' : ~ hit m s u la lb) by (rewrite D; cbn; lia). rewrite Eb. rewrite (turn_id bus k s u la lb m [] (to_link t) K D). destruct q; [reflexivity|]. rewrite (X2 _ H'). reflexivity.
      * assert (HH : hit m s u la lb). { injection Eb'. intros. destruct la, lb, la', lb'. cbn in *. destruct m; cbn in *; lia. }
        rewrite Eb. rewrite (turn_hit bus k s u la lb m [] (to_link t) K Hs HH), D'.
        destruct q as [|k1 q1]; [reflexivity|]. destruct (X3 (k1 :: q1) q' i f D2 Ha) as [-> | ->]; reflexivity.
    + left. assert (T' : takes b m = false).
      { destruct (takes b m) eqn:T'; [exfalso|reflexivity]. destruct (Nat.lt_ge_cases j n); [exact (Excl j n b' t' b t ltac:(lia) Hj Hn T T')|exact (Excl n j b t b' t' ltac:(lia) Hn Hj T' T)]. }
      assert (Y : ~ (m = TCpl (bus, k, 0%nat) \/ hit m s u la lb)) by (intros Y; apply (takes_spec bus k s u la lb m K) in Y; rewrite Eb in T'; congruence).
      rewrite Eb, (turn_miss bus k s u la lb m [] (to_link t) K); [|tauto|tauto]. destruct q; [reflexivity|]. rewrite X2 by tauto. reflexivity.
Qed.
Lemma sw_routes n xs : all (fun kx => routes (snd kx)) xs -> routes (TSw n xs).
Proof.
  intros R W bus l t l' sub m E P F Sep K. cbn [wf_topo] in W. destruct W as (_ & As & _ & W). cbn [plan] in E.
  destruct (plan_ports plan (bus + 1) xs (bus + 1) (al l)) as [[qs l1] s1] eqn:Pq. injection E as <- <- <-. rewrite al_idem in F, Sep.
  destruct (ports_grow xs (all_all _ (fun kx => plan_grows (snd kx)) xs) W _ _ _ _ _ _ Pq) as (M0 & S0).
  pose proof (mono_al l) as Ma. pose proof (mono_al l1) as Mb.
  assert (Sep1 : l_mem l1 <= l_pf (al l)) by (unfold mono in *; lia).
  destruct (bus_routes xs R W (proj1 (ascending_nodup _ _ As)) (bus + 1) (bus + 1) (al l) qs l1 s1 m Pq ltac:(lia) (pos_mono _ _ P Ma) (fits1_mono _ _ F Mb) Sep1 K) as (R1 & R2 & R3).
  set (b := bridge_at bus n (bus + 1) s1 (al l) (al l1)).
  assert (Tgt : clear_of l m -> forall p i f, at_place (Sw b qs) p = Some (i, f) -> aims m i f -> p = [0%nat] /\ m = TCpl (bus, n, 0%nat) \/ in_ports qs p = Some (i, f) /\ hit m (bus + 1) s1 (al l) (al l1) /\ to_bus to_link qs 0 m = Got p).
  { intros C p i f Hp Ha. destruct p as [|[|k] q]; [discriminate| |].
    - left. cbn in Hp. destruct q; [|discriminate]. injection Hp as <- <-. split; [reflexivity|]. destruct m; cbn in Ha; try contradiction. subst. reflexivity.
    - right. change (at_place (Sw b qs) (S k :: q)) with (in_ports qs (S k :: q)) in Hp. destruct (R1 (clear_mono _ _ _ C Ma) _ _ _ Hp Ha) as (H1 & H2). splits; auto.
      exact (hit_mono _ _ _ _ _ (bus + 1) s1 (al l) (al l1) H1 ltac:(lia) ltac:(lia) (mono_refl _) Mb). }
  assert (Hs : bus < bus + 1) by lia.
  split; [|split].
  - intros C p i f Hp Ha. destruct (Tgt C p i f Hp Ha) as [(-> & D)|(_ & H1 & H2)].
    + split; [rewrite D; cbn; lia|]. cbn [to_link]. apply (recv_id bus n (bus + 1) s1 (al l) (al l1) m _ _ K); exact D.
    + split; [exact (hit_mono _ _ _ _ _ bus s1 l (al l1) H1 ltac:(lia) ltac:(lia) Ma (mono_refl _))|]. cbn [to_link]. unfold b. rewrite (recv_hit bus n (bus + 1) s1 (al l) (al l1) m _ _ K Hs H1). exact H2.
  - intros q H.
    assert (H1 : ~ hit m (bus + 1) s1 (al l) (al l1)) by (intros X; apply H; exact (hit_mono _ _ _ _ _ bus s1 l (al l1) X ltac:(lia) ltac:(lia) Ma (mono_refl _))).
    assert (N : m <> TCpl (bus, n, 0%nat)) by (intros ->; apply H; cbn; lia).
    assert (T : turn false b [0%nat] (to_bus to_link qs 0) m = None) by exact (turn_miss bus n (bus + 1) s1 (al l) (al l1) m _ _ K N H1).
    assert (H2 : ~ hit m (bus + 1 + 1) s1 (al l) l1) by (intros X; apply H1; exact (hit_mono _ _ _ _ _ (bus + 1) s1 (al l) (al l1) X ltac:(lia) ltac:(lia) (mono_refl _) Mb)).
    assert (N2 : forall k, In k (map fst xs) -> m <> TCpl (bus + 1, k, 0%nat)) by (intros k _ ->; apply H; cbn; lia).
    destruct q as [|[|k] q]; [reflexivity|exact T|]. cbn [from_link]. rewrite (R2 k q N2 H2). exact T.
  - intros C q p i f Hp Ha.
    assert (T : turn false b [0%nat] (to_bus to_link qs 0) m = Some (Got p)).
    { destruct (Tgt C p i f Hp Ha) as [(-> & D)|(_ & H1 & H2)]; [exact (turn_id bus n (bus + 1) s1 (al l) (al l1) m _ _ K D)|]. unfold b. rewrite (turn_hit bus n (bus + 1) s1 (al l) (al l1) m _ _ K Hs H1), H2. reflexivity. }
    destruct q as [|[|k] q]; [left; reflexivity|right; exact T|]. cbn [from_link]. destruct (Tgt C p i f Hp Ha) as [(-> & D)|(Hp' & H1 & H2)].
    + assert (X : ~ hit m (bus + 1 + 1) s1 (al l) l1) by (rewrite D; cbn; lia).
      assert (N2 : forall k, In k (map fst xs) -> m <> TCpl (bus + 1, k, 0%nat)) by (intros k' _ E; rewrite D in E; injection E; lia). rewrite (R2 k q N2 X). right. exact T.
    + destruct (R3 (clear_mono _ _ _ C Ma) k q p i f Hp' Ha) as [-> | ->]; right; [exact T|reflexivity].
Qed.
Lemma all_routes x : routes x.
Proof. induction x as [n fs|n xs IH] using topo_all; [apply dev_routes|apply sw_routes; exact IH]. Qed.
