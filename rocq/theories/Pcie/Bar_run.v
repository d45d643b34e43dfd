(** Proofs about enumeration and configuration of base address registers. *)
From Verif Require Import Base.Prelude Base.Bits Base.Masks Pcie.Mem_model Pcie.Bar_model Pcie.Bar_spec Pcie.Bar_proof.
Open Scope Z_scope.

(** * What enumeration achieves *)
Lemma placed_in : forall ps i d b, placed ps i d b -> In (d, b) ps.
Proof.
  induction ps as [|[d' b'] ps IH]; intros i d b H; cbn in H; [destruct H|].
  destruct H as [(-> & -> & ->)|(_ & H)]; [left; reflexivity|right; eauto].
Qed.
Lemma wf_size d : wf_decl d -> 0 < size d.
Proof. intros W. unfold size. apply pow2_pos. destruct d; cbn in *; lia. Qed.

Lemma mono_limit l l' s : mono l l' -> limit_of l s <= limit_of l' s.
Proof. intros (A & B & C). destruct s; assumption. Qed.
Lemma stacked_range : forall ps l l' i d b s, Forall (fun p => wf_decl (fst p)) ps -> stacked l ps l' ->
  placed ps i d b -> space_of d = Some s ->
  b mod size d = 0 /\ limit_of l s <= b /\ b + size d <= limit_of l' s.
Proof.
  induction ps as [|[d' b'] ps IH]; intros l l' i d b s W ST PL SP; cbn in PL; [destruct PL|].
  inversion W as [|? ? W1 W2]; subst. cbn [fst] in W1. cbn [stacked] in ST.
  destruct PL as [(-> & -> & ->)|(_ & PL)].
  - rewrite SP in ST. destruct ST as (A & B & l1 & C & _ & D).
    pose proof (@mono_limit _ _ s (@stacked_mono _ _ _ W2 D)). lia.
  - destruct (space_of d') as [s'|]; [|eauto]. destruct ST as (A & B & l1 & C & C' & D).
    destruct (IH _ _ _ _ _ _ W2 D PL SP) as (X & Y & Z). split; [auto|]. split; [|auto].
    pose proof (wf_size _ W1). assert (s = s' \/ s <> s') as [->|N] by (destruct s, s'; (left; reflexivity) || (right; discriminate)); [lia|].
    rewrite <- (C' s N). auto.
Qed.
Lemma stacked_apart : forall ps l l' i j d d' b b' s, Forall (fun p => wf_decl (fst p)) ps -> stacked l ps l' ->
  placed ps i d b -> placed ps j d' b' -> i <> j -> space_of d = Some s -> space_of d' = Some s ->
  apart_regions b (size d) b' (size d').
Proof.
  assert (K : forall ps l l' i j d d' b b' s, Forall (fun p => wf_decl (fst p)) ps -> stacked l ps l' ->
    placed ps i d b -> placed ps j d' b' -> (i < j)%nat -> space_of d = Some s -> space_of d' = Some s ->
    b + size d <= b').
  { induction ps as [|[d0 b0] ps IH]; intros l l' i j d d' b b' s W ST P1 P2 N S1 S2; [destruct P1|].
    inversion W as [|? ? W1 W2]; subst. cbn [fst] in W1. cbn [placed] in P1, P2. cbn [stacked] in ST.
    destruct P2 as [(-> & _)|(Hj & P2)]; [lia|].
    destruct P1 as [(-> & -> & ->)|(Hi & P1)].
    - rewrite S1 in ST. destruct ST as (A & B & l1 & C & _ & D).
      destruct (@stacked_range _ _ _ _ _ _ _ W2 D P2 S2) as (_ & X & _). lia.
    - destruct (space_of d0) as [s0|]; [destruct ST as (A & B & l1 & C & C' & D); eapply (IH l1 l'); eauto; lia
                                       |eapply (IH l l'); eauto; lia]. }
  intros ps l l' i j d d' b b' s W ST P1 P2 N S1 S2. unfold apart_regions.
  destruct (Nat.lt_trichotomy i j) as [L|[L|L]]; [left|lia|right]; eapply K; eauto.
Qed.
Lemma hits_unique : forall ps i0 i d b addr, placed ps i d b -> is_mem d = true -> b <= addr < b + size d ->
  (forall j d' b', placed ps j d' b' -> j <> i -> is_mem d' = true -> ~ (b' <= addr < b' + size d')) ->
  hits false i0 ps addr = [((i0 + i)%nat, addr - b)].
Proof.
  assert (Z0 : forall ps i0 addr, (forall j d' b', placed ps j d' b' -> is_mem d' = true -> ~ (b' <= addr < b' + size d')) ->
    hits false i0 ps addr = []).
  { induction ps as [|[d b] ps IH]; intros i0 addr H; [reflexivity|]. cbn [hits]. rewrite IH.
    - pose proof (H 0%nat d b) as X. cbn [placed] in X. specialize (X (or_introl (conj eq_refl (conj eq_refl eq_refl)))).
      destruct d as [|k pf|k pf|k]; cbn [negb andb is_mem] in *; try reflexivity;
        (match goal with |- (if ?c then _ else _) ++ _ = _ => destruct c eqn:E end; [|reflexivity]);
        exfalso; apply X; auto; lia.
    - intros j d' b' PL. apply (H (j + regs_used d)%nat). cbn [placed]. right.
      split; [lia|]. replace (j + regs_used d - regs_used d)%nat with j by lia. auto. }
  induction ps as [|[d0 b0] ps IH]; intros i0 i d b addr PL IM R U; [destruct PL|].
  cbn [placed] in PL. cbn [hits]. destruct PL as [(-> & -> & ->)|(Hi & PL)].
  - rewrite Z0.
    + rewrite app_nil_r, Nat.add_0_r. destruct d0 as [|k pf|k pf|k]; try discriminate IM; cbn [negb andb];
        (match goal with |- (if ?c then _ else _) = _ => replace c with true by lia end); reflexivity.
    + intros j d' b' PL. apply (U (j + regs_used d0)%nat).
      * cbn [placed]. right. split; [lia|]. replace (j + regs_used d0 - regs_used d0)%nat with j by lia. auto.
      * destruct d0; cbn; lia.
  - rewrite (IH (i0 + regs_used d0)%nat (i - regs_used d0)%nat d b addr PL IM R).
    + replace (i0 + regs_used d0 + (i - regs_used d0))%nat with (i0 + i)%nat by lia.
      assert (N0 : 0%nat <> i) by (destruct d0; cbn in Hi; lia).
      pose proof (U 0%nat d0 b0) as X. cbn [placed] in X. specialize (X (or_introl (conj eq_refl (conj eq_refl eq_refl))) N0).
      destruct d0 as [|k pf|k pf|k]; cbn [negb andb is_mem] in *; try reflexivity;
        (match goal with |- (if ?c then _ else _) ++ _ = _ => destruct c eqn:E end; [|reflexivity]);
        exfalso; apply X; auto; lia.
    + intros j d' b' P N. apply (U (j + regs_used d0)%nat).
      * cbn [placed]. right. split; [lia|]. replace (j + regs_used d0 - regs_used d0)%nat with j by lia. auto.
      * lia.
Qed.

Lemma in_placed : forall ps d b, In (d, b) ps -> exists i, placed ps i d b.
Proof.
  induction ps as [|[d' b'] ps IH]; intros d b H; [destruct H|]. destruct H as [H|H].
  - injection H as -> ->. exists 0%nat. left. auto.
  - destruct (IH _ _ H) as (i & P). exists (i + regs_used d')%nat. right. split; [lia|].
    replace (i + regs_used d' - regs_used d')%nat with i by lia. auto.
Qed.
Lemma stacked_ok ps l l' : Forall (fun p => wf_decl (fst p)) ps -> stacked l ps l' -> nonneg l -> fits l' ->
  Forall aligned ps /\ Forall fits_reg ps.
Proof.
  intros W ST (N1 & N2 & N3) (F1 & F2 & F3).
  split; apply Forall_forall; intros [d b] HI; destruct (in_placed _ _ _ HI) as (i & P);
    unfold aligned, fits_reg; cbn [fst snd];
    (destruct d as [|k pf|k [|]|k]; cbn [space_of]; auto;
     [destruct (@stacked_range _ _ _ _ _ _ _ W ST P eq_refl) as (A & B & C)
     |destruct (@stacked_range _ _ _ _ _ _ _ W ST P eq_refl) as (A & B & C)
     |destruct (@stacked_range _ _ _ _ _ _ _ W ST P eq_refl) as (A & B & C)
     |destruct (@stacked_range _ _ _ _ _ _ _ W ST P eq_refl) as (A & B & C)];
     cbn [limit_of] in B, C; try (right; split; [lia|auto]); lia).
Qed.

Section Assign.
#[local] Unset Implicit Arguments.
Lemma up_unique x s b : 0 < s -> b mod s = 0 -> x <= b < x + s -> b = up x s.
Proof.
  intros Hs M R. unfold up. rewrite (Z.div_mod b s) by lia. rewrite M, Z.add_0_r, Z.mul_comm. f_equal.
  assert (E := Z.div_mod b s ltac:(lia)). rewrite M in E. apply Z.div_unique with (r := x + s - 1 - s * (b / s)); lia.
Qed.
Lemma up_spec x s : 0 < s -> x <= up x s < x + s /\ up x s mod s = 0.
Proof.
  intros Hs. unfold up. pose proof (Z.div_mod (x + s - 1) s ltac:(lia)). pose proof (Z.mod_pos_bound (x + s - 1) s Hs). split; [lia|apply Z.mod_mul; lia].
Qed.
Lemma stacked_assign : forall ps l l', Forall (fun p => wf_decl (fst p)) ps -> stacked l ps l' ->
  l' = snd (assign l (map fst ps)) /\ func_of ps = func_of (fst (assign l (map fst ps))).
Proof.
  assert (G : forall ps l l', Forall (fun p => wf_decl (fst p)) ps -> stacked l ps l' ->
    l' = snd (assign l (map fst ps)) /\ layout ps = layout (fst (assign l (map fst ps)))).
  { induction ps as [|[d b] ps IH]; intros l l' W H; cbn [stacked map fst assign] in *; [subst; auto|].
    inversion W as [|? ? W1 W2]; subst. cbn [fst] in W1. destruct (space_of d) as [s|] eqn:Sp.
    - destruct H as (M & R & l1 & E1 & E2 & ST). assert (Hs : 0 < size d) by (apply wf_size; exact W1).
      assert (Eb : b = up (limit_of l s) (size d)) by (apply up_unique; auto).
      assert (El : l1 = set_limit l s (b + size d)).
      { destruct l1 as [x y z]. pose proof (E2 SIo) as X. pose proof (E2 SMem) as Y. pose proof (E2 SPf) as Z0. destruct s; cbn in *; f_equal; auto; first [apply X|apply Y|apply Z0]; discriminate. }
      destruct (IH l1 l' W2 ST) as (I1 & I2). rewrite <- Eb, <- El. destruct (assign l1 (map fst ps)) as [qs lq]. cbn [fst snd] in *. split; [exact I1|]. cbn [layout]. rewrite I2. reflexivity.
    - destruct (IH l l' W2 H) as (I1 & I2). destruct (assign l (map fst ps)) as [qs lq]. cbn [fst snd] in *. split; [exact I1|].
      cbn [layout]. rewrite I2. destruct d; cbn in Sp; try discriminate; try (destruct pf; discriminate). reflexivity. }
  intros ps l l' W H. destruct (G ps l l' W H) as (E1 & E2). split; [exact E1|]. unfold func_of. rewrite E2. reflexivity.
Qed.
Lemma assign_stacked : forall ds l, (forall d, In d ds -> wf_decl d) -> stacked l (fst (assign l ds)) (snd (assign l ds)) /\ map fst (fst (assign l ds)) = ds.
Proof.
  induction ds as [|d ds IH]; intros l W; cbn [assign]; [split; reflexivity|]. destruct (space_of d) as [s|] eqn:Sp.
  - assert (Hs : 0 < size d) by (apply wf_size; apply W; left; reflexivity). pose proof (up_spec (limit_of l s) (size d) Hs) as [U V].
    specialize (IH (set_limit l s (up (limit_of l s) (size d) + size d)) (fun d' H => W d' (or_intror H))).
    destruct (assign (set_limit l s (up (limit_of l s) (size d) + size d)) ds) as [qs lq]. cbn [fst snd map] in *. destruct IH as (I1 & I2). split; [|rewrite I2; reflexivity].
    cbn [stacked]. rewrite Sp. split; [exact V|split; [exact U|]]. exists (set_limit l s (up (limit_of l s) (size d) + size d)). splits; [destruct s; reflexivity| |exact I1].
    intros s' N. destruct s, s'; try reflexivity; congruence.
  - specialize (IH l (fun d' H => W d' (or_intror H))). destruct (assign l ds) as [qs lq]. cbn [fst snd map] in *. destruct IH as (I1 & I2). split; [|rewrite I2; reflexivity]. cbn [stacked]. rewrite Sp. exact I1.
Qed.
Lemma assign_report : forall ps l l' i, Forall (fun p => wf_decl (fst p)) ps -> stacked l ps l' -> report i ps = report i (fst (assign l (map fst ps))).
Proof.
  induction ps as [|[d b] ps IH]; intros l l' i W H; cbn [stacked map fst assign] in *; [reflexivity|].
  inversion W as [|? ? W1 W2]; subst. cbn [fst] in W1. destruct (space_of d) as [s|] eqn:Sp.
  - destruct H as (M & R & l1 & E1 & E2 & ST). assert (Hs : 0 < size d) by (apply wf_size; exact W1).
    assert (Eb : b = up (limit_of l s) (size d)) by (apply up_unique; auto).
    assert (El : l1 = set_limit l s (b + size d)).
    { destruct l1 as [x y z]. pose proof (E2 SIo) as X. pose proof (E2 SMem) as Y. pose proof (E2 SPf) as Z0. destruct s; cbn in *; f_equal; auto; first [apply X|apply Y|apply Z0]; discriminate. }
    rewrite <- Eb, <- El. specialize (fun i => IH l1 l' i W2 ST). destruct (assign l1 (map fst ps)) as [qs lq]. cbn [fst] in *. destruct d; try discriminate; cbn [report]; rewrite IH; reflexivity.
  - destruct d; cbn in Sp; try discriminate; try (destruct pf; discriminate). specialize (fun i => IH l l' i W2 H). destruct (assign l (map fst ps)) as [qs lq]. cbn [fst report] in *. apply IH.
Qed.
End Assign.
Lemma enumeration ps lim :
  Forall (fun p => wf_decl (fst p)) ps -> Forall aligned ps -> Forall fits_reg ps -> nonneg lim ->
  let ps' := fst (assign lim (map fst ps)) in let lim' := snd (assign lim (map fst ps)) in
    map fst ps' = map fst ps /\
    (forall i d b s, placed ps' i d b -> space_of d = Some s ->
       b mod size d = 0 /\ limit_of lim s <= b /\ b + size d <= limit_of lim' s) /\
    (forall i j d d' b b' s, placed ps' i d b -> placed ps' j d' b' -> i <> j ->
       space_of d = Some s -> space_of d' = Some s -> apart_regions b (size d) b' (size d')) /\
    (fits lim' ->
     enum_bars (S (length (layout ps))) 0 (length (layout ps)) (func_of ps) lim =
       Some (func_of ps', lim', report 0 ps') /\
     (l_mem lim' <= l_pf lim -> forall i d b addr, placed ps' i d b -> is_mem d = true -> b <= addr < b + size d ->
        (forall j d' b', placed ps' j d' b' -> moderate addr d') ->
        match_bar (func_of ps') addr false = Some [(i, addr - b)])).
Proof.
  intros W A F NN ps' lim'.
  assert (E : fits lim' -> enum_bars (S (length (layout ps))) 0 (length (layout ps)) (func_of ps) lim = Some (func_of ps', lim', report 0 ps')).
  { destruct (@enum_run ps [] (S (length (layout ps))) lim W A F ltac:(lia) NN) as (qs & lim2 & M & ST & E).
    assert (W' : Forall (fun p => wf_decl (fst p)) qs) by (rewrite <- (Forall_map fst wf_decl) in *; rewrite M; auto).
    destruct (stacked_assign qs lim lim2 W' ST) as (X1 & X2). pose proof (assign_report qs lim lim2 0%nat W' ST) as X3. rewrite M in X1, X2, X3. intros Hf. unfold ps'. rewrite <- X2, <- X3. subst lim2. exact (E Hf). }
  destruct (assign_stacked (map fst ps) lim) as (ST & M).
  { intros d Hd. apply in_map_iff in Hd. destruct Hd as (p & <- & Hp). exact (proj1 (Forall_forall _ _) W p Hp). }
  fold ps' lim' in ST, M.
  assert (W' : Forall (fun p => wf_decl (fst p)) ps') by (rewrite <- (Forall_map fst wf_decl) in *; rewrite M; auto).
  split; [auto|]. split; [intros; eapply stacked_range; eauto|].
  split; [intros; eapply stacked_apart; eauto|]. intros Hf. split; [exact (E Hf)|].
  intros Hmp i d b addr P IM R MO. destruct (@stacked_ok _ _ _ W' ST NN Hf) as (A' & F').
  assert (SP : exists s, space_of d = Some s /\ s <> SIo).
  { destruct d as [|k pf|k [|]|k]; try discriminate IM; eexists; (split; [reflexivity|discriminate]). }
  destruct SP as (s & SP & NS).
  destruct (@stacked_range _ _ _ _ _ _ _ W' ST P SP) as (R1 & R2 & R3).
  assert (R64 : 0 <= addr < 2 ^ 64).
  { destruct NN as (N1 & N2 & N3), Hf as (H1 & H2 & H3). destruct s; [contradiction| |]; cbn [limit_of] in *; lia. }
  unfold match_bar, func_of. cbn [f_bar f_mask].
  rewrite match_run; [|lia|auto|auto|auto|lia|].
  2:{ apply Forall_forall. intros [d' b'] HI. destruct (in_placed _ _ _ HI) as (j & PJ). eapply MO; eauto. }
  f_equal. apply (@hits_unique ps' 0 i d b addr P IM R).
  intros j d' b' PJ N IM' X.
  assert (SP' : exists s, space_of d' = Some s /\ s <> SIo).
  { destruct d' as [|k pf|k [|]|k]; try discriminate IM'; eexists; (split; [reflexivity|discriminate]). }
  destruct SP' as (s' & SP' & NS').
  destruct (@stacked_range _ _ _ _ _ _ _ W' ST PJ SP') as (Q1 & Q2 & Q3).
  assert (C : s = s' \/ s <> s') by (destruct s, s'; (left; reflexivity) || (right; discriminate)).
  destruct C as [<-|C].
  - destruct (@stacked_apart _ _ _ _ _ _ _ _ _ _ W' ST PJ P N SP' SP); lia.
  - destruct s, s'; try contradiction; cbn [limit_of] in *; lia.
Qed.

(** * Configuration *)
Lemma cfg_mask32 k : 4 <= k <= 32 -> Z.land 0xfffffff0 (Z.lnot (2 ^ k - 1)) = 2 ^ 32 - 2 ^ k.
Proof.
  intros Hk. rewrite lnot_pow, land_neg by lia.
  destruct (@pow_mult k 32 ltac:(lia)) as (q & Hq & E).
  assert (P16 : 2 ^ 4 <= 2 ^ k) by (apply Z.pow_le_mono_r; lia). change (2 ^ 4) with 16 in P16.
  replace (0xfffffff0 mod 2 ^ k) with (2 ^ k - 16); [lia|].
  apply Zmod_unique with (q - 1); [lia|]. change 0xfffffff0 with (2 ^ 32 - 16). rewrite E. lia.
Qed.
Lemma cfg_maskio k : 2 <= k <= 32 -> Z.land 0xfffffffc (Z.lnot (2 ^ k - 1)) = 2 ^ 32 - 2 ^ k.
Proof.
  intros Hk. rewrite lnot_pow, land_neg by lia.
  destruct (@pow_mult k 32 ltac:(lia)) as (q & Hq & E).
  assert (P16 : 2 ^ 2 <= 2 ^ k) by (apply Z.pow_le_mono_r; lia). change (2 ^ 2) with 4 in P16.
  replace (0xfffffffc mod 2 ^ k) with (2 ^ k - 4); [lia|].
  apply Zmod_unique with (q - 1); [lia|]. change 0xfffffffc with (2 ^ 32 - 4). rewrite E. lia.
Qed.
Lemma cfg_mask64 k : 4 <= k <= 63 ->
  Z.land 0xfffffff0 (Z.lnot (2 ^ k - 1)) = 2 ^ 32 - 2 ^ Z.min k 32 /\
  Z.land 0xffffffff (Z.shiftr (Z.lnot (2 ^ k - 1)) 32) = 2 ^ 32 - 2 ^ Z.max 0 (k - 32).
Proof.
  intros Hk. destruct (Z.leb_spec k 32) as [L|L].
  - replace (Z.min k 32) with k by lia. replace (Z.max 0 (k - 32)) with 0 by lia.
    split; [apply cfg_mask32; lia|]. rewrite lnot_pow, Z.shiftr_div_pow2 by lia.
    replace (- 2 ^ k / 2 ^ 32) with (-1); [reflexivity|].
    assert (0 < 2 ^ k) by (apply pow2_pos; lia). assert (2 ^ k <= 2 ^ 32) by (apply Z.pow_le_mono_r; lia).
    apply Zdiv_unique with (2 ^ 32 - 2 ^ k); lia.
  - replace (Z.min k 32) with 32 by lia. replace (Z.max 0 (k - 32)) with (k - 32) by lia. rewrite lnot_pow. split.
    + rewrite land_neg by lia. rewrite Z.mod_small; [lia|].
      assert (2 ^ 32 <= 2 ^ k) by (apply Z.pow_le_mono_r; lia). lia.
    + rewrite Z.shiftr_div_pow2 by lia.
      replace (- 2 ^ k / 2 ^ 32) with (- 2 ^ (k - 32)).
      2:{ rewrite (@pow2_split 32 k) by lia. replace (- (2 ^ 32 * 2 ^ (k - 32))) with ((- 2 ^ (k - 32)) * 2 ^ 32) by lia.
          rewrite Z.div_mul by lia. reflexivity. }
      rewrite land_neg by lia. destruct (@pow_mult (k - 32) 32 ltac:(lia)) as (q & Hq & E).
      assert (0 < 2 ^ (k - 32)) by (apply pow2_pos; lia).
      replace (0xffffffff mod 2 ^ (k - 32)) with (2 ^ (k - 32) - 1); [lia|].
      apply Zmod_unique with (q - 1); [lia|]. change 0xffffffff with (2 ^ 32 - 1). rewrite E. lia.
Qed.
Lemma cfg_set pre x post v m : 
  mkFunc (lset (f_bar (fn (pre ++ x :: post))) (length pre) v) (lset (f_mask (fn (pre ++ x :: post))) (length pre) m) =
  fn (pre ++ (v, m) :: post).
Proof.
  unfold fn. cbn [f_bar f_mask]. rewrite !map_app. cbn [map fst snd].
  rewrite !lset_mid_eq by (rewrite map_length; reflexivity). reflexivity.
Qed.
Lemma cfg_set2 pre x x' post v m : 
  mkFunc (lset (f_bar (fn (pre ++ x :: x' :: post))) (S (length pre)) v)
         (lset (f_mask (fn (pre ++ x :: x' :: post))) (S (length pre)) m) =
  fn (pre ++ x :: (v, m) :: post).
Proof. rewrite app_mid, <- (len_mid pre x), cfg_set, <- app_mid. reflexivity. Qed.

Lemma configure_run lg : forall ds pre rest,
  Forall (fun p => wf_decl (fst p) /\ (fst p = Unused \/ lg (snd p) = lgsize (fst p))) ds ->
  configure_all lg (fn (pre ++ repeat (0, 0) (length (layout (map (fun p => (fst p, 0)) ds)) + rest))) (length pre) ds =
  Some (fn (pre ++ layout (map (fun p => (fst p, 0)) ds) ++ repeat (0, 0) rest)).
Proof.
  induction ds as [|[d sz] ds IH]; intros pre rest W; [reflexivity|].
  inversion W as [|? ? W1 W2]; subst. cbn [fst snd] in W1. destruct W1 as (W1 & L).
  set (n := Nat.add (length (layout (map (fun p => (fst p, 0)) ds))) rest).
  assert (LEN : forall x y : Z * Z, (length (f_bar (fn (pre ++ x :: y :: repeat (0%Z, 0%Z) n))) <=? length pre)%nat = false /\
      (length (f_bar (fn (pre ++ x :: y :: repeat (0%Z, 0%Z) n))) <=? S (length pre))%nat = false).
  { intros x y. unfold fn. cbn [f_bar]. rewrite map_length, app_length. cbn [length]. lia. }
  assert (LEN1 : forall x : Z * Z, (length (f_bar (fn (pre ++ x :: repeat (0%Z, 0%Z) n))) <=? length pre)%nat = false).
  { intros x. unfold fn. cbn [f_bar]. rewrite map_length, app_length. cbn [length]. lia. }
  destruct d as [|k pf|k pf|k]; cbn [map fst layout regs_of app length configure_all configure1 regs_used wf_decl lgsize] in *;
    cbn [Nat.add repeat]; fold n.
  - rewrite Nat.add_1_r. specialize (IH (pre ++ [(0, 0)]) rest W2). fold n in IH.
    rewrite len_mid, <- !app_mid in IH. exact IH.
  - destruct L as [L|L]; [discriminate|].
    unfold configure_bar. rewrite LEN1. cbn [orb andb]. rewrite cfg_set, L, cfg_mask32 by lia.
    replace (Z.lor 0 (if pf then 8 else 0)) with (if pf then 8 else 0) by (destruct pf; reflexivity).
    rewrite Nat.add_1_r.
    specialize (IH (pre ++ [(if pf then 8 else 0, 2 ^ 32 - 2 ^ k)]) rest W2). fold n in IH.
    rewrite len_mid, <- !app_mid in IH. exact IH.
  - destruct L as [L|L]; [discriminate|].
    unfold configure_bar. destruct (LEN (0, 0) (0, 0)) as (L1 & L2). rewrite L1, L2. cbn [orb andb].
    destruct (@cfg_mask64 k W1) as (M1 & M2).
    rewrite cfg_set, cfg_set2, L, M1, M2.
    replace (length pre + 2)%nat with (S (S (length pre))) by lia.
    specialize (IH ((pre ++ [(0 mod 2 ^ 32 + (if pf then 12 else 4), 2 ^ 32 - 2 ^ Z.min k 32)]) ++ [(0 / 2 ^ 32, 2 ^ 32 - 2 ^ Z.max 0 (k - 32))]) rest W2).
    fold n in IH. rewrite !len_mid, <- !app_mid in IH.
    replace (Z.lor 4 (if pf then 8 else 0)) with (0 mod 2 ^ 32 + (if pf then 12 else 4)) by (destruct pf; reflexivity).
    change 0 with (0 / 2 ^ 32) at 4. exact IH.
  - destruct L as [L|L]; [discriminate|].
    unfold configure_bar. rewrite LEN1. cbn [orb andb]. rewrite cfg_set, L, cfg_maskio by lia.
    rewrite Nat.add_1_r. specialize (IH (pre ++ [(1, 2 ^ 32 - 2 ^ k)]) rest W2). fold n in IH.
    rewrite len_mid, <- !app_mid in IH. exact IH.
Qed.

(** * Where matching goes wrong *)
Lemma large_region :
  ~ (forall ps i d b addr, Forall (fun p => wf_decl (fst p)) ps -> Forall aligned ps -> Forall fits_reg ps ->
       placed ps i d b -> is_mem d = true -> b <= addr < b + size d ->
       exists l, match_bar (func_of ps) addr false = Some l /\ In (i, addr - b) l).
Proof.
  intros H. destruct (H [(Mem64 33 true, 0x800000000000)] 0%nat (Mem64 33 true) 0x800000000000 0x800000001000) as (l & E & I).
  - repeat constructor; cbn; lia.
  - constructor; [right; split; [cbn; lia|vm_compute; reflexivity]|constructor].
  - constructor; [|constructor]. vm_compute. discriminate.
  - left. auto.
  - reflexivity.
  - vm_compute. split; [discriminate|reflexivity].
  - assert (X : match_bar (func_of [(Mem64 33 true, 0x800000000000)]) 0x800000001000 false = Some []) by (vm_compute; reflexivity).
    rewrite X in E. injection E as <-. destruct I.
Qed.
Lemma alias_region :
  ~ (forall ps addr l, Forall (fun p => wf_decl (fst p)) ps -> Forall aligned ps -> Forall fits_reg ps ->
       match_bar (func_of ps) addr false = Some l -> (length l <= 1)%nat).
Proof.
  intros H.
  assert (X : match_bar (func_of [(Mem64 24 true, 0x800080000000); (Mem32 12 false, 0x80000000)]) 0x800080000010 false
              = Some [(0%nat, 0x10); (2%nat, 0x800000000010)]) by (vm_compute; reflexivity).
  apply H in X.
  - cbn in X. lia.
  - repeat constructor; cbn; lia.
  - constructor; [right; split; [cbn; lia|vm_compute; reflexivity]|].
    constructor; [right; split; [cbn; lia|vm_compute; reflexivity]|constructor].
  - constructor; [vm_compute; discriminate|]. constructor; [vm_compute; discriminate|constructor].
Qed.
