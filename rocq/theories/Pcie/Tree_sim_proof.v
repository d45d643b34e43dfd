(** Enumeration seen through a part of the tree: the same accesses, the same result. *)
From Verif Require Import Base.Prelude Base.Bits Base.Masks Pcie.Mem_model Pcie.Host_proof Pcie.Bar_model Pcie.Bar_spec Pcie.Bar_proof Pcie.Bar_run Pcie.Tree_model Pcie.Tree_spec
  Pcie.Tree_regs_proof.
From Coq Require Import Lia ZArith.
Open Scope Z_scope.
#[local] Unset Implicit Arguments.

Lemma foldo_sim {X Y1 Y2} (g1 : X -> Y1 -> option Y1) (g2 : X -> Y2 -> option Y2) (hx : Y1 -> Y2) (P : Y1 -> Prop) :
  (forall x y, P y -> g2 x (hx y) = option_map hx (g1 x y)) -> (forall x y y', P y -> g1 x y = Some y' -> P y') ->
  forall l y, P y -> foldo g2 l (hx y) = option_map hx (foldo g1 l y) /\ (forall y', foldo g1 l y = Some y' -> P y').
Proof.
  intros H1 H2. induction l as [|x l IH]; intros y Hy; cbn [foldo].
  - split; [reflexivity|]. intros y' E. injection E as <-. exact Hy.
  - rewrite (H1 x y Hy). destruct (g1 x y) as [y1|] eqn:E; cbn [option_map]; [|split; [reflexivity|discriminate]].
    apply IH. exact (H2 x y y1 Hy E).
Qed.

Section Sim.
  Context {S1 S2 : Type} (acc1 : forall A, S1 -> Z -> nat -> nat -> op A -> S1 * option A) (acc2 : forall A, S2 -> Z -> nat -> nat -> op A -> S2 * option A).
  Variables (h : S1 -> S2) (lo : Z).
  Hypothesis Hacc : forall A s bus d f (o : op A), lo <= bus <= 255 -> acc2 A (h s) bus d f o = (h (fst (acc1 A s bus d f o)), snd (acc1 A s bus d f o)).
  Definition hx (x : @est S1) : @est S2 := let '(s, lim, sec, sub) := x in (h s, lim, sec, sub).
  Definition hr (x : @eres S1) : @eres S2 := let '(s, lim, sub, w) := x in (h s, lim, sub, w).
  Definition Pst (bus : Z) (x : @est S1) : Prop := let '(s, lim, sec, sub) := x in bus < sec /\ bus <= sub.

  Section Step.
    Variables (rec1 : Z -> S1 -> limits -> option (@eres S1)) (rec2 : Z -> S2 -> limits -> option (@eres S2)).
    Hypothesis Hrec : forall bus s lim, lo <= bus <= 255 -> rec2 bus (h s) lim = option_map hr (rec1 bus s lim).
    Hypothesis Hsub : forall bus s lim s' l' sub w, rec1 bus s lim = Some (s', l', sub, w) -> bus <= sub.
    Lemma visit_sim bus d f x : lo <= bus <= 255 -> Pst bus x -> visit acc2 rec2 bus d f (hx x) = option_map hx (visit acc1 rec1 bus d f x).
    Proof.
      destruct x as [[[s lim] sec] sub]. cbn [Pst hx]. intros Hb [P1 P2]. unfold visit. rewrite Hacc by exact Hb.
      destruct (acc1 _ s bus d f op_type) as [sa [[br mf]|]]; cbn [fst snd]; [|reflexivity].
      rewrite Hacc by exact Hb. destruct (acc1 _ sa bus d f (op_bars lim)) as [sb [[l1|]|]]; cbn [fst snd]; try reflexivity.
      destruct br; [|reflexivity]. destruct (Z.ltb_spec 255 sec); [reflexivity|].
      rewrite Hacc by exact Hb. destruct (acc1 _ sb bus d f (op_br (set_buses bus sec 255))) as [sc a]; cbn [fst snd].
      rewrite Hrec by lia. destruct (rec1 sec sc l1) as [[[[sd l2] sub2] [[io mem] pf]]|]; cbn [option_map hr]; [|reflexivity].
      destruct (packs io pf); [|reflexivity]. rewrite Hacc by exact Hb. destruct (acc1 _ sd bus d f (op_br (set_buses bus sec sub2))) as [se a2]; cbn [fst snd].
      rewrite Hacc by exact Hb. destruct (acc1 _ se bus d f (op_br (set_windows io mem pf))) as [sf a3]; cbn [fst snd]. reflexivity.
    Qed.
    Lemma visit_P bus d f x y : Pst bus x -> visit acc1 rec1 bus d f x = Some y -> Pst bus y.
    Proof.
      clear Hacc Hrec rec2.
      destruct x as [[[s lim] sec] sub]. cbn [Pst]. intros [P1 P2]. unfold visit.
      destruct (acc1 _ s bus d f op_type) as [sa [[br mf]|]]; [|intros E; injection E as <-; cbn; lia].
      destruct (acc1 _ sa bus d f (op_bars lim)) as [sb [[l1|]|]]; try discriminate.
      destruct br; [|intros E; injection E as <-; cbn; lia]. destruct (Z.ltb_spec 255 sec); [discriminate|].
      destruct (acc1 _ sb bus d f _) as [sc a]. destruct (rec1 sec sc l1) as [[[[sd l2] sub2] [[io mem] pf]]|] eqn:E; [|discriminate]. apply Hsub in E.
      destruct (packs io pf); [|discriminate]. destruct (acc1 _ sd bus d f _) as [se a2]. destruct (acc1 _ se bus d f _) as [sf a3]. intros E'. injection E' as <-. cbn. lia.
    Qed.
    Lemma visit_dev_sim bus d x : lo <= bus <= 255 -> Pst bus x -> visit_dev acc2 rec2 bus d (hx x) = option_map hx (visit_dev acc1 rec1 bus d x).
    Proof.
      destruct x as [[[s lim] sec] sub]. intros Hb P. unfold visit_dev, hx at 1. destruct ((bus =? 0) && (d =? 0)%nat); [reflexivity|].
      rewrite Hacc by exact Hb. destruct (acc1 _ s bus d 0%nat op_type) as [sa [[br mf]|]]; cbn [fst snd]; [|reflexivity].
      change (h sa, lim, sec, sub) with (hx (sa, lim, sec, sub)).
      apply (foldo_sim (visit acc1 rec1 bus d) (visit acc2 rec2 bus d) hx (Pst bus)); [intros; apply visit_sim; auto|intros f y y' Py Ey; exact (visit_P bus d f y y' Py Ey)|exact P].
    Qed.
    Lemma visit_dev_P bus d x y : Pst bus x -> visit_dev acc1 rec1 bus d x = Some y -> Pst bus y.
    Proof.
      clear Hacc Hrec rec2.
      destruct x as [[[s lim] sec] sub]. intros P. unfold visit_dev. destruct ((bus =? 0) && (d =? 0)%nat); [intros E; injection E as <-; exact P|].
      destruct (acc1 _ s bus d 0%nat op_type) as [sa [[br mf]|]]; [|intros E; injection E as <-; exact P].
      intros E. refine (proj2 (foldo_sim (visit acc1 rec1 bus d) (visit acc1 rec1 bus d) (fun x => x) (Pst bus) _ _ _ (sa, lim, sec, sub) P) y E).
      - intros f z _. destruct (visit acc1 rec1 bus d f z); reflexivity.
      - intros f z z' Pz Ez. exact (visit_P bus d f z z' Pz Ez).
    Qed.
  End Step.
  Lemma enum_sub : forall fuel bus s lim s' l' sub w, enum_seg acc1 fuel bus s lim = Some (s', l', sub, w) -> bus <= sub.
  Proof.
    clear Hacc.
    induction fuel as [|fuel IH]; intros bus s lim s' l' sub w E; cbn [enum_seg] in E; [discriminate|].
    destruct (foldo (visit_dev acc1 (enum_seg acc1 fuel) bus) (seq 0 32) (s, align3 lim, bus + 1, bus)) as [[[[sa la] sec] sb]|] eqn:F; [|discriminate].
    injection E as <- <- <- <-.
    assert (P : Pst bus (sa, la, sec, sb)).
    { refine (proj2 (foldo_sim (visit_dev acc1 (enum_seg acc1 fuel) bus) (visit_dev acc1 (enum_seg acc1 fuel) bus) (fun x => x) (Pst bus) _ _ _ (s, align3 lim, bus + 1, bus) _) _ F).
      - intros f z _. destruct (visit_dev acc1 (enum_seg acc1 fuel) bus f z); reflexivity.
      - intros f z z' Pz Ez. exact (visit_dev_P (enum_seg acc1 fuel) IH bus f z z' Pz Ez).
      - cbn. lia. }
    cbn in P. lia.
  Qed.
  Lemma enum_sim : forall fuel bus s lim, lo <= bus <= 255 -> enum_seg acc2 fuel bus (h s) lim = option_map hr (enum_seg acc1 fuel bus s lim).
  Proof.
    induction fuel as [|fuel IH]; intros bus s lim Hb; [reflexivity|]. cbn [enum_seg].
    change (h s, align3 lim, bus + 1, bus) with (hx (s, align3 lim, bus + 1, bus)).
    rewrite (proj1 (foldo_sim (visit_dev acc1 (enum_seg acc1 fuel) bus) (visit_dev acc2 (enum_seg acc2 fuel) bus) hx (Pst bus)
      (fun d y Py => visit_dev_sim (enum_seg acc1 fuel) (enum_seg acc2 fuel) IH (enum_sub fuel) bus d y Hb Py)
      (fun d y y' Py Ey => visit_dev_P (enum_seg acc1 fuel) (enum_sub fuel) bus d y y' Py Ey) (seq 0 32) (s, align3 lim, bus + 1, bus) ltac:(cbn; lia))).
    destruct (foldo (visit_dev acc1 (enum_seg acc1 fuel) bus) (seq 0 32) (s, align3 lim, bus + 1, bus)) as [[[[sa la] sec] sb]|]; reflexivity.
  Qed.
End Sim.

(** A loop over numbers of which only some do anything. *)
Fixpoint chain {Y} (g : nat -> Y -> option Y) (Inv : Y -> Prop) (xs : list nat) (y z : Y) : Prop :=
  match xs with [] => y = z | x :: xs => exists y', g x y = Some y' /\ Inv y' /\ chain g Inv xs y' z end.
Lemma sparse {Y} (g : nat -> Y -> option Y) (Inv : Y -> Prop) : forall n a xs y z,
  (forall k y, (a <= k)%nat -> ~ In k xs -> Inv y -> g k y = Some y) -> ascending a xs -> (forall k, In k xs -> (k < a + n)%nat) -> Inv y ->
  chain g Inv xs y z -> foldo g (seq a n) y = Some z.
Proof.
  induction n as [|n IH]; intros a xs y z Hid As Hlt Iy Ch; cbn [seq foldo].
  - destruct xs as [|x xs]; [cbn in Ch; congruence|]. cbn in As. specialize (Hlt x (or_introl eq_refl)). lia.
  - destruct xs as [|x xs].
    + rewrite (Hid a y) by (auto; lia). apply (IH (S a) []); auto. intros k y' Hk. apply Hid. lia. cbn. contradiction.
    + cbn in As. destruct As as [As1 As2]. destruct (Nat.eq_dec x a) as [->|N].
      * cbn in Ch. destruct Ch as (y' & E & Iy' & Ch). rewrite E. apply (IH (S a) xs); auto.
        -- intros k w Hk Nk. apply Hid; [lia|]. intros [->|H]; [lia|auto].
        -- intros k Hk. specialize (Hlt k (or_intror Hk)). lia.
      * rewrite (Hid a y); [|lia| |exact Iy].
        -- apply (IH (S a) (x :: xs)); auto; [intros k w Hk; apply Hid; lia|cbn; split; [lia|exact As2]|intros k Hk; specialize (Hlt k Hk); lia].
        -- intros [->|H]; [congruence|]. assert (G : forall l b, ascending b l -> In a l -> (b <= a)%nat).
           { clear. induction l as [|c l IHl]; intros b A H; [destruct H|]. cbn in A. destruct H as [->|H]; [lia|]. specialize (IHl (S c) (proj2 A) H). lia. }
           specialize (G xs (S x) As2 H). lia.
Qed.

(* ----- the spaces ----- *)
Lemma align_is_up v k : 0 <= k -> align_up v (2 ^ k - 1) = up v (2 ^ k).
Proof.
  intros Hk. pose proof (@pow2_pos k Hk). destruct (@align_up_spec v k Hk) as (A & B & C). apply up_unique; [lia|exact B|exact A].
Qed.
Lemma align3_al l : align3 l = al l.
Proof. unfold align3, al. change 0xfff with (2 ^ 12 - 1). change 0xfffff with (2 ^ 20 - 1). rewrite !align_is_up by lia. reflexivity. Qed.

Lemma mono_refl l : mono l l.
Proof. unfold mono. lia. Qed.
Lemma mono_trans a b c : mono a b -> mono b c -> mono a c.
Proof. unfold mono. lia. Qed.
Lemma mono_al l : mono l (al l).
Proof. unfold mono, al. cbn [l_io l_mem l_pf]. pose proof (up_spec (l_io l) (2 ^ 12) ltac:(lia)). pose proof (up_spec (l_mem l) (2 ^ 20) ltac:(lia)). pose proof (up_spec (l_pf l) (2 ^ 20) ltac:(lia)). lia. Qed.
Lemma pos_mono a b : pos a -> mono a b -> pos b.
Proof. unfold pos, mono. lia. Qed.
Lemma fits1_mono a b : fits1 b -> mono a b -> fits1 a.
Proof. unfold fits1, mono. lia. Qed.
Lemma assign_mono : forall ds l, (forall d, In d ds -> wf_decl d) -> mono l (snd (assign l ds)).
Proof.
  induction ds as [|d ds IH]; intros l W; cbn [assign]; [apply mono_refl|]. destruct (space_of d) as [s|] eqn:Sp.
  - assert (Hs : 0 < size d) by (apply wf_size; apply W; left; reflexivity). pose proof (up_spec (limit_of l s) (size d) Hs) as [U _].
    specialize (IH (set_limit l s (up (limit_of l s) (size d) + size d)) (fun d' H => W d' (or_intror H))).
    destruct (assign (set_limit l s (up (limit_of l s) (size d) + size d)) ds) as [qs lq]. cbn [snd] in *. eapply mono_trans; [|exact IH].
    unfold mono. destruct s; cbn in *; lia.
  - specialize (IH l (fun d' H => W d' (or_intror H))). destruct (assign l ds) as [qs lq]. exact IH.
Qed.
Lemma bars_result ds ps lim : wf_fn ds -> map fst ps = ds -> Forall aligned ps -> Forall fits_reg ps -> pos lim -> fits1 (snd (assign lim ds)) ->
  exists r, enum_bars 7 0 6 (func_of ps) lim = Some (func_of (fst (assign lim ds)), snd (assign lim ds), r).
Proof.
  intros (W0 & Len) M A F P Fi. assert (W : forall d, In d ds -> wf_decl d) by (intros d H; exact (proj1 (W0 d H))). assert (W' : Forall (fun p => wf_decl (fst p)) ps).
  { apply Forall_forall. intros [d b] H. cbn [fst]. apply W. rewrite <- M. apply (in_map fst) in H. exact H. }
  assert (Len' : length (layout ps) = 6%nat).
  { rewrite <- Len, <- M. clear. induction ps as [|[d b] ps IH]; [reflexivity|]. cbn [map fst layout]. rewrite !app_length, IH. f_equal. destruct d; reflexivity. }
  assert (E0 : (length (layout ps) < 7)%nat) by lia. assert (N0 : nonneg lim) by (unfold nonneg, pos in *; lia).
  destruct (enum_run [] W' A F E0 N0) as (ps' & lim' & M' & ST & E).
  assert (W2 : Forall (fun p => wf_decl (fst p)) ps').
  { apply Forall_forall. intros [d b] H. cbn [fst]. apply W. rewrite <- M, <- M'. apply (in_map fst) in H. exact H. }
  destruct (stacked_assign ps' lim lim' W2 ST) as (E1 & E2). rewrite M', M in E1, E2. rewrite E1 in E. exists (report 0 ps').
  rewrite <- E2. cbn [app length] in E. rewrite Len' in E. apply E. unfold fits, fits1 in *. lia.
Qed.
