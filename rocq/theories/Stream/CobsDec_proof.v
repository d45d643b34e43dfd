(** The decoder: one byte at a time, then cycle by cycle. *)
From Verif Require Import Base.Prelude Rtl.Handshake_spec Rtl.Handshake_proof Stream.Axis_model Stream.Axis_proof Stream.Cobs_model Stream.Cobs_spec.
From Coq Require Import Lia.
Local Open Scope Z_scope.
#[local] Unset Implicit Arguments.

(* ----- one byte at a time ----- *)
Record ds := mkDs { a_st : dst; a_cnt : Z; a_sup : bool; a_td : Z; a_tv : bool }.
Definition idleb (s : dst) : bool := match s with D_idle => true | _ => false end.

Definition ab (s : ds) (b : cb) : ds * list cb :=
  let a := dec_next (a_st s) (a_cnt s) (a_sup s) (a_td s) (a_tv s) true (Some b) in
  (mkDs (m_st a) (m_cnt a) (m_sup a) (m_td a) (if idleb (m_st a) then false else m_tv a),
   olist (m_int a) ++ (if idleb (m_st a) && m_tv a then [lastb (m_td a)] else [])).
Fixpoint abs (s : ds) (l : list cb) : ds * list cb :=
  match l with
  | [] => (s, [])
  | b :: l => let '(s1, o1) := ab s b in let '(s2, o2) := abs s1 l in (s2, o1 ++ o2)
  end.
Lemma abs_app s a b : abs s (a ++ b) = let '(s1, o1) := abs s a in let '(s2, o2) := abs s1 b in (s2, o1 ++ o2).
Proof.
  revert s. induction a as [|x a IH]; intros s; cbn [app abs].
  - destruct (abs s b). reflexivity.
  - destruct (ab s x) as [s1 o1]. rewrite IH. destruct (abs s1 a) as [s2 o2]. destruct (abs s2 b) as [s3 o3].
    rewrite app_assoc. reflexivity.
Qed.

Definition T (s : ds) : list Z := if a_tv s then [a_td s] else [].

(* a zero byte brings any state to idle *)
Lemma ab_zero s b : c_d b = 0 -> a_st (fst (ab s b)) = D_idle /\ a_tv (fst (ab s b)) = false.
Proof.
  intros E. unfold ab, dec_next. rewrite E. cbn [Z.eqb]. destruct (a_st s); cbn; auto.
Qed.
Lemma pad_idle pad : forall s, a_st s = D_idle -> a_tv s = false -> Forall (fun b => c_d b = 0) pad -> abs s pad = (s, []).
Proof.
  induction pad as [|b pad IH]; intros s A B F; [reflexivity|]. inversion F as [|? ? E F']; subst.
  assert (ab s b = (s, [])) as Es.
  { unfold ab, dec_next. rewrite A, B, E. cbn. destruct s; cbn in *; subst; reflexivity. }
  cbn [abs]. rewrite Es, (IH s A B F'). reflexivity.
Qed.

(* literal bytes of a group *)
Lemma seg_run g : forall s, a_st s = D_seg -> Forall nonzero g -> g <> [] -> a_cnt s = Z.of_nat (length g) -> (length g <= 254)%nat ->
  exists s' o, abs s (map plain g) = (s', map plain o) /\ a_st s' = D_next /\ a_sup s' = a_sup s /\ a_tv s' = true /\
    o ++ T s' = T s ++ g.
Proof.
  induction g as [|b g IH]; intros s A F N E L; [congruence|]. inversion F as [|? ? Hb F']; subst.
  cbn [map abs]. unfold ab, dec_next. rewrite A. cbn [plain c_d c_l c_u].
  destruct (b =? 0) eqn:E0; [apply Z.eqb_eq in E0; unfold nonzero in Hb; lia|].
  destruct g as [|b2 g].
  - rewrite E. cbn [length Z.of_nat Pos.of_succ_nat]. cbn [Z.eqb Pos.eqb m_st m_cnt m_sup m_td m_tv m_int idleb andb map abs].
    exists (mkDs D_next ((1 - 1) mod 256) (a_sup s) b true), (T s).
    splits; try reflexivity. f_equal. rewrite !app_nil_r. unfold T. destruct (a_tv s); reflexivity.
  - assert (a_cnt s =? 1 = false) as E1 by (apply Z.eqb_neq; rewrite E; cbn [length]; lia).
    rewrite E1. cbn [m_st m_cnt m_sup m_td m_tv m_int idleb andb].
    destruct (IH (mkDs D_seg ((a_cnt s - 1) mod 256) (a_sup s) b true) eq_refl F' ltac:(discriminate)) as (s' & o & R & B1 & B2 & B3 & B4).
    { cbn [a_cnt]. rewrite E. cbn [length] in *. rewrite Z.mod_small; lia. }
    { cbn [length] in *; lia. }
    rewrite R. exists s'. exists (T s ++ o). splits; auto.
    + rewrite map_app. f_equal. rewrite app_nil_r. unfold T. destruct (a_tv s); reflexivity.
    + rewrite <- app_assoc, B4. reflexivity.
Qed.

(* a code in the middle of a frame *)
Definition Z0 (s : ds) : list Z := if a_sup s then [] else [0].
Definition between (s : ds) : Prop := a_st s = D_next \/ (a_st s = D_idle /\ a_tv s = false).
Definition zeros (s : ds) : list Z := match a_st s with D_next => Z0 s | _ => [] end.

Lemma code_run s n : between s -> 1 <= n <= 255 ->
  exists s' o, ab s (plain n) = (s', map plain o) /\ a_st s' = (if n =? 1 then D_next else D_seg) /\ a_cnt s' = n - 1 /\
    a_sup s' = (n =? 255) /\ o ++ T s' = T s ++ zeros s /\
    (a_st s = D_next -> a_tv s' = negb (a_sup s)) /\ (a_st s = D_idle -> a_tv s' = false).
Proof.
  intros Bt H. unfold ab, dec_next, zeros, Z0. cbn [plain c_d c_l c_u].
  destruct (n =? 0) eqn:E0; [apply Z.eqb_eq in E0; lia|].
  assert ((n - 1) mod 256 = n - 1) as Em by (apply Z.mod_small; lia).
  destruct Bt as [A|[A Av]]; rewrite A.
  - exists (mkDs (if n =? 1 then D_next else D_seg) (n - 1) (n =? 255) 0 (negb (a_sup s))), (T s).
    splits; try reflexivity; try discriminate.
    + destruct (n =? 1); cbn [m_st m_cnt m_sup m_td m_tv m_int idleb andb]; rewrite Em; f_equal;
        rewrite app_nil_r; unfold T; destruct (a_tv s); reflexivity.
    + unfold T. cbn [a_tv a_td]. destruct (a_sup s); reflexivity.
  - rewrite Av. exists (mkDs (if n =? 1 then D_next else D_seg) (n - 1) (n =? 255) (a_td s) false), [].
    splits; try reflexivity; try discriminate.
    + destruct (n =? 1); cbn [m_st m_cnt m_sup m_td m_tv m_int idleb andb]; rewrite Em; reflexivity.
    + unfold T. rewrite Av. reflexivity.
Qed.

(* one group, not ended *)
Lemma group_run g s : between s -> Forall nonzero g -> (length g <= 254)%nat ->
  exists s' o, abs s (map plain (Z.of_nat (length g) + 1 :: g)) = (s', map plain o) /\ a_st s' = D_next /\
    a_sup s' = (Z.of_nat (length g) =? 254) /\ o ++ T s' = T s ++ zeros s ++ g /\
    (g <> [] \/ (a_st s = D_next /\ a_sup s = false) -> a_tv s' = true).
Proof.
  intros Bt F L. cbn [map abs].
  destruct (code_run s (Z.of_nat (length g) + 1) Bt ltac:(lia)) as (s1 & o1 & R1 & S1 & C1 & U1 & E1 & V1 & V1').
  rewrite R1. destruct g as [|b g].
  - cbn [length Z.of_nat] in *. cbn [map abs]. exists s1. exists o1. splits; auto.
    + rewrite !app_nil_r. reflexivity.
    + rewrite !app_nil_r. exact E1.
    + intros [X|[X Y]]; [congruence|]. rewrite V1 by exact X. rewrite Y. reflexivity.
  - assert (Z.of_nat (length (b :: g)) + 1 =? 1 = false) as N1 by (apply Z.eqb_neq; cbn [length]; lia). rewrite N1 in S1.
    destruct (seg_run (b :: g) s1 S1 F ltac:(discriminate) ltac:(lia) L) as (s2 & o2 & R2 & S2 & U2 & V2 & E2).
    rewrite R2. exists s2. exists (o1 ++ o2). splits; auto.
    + rewrite map_app. reflexivity.
    + rewrite U2, U1. destruct (Z.eqb_spec (Z.of_nat (length (b :: g))) 254), (Z.eqb_spec (Z.of_nat (length (b :: g)) + 1) 255); lia.
    + rewrite <- app_assoc, E2, app_assoc, E1, app_assoc. reflexivity.
Qed.

(* the stuffed bytes of a frame *)
Lemma cobs_run f e : is_cobs f e -> forall s, between s ->
  exists s' o, abs s (map plain e) = (s', map plain o) /\ a_st s' = D_next /\ o ++ T s' = T s ++ zeros s ++ f /\
    (f <> [] \/ (a_st s = D_next /\ a_sup s = false) -> a_tv s' = true).
Proof.
  induction 1 as [g F L|g f e F L H IH|g f e F L N H IH]; intros s Bt.
  - destruct (group_run g s Bt F L) as (s' & o & R & A & _ & E & V). exists s'. exists o. splits; auto.
  - destruct (group_run g s Bt F ltac:(lia)) as (s1 & o1 & R1 & A1 & U1 & E1 & V1).
    assert (a_sup s1 = false) as Us by (rewrite U1; apply Z.eqb_neq; lia).
    destruct (IH s1 (or_introl A1)) as (s2 & o2 & R2 & A2 & E2 & V2).
    exists s2. exists (o1 ++ o2). splits; auto.
    + change (Z.of_nat (length g) + 1 :: g ++ e) with ((Z.of_nat (length g) + 1 :: g) ++ e). rewrite map_app, abs_app, R1, R2, map_app. reflexivity.
    + rewrite <- app_assoc, E2, app_assoc, E1. unfold zeros at 2. rewrite A1. unfold Z0. rewrite Us. rewrite <- !app_assoc. reflexivity.
  - destruct (group_run g s Bt F ltac:(lia)) as (s1 & o1 & R1 & A1 & U1 & E1 & V1).
    assert (a_sup s1 = true) as Us by (rewrite U1; apply Z.eqb_eq; lia).
    destruct (IH s1 (or_introl A1)) as (s2 & o2 & R2 & A2 & E2 & V2).
    exists s2. exists (o1 ++ o2). splits; auto.
    + replace 255 with (Z.of_nat (length g) + 1) by lia.
      change (Z.of_nat (length g) + 1 :: g ++ e) with ((Z.of_nat (length g) + 1 :: g) ++ e). rewrite map_app, abs_app, R1, R2, map_app. reflexivity.
    + rewrite <- app_assoc, E2, app_assoc, E1. unfold zeros at 2. rewrite A1. unfold Z0. rewrite Us. rewrite <- !app_assoc. reflexivity.
Qed.

Definition resting (s : ds) : Prop := a_st s = D_idle /\ a_tv s = false.
Lemma T_rest s : resting s -> T s = [].
Proof. intros [_ V]. unfold T. rewrite V. reflexivity. Qed.
Lemma zeros_rest s : resting s -> zeros s = [].
Proof. intros [A _]. unfold zeros. rewrite A. reflexivity. Qed.

Lemma split_last (o : list Z) s f : o ++ T s = f -> a_tv s = true -> exists p, f = p ++ [a_td s] /\ o = p.
Proof. intros E V. unfold T in E. rewrite V in E. exists o. auto. Qed.

(* ended by a zero *)
Lemma good_delim f e s l u : is_cobs f e -> f <> [] -> resting s ->
  exists s' p x, abs s (map plain e ++ [mkCb 0 l u]) = (s', map plain p ++ [mkCb x true u]) /\ resting s' /\ f = p ++ [x].
Proof.
  intros H N R. destruct (cobs_run f e H s (or_intror R)) as (s1 & o & R1 & A1 & E1 & V1).
  rewrite (T_rest s R), (zeros_rest s R) in E1. cbn [app] in E1. specialize (V1 (or_introl N)).
  destruct (split_last o s1 f E1 V1) as (p & Ef & ->).
  rewrite abs_app, R1. cbn [abs]. unfold ab, dec_next. rewrite A1, V1.
  cbn [c_d c_l c_u Z.eqb m_st m_cnt m_sup m_td m_tv m_int idleb andb olist app].
  eexists. exists p, (a_td s1). splits; [reflexivity|split; reflexivity|exact Ef].
Qed.

(* ended by tlast: the last group *)
Lemma cobs_split f e : is_cobs f e -> forall p x, e = p ++ [x] -> forall s, between s -> (f <> [] \/ (a_st s = D_next /\ a_sup s = false)) ->
  exists s' q y, abs s (map plain p ++ [lastb x]) = (s', map plain q ++ [lastb y]) /\ resting s' /\ T s ++ zeros s ++ f = q ++ [y].
Proof.
  induction 1 as [g F L|g f e F L H IH|g f e F L N H IH]; intros p x Ep s Bt C.
  - destruct g as [|b g].
    + destruct p as [|p0 p]; [|destruct p; discriminate Ep]. inversion Ep; subst x. cbn [map app abs length Z.of_nat].
      destruct C as [C|[A U]]; [congruence|]. unfold ab, dec_next. rewrite A, U. cbn [lastb c_d c_l c_u Z.add Z.eqb Pos.eqb negb andb m_st m_cnt m_sup m_td m_tv m_int idleb app].
      eexists. exists (T s), 0. splits; try reflexivity.
      * unfold T. destruct (a_tv s); reflexivity.
      * split; reflexivity.
      * unfold zeros, Z0. rewrite A, U. reflexivity.
    + destruct (@exists_last _ (b :: g) ltac:(discriminate)) as (g' & y & Eg).
      assert (p = Z.of_nat (length (b :: g)) + 1 :: g' /\ x = y) as [-> ->].
      { rewrite Eg in Ep at 2. rewrite app_comm_cons in Ep. apply app_inj_tail in Ep. destruct Ep; auto. }
      rewrite Eg in *. rewrite app_length in *. cbn [length] in *.
      assert (Fg : Forall nonzero g' /\ nonzero y) by (apply Forall_app in F; destruct F as [F1 F2]; inversion F2; auto). destruct Fg as [Fg Fy].
      destruct (code_run s (Z.of_nat (length g' + 1) + 1) Bt ltac:(lia)) as (s1 & o1 & R1 & S1 & C1 & U1 & E1 & V1 & _).
      cbn [map app abs]. rewrite R1.
      assert (Z.of_nat (length g' + 1) + 1 =? 1 = false) as N1 by (apply Z.eqb_neq; lia). rewrite N1 in S1.
      (* the bytes before the last *)
      assert (G : forall g' s1, a_st s1 = D_seg -> Forall nonzero g' -> a_cnt s1 = Z.of_nat (length g' + 1) -> (length g' + 1 <= 254)%nat ->
        exists s2 o2, abs s1 (map plain g') = (s2, map plain o2) /\ a_st s2 = D_seg /\ a_cnt s2 = 1 /\ o2 ++ T s2 = T s1 ++ g').
      { clear. induction g' as [|b g IH]; intros s A F E L.
        - exists s, []. splits; auto. cbn [app]. rewrite app_nil_r. reflexivity.
        - inversion F as [|? ? Hb F']; subst. cbn [map abs]. unfold ab, dec_next. rewrite A. cbn [plain c_d c_l c_u].
          destruct (b =? 0) eqn:E0; [apply Z.eqb_eq in E0; unfold nonzero in Hb; lia|].
          assert (a_cnt s =? 1 = false) as E1 by (apply Z.eqb_neq; rewrite E; cbn [length]; lia).
          rewrite E1. cbn [m_st m_cnt m_sup m_td m_tv m_int idleb andb].
          destruct (IH (mkDs D_seg ((a_cnt s - 1) mod 256) (a_sup s) b true) eq_refl F') as (s' & o & R & B1 & B2 & B4).
          { cbn [a_cnt]. rewrite E. cbn [length] in *. rewrite Z.mod_small; lia. }
          { cbn [length] in *; lia. }
          rewrite R. exists s'. exists (T s ++ o). splits; auto.
          + rewrite map_app. f_equal. rewrite app_nil_r. unfold T. destruct (a_tv s); reflexivity.
          + rewrite <- app_assoc, B4. cbn [T a_tv a_td]. reflexivity. }
      destruct (G g' s1 S1 Fg ltac:(lia) ltac:(lia)) as (s2 & o2 & R2 & S2 & C2 & E2).
      rewrite abs_app, R2. cbn [abs]. unfold ab, dec_next. rewrite S2, C2. cbn [lastb c_d c_l c_u].
      destruct (y =? 0) eqn:E0; [apply Z.eqb_eq in E0; unfold nonzero in Fy; lia|].
      cbn [Z.eqb Pos.eqb negb andb m_st m_cnt m_sup m_td m_tv m_int idleb].
      eexists. exists (o1 ++ o2 ++ T s2), y. splits; try reflexivity.
      * rewrite !map_app, <- !app_assoc. do 2 f_equal. unfold T. destruct (a_tv s2); reflexivity.
      * split; reflexivity.
      * rewrite E2. rewrite (app_assoc o1), E1. rewrite <- !app_assoc. reflexivity.
  - assert (EE : exists p', e = p' ++ [x] /\ p = (Z.of_nat (length g) + 1 :: g) ++ p').
    { destruct (@exists_last _ e) as (e' & y & Ee); [inversion H; discriminate|]. rewrite Ee in Ep. rewrite app_comm_cons, app_assoc in Ep.
      apply app_inj_tail in Ep. destruct Ep as [<- <-]. exists e'. auto. }
    destruct EE as (p' & -> & ->).
    destruct (group_run g s Bt F ltac:(lia)) as (s1 & o1 & R1 & A1 & U1 & E1 & V1).
    assert (a_sup s1 = false) as Us by (rewrite U1; apply Z.eqb_neq; lia).
    destruct (IH p' x eq_refl s1 (or_introl A1) (or_intror (conj A1 Us))) as (s2 & q & y & R2 & Q2 & E2).
    exists s2, (o1 ++ q), y. splits; auto.
    + rewrite map_app, <- app_assoc, abs_app, R1, R2, map_app, <- app_assoc. reflexivity.
    + rewrite <- app_assoc, <- E2, (app_assoc o1 (T s1)), E1. unfold zeros at 3. rewrite A1. unfold Z0. rewrite Us. rewrite <- !app_assoc. reflexivity.
  - assert (EE : exists p', e = p' ++ [x] /\ p = (Z.of_nat (length g) + 1 :: g) ++ p').
    { destruct (@exists_last _ e) as (e' & y & Ee); [inversion H; discriminate|]. rewrite Ee in Ep. rewrite app_comm_cons, app_assoc in Ep.
      apply app_inj_tail in Ep. destruct Ep as [<- <-]. exists e'. split; auto. rewrite L. reflexivity. }
    destruct EE as (p' & -> & ->).
    destruct (group_run g s Bt F ltac:(lia)) as (s1 & o1 & R1 & A1 & U1 & E1 & V1).
    assert (a_sup s1 = true) as Us by (rewrite U1; apply Z.eqb_eq; lia).
    destruct (IH p' x eq_refl s1 (or_introl A1) (or_introl N)) as (s2 & q & y & R2 & Q2 & E2).
    exists s2, (o1 ++ q), y. splits; auto.
    + rewrite map_app, <- app_assoc, abs_app, R1, R2, map_app, <- app_assoc. reflexivity.
    + rewrite <- app_assoc, <- E2, (app_assoc o1 (T s1)), E1. unfold zeros at 3. rewrite A1. unfold Z0. rewrite Us. rewrite <- !app_assoc. reflexivity.
Qed.

(* the last byte marked as error *)
Lemma cobs_cut f e : is_cobs f e -> forall p x, e = p ++ [x] -> forall s, between s -> (f <> [] \/ (a_st s = D_next /\ a_sup s = false)) ->
  exists s' q y r, abs s (map plain p ++ [mkCb x true true]) = (s', map plain q ++ [mkCb y true true]) /\ resting s' /\ T s ++ zeros s ++ f = q ++ r /\ r <> [].
Proof.
  induction 1 as [g F L|g f e F L H IH|g f e F L N H IH]; intros p x Ep s Bt C.
  - destruct g as [|b g].
    + destruct p as [|p0 p]; [|destruct p; discriminate Ep]. inversion Ep; subst x. cbn [map app abs length Z.of_nat].
      destruct C as [C|[A U]]; [congruence|]. unfold ab, dec_next. rewrite A, U. cbn [c_d c_l c_u Z.add Z.eqb Pos.eqb negb andb m_st m_cnt m_sup m_td m_tv m_int idleb app].
      eexists. exists [], (a_td s), (T s ++ [0]). splits; try reflexivity.
      * split; reflexivity.
      * unfold zeros, Z0. rewrite A, U. reflexivity.
      * destruct (T s); discriminate.
    + destruct (@exists_last _ (b :: g) ltac:(discriminate)) as (g' & y & Eg).
      assert (p = Z.of_nat (length (b :: g)) + 1 :: g' /\ x = y) as [-> ->].
      { rewrite Eg in Ep at 2. rewrite app_comm_cons in Ep. apply app_inj_tail in Ep. destruct Ep; auto. }
      rewrite Eg in *. rewrite app_length in *. cbn [length] in *.
      assert (Fg : Forall nonzero g' /\ nonzero y) by (apply Forall_app in F; destruct F as [F1 F2]; inversion F2; auto). destruct Fg as [Fg Fy].
      destruct (code_run s (Z.of_nat (length g' + 1) + 1) Bt ltac:(lia)) as (s1 & o1 & R1 & S1 & C1 & U1 & E1 & V1 & _).
      cbn [map app abs]. rewrite R1.
      assert (Z.of_nat (length g' + 1) + 1 =? 1 = false) as N1 by (apply Z.eqb_neq; lia). rewrite N1 in S1.
      (* the bytes before the last *)
      assert (G : forall g' s1, a_st s1 = D_seg -> Forall nonzero g' -> a_cnt s1 = Z.of_nat (length g' + 1) -> (length g' + 1 <= 254)%nat ->
        exists s2 o2, abs s1 (map plain g') = (s2, map plain o2) /\ a_st s2 = D_seg /\ a_cnt s2 = 1 /\ o2 ++ T s2 = T s1 ++ g').
      { clear. induction g' as [|b g IH]; intros s A F E L.
        - exists s, []. splits; auto. cbn [app]. rewrite app_nil_r. reflexivity.
        - inversion F as [|? ? Hb F']; subst. cbn [map abs]. unfold ab, dec_next. rewrite A. cbn [plain c_d c_l c_u].
          destruct (b =? 0) eqn:E0; [apply Z.eqb_eq in E0; unfold nonzero in Hb; lia|].
          assert (a_cnt s =? 1 = false) as E1 by (apply Z.eqb_neq; rewrite E; cbn [length]; lia).
          rewrite E1. cbn [m_st m_cnt m_sup m_td m_tv m_int idleb andb].
          destruct (IH (mkDs D_seg ((a_cnt s - 1) mod 256) (a_sup s) b true) eq_refl F') as (s' & o & R & B1 & B2 & B4).
          { cbn [a_cnt]. rewrite E. cbn [length] in *. rewrite Z.mod_small; lia. }
          { cbn [length] in *; lia. }
          rewrite R. exists s'. exists (T s ++ o). splits; auto.
          + rewrite map_app. f_equal. rewrite app_nil_r. unfold T. destruct (a_tv s); reflexivity.
          + rewrite <- app_assoc, B4. cbn [T a_tv a_td]. reflexivity. }
      destruct (G g' s1 S1 Fg ltac:(lia) ltac:(lia)) as (s2 & o2 & R2 & S2 & C2 & E2).
      rewrite abs_app, R2. cbn [abs]. unfold ab, dec_next. rewrite S2, C2. cbn [c_d c_l c_u].
      destruct (y =? 0) eqn:E0; [apply Z.eqb_eq in E0; unfold nonzero in Fy; lia|].
      cbn [Z.eqb Pos.eqb negb andb m_st m_cnt m_sup m_td m_tv m_int idleb].
      eexists. exists (o1 ++ o2), (a_td s2), (T s2 ++ [y]). splits; try reflexivity.
      * rewrite !map_app, <- !app_assoc. reflexivity.
      * split; reflexivity.
      * rewrite <- (app_assoc o1), (app_assoc o2), E2. rewrite (app_assoc o1), (app_assoc o1), E1. rewrite <- !app_assoc. reflexivity.
      * destruct (T s2); discriminate.
  - assert (EE : exists p', e = p' ++ [x] /\ p = (Z.of_nat (length g) + 1 :: g) ++ p').
    { destruct (@exists_last _ e) as (e' & y & Ee); [inversion H; discriminate|]. rewrite Ee in Ep. rewrite app_comm_cons, app_assoc in Ep.
      apply app_inj_tail in Ep. destruct Ep as [<- <-]. exists e'. auto. }
    destruct EE as (p' & -> & ->).
    destruct (group_run g s Bt F ltac:(lia)) as (s1 & o1 & R1 & A1 & U1 & E1 & V1).
    assert (a_sup s1 = false) as Us by (rewrite U1; apply Z.eqb_neq; lia).
    destruct (IH p' x eq_refl s1 (or_introl A1) (or_intror (conj A1 Us))) as (s2 & q & y & r & R2 & Q2 & E2 & N2).
    exists s2, (o1 ++ q), y, r. splits; auto.
    + rewrite map_app, <- app_assoc, abs_app, R1, R2, map_app, <- app_assoc. reflexivity.
    + rewrite <- app_assoc, <- E2, (app_assoc o1 (T s1)), E1. unfold zeros at 3. rewrite A1. unfold Z0. rewrite Us. rewrite <- !app_assoc. reflexivity.
  - assert (EE : exists p', e = p' ++ [x] /\ p = (Z.of_nat (length g) + 1 :: g) ++ p').
    { destruct (@exists_last _ e) as (e' & y & Ee); [inversion H; discriminate|]. rewrite Ee in Ep. rewrite app_comm_cons, app_assoc in Ep.
      apply app_inj_tail in Ep. destruct Ep as [<- <-]. exists e'. split; auto. rewrite L. reflexivity. }
    destruct EE as (p' & -> & ->).
    destruct (group_run g s Bt F ltac:(lia)) as (s1 & o1 & R1 & A1 & U1 & E1 & V1).
    assert (a_sup s1 = true) as Us by (rewrite U1; apply Z.eqb_eq; lia).
    destruct (IH p' x eq_refl s1 (or_introl A1) (or_introl N)) as (s2 & q & y & r & R2 & Q2 & E2 & N2).
    exists s2, (o1 ++ q), y, r. splits; auto.
    + rewrite map_app, <- app_assoc, abs_app, R1, R2, map_app, <- app_assoc. reflexivity.
    + rewrite <- app_assoc, <- E2, (app_assoc o1 (T s1)), E1. unfold zeros at 3. rewrite A1. unfold Z0. rewrite Us. rewrite <- !app_assoc. reflexivity.
Qed.

Lemma good_last f p x s : is_cobs f (p ++ [x]) -> f <> [] -> resting s ->
  exists s' q y, abs s (map plain p ++ [lastb x]) = (s', map plain q ++ [lastb y]) /\ resting s' /\ f = q ++ [y].
Proof.
  intros H N R. destruct (cobs_split f (p ++ [x]) H p x eq_refl s (or_intror R) (or_introl N)) as (s' & q & y & A & B & C).
  rewrite (T_rest s R), (zeros_rest s R) in C. exists s', q, y. auto.
Qed.

(* a bad frame: everything up to its last byte, then a code and nothing after it *)
Lemma cobs_nonempty f e : is_cobs f e -> e <> [].
Proof. destruct 1; discriminate. Qed.

Lemma bad_prefix p e s : is_cobs (p ++ [0]) (e ++ [1]) -> resting s ->
  exists s' o, abs s (map plain e) = (s', map plain o) /\ a_st s' = D_next /\ a_sup s' = false /\ o ++ T s' = p.
Proof.
  intros H R.
  assert (G : forall f e1, is_cobs f e1 -> forall p e, f = p ++ [0] -> e1 = e ++ [1] -> forall s, between s ->
    exists s' o, abs s (map plain e) = (s', map plain o) /\ a_st s' = D_next /\ a_sup s' = false /\ o ++ T s' = T s ++ zeros s ++ p).
  { clear. induction 1 as [g F L|g f e1 F L H IH|g f e1 F L N H IH]; intros p e Ef Ee s Bt.
    - subst g. apply Forall_app in F. destruct F as [_ F]. inversion F as [|? ? X]. unfold nonzero in X. lia.
    - destruct f as [|b f].
      + apply app_inj_tail in Ef. destruct Ef as [-> _].
        assert (e1 = [1]) as ->.
        { inversion H as [g Fg Lg E1 E2|g f e' Fg Lg H' E1 E2|g f e' Fg Lg Ng H' E1 E2]; subst; [reflexivity|destruct g; discriminate E1|].
          destruct g; discriminate. }
        change (Z.of_nat (length p) + 1 :: p ++ [1]) with ((Z.of_nat (length p) + 1 :: p) ++ [1]) in Ee. apply app_inj_tail in Ee. destruct Ee as [<- _].
        destruct (group_run p s Bt F ltac:(lia)) as (s1 & o1 & R1 & A1 & U1 & E1 & V1).
        exists s1, o1. splits; auto. rewrite U1. apply Z.eqb_neq. lia.
      + destruct (@exists_last _ (b :: f) ltac:(discriminate)) as (f' & y & Ey).
        rewrite Ey in Ef. change (g ++ 0 :: f' ++ [y]) with (g ++ (0 :: f') ++ [y]) in Ef. rewrite app_assoc in Ef. apply app_inj_tail in Ef. destruct Ef as [<- ->].
        destruct (@exists_last _ e1 (cobs_nonempty _ _ H)) as (e' & z & Ez). subst e1.
        change (Z.of_nat (length g) + 1 :: g ++ e' ++ [z]) with ((Z.of_nat (length g) + 1 :: g) ++ e' ++ [z]) in Ee. rewrite app_assoc in Ee. apply app_inj_tail in Ee. destruct Ee as [<- ->].
        destruct (group_run g s Bt F ltac:(lia)) as (s1 & o1 & R1 & A1 & U1 & E1 & V1).
        assert (a_sup s1 = false) as Us by (rewrite U1; apply Z.eqb_neq; lia).
        destruct (IH f' e' Ey eq_refl s1 (or_introl A1)) as (s2 & o2 & R2 & A2 & U2 & E2).
        exists s2, (o1 ++ o2). splits; auto.
        * rewrite map_app, abs_app, R1, R2, map_app. reflexivity.
        * rewrite <- app_assoc, E2, (app_assoc o1 (T s1)), E1. unfold zeros at 2. rewrite A1. unfold Z0. rewrite Us. rewrite <- !app_assoc. reflexivity.
    - destruct (@exists_last _ f N) as (f' & y & Ey).
      subst f. rewrite app_assoc in Ef. apply app_inj_tail in Ef. destruct Ef as [<- ->].
      destruct (@exists_last _ e1 (cobs_nonempty _ _ H)) as (e' & z & Ez). subst e1.
      change (255 :: g ++ e' ++ [z]) with ((255 :: g) ++ e' ++ [z]) in Ee. rewrite app_assoc in Ee. apply app_inj_tail in Ee. destruct Ee as [<- ->].
      destruct (group_run g s Bt F ltac:(lia)) as (s1 & o1 & R1 & A1 & U1 & E1 & V1). rewrite L in R1. change (Z.of_nat 254 + 1) with 255 in R1.
      assert (a_sup s1 = true) as Us by (rewrite U1; apply Z.eqb_eq; lia).
      destruct (IH f' e' eq_refl eq_refl s1 (or_introl A1)) as (s2 & o2 & R2 & A2 & U2 & E2).
      exists s2, (o1 ++ o2). splits; auto.
      + rewrite map_app, abs_app, R1, R2, map_app. reflexivity.
      + rewrite <- app_assoc, E2, (app_assoc o1 (T s1)), E1. unfold zeros at 2. rewrite A1. unfold Z0. rewrite Us. rewrite <- !app_assoc. reflexivity. }
  destruct (G _ _ H p e eq_refl eq_refl s (or_intror R)) as (s' & o & A & B & C & D).
  rewrite (T_rest s R), (zeros_rest s R) in D. exists s', o. auto.
Qed.

Lemma bad_delim p e s l u : is_cobs (p ++ [0]) (e ++ [1]) -> resting s ->
  exists s', abs s (map plain e ++ [plain 2; mkCb 0 l u]) = (s', map plain p ++ [mkCb 0 true true]) /\ resting s'.
Proof.
  intros H R. destruct (bad_prefix p e s H R) as (s1 & o & R1 & A1 & U1 & E1).
  rewrite abs_app, R1. cbn [abs]. unfold ab at 1, dec_next. rewrite A1, U1.
  cbn [plain c_d c_l c_u Z.eqb Pos.eqb m_st m_cnt m_sup m_td m_tv m_int idleb andb].
  unfold ab, dec_next. cbn [a_st a_cnt a_sup a_td a_tv c_d c_l c_u Z.eqb m_st m_cnt m_sup m_td m_tv m_int idleb andb negb].
  eexists. split; [f_equal; rewrite <- E1, map_app, <- !app_assoc; f_equal; unfold T; destruct (a_tv s1); reflexivity|split; reflexivity].
Qed.

Lemma bad_last p e s : is_cobs (p ++ [0]) (e ++ [1]) -> resting s ->
  exists s' q r x, abs s (map plain e ++ [mkCb 2 true true]) = (s', map plain q ++ [mkCb x true true]) /\ resting s' /\ p = q ++ r.
Proof.
  intros H R. destruct (bad_prefix p e s H R) as (s1 & o & R1 & A1 & U1 & E1).
  rewrite abs_app, R1. cbn [abs]. unfold ab, dec_next. rewrite A1, U1.
  cbn [c_d c_l c_u Z.eqb Pos.eqb m_st m_cnt m_sup m_td m_tv m_int idleb andb negb].
  eexists. exists o, (T s1), (a_td s1). splits; [reflexivity|split; reflexivity|auto].
Qed.

(* ----- a frame as sent ----- *)
Lemma frame_run f bs s : frame_ok f -> sent_as f bs -> resting s ->
  exists s' os, abs s bs = (s', os) /\ resting s' /\ comes_out f os.
Proof.
  intros [N _] H R. unfold sent_as in H. unfold comes_out. destruct (f_bad f).
  - destruct H as [(pad & p & x & e & Fp & Ef & C & [(l & u & ->)| ->])|(pad & e & Fp & C & [(l & ->)|(p & x & -> & ->)])];
      rewrite abs_app, (pad_idle pad s (proj1 R) (proj2 R) Fp).
    + destruct (bad_delim p e s l u C R) as (s' & E & R'). rewrite E. exists s'. eexists. splits; [reflexivity|exact R'|].
      exists p, [x], 0. splits; auto. discriminate.
    + destruct (bad_last p e s C R) as (s' & q & r & y & E & R' & Ep). rewrite E. exists s'. eexists. splits; [reflexivity|exact R'|].
      exists q, (r ++ [x]), y. splits; auto; [rewrite Ef, Ep, <- app_assoc; reflexivity|destruct r; discriminate].
    + destruct (good_delim _ e s l true C N R) as (s' & q & y & E & R' & Ef). rewrite E. exists s'. eexists. splits; [reflexivity|exact R'|].
      exists q, [y], y. splits; auto. discriminate.
    + destruct (cobs_cut _ (p ++ [x]) C p x eq_refl s (or_intror R) (or_introl N)) as (s' & q & y & r & E & R' & Ef & Nr).
      rewrite (T_rest s R), (zeros_rest s R) in Ef. rewrite E. exists s'. eexists. splits; [reflexivity|exact R'|].
      exists q, r, y. splits; auto.
  - destruct H as (pad & e & Fp & C & [(l & ->)|(p & x & -> & ->)]); rewrite abs_app, (pad_idle pad s (proj1 R) (proj2 R) Fp).
    + destruct (good_delim _ e s l false C N R) as (s' & q & y & E & R' & Ef). rewrite E. exists s'. eexists. splits; [reflexivity|exact R'|].
      exists q, y. auto.
    + destruct (good_last _ p x s C N R) as (s' & q & y & E & R' & Ef). rewrite E. exists s'. eexists. splits; [reflexivity|exact R'|].
      exists q, y. auto.
Qed.

Lemma frames_run fs bss : Forall2 sent_as fs bss -> Forall frame_ok fs -> forall s, resting s ->
  exists s' oss, abs s (concat bss) = (s', concat oss) /\ resting s' /\ Forall2 comes_out fs oss.
Proof.
  induction 1 as [|f bs fs bss H HH IH]; intros Ok s R.
  - exists s, []. splits; auto.
  - inversion Ok as [|? ? Of Ok']; subst. destruct (frame_run f bs s Of H R) as (s1 & o1 & E1 & R1 & C1).
    destruct (IH Ok' s1 R1) as (s2 & oss & E2 & R2 & C2).
    exists s2, (o1 :: oss). cbn [concat]. rewrite abs_app, E1, E2. splits; auto.
Qed.

Lemma abs_prefix s a b : exists c, snd (abs s (a ++ b)) = snd (abs s a) ++ c.
Proof. rewrite abs_app. destruct (abs s a) as [s1 o1]. destruct (abs s1 b) as [s2 o2]. exists o2. reflexivity. Qed.

(* ----- cycles ----- *)
(* what the accepted bytes have made and the sink has not taken *)
Definition core (s : dec) : ds := mkDs (d_st s) (d_cnt s) (d_sup s) (d_td s) (if idleb (d_st s) then false else d_tv s).
Definition waiting (s : dec) : list cb :=
  skid_content (d_skid s) ++ (if idleb (d_st s) && d_tv s then [lastb (d_td s)] else []).
Definition d_inv (s : dec) : Prop :=
  skid_inv (d_skid s) /\ (d_rdy s = true -> k_rdy (d_skid s) = true \/ (d_st s = D_idle /\ d_tv s = false)).
Definition d_in (s : dec) (i : cin) : list cb := if d_rdy s then olist (ci_s i) else [].
Definition d_out (s : dec) (i : cin) : list cb := if ci_mready i then olist (k_out (d_skid s)) else [].

Lemma early_step {A} (k : skid A) x m : k_rdy (skid_step k x m) = early k x m.
Proof. unfold skid_step, early. destruct (k_rdy k), (m || isnone (k_out k)), m; reflexivity. Qed.

Lemma d_step_inv s i : ci_rst i = false -> d_inv s -> d_inv (fst (d_step s i)).
Proof.
  intros R [K H]. unfold d_step. rewrite R. cbn [fst]. split; cbn [d_skid d_rdy d_st d_tv]; [apply skid_step_inv; exact K|].
  rewrite early_step. set (x := if d_rdy s then ci_s i else None). clearbody x.
  unfold dec_next. destruct (d_st s) eqn:Es, x as [b|]; cbn [m_rdy m_st m_tv m_int];
    repeat match goal with |- context [if ?c then _ else _] => destruct c eqn:?; cbn [m_rdy m_st m_tv m_int andb negb] end;
    cbn [andb]; auto.
Qed.

Lemma d_step_content s i : ci_rst i = false -> d_inv s ->
  exists o, abs (core s) (d_in s i) = (core (fst (d_step s i)), o) /\
    waiting s ++ o = d_out s i ++ waiting (fst (d_step s i)).
Proof.
  intros R [K H]. unfold d_step. rewrite R. cbn [fst]. unfold d_in, d_out, waiting, core. cbn [d_skid d_rdy d_st d_tv d_td d_cnt d_sup].
  set (a := dec_next _ _ _ _ _ _ _).
  pose proof (@skid_step_content cb (d_skid s) (m_int a) (ci_mready i) K) as C.
  assert (D : (if ci_mready i then olist (k_out (d_skid s)) else []) = olist (if ci_mready i then k_out (d_skid s) else None)) by (destruct (ci_mready i); reflexivity).
  rewrite D. clear D. rewrite app_assoc. rewrite <- C.
  destruct (d_rdy s) eqn:Er.
  - specialize (H eq_refl). destruct (ci_s i) as [b|] eqn:Ei; cbn [olist abs].
    + subst a. destruct H as [H|[Hi Hv]].
      * rewrite H. destruct (d_st s) eqn:Es.
        -- unfold ab. cbn [a_st a_cnt a_sup a_td a_tv idleb]. eexists. split; [|].
           { unfold dec_next. destruct (c_d b =? 0), (c_d b =? 1), (d_tv s); reflexivity. }
           unfold dec_next. cbn [andb]. rewrite andb_false_r.
           destruct (c_d b =? 0), (c_d b =? 1), (d_tv s); cbn [m_int m_st m_tv m_td idleb andb olist app]; rewrite ?app_nil_r; reflexivity.
        -- unfold ab. cbn [a_st a_cnt a_sup a_td a_tv idleb andb]. set (a := dec_next _ _ _ _ _ _ _).
           eexists. split; [reflexivity|]. rewrite !app_nil_r. rewrite app_assoc. reflexivity.
        -- unfold ab. cbn [a_st a_cnt a_sup a_td a_tv idleb andb]. set (a := dec_next _ _ _ _ _ _ _).
           eexists. split; [reflexivity|]. rewrite !app_nil_r. rewrite app_assoc. reflexivity.
      * rewrite Hi, Hv. unfold ab, dec_next. cbn [a_st a_cnt a_sup a_td a_tv idleb andb].
        destruct (c_d b =? 0), (c_d b =? 1); cbn [m_int m_st m_cnt m_sup m_tv m_td idleb andb olist app]; eexists; (split; [reflexivity|]);
          rewrite ?app_nil_r; destruct (k_rdy (d_skid s)); cbn [olist]; rewrite ?app_nil_r; reflexivity.
    + exists []. split; subst a; unfold dec_next.
      * destruct (d_st s); reflexivity.
      * rewrite app_nil_r. destruct (d_st s); cbn [m_int m_st m_tv m_td idleb andb].
        -- destruct (d_tv s), (k_rdy (d_skid s)); cbn [olist andb negb]; rewrite ?app_nil_r; reflexivity.
        -- destruct (k_rdy (d_skid s)); cbn [olist]; rewrite ?app_nil_r; reflexivity.
        -- destruct (k_rdy (d_skid s)); cbn [olist]; rewrite ?app_nil_r; reflexivity.
  - exists []. cbn [abs]. split; subst a; unfold dec_next.
    + destruct (d_st s); reflexivity.
    + rewrite app_nil_r. destruct (d_st s); cbn [m_int m_st m_tv m_td idleb andb].
      * destruct (d_tv s), (k_rdy (d_skid s)); cbn [olist andb negb]; rewrite ?app_nil_r; reflexivity.
      * destruct (k_rdy (d_skid s)); cbn [olist]; rewrite ?app_nil_r; reflexivity.
      * destruct (k_rdy (d_skid s)); cbn [olist]; rewrite ?app_nil_r; reflexivity.
Qed.

Definition d_fin (s : dec) (is : list cin) : dec := fst (trace d_step s is).

Lemma went_cons_d s i is :
  went_in (i :: is) (d_outs s (i :: is)) = d_in s i ++ went_in is (d_outs (fst (d_step s i)) is) /\
  went_out (i :: is) (d_outs s (i :: is)) = d_out s i ++ went_out is (d_outs (fst (d_step s i)) is) /\
  d_fin s (i :: is) = d_fin (fst (d_step s i)) is.
Proof.
  unfold went_in, went_out, d_outs, d_fin, d_in, d_out. cbn [trace].
  assert (snd (d_step s i) = mkCout (d_rdy s) (k_out (d_skid s))) as E by reflexivity.
  destruct (d_step s i) as [s1 o]. cbn [fst snd] in *. subst o. destruct (trace d_step s1 is) as [s2 os]. cbn [fst snd combine map].
  rewrite !somes_cons. cbn [co_sready co_m fst snd].
  splits; [destruct (d_rdy s); reflexivity|destruct (ci_mready i); reflexivity|reflexivity].
Qed.

Lemma d_run is : forall s, no_reset is -> d_inv s ->
  exists o, abs (core s) (went_in is (d_outs s is)) = (core (d_fin s is), o) /\
    waiting s ++ o = went_out is (d_outs s is) ++ waiting (d_fin s is) /\ d_inv (d_fin s is).
Proof.
  induction is as [|i is IH]; intros s N I.
  - exists []. cbn. rewrite app_nil_r. auto.
  - inversion N as [|? ? R N']; subst. destruct (went_cons_d s i is) as (-> & -> & ->).
    pose proof (d_step_inv s i R I) as I1. destruct (d_step_content s i R I) as (o1 & E1 & C1).
    destruct (IH _ N' I1) as (o2 & E2 & C2 & I2). exists (o1 ++ o2). rewrite abs_app, E1, E2. splits; auto.
    rewrite app_assoc, C1, <- !app_assoc. f_equal. exact C2.
Qed.

Lemma d_started_state s : d_started s -> d_inv s /\ resting (core s) /\ waiting s = [].
Proof.
  assert (G : forall s i, ci_rst i = true -> let s' := fst (d_step s i) in d_inv s' /\ resting (core s') /\ waiting s' = []).
  { intros s0 i R s'. subst s'. unfold d_step. rewrite R. cbn [fst]. unfold d_inv, resting, core, waiting. cbn. splits; auto; try apply skid0_inv; try discriminate. }
  intros [|pre i R].
  - unfold d_inv, resting, core, waiting. cbn. splits; auto; try apply skid0_inv; try discriminate.
  - rewrite trace_app. destruct (trace d_step d_init pre) as [s1 o1]. cbn [trace].
    pose proof (G s1 i R) as X. destruct (d_step s1 i). exact X.
Qed.

(* ----- progress ----- *)
Lemma d_ready_next s i : ci_rst i = false -> ci_mready i = true -> d_rdy (fst (d_step s i)) = true.
Proof.
  intros R M. unfold d_step. rewrite R, M. cbn [fst d_rdy]. set (a := dec_next _ _ _ _ _ _ _).
  assert (m_rdy a = None \/ m_rdy a = Some true) as [-> | ->]; [|reflexivity|reflexivity].
  subst a. unfold dec_next.
  destruct (d_st s), (if d_rdy s then ci_s i else None) as [b|]; cbn [m_rdy]; auto;
    repeat match goal with |- context [if ?c then _ else _] => destruct c; cbn [m_rdy] end; auto.
Qed.

Lemma d_quiet_step s i : ci_rst i = false -> ci_mready i = true -> ci_s i = None -> d_inv s ->
  let s' := fst (d_step s i) in
  k_rdy (d_skid s') = true /\
  (k_rdy (d_skid s) = true -> idleb (d_st s') && d_tv s' = false /\ (idleb (d_st s) && d_tv s = false -> waiting s' = [])).
Proof.
  intros R M Q [[K1 K2] _] s'. subst s'. unfold d_step, waiting, skid_content. rewrite R, M, Q.
  assert ((if d_rdy s then None else None) = @None cb) as -> by (destruct (d_rdy s); reflexivity).
  unfold dec_next, skid_step. destruct (d_skid s) as [kr ko kt]. cbn [k_rdy k_out k_tmp fst d_skid] in *.
  destruct kr; [rewrite (K1 eq_refl) in *; clear K1 K2|].
  - destruct (d_st s), (d_tv s), ko; cbn; split; auto; intros _; split; auto; discriminate.
  - destruct (d_st s), (d_tv s), ko; cbn; split; auto; discriminate.
Qed.

Lemma d_drain is : forall s, no_reset is -> sink_ready is -> source_quiet is -> d_inv s -> (3 <= length is)%nat ->
  waiting (d_fin s is) = [] /\ core (d_fin s is) = core s /\ d_rdy (d_fin s is) = true.
Proof.
  assert (G : forall is s, no_reset is -> sink_ready is -> source_quiet is -> d_inv s -> d_rdy s = true ->
    k_rdy (d_skid s) = true -> waiting s = [] -> waiting (d_fin s is) = [] /\ core (d_fin s is) = core s /\ d_rdy (d_fin s is) = true).
  { clear is. induction is as [|i is IH]; intros s N Sr Q I Dr Kr W; [splits; auto|].
    inversion N as [|? ? R N']; inversion Sr as [|? ? M Sr']; inversion Q as [|? ? Qi Q']; subst.
    destruct (went_cons_d s i is) as (_ & _ & ->).
    pose proof (d_step_inv s i R I) as I1. destruct (d_step_content s i R I) as (o & E & C).
    assert (d_in s i = []) as Ed by (unfold d_in; rewrite Qi; destruct (d_rdy s); reflexivity). rewrite Ed in E. cbn [abs] in E.
    assert (Ec : core (fst (d_step s i)) = core s) by congruence.
    pose proof (d_quiet_step s i R M Qi I) as X. cbn zeta in X. destruct X as (X1 & X2). specialize (X2 Kr). destruct X2 as (X2 & X3).
    rewrite <- Ec. apply IH; auto; [apply d_ready_next; auto|].
    apply X3. unfold waiting in W. apply app_eq_nil in W. destruct W as [_ W]. destruct (idleb (d_st s) && d_tv s); [discriminate W|reflexivity]. }
  intros s N Sr Q I L. destruct is as [|i1 [|i2 [|i3 is]]]; try (cbn [length] in L; lia).
  inversion N as [|? ? R1 N1]; inversion Sr as [|? ? M1 Sr1]; inversion Q as [|? ? Q1 Q1']; subst.
  inversion N1 as [|? ? R2 N2]; inversion Sr1 as [|? ? M2 Sr2]; inversion Q1' as [|? ? Q2 Q2']; subst.
  inversion N2 as [|? ? R3 N3]; inversion Sr2 as [|? ? M3 Sr3]; inversion Q2' as [|? ? Q3 Q3']; subst.
  assert (CC : forall s i, ci_rst i = false -> ci_s i = None -> d_inv s -> core (fst (d_step s i)) = core s).
  { intros t i Rt Qt It. destruct (d_step_content t i Rt It) as (o & E & C).
    assert (d_in t i = []) as Ed by (unfold d_in; rewrite Qt; destruct (d_rdy t); reflexivity). rewrite Ed in E. cbn [abs] in E. congruence. }
  destruct (went_cons_d s i1 (i2 :: i3 :: is)) as (_ & _ & ->). set (s1 := fst (d_step s i1)).
  destruct (went_cons_d s1 i2 (i3 :: is)) as (_ & _ & ->). set (s2 := fst (d_step s1 i2)).
  destruct (went_cons_d s2 i3 is) as (_ & _ & ->). set (s3 := fst (d_step s2 i3)).
  assert (I1 : d_inv s1) by (apply d_step_inv; auto). assert (I2 : d_inv s2) by (apply d_step_inv; auto). assert (I3 : d_inv s3) by (apply d_step_inv; auto).
  pose proof (d_quiet_step s i1 R1 M1 Q1 I) as X1. pose proof (d_quiet_step s1 i2 R2 M2 Q2 I1) as X2. pose proof (d_quiet_step s2 i3 R3 M3 Q3 I2) as X3.
  cbn zeta in X1, X2, X3. fold s1 in X1. fold s2 in X2. fold s3 in X3. destruct X1 as [A1 _]. destruct X2 as [A2 B2]. destruct X3 as [A3 B3].
  specialize (B2 A1). destruct B2 as [B2 _]. specialize (B3 A2). destruct B3 as [_ B3]. specialize (B3 B2).
  destruct (G is s3 N3 Sr3 Q3' I3 (d_ready_next s2 i3 R3 M3) A3 B3) as (W & C & D). splits; auto.
  rewrite C. unfold s3. rewrite CC by auto. unfold s2. rewrite CC by auto. unfold s1. apply CC; auto.
Qed.

(* ----- the claims ----- *)
Lemma prefix_eq {A} (a b c d : list A) : a ++ b = c ++ d -> b = [] -> prefix c a.
Proof. intros E ->. rewrite app_nil_r in E. exists d. exact E. Qed.

(* [fs] were sent, some of it accepted: what came out is a beginning of the frames *)
Lemma dec_safe s is fs bss : d_started s -> no_reset is -> Forall frame_ok fs -> Forall2 sent_as fs bss ->
  prefix (went_in is (d_outs s is)) (concat bss) ->
  exists oss, Forall2 comes_out fs oss /\ prefix (went_out is (d_outs s is)) (concat oss).
Proof.
  intros St N Ok H (rest & E). destruct (d_started_state s St) as (I & R & W).
  destruct (frames_run fs bss H Ok (core s) R) as (s' & oss & Er & _ & C). rewrite E in Er.
  exists oss. split; auto. destruct (d_run is s N I) as (o & Eo & Co & _). rewrite W in Co. cbn [app] in Co.
  destruct (abs_prefix (core s) (went_in is (d_outs s is)) rest) as (c & Ec). rewrite Er, Eo in Ec. cbn [snd] in Ec.
  exists (waiting (d_fin s is) ++ c). rewrite Ec, Co, <- app_assoc. reflexivity.
Qed.

Lemma trace_fin_app s a b : d_fin s (a ++ b) = d_fin (d_fin s a) b.
Proof. unfold d_fin. rewrite trace_app. destruct (trace d_step s a) as [s1 o1]. cbn [fst]. destruct (trace d_step s1 b). reflexivity. Qed.
Lemma d_outs_len is : forall s, length (d_outs s is) = length is.
Proof. intros s. unfold d_outs. apply trace_length. Qed.
Lemma combine_app_eq {A B} (a : list A) (b : list B) : forall c d, length a = length b -> combine (a ++ c) (b ++ d) = combine a b ++ combine c d.
Proof. revert b. induction a as [|x a IH]; intros [|y b] c d L; try discriminate L; cbn; [reflexivity|]. rewrite IH by (cbn in L; lia). reflexivity. Qed.
Lemma went_app_d s a b :
  went_in (a ++ b) (d_outs s (a ++ b)) = went_in a (d_outs s a) ++ went_in b (d_outs (d_fin s a) b) /\
  went_out (a ++ b) (d_outs s (a ++ b)) = went_out a (d_outs s a) ++ went_out b (d_outs (d_fin s a) b).
Proof.
  assert (E : d_outs s (a ++ b) = d_outs s a ++ d_outs (d_fin s a) b).
  { unfold d_outs, d_fin. rewrite trace_app. destruct (trace d_step s a) as [s1 o1]. cbn [fst snd]. destruct (trace d_step s1 b). reflexivity. }
  rewrite E. unfold went_in, went_out. rewrite combine_app_eq by (symmetry; apply d_outs_len). rewrite !map_app, !somes_app. auto.
Qed.
Lemma quiet_in_d is : forall s, source_quiet is -> went_in is (d_outs s is) = [].
Proof.
  induction is as [|i is IH]; intros s Q; [reflexivity|]. inversion Q as [|? ? Qi Q']; subst.
  destruct (went_cons_d s i is) as (-> & _ & _). rewrite IH by auto. unfold d_in. rewrite Qi. destruct (d_rdy s); reflexivity.
Qed.

(* all of it accepted, then three quiet cycles with the sink ready *)
Lemma dec_complete s is tl fs bss : d_started s -> no_reset (is ++ tl) -> Forall frame_ok fs -> Forall2 sent_as fs bss ->
  went_in is (d_outs s is) = concat bss -> source_quiet tl -> sink_ready tl -> (3 <= length tl)%nat ->
  exists oss, Forall2 comes_out fs oss /\ went_out (is ++ tl) (d_outs s (is ++ tl)) = concat oss.
Proof.
  intros St N Ok H E Q Sr L. destruct (d_started_state s St) as (I & R & W).
  destruct (frames_run fs bss H Ok (core s) R) as (s' & oss & Er & _ & C).
  exists oss. split; auto. destruct (d_run (is ++ tl) s N I) as (o & Eo & Co & _). rewrite W in Co. cbn [app] in Co.
  rewrite (proj1 (went_app_d s is tl)), (quiet_in_d tl _ Q), app_nil_r, E, Er in Eo. injection Eo as _ Eo. rewrite Eo, Co.
  rewrite trace_fin_app. apply Forall_app in N. destruct N as [N1 N2].
  destruct (d_run is s N1 I) as (_ & _ & _ & I1).
  destruct (d_drain tl (d_fin s is) N2 Sr Q I1 L) as (-> & _). rewrite app_nil_r. reflexivity.
Qed.

(* whatever happened before, a zero byte restores framing *)
Lemma abs_zero s a b : c_d b = 0 -> resting (fst (abs s (a ++ [b]))).
Proof.
  intros Z. rewrite abs_app. destruct (abs s a) as [s1 o1]. cbn [abs]. destruct (ab s1 b) as [s2 o2] eqn:E. cbn [fst].
  pose proof (ab_zero s1 b Z) as X. rewrite E in X. exact X.
Qed.
Lemma dec_resync s is tl junk z fs bss : d_started s -> no_reset (is ++ tl) -> Forall frame_ok fs -> Forall2 sent_as fs bss ->
  c_d z = 0 -> went_in is (d_outs s is) = junk ++ [z] ++ concat bss -> source_quiet tl -> sink_ready tl -> (3 <= length tl)%nat ->
  exists o1 oss, Forall2 comes_out fs oss /\ went_out (is ++ tl) (d_outs s (is ++ tl)) = o1 ++ concat oss.
Proof.
  intros St N Ok H Zz E Q Sr L. destruct (d_started_state s St) as (I & R & W).
  pose proof (abs_zero (core s) junk z Zz) as R1. destruct (abs (core s) (junk ++ [z])) as [s1 o1] eqn:E1. cbn [fst] in R1.
  destruct (frames_run fs bss H Ok s1 R1) as (s' & oss & Er & _ & C).
  exists o1, oss. split; auto. destruct (d_run (is ++ tl) s N I) as (o & Eo & Co & _). rewrite W in Co. cbn [app] in Co.
  rewrite (proj1 (went_app_d s is tl)), (quiet_in_d tl _ Q), app_nil_r, E, app_assoc, abs_app, E1, Er in Eo. injection Eo as _ Eo. rewrite Eo, Co.
  rewrite trace_fin_app. apply Forall_app in N. destruct N as [N1 N2].
  destruct (d_run is s N1 I) as (_ & _ & _ & I1).
  destruct (d_drain tl (d_fin s is) N2 Sr Q I1 L) as (-> & _). rewrite app_nil_r. reflexivity.
Qed.

(* with the sink ready a byte is accepted in every cycle but the first *)
Lemma dec_live is : forall s, no_reset is -> sink_ready is -> source_busy is -> d_rdy s = true ->
  length (went_in is (d_outs s is)) = length is.
Proof.
  induction is as [|i is IH]; intros s N Sr B D; [reflexivity|].
  inversion N as [|? ? R N']; inversion Sr as [|? ? M Sr']; inversion B as [|? ? Bi B']; subst.
  destruct (went_cons_d s i is) as (-> & _ & _). rewrite app_length, IH; auto; [|apply d_ready_next; auto].
  unfold d_in. rewrite D. destruct (ci_s i); [reflexivity|congruence].
Qed.
Lemma dec_live' i is s : no_reset (i :: is) -> sink_ready (i :: is) -> source_busy (i :: is) ->
  (length is <= length (went_in (i :: is) (d_outs s (i :: is))))%nat.
Proof.
  intros N Sr B. inversion N as [|? ? R N']; inversion Sr as [|? ? M Sr']; inversion B as [|? ? Bi B']; subst.
  destruct (went_cons_d s i is) as (-> & _ & _). rewrite app_length, (dec_live is _ N' Sr' B' (d_ready_next s i R M)). lia.
Qed.
