(** Proofs about capability lists. *)
From Coq Require Import Sorting.Sorted Sorting.Permutation.
From Verif Require Import Base.Prelude Pcie.Cap_model Pcie.Cap_spec.
Open Scope Z_scope.

Definition leo (a b : cap) : Prop := c_off a <= c_off b.

Lemma ins_perm c l : Permutation (ins c l) (c :: l).
Proof.
  induction l as [|d l IH]; cbn; [reflexivity|]. destruct (c_off c <=? c_off d); [reflexivity|].
  rewrite IH. apply perm_swap.
Qed.
Lemma sort_perm l : Permutation (sort_caps l) l.
Proof. induction l as [|c l IH]; cbn; [reflexivity|]. rewrite ins_perm. constructor. exact IH. Qed.
Lemma ins_sorted c l : StronglySorted leo l -> StronglySorted leo (ins c l).
Proof.
  induction 1 as [|d l Hl IH Hd]; cbn; [repeat constructor|].
  destruct (Z.leb_spec (c_off c) (c_off d)) as [H|H].
  - constructor; [constructor; auto|]. constructor; [exact H|].
    eapply Forall_impl; [|exact Hd]. unfold leo. intros; lia.
  - constructor; [exact IH|]. rewrite Forall_forall in *. intros x Hx.
    apply (Permutation_in _ (ins_perm c l)) in Hx. destruct Hx as [<-|Hx]; [unfold leo; lia|auto].
Qed.
Lemma sort_sorted l : StronglySorted leo (sort_caps l).
Proof. induction l as [|c l IH]; cbn; [constructor|]. apply ins_sorted. exact IH. Qed.

Lemma chain_place l : map place_of (chain l) = map place_of l.
Proof. induction l as [|c [|d t] IH]; cbn in *; [reflexivity|reflexivity|]. rewrite IH. reflexivity. Qed.
Lemma relink_place l : map place_of (relink l) = map place_of l.
Proof. destruct l as [|c [|d t]]; [reflexivity|reflexivity|]. unfold relink. apply chain_place. Qed.

Lemma nth_place l l' i c : map place_of l = map place_of l' -> nth_error l i = Some c ->
  exists d, nth_error l' i = Some d /\ place_of d = place_of c.
Proof.
  intros E H. assert (X := f_equal (fun m => nth_error m i) E). cbv beta in X.
  rewrite !nth_error_map, H in X. destruct (nth_error l' i) as [d|] eqn:D; cbn in X; [|discriminate].
  exists d. split; [reflexivity|congruence].
Qed.

Lemma chain_linked : forall l i c, nth_error (chain l) i = Some c ->
  c_next c = Some (match nth_error l (S i) with Some d => 4 * c_off d | None => 0 end).
Proof.
  induction l as [|a [|b t] IH]; intros i c H.
  - destruct i; discriminate.
  - destruct i as [|[|i]]; cbn in H; [injection H as <-; reflexivity|discriminate|discriminate].
  - destruct i as [|i].
    + cbn in H. injection H as <-. cbn [nth_error]. unfold set_next. cbn [c_next]. f_equal. lia.
    + change (nth_error (chain (a :: b :: t)) (S i)) with (nth_error (chain (b :: t)) i) in H.
      rewrite (IH _ _ H). reflexivity.
Qed.

Lemma chain_is_linked l : linked (chain l).
Proof.
  intros i c H. rewrite (chain_linked _ _ H). f_equal.
  destruct (nth_error l (S i)) as [d|] eqn:E.
  - destruct (@nth_place l (chain l) (S i) d) as (d' & E' & P); [symmetry; apply chain_place|auto|].
    rewrite E'. unfold place_of in P. congruence.
  - destruct (nth_error (chain l) (S i)) as [d|] eqn:E'; [|reflexivity].
    destruct (@nth_place (chain l) l (S i) d) as (d' & E'' & P); [apply chain_place|auto|]. congruence.
Qed.

Lemma ss_sorted l : StronglySorted leo l -> sorted l.
Proof.
  induction 1 as [|c l Hl IH Hc]; intros i j a b Hij Ha Hb; [destruct i; discriminate|].
  destruct i as [|i], j as [|j]; try lia.
  - cbn in Ha, Hb. injection Ha as <-. rewrite Forall_forall in Hc. apply Hc. eapply nth_error_In; eauto.
  - cbn in Ha, Hb. eapply IH; [|eauto|eauto]. lia.
Qed.
Lemma sorted_place l l' : map place_of l = map place_of l' -> sorted l -> sorted l'.
Proof.
  intros E S i j a b Hij Ha Hb.
  destruct (@nth_place l' l i a) as (a' & Ea & Pa); [auto|auto|].
  destruct (@nth_place l' l j b) as (b' & Eb & Pb); [auto|auto|].
  pose proof (S i j a' b' Hij Ea Eb). unfold place_of in *. injection Pa as _ _ <-. injection Pb as _ _ <-. auto.
Qed.

Definition good (l : list cap) : Prop := sorted l /\ ((2 <= length l)%nat -> linked l).

Lemma add_cap_good l c : good (add_cap l c).
Proof.
  unfold add_cap. split.
  - apply (@sorted_place (sort_caps (l ++ [c]))); [symmetry; apply relink_place|]. apply ss_sorted, sort_sorted.
  - assert (E : length (relink (sort_caps (l ++ [c]))) = length (sort_caps (l ++ [c]))).
    { rewrite <- (map_length place_of), relink_place, map_length. reflexivity. }
    rewrite E. destruct (sort_caps (l ++ [c])) as [|x [|y t]]; intros H; cbn [length] in H; try lia.
    apply chain_is_linked.
Qed.
Lemma add_cap_perm l c : Permutation (map place_of (add_cap l c)) (place_of c :: map place_of l).
Proof.
  unfold add_cap. rewrite relink_place. rewrite (Permutation_map place_of (sort_perm (l ++ [c]))).
  rewrite map_app. cbn [map]. symmetry. apply Permutation_cons_append.
Qed.
Lemma adds_good start : forall bs l, good l -> good (fold_left (add_auto start) bs l).
Proof. induction bs as [|b bs IH]; intros l H; [exact H|]. cbn. apply IH. apply add_cap_good. Qed.

Lemma register_good start l id len off l' : register start l id len off = Some l' -> good l'.
Proof.
  unfold register. destruct (find_by_id l id) as [c|].
  - cbn [c_len c_off]. destruct (_ =? 0); [discriminate|]. intros E. injection E as <-.
    destruct (_ =? 0); [apply add_cap_good|apply adds_good, add_cap_good].
  - cbn [c_len c_off]. destruct (_ =? 0); [discriminate|]. intros E. injection E as <-.
    destruct (_ =? 0); [apply add_cap_good|apply adds_good, add_cap_good].
Qed.
Lemma register_all_good start : forall rs l l', good l -> register_all start l rs = Some l' -> good l'.
Proof.
  induction rs as [|[[id len] off] rs IH]; intros l l' G H; cbn in H; [congruence|].
  destruct (register start l id len off) as [l1|] eqn:E; [|discriminate].
  apply (IH l1); [eapply register_good; eauto|auto].
Qed.
Lemma good_nil : good [].
Proof. split; [intros i j a b _ H; destruct i; discriminate|cbn; lia]. Qed.

(** * Identities *)
Lemma ids_place l : map c_id l = map (fun p => fst (fst p)) (map place_of l).
Proof. rewrite map_map. reflexivity. Qed.
Lemma add_cap_ids l c : Permutation (map c_id (add_cap l c)) (c_id c :: map c_id l).
Proof. rewrite !ids_place. rewrite (add_cap_perm l c). reflexivity. Qed.
Lemma adds_ids start : forall bs l, Permutation (map c_id (fold_left (add_auto start) bs l)) (map c_id bs ++ map c_id l).
Proof.
  induction bs as [|b bs IH]; intros l; [reflexivity|]. cbn [fold_left map app]. rewrite IH.
  unfold add_auto. rewrite add_cap_ids. cbn [c_id]. symmetry. apply Permutation_middle.
Qed.
Lemma filter_ids (f : cap -> bool) l :
  Permutation (map c_id (filter f l) ++ map c_id (filter (fun d => negb (f d)) l)) (map c_id l).
Proof.
  induction l as [|c l IH]; cbn; [reflexivity|]. destruct (f c); cbn.
  - constructor. exact IH.
  - rewrite <- Permutation_middle. constructor. exact IH.
Qed.
Lemma add_at_ids start l c : Permutation (map c_id (add_at start l c)) (c_id c :: map c_id l).
Proof.
  unfold add_at. rewrite adds_ids, add_cap_ids. rewrite <- Permutation_middle. constructor. apply filter_ids.
Qed.
Lemma find_none_id l id : find_by_id l id = None -> ~ In id (map c_id l).
Proof.
  intros H HI. apply in_map_iff in HI. destruct HI as (c & E & HI).
  pose proof (find_none _ _ H _ HI) as X. cbv beta in X. lia.
Qed.
Lemma remove_ids id : forall l, NoDup (map c_id l) -> In id (map c_id l) ->
  Permutation (id :: map c_id (remove_id id l)) (map c_id l).
Proof.
  induction l as [|c l IH]; intros ND HI; [destruct HI|]. cbn in *. inversion ND as [|? ? H1 H2]; subst.
  destruct (Z.eqb_spec (c_id c) id) as [E|E]; cbn [negb].
  - rewrite E. constructor. clear - H1 E.
    assert (H : remove_id id l = l).
    { unfold remove_id. rewrite E in H1. clear E. induction l as [|d l IH]; [reflexivity|].
      cbn [filter]. destruct (Z.eqb_spec (c_id d) id) as [Q|Q]; cbn [negb].
      - exfalso. apply H1. left. auto.
      - f_equal. apply IH. intros X. apply H1. right. auto. }
    fold (remove_id id l). rewrite H. reflexivity.
  - cbn [map]. rewrite perm_swap. constructor. apply IH; [auto|]. destruct HI as [HI|HI]; [congruence|auto].
Qed.
Lemma register_ids start l id len off l' : NoDup (map c_id l) -> register start l id len off = Some l' ->
  NoDup (map c_id l') /\ (forall x, In x (map c_id l') <-> x = id \/ In x (map c_id l)).
Proof.
  intros ND H.
  assert (P : Permutation (map c_id l') (map c_id l) /\ In id (map c_id l) \/
              Permutation (map c_id l') (id :: map c_id l) /\ ~ In id (map c_id l)).
  { unfold register in H. destruct (find_by_id l id) as [c|] eqn:F.
    - left. apply find_some in F. destruct F as (F1 & F2). cbv beta in F2.
      assert (HI : In id (map c_id l)) by (apply in_map_iff; exists c; split; [lia|auto]).
      split; [|auto]. cbn [c_len c_off] in H. destruct (_ =? 0) in H; [discriminate|]. injection H as <-.
      rewrite <- (@remove_ids id l ND HI).
      destruct (_ =? 0); [apply add_cap_ids|apply add_at_ids].
    - right. split; [|apply find_none_id; auto]. cbn [c_len c_off] in H.
      destruct (_ =? 0) in H; [discriminate|]. injection H as <-.
      destruct (_ =? 0); [apply add_cap_ids|apply add_at_ids]. }
  destruct P as [(P & HI)|(P & HI)].
  - split; [eapply Permutation_NoDup; [symmetry; exact P|auto]|]. intros x. split.
    + intros HX. right. eapply Permutation_in; eauto.
    + intros [->|HX]; (eapply Permutation_in; [symmetry; exact P|auto]).
  - split; [eapply Permutation_NoDup; [symmetry; exact P|constructor; auto]|]. intros x. split.
    + intros HX. apply (Permutation_in _ P) in HX. destruct HX as [<-|HX]; auto.
    + intros HX. apply (Permutation_in _ (Permutation_sym P)). destruct HX as [->|HX]; [left|right]; auto.
Qed.
Lemma register_all_ids start : forall rs l l', NoDup (map c_id l) -> register_all start l rs = Some l' ->
  NoDup (map c_id l') /\ (forall x, In x (map c_id l') <-> In x (map (fun r => fst (fst r)) rs) \/ In x (map c_id l)).
Proof.
  induction rs as [|[[id len] off] rs IH]; intros l l' ND H; cbn in H.
  - injection H as <-. split; [auto|]. cbn. tauto.
  - destruct (register start l id len off) as [l1|] eqn:E; [|discriminate].
    destruct (@register_ids start l id len off l1 ND E) as (N1 & I1). destruct (IH l1 l' N1 H) as (N2 & I2).
    split; [auto|]. intros x. rewrite I2, I1. cbn [map fst In]. intuition.
Qed.

(** * Overlap *)
Definition clash (a b : cap) : Prop := exists reg, has_reg a reg /\ has_reg b reg.
Definition pw (l : list (Z * Z * Z)) : Prop :=
  ForallOrdPairs (fun a b => let '(_, la, oa) := a in let '(_, lb, ob) := b in
     forall reg, oa <= reg < oa + la -> ob <= reg < ob + lb -> False) l.
Lemma pw_disjoint l : pw (map place_of l) <-> disjoint l.
Proof.
  split.
  - intros P. assert (H : forall i j a b reg, (i < j)%nat -> nth_error l i = Some a -> nth_error l j = Some b ->
      has_reg a reg -> has_reg b reg -> False).
    { induction l as [|c l IH]; intros i j a b reg Hij Ha Hb; [destruct i; discriminate|].
      inversion P as [|? ? P1 P2]; subst. destruct i as [|i], j as [|j]; try lia; cbn in Ha, Hb.
      - injection Ha as <-. rewrite Forall_forall in P1. intros X Y.
        eapply (P1 (place_of b)); [apply in_map; eapply nth_error_In; eauto|exact X|exact Y].
      - eapply (IH P2 i j); eauto. lia. }
    intros i j a b reg Hij Ha Hb X Y. destruct (Nat.lt_trichotomy i j) as [Q|[Q|Q]]; [|lia|]; eapply H; eauto.
  - intros D. induction l as [|c l IH]; cbn [map]; constructor.
    + apply Forall_forall. intros p Hp. apply in_map_iff in Hp. destruct Hp as (b & <- & Hb).
      apply In_nth_error in Hb. destruct Hb as (j & Hb). cbn. intros reg X Y.
      eapply (D 0%nat (S j) c b reg); eauto.
    + apply IH. intros i j a b reg Hij Ha Hb. eapply (D (S i) (S j)); eauto.
Qed.
Lemma pw_perm l l' : Permutation l l' -> pw l -> pw l'.
Proof.
  induction 1 as [|x l l' P IH|x y l|l l1 l2 P1 IH1 P2 IH2]; intros H; auto.
  - inversion H as [|? ? H1 H2]; subst. constructor; [|apply IH; auto].
    rewrite Forall_forall in *. intros z Hz. apply H1. eapply Permutation_in; [symmetry; exact P|auto].
  - inversion H as [|? ? H1 H2]; subst. inversion H2 as [|? ? H3 H4]; subst.
    inversion H1 as [|? ? H5 H6]; subst. constructor; [|constructor; auto]. constructor; [|auto].
    destruct x as [[? ?] ?], y as [[? ?] ?]. intros reg X Y. eapply H5; eauto.
Qed.

(** Automatic placement keeps clear of every capability but possibly in its last register. *)
Lemma place_clear start len : 1 <= len -> forall l2 l1 o,
  StronglySorted leo (l1 ++ l2) -> disjoint (l1 ++ l2) -> Forall (fun c => 1 <= c_len c) (l1 ++ l2) ->
  Forall (fun c => c_off c + c_len c <= o \/ o + len - 1 <= c_off c) l1 -> start <= o ->
  let o' := fold_left (fun o c => if (c_off c <? o + len - 1) && (o <=? c_off c + c_len c - 1)
                        then c_off c + c_len c else o) l2 o in
  start <= o' /\ Forall (fun c => c_off c + c_len c <= o' \/ o' + len - 1 <= c_off c) (l1 ++ l2).
Proof.
  intros Hl. induction l2 as [|c l2 IH]; intros l1 o S D P F Ho; cbn [fold_left]; cbv zeta.
  - rewrite app_nil_r. auto.
  - replace (l1 ++ c :: l2) with ((l1 ++ [c]) ++ l2) in * by (rewrite <- app_assoc; reflexivity).
    assert (PC : 1 <= c_len c).
    { rewrite Forall_forall in P. apply P. apply in_or_app. left. apply in_or_app. right. left. auto. }
    apply IH; auto.
    + apply Forall_app. split.
      * destruct ((c_off c <? o + len - 1) && (o <=? c_off c + c_len c - 1))%bool eqn:E; [|auto].
        rewrite Forall_forall in *. intros x Hx. left. specialize (F x Hx).
        destruct F as [F|F]; [lia|].
        (* x comes before c and does not overlap it *)
        apply In_nth_error in Hx. destruct Hx as (i & Hx).
        assert (Hi : (i < length l1)%nat) by (apply nth_error_Some; congruence).
        assert (N1 : nth_error ((l1 ++ [c]) ++ l2) i = Some x) by (rewrite !nth_error_app1; auto; rewrite app_length; cbn; lia).
        assert (N2 : nth_error ((l1 ++ [c]) ++ l2) (length l1) = Some c).
        { rewrite nth_error_app1 by (rewrite app_length; cbn; lia). rewrite nth_error_app2, Nat.sub_diag by lia. reflexivity. }
        assert (LE : c_off x <= c_off c) by (apply (ss_sorted S) with i (length l1); auto).
        assert (PX : 1 <= c_len x).
        { apply P. eapply nth_error_In; eauto. }
        destruct (Z.leb_spec (c_off x + c_len x) (c_off c)) as [Q|Q]; [lia|exfalso].
        apply (D i (length l1) x c (c_off c)); auto; [lia| |]; unfold has_reg; lia.
      * constructor; [|constructor].
        destruct ((c_off c <? o + len - 1) && (o <=? c_off c + c_len c - 1))%bool eqn:E; lia.
    + destruct ((c_off c <? o + len - 1) && (o <=? c_off c + c_len c - 1))%bool eqn:E; [|auto]. lia.
Qed.

Lemma sorted_ss l : sorted l -> StronglySorted leo l.
Proof.
  induction l as [|c l IH]; intros H; constructor.
  - apply IH. intros i j a b Hij Ha Hb. apply (H (S i) (S j)); auto. lia.
  - apply Forall_forall. intros x Hx. apply In_nth_error in Hx. destruct Hx as (j & Hx).
    apply (H 0%nat (S j)); auto. lia.
Qed.

Lemma auto_register start l id len l' : sorted l -> disjoint l -> Forall (fun c => 1 <= c_len c) l ->
  1 <= len -> ~ In id (map c_id l) -> register start l id len 0 = Some l' ->
  exists o, start <= o /\ Permutation (map place_of l') ((id, len, o) :: map place_of l) /\
    (forall c, In c l -> forall reg, has_reg c reg -> o <= reg < o + len -> reg = o + len - 1 /\ reg = c_off c) /\
    ((forall c, In c l -> c_off c <> o + len - 1) -> disjoint l').
Proof.
  intros S D P Hl NI H. unfold register in H.
  destruct (find_by_id l id) as [c|] eqn:F.
  { exfalso. apply find_some in F. destruct F as (F1 & F2). cbv beta in F2. apply NI, in_map_iff.
    exists c. split; [lia|auto]. }
  cbn [c_len c_off] in H. replace (len =? 0) with false in H by lia. cbn [Z.eqb] in H. injection H as <-.
  unfold add_auto. cbn [c_len c_id c_next]. set (o := place start l len).
  destruct (@place_clear start len Hl l [] start (sorted_ss S) D P ltac:(constructor) ltac:(lia)) as (A & B).
  fold (place start l len) in A, B. fold o in A, B. cbn [app] in B.
  exists o. split; [exact A|]. split; [apply add_cap_perm|].
  assert (X : forall c, In c l -> forall reg, has_reg c reg -> o <= reg < o + len -> reg = o + len - 1 /\ reg = c_off c).
  { intros c Hc reg Hr Ho. rewrite Forall_forall in B. specialize (B c Hc). unfold has_reg in Hr. lia. }
  split; [exact X|]. intros N. apply pw_disjoint. eapply pw_perm; [symmetry; apply add_cap_perm|].
  constructor; [|apply pw_disjoint; auto]. apply Forall_forall. intros p Hp. apply in_map_iff in Hp.
  destruct Hp as (c & <- & Hc). cbn. intros reg R1 R2.
  destruct (X c Hc reg R2 R1) as (Y & Z). apply (N c Hc). lia.
Qed.

Lemma filter_none {A} (f : A -> bool) l : (forall x, In x l -> f x = false) -> filter f l = [].
Proof.
  induction l as [|x l IH]; intros H; [reflexivity|]. cbn. rewrite (H x (or_introl eq_refl)).
  apply IH. intros y Hy. apply H. right. auto.
Qed.
Lemma filter_all {A} (f : A -> bool) l : (forall x, In x l -> f x = true) -> filter f l = l.
Proof.
  induction l as [|x l IH]; intros H; [reflexivity|]. cbn. rewrite (H x (or_introl eq_refl)).
  f_equal. apply IH. intros y Hy. apply H. right. auto.
Qed.

Lemma explicit_register start l id len off : disjoint l -> Forall (fun c => 1 <= c_len c) l ->
  1 <= len -> off <> 0 -> ~ In id (map c_id l) ->
  (forall c reg, In c l -> has_reg c reg -> off <= reg < off + len -> False) ->
  exists l', register start l id len off = Some l' /\ disjoint l' /\
    Permutation (map place_of l') ((id, len, off) :: map place_of l).
Proof.
  intros D P Hl Ho NI HN. unfold register.
  destruct (find_by_id l id) as [c|] eqn:F.
  { exfalso. apply find_some in F. destruct F as (F1 & F2). cbv beta in F2. apply NI, in_map_iff.
    exists c. split; [lia|auto]. }
  cbn [c_len c_off]. replace (len =? 0) with false by lia. replace (off =? 0) with false by lia.
  assert (NO : forall c, In c l -> overlaps off len c = false).
  { intros c Hc. destruct (overlaps off len c) eqn:E; [|auto]. unfold overlaps in E. exfalso.
    rewrite Forall_forall in P. specialize (P c Hc).
    apply (HN c (Z.max off (c_off c)) Hc); unfold has_reg; lia. }
  unfold add_at. cbn [c_off c_len]. rewrite (filter_none (overlaps off len) l NO).
  rewrite (filter_all _ l) by (intros c Hc; rewrite NO; auto).
  cbn [fold_left]. eexists. split; [reflexivity|]. split; [|apply add_cap_perm].
  apply pw_disjoint. eapply pw_perm; [symmetry; apply add_cap_perm|].
  constructor; [|apply pw_disjoint; auto]. apply Forall_forall. intros p Hp. apply in_map_iff in Hp.
  destruct Hp as (c & <- & Hc). cbn. intros reg R1 R2. eapply HN; eauto.
Qed.

(** Registering again, or over others: the new place is always the requested one. *)
Lemma adds_keep start x : forall bs l, In x (map place_of l) -> In x (map place_of (fold_left (add_auto start) bs l)).
Proof.
  induction bs as [|b bs IH]; intros l H; [exact H|]. cbn [fold_left]. apply IH. unfold add_auto.
  eapply Permutation_in; [symmetry; apply add_cap_perm|]. right. auto.
Qed.
Lemma register_takes_place start l id len off l' : len <> 0 -> off <> 0 ->
  register start l id len off = Some l' -> In (id, len, off) (map place_of l').
Proof.
  intros Hl Ho H. unfold register in H.
  replace (len =? 0) with false in H by lia. replace (off =? 0) with false in H by lia.
  destruct (find_by_id l id) as [c|]; cbn [c_len c_off] in H;
    replace (len =? 0) with false in H by lia; replace (off =? 0) with false in H by lia;
    injection H as <-; apply adds_keep; (eapply Permutation_in; [symmetry; apply add_cap_perm|]); left; reflexivity.
Qed.

Lemma find_unique l c : NoDup (map c_id l) -> In c l -> find_by_id l (c_id c) = Some c.
Proof.
  unfold find_by_id. induction l as [|d l IH]; intros H Hin; [destruct Hin|].
  cbn [map] in H. inversion H as [|? ? H1 H2]; subst. cbn [find].
  destruct Hin as [->|Hin]; [rewrite Z.eqb_refl; reflexivity|].
  destruct (Z.eqb_spec (c_id d) (c_id c)) as [E|E]; auto.
  exfalso. apply H1. rewrite E. apply in_map. exact Hin.
Qed.

Lemma register_again start l c len off : NoDup (map c_id l) -> In c l -> c_len c <> 0 -> c_off c <> 0 ->
  exists l', register start l (c_id c) len off = Some l' /\
    In (c_id c, (if len =? 0 then c_len c else len), (if off =? 0 then c_off c else off)) (map place_of l').
Proof.
  intros Hn Hin Hl Ho. unfold register. rewrite (find_unique _ _ Hn Hin). cbn [c_len c_off].
  assert (E1 : ((if len =? 0 then c_len c else len) =? 0) = false) by (destruct (Z.eqb_spec len 0); lia).
  assert (E2 : ((if off =? 0 then c_off c else off) =? 0) = false) by (destruct (Z.eqb_spec off 0); lia).
  rewrite E1, E2. eexists. split; [reflexivity|].
  apply adds_keep; (eapply Permutation_in; [symmetry; apply add_cap_perm|]); left; reflexivity.
Qed.

(** Only automatic placements of at least two registers: back to back. *)
Lemma place_packed len : 2 <= len -> forall ls start l, map place_of l = packed start ls ->
  Forall (fun p => 1 <= snd p) ls ->
  place start l len = start + fold_right Z.add 0 (map snd ls).
Proof.
  intros Hl. induction ls as [|[id n] ls IH]; intros start l E P; cbn [packed map] in E.
  - destruct l; [|discriminate]. cbn. lia.
  - destruct l as [|c l]; [discriminate|]. cbn [map] in E. unfold place_of at 1 in E. injection E as E1 E2 E3 E4.
    inversion P as [|? ? P1 P2]; subst id n. cbn [snd] in P1.
    unfold place. cbn [fold_left]. rewrite E3.
    replace ((start <? start + len - 1) && (start <=? start + c_len c - 1))%bool with true by lia.
    change (place (start + c_len c) l len = start + fold_right Z.add 0 (map snd ((c_id c, c_len c) :: ls))).
    rewrite (IH (start + c_len c)) by auto. cbn [map snd fold_right]. lia.
Qed.
Lemma packed_app a b : forall o, packed o (a ++ b) = packed o a ++ packed (o + fold_right Z.add 0 (map snd a)) b.
Proof.
  induction a as [|[id n] a IH]; intros o; cbn [app packed map fold_right snd].
  - rewrite Z.add_0_r. reflexivity.
  - rewrite IH. rewrite Z.add_assoc. reflexivity.
Qed.
Lemma packed_bound ls : forall o p, Forall (fun p => 1 <= snd p) ls -> In p (packed o ls) ->
  o <= snd p /\ snd p + snd (fst p) <= o + fold_right Z.add 0 (map snd ls).
Proof.
  induction ls as [|[id n] ls IH]; intros o p P H; cbn [packed] in H; [destruct H|].
  inversion P as [|? ? P1 P2]; subst. cbn [snd] in P1. cbn [map fold_right snd].
  assert (NN : 0 <= fold_right Z.add 0 (map snd ls)).
  { clear - P2. induction P2 as [|x l H H' IH]; cbn; lia. }
  destruct H as [<-|H]; [cbn; lia|]. specialize (IH _ _ P2 H). lia.
Qed.
Lemma pw_packed ls : forall o, Forall (fun p => 1 <= snd p) ls -> pw (packed o ls).
Proof.
  induction ls as [|[id n] ls IH]; intros o P; cbn [packed]; constructor.
  - inversion P as [|? ? P1 P2]; subst. apply Forall_forall. intros p Hp.
    destruct (packed_bound _ _ P2 Hp). destruct p as [[? ?] ?]. cbn in *. intros; lia.
  - inversion P; subst. apply IH. auto.
Qed.

Lemma ss_map_place l l' : map place_of l = map place_of l' -> StronglySorted leo l -> StronglySorted leo l'.
Proof. intros E S. apply sorted_ss. eapply sorted_place; eauto. apply ss_sorted. auto. Qed.

Lemma ins_last c l : Forall (fun d => c_off d < c_off c) l -> ins c l = l ++ [c].
Proof.
  induction 1 as [|d l H H' IH]; cbn; [reflexivity|]. replace (c_off c <=? c_off d) with false by lia. f_equal. auto.
Qed.
Lemma sort_id l : StronglySorted leo l -> sort_caps l = l.
Proof.
  induction 1 as [|c l S IH H]; [reflexivity|]. change (ins c (sort_caps l) = c :: l). rewrite IH. destruct l as [|d l]; [reflexivity|].
  cbn. inversion H as [|? ? H1 H2]; subst. unfold leo in H1. replace (c_off c <=? c_off d) with true by lia. reflexivity.
Qed.

Lemma auto_packed start : forall ls done l,
  map place_of l = packed start done -> sorted l -> Forall (fun p => 1 <= snd p) done ->
  Forall (fun p => 2 <= snd p) ls -> NoDup (map fst (done ++ ls)) ->
  exists l', register_all start l (map (fun p => (fst p, snd p, 0)) ls) = Some l' /\
    map place_of l' = packed start (done ++ ls).
Proof.
  induction ls as [|[id len] ls IH]; intros done l E S P1 P2 ND; cbn [map register_all fst snd].
  - exists l. rewrite app_nil_r. auto.
  - inversion P2 as [|? ? Q1 Q2]; subst. cbn [snd] in Q1.
    assert (NI : ~ In id (map c_id l)).
    { rewrite ids_place, E. rewrite map_app in ND. cbn in ND. apply NoDup_remove_2 in ND.
      intros HI. apply ND. apply in_or_app. left. clear - HI. revert start HI.
      induction done as [|[i n] d IH]; intros o HI; cbn in *; [destruct HI|]. destruct HI as [HI|HI]; [left; auto|right; eauto]. }
    unfold register at 1.
    destruct (find_by_id l id) as [c|] eqn:F.
    { exfalso. apply find_some in F. destruct F as (F1 & F2). cbv beta in F2. apply NI, in_map_iff.
      exists c. split; [lia|auto]. }
    cbn [c_len c_off]. replace (len =? 0) with false by lia. cbn [Z.eqb].
    assert (PL : place start l len = start + fold_right Z.add 0 (map snd done)) by (apply place_packed; auto).
    assert (SS : StronglySorted leo (l ++ [mkCap id len (place start l len) None])).
    { assert (HH : forall c, In c l -> c_off c <= place start l len).
      { intros c Hc. rewrite PL. apply (in_map place_of) in Hc. rewrite E in Hc.
        destruct (packed_bound _ _ P1 Hc) as (A & B). cbn in A, B.
        assert (0 <= c_len c); [|lia]. clear - Hc P1. revert Hc. generalize start.
        induction done as [|[i n] d IH]; intros o Hc; cbn in Hc; [destruct Hc|]. inversion P1; subst. cbn in *.
        destruct Hc as [Hc|Hc]; [unfold place_of in Hc; injection Hc as _ <- _; lia|eapply IH; eauto]. }
      pose proof (sorted_ss S) as SL. generalize dependent (place start l len). intros o _ HH. clear - HH SL. induction SL as [|c l SL IH HF]; cbn; [repeat constructor|].
      constructor; [apply IH; intros x Hx; apply HH; right; auto|].
      apply Forall_app. split; [auto|]. constructor; [|constructor]. unfold leo. cbn. apply HH. left. auto. }
    assert (E' : map place_of (add_auto start l (mkCap id len 0 None)) = packed start (done ++ [(id, len)])).
    { unfold add_auto, add_cap. cbn [c_len c_id c_next]. rewrite relink_place, sort_id by auto.
      rewrite map_app, E, packed_app. cbn. rewrite PL. reflexivity. }
    destruct (IH (done ++ [(id, len)]) (add_auto start l (mkCap id len 0 None)) E') as (l' & R & PP).
    + apply add_cap_good.
    + apply Forall_app. split; [auto|]. constructor; [cbn; lia|constructor].
    + auto.
    + rewrite <- app_assoc. exact ND.
    + exists l'. split; [exact R|]. rewrite <- app_assoc in PP. exact PP.
Qed.

Lemma find_reg_spec l reg : disjoint l -> forall c, In c l -> has_reg c reg -> find_by_reg l reg = Some c.
Proof.
  intros D c HI HR. unfold find_by_reg.
  destruct (find (fun c => (c_off c <=? reg) && (reg <? c_off c + c_len c)) l) as [d|] eqn:E.
  - apply find_some in E. destruct E as (E1 & E2). cbv beta in E2.
    apply In_nth_error in HI. destruct HI as (i & Hi). apply In_nth_error in E1. destruct E1 as (j & Hj).
    destruct (Nat.eq_dec i j) as [->|N]; [congruence|]. exfalso. eapply (D i j c d reg); eauto. unfold has_reg. lia.
  - pose proof (find_none _ _ E _ HI) as X. cbv beta in X. unfold has_reg in HR. lia.
Qed.
