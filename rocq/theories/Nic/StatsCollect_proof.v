(** Proofs about the statistics collector. *)
From Verif Require Import Base.Prelude Nic.StatsCollect_model Nic.StatsCollect_spec.
Local Open Scope Z_scope.

Definition outs (s : slst) : slout := mkSlOut (l_tvalid s) (l_tid s) (l_tdata s).
Definition nxt (c : slcfg) (s : slst) (x : bool * slin) : slst := fst (sl_step c s x).
Definition stf (c : slcfg) (s : slst) (xs : list (bool * slin)) : slst := fst (trace (sl_step c) s xs).
Definition obs (c : slcfg) (s : slst) (xs : list (bool * slin)) : list lcycle := combine xs (snd (trace (sl_step c) s xs)).

Lemma step_out c s x : sl_step c s x = (nxt c s x, outs s).
Proof. destruct x as [rst i]. reflexivity. Qed.

Lemma stf_cons c s x xs : stf c s (x :: xs) = stf c (nxt c s x) xs.
Proof. unfold stf. cbn [trace]. rewrite step_out. destruct (trace (sl_step c) (nxt c s x) xs). reflexivity. Qed.
Lemma obs_cons c s x xs : obs c s (x :: xs) = (x, outs s) :: obs c (nxt c s x) xs.
Proof. unfold obs. cbn [trace]. rewrite step_out. destruct (trace (sl_step c) (nxt c s x) xs). reflexivity. Qed.
Lemma stf_app c a : forall s b, stf c s (a ++ b) = stf c (stf c s a) b.
Proof. induction a as [|x a IH]; intros; cbn [app]; auto. now rewrite !stf_cons, IH. Qed.
Lemma obs_app c a : forall s b, obs c s (a ++ b) = obs c s a ++ obs c (stf c s a) b.
Proof. induction a as [|x a IH]; intros; cbn [app]; auto. now rewrite stf_cons, !obs_cons, IH. Qed.
Lemma obs_fst c xs : forall s, map fst (obs c s xs) = xs.
Proof. induction xs as [|x xs IH]; intro s; auto. rewrite obs_cons. cbn [map fst]. now rewrite IH. Qed.
Lemma obs_length c s xs : length (obs c s xs) = length xs.
Proof. rewrite <- (obs_fst c xs s) at 2. now rewrite map_length. Qed.

Lemma obs_split c h : forall s xs t, obs c s xs = h ++ t ->
  exists a b, xs = a ++ b /\ h = obs c s a /\ t = obs c (stf c s a) b.
Proof.
  induction h as [|y h IH]; intros s xs t E.
  - exists [], xs. splits; auto.
  - destruct xs as [|x xs]; [discriminate|]. rewrite obs_cons in E. cbn [app] in E. injection E as <- E.
    destruct (IH _ _ _ E) as (a & b & -> & -> & ->). exists (x :: a), b. rewrite stf_cons, obs_cons. auto.
Qed.

(** * Histories *)
Lemma live_snoc h (x : lcycle) : live (h ++ [x]) = if fst (fst x) then [] else live h ++ [x].
Proof. unfold live. rewrite fold_left_app. reflexivity. Qed.
Lemma live_app h w : Forall (fun x : lcycle => fst (fst x) = false) w -> live (h ++ w) = live h ++ w.
Proof.
  revert h. induction w as [|x w IH]; intros h F; [now rewrite !app_nil_r|]. inversion F; subst.
  replace (h ++ x :: w) with ((h ++ [x]) ++ w) by (now rewrite <- app_assoc). rewrite IH by auto. rewrite live_snoc.
  match goal with H : fst (fst x) = false |- _ => rewrite H end. now rewrite <- app_assoc.
Qed.

Definition inc1 (n : nat) (x : bool * slin) : Z := match li_inc (snd x) n with Some v => v | None => 0 end.
Definition dlv1 (n : nat) (x : lcycle) : Z :=
  let '(_, i, o) := x in if lo_tvalid o && li_tready i && Nat.eqb (lo_tid o) n then lo_tdata o else 0.
Definition rep1 (n : nat) (x : lcycle) : Z :=
  let '(_, i, o) := x in if lo_tvalid o && li_tready i && Nat.eqb (lo_tid o) n then 1 else 0.

Lemma fold_sum (f : lcycle -> Z) l : forall a, fold_left (fun acc x => acc + f x) l a = a + fold_left (fun acc x => acc + f x) l 0.
Proof. induction l as [|x l IH]; intro a; cbn [fold_left]; [lia|]. rewrite IH, (IH (0 + f x)). lia. Qed.
Lemma fold_ext (f g : Z -> lcycle -> Z) l : (forall a x, f a x = g a x) -> forall a, fold_left f l a = fold_left g l a.
Proof. intro H. induction l as [|x l IH]; intro a; cbn [fold_left]; auto. rewrite H. apply IH. Qed.

Lemma received_sum n l : received n l = fold_left (fun acc x => acc + (fun x : lcycle => inc1 n (fst x)) x) l 0.
Proof. unfold received. apply fold_ext. intros ? [[? ?] ?]. reflexivity. Qed.
Lemma received_app n a b : received n (a ++ b) = received n a + received n b.
Proof. rewrite !received_sum, fold_left_app. apply fold_sum. Qed.
Lemma delivered_sum n l : delivered n l = fold_left (fun acc x => acc + (dlv1 n) x) l 0.
Proof. unfold delivered. apply fold_ext. intros ? [[? ?] ?]. reflexivity. Qed.
Lemma delivered_app n a b : delivered n (a ++ b) = delivered n a + delivered n b.
Proof. rewrite !delivered_sum, fold_left_app. apply fold_sum. Qed.
Lemma reports_sum n l : reports n l = fold_left (fun acc x => acc + (rep1 n) x) l 0.
Proof. unfold reports. apply fold_ext. intros ? [[? ?] ?]. reflexivity. Qed.
Lemma reports_app n a b : reports n (a ++ b) = reports n a + reports n b.
Proof. rewrite !reports_sum, fold_left_app. apply fold_sum. Qed.
Lemma received_one n x o : received n [(x, o)] = inc1 n x.
Proof. rewrite received_sum. cbn [fold_left fst]. lia. Qed.
Lemma delivered_one n x : delivered n [x] = dlv1 n x.
Proof. rewrite delivered_sum. cbn [fold_left]. lia. Qed.
Lemma reports_one n x : reports n [x] = rep1 n x.
Proof. rewrite reports_sum. cbn [fold_left]. lia. Qed.

Lemma received_cons n x l : received n (x :: l) = inc1 n (fst x) + received n l.
Proof. change (x :: l) with ([x] ++ l). rewrite received_app. destruct x as [x o]. now rewrite received_one. Qed.

(** * The invariant *)
Definition pos (s : slst) : Z := 2 * Z.of_nat (l_count s) + (if l_write s then 1 else 0).
Definition age (c : slcfg) (s : slst) (n : nat) : Z :=
  let k := 2 * Z.of_nat (sl_k c) in let v := 2 * Z.of_nat n + 1 in
  if pos s <=? v then pos s + k - v else pos s - v.
Definition out_of (s : slst) (n : nat) : Z := if l_tvalid s && Nat.eqb (l_tid s) n then l_tdata s else 0.
Definition kept (s : slst) (n : nat) : Z := if l_zero s n then 0 else l_mem s n.
Definition holds (s : slst) (n : nat) : Z := l_acc s n + kept s n + out_of s n.

Record Inv (c : slcfg) (s : slst) : Prop := {
  i_count : (l_count s < sl_k c)%nat;
  i_acc : forall n, (n < sl_k c)%nat -> 0 <= l_acc s n <= age c s n * (2 ^ sl_iw c - 1);
  i_rd : l_write s = true -> l_rd s = l_mem s (l_count s);
  i_mem : forall n, (n < sl_k c)%nat -> l_zero s n = false -> 0 <= l_mem s n < 2 ^ sl_sw c;
  i_out : l_tvalid s = true -> 0 <= l_tdata s < 2 ^ sl_sw c;
  i_per : 0 <= l_period s < sl_up c }.

Definition inc_ok (c : slcfg) (x : bool * slin) : Prop := forall n v, li_inc (snd x) n = Some v -> 0 <= v < 2 ^ sl_iw c.

Lemma load_range c : cfg_ok c -> 0 <= period_load c < sl_up c.
Proof.
  intros (_ & _ & _ & U). unfold period_load. pose proof (Z.pow_pos_nonneg 2 (period_width c) ltac:(lia) (Z.log2_up_nonneg _)) as P.
  pose proof (Z.mod_pos_bound (sl_up c - 1) _ P). pose proof (Z.mod_le (sl_up c - 1) _ ltac:(lia) P). lia.
Qed.

Lemma age_range c s n : (l_count s < sl_k c)%nat -> (n < sl_k c)%nat -> 1 <= age c s n <= 2 * Z.of_nat (sl_k c).
Proof. intros A B. unfold age, pos. destruct (l_write s); destruct (Z.leb_spec (2 * Z.of_nat (l_count s) + 1) (2 * Z.of_nat n + 1)), (Z.leb_spec (2 * Z.of_nat (l_count s) + 0) (2 * Z.of_nat n + 1)); lia. Qed.

Lemma inc1_range c x n : cfg_ok c -> inc_ok c x -> 0 <= inc1 n x <= 2 ^ sl_iw c - 1.
Proof.
  intros (_ & I & _) H. unfold inc1. destruct (li_inc (snd x) n) as [v|] eqn:E; [specialize (H _ _ E); lia|].
  pose proof (Z.pow_pos_nonneg 2 (sl_iw c)). lia.
Qed.

Lemma acc_room c s n v : cfg_ok c -> (l_count s < sl_k c)%nat -> (n < sl_k c)%nat -> age c s n < 2 * Z.of_nat (sl_k c) ->
  0 <= l_acc s n <= age c s n * (2 ^ sl_iw c - 1) -> 0 <= v <= 2 ^ sl_iw c - 1 -> 0 <= l_acc s n + v < 2 ^ acc_width c.
Proof.
  intros (K & I & _) A B G H V. split; [lia|]. unfold acc_width.
  rewrite !Z.pow_add_r by (pose proof (Z.log2_up_nonneg (Z.of_nat (sl_k c))); lia).
  assert (L : Z.of_nat (sl_k c) <= 2 ^ Z.log2_up (Z.of_nat (sl_k c))) by (apply Z.log2_up_spec; lia).
  pose proof (Z.pow_pos_nonneg 2 (sl_iw c) ltac:(lia) ltac:(lia)) as P.
  remember (2 ^ sl_iw c) as M. remember (2 ^ Z.log2_up (Z.of_nat (sl_k c))) as Q. change (2 ^ 1) with 2.
  assert (l_acc s n + v <= (age c s n + 1) * (M - 1)) by nia.
  assert ((age c s n + 1) * (M - 1) <= (2 * Q) * (M - 1)) by (apply Z.mul_le_mono_nonneg_r; lia). nia.
Qed.

Lemma inv_init c mem0 : cfg_ok c -> Inv c (sl_init c mem0).
Proof.
  intro C. pose proof C as (K & I & W & U). constructor; try (cbn; discriminate).
  - cbn. lia.
  - intros n Hn. pose proof (@age_range c (sl_init c mem0) n ltac:(cbn; lia) Hn). pose proof (Z.pow_pos_nonneg 2 (sl_iw c)). cbn [sl_init l_acc]. nia.
  - now apply load_range.
Qed.

Definition sum_of (c : slcfg) (s : slst) : Z :=
  if l_zero s (l_count s) then l_acc s (l_count s) mod 2 ^ sl_sw c else (l_rd s + l_acc s (l_count s)) mod 2 ^ sl_sw c.
Definition some_of (s : slst) : bool :=
  if l_zero s (l_count s) then negb (l_acc s (l_count s) =? 0) else negb (l_rd s =? 0) || negb (l_acc s (l_count s) =? 0).
Definition rep_of (s : slst) : bool := l_write s && negb (l_tvalid s) && l_upd s (l_count s).

Lemma sum_range c s : cfg_ok c -> 0 <= sum_of c s < 2 ^ sl_sw c.
Proof. intros (_ & _ & W & _). pose proof (Z.pow_pos_nonneg 2 (sl_sw c) ltac:(lia) ltac:(lia)). unfold sum_of. destruct (l_zero s (l_count s)); apply Z.mod_pos_bound; lia. Qed.

(** The fields after a clock without reset. *)
Lemma nxt_acc c s i m : l_acc (nxt c s (false, i)) m = acc_next c false (l_write s && Nat.eqb m (l_count s)) (l_acc s m) (li_inc i m).
Proof. reflexivity. Qed.
Lemma nxt_tvalid c s i : l_tvalid (nxt c s (false, i)) = if rep_of s then some_of s else l_tvalid s && negb (li_tready i).
Proof. reflexivity. Qed.
Lemma nxt_tid c s i : l_tid (nxt c s (false, i)) = if rep_of s then l_count s else l_tid s.
Proof. reflexivity. Qed.
Lemma nxt_tdata c s i : l_tdata (nxt c s (false, i)) = if rep_of s then sum_of c s else l_tdata s.
Proof. reflexivity. Qed.

Lemma age_next c s i n : (l_count s < sl_k c)%nat -> (n < sl_k c)%nat ->
  age c (nxt c s (false, i)) n = if l_write s && Nat.eqb n (l_count s) then 1 else age c s n + 1.
Proof.
  intros A B. unfold age, pos. cbn [nxt sl_step fst l_write l_count].
  destruct (l_write s); cbn [negb andb].
  - destruct (Nat.eqb_spec (l_count s) (sl_k c - 1)) as [E|E], (Nat.eqb_spec n (l_count s)) as [F|F]; cbn [andb];
      repeat match goal with |- context [?a <=? ?b] => destruct (Z.leb_spec a b) end; lia.
  - repeat match goal with |- context [?a <=? ?b] => destruct (Z.leb_spec a b) end; lia.
Qed.

Lemma age_max c s n : (l_count s < sl_k c)%nat -> (n < sl_k c)%nat -> l_write s && Nat.eqb n (l_count s) = false -> age c s n < 2 * Z.of_nat (sl_k c).
Proof.
  intros A B. unfold age, pos. destruct (l_write s); cbn [andb].
  - intro E. apply Nat.eqb_neq in E. destruct (Z.leb_spec (2 * Z.of_nat (l_count s) + 1) (2 * Z.of_nat n + 1)); lia.
  - intros _. destruct (Z.leb_spec (2 * Z.of_nat (l_count s) + 0) (2 * Z.of_nat n + 1)); lia.
Qed.

Lemma acc_exact c s i n : cfg_ok c -> Inv c s -> inc_ok c (false, i) -> (n < sl_k c)%nat ->
  l_acc (nxt c s (false, i)) n = (if l_write s && Nat.eqb n (l_count s) then 0 else l_acc s n) + inc1 n (false, i).
Proof.
  intros C V W Hn. rewrite nxt_acc. unfold acc_next. pose proof (inc1_range n C W) as R. unfold inc1 in *. cbn [snd] in *.
  destruct (l_write s && Nat.eqb n (l_count s)) eqn:E.
  - destruct (li_inc i n); lia.
  - destruct (li_inc i n) as [v|]; [|lia]. rewrite Z.mod_small; auto.
    apply acc_room; auto; try apply V; auto. apply age_max; auto. apply V.
Qed.

Lemma inv_step c s x : cfg_ok c -> Inv c s -> inc_ok c x -> Inv c (nxt c s x).
Proof.
  intros C V W. destruct x as [rst i]. pose proof C as (K & I & SW & U). pose proof (Z.pow_pos_nonneg 2 (sl_iw c) ltac:(lia) ltac:(lia)) as P.
  destruct rst.
  - constructor; try (cbn; discriminate).
    + cbn. lia.
    + intros n Hn. pose proof (@age_range c (nxt c s (true, i)) n ltac:(cbn; lia) Hn). change (l_acc (nxt c s (true, i)) n) with 0. nia.
    + now apply load_range.
  - constructor.
    + cbn. destruct V as [V0 _ _ _ _ _]. destruct (l_write s); auto. destruct (Nat.eqb_spec (l_count s) (sl_k c - 1)); lia.
    + intros n Hn. rewrite acc_exact, age_next by (auto; apply V). pose proof (inc1_range n C W). pose proof (i_acc V Hn).
      pose proof (@age_range c s n (i_count V) Hn). destruct (l_write s && Nat.eqb n (l_count s)); nia.
    + cbn. destruct (l_write s); [discriminate|]. reflexivity.
    + intros n Hn. cbn [nxt sl_step fst l_mem l_zero]. destruct (l_write s) eqn:Ew; [|apply V; auto].
      unfold nupd. destruct (Nat.eqb_spec n (l_count s)) as [->|]; [|apply V; auto]. intros _. cbn [andb].
      destruct (negb (l_tvalid s) && l_upd s (l_count s)); [pose proof (Z.pow_pos_nonneg 2 (sl_sw c)); lia|]. exact (sum_range s C).
    + rewrite nxt_tvalid, nxt_tdata. destruct (rep_of s).
      * intros _. apply sum_range; auto.
      * intro T. apply V. now destruct (l_tvalid s).
    + cbn [nxt sl_step fst l_period]. pose proof (i_per V). destruct (Z.eqb_spec (l_period s) 0); [now apply load_range|lia].
Qed.

(** What a channel holds changes by what comes in and what goes out. *)
Lemma holds_step c s i n : cfg_ok c -> Inv c s -> inc_ok c (false, i) -> (n < sl_k c)%nat ->
  exists k, holds (nxt c s (false, i)) n = holds s n + inc1 n (false, i) - dlv1 n ((false, i), outs s) - k * 2 ^ sl_sw c /\
    (holds s n < 2 ^ sl_sw c -> k = 0).
Proof.
  intros C V W Hn. unfold holds. rewrite (acc_exact C V W Hn).
  pose proof C as (K & I & SW & U). pose proof (Z.pow_pos_nonneg 2 (sl_sw c) ltac:(lia) ltac:(lia)) as P.
  pose proof (i_acc V Hn) as A.
  assert (KN : 0 <= kept s n). { unfold kept. destruct (l_zero s n) eqn:Z0; [lia|]. apply V; auto. }
  assert (ON : 0 <= out_of s n). { unfold out_of. destruct (l_tvalid s) eqn:T; cbn [andb]; [|lia]. pose proof (i_out V T). destruct (Nat.eqb (l_tid s) n); lia. }
  assert (OD : out_of s n - dlv1 n ((false, i), outs s) = if l_tvalid s && negb (li_tready i) && Nat.eqb (l_tid s) n then l_tdata s else 0).
  { unfold out_of, dlv1, outs. cbn [lo_tvalid lo_tid lo_tdata]. destruct (l_tvalid s), (li_tready i), (Nat.eqb (l_tid s) n); cbn [andb negb]; lia. }
  destruct (l_write s) eqn:Ew; cbn [andb].
  - destruct (Nat.eqb_spec n (l_count s)) as [En|En].
    + (* the channel visited *)
      assert (SM : exists q, sum_of c s = l_acc s n + kept s n - q * 2 ^ sl_sw c /\ (l_acc s n + kept s n < 2 ^ sl_sw c -> q = 0)).
      { unfold sum_of, kept. rewrite <- En. pose proof (i_rd V Ew) as R. rewrite <- En in R. destruct (l_zero s n) eqn:Zn.
        - exists (l_acc s n / 2 ^ sl_sw c). split; [pose proof (Z.div_mod (l_acc s n) (2 ^ sl_sw c)); lia|]. intro L. apply Z.div_small. lia.
        - rewrite R. exists ((l_mem s n + l_acc s n) / 2 ^ sl_sw c). split; [pose proof (Z.div_mod (l_mem s n + l_acc s n) (2 ^ sl_sw c)); lia|].
          intro L. apply Z.div_small. pose proof (i_mem V Hn Zn). lia. }
      destruct SM as (q & Q1 & Q2). exists q. split; [|lia].
      assert (MN : kept (nxt c s (false, i)) n = if rep_of s then 0 else sum_of c s).
      { unfold kept, rep_of, sum_of. cbn [nxt sl_step fst l_zero l_mem]. rewrite Ew, <- En, !nupd_same. reflexivity. }
      rewrite MN. unfold out_of at 1. rewrite nxt_tvalid, nxt_tid, nxt_tdata. destruct (rep_of s) eqn:R.
      * rewrite <- En, Nat.eqb_refl, andb_true_r. unfold rep_of in R. rewrite Ew in R. cbn [andb] in R.
        apply andb_true_iff in R as [R _]. apply negb_true_iff in R. rewrite R in OD. cbn [andb] in OD.
        destruct (some_of s) eqn:So; [lia|]. assert (sum_of c s = 0); [|lia].
        unfold some_of in So. unfold sum_of. destruct (l_zero s (l_count s)).
        -- apply negb_false_iff, Z.eqb_eq in So. rewrite So. apply Z.mod_0_l. lia.
        -- apply orb_false_iff in So as [S1 S2]. apply negb_false_iff, Z.eqb_eq in S1, S2. rewrite S1, S2. apply Z.mod_0_l. lia.
      * lia.
    + exists 0. split; [|lia]. assert (MN : kept (nxt c s (false, i)) n = kept s n).
      { unfold kept. cbn [nxt sl_step fst l_zero l_mem]. rewrite Ew, !nupd_other by auto. reflexivity. }
      rewrite MN. unfold out_of at 1. rewrite nxt_tvalid, nxt_tid, nxt_tdata. destruct (rep_of s) eqn:R.
      * destruct (Nat.eqb_spec (l_count s) n); [congruence|]. rewrite andb_false_r. unfold rep_of in R. rewrite Ew in R. cbn [andb] in R.
        apply andb_true_iff in R as [R _]. apply negb_true_iff in R. rewrite R in OD. cbn [andb] in OD. lia.
      * lia.
  - exists 0. split; [|lia]. assert (MN : kept (nxt c s (false, i)) n = kept s n).
    { unfold kept. cbn [nxt sl_step fst l_zero l_mem]. rewrite Ew. reflexivity. }
    rewrite MN. unfold out_of at 1. rewrite nxt_tvalid, nxt_tid, nxt_tdata. unfold rep_of. rewrite Ew. cbn [andb]. lia.
Qed.

(** * Conservation *)
Definition start (c : slcfg) (mem0 : nat -> Z) : slst := sl_init c mem0.
Definition st c mem0 xs := stf c (start c mem0) xs.

Lemma wires_in c xs x : wires_ok c xs -> In x xs -> inc_ok c x.
Proof. intros H Hx n v E. destruct x as [r i]. exact (H r i n v Hx E). Qed.
Lemma wires_app c a b : wires_ok c (a ++ b) -> wires_ok c a /\ wires_ok c b.
Proof. intro H. split; intros r i n v Hx; apply (H r i n v); apply in_or_app; auto. Qed.

Lemma inv_run c xs : forall s, cfg_ok c -> Inv c s -> wires_ok c xs -> Inv c (stf c s xs).
Proof.
  induction xs as [|x xs IH]; intros s C V W; auto. rewrite stf_cons. apply IH; auto.
  - apply inv_step; auto. eapply wires_in; eauto. now left.
  - intros r i n v H. apply (W r i n v). now right.
Qed.

Lemma obs_observe c mem0 xs : observe c mem0 xs = obs c (start c mem0) xs.
Proof. reflexivity. Qed.
Lemma observe_snoc c mem0 xs x : observe c mem0 (xs ++ [x]) = observe c mem0 xs ++ [(x, outs (st c mem0 xs))].
Proof. rewrite !obs_observe, obs_app, obs_cons. reflexivity. Qed.
Lemma observe_app c mem0 a b : observe c mem0 (a ++ b) = observe c mem0 a ++ obs c (st c mem0 a) b.
Proof. rewrite !obs_observe, obs_app. reflexivity. Qed.
Lemma st_snoc c mem0 xs x : st c mem0 (xs ++ [x]) = nxt c (st c mem0 xs) x.
Proof. unfold st. rewrite stf_app, stf_cons. reflexivity. Qed.

Lemma holds_nonneg c s n : cfg_ok c -> Inv c s -> (n < sl_k c)%nat -> 0 <= holds s n.
Proof.
  intros C V Hn. unfold holds. pose proof (i_acc V Hn).
  assert (KN : 0 <= kept s n). { unfold kept. destruct (l_zero s n) eqn:Z0; [lia|]. apply V; auto. }
  assert (ON : 0 <= out_of s n). { unfold out_of. destruct (l_tvalid s) eqn:T; cbn [andb]; [|lia]. pose proof (i_out V T). destruct (Nat.eqb (l_tid s) n); lia. }
  lia.
Qed.

Lemma conserve c mem0 xs n : cfg_ok c -> wires_ok c xs -> (n < sl_k c)%nat ->
  exists k, received n (live (observe c mem0 xs)) - delivered n (live (observe c mem0 xs)) = holds (st c mem0 xs) n + k * 2 ^ sl_sw c /\
    (fits c n (live (observe c mem0 xs)) -> k = 0).
Proof.
  intros C W Hn. induction xs as [|x xs IH] using rev_ind.
  - exists 0. split; auto.
  - apply wires_app in W as [W Wx]. destruct (IH W) as (k & K1 & K2). clear IH. rewrite observe_snoc, st_snoc, live_snoc. destruct x as [rst i]. cbn [fst].
    destruct rst.
    + exists 0. split; auto.
    + rewrite received_app, delivered_app, received_one, delivered_one.
      destruct (@holds_step c (st c mem0 xs) i n C) as (q & Q1 & Q2); auto.
      { apply inv_run; auto. now apply inv_init. } { eapply wires_in; eauto. now left. }
      exists (k + q). split; [lia|]. intro F.
      assert (F' : fits c n (live (observe c mem0 xs))).
      { intros a b E. apply (F a (b ++ [((false, i), outs (st c mem0 xs))])). rewrite E, app_assoc. reflexivity. }
      rewrite (K2 F') in *. rewrite Q2; auto. specialize (F' _ [] ltac:(symmetry; apply app_nil_r)). lia.
Qed.

Lemma conserve_mod c mem0 xs n : cfg_ok c -> wires_ok c xs -> (n < sl_k c)%nat ->
  (received n (live (observe c mem0 xs)) - delivered n (live (observe c mem0 xs)) - holds (st c mem0 xs) n) mod 2 ^ sl_sw c = 0.
Proof.
  intros C W Hn. destruct (@conserve c mem0 xs n C W Hn) as (k & E & _). rewrite E. replace (holds (st c mem0 xs) n + k * 2 ^ sl_sw c - holds (st c mem0 xs) n) with (k * 2 ^ sl_sw c) by lia.
  apply Z_mod_mult.
Qed.

Lemma no_excess c mem0 xs n : cfg_ok c -> wires_ok c xs -> (n < sl_k c)%nat -> fits c n (live (observe c mem0 xs)) ->
  delivered n (live (observe c mem0 xs)) <= received n (live (observe c mem0 xs)).
Proof.
  intros C W Hn F. destruct (@conserve c mem0 xs n C W Hn) as (k & E & K). rewrite (K F) in E.
  pose proof (@holds_nonneg c (st c mem0 xs) n C). assert (Inv c (st c mem0 xs)) by (apply inv_run; auto; now apply inv_init). intuition lia.
Qed.

(** * Flushing *)
Definition dist (c : slcfg) (s : slst) (n : nat) : Z := 2 * Z.of_nat (sl_k c) - age c s n.
Definition calm (s : slst) : Prop := l_write s = true -> l_tvalid s = false.
Definition steady (x : bool * slin) : Prop := fst x = false /\ li_tready (snd x) = true.

Lemma dist_zero c s n : (l_count s < sl_k c)%nat -> (n < sl_k c)%nat -> dist c s n = 0 -> l_write s = true /\ l_count s = n.
Proof.
  intros A B. unfold dist, age, pos. destruct (l_write s); [destruct (Z.leb_spec (2 * Z.of_nat (l_count s) + 1) (2 * Z.of_nat n + 1))|destruct (Z.leb_spec (2 * Z.of_nat (l_count s) + 0) (2 * Z.of_nat n + 1))]; split; auto; lia.
Qed.

Lemma calm_step c s x : steady x -> calm (nxt c s x).
Proof.
  destruct x as [rst i]. intros [E T]. cbn [fst snd] in *. subst rst. unfold calm. intro Wr. assert (Ew : l_write s = false) by (cbn in Wr; now destruct (l_write s)).
  rewrite nxt_tvalid. unfold rep_of. rewrite Ew, T. cbn [andb negb]. apply andb_false_r.
Qed.

Lemma upd_step c s x n : steady x -> l_upd s n = true -> l_write s && Nat.eqb n (l_count s) = false -> l_upd (nxt c s x) n = true.
Proof.
  destruct x as [rst i]. intros [E _] U H. cbn [fst] in E. subst rst. cbn [nxt sl_step fst l_upd].
  destruct ((l_period s =? 0) || li_update i); auto. destruct (l_write s && negb (l_tvalid s) && l_upd s (l_count s)) eqn:R; auto.
  destruct (l_write s); [|discriminate]. cbn [andb] in H. apply Nat.eqb_neq in H. now rewrite nupd_other.
Qed.

Lemma visit c s v a n : cfg_ok c -> Inv c s -> (n < sl_k c)%nat -> l_write s = true -> l_count s = n -> l_tvalid s = false -> l_upd s n = true ->
  steady v -> steady a -> inc_ok c v -> inc_ok c a -> holds (nxt c (nxt c s v) a) n = inc1 n v + inc1 n a.
Proof.
  intros C V Hn Ew En Et Eu Sv Sa Wv Wa. pose proof (inv_step C V Wv) as V1.
  destruct v as [rv iv], a as [ra ia]. destruct Sv as [E1 Tv], Sa as [E2 Ta]. cbn [fst snd] in *. subst rv ra.
  assert (W1 : l_write (nxt c s (false, iv)) = false) by (cbn; now rewrite Ew).
  unfold holds. rewrite (acc_exact C V1 Wa Hn), W1. cbn [andb]. rewrite (acc_exact C V Wv Hn), Ew, En, Nat.eqb_refl. cbn [andb].
  assert (K1 : kept (nxt c s (false, iv)) n = 0).
  { unfold kept. cbn [nxt sl_step fst l_zero l_mem]. rewrite Ew, En, !nupd_same, Et, Eu. reflexivity. }
  assert (K2 : kept (nxt c (nxt c s (false, iv)) (false, ia)) n = kept (nxt c s (false, iv)) n).
  { generalize dependent (nxt c s (false, iv)). intros s1 _ W1 _. unfold kept. cbn [nxt sl_step fst l_zero l_mem]. now rewrite W1. }
  rewrite K2, K1. unfold out_of. rewrite nxt_tvalid. unfold rep_of. rewrite W1, Ta. cbn [andb negb]. rewrite andb_false_r. cbn [andb]. lia.
Qed.

Lemma reach c n : forall w s, cfg_ok c -> Inv c s -> calm s -> (n < sl_k c)%nat -> l_upd s n = true -> Forall steady w -> Forall (inc_ok c) w ->
  dist c s n + 2 <= Z.of_nat (length w) ->
  exists w1 v a w2, w = w1 ++ v :: a :: w2 /\ holds (stf c s (w1 ++ [v; a])) n = inc1 n v + inc1 n a.
Proof.
  induction w as [|x w IH]; intros s C V Q Hn Eu F G L; pose proof (@age_range c s n (i_count V) Hn) as AR.
  { cbn in L. unfold dist in L. lia. }
  inversion F as [|? ? Fx Fw]; inversion G as [|? ? Gx Gw]; subst.
  destruct (l_write s && Nat.eqb n (l_count s)) eqn:E.
  - apply andb_true_iff in E as [Ew En]. apply Nat.eqb_eq in En. symmetry in En.
    destruct w as [|a w]; [cbn in L; unfold dist in L; lia|]. inversion Fw; inversion Gw; subst. exists [], x, a, w. split; auto.
    cbn [app]. rewrite !stf_cons. cbn [stf trace fst]. apply visit; auto.
  - assert (Ex : fst x = false) by apply Fx. destruct (IH (nxt c s x)) as (w1 & v & a & w2 & -> & H); auto.
    + now apply inv_step.
    + now apply calm_step.
    + now apply upd_step.
    + destruct x as [r i]. cbn [fst] in Ex. subst r. unfold dist. rewrite age_next, E by (auto; apply V). unfold dist in L. cbn [length] in L. lia.
    + exists (x :: w1), v, a, w2. split; auto. cbn [app]. now rewrite stf_cons.
Qed.

Lemma received_nonneg c n s xs : cfg_ok c -> wires_ok c xs -> 0 <= received n (obs c s xs).
Proof.
  intros C. revert s. induction xs as [|x xs IH]; intros s W; [cbn; lia|]. rewrite obs_cons. change (?a :: ?b) with ([a] ++ b).
  rewrite received_app, received_one. assert (Wx : inc_ok c x) by (eapply wires_in; eauto; now left). pose proof (inc1_range n C Wx).
  specialize (IH (nxt c s x)). assert (wires_ok c xs) by (intros r i m v H'; apply (W r i m v); now right). intuition lia.
Qed.

Lemma delivered_nonneg c n xs : forall s, cfg_ok c -> Inv c s -> wires_ok c xs -> 0 <= delivered n (obs c s xs).
Proof.
  induction xs as [|x xs IH]; intros s C V W; [cbn; lia|]. rewrite obs_cons. change (?a :: ?b) with ([a] ++ b).
  rewrite delivered_app, delivered_one. assert (Wx : inc_ok c x) by (eapply wires_in; eauto; now left).
  assert (D : 0 <= dlv1 n (x, outs s)).
  { destruct x as [r i]. unfold dlv1, outs. cbn [lo_tvalid lo_tid lo_tdata]. destruct (l_tvalid s) eqn:T; cbn [andb]; [|lia]. pose proof (i_out V T).
    destruct (li_tready i && Nat.eqb (l_tid s) n); lia. }
  specialize (IH (nxt c s x) C (inv_step C V Wx)). assert (wires_ok c xs) by (intros r i m v H'; apply (W r i m v); now right). intuition lia.
Qed.

(** A request to report, whatever its cause, empties the channel. *)
Lemma flush c mem0 xs0 x w n : cfg_ok c -> wires_ok c (xs0 ++ x :: w) -> (n < sl_k c)%nat ->
  l_period (st c mem0 xs0) = 0 \/ li_update (snd x) = true -> steady x -> Forall steady w ->
  2 * Z.of_nat (sl_k c) + 1 <= Z.of_nat (length w) ->
  exists w1 v a w2, w = w1 ++ v :: a :: w2 /\ holds (st c mem0 (xs0 ++ x :: w1 ++ [v; a])) n = inc1 n v + inc1 n a.
Proof.
  intros C W Hn U Sx Sw L. apply wires_app in W as [W0 W1].
  assert (Wx : inc_ok c x) by (eapply wires_in; eauto; now left).
  assert (V : Inv c (st c mem0 xs0)) by (apply inv_run; auto; now apply inv_init).
  set (s := nxt c (st c mem0 xs0) x). assert (V1 : Inv c s) by now apply inv_step.
  assert (Eu : l_upd s n = true).
  { unfold s. destruct Sx as [Ex _]. destruct x as [r i]. cbn [fst snd] in *. subst r. cbn [nxt sl_step fst l_upd]. destruct U as [U|U]; rewrite U.
    - reflexivity.
    - now rewrite orb_true_r. }
  destruct (@reach c n w s C V1 (calm_step c _ Sx) Hn Eu Sw) as (w1 & v & a & w2 & E & H).
  - apply Forall_forall. intros y Hy. apply (@wires_in c (x :: w)); auto. now right.
  - pose proof (@age_range c s n (i_count V1) Hn). unfold dist. lia.
  - exists w1, v, a, w2. split; auto. unfold st in *. rewrite stf_app, stf_cons. exact H.
Qed.

Lemma flush_exact c mem0 xs0 x w n : cfg_ok c -> wires_ok c (xs0 ++ x :: w) -> (n < sl_k c)%nat ->
  l_period (st c mem0 xs0) = 0 \/ li_update (snd x) = true -> steady x -> Forall steady w ->
  2 * Z.of_nat (sl_k c) + 1 <= Z.of_nat (length w) -> fits c n (live (observe c mem0 (xs0 ++ x :: w))) ->
  received n (live (observe c mem0 (xs0 ++ [x]))) <= delivered n (live (observe c mem0 (xs0 ++ x :: w))).
Proof.
  intros C W Hn U Sx Sw L F. destruct (@flush c mem0 xs0 x w n C W Hn U Sx Sw L) as (w1 & v & a & w2 & E & H). subst w.
  apply Forall_app in Sw as [S1 Sw]. inversion Sw as [|? ? Sv Sw']; inversion Sw' as [|? ? Sa S2]; subst.
  assert (NR : forall s y, Forall steady y -> Forall (fun z : lcycle => fst (fst z) = false) (obs c s y)).
  { intros s y Fy. apply Forall_forall. intros z Hz. apply (in_map fst) in Hz. rewrite obs_fst in Hz. rewrite Forall_forall in Fy. now apply Fy. }
  set (pre := xs0 ++ x :: w1 ++ [v; a]) in *.
  assert (EQ : xs0 ++ x :: w1 ++ v :: a :: w2 = pre ++ w2) by (unfold pre; rewrite <- app_assoc; cbn [app]; rewrite <- app_assoc; reflexivity).
  rewrite EQ in *. rewrite (observe_app c mem0 pre w2) in F |- *. rewrite (@live_app (observe c mem0 pre)) in F |- * by auto.
  destruct (@conserve c mem0 pre n C) as (k & K1 & K2); auto. { now apply wires_app in W. }
  assert (K : k = 0). { apply K2. intros p q Eq. apply (F p (q ++ obs c (st c mem0 pre) w2)). now rewrite Eq, app_assoc. }
  subst k. rewrite H in K1. rewrite delivered_app.
  assert (D2 : 0 <= delivered n (obs c (st c mem0 pre) w2)).
  { apply delivered_nonneg; auto; [apply inv_run; auto; [now apply inv_init|]|]; now apply wires_app in W. }
  assert (RP : received n (live (observe c mem0 pre)) = received n (live (observe c mem0 (xs0 ++ [x]))) + received n (obs c (st c mem0 (xs0 ++ [x])) w1) + inc1 n v + inc1 n a).
  { unfold pre. replace (xs0 ++ x :: w1 ++ [v; a]) with ((xs0 ++ [x]) ++ w1 ++ [v; a]) by (rewrite <- app_assoc; reflexivity).
    rewrite observe_app, live_app by (apply NR, Forall_app; auto). rewrite received_app, obs_app, received_app.
    rewrite !obs_cons. change (obs c ?s []) with (@nil lcycle). rewrite !received_cons. cbn [fst]. change (received n []) with 0. unfold st. lia. }
  assert (0 <= received n (obs c (st c mem0 (xs0 ++ [x])) w1)).
  { apply received_nonneg; auto. intros r i m u Hu. apply (W r i m u). unfold pre. apply in_or_app; left. apply in_or_app; right. right. apply in_or_app; now left. }
  lia.
Qed.

Lemma stays_empty c n w : forall s, cfg_ok c -> Inv c s -> (n < sl_k c)%nat -> Forall steady w -> wires_ok c w -> Forall (fun x => li_inc (snd x) n = None) w ->
  holds s n = 0 -> holds (stf c s w) n = 0.
Proof.
  induction w as [|x w IH]; intros s C V Hn F W Q H; auto. rewrite stf_cons. inversion F as [|? ? Fx Fw]; inversion Q as [|? ? Qx Qw]; subst.
  assert (Wx : inc_ok c x) by (eapply wires_in; eauto; now left). pose proof (inv_step C V Wx) as V1. apply IH; auto.
  - intros r i m u Hu. apply (W r i m u). now right.
  - destruct x as [r i]. destruct Fx as [Er _]. cbn [fst snd] in *. subst r. destruct (holds_step C V Wx Hn) as (k & E & K).
    pose proof (Z.pow_pos_nonneg 2 (sl_sw c) ltac:(lia) ltac:(destruct C as (? & ? & ? & ?); lia)). rewrite K in E by lia.
    pose proof (holds_nonneg C V1 Hn). unfold inc1 in E. cbn [snd] in E. rewrite Qx in E.
    assert (D : 0 <= dlv1 n ((false, i), outs s)).
    { unfold dlv1, outs. cbn [lo_tvalid lo_tid lo_tdata]. destruct (l_tvalid s) eqn:T; cbn [andb]; [|lia]. pose proof (i_out V T).
      destruct (li_tready i && Nat.eqb (l_tid s) n); lia. }
    lia.
Qed.

Lemma flush_mod c mem0 xs0 x w n : cfg_ok c -> wires_ok c (xs0 ++ x :: w) -> (n < sl_k c)%nat ->
  l_period (st c mem0 xs0) = 0 \/ li_update (snd x) = true -> steady x -> Forall steady w ->
  2 * Z.of_nat (sl_k c) + 1 <= Z.of_nat (length w) -> Forall (fun x => li_inc (snd x) n = None) w ->
  (received n (live (observe c mem0 (xs0 ++ x :: w))) - delivered n (live (observe c mem0 (xs0 ++ x :: w)))) mod 2 ^ sl_sw c = 0.
Proof.
  intros C W Hn U Sx Sw L Q. destruct (@flush c mem0 xs0 x w n C W Hn U Sx Sw L) as (w1 & v & a & w2 & E & H).
  assert (HE : holds (st c mem0 (xs0 ++ x :: w)) n = 0).
  { subst w. apply Forall_app in Sw as [S1 Sw]. inversion Sw as [|? ? Sv Sw']; inversion Sw' as [|? ? Sa S2]; subst.
    apply Forall_app in Q as [Q1 Qw]. inversion Qw as [|? ? Qv Qw']; inversion Qw' as [|? ? Qa Q2]; subst.
    replace (xs0 ++ x :: w1 ++ v :: a :: w2) with ((xs0 ++ x :: w1 ++ [v; a]) ++ w2) in * by (rewrite <- app_assoc; cbn [app]; rewrite <- app_assoc; reflexivity).
    unfold st in *. rewrite stf_app. apply wires_app in W as [Wp W2]. apply stays_empty; auto.
    - apply inv_run; auto. now apply inv_init.
    - rewrite H. unfold inc1. now rewrite Qv, Qa. }
  pose proof (conserve_mod mem0 C W Hn) as M. rewrite HE in M. now rewrite Z.sub_0_r in M.
Qed.

Lemma period_hit c : forall xs s, cfg_ok c -> Inv c s -> Forall steady xs -> Forall (inc_ok c) xs -> l_period s < Z.of_nat (length xs) ->
  exists a x b, xs = a ++ x :: b /\ Z.of_nat (length a) <= l_period s /\ l_period (stf c s a) = 0.
Proof.
  induction xs as [|x xs IH]; intros s C V F W L; pose proof (i_per V) as P; [cbn in L; lia|].
  destruct (Z.eq_dec (l_period s) 0) as [E|E]; [exists [], x, xs; splits; auto; cbn; lia|].
  inversion F as [|? ? Fx Fw]; inversion W as [|? ? Wx Ww]; subst.
  assert (EP : l_period (nxt c s x) = l_period s - 1).
  { destruct x as [r i]. destruct Fx as [Er _]. cbn [fst] in Er. subst r. cbn [nxt sl_step fst l_period]. destruct (Z.eqb_spec (l_period s) 0); lia. }
  destruct (IH (nxt c s x) C (inv_step C V Wx) Fw Ww) as (a & y & b & -> & La & Pa).
  - rewrite EP. cbn [length] in L. lia.
  - exists (x :: a), y, b. splits; auto; [cbn [length]; lia|]. now rewrite stf_cons.
Qed.

(** * The claims over observed cycles *)

Lemma steady_of c s xs : Forall ready_cycle (obs c s xs) -> Forall steady xs.
Proof.
  intro F. rewrite <- (obs_fst c xs s). apply Forall_forall. intros x Hx. apply in_map_iff in Hx as (y & <- & Hy).
  rewrite Forall_forall in F. exact (F y Hy).
Qed.

Lemma flush_update c mem0 xs h cu w n : cfg_ok c -> wires_ok c xs -> (n < sl_k c)%nat ->
  observe c mem0 xs = h ++ cu :: w -> li_update (snd (fst cu)) = true -> Forall ready_cycle (cu :: w) ->
  length w = (2 * sl_k c + 1)%nat -> fits c n (live (observe c mem0 xs)) ->
  received n (live (h ++ [cu])) <= delivered n (live (h ++ cu :: w)).
Proof.
  intros C W Hn E U F L Fi. pose proof E as E0. destruct (@obs_split c h _ _ _ E) as (a & b & -> & -> & Eb).
  destruct b as [|x b]; [discriminate|]. rewrite obs_cons in Eb. injection Eb as -> ->. cbn [fst] in U.
  inversion F as [|? ? Fx Fw]; subst. apply steady_of in Fw. rewrite obs_length in L.
  rewrite <- E0. change (obs c (sl_init c mem0) a) with (observe c mem0 a). change (stf c (sl_init c mem0) a) with (st c mem0 a). rewrite <- observe_snoc.
  apply flush_exact; auto. lia.
Qed.

Lemma flush_update_mod c mem0 xs h cu w n : cfg_ok c -> wires_ok c xs -> (n < sl_k c)%nat ->
  observe c mem0 xs = h ++ cu :: w -> li_update (snd (fst cu)) = true -> Forall ready_cycle (cu :: w) ->
  length w = (2 * sl_k c + 1)%nat -> Forall (quiet n) w ->
  (received n (live (observe c mem0 xs)) - delivered n (live (observe c mem0 xs))) mod 2 ^ sl_sw c = 0.
Proof.
  intros C W Hn E U F L Q. destruct (@obs_split c h _ _ _ E) as (a & b & -> & -> & Eb).
  destruct b as [|x b]; [discriminate|]. rewrite obs_cons in Eb. injection Eb as -> ->. cbn [fst] in U.
  inversion F as [|? ? Fx Fw]; subst. apply steady_of in Fw. rewrite obs_length in L.
  apply flush_mod; auto; [lia|]. rewrite <- (obs_fst c b (nxt c (stf c (sl_init c mem0) a) x)). apply Forall_forall. intros y Hy.
  apply in_map_iff in Hy as (z & <- & Hz). rewrite Forall_forall in Q. exact (Q z Hz).
Qed.

Lemma flush_period c mem0 xs h w n : cfg_ok c -> wires_ok c xs -> (n < sl_k c)%nat ->
  observe c mem0 xs = h ++ w -> Forall ready_cycle w ->
  Z.of_nat (length w) = sl_up c + 2 * Z.of_nat (sl_k c) + 1 -> fits c n (live (observe c mem0 xs)) ->
  received n (live h) <= delivered n (live (h ++ w)).
Proof.
  intros C W Hn E F L Fi. rewrite <- E. destruct (@obs_split c h _ _ _ E) as (a & b & -> & -> & ->).
  apply steady_of in F. rewrite obs_length in L. pose proof W as W0. apply wires_app in W as [Wa Wb].
  assert (V : Inv c (st c mem0 a)) by (apply inv_run; auto; now apply inv_init).
  assert (IB : Forall (inc_ok c) b) by (apply Forall_forall; intros y Hy; exact (@wires_in c b y Wb Hy)).
  pose proof (i_per V) as P.
  destruct (@period_hit c b (st c mem0 a) C V F IB) as (p & x & q & -> & Lp & Ep).
  { destruct C as (? & ? & ? & ?). lia. }
  change (obs c (sl_init c mem0) a) with (observe c mem0 a). apply Forall_app in F as [Fp F]. inversion F as [|? ? Fx Fq]; subst.
  rewrite app_assoc in *. assert (ST : st c mem0 (a ++ p) = stf c (st c mem0 a) p) by (unfold st; now rewrite stf_app).
  assert (X : received n (live (observe c mem0 ((a ++ p) ++ [x]))) <= delivered n (live (observe c mem0 ((a ++ p) ++ x :: q)))).
  { apply flush_exact; auto; [left; now rewrite ST|]. rewrite app_length in L. cbn [length] in L. lia. }
  assert (NR : forall s y, Forall steady y -> Forall (fun z : lcycle => fst (fst z) = false) (obs c s y)).
  { intros s y Fy. apply Forall_forall. intros z Hz. apply (in_map fst) in Hz. rewrite obs_fst in Hz. rewrite Forall_forall in Fy. now apply Fy. }
  assert (Y : received n (live (observe c mem0 a)) <= received n (live (observe c mem0 ((a ++ p) ++ [x])))).
  { rewrite <- app_assoc, (observe_app c mem0 a), live_app by (apply NR, Forall_app; auto). rewrite received_app.
    assert (0 <= received n (obs c (st c mem0 a) (p ++ [x]))); [|lia]. apply received_nonneg; auto.
    intros r i m u Hu. apply (Wb r i m u). apply in_app_iff in Hu as [Hu|[<-|[]]]; apply in_or_app; [now left|right; now left]. }
  lia.
Qed.

(** * Rate *)
Definition pend (s : slst) (n : nat) : Z := if l_tvalid s && Nat.eqb (l_tid s) n then 1 else 0.
Definition asked (s : slst) (n : nat) : Z := if l_upd s n then 1 else 0.

Lemma load_exact c : cfg_ok c -> (forall k, 0 <= k -> sl_up c - 1 <> 2 ^ k) -> period_load c = sl_up c - 1.
Proof.
  intros (_ & _ & _ & U) N. unfold period_load, period_width. apply Z.mod_small. split; [lia|].
  pose proof (Z.log2_up_spec (sl_up c - 1) ltac:(lia)) as [_ H]. specialize (N (Z.log2_up (sl_up c - 1)) (Z.log2_up_nonneg _)). lia.
Qed.

Lemma rate c mem0 xs n : cfg_ok c -> wires_ok c xs -> (forall k, 0 <= k -> sl_up c - 1 <> 2 ^ k) ->
  (forall x, In x xs -> li_update (snd x) = false) ->
  sl_up c * (reports n (live (observe c mem0 xs)) + pend (st c mem0 xs) n + asked (st c mem0 xs) n) + (sl_up c - 1 - l_period (st c mem0 xs))
    <= Z.of_nat (length (live (observe c mem0 xs))).
Proof.
  intros C W N U. pose proof (load_exact C N) as LE. induction xs as [|x xs IH] using rev_ind.
  - unfold st, start, stf. cbn [trace fst]. unfold pend, asked. cbn. rewrite LE. lia.
  - apply wires_app in W as [W Wx]. specialize (IH W ltac:(intros y Hy; apply U, in_or_app; auto)).
    specialize (U x ltac:(apply in_or_app; right; now left)). rewrite observe_snoc, st_snoc, live_snoc. destruct x as [rst i]. cbn [fst snd] in *.
    assert (V : Inv c (st c mem0 xs)) by (apply inv_run; auto; now apply inv_init).
    set (s := st c mem0 xs) in *. destruct rst.
    + unfold pend, asked. cbn [nxt sl_step fst l_tvalid l_upd l_period andb length]. rewrite LE. change (reports n []) with 0. lia.
    + rewrite reports_app, reports_one, app_length. cbn [length].
      set (r0 := reports n (live (observe c mem0 xs))) in *. set (len := length (live (observe c mem0 xs))) in *. clearbody r0 len.
      assert (A : rep1 n ((false, i), outs s) + pend (nxt c s (false, i)) n + (if rep_of s && Nat.eqb n (l_count s) then 0 else asked s n) <= pend s n + asked s n).
      { unfold rep1, pend, asked, outs. cbn [lo_tvalid lo_tid lo_tdata]. rewrite nxt_tvalid, nxt_tid. destruct (rep_of s) eqn:R; cbn [andb].
        - unfold rep_of in R. apply andb_true_iff in R as [R Ru]. apply andb_true_iff in R as [_ R]. apply negb_true_iff in R. rewrite R. cbn [andb].
          rewrite (Nat.eqb_sym n). destruct (Nat.eqb_spec (l_count s) n) as [<-|]; [rewrite Ru, andb_true_r; destruct (some_of s); lia|].
          rewrite andb_false_r. lia.
        - destruct (l_tvalid s), (li_tready i), (Nat.eqb (l_tid s) n); cbn [andb negb]; lia. }
      assert (B : l_period s = 0 \/ l_period s <> 0 /\ asked (nxt c s (false, i)) n = if rep_of s && Nat.eqb n (l_count s) then 0 else asked s n).
      { destruct (Z.eq_dec (l_period s) 0) as [|NE]; [auto|right]. split; auto. unfold asked, rep_of. cbn [nxt sl_step fst l_upd].
        apply Z.eqb_neq in NE. rewrite NE, U. cbn [orb]. destruct (l_write s && negb (l_tvalid s) && l_upd s (l_count s)); cbn [andb]; auto.
        unfold nupd. destruct (Nat.eqb n (l_count s)); auto. }
      assert (PE : l_period (nxt c s (false, i)) = if l_period s =? 0 then sl_up c - 1 else l_period s - 1) by (rewrite <- LE; reflexivity).
      assert (AR : 0 <= asked s n) by (unfold asked; destruct (l_upd s n); lia).
      assert (AN : asked (nxt c s (false, i)) n <= 1) by (unfold asked; destruct (l_upd (nxt c s (false, i)) n); lia).
      pose proof C as (_ & _ & _ & U3). rewrite PE. rewrite Nat2Z.inj_add.
      set (r1 := rep1 n ((false, i), outs s)) in *. set (p1 := pend (nxt c s (false, i)) n) in *. set (a1 := asked (nxt c s (false, i)) n) in *.
      set (p0 := pend s n) in *. set (a0 := asked s n) in *. clearbody r1 p1 a1 p0 a0.
      destruct B as [B|[B1 B2]].
      * rewrite B, Z.eqb_refl in *. destruct (rep_of s && Nat.eqb n (l_count s)); nia.
      * apply Z.eqb_neq in B1. rewrite B1. destruct (rep_of s && Nat.eqb n (l_count s)); nia.
Qed.

Lemma report_rate c mem0 xs n : cfg_ok c -> wires_ok c xs -> (forall k, 0 <= k -> sl_up c - 1 <> 2 ^ k) ->
  (forall rst i, In (rst, i) xs -> li_update i = false) ->
  sl_up c * reports n (live (observe c mem0 xs)) <= Z.of_nat (length (live (observe c mem0 xs))).
Proof.
  intros C W N U. pose proof (@rate c mem0 xs n C W N ltac:(intros [r i] H; exact (U r i H))) as R.
  assert (V : Inv c (st c mem0 xs)) by (apply inv_run; auto; now apply inv_init). pose proof (i_per V).
  assert (0 <= pend (st c mem0 xs) n) by (unfold pend; destruct (_ && _); lia).
  assert (0 <= asked (st c mem0 xs) n) by (unfold asked; destruct (l_upd _ _); lia). nia.
Qed.

(** * Output stability *)
Lemma out_stable c mem0 xs h x y : observe c mem0 xs = h ++ [x; y] -> fst (fst x) = false ->
  lo_tvalid (snd x) = true -> li_tready (snd (fst x)) = false -> snd y = snd x.
Proof.
  intros E R T Y. destruct (@obs_split c h _ _ _ E) as (a & b & -> & -> & Eb). assert (L : length b = 2%nat) by (rewrite <- (obs_length c (stf c (sl_init c mem0) a) b), <- Eb; reflexivity).
  destruct b as [|xa [|xb [|? b]]]; try discriminate L.
  rewrite !obs_cons in Eb. change (obs c _ []) with (@nil lcycle) in Eb. apply (f_equal (fun l => (nth 0 l x, nth 1 l x))) in Eb. cbn [nth] in Eb.
  apply pair_equal_spec in Eb as [-> ->]. cbn [fst snd] in *. destruct xa as [r i]. cbn [fst snd] in *. subst r.
  unfold outs in *. cbn [lo_tvalid] in T. set (s := stf c (sl_init c mem0) a) in *. clearbody s.
  rewrite nxt_tvalid, nxt_tid, nxt_tdata. unfold rep_of. rewrite T. cbn [negb]. rewrite andb_false_r. cbn [andb]. now rewrite Y.
Qed.
