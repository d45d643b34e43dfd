(** Proofs about the PTP clock. *)
From Verif Require Import Base.Prelude Ptp.Clock_model Ptp.Clock_spec.
Local Open Scope Z_scope.

Definition st (c : pcfg) (xs : list (bool * pin)) : pst := fst (trace (p_step c) (p_init c) xs).

Lemma st_snoc c xs x : st c (xs ++ [x]) = p_next c (st c xs) x.
Proof. unfold st. rewrite trace_app. destruct (trace (p_step c) (p_init c) xs) as [s os]. reflexivity. Qed.

Lemma observe_snoc c xs x : observe c (xs ++ [x]) = observe c xs ++ [(x, p_out c (st c xs))].
Proof.
  unfold observe, st. rewrite trace_app. pose proof (@trace_length _ _ _ (p_step c) xs (p_init c)) as L.
  destruct (trace (p_step c) (p_init c) xs) as [s os]. cbn [trace fst snd p_step] in *.
  revert os L. induction xs as [|y xs IH]; intros [|o os] L; cbn in L; try discriminate; auto.
  cbn [app combine]. now rewrite IH by congruence.
Qed.

Lemma observe_inv c xs h cy : observe c xs = h ++ [cy] ->
  exists xs' x, xs = xs' ++ [x] /\ h = observe c xs' /\ cy = (x, p_out c (st c xs')).
Proof.
  destruct xs as [|x xs _] using rev_ind; intro E.
  - destruct h; discriminate.
  - rewrite observe_snoc in E. apply app_inj_tail in E as [<- <-]. eauto.
Qed.

Lemma observe_prefix c t : forall xs h, observe c xs = h ++ t -> exists a b, xs = a ++ b /\ h = observe c a.
Proof.
  induction t as [|y t IH] using rev_ind; intros xs h E.
  - exists xs, []. now rewrite !app_nil_r in *.
  - rewrite app_assoc in E. apply observe_inv in E as (xs' & x & -> & E & ->). symmetry in E. destruct (IH _ _ E) as (a & b & -> & ->).
    exists a, (b ++ [x]). now rewrite app_assoc.
Qed.

Lemma observe_length c xs : length (observe c xs) = length xs.
Proof. unfold observe. rewrite combine_length, trace_length. lia. Qed.
Lemma observe_fst c xs : map fst (observe c xs) = xs.
Proof. induction xs as [|x xs IH] using rev_ind; auto. rewrite observe_snoc, map_app, IH. reflexivity. Qed.

(** * Settings *)
Lemma period_snoc c h (x : pcycle) : period_at c (h ++ [x]) = if fst (fst x) then p_period c else match i_period (snd (fst x)) with Some v => v | None => period_at c h end.
Proof. unfold period_at. rewrite fold_left_app. reflexivity. Qed.
Lemma adj_snoc h (x : pcycle) : adj_at (h ++ [x]) = if fst (fst x) then 0 else match i_adj (snd (fst x)) with Some (v, _) => v | None => adj_at h end.
Proof. unfold adj_at. rewrite fold_left_app. reflexivity. Qed.
Lemma drift_snoc c h (x : pcycle) : drift_at c (h ++ [x]) = if fst (fst x) then (p_drift c, p_rate c) else
  match i_drift (snd (fst x)) with Some v => if p_den c then v else drift_at c h | None => drift_at c h end.
Proof. unfold drift_at. rewrite fold_left_app. reflexivity. Qed.
Lemma wait_snoc c h (x : pcycle) : drift_wait c (rev (h ++ [x])) = if fst (fst x) then 0 else
  if drift_wait c (rev h) =? 0 then (snd (drift_at c h) - 1) mod 65536 else drift_wait c (rev h) - 1.
Proof. rewrite rev_app_distr. cbn [rev app drift_wait]. now rewrite rev_involutive. Qed.
Lemma incs_snoc c h x : incs c (h ++ [x]) = incs c h ++ [inc_of c h x].
Proof. unfold incs. rewrite rev_app_distr. cbn [rev app incs_r]. now rewrite rev_involutive. Qed.
Lemma incs_length c h : length (incs c h) = length h.
Proof. induction h as [|x h IH] using rev_ind; auto. rewrite incs_snoc, !app_length, IH. reflexivity. Qed.
Lemma incs_app c a b : exists l, incs c (a ++ b) = incs c a ++ l.
Proof.
  induction b as [|y b IH] using rev_ind. { exists []. now rewrite !app_nil_r. }
  destruct IH as [l E]. rewrite app_assoc, incs_snoc, E. eexists. now rewrite <- app_assoc.
Qed.

Record settings (c : pcfg) (h : list pcycle) (s : pst) : Prop := {
  e_period : q_period s = period_at c h; e_adj : q_adj s = adj_at h;
  e_drift : (q_drift s, q_rate s) = drift_at c h; e_wait : q_dcnt s = drift_wait c (rev h);
  e_inc : q_inc s = nth (S (length h)) (lagged c h) 0; e_dly : q_dly s = nth (length h) (lagged c h) 0 }.

Lemma p_inc_spec c h s x : settings c h s -> p_inc c s = inc_of c h (x, p_out c s).
Proof.
  intros [A B C D _ _]. unfold p_inc, inc_of, rate_of, drift_on, signed, twos. rewrite A, B, D. cbn [snd p_out o_active].
  rewrite <- C. reflexivity.
Qed.

Lemma settings_step c h s x : settings c h s -> settings c (h ++ [(x, p_out c s)]) (p_next c s x).
Proof.
  intro S. pose proof (p_inc_spec x S) as I. destruct S as [A B C D E F]. destruct x as [rst i]. pose proof (f_equal fst C) as C1. pose proof (f_equal snd C) as C2. cbn [fst snd] in C1, C2.
  constructor.
  - rewrite period_snoc. cbn [fst snd]. unfold p_next. destruct (i_96 i) as [[[? ?] ?]|]; cbn [q_period]; destruct rst; auto; now rewrite A.
  - rewrite adj_snoc. cbn [fst snd]. unfold p_next. destruct (i_96 i) as [[[? ?] ?]|]; cbn [q_adj]; destruct rst; auto; now rewrite B.
  - rewrite drift_snoc, <- C. cbn [fst snd]. unfold p_next. destruct (i_96 i) as [[[? ?] ?]|]; cbn [q_drift q_rate]; destruct rst; auto; destruct (i_drift i) as [[? ?]|], (p_den c); auto.
  - rewrite wait_snoc, <- C2, <- D. cbn [fst snd]. unfold p_next. destruct (i_96 i) as [[[? ?] ?]|]; reflexivity.
  - unfold lagged. rewrite incs_snoc, app_length. cbn [length]. rewrite Nat.add_1_r. cbn [nth]. rewrite app_nth2 by (rewrite incs_length; lia).
    rewrite incs_length, Nat.sub_diag. cbn [nth]. rewrite <- I. unfold p_next. destruct (i_96 i) as [[[? ?] ?]|]; reflexivity.
  - unfold lagged in *. rewrite incs_snoc, app_length. cbn [length]. rewrite Nat.add_1_r.
    change (0 :: 0 :: incs c h ++ [inc_of c h (rst, i, p_out c s)]) with ((0 :: 0 :: incs c h) ++ [inc_of c h (rst, i, p_out c s)]). rewrite app_nth1 by (cbn [length]; rewrite incs_length; lia). rewrite <- E. unfold p_next. destruct (i_96 i) as [[[? ?] ?]|]; reflexivity.
Qed.

Lemma settings_run c xs : settings c (observe c xs) (st c xs).
Proof.
  induction xs as [|x xs IH] using rev_ind; [constructor; reflexivity|]. rewrite observe_snoc, st_snoc. now apply settings_step.
Qed.

(** * Ranges *)
Lemma width_pos c : cfg_ok c -> 0 <= inc_width c.
Proof. intros (_ & _ & _ & F & _). unfold inc_width, inc_ns_width. pose proof (Z.log2_up_nonneg (2 ^ p_pw c + 2 ^ p_ow c + 2 ^ p_dw c)). lia. Qed.

Lemma inc_range c h x : cfg_ok c -> 0 <= inc_of c h x < 2 ^ inc_width c.
Proof. intro C. unfold inc_of. apply Z.mod_pos_bound. apply Z.pow_pos_nonneg; [lia|]. now apply width_pos. Qed.

Lemma incs_range c h : cfg_ok c -> Forall (fun v => 0 <= v < 2 ^ inc_width c) (lagged c h).
Proof.
  intro C. pose proof (Z.pow_pos_nonneg 2 (inc_width c) ltac:(lia) (width_pos C)). unfold lagged. constructor; [lia|]. constructor; [lia|].
  induction h as [|y h IH] using rev_ind; [constructor|]. rewrite incs_snoc. apply Forall_app. split; auto. constructor; [|constructor]. now apply inc_range.
Qed.

Lemma nth_range c h n : cfg_ok c -> 0 <= nth n (lagged c h) 0 < 2 ^ inc_width c.
Proof.
  intro C. destruct (Nat.lt_ge_cases n (length (lagged c h))) as [L|L].
  - pose proof (incs_range h C) as F. rewrite Forall_forall in F. apply F. now apply nth_In.
  - rewrite nth_overflow by auto. pose proof (Z.pow_pos_nonneg 2 (inc_width c) ltac:(lia) (width_pos C)). lia.
Qed.

Lemma width_small c : cfg_ok c -> 2 ^ inc_width c <= 2 ^ 28 * 2 ^ p_f c.
Proof. intros (_ & _ & _ & F & W & _). rewrite <- Z.pow_add_r by lia. apply Z.pow_le_mono_r; [lia|]. unfold inc_width. lia. Qed.

(** * Bit 30 of the look-ahead *)
Lemma bit_clear k v : 0 <= k -> 0 <= v < 2 ^ (1 + k) -> Z.testbit v k = false -> v < 2 ^ k.
Proof.
  intros K V B. destruct (Z.lt_ge_cases v (2 ^ k)) as [|G]; auto. exfalso.
  assert (Z.testbit v k = true); [|congruence]. rewrite Z.testbit_true by auto. rewrite Z.pow_add_r in V by lia. change (2 ^ 1) with 2 in V.
  pose proof (Z.pow_pos_nonneg 2 k ltac:(lia) K) as P. assert (v / 2 ^ k = 1) as ->; [|reflexivity].
  symmetry. apply Z.div_unique with (v - 2 ^ k); lia.
Qed.
Lemma bit_low k v : 0 <= k -> 0 <= v < 2 ^ k -> Z.testbit v k = false.
Proof. intros K V. rewrite Z.testbit_false by auto. rewrite Z.div_small by lia. reflexivity. Qed.
Lemma bit_high k v : 0 <= k -> 2 ^ k <= v < 2 ^ (1 + k) -> Z.testbit v k = true.
Proof.
  intros K V. destruct (Z.testbit v k) eqn:B; auto. apply bit_clear in B; auto; [lia|]. pose proof (Z.pow_pos_nonneg 2 k). lia.
Qed.

(** * The 96-bit time *)
Definition sec (c : pcfg) (s : pst) : bool := negb (Z.testbit (q_ovf s) (30 + p_f c)).
Definition T (c : pcfg) (s : pst) : Z := q_s s * second c + q_ns s.
Definition peek (c : pcfg) (s : pst) : Z := if sec c s then (q_s s + 1) * second c + q_ovf s else q_s s * second c + q_nsi s.

Record good (c : pcfg) (s : pst) : Prop := {
  g_s : 0 <= q_s s < 2 ^ 48; g_ns : 0 <= q_ns s < second c;
  g_a : sec c s = false -> 0 <= q_nsi s < second c;
  g_b : sec c s = true -> 0 <= q_ovf s < 2 ^ inc_width c }.


Lemma next_iovf c s x : q_iovf (p_next c s x) = (ns_per_s c - q_inc s) mod 2 ^ (31 + p_f c).
Proof. destruct x as [rst i]. unfold p_next. destruct (i_96 i) as [[[? ?] ?]|]; reflexivity. Qed.
Lemma next_dly c s x : q_dly (p_next c s x) = q_inc s.
Proof. destruct x as [rst i]. unfold p_next. destruct (i_96 i) as [[[? ?] ?]|]; reflexivity. Qed.

Lemma frac_pos c : cfg_ok c -> 0 < 2 ^ p_f c.
Proof. intros (_ & _ & _ & F & _). apply Z.pow_pos_nonneg; lia. Qed.
Lemma second_pos c : cfg_ok c -> 0 < second c.
Proof. intro C. pose proof (frac_pos C). unfold second. lia. Qed.
Lemma epoch_pos c : cfg_ok c -> 0 < epoch c.
Proof. intro C. pose proof (second_pos C). unfold epoch. apply Z.mul_pos_pos; auto. reflexivity. Qed.
Lemma pow30 c : cfg_ok c -> 2 ^ (30 + p_f c) = 1073741824 * 2 ^ p_f c.
Proof. intros (_ & _ & _ & F & _). rewrite Z.pow_add_r by lia. reflexivity. Qed.
Lemma pow31 c : cfg_ok c -> 2 ^ (31 + p_f c) = 2147483648 * 2 ^ p_f c.
Proof. intros (_ & _ & _ & F & _). rewrite Z.pow_add_r by lia. reflexivity. Qed.

(** The look-ahead for the second is the other half of the increment. *)
Definition linked (c : pcfg) (s : pst) : Prop := q_iovf s = second c - q_dly s /\ 0 <= q_dly s < 2 ^ inc_width c.

Lemma linked_next c s x : cfg_ok c -> 0 <= q_inc s < 2 ^ inc_width c -> linked c (p_next c s x).
Proof.
  intros C I. unfold linked. rewrite next_iovf, next_dly. split; auto. pose proof (width_small C). pose proof (frac_pos C).
  change (ns_per_s c) with (second c). apply Z.mod_small. rewrite (pow31 C). unfold second. lia.
Qed.

Definition set_in (c : pcfg) (x : bool * pin) : bool := match set96 c x with Some _ => true | None => false end.

Lemma force_bit k v : Z.testbit (Z.setbit v k) k = true \/ k < 0.
Proof. destruct (Z.lt_ge_cases k 0); auto. left. apply Z.setbit_eq. lia. Qed.

Lemma in_fns_spec c f16 : cfg_ok c -> in_fns c f16 = f16 * 2 ^ p_f c / 65536.
Proof.
  intros (_ & _ & _ & F & _). unfold in_fns. destruct (Z.ltb_spec 16 (p_f c)).
  - rewrite Z.shiftl_mul_pow2 by lia. replace (2 ^ p_f c) with (2 ^ (p_f c - 16) * 65536).
    + rewrite Z.mul_assoc, Z.div_mul by lia. reflexivity.
    + change 65536 with (2 ^ 16). rewrite <- Z.pow_add_r by lia. f_equal. lia.
  - rewrite Z.shiftr_div_pow2 by lia. replace 65536 with (2 ^ (16 - p_f c) * 2 ^ p_f c).
    + rewrite Z.div_mul_cancel_r; auto; apply Z.pow_nonzero; lia.
    + rewrite <- Z.pow_add_r by lia. change 65536 with (2 ^ 16). f_equal. lia.
Qed.

Lemma load_range c ns f16 : cfg_ok c -> 0 <= ns < 1000000000 -> 0 <= f16 < 65536 -> 0 <= ns * 2 ^ p_f c + f16 * 2 ^ p_f c / 65536 < second c.
Proof.
  intros C N F. pose proof (frac_pos C) as P. unfold second. assert (0 <= f16 * 2 ^ p_f c / 65536 < 2 ^ p_f c).
  { split; [apply Z.div_pos; lia|]. apply Z.div_lt_upper_bound; [lia|]. nia. }
  nia.
Qed.

Lemma good_set c s x v : cfg_ok c -> in_ok c x -> set96 c x = Some v ->
  good c (p_next c s x) /\ T c (p_next c s x) = v /\ peek c (p_next c s x) = v.
Proof.
  intros C OK E. pose proof (second_pos C) as SP. destruct x as [rst i]. unfold set96 in E. cbn [fst snd] in E.
  assert (K : 0 <= 30 + p_f c) by (destruct C as (? & ? & ? & ? & _); lia).
  destruct rst.
  - injection E as <-. assert (SB : sec c (p_next c s (true, i)) = false).
    { unfold sec, p_next. destruct (i_96 i) as [[[? ?] ?]|]; cbn [q_ovf]; rewrite Z.setbit_eq by lia; reflexivity. }
    assert (A : q_s (p_next c s (true, i)) = 0 /\ q_ns (p_next c s (true, i)) = 0 /\ q_nsi (p_next c s (true, i)) = 0).
    { unfold p_next. destruct (i_96 i) as [[[? ?] ?]|]; auto. }
    destruct A as (A1 & A2 & A3). split; [|unfold T, peek; rewrite SB, A1, A2, A3; lia].
    constructor; rewrite ?SB, ?A1, ?A2, ?A3; intros; try discriminate; try lia.
  - destruct (i_96 i) as [[[ls lns] lf]|] eqn:L; [|discriminate]. injection E as <-. destruct OK as [OK _]. cbn [snd] in OK. destruct (OK _ _ _ L) as (O1 & O2 & O3).
    pose proof (load_range C O2 O3) as LR. rewrite <- in_fns_spec in LR |- * by auto.
    assert (SB : sec c (p_next c s (false, i)) = false).
    { unfold sec, p_next. rewrite L. cbn [q_ovf]. rewrite Z.setbit_eq by lia. reflexivity. }
    assert (A : q_s (p_next c s (false, i)) = ls /\ q_ns (p_next c s (false, i)) = lns * 2 ^ p_f c + in_fns c lf /\ q_nsi (p_next c s (false, i)) = lns * 2 ^ p_f c + in_fns c lf).
    { unfold p_next. rewrite L. auto. }
    destruct A as (A1 & A2 & A3). split; [|unfold T, peek; rewrite SB, A1, A2, A3; unfold second; lia].
    constructor; rewrite ?SB, ?A1, ?A2, ?A3; intros; try discriminate; try lia.
Qed.

Lemma good_step c s x : cfg_ok c -> good c s -> linked c s -> set96 c x = None ->
  good c (p_next c s x) /\ T c (p_next c s x) mod epoch c = peek c s mod epoch c /\
  peek c (p_next c s x) mod epoch c = (peek c s + q_dly s) mod epoch c.
Proof.
  intros C G [K D] E. destruct x as [rst i]. unfold set96 in E. cbn [fst snd] in E. destruct rst; [discriminate|].
  destruct (i_96 i) as [[[? ?] ?]|] eqn:L; [discriminate|]. clear E.
  pose proof (second_pos C) as SP. pose proof (frac_pos C) as FP. pose proof (pow30 C) as P30. pose proof (pow31 C) as P31. pose proof (width_small C) as WS.
  assert (KK : 0 <= 30 + p_f c) by (destruct C as (? & ? & ? & ? & _); lia).
  assert (DY : epoch c = 2 ^ 48 * second c) by reflexivity. change (2 ^ 48) with 281474976710656 in *. change (2 ^ 28) with 268435456 in WS.
  assert (SE : second c = 1000000000 * 2 ^ p_f c) by reflexivity.
  set (s' := p_next c s (false, i)).
  assert (A1 : q_s s' = if sec c s then (q_s s + 1) mod 281474976710656 else q_s s) by (unfold s', p_next; rewrite L; reflexivity).
  assert (A2 : q_ns s' = (if sec c s then q_ovf s else q_nsi s) mod 2 ^ (30 + p_f c)) by (unfold s', p_next; rewrite L; reflexivity).
  assert (A3 : q_nsi s' = ((if sec c s then q_ovf s else q_nsi s) + q_dly s) mod 2 ^ (30 + p_f c)) by (unfold s', p_next; rewrite L; reflexivity).
  assert (A4 : q_ovf s' = if sec c s then Z.setbit ((q_nsi s - q_iovf s) mod 2 ^ (31 + p_f c)) (30 + p_f c) else (q_nsi s - q_iovf s) mod 2 ^ (31 + p_f c))
    by (unfold s', p_next; rewrite L; reflexivity).
  clearbody s'. clear L i. destruct G as [G1 G2 G3 G4]. change (2 ^ 48) with 281474976710656 in G1. destruct (sec c s) eqn:Es.
  - specialize (G4 eq_refl). assert (SB : sec c s' = false) by (unfold sec; rewrite A4, Z.setbit_eq by lia; reflexivity).
    rewrite Z.mod_small in A2, A3 by (rewrite P30; lia).
    assert (MB : 0 <= q_s s' < 281474976710656) by (rewrite A1; apply Z.mod_pos_bound; lia).
    splits.
    + constructor; rewrite ?SB, ?A2, ?A3; intros; try (change (2 ^ 48) with 281474976710656); try discriminate; try lia.
    + unfold T, peek. rewrite Es, A1, A2, DY. destruct (Z.eq_dec (q_s s) 281474976710655) as [->|]; [|rewrite (Z.mod_small (q_s s + 1)) by lia; reflexivity].
      change ((281474976710655 + 1) mod 281474976710656) with 0. change (281474976710655 + 1) with 281474976710656.
      replace (281474976710656 * second c + q_ovf s) with (q_ovf s + 1 * (281474976710656 * second c)) by lia.
      rewrite Z_mod_plus_full. f_equal; lia.
    + unfold peek. rewrite Es, SB, A1, A3, DY. destruct (Z.eq_dec (q_s s) 281474976710655) as [->|]; [|rewrite (Z.mod_small (q_s s + 1)) by lia; f_equal; lia].
      change ((281474976710655 + 1) mod 281474976710656) with 0. change (281474976710655 + 1) with 281474976710656.
      replace (281474976710656 * second c + q_ovf s + q_dly s) with (q_ovf s + q_dly s + 1 * (281474976710656 * second c)) by lia.
      rewrite Z_mod_plus_full. f_equal; lia.
  - specialize (G3 eq_refl). rewrite K in A4.
    replace (q_nsi s - (second c - q_dly s)) with (q_nsi s + q_dly s - second c) in A4 by lia.
    rewrite Z.mod_small in A2 by (rewrite P30; lia).
    destruct (Z.lt_ge_cases (q_nsi s + q_dly s) (second c)) as [LT|GE].
    + rewrite Z.mod_small in A3 by (rewrite P30; lia).
      assert (O : q_ovf s' = q_nsi s + q_dly s - second c + 2 ^ (31 + p_f c)).
      { rewrite A4. symmetry. apply Z.mod_unique with (-1); [left; rewrite P31; lia|lia]. }
      assert (SB : sec c s' = false). { unfold sec. rewrite bit_high; auto. rewrite O. replace (1 + (30 + p_f c)) with (31 + p_f c) by lia. rewrite P30, P31. lia. }
      splits.
      * constructor; rewrite ?SB, ?A1, ?A2, ?A3; intros; try (change (2 ^ 48) with 281474976710656); try discriminate; try lia.
      * unfold T, peek. rewrite Es, A1, A2. reflexivity.
      * unfold peek. rewrite Es, SB, A1, A3. f_equal. lia.
    + rewrite Z.mod_small in A4 by (rewrite P31; lia).
      assert (SB : sec c s' = true). { unfold sec. rewrite bit_low; auto. rewrite A4, P30. lia. }
      splits.
      * constructor; rewrite ?SB, ?A1, ?A2, ?A4; intros; try (change (2 ^ 48) with 281474976710656); try discriminate; try lia.
      * unfold T, peek. rewrite Es, A1, A2. reflexivity.
      * unfold peek. rewrite Es, SB, A1, A4. f_equal. lia.
Qed.

(** * Sums over runs *)
Lemma total_firstn_S l : forall m, (m < length l)%nat -> total (firstn (S m) l) = total (firstn m l) + nth m l 0.
Proof.
  induction l as [|v l IH]; intros m L; [cbn in L; lia|]. destruct m as [|m]; [cbn; lia|]. cbn [length] in L.
  change (firstn (S (S m)) (v :: l)) with (v :: firstn (S m) l). change (firstn (S m) (v :: l)) with (v :: firstn m l). cbn [total fold_right nth].
  fold (total (firstn (S m) l)). fold (total (firstn m l)). rewrite IH by lia. lia.
Qed.
Lemma nth_skipn_any (k : nat) : forall (l : list Z) m, nth m (skipn k l) 0 = nth (k + m) l 0.
Proof. induction k as [|k IH]; intros [|v l] m; cbn [skipn plus nth]; auto; try (now destruct m). Qed.
Lemma window_stable (l r : list Z) k m : (k + m <= length l)%nat -> firstn m (skipn k (l ++ r)) = firstn m (skipn k l).
Proof.
  intro H. rewrite skipn_app, firstn_app, skipn_length. replace (m - (length l - k))%nat with 0%nat by lia. cbn [firstn]. apply app_nil_r.
Qed.
Lemma lagged_snoc c xs y : lagged c (observe c (xs ++ [y])) = lagged c (observe c xs) ++ [inc_of c (observe c xs) (y, p_out c (st c xs))].
Proof. unfold lagged. rewrite observe_snoc, incs_snoc. reflexivity. Qed.
Lemma lagged_length c xs : length (lagged c (observe c xs)) = S (S (length xs)).
Proof. unfold lagged. cbn [length]. now rewrite incs_length, observe_length. Qed.

Lemma q_inc_range c xs : cfg_ok c -> 0 <= q_inc (st c xs) < 2 ^ inc_width c.
Proof. intro C. rewrite (e_inc (settings_run c xs)). now apply nth_range. Qed.

Definition span (c : pcfg) (xs : list (bool * pin)) (k m : nat) : Z := total (firstn m (skipn k (lagged c (observe c xs)))).
Lemma span_S c xs k m : (k + m < length xs + 2)%nat -> span c xs k (S m) = span c xs k m + nth (k + m) (lagged c (observe c xs)) 0.
Proof. intro H. unfold span. rewrite total_firstn_S, nth_skipn_any; auto. rewrite skipn_length, lagged_length. lia. Qed.
Lemma span_snoc c xs y k m : (k + m <= length xs + 2)%nat -> span c (xs ++ [y]) k m = span c xs k m.
Proof. intro H. unfold span. rewrite lagged_snoc, window_stable; auto. rewrite lagged_length. lia. Qed.

Lemma mod_add_eq a b d m : m <> 0 -> a mod m = b mod m -> (a + d) mod m = (b + d) mod m.
Proof. intros M E. rewrite (Z.add_mod a), (Z.add_mod b), E by auto. reflexivity. Qed.

Lemma run96 c a x v : cfg_ok c -> set96 c x = Some v -> forall b, Forall (in_ok c) (a ++ x :: b) ->
  Forall (fun y => set96 c y = None) b ->
  good c (st c (a ++ x :: b)) /\ linked c (st c (a ++ x :: b)) /\
  T c (st c (a ++ x :: b)) mod epoch c = (v + span c (a ++ x :: b) (S (length a)) (length b - 1)) mod epoch c /\
  peek c (st c (a ++ x :: b)) mod epoch c = (v + span c (a ++ x :: b) (S (length a)) (length b)) mod epoch c.
Proof.
  intros C E b. induction b as [|y b IH] using rev_ind; intros OK N.
  - apply Forall_app in OK as [_ OK]. inversion OK; subst. rewrite st_snoc. destruct (@good_set c (st c a) x v) as (G & G1 & G2); auto.
    unfold span. cbn [length Nat.sub firstn total fold_right]. rewrite G1, G2. splits; auto; try (f_equal; lia). apply linked_next; auto. now apply q_inc_range.
  - replace (a ++ x :: b ++ [y]) with ((a ++ x :: b) ++ [y]) in * by (rewrite <- app_assoc; reflexivity).
    apply Forall_app in OK as [OK _]. apply Forall_app in N as [N Ny]. inversion Ny; subst.
    destruct (IH OK N) as (G & L & T1 & P1). rewrite st_snoc. destruct (@good_step c (st c (a ++ x :: b)) y) as (G' & T' & P'); auto.
    pose proof (epoch_pos C) as DP0. assert (DP : epoch c <> 0) by (clear - DP0; lia).
    rewrite app_length. cbn [length]. replace (length b + 1 - 1)%nat with (length b) by lia. replace (length b + 1)%nat with (S (length b)) by lia.
    assert (LN : length (a ++ x :: b) = (length a + S (length b))%nat) by (rewrite app_length; reflexivity).
    splits; auto.
    + apply linked_next; auto. now apply q_inc_range.
    + rewrite T', P1, span_snoc by lia. reflexivity.
    + rewrite P', span_snoc by lia. rewrite span_S by lia. rewrite (e_dly (settings_run c (a ++ x :: b))), observe_length, LN.
      replace (length a + S (length b))%nat with (S (length a) + length b)%nat by lia. rewrite Z.add_assoc. apply mod_add_eq; auto.
Qed.

Lemma next_64 c s x : q_64 (p_next c s x) = match set64 c x with Some v => v | None => (q_64 s + q_inc s) mod 2 ^ (48 + p_f c) end.
Proof. destruct x as [rst i]. unfold p_next, set64. cbn [fst snd]. destruct (i_96 i) as [[[? ?] ?]|], rst, (i_64 i); reflexivity. Qed.

Lemma run64 c a x v : cfg_ok c -> set64 c x = Some v -> forall b, Forall (fun y => set64 c y = None) b ->
  q_64 (st c (a ++ x :: b)) = (v + span c (a ++ x :: b) (S (S (length a))) (length b)) mod 2 ^ (48 + p_f c).
Proof.
  intros C E b. assert (P : 0 < 2 ^ (48 + p_f c)) by (apply Z.pow_pos_nonneg; [lia|]; destruct C as (? & ? & ? & ? & _); lia).
  induction b as [|y b IH] using rev_ind; intros N.
  - rewrite st_snoc, next_64, E. unfold span. cbn [length firstn total fold_right]. rewrite Z.add_0_r. symmetry. apply Z.mod_small.
    unfold set64 in E. destruct (fst x); [injection E as <-; lia|]. destruct (i_64 (snd x)) as [u|]; [|discriminate]. injection E as <-. apply Z.mod_pos_bound; lia.
  - replace (a ++ x :: b ++ [y]) with ((a ++ x :: b) ++ [y]) in * by (rewrite <- app_assoc; reflexivity).
    apply Forall_app in N as [N Ny]. inversion Ny as [|? ? Ey]; subst. rewrite st_snoc, next_64, Ey, (IH N).
    assert (LN : length (a ++ x :: b) = (length a + S (length b))%nat) by (rewrite app_length; reflexivity).
    rewrite app_length. cbn [length]. rewrite Nat.add_1_r, span_snoc, span_S by lia. rewrite (e_inc (settings_run c (a ++ x :: b))), observe_length, LN.
    replace (S (length a + S (length b)))%nat with (S (S (length a)) + length b)%nat by lia. rewrite Z.add_assoc, Zplus_mod_idemp_l. reflexivity.
Qed.

(** * Outputs *)
Lemma shown_split c a b : cfg_ok c -> shown c (a * 2 ^ p_f c + b) = a * 65536 + b / 2 ^ p_f c * 65536 + out_fns c (b mod 2 ^ p_f c).
Proof.
  intro C. pose proof (frac_pos C) as P. unfold shown, out_fns. rewrite Z.shiftr_div_pow2 by (destruct C as (? & ? & ? & ? & _); lia).
  pose proof (Z.div_mod b (2 ^ p_f c) ltac:(lia)) as DM. set (q := b / 2 ^ p_f c) in *. set (r := b mod 2 ^ p_f c) in *. clearbody q r. subst b.
  replace ((a * 2 ^ p_f c + (2 ^ p_f c * q + r)) * 65536) with (r * 65536 + (a * 65536 + q * 65536) * 2 ^ p_f c) by lia.
  rewrite Z.div_add by lia. lia.
Qed.

Lemma out96 c s : cfg_ok c -> time96 (p_out c s) = shown c (T c s).
Proof.
  intro C. unfold T, second. replace (q_s s * (1000000000 * 2 ^ p_f c) + q_ns s) with ((q_s s * 1000000000) * 2 ^ p_f c + q_ns s) by lia.
  rewrite shown_split by auto. unfold time96, p_out. cbn [o_s o_ns o_fns]. lia.
Qed.
Lemma out64 c s : cfg_ok c -> o_64 (p_out c s) = shown c (q_64 s).
Proof. intro C. transitivity (shown c (0 * 2 ^ p_f c + q_64 s)); [rewrite shown_split by auto; cbn [p_out o_64]; lia|f_equal; lia]. Qed.

Lemma fns_range c v : cfg_ok c -> 0 <= out_fns c (v mod 2 ^ p_f c) < 65536.
Proof.
  intro C. pose proof (frac_pos C) as P. pose proof (Z.mod_pos_bound v _ P). unfold out_fns. rewrite Z.shiftr_div_pow2 by (destruct C as (? & ? & ? & ? & _); lia).
  split; [apply Z.div_pos; lia|]. apply Z.div_lt_upper_bound; nia.
Qed.

(** * Observed cycles *)
Lemma observe_mid c xs h x w y : observe c xs = h ++ x :: w ++ [y] ->
  exists a i b z, xs = (a ++ i :: b) ++ [z] /\ length a = length h /\ length b = length w /\ i = fst x /\ map fst w = b /\ map fst h = a /\
    y = (z, p_out c (st c (a ++ i :: b))) /\ h ++ x :: w = observe c (a ++ i :: b).
Proof.
  intro E. replace (h ++ x :: w ++ [y]) with ((h ++ x :: w) ++ [y]) in E by (rewrite <- app_assoc; reflexivity).
  apply observe_inv in E as (xs' & z & -> & E & ->). pose proof (f_equal (map fst) E) as M. rewrite observe_fst, map_app in M. cbn [map] in M.
  exists (map fst h), (fst x), (map fst w), z. rewrite !map_length. subst xs'. auto 10.
Qed.

Lemma elapsed96 c xs h x w y v : cfg_ok c -> Forall (in_ok c) xs -> observe c xs = h ++ x :: w ++ [y] ->
  set96 c (fst x) = Some v -> Forall (fun z : pcycle => set96 c (fst z) = None) w ->
  time96 (snd y) = shown c ((v + total (firstn (length w - 1) (skipn (S (length h)) (lagged c (h ++ x :: w))))) mod epoch c) /\
  0 <= o_s (snd y) < 2 ^ 48 /\ 0 <= o_ns (snd y) < 1000000000 /\ 0 <= o_fns (snd y) < 65536.
Proof.
  intros C OK E V N. destruct (@observe_mid c xs h x w y E) as (a & i & b & z & -> & La & Lb & -> & Mb & Ma & -> & EO).
  apply Forall_app in OK as [OK _]. destruct (@run96 c a (fst x) v C V b OK) as (G & L & T1 & _).
  { rewrite <- Mb. apply Forall_forall. intros u Hu. apply in_map_iff in Hu as (t & <- & Ht). rewrite Forall_forall in N. now apply N. }
  cbn [snd]. rewrite out96 by auto. unfold span in T1. rewrite <- EO, La, Lb in T1. rewrite <- T1.
  destruct G as [G1 G2 _ _]. pose proof (frac_pos C). split; [|split; [|split]].
  - f_equal. symmetry. apply Z.mod_small. unfold T, epoch. change (2 ^ 48) with 281474976710656 in *. nia.
  - exact G1.
  - cbn [p_out o_ns]. unfold second in G2. split; [apply Z.div_pos; lia|apply Z.div_lt_upper_bound; lia].
  - cbn [p_out o_fns]. now apply fns_range.
Qed.

Lemma elapsed64 c xs h x w y v : cfg_ok c -> observe c xs = h ++ x :: w ++ [y] ->
  set64 c (fst x) = Some v -> Forall (fun z : pcycle => set64 c (fst z) = None) w ->
  o_64 (snd y) = shown c ((v + total (firstn (length w) (skipn (length h) (incs c (h ++ x :: w))))) mod 2 ^ (48 + p_f c)).
Proof.
  intros C E V N. destruct (@observe_mid c xs h x w y E) as (a & i & b & z & -> & La & Lb & -> & Mb & Ma & -> & EO).
  cbn [snd]. rewrite out64 by auto. rewrite (@run64 c a (fst x) v C V b).
  - unfold span. rewrite <- EO, La, Lb. unfold lagged. reflexivity.
  - rewrite <- Mb. apply Forall_forall. intros u Hu. apply in_map_iff in Hu as (t & <- & Ht). rewrite Forall_forall in N. now apply N.
Qed.

(** ** Seconds and monotonicity *)
Lemma next_pps c s x : q_pps (p_next c s x) = if fst x then false else sec c s.
Proof. destruct x as [rst i]. unfold p_next, sec. cbn [fst]. destruct (i_96 i) as [[[? ?] ?]|], rst; reflexivity. Qed.
Lemma next_s c s x : set96 c x = None -> q_s (p_next c s x) = if sec c s then (q_s s + 1) mod 2 ^ 48 else q_s s.
Proof. destruct x as [rst i]. unfold set96, p_next, sec. cbn [fst snd]. destruct rst; [discriminate|]. destruct (i_96 i) as [[[? ?] ?]|]; [discriminate|]. reflexivity. Qed.

Lemma pps_seconds c xs h x y : observe c xs = h ++ [x; y] -> set96 c (fst x) = None ->
  o_s (snd y) = if o_pps (snd y) then (o_s (snd x) + 1) mod 2 ^ 48 else o_s (snd x).
Proof.
  intros E N. change (h ++ [x; y]) with (h ++ [x] ++ [y]) in E. rewrite app_assoc in E. apply observe_inv in E as (xs' & z & -> & E & ->).
  symmetry in E. apply observe_inv in E as (xs'' & z' & -> & -> & ->). cbn [fst snd p_out o_s o_pps] in *. rewrite st_snoc, next_pps, next_s by auto.
  unfold set96 in N. destruct (fst z'); [discriminate|]. reflexivity.
Qed.

Lemma T_of c s : cfg_ok c -> good c s -> T c s mod epoch c = T c s /\ 0 <= T c s < epoch c.
Proof.
  intros C G. destruct G as [G1 G2 _ _]. assert (0 <= T c s < epoch c); [|split; auto; now apply Z.mod_small]. unfold T, epoch. change (2 ^ 48) with 281474976710656 in *. nia.
Qed.

Lemma shown_mono c a b : cfg_ok c -> a <= b -> shown c a <= shown c b.
Proof. intros C H. pose proof (frac_pos C). unfold shown. apply Z.div_le_mono; lia. Qed.

Lemma peek_ahead c s : cfg_ok c -> good c s -> T c s <= peek c s -> forall x, set96 c x = None -> linked c s ->
  T c (p_next c s x) <= peek c (p_next c s x) /\ (q_s (p_next c s x) = 0 /\ q_s s = 2 ^ 48 - 1 /\ sec c s = true \/ T c s <= T c (p_next c s x)).
Proof.
  intros C G LE x N L. pose proof (@good_step c s x C G L N) as (G' & T' & P').
  destruct (T_of C G') as [TM TR]. destruct (T_of C G) as [TM0 TR0]. pose proof (second_pos C) as SP. pose proof (width_small C) as WS. pose proof (frac_pos C) as FP.
  assert (Q : T c (p_next c s x) = if sec c s then (if q_s s =? 2 ^ 48 - 1 then q_ovf s else peek c s) else peek c s).
  { unfold T, peek. rewrite next_s by auto. destruct G as [G1 G2 G3 G4]. destruct x as [rst i]. unfold set96 in N. cbn [fst snd] in N. destruct rst; [discriminate|].
    destruct (i_96 i) as [[[? ?] ?]|] eqn:Li; [discriminate|]. unfold p_next. rewrite Li. cbn [q_ns]. fold (sec c s).
    pose proof (pow30 C) as P30. change (2 ^ 28) with 268435456 in WS. unfold second in *. destruct (sec c s) eqn:Es.
    - rewrite (Z.mod_small (q_ovf s)) by (specialize (G4 eq_refl); rewrite P30; clear - G4 WS FP; lia). destruct (Z.eqb_spec (q_s s) (2 ^ 48 - 1)) as [->|NE].
      + change ((2 ^ 48 - 1 + 1) mod 2 ^ 48) with 0. ring.
      + rewrite (Z.mod_small (q_s s + 1)); [reflexivity|]. change (2 ^ 48) with 281474976710656 in *. lia.
    - rewrite (Z.mod_small (q_nsi s)) by (specialize (G3 eq_refl); rewrite P30; clear - G3 FP; lia). reflexivity. }
  split.
  - (* the state ahead of the new one *)
    destruct x as [rst i]. unfold set96 in N. cbn [fst snd] in N. destruct rst; [discriminate|]. destruct (i_96 i) as [[[? ?] ?]|] eqn:Li; [discriminate|].
    set (s' := p_next c s (false, i)) in *. destruct G as [G1 G2 G3 G4]. destruct G' as [H1 H2 H3 H4]. destruct L as [K D]. clear TM TR TM0 TR0 Q T' P'. change (2 ^ 48) with 281474976710656 in *.
    assert (A2 : q_ns s' = (if sec c s then q_ovf s else q_nsi s) mod 2 ^ (30 + p_f c)) by (unfold s', p_next; rewrite Li; reflexivity).
    assert (A3 : q_nsi s' = ((if sec c s then q_ovf s else q_nsi s) + q_dly s) mod 2 ^ (30 + p_f c)) by (unfold s', p_next; rewrite Li; reflexivity).
    assert (A4 : q_ovf s' = if sec c s then Z.setbit ((q_nsi s - q_iovf s) mod 2 ^ (31 + p_f c)) (30 + p_f c) else (q_nsi s - q_iovf s) mod 2 ^ (31 + p_f c))
      by (unfold s', p_next; rewrite Li; reflexivity).
    pose proof (pow30 C) as P30. change (2 ^ 28) with 268435456 in WS.
    unfold T, peek. destruct (sec c s') eqn:Es'; [specialize (H4 eq_refl); lia|].
    assert (q_ns s' <= q_nsi s'); [|lia]. rewrite A2, A3. unfold second in *. destruct (sec c s) eqn:Es.
    + specialize (G4 eq_refl). rewrite !Z.mod_small by (rewrite P30; lia). lia.
    + specialize (G3 eq_refl). rewrite K in A4. destruct (Z.lt_ge_cases (q_nsi s + q_dly s) (1000000000 * 2 ^ p_f c)) as [LT|GE].
      * rewrite !Z.mod_small by (rewrite P30; lia). lia.
      * exfalso. assert (sec c s' = true); [|congruence]. unfold sec. pose proof (pow31 C) as P31. rewrite A4, Z.mod_small by (rewrite P31; lia).
        rewrite bit_low; auto; [destruct C as (? & ? & ? & ? & _); lia|]. rewrite P30. lia.
  - rewrite Q. destruct (sec c s) eqn:Es; [|auto]. destruct (Z.eqb_spec (q_s s) (2 ^ 48 - 1)) as [E48|]; auto. left. split; [|split]; auto.
    rewrite next_s, Es, E48 by auto. reflexivity.
Qed.

Lemma run_ahead c a x : cfg_ok c -> set96 c x <> None -> forall b, Forall (in_ok c) (a ++ x :: b) -> Forall (fun y => set96 c y = None) b ->
  T c (st c (a ++ x :: b)) <= peek c (st c (a ++ x :: b)).
Proof.
  intros C E b. destruct (set96 c x) as [v|] eqn:V; [|congruence]. induction b as [|y b IH] using rev_ind; intros OK N.
  - apply Forall_app in OK as [_ OK]. inversion OK; subst. rewrite st_snoc. destruct (@good_set c (st c a) x v) as (_ & G1 & G2); auto. lia.
  - replace (a ++ x :: b ++ [y]) with ((a ++ x :: b) ++ [y]) in * by (rewrite <- app_assoc; reflexivity).
    apply Forall_app in OK as [OK _]. apply Forall_app in N as [N Ny]. inversion Ny; subst.
    destruct (@run96 c a x v C V b OK N) as (G & L & _ & _). rewrite st_snoc. now destruct (@peek_ahead c (st c (a ++ x :: b)) C G (IH OK N) y).
Qed.

Lemma monotonic c xs h x w y z : cfg_ok c -> Forall (in_ok c) xs -> observe c xs = h ++ x :: w ++ [y; z] ->
  set96 c (fst x) <> None -> Forall (fun z : pcycle => set96 c (fst z) = None) (w ++ [y]) ->
  time96 (snd y) <= time96 (snd z) \/ (o_s (snd y) = 2 ^ 48 - 1 /\ o_s (snd z) = 0 /\ o_pps (snd z) = true).
Proof.
  intros C OK E V N. replace (h ++ x :: w ++ [y; z]) with (h ++ x :: (w ++ [y]) ++ [z]) in E by (rewrite <- app_assoc; reflexivity).
  pose proof E as E2. destruct (@observe_mid c xs h x (w ++ [y]) z E) as (a & i & b & zz & -> & La & Lb & -> & Mb & Ma & -> & EO).
  rewrite map_app in Mb. cbn [map] in Mb. set (b0 := map fst w) in *. subst b.
  replace (h ++ x :: w ++ [y]) with ((h ++ x :: w) ++ [y]) in EO by (rewrite <- app_assoc; reflexivity).
  replace (a ++ fst x :: b0 ++ [fst y]) with ((a ++ fst x :: b0) ++ [fst y]) in * by (rewrite <- app_assoc; reflexivity).
  rewrite observe_snoc in EO. apply app_inj_tail in EO as [_ EY].
  apply Forall_app in OK as [OK _]. apply Forall_app in OK as [OK _]. apply Forall_app in N as [N Ny]. inversion Ny as [|? ? Ey _]; subst.
  destruct (set96 c (fst x)) as [v|] eqn:Ex; [|congruence].
  assert (NB : Forall (fun y0 => set96 c y0 = None) b0).
  { unfold b0. apply Forall_forall. intros u Hu. apply in_map_iff in Hu as (t & <- & Ht). rewrite Forall_forall in N. now apply N. }
  destruct (@run96 c (map fst h) (fst x) v C Ex b0 OK NB) as (G & L & _ & _).
  assert (R : T c (st c (map fst h ++ fst x :: b0)) <= peek c (st c (map fst h ++ fst x :: b0))) by (apply run_ahead; auto; congruence).
  destruct (@peek_ahead c _ C G R (fst y) Ey L) as [_ PA]. rewrite EY. cbn [fst snd]. rewrite st_snoc.
  destruct PA as [(P1 & P2 & P3)|PA]; [right|left].
  - cbn [p_out o_s o_pps]. rewrite next_pps, P3. unfold set96 in Ey. destruct (fst (fst y)); [discriminate|]. auto.
  - rewrite !out96 by auto. now apply shown_mono.
Qed.

(** * Offset adjustment, step flag *)
Lemma next_count c s x : q_count (p_next c s x) = if fst x then 0 else if 0 <? q_count s then q_count s - 1 else match i_adj (snd x) with Some (_, n) => n | None => q_count s end.
Proof. destruct x as [rst i]. unfold p_next. cbn [fst snd]. destruct (i_96 i) as [[[? ?] ?]|]; reflexivity. Qed.
Lemma next_active c s x : q_active (p_next c s x) = if fst x then false else 0 <? q_count s.
Proof. destruct x as [rst i]. unfold p_next. cbn [fst snd]. destruct (i_96 i) as [[[? ?] ?]|]; reflexivity. Qed.
Lemma next_step c s x : q_step (p_next c s x) = if fst x then false else (0 <? q_count s) || (match i_96 (snd x) with Some _ => true | None => false end) || (match i_64 (snd x) with Some _ => true | None => false end).
Proof. destruct x as [rst i]. unfold p_next. cbn [fst snd]. destruct (i_96 i) as [[[? ?] ?]|]; reflexivity. Qed.

Lemma count_range c xs : Forall (in_ok c) xs -> 0 <= q_count (st c xs) < 65536.
Proof.
  induction xs as [|x xs IH] using rev_ind; intro OK; [cbn; lia|]. apply Forall_app in OK as [OK Ox]. inversion Ox as [|? ? O1 _]; subst.
  specialize (IH OK). rewrite st_snoc, next_count. destruct (fst x); [lia|]. destruct (Z.ltb_spec 0 (q_count (st c xs))); [lia|].
  destruct (i_adj (snd x)) as [[v n]|] eqn:E; [|lia]. destruct O1 as (_ & _ & _ & O1 & _). destruct (O1 _ _ E). lia.
Qed.

Lemma two_last c xs h x y : observe c xs = h ++ [x; y] -> exists xs0, xs = (xs0 ++ [fst x]) ++ [fst y] /\ h = observe c xs0 /\
  snd x = p_out c (st c xs0) /\ snd y = p_out c (st c (xs0 ++ [fst x])).
Proof.
  intro E. change (h ++ [x; y]) with (h ++ [x] ++ [y]) in E. rewrite app_assoc in E. apply observe_inv in E as (xs' & z & -> & E & ->).
  symmetry in E. apply observe_inv in E as (xs'' & z' & -> & -> & ->). exists xs''. auto.
Qed.

Lemma step_flag c xs h x y : observe c xs = h ++ [x; y] -> fst (fst x) = false ->
  o_step (snd y) = o_active (snd y) || (match i_96 (snd (fst x)) with Some _ => true | None => false end) || (match i_64 (snd (fst x)) with Some _ => true | None => false end).
Proof.
  intros E R. destruct (@two_last c _ _ _ _ E) as (xs0 & -> & _ & _ & ->). cbn [p_out o_step o_active]. rewrite st_snoc, next_step, next_active, R. reflexivity.
Qed.

Lemma app_same_length {A} (a b a' b' : list A) : a ++ b = a' ++ b' -> length a = length a' -> a = a' /\ b = b'.
Proof.
  revert a'. induction a as [|u a IH]; intros [|u' a'] E L; try discriminate; auto. cbn [app length] in *. injection E as <- E. injection L as L.
  destruct (IH _ E L). subst. auto.
Qed.
Lemma observe_at c a i b h x w : observe c (a ++ i :: b) = h ++ x :: w -> length h = length a -> h = observe c a /\ x = (i, p_out c (st c a)).
Proof.
  intros E L. replace (h ++ x :: w) with ((h ++ [x]) ++ w) in E by (rewrite <- app_assoc; reflexivity).
  destruct (@observe_prefix c _ _ _ E) as (a' & b' & E1 & E2). assert (L' : length a' = length (a ++ [i])).
  { apply (f_equal (@length _)) in E2. rewrite observe_length in E2. rewrite <- E2, !app_length, L. reflexivity. }
  replace (a ++ i :: b) with ((a ++ [i]) ++ b) in E1 by (rewrite <- app_assoc; reflexivity). symmetry in E1.
  destruct (@app_same_length _ _ _ _ _ E1 L') as [-> _]. rewrite observe_snoc in E2. apply app_inj_tail in E2. destruct E2 as [-> ->]. auto.
Qed.

Lemma adjustment c xs h x w y v n : Forall (in_ok c) xs -> observe c xs = h ++ x :: w ++ [y] ->
  (forall h' x0, h = h' ++ [x0] -> fst (fst x0) = true \/ i_adj (snd (fst x0)) = None) -> o_active (snd x) = false ->
  fst (fst x) = false -> i_adj (snd (fst x)) = Some (v, n) ->
  Forall (fun z : pcycle => fst (fst z) = false /\ i_adj (snd (fst z)) = None) w ->
  o_active (snd y) = (1 <=? Z.of_nat (length w)) && (Z.of_nat (length w) <=? n).
Proof.
  intros OK E P A R J N. destruct (@observe_mid c xs h x w y E) as (a & i & b & z & -> & La & Lb & -> & Mb & Ma & -> & EO).
  apply Forall_app in OK as [OK _]. symmetry in EO. destruct (@observe_at c _ _ _ _ _ _ EO (eq_sym La)) as [Eh Ex].
  assert (C0 : q_count (st c a) = 0).
  { destruct a as [|u a _] using rev_ind; [reflexivity|]. apply Forall_app in OK as [OK _]. apply Forall_app in OK as [OK _].
    pose proof (count_range OK) as CR. rewrite Ex in A. cbn [snd p_out o_active] in A. rewrite st_snoc, next_active in A. rewrite st_snoc, next_count.
    rewrite observe_snoc in Eh. specialize (P _ _ Eh). cbn [fst] in P. destruct (fst u) eqn:Ru; auto.
    rewrite A. destruct P as [P|P]; [congruence|]. rewrite P. apply Z.ltb_ge in A. lia. }
  assert (NN : 0 <= n < 65536).
  { apply Forall_app in OK as [_ OK]. inversion OK as [|? ? O1 _]; subst. destruct O1 as (_ & _ & _ & O1 & _). now destruct (O1 _ _ J). }
  assert (NB : Forall (fun u => fst u = false /\ i_adj (snd u) = None) b).
  { rewrite <- Mb. apply Forall_forall. intros u Hu. apply in_map_iff in Hu as (t & <- & Ht). rewrite Forall_forall in N. now apply N. }
  cbn [snd p_out o_active]. rewrite <- Lb. clear - C0 NN NB R J.
  assert (G : q_count (st c (a ++ fst x :: b)) = Z.max 0 (n - Z.of_nat (length b)) /\
    q_active (st c (a ++ fst x :: b)) = (1 <=? Z.of_nat (length b)) && (Z.of_nat (length b) <=? n)); [|apply G].
  induction b as [|u b IH] using rev_ind.
  - rewrite st_snoc, next_count, next_active, R, C0, J. cbn. split; [lia|reflexivity].
  - apply Forall_app in NB as [NB Nu]. inversion Nu as [|? ? [N1 N2] _]; subst. destruct (IH NB) as [I1 I2].
    replace (a ++ fst x :: b ++ [u]) with ((a ++ fst x :: b) ++ [u]) by (rewrite <- app_assoc; reflexivity).
    rewrite st_snoc, next_count, next_active, N1, N2, I1, app_length. cbn [length]. clear I1 I2 IH. split.
    + destruct (Z.ltb_spec 0 (Z.max 0 (n - Z.of_nat (length b)))); lia.
    + destruct (Z.ltb_spec 0 (Z.max 0 (n - Z.of_nat (length b)))); lia.
Qed.

(** * Drift *)
Lemma drift_regular c h x w : fst (fst x) = true -> Forall (fun z : pcycle => fst (fst z) = false /\ i_drift (snd (fst z)) = None) w -> cfg_ok c -> p_den c = true ->
  drift_on c (h ++ x :: w) = (Z.of_nat (length w) mod (if p_rate c =? 0 then 65536 else p_rate c) =? 0).
Proof.
  intros R N C DE. pose proof C as (_ & _ & _ & _ & _ & _ & _ & RR). set (r := if p_rate c =? 0 then 65536 else p_rate c).
  assert (R1 : 1 <= r <= 65536) by (unfold r; destruct (Z.eqb_spec (p_rate c) 0); lia).
  assert (RM : (p_rate c - 1) mod 65536 = r - 1).
  { unfold r. destruct (Z.eqb_spec (p_rate c) 0) as [->|]; [reflexivity|]. apply Z.mod_small. lia. }
  assert (G : drift_at c (h ++ x :: w) = (p_drift c, p_rate c) /\ drift_wait c (rev (h ++ x :: w)) = (r - Z.of_nat (length w) mod r) mod r).
  { induction w as [|y w IH] using rev_ind.
    - rewrite drift_snoc, wait_snoc, R. split; auto. cbn [length]. change (Z.of_nat 0) with 0. rewrite Z.mod_0_l, Z.sub_0_r, Z_mod_same_full by lia. reflexivity.
    - apply Forall_app in N as [N Ny]. inversion Ny as [|? ? [N1 N2] _]; subst. destruct (IH N) as [I1 I2].
      replace (h ++ x :: w ++ [y]) with ((h ++ x :: w) ++ [y]) by (rewrite <- app_assoc; reflexivity).
      rewrite drift_snoc, wait_snoc, N1, N2, I1, I2. split; auto. cbn [snd]. rewrite RM, app_length. cbn [length]. rewrite Nat2Z.inj_add. change (Z.of_nat 1) with 1.
      clear - R1. generalize (Z.of_nat (length w)) (Nat2Z.is_nonneg (length w)). intros m Hm.
      pose proof (Z.mod_pos_bound m r ltac:(lia)) as B. set (k := m mod r) in *.
      assert (E1 : (m + 1) mod r = (k + 1) mod r) by (unfold k; rewrite Zplus_mod_idemp_l; reflexivity). rewrite E1. clearbody k. clear E1.
      destruct (Z.eq_dec k 0) as [->|K0].
      + rewrite Z.sub_0_r, Z_mod_same_full. cbn [Z.eqb]. change (0 + 1) with 1. destruct (Z.eq_dec r 1) as [->|]; [reflexivity|].
        rewrite (Z.mod_small 1), Z.mod_small by lia. lia.
      + rewrite (Z.mod_small (r - k)) by lia. destruct (Z.eqb_spec (r - k) 0); [lia|]. destruct (Z.eq_dec (k + 1) r) as [E|E].
        * rewrite E, Z_mod_same_full, Z.sub_0_r, Z_mod_same_full. lia.
        * rewrite (Z.mod_small (k + 1)), Z.mod_small by lia. lia. }
  destruct G as [_ G]. unfold drift_on. rewrite DE, G. cbn [andb]. pose proof (Z.mod_pos_bound (Z.of_nat (length w)) r ltac:(lia)) as B.
  destruct (Z.eqb_spec (Z.of_nat (length w) mod r) 0) as [->|NE].
  - rewrite Z.sub_0_r, Z_mod_same_full. reflexivity.
  - rewrite Z.mod_small by lia. apply Z.eqb_neq. lia.
Qed.

(** * The increment *)
Lemma twos_range w v : 0 < w -> 0 <= v < 2 ^ w -> - 2 ^ (w - 1) <= twos w v < 2 ^ (w - 1).
Proof.
  intros W V. unfold twos. assert (2 ^ w = 2 * 2 ^ (w - 1)) by (replace w with (1 + (w - 1)) at 1 by lia; rewrite Z.pow_add_r by lia; reflexivity).
  destruct (Z.ltb_spec v (2 ^ (w - 1))); lia.
Qed.

Lemma settings_range c xs : cfg_ok c -> Forall (in_ok c) xs ->
  0 <= period_at c (observe c xs) < 2 ^ (p_pw c + p_f c) /\ 0 <= adj_at (observe c xs) < 2 ^ (p_ow c + p_f c) /\ 0 <= fst (drift_at c (observe c xs)) < 2 ^ (p_dw c + p_f c).
Proof.
  intros C OK. pose proof C as (A1 & A2 & A3 & A4 & _ & A5 & A6 & _). pose proof (Z.pow_pos_nonneg 2 (p_ow c + p_f c) ltac:(lia) ltac:(lia)) as P.
  induction xs as [|x xs IH] using rev_ind; [cbn [observe period_at adj_at drift_at fold_left trace combine fst]; lia|].
  apply Forall_app in OK as [OK Ox]. inversion Ox as [|? ? O1 _]; subst. destruct O1 as (_ & _ & O1 & O2 & O3). destruct (IH OK) as (I1 & I2 & I3).
  rewrite observe_snoc, period_snoc, adj_snoc, drift_snoc. cbn [fst snd]. destruct (fst x); [cbn [fst]; lia|]. splits; try lia.
  - destruct (i_period (snd x)) eqn:E; [now apply O1|lia].
  - destruct (i_period (snd x)) eqn:E; [now apply O1|lia].
  - destruct (i_adj (snd x)) as [[? ?]|] eqn:E; [now apply (O2 _ _ eq_refl)|lia].
  - destruct (i_adj (snd x)) as [[? ?]|] eqn:E; [now apply (O2 _ _ eq_refl)|lia].
  - destruct (i_drift (snd x)) as [[? ?]|] eqn:E; [destruct (p_den c); [now apply (O3 _ _ eq_refl)|lia]|lia].
  - destruct (i_drift (snd x)) as [[? ?]|] eqn:E; [destruct (p_den c); [now apply (O3 _ _ eq_refl)|lia]|lia].
Qed.

Lemma increment_exact c xs h x w : cfg_ok c -> Forall (in_ok c) xs -> observe c xs = h ++ x :: w -> 0 <= rate_of c h x -> inc_of c h x = rate_of c h x.
Proof.
  intros C OK E NN. apply observe_prefix in E as (a & b & -> & ->). apply Forall_app in OK as [OK _]. destruct (settings_range C OK) as (I1 & I2 & I3).
  pose proof C as (A1 & A2 & A3 & A4 & _). unfold inc_of. apply Z.mod_small. split; auto. unfold rate_of.
  pose proof (@twos_range (p_ow c + p_f c) (adj_at (observe c a)) ltac:(lia) I2) as T1.
  pose proof (@twos_range (p_dw c + p_f c) (fst (drift_at c (observe c a))) ltac:(lia) I3) as T2.
  assert (H : forall w, 0 < w -> 2 ^ (w + p_f c) = 2 * 2 ^ (w + p_f c - 1) /\ 0 < 2 ^ (w + p_f c - 1) /\ 2 ^ (w + p_f c) = 2 ^ w * 2 ^ p_f c).
  { intros u U. split; [|split; [apply Z.pow_pos_nonneg; lia|apply Z.pow_add_r; lia]]. replace (u + p_f c) with (1 + (u + p_f c - 1)) at 1 by lia. rewrite Z.pow_add_r by lia. reflexivity. }
  pose proof (H _ A1) as (P1 & P2 & P3). pose proof (H _ A2) as (O1 & O2 & O3). pose proof (H _ A3) as (D1 & D2 & D3). clear H.
  assert (IW : (2 ^ p_pw c + 2 ^ p_ow c + 2 ^ p_dw c) * 2 ^ p_f c <= 2 ^ inc_width c).
  { unfold inc_width. rewrite Z.pow_add_r; [|apply Z.log2_up_nonneg|lia]. apply Z.mul_le_mono_nonneg_r; [apply Z.pow_nonneg; lia|].
    apply Z.log2_up_spec. pose proof (Z.pow_pos_nonneg 2 (p_pw c)). pose proof (Z.pow_pos_nonneg 2 (p_ow c)). assert (2 ^ 1 <= 2 ^ p_dw c) by (apply Z.pow_le_mono_r; lia). lia. }
  clear NN. destruct (o_active (snd x)), (drift_on c (observe c a)); lia.
Qed.

(** * The output pipeline *)
Definition pst_of (c : pcfg) (n : nat) (xs : list (bool * pin)) := fst (trace (pp_step c) (pp_init c n) xs).
Lemma pst_snoc c n xs x : pst_of c n (xs ++ [x]) = fst (pp_step c (pst_of c n xs) x).
Proof. unfold pst_of. rewrite trace_app. destruct (trace (pp_step c) (pp_init c n) xs) as [s os]. cbn [trace fst]. destruct (pp_step c s x). reflexivity. Qed.
Lemma pobserve_snoc c n xs x : observe_pipelined c n (xs ++ [x]) = observe_pipelined c n xs ++ [(x, snd (pp_step c (pst_of c n xs) x))].
Proof.
  unfold observe_pipelined, pst_of. rewrite trace_app. pose proof (@trace_length _ _ _ (pp_step c) xs (pp_init c n)) as L.
  destruct (trace (pp_step c) (pp_init c n) xs) as [s os]. cbn [trace fst snd] in *. destruct (pp_step c s x) as [s' o]. cbn [snd].
  revert os L. induction xs as [|y xs IH]; intros [|o' os] L; cbn in L; try discriminate; auto.
  cbn [app combine]. now rewrite IH by congruence.
Qed.

Lemma pst_fst c n xs : fst (pst_of c n xs) = st c xs.
Proof. induction xs as [|x xs IH] using rev_ind; auto. rewrite pst_snoc, st_snoc, <- IH. destruct (pst_of c n xs). reflexivity. Qed.
Lemma removelast_length {A} (l : list A) : length (removelast l) = (length l - 1)%nat.
Proof. induction l as [|x [|y l] IH]; auto. cbn [removelast length] in *. rewrite IH. lia. Qed.
Lemma pipe_length c n xs : length (snd (pst_of c n xs)) = n.
Proof.
  induction xs as [|x xs IH] using rev_ind; [cbn; apply repeat_length|]. rewrite pst_snoc. destruct (pst_of c n xs) as [s p]. cbn [pp_step fst snd] in *.
  destruct (fst x); [now rewrite map_length|]. rewrite removelast_length. cbn [length]. lia.
Qed.

Lemma nth_removelast {A} (l : list A) d : forall k, (S k < length l)%nat -> nth k (removelast l) d = nth k l d.
Proof.
  induction l as [|x l IH]; intros k L; [cbn in L; lia|]. destruct l as [|y l]; [cbn in L; lia|]. destruct k as [|k]; [reflexivity|].
  cbn [removelast nth] in *. apply IH. cbn [length] in *. lia.
Qed.

Lemma pipe_nth c n a b : Forall (fun x : bool * pin => fst x = false) b -> forall k, (k < n)%nat -> (k < length b)%nat ->
  nth k (snd (pst_of c n (a ++ b))) blank = p_out c (st c (firstn (length (a ++ b) - 1 - k) (a ++ b))).
Proof.
  induction b as [|x b IH] using rev_ind; intros F k K L; [cbn in L; lia|]. apply Forall_app in F as [F Fx]. inversion Fx as [|? ? Rx _]; subst.
  rewrite app_assoc, pst_snoc. pose proof (pipe_length c n (a ++ b)) as PL. pose proof (pst_fst c n (a ++ b)) as PF. specialize (IH F).
  destruct (pst_of c n (a ++ b)) as [s p] eqn:EP. cbn [fst snd pp_step] in *. rewrite Rx, nth_removelast by (cbn [length]; lia). subst s.
  rewrite app_length. cbn [length]. destruct k as [|k]; cbn [nth].
  - replace (length (a ++ b) + 1 - 1 - 0)%nat with (length (a ++ b)) by lia. rewrite firstn_app, firstn_all, Nat.sub_diag. cbn [firstn]. now rewrite app_nil_r.
  - rewrite app_length in L. cbn [length] in L. rewrite IH by lia. rewrite (firstn_app _ (a ++ b)).
    replace (length (a ++ b) + 1 - 1 - S k - length (a ++ b))%nat with 0%nat by lia. cbn [firstn]. rewrite app_nil_r. do 3 f_equal. lia.
Qed.


Lemma outs_nth c xs t : (t < length xs)%nat -> nth t (map snd (observe c xs)) blank = p_out c (st c (firstn t xs)).
Proof.
  induction xs as [|x xs IH] using rev_ind; intro L; [cbn in L; lia|]. rewrite observe_snoc, map_app. rewrite app_length in L. cbn [length] in L.
  destruct (Nat.eq_dec t (length xs)) as [->|NE].
  - rewrite app_nth2 by (rewrite map_length, observe_length; lia). rewrite map_length, observe_length, Nat.sub_diag. cbn [map nth snd].
    rewrite firstn_app, firstn_all, Nat.sub_diag. cbn [firstn]. now rewrite app_nil_r.
  - rewrite app_nth1 by (rewrite map_length, observe_length; lia). rewrite IH by lia. rewrite firstn_app. replace (t - length xs)%nat with 0%nat by lia. cbn [firstn]. now rewrite app_nil_r.
Qed.
Lemma pouts_nth c n xs t : (t < length xs)%nat ->
  nth t (map snd (observe_pipelined c n xs)) blank = with_active (last (snd (pst_of c n (firstn t xs))) (p_out c (st c (firstn t xs)))) (q_active (st c (firstn t xs))).
Proof.
  assert (PL : forall ys, length (observe_pipelined c n ys) = length ys) by (intro ys; unfold observe_pipelined; rewrite combine_length, trace_length; lia).
  induction xs as [|x xs IH] using rev_ind; intro L; [cbn in L; lia|]. rewrite pobserve_snoc, map_app. rewrite app_length in L. cbn [length] in L.
  destruct (Nat.eq_dec t (length xs)) as [->|NE].
  - rewrite app_nth2 by (rewrite map_length, PL; lia). rewrite map_length, PL, Nat.sub_diag. cbn [map nth snd].
    rewrite firstn_app, firstn_all, Nat.sub_diag. cbn [firstn]. rewrite app_nil_r. pose proof (pst_fst c n xs) as F. destruct (pst_of c n xs) as [s p]. cbn [fst] in F. subst s. reflexivity.
  - rewrite app_nth1 by (rewrite map_length, PL; lia). rewrite IH by lia. rewrite firstn_app. replace (t - length xs)%nat with 0%nat by lia. cbn [firstn]. now rewrite app_nil_r.
Qed.

Lemma last_as_nth {A} (l : list A) d d' : l <> [] -> last l d = nth (length l - 1) l d'.
Proof. induction l as [|x [|y l] IH]; intro H; [congruence|reflexivity|]. change (last (x :: y :: l) d) with (last (y :: l) d). rewrite IH by discriminate. cbn [length Nat.sub nth]. rewrite Nat.sub_0_r. reflexivity. Qed.

Lemma pipelined c n xs t : (n <= t < length xs)%nat -> Forall (fun x : bool * pin => fst x = false) (firstn n (skipn (t - n) xs)) ->
  nth t (map snd (observe_pipelined c n xs)) blank =
    with_active (nth (t - n) (map snd (observe c xs)) blank) (o_active (nth t (map snd (observe c xs)) blank)).
Proof.
  intros [L1 L2] F. rewrite pouts_nth, !outs_nth by lia. cbn [p_out o_active]. f_equal. destruct n as [|n].
  - rewrite Nat.sub_0_r. pose proof (pipe_length c 0 (firstn t xs)) as PL. destruct (snd (pst_of c 0 (firstn t xs))); [reflexivity|discriminate].
  - rewrite (@last_as_nth _ _ _ blank); [|intro E; pose proof (pipe_length c (S n) (firstn t xs)) as PL; rewrite E in PL; discriminate].
    rewrite pipe_length. assert (SP : firstn t xs = firstn (t - S n) xs ++ firstn (S n) (skipn (t - S n) xs)).
    { rewrite <- (firstn_skipn (t - S n) xs) at 1. rewrite firstn_app, firstn_firstn, firstn_length. f_equal; f_equal; lia. }
    rewrite SP, pipe_nth; auto; try lia.
    + rewrite <- SP, firstn_length, firstn_firstn. f_equal. f_equal. f_equal. lia.
    + rewrite firstn_length, skipn_length. lia.
Qed.
