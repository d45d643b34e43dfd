(** Proofs about the statistics counter memory. *)
From Verif Require Import Base.Prelude Nic.StatsCounter_model Nic.StatsCounter_spec.
Local Open Scope Z_scope.

Definition st (c : sccfg) (xs : list (bool * scin)) : scst := fst (trace (sc_step c) (sc_init c) xs).
Definition outs (s : scst) : scout := mkScOut (c_tready s) (c_arready s) (c_rvalid s) (c_rdata s) (c_wready s) (c_bvalid s).
Definition nxt c s x : scst := fst (sc_step c s x).

Lemma step_out c s x : sc_step c s x = (nxt c s x, outs s).
Proof. destruct x as [rst i]. reflexivity. Qed.

Lemma st_snoc c xs x : st c (xs ++ [x]) = nxt c (st c xs) x.
Proof.
  unfold st. rewrite trace_app. destruct (trace (sc_step c) (sc_init c) xs) as [s os]. cbn [trace]. rewrite step_out. reflexivity.
Qed.

Lemma observe_snoc c xs x : observe c (xs ++ [x]) = observe c xs ++ [(x, outs (st c xs))].
Proof.
  unfold observe, st. rewrite trace_app. pose proof (@trace_length _ _ _ (sc_step c) xs (sc_init c)) as L.
  destruct (trace (sc_step c) (sc_init c) xs) as [s os]. cbn [trace]. rewrite step_out. cbn [fst snd] in *.
  revert os L. induction xs as [|y xs IH]; intros [|o os] L; cbn in L; try discriminate; auto.
  cbn [app combine]. now rewrite IH by congruence.
Qed.

Lemma observe_inv c xs h cy : observe c xs = h ++ [cy] ->
  exists xs' x, xs = xs' ++ [x] /\ h = observe c xs' /\ cy = (x, outs (st c xs')).
Proof.
  destruct xs as [|x xs _] using rev_ind; intro E.
  - destruct h; discriminate.
  - rewrite observe_snoc in E. apply app_inj_tail in E as [<- <-]. eauto.
Qed.

(** * Histories *)
Lemma live_snoc h (x : ccycle) : live (h ++ [x]) = if fst (fst x) then [] else live h ++ [x].
Proof. unfold live. rewrite fold_left_app. reflexivity. Qed.

Definition hs1 (x : ccycle) : option (Z * Z) := let '(_, i, o) := x in if so_tready o then si_stat i else None.
Definition tot1 (id : Z) (o : option (Z * Z)) : Z := match o with Some (id', n) => if id' =? id then n else 0 | None => 0 end.
Fixpoint tot (id : Z) (l : list (option (Z * Z))) : Z := match l with [] => 0 | o :: t => tot1 id o + tot id t end.

Lemma tot_app id a b : tot id (a ++ b) = tot id a + tot id b.
Proof. induction a as [|x a IH]; cbn [app tot]; [|rewrite IH]; lia. Qed.

Lemma added_tot id h : added id h = tot id (map hs1 h).
Proof.
  unfold added. induction h as [|x h IH] using rev_ind; auto. rewrite fold_left_app, map_app, tot_app, <- IH. cbn [fold_left map tot].
  destruct x as [[rst i] o]. rewrite Z.add_0_r. f_equal. unfold hs1. destruct (so_tready o), (si_stat i) as [[id' n]|]; reflexivity.
Qed.

Lemma returned_snoc l rst i o : returned (l ++ [(rst, i, o)]) = returned l ++ if so_rvalid o && si_rready i then [so_rdata o] else [].
Proof. unfold returned. rewrite map_app, concat_app. cbn [map concat]. now rewrite app_nil_r. Qed.

Lemma value_at_app c l x t a : (t <= length l)%nat -> value_at c (l ++ x) t a = value_at c l t a.
Proof. intro H. unfold value_at. rewrite firstn_app. replace (t - sc_p c - length l)%nat with 0%nat by lia. cbn [firstn]. now rewrite app_nil_r. Qed.

Lemma wanted_snoc c l rst i o : wanted c (l ++ [(rst, i, o)]) =
  wanted c l ++ match si_ar i with Some a => if so_arready o then [value_at c l (length l) a] else [] | None => [] end.
Proof.
  unfold wanted. rewrite app_length. cbn [length]. rewrite Nat.add_1_r, seq_S, map_app, concat_app. f_equal.
  - f_equal. apply map_ext_in. intros t Ht. apply in_seq in Ht. rewrite nth_error_app1 by lia.
    destruct (nth_error l t) as [[[r' i'] o']|]; auto. destruct (si_ar i'); auto. now rewrite value_at_app by lia.
  - cbn [map concat plus]. rewrite nth_error_app2, Nat.sub_diag, app_nil_r by lia. cbn [nth_error].
    destruct (si_ar i); auto. now rewrite value_at_app by lia.
Qed.

Lemma polite_snoc2 h x y : polite (h ++ [x; y]) -> held x y.
Proof. intro H. exact (H h x y [] eq_refl). Qed.
Lemma polite_init h b : polite (h ++ [b]) -> polite h.
Proof. intros H p x y q E. apply (H p x y (q ++ [b])). subst h. rewrite <- app_assoc. reflexivity. Qed.
Lemma ids_init c h b : ids_ok c (h ++ [b]) -> ids_ok c h.
Proof. intros H r i o id n E. apply (H r i o id n), in_or_app. auto. Qed.

(** The live part is a suffix. *)
Lemma live_suffix h : exists p, h = p ++ live h.
Proof.
  induction h as [|x h IH] using rev_ind. { exists []. reflexivity. }
  rewrite live_snoc. destruct (fst (fst x)). { exists (h ++ [x]). now rewrite app_nil_r. }
  destruct IH as [p IH]. exists p. rewrite app_assoc. now rewrite <- IH.
Qed.

(** * Step functions by name *)
Definition rd_now (c : sccfg) (s : scst) (i : scin) : option Z :=
  match si_ar i with
  | Some a => if negb (c_init s) && (negb (c_rvalid s) || si_rready i) && negb (existsb g_rd (c_pipe s)) then Some a else None
  | None => None end.
Definition acc_now (c : sccfg) (s : scst) (i : scin) : option (Z * Z) :=
  match si_stat i with
  | Some (id, n) => if negb (c_init s) && negb (match rd_now c s i with Some _ => true | None => false end)
                       && negb (c_tready s) && negb (hazard (c_pipe s) id) then Some (id, n) else None
  | None => None end.
Definition front (c : sccfg) (s : scst) (i : scin) : stage :=
  match rd_now c s i, acc_now c s i with
  | Some a, _ => mkStage true false (ar_id c a) (ar_sel c a) 0 (c_mem s (ar_id c a))
  | None, Some (id, n) => mkStage false true id 0 n (c_mem s id)
  | None, None => mkStage false false 0 0 0 (c_mem s 0)
  end.
Definition acc1 (g : stage) : option (Z * Z) := if g_acc g then Some (g_addr g, g_inc g) else None.
Definition rd1 (c : sccfg) (g : stage) : list Z := if g_rd g then [rd_word c (g_data g) (g_shift g)] else [].
Definition inflight (c : sccfg) (pipe : list stage) : list Z := concat (map (rd1 c) (rev pipe)).

Lemma acc1_front c s i : acc1 (front c s i) = match rd_now c s i with Some _ => None | None => acc_now c s i end.
Proof. unfold front. destruct (rd_now c s i); [reflexivity|]. destruct (acc_now c s i) as [[id n]|]; reflexivity. Qed.
Lemma acc_rd c s i a : rd_now c s i = Some a -> acc_now c s i = None.
Proof. intro E. unfold acc_now. rewrite E. destruct (si_stat i) as [[id n]|]; auto. cbn. now rewrite andb_false_r. Qed.
Lemma acc1_front' c s i : acc1 (front c s i) = acc_now c s i.
Proof. rewrite acc1_front. destruct (rd_now c s i) eqn:E; auto. symmetry. exact (acc_rd _ _ _ E). Qed.

(** * Pipelines as delay lines *)
Lemma removelast_map {A B} (f : A -> B) l : removelast (map f l) = map f (removelast l).
Proof. induction l as [|x l IH]; auto. destruct l; auto. cbn [map removelast] in *. now rewrite IH. Qed.
Lemma removelast_firstn_cons {A} (x : A) p l : (p <= length l)%nat -> (0 < p)%nat -> removelast (x :: firstn p l) = firstn p (x :: l).
Proof.
  intros H H0. destruct p as [|p]; [lia|]. rewrite firstn_cons. destruct l as [|y l]; [cbn in H; lia|].
  rewrite firstn_cons. change (x :: y :: firstn p l) with (firstn (S (S p)) (x :: y :: l)).
  rewrite removelast_firstn by (cbn in *; lia). reflexivity.
Qed.
Lemma removelast_length {A} (x : A) l : length (removelast (x :: l)) = length l.
Proof.
  revert x; induction l as [|y l IH]; intro x; auto. change (removelast (x :: y :: l)) with (x :: removelast (y :: l)). cbn [length]. now rewrite IH.
Qed.

Lemma in_removelast {A} (g : A) l : In g (removelast l) -> In g l.
Proof. induction l as [|x l IH]; auto. destruct l as [|y l]; [intros []|]. intros [H|H]; [left|right]; auto. Qed.

Lemma last_firstn {A} p (l : list A) d : (p < length l)%nat -> last (firstn (S p) l) d = nth p l d.
Proof.
  revert l. induction p as [|p IH]; intros [|x l] H; cbn in H; try lia; auto.
  rewrite firstn_cons. cbn [nth]. rewrite <- (IH l) by lia. destruct l; [cbn in H; lia|]. rewrite firstn_cons. reflexivity.
Qed.
Lemma last_map {A B} (f : A -> B) l d : last (map f l) (f d) = f (last l d).
Proof. induction l as [|x l IH]; auto. destruct l; auto. Qed.

Definition addrs (pipe : list stage) : list Z := map g_addr (filter g_acc pipe).

(** * Invariant *)
Record inv (c : sccfg) (l : list ccycle) (s : scst) (Pf : list (option (Z * Z))) : Prop := {
  v_plen : length (c_pipe s) = sc_p c;
  v_len : length Pf = length l;
  v_hs : if c_tready s then exists l0 i o w, l = l0 ++ [(false, i, o)] /\ si_stat i = Some w /\ so_tready o = false /\
                 map hs1 l ++ [Some w] = None :: Pf
         else map hs1 l ++ [None] = None :: Pf;
  v_init : if c_init s then Forall (eq None) Pf /\ Forall (fun g => g_rd g = false /\ g_acc g = false) (c_pipe s) /\
                c_ptr s = Z.of_nat (length l) /\ 0 <= c_ptr s < 2 ^ sc_d c /\ (forall x, 0 <= x < c_ptr s -> c_mem s x = 0) /\
                c_tready s = false /\ c_arready s = false /\ c_rvalid s = false
           else 2 ^ sc_d c <= Z.of_nat (length l) /\ forall x, 0 <= x < 2 ^ sc_d c -> c_mem s x = tot x (firstn (length l - sc_p c) Pf) mod 2 ^ sc_w c;
  v_accs : map acc1 (c_pipe s) = firstn (sc_p c) (rev Pf ++ repeat None (sc_p c));
  v_data : forall g, In g (c_pipe s) -> g_acc g = true -> g_data g = c_mem s (g_addr g) /\ 0 <= g_addr g < 2 ^ sc_d c;
  v_nodup : NoDup (addrs (c_pipe s));
  v_excl : forall g, In g (c_pipe s) -> g_rd g = true -> g_acc g = false;
  v_reads : wanted c l ++ (if c_arready s then rd1 c (hd blank (c_pipe s)) else []) =
            returned l ++ (if c_rvalid s then [c_rdata s] else []) ++ inflight c (c_pipe s);
  v_one : (length (inflight c (c_pipe s)) <= 1)%nat;
  v_free : existsb g_rd (c_pipe s) = true -> c_rvalid s = false;
  v_ar : c_arready s = true -> exists l0 i o a, l = l0 ++ [(false, i, o)] /\ si_ar i = Some a /\ so_arready o = false /\
           rd1 c (hd blank (c_pipe s)) = [value_at c l (length l) a] }.

Lemma fresh_inv c s : cfg_ok c -> length (c_pipe s) = sc_p c -> c_init s = true -> c_ptr s = 0 ->
  Forall (fun g => g_rd g = false /\ g_acc g = false) (c_pipe s) ->
  c_tready s = false -> c_arready s = false -> c_rvalid s = false -> inv c [] s [].
Proof.
  intros (Hd & Hw & Ha & Hp) L HI H0 HF Ht Hr Hv.
  assert (F : filter g_acc (c_pipe s) = []).
  { clear -HF. induction (c_pipe s) as [|g p IH]; auto. inversion HF as [|? ? [_ E] HF']; subst. cbn. rewrite E. auto. }
  assert (X : inflight c (c_pipe s) = []).
  { unfold inflight. apply Forall_rev in HF. clear -HF. induction (rev (c_pipe s)) as [|g p IH]; auto.
    inversion HF as [|? ? [E _] HF']; subst. cbn. unfold rd1 at 1. rewrite E. apply IH; auto. }
  rewrite Forall_forall in HF. constructor; rewrite ?HI, ?H0, ?Ht, ?Hr, ?Hv, ?X; auto; try discriminate.
  - splits; auto; try (intros; lia); try (apply Forall_forall; auto); try (pose proof (Z.pow_pos_nonneg 2 (sc_d c)); lia).
  - cbn [rev app]. rewrite firstn_all2 by (rewrite repeat_length; lia).
    rewrite <- L. assert (forall g, In g (c_pipe s) -> acc1 g = None). { intros g Hg. unfold acc1. now rewrite (proj2 (HF g Hg)). }
    clear -H. induction (c_pipe s) as [|g p IH]; auto. cbn [map repeat length]. rewrite H by (left; auto). f_equal. apply IH. intros; apply H; right; auto.
  - intros g Hg E. rewrite (proj2 (HF g Hg)) in E. discriminate.
  - unfold addrs. rewrite F. constructor.
  - intros g Hg E. exact (proj2 (HF g Hg)).
Qed.

Lemma rd_now_not_init c s i a : rd_now c s i = Some a -> c_init s = false /\ si_ar i = Some a /\ existsb g_rd (c_pipe s) = false /\
  (negb (c_rvalid s) || si_rready i = true).
Proof.
  unfold rd_now. destruct (si_ar i) as [b|]; [|discriminate]. destruct (c_init s); [discriminate|].
  destruct (negb (c_rvalid s) || si_rready i); [|discriminate]. destruct (existsb g_rd (c_pipe s)); [discriminate|]. cbn. intro E. injection E as ->. auto.
Qed.
Lemma acc_now_spec c s i w : acc_now c s i = Some w -> c_init s = false /\ si_stat i = Some w /\ c_tready s = false /\ hazard (c_pipe s) (fst w) = false.
Proof.
  unfold acc_now. destruct (si_stat i) as [[id n]|]; [|discriminate]. destruct (c_init s); [discriminate|].
  destruct (rd_now c s i); [discriminate|]. destruct (c_tready s); [discriminate|]. destruct (hazard (c_pipe s) id) eqn:E; [discriminate|].
  cbn. intro E2. injection E2 as <-. auto.
Qed.

Lemma nxt_fields c s i : nxt c s (false, i) =
  let tail := last (c_pipe s) blank in
  mkScSt (c_init s && negb (c_ptr s =? 2 ^ sc_d c - 1)) (if c_init s then (c_ptr s + 1) mod 2 ^ sc_d c else c_ptr s)
    (removelast (front c s i :: c_pipe s))
    (if g_acc tail then zupd (c_mem s) (g_addr tail) ((g_data tail + g_inc tail) mod 2 ^ sc_w c)
             else if c_init s then zupd (c_mem s) (c_ptr s) 0 else c_mem s)
    (match acc_now c s i with Some _ => true | None => false end)
    (match rd_now c s i with Some _ => true | None => false end)
    (negb (g_acc tail) && g_rd tail || c_rvalid s && negb (si_rready i))
    (if negb (g_acc tail) && g_rd tail then rd_word c (g_data tail) (g_shift tail) else c_rdata s)
    (si_wr i && (negb (c_bvalid s) || si_bready i) && negb (c_wready s))
    (si_wr i && (negb (c_bvalid s) || si_bready i) && negb (c_wready s) || c_bvalid s && negb (si_bready i)).
Proof. reflexivity. Qed.

Lemma rev_removelast {A} (x : A) l d : l <> [] -> rev (x :: l) = last l d :: rev (removelast (x :: l)).
Proof.
  intro H. destruct (exists_last H) as (q & z & ->). rewrite last_last.
  change (x :: q ++ [z]) with ((x :: q) ++ [z]). rewrite removelast_last, rev_app_distr. reflexivity.
Qed.

Lemma inflight_step c (x : stage) p : p <> [] -> inflight c p ++ rd1 c x = rd1 c (last p blank) ++ inflight c (removelast (x :: p)).
Proof.
  intro H. unfold inflight. pose proof (rev_removelast x blank H) as E.
  apply (f_equal (fun l => concat (map (rd1 c) l))) in E. cbn [rev] in E. rewrite map_app, concat_app in E. cbn [map concat] in E.
  rewrite app_nil_r in E. exact E.
Qed.

Lemma hazard_spec p id : hazard p id = false -> forall g, In g p -> g_acc g = true -> g_addr g <> id.
Proof.
  intros H g Hg Ha E. assert (hazard p id = true); [|congruence]. unfold hazard. apply existsb_exists. exists g. split; auto.
  rewrite Ha, orb_true_r, E, Z.eqb_refl. reflexivity.
Qed.

Lemma addrs_removelast x p : p <> [] -> addrs (x :: p) = addrs (removelast (x :: p)) ++ addrs [last p blank].
Proof.
  intro H. destruct (exists_last H) as (q & z & ->). rewrite last_last.
  change (x :: q ++ [z]) with ((x :: q) ++ [z]). rewrite removelast_last. unfold addrs. rewrite <- map_app, filter_app. reflexivity.
Qed.

Lemma seen_hs c l s Pf i : inv c l s Pf -> polite (l ++ [((false, i), outs s)]) -> map hs1 (l ++ [((false, i), outs s)]) = None :: Pf.
Proof.
  intros I HP. rewrite map_app. cbn [map hs1 outs so_tready]. pose proof (v_hs I) as H. destruct (c_tready s); auto.
  destruct H as (l0 & i0 & o0 & w & -> & Ew & Eo & E). rewrite <- app_assoc in HP. apply polite_snoc2 in HP.
  destruct (HP eq_refl) as [HH _]. rewrite HH, Ew; auto. congruence.
Qed.

Lemma mem_value c l s Pf i id : inv c l s Pf -> polite (l ++ [((false, i), outs s)]) -> c_init s = false -> 0 <= id < 2 ^ sc_d c ->
  (0 < sc_p c)%nat ->
  c_mem s id = added id (firstn (length l + 1 - sc_p c) (l ++ [((false, i), outs s)])) mod 2 ^ sc_w c.
Proof.
  intros I HP HI Hid Hp. pose proof (v_init I) as V. rewrite HI in V. destruct V as [_ V]. rewrite V by auto. f_equal.
  rewrite added_tot, <- firstn_map, (seen_hs _ I HP).
  destruct (length l + 1 - sc_p c)%nat as [|m] eqn:E.
  - replace (length l - sc_p c)%nat with 0%nat by lia. reflexivity.
  - replace (length l - sc_p c)%nat with m by lia. rewrite firstn_cons. cbn [tot tot1]. reflexivity.
Qed.

Lemma word_eq c a count : cfg_ok c -> 0 <= count < 2 ^ sc_w c -> rd_word c count (ar_sel c a) = word_of c a count.
Proof.
  intros (Hd & Hw & Ha & Hp) H. unfold rd_word, word_of, ar_sel. destruct (Z.ltb_spec (sc_a c) (sc_w c)).
  - rewrite Z.shiftr_div_pow2.
    2: { apply Z.mul_nonneg_nonneg; [|lia]. apply Z.mod_pos_bound. apply Z.pow_pos_nonneg; [lia|].
         unfold sel_width. replace (sc_a c <? sc_w c) with true by lia.
         assert (Z.log2_up (sc_a c / 8) <= Z.log2_up ((sc_w c + 7) / 8)); [|lia]. apply Z.log2_up_le_mono. apply Z.div_le_mono; lia. }
    rewrite Z.shiftr_div_pow2 by (apply Z.log2_up_nonneg). now rewrite (Z.mul_comm (sc_a c)).
  - apply Z.mod_small. pose proof (Z.pow_le_mono_r 2 (sc_w c) (sc_a c)). lia.
Qed.

Lemma ar_id_eq c a : ar_id c a = counter_of c a.
Proof. unfold ar_id, counter_of. rewrite Z.shiftr_div_pow2 by (apply Z.log2_up_nonneg). reflexivity. Qed.

Lemma hd_removelast {A} (x : A) l d : l <> [] -> hd d (removelast (x :: l)) = x.
Proof. destruct l; [congruence|reflexivity]. Qed.

Lemma tail_acc c l s Pf : cfg_ok c -> inv c l s Pf -> acc1 (last (c_pipe s) blank) =
  if (sc_p c <=? length l)%nat then nth (length l - sc_p c) Pf None else None.
Proof.
  intros (Hd & Hw & Ha & Hp) I. change None with (acc1 blank) at 2. rewrite <- last_map. rewrite (v_accs I).
  destruct (sc_p c) as [|p] eqn:E; [lia|]. rewrite last_firstn by (rewrite app_length, repeat_length; lia).
  change (acc1 blank) with (@None (Z * Z)). pose proof (v_len I) as L. destruct (Nat.leb_spec (S p) (length l)).
  - rewrite app_nth1 by (rewrite rev_length; lia). rewrite rev_nth by lia. f_equal. lia.
  - rewrite app_nth2 by (rewrite rev_length; lia). rewrite nth_repeat. reflexivity.
Qed.

Lemma firstn_S_nth {A} (l : list A) k d : (k < length l)%nat -> firstn (S k) l = firstn k l ++ [nth k l d].
Proof.
  revert l. induction k as [|k IH]; intros [|x l] H; cbn in H; try lia; auto.
  rewrite !firstn_cons. cbn [nth]. rewrite (IH l) by lia. reflexivity.
Qed.

Lemma existsb_removelast p (x : stage) : existsb g_rd (removelast (x :: p)) = true -> g_rd x = true \/ existsb g_rd p = true.
Proof.
  rewrite !existsb_exists. intros (g & Hg & E). apply in_removelast in Hg. destruct Hg as [->|Hg]; eauto.
Qed.
Lemma inflight_none c p : existsb g_rd p = false -> inflight c p = [].
Proof.
  intro H. unfold inflight. assert (F : forall g, In g (rev p) -> g_rd g = false).
  { intros g Hg. apply in_rev in Hg. destruct (g_rd g) eqn:E; auto. assert (existsb g_rd p = true); [|congruence]. apply existsb_exists. eauto. }
  induction (rev p) as [|g q IH]; auto. cbn [map concat]. unfold rd1 at 1. rewrite F by (left; auto). apply IH. intros; apply F; right; auto.
Qed.

Lemma inv_step c l s Pf i : cfg_ok c -> inv c l s Pf -> polite (l ++ [((false, i), outs s)]) -> ids_ok c (l ++ [((false, i), outs s)]) ->
  inv c (l ++ [((false, i), outs s)]) (nxt c s (false, i)) (Pf ++ [acc_now c s i]).
Proof.
  intros Hc I HP HO. pose proof Hc as (Hd & Hw & Ha & Hp).
  pose proof (seen_hs _ I HP) as EH. set (x := ((false, i), outs s)) in *.
  pose proof (v_plen I) as PL. assert (PN : c_pipe s <> []) by (intro E; rewrite E in PL; cbn in PL; lia).
  pose proof (tail_acc Hc I) as TA. set (tail := last (c_pipe s) blank) in *.
  assert (TI : In tail (c_pipe s)).
  { unfold tail. rewrite (app_removelast_last blank PN) at 2. apply in_or_app. right. left. auto. }
  assert (LL : length (l ++ [x]) = S (length l)) by (rewrite app_length; cbn; lia).
  assert (POW : 0 < 2 ^ sc_d c) by (apply Z.pow_pos_nonneg; lia).
  assert (POWW : 0 < 2 ^ sc_w c) by (apply Z.pow_pos_nonneg; lia).
  assert (IDA : forall w, acc_now c s i = Some w -> 0 <= fst w < 2 ^ sc_d c).
  { intros [id n] E. apply acc_now_spec in E as (_ & E & _). apply (HO false i (outs s) id n); auto. apply in_or_app. right. left. reflexivity. }
  rewrite nxt_fields. fold tail. cbn zeta.
  (* the tail is the only stage with its address *)
  assert (TU : g_acc tail = true -> forall g, In g (removelast (c_pipe s)) -> g_acc g = true -> g_addr g <> g_addr tail).
  { intros ET g Hg Eg E. pose proof (v_nodup I) as ND. unfold addrs in ND. rewrite (app_removelast_last blank PN) in ND. fold tail in ND.
    rewrite filter_app, map_app in ND. cbn [filter] in ND. rewrite ET in ND. cbn [map] in ND.
    apply NoDup_remove_2 in ND. apply ND. rewrite app_nil_r. rewrite <- E. apply in_map, filter_In. auto. }
  constructor; cbn [c_pipe c_init c_ptr c_mem c_tready c_arready c_rvalid c_rdata].
  - now rewrite removelast_length.
  - rewrite !app_length. cbn [length]. now rewrite (v_len I).
  - destruct (acc_now c s i) as [w|] eqn:E.
    + destruct (acc_now_spec _ _ _ E) as (_ & Es & Et & _). exists l, i, (outs s), w. rewrite EH. auto.
    + rewrite EH. reflexivity.
  - pose proof (v_init I) as V. destruct (c_init s) eqn:EI.
    + destruct V as (V1 & V2 & V3 & V4 & V5 & V6 & V7 & V8).
      assert (A0 : acc_now c s i = None). { destruct (acc_now c s i) eqn:E; auto. apply acc_now_spec in E as [E _]. congruence. }
      assert (R0 : rd_now c s i = None). { destruct (rd_now c s i) eqn:E; auto. apply rd_now_not_init in E as [E _]. congruence. }
      rewrite Forall_forall in V2. destruct (V2 tail TI) as [T1 T2]. rewrite T1, T2, A0, R0, V8. cbn [negb andb orb].
      destruct (Z.eqb_spec (c_ptr s) (2 ^ sc_d c - 1)) as [E|E]; cbn [negb].
      * split; [lia|]. intros y Hy. replace (tot y (firstn _ _)) with 0.
        2: { symmetry. clear -V1. assert (F : Forall (eq None) (Pf ++ [None])) by (apply Forall_app; auto).
             revert F. generalize (Pf ++ [None]) as q. intros q F. generalize (length (l ++ [x]) - sc_p c)%nat as k. induction F; intros [|k]; auto.
             rewrite firstn_cons. subst. cbn [tot tot1]. rewrite IHF. reflexivity. }
        rewrite Z.mod_0_l by lia. unfold zupd. destruct (Z.eqb_spec y (c_ptr s)); auto. apply V5. lia.
      * splits; auto; try (rewrite Z.mod_small; lia).
        -- apply Forall_app. auto.
        -- apply Forall_forall. intros g Hg. apply in_removelast in Hg. destruct Hg as [<-|Hg]; auto. unfold front. now rewrite R0, A0.
        -- rewrite Z.mod_small by lia. intros y Hy. unfold zupd. destruct (Z.eqb_spec y (c_ptr s)); auto. apply V5. lia.
    + destruct V as [V0 V]. cbn [andb]. split; [lia|]. intros y Hy. rewrite LL.
      assert (EF : firstn (S (length l) - sc_p c) (Pf ++ [acc_now c s i]) = firstn (length l - sc_p c) Pf ++ (if (sc_p c <=? length l)%nat then [nth (length l - sc_p c) Pf None] else [])).
      { pose proof (v_len I) as L. rewrite firstn_app. replace (S (length l) - sc_p c - length Pf)%nat with 0%nat by lia. cbn [firstn]. rewrite app_nil_r.
        destruct (Nat.leb_spec (sc_p c) (length l)).
        - replace (S (length l) - sc_p c)%nat with (S (length l - sc_p c)) by lia. apply firstn_S_nth. lia.
        - replace (S (length l) - sc_p c)%nat with 0%nat by lia. replace (length l - sc_p c)%nat with 0%nat by lia. reflexivity. }
      rewrite EF, tot_app. unfold acc1 in TA. destruct (g_acc tail) eqn:ET.
      * destruct (v_data I tail TI ET) as [TD _]. unfold zupd. destruct (sc_p c <=? length l)%nat; [|discriminate]. rewrite <- TA. cbn [tot tot1].
        rewrite (Z.eqb_sym y). destruct (Z.eqb_spec (g_addr tail) y) as [<-|].
        -- rewrite TD, V, Z.add_0_r by auto. apply Z.add_mod_idemp_l. lia.
        -- rewrite V by auto. f_equal. lia.
      * rewrite V by auto. f_equal. destruct (sc_p c <=? length l)%nat; [rewrite <- TA|]; cbn; lia.
  - rewrite <- removelast_map. cbn [map]. rewrite acc1_front', (v_accs I). rewrite rev_app_distr. cbn [rev app].
    apply removelast_firstn_cons; [rewrite app_length, repeat_length; lia | lia].
  - (* data *)
    assert (MEM : c_init s = false -> forall id, (g_acc tail = true -> id <> g_addr tail) ->
      (if g_acc tail then zupd (c_mem s) (g_addr tail) ((g_data tail + g_inc tail) mod 2 ^ sc_w c)
             else if c_init s then zupd (c_mem s) (c_ptr s) 0 else c_mem s) id = c_mem s id).
    { intros EI id Hid. rewrite EI. destruct (g_acc tail); auto. rewrite zupd_other; auto. }
    intros g Hg Eg. rewrite (app_removelast_last blank PN) in Hg. fold tail in Hg.
    change (front c s i :: removelast (c_pipe s) ++ [tail]) with ((front c s i :: removelast (c_pipe s)) ++ [tail]) in Hg.
    rewrite removelast_last in Hg. destruct Hg as [Hg|Hg].
    + subst g. pose proof (acc1_front' c s i) as E. unfold acc1 in E. rewrite Eg in E. symmetry in E.
      pose proof (IDA _ E) as B. cbn [fst] in B. split; [|exact B].
      destruct (acc_now_spec _ _ _ E) as (EI & _ & _ & HZ). cbn [fst] in HZ. rewrite MEM; auto.
      * assert (R : rd_now c s i = None). { destruct (rd_now c s i) as [a|] eqn:R; auto. rewrite (acc_rd _ _ _ R) in E. discriminate. }
        unfold front in *. rewrite R in *. destruct (acc_now c s i) as [[id n]|]; [|discriminate]. reflexivity.
      * intros ET X. apply (hazard_spec _ HZ _ TI ET). auto.
    + assert (EI : c_init s = false).
      { destruct (c_init s) eqn:EI; auto. pose proof (v_init I) as V. rewrite EI in V. destruct V as (_ & V2 & _). rewrite Forall_forall in V2.
        rewrite (proj2 (V2 g (in_removelast _ _ Hg))) in Eg. discriminate. }
      destruct (v_data I g (in_removelast _ _ Hg) Eg) as [ED EB]. split; auto. rewrite MEM; auto.
  - (* nodup *)
    pose proof (v_nodup I) as ND. assert (ND2 : NoDup (addrs (front c s i :: c_pipe s))).
    { unfold addrs. cbn [filter]. destruct (g_acc (front c s i)) eqn:Eg; auto. cbn [map]. constructor; auto.
      pose proof (acc1_front' c s i) as E. unfold acc1 in E. rewrite Eg in E. symmetry in E.
      destruct (acc_now_spec _ _ _ E) as (_ & _ & _ & HZ). cbn [fst] in HZ.
      intro X. apply in_map_iff in X as (g & X1 & X2). apply filter_In in X2 as [X2 X3]. exact (hazard_spec _ HZ _ X2 X3 X1). }
    rewrite addrs_removelast in ND2 by auto. clear -ND2. induction (addrs (removelast _)); [constructor|]. inversion ND2; subst.
    constructor; auto. rewrite in_app_iff in *. tauto.
  - intros g Hg Eg. apply in_removelast in Hg. destruct Hg as [<-|Hg]; [|apply (v_excl I); auto].
    unfold front in *. destruct (rd_now c s i); auto. destruct (acc_now c s i) as [[id n]|]; auto.
  - (* reads *)
    unfold x. rewrite wanted_snoc, returned_snoc. cbn [outs so_arready so_rvalid so_rdata].
    assert (EW : wanted c l ++ match si_ar i with Some a => if c_arready s then [value_at c l (length l) a] else [] | None => [] end =
                 wanted c l ++ (if c_arready s then rd1 c (hd blank (c_pipe s)) else [])).
    { f_equal. pose proof (v_ar I) as VA. destruct (c_arready s); [|destruct (si_ar i); auto].
      destruct (VA eq_refl) as (l0 & i0 & o0 & a & El & Ea & Eo & ->). unfold x in HP. rewrite El, <- app_assoc in HP. apply polite_snoc2 in HP.
      destruct (HP eq_refl) as [_ HH]. rewrite HH, Ea; auto. congruence. }
    rewrite EW, (v_reads I). rewrite hd_removelast by auto.
    assert (ER : (match rd_now c s i with Some _ => true | None => false end) = g_rd (front c s i)).
    { unfold front. destruct (rd_now c s i); auto. destruct (acc_now c s i) as [[id n]|]; auto. }
    rewrite ER. replace (if g_rd (front c s i) then rd1 c (front c s i) else []) with (rd1 c (front c s i)).
    2: { unfold rd1. destruct (g_rd (front c s i)); auto. }
    rewrite <- !app_assoc. rewrite inflight_step by auto. fold tail. f_equal.
    assert (TX : g_rd tail = true -> g_acc tail = false) by (intro E; apply (v_excl I); auto).
    assert (TF : g_rd tail = true -> c_rvalid s = false). { intro E. apply (v_free I). apply existsb_exists. eauto. }
    unfold rd1 at 1. destruct (g_rd tail); [rewrite TX, TF by auto; cbn|clear TX TF; rewrite andb_false_r; cbn].
    + reflexivity.
    + destruct (c_rvalid s), (si_rready i); reflexivity.
  - (* one *)
    pose proof (inflight_step c (front c s i) PN) as E. fold tail in E. apply (f_equal (@length Z)) in E. rewrite !app_length in E.
    pose proof (v_one I) as V. destruct (g_rd (front c s i)) eqn:EF.
    + assert (existsb g_rd (c_pipe s) = false).
      { unfold front in EF. destruct (rd_now c s i) as [a|] eqn:ER; [|destruct (acc_now c s i) as [[id n]|]; discriminate].
        now apply rd_now_not_init in ER as (_ & _ & ER & _). }
      rewrite (inflight_none c _ H) in E. unfold rd1 in E. rewrite EF in E. cbn [length] in E. lia.
    + unfold rd1 at 1 in E. rewrite EF in E. cbn [length] in E. lia.
  - (* free *)
    intro E. assert (TD : negb (g_acc tail) && g_rd tail = false).
    { destruct (negb (g_acc tail) && g_rd tail) eqn:TD; auto. exfalso. apply andb_true_iff in TD as [_ TD].
      assert (XR : existsb g_rd (c_pipe s) = true) by (apply existsb_exists; eauto).
      pose proof (inflight_step c (front c s i) PN) as EI. fold tail in EI. apply (f_equal (@length Z)) in EI. rewrite !app_length in EI.
      pose proof (v_one I) as V. assert (EF : g_rd (front c s i) = false).
      { unfold front. destruct (rd_now c s i) as [a|] eqn:ER; [apply rd_now_not_init in ER as (_ & _ & ER & _); congruence|].
        destruct (acc_now c s i) as [[id n]|]; auto. }
      assert (E2 : length (inflight c (removelast (front c s i :: c_pipe s))) = 0%nat).
      { unfold rd1 in EI. rewrite EF, TD in EI. cbn [length] in EI. lia. }
      clear -E E2. apply existsb_exists in E as (g & Hg & E). unfold inflight in E2. apply in_rev in Hg. apply in_split in Hg as (a & b & Hg).
      rewrite Hg, map_app, concat_app, app_length in E2. cbn [map concat] in E2. unfold rd1 at 2 in E2. rewrite E in E2. cbn in E2. lia. }
    rewrite TD. cbn [orb]. apply existsb_removelast in E as [E|E].
    + unfold front in E. destruct (rd_now c s i) as [a|] eqn:ER; [|destruct (acc_now c s i) as [[id n]|]; discriminate].
      apply rd_now_not_init in ER as (_ & _ & _ & ER). destruct (c_rvalid s), (si_rready i); auto; discriminate.
    + now rewrite (v_free I E).
  - intro E. destruct (rd_now c s i) as [a|] eqn:ER; [|discriminate]. destruct (rd_now_not_init _ _ _ ER) as (EI & EA & EX & EV).
    exists l, i, (outs s), a. splits; auto.
    + cbn [outs so_arready]. destruct (c_arready s) eqn:EAR; auto. exfalso. destruct (v_ar I EAR) as (? & ? & ? & ? & _ & _ & _ & X).
      destruct (c_pipe s) as [|g q]; [congruence|]. cbn [hd] in X. cbn [existsb] in EX. unfold rd1 in X. destruct (g_rd g); discriminate.
    + rewrite hd_removelast by auto. unfold front. rewrite ER. unfold rd1. cbn [g_rd g_data g_shift]. f_equal.
      unfold value_at. rewrite LL. rewrite <- (Nat.add_1_r (length l)), ar_id_eq.
      assert (B : 0 <= counter_of c a < 2 ^ sc_d c) by (apply Z.mod_pos_bound; lia).
      rewrite (mem_value _ I HP EI B) by lia. fold x. apply word_eq; auto. apply Z.mod_pos_bound. lia.
Qed.

Lemma inv_run c xs : cfg_ok c -> polite (observe c xs) -> ids_ok c (observe c xs) -> length (c_pipe (st c xs)) = sc_p c /\ exists Pf, inv c (live (observe c xs)) (st c xs) Pf.
Proof.
  intro Hc. induction xs as [|[rst i] xs IH] using rev_ind; intros HP HO.
  - split; [apply repeat_length|]. exists []. apply fresh_inv; auto. { apply repeat_length. }
    apply Forall_forall. intros g Hg. apply repeat_spec in Hg. subst g. auto.
  - rewrite observe_snoc in *. rewrite st_snoc, live_snoc. cbn [fst].
    destruct (IH (polite_init _ HP) (ids_init _ _ HO)) as (PL & Pf & I). destruct rst.
    + assert (L : length (c_pipe (nxt c (st c xs) (true, i))) = sc_p c).
      { cbn [nxt sc_step fst c_pipe]. rewrite map_length, removelast_length. exact PL. }
      split; auto. exists []. apply fresh_inv; auto. cbn [nxt sc_step fst c_pipe]. apply Forall_forall. intros g Hg. apply in_map_iff in Hg as (g' & <- & _). auto.
    + assert (IS : inv c (live (observe c xs) ++ [((false, i), outs (st c xs))]) (nxt c (st c xs) (false, i)) (Pf ++ [acc_now c (st c xs) i])).
      { destruct (live_suffix (observe c xs)) as [p Ep]. apply inv_step; auto.
        - intros q a b t E. apply (HP (p ++ q) a b t). rewrite Ep, <- app_assoc, E, app_assoc. reflexivity.
        - intros r' i' o' id n Hin. apply (HO r' i' o' id n). rewrite Ep, <- app_assoc. apply in_or_app. auto. }
      split; [exact (v_plen IS)|]. eauto.
Qed.

(** * Reads *)
Lemma inflight_hd c p : p <> [] -> exists q, inflight c p = q ++ rd1 c (hd blank p).
Proof.
  destruct p as [|g p]; [congruence|]. intros _. unfold inflight. cbn [rev hd]. rewrite map_app, concat_app. cbn [map concat]. rewrite app_nil_r. eauto.
Qed.
Lemma inflight_some c p : inflight c p <> [] -> existsb g_rd p = true.
Proof. intro H. destruct (existsb g_rd p) eqn:E; auto. elim H. now apply inflight_none. Qed.

Lemma reads_ok c xs : cfg_ok c -> polite (observe c xs) -> ids_ok c (observe c xs) ->
  exists rest, wanted c (live (observe c xs)) = returned (live (observe c xs)) ++ rest /\ (length rest <= 1)%nat.
Proof.
  intros Hc HP HO. destruct (inv_run _ Hc HP HO) as (PL & Pf & I). set (s := st c xs) in *. set (l := live (observe c xs)) in *.
  pose proof (v_reads I) as E. pose proof (v_one I) as V1. pose proof (v_free I) as VF. pose proof (v_ar I) as VA.
  assert (PN : c_pipe s <> []) by (intro X; rewrite X in PL; destruct Hc as (_ & _ & _ & ?); cbn in PL; lia).
  destruct (c_arready s).
  - exists []. split; [|cbn; lia]. rewrite app_nil_r. destruct (VA eq_refl) as (? & ? & ? & ? & _ & _ & _ & X).
    destruct (inflight_hd c PN) as [q Q]. rewrite X in *.
    assert (q = []) by (destruct q; auto; rewrite Q, app_length in V1; cbn in V1; lia). subst q. cbn [app] in Q.
    rewrite VF in E by (apply (inflight_some c); rewrite Q; discriminate). rewrite Q in E. cbn [app] in E. exact (proj1 (app_inj_tail _ _ _ _ E)).
  - rewrite app_nil_r in E. eexists. split; [exact E|]. destruct (inflight c (c_pipe s)) as [|v q] eqn:Q.
    + rewrite app_nil_r. destruct (c_rvalid s); cbn; lia.
    + rewrite VF by (apply (inflight_some c); rewrite Q; discriminate). cbn [app]. exact V1.
Qed.

Lemma observe_app c xs h w : observe c xs = h ++ w -> exists p ws, xs = p ++ ws /\ h = observe c p /\ map fst w = ws /\
  forall k cy, nth_error w k = Some cy -> snd cy = outs (st c (p ++ firstn k ws)).
Proof.
  revert xs. induction w as [|cy w IH] using rev_ind; intros xs E.
  - rewrite app_nil_r in E. exists xs, []. rewrite app_nil_r. splits; auto. intros [|k] cy H; discriminate.
  - rewrite app_assoc in E. apply observe_inv in E as (xs' & x & -> & E & ->). symmetry in E.
    destruct (IH _ E) as (p & ws & -> & -> & Ew & Ek). exists p, (ws ++ [x]). rewrite map_app, Ew. splits; auto.
    { now rewrite app_assoc. }
    intros k cy H. assert (LW : length ws = length w) by (rewrite <- Ew; apply map_length).
    destruct (Nat.lt_ge_cases k (length w)).
    + rewrite nth_error_app1 in H by auto. rewrite firstn_app. replace (k - length ws)%nat with 0%nat by lia. cbn [firstn]. rewrite app_nil_r. auto.
    + assert (k = length w). { apply nth_error_Some_lt in H || (assert (nth_error (w ++ [(x, outs (st c (p ++ ws)))]) k <> None) by congruence; apply nth_error_Some in H1; rewrite app_length in H1; cbn in H1; lia). }
      subst k. rewrite nth_error_app2, Nat.sub_diag in H by auto. injection H as <-. cbn [snd].
      rewrite firstn_app, LW, Nat.sub_diag. cbn [firstn]. rewrite app_nil_r, <- LW, firstn_all. reflexivity.
Qed.

Lemma pipe_moves c s i k : (S k < length (c_pipe s))%nat -> nth (S k) (c_pipe (nxt c s (false, i))) blank = nth k (c_pipe s) blank.
Proof.
  intro H. rewrite nxt_fields. cbn [c_pipe]. generalize (front c s i) as g. intro g.
  assert (PN : c_pipe s <> []) by (intro E; rewrite E in H; cbn in H; lia).
  destruct (exists_last PN) as (q & z & E). rewrite E in *. change (g :: q ++ [z]) with ((g :: q) ++ [z]). rewrite removelast_last. cbn [nth].
  rewrite app_length in H. cbn in H. rewrite app_nth1 by lia. reflexivity.
Qed.

Lemma pipe_len c xs : length (c_pipe (st c xs)) = sc_p c.
Proof.
  induction xs as [|[rst i] xs IH] using rev_ind; [apply repeat_length|]. rewrite st_snoc.
  destruct rst; cbn [nxt sc_step fst c_pipe]; [rewrite map_length|]; now rewrite removelast_length.
Qed.

Lemma read_latency c xs h cy w cy' : cfg_ok c -> polite (observe c xs) -> ids_ok c (observe c xs) ->
  observe c xs = h ++ cy :: w ++ [cy'] -> length w = (sc_p c - 1)%nat ->
  Forall (fun x : ccycle => fst (fst x) = false) (cy :: w) ->
  so_arready (snd cy) = true -> so_rvalid (snd cy') = true.
Proof.
  intros Hc HP HO E L HF HA. pose proof Hc as (_ & _ & _ & Hp).
  assert (HI : exists Pf, inv c (live h) (st c (firstn (length h) xs)) Pf).
  { pose proof E as E2. change (h ++ cy :: w ++ [cy']) with (h ++ (cy :: w ++ [cy'])) in E2. apply observe_app in E2 as (p & ws & -> & -> & _ & _).
    assert (LP : length (observe c p) = length p) by (unfold observe; rewrite combine_length, trace_length; lia).
    rewrite LP, firstn_app, Nat.sub_diag, firstn_all. cbn [firstn]. rewrite app_nil_r.
    apply inv_run; auto.
    - intros q a b t Eq. apply (HP q a b (t ++ cy :: w ++ [cy'])). rewrite E, Eq, <- app_assoc. reflexivity.
    - intros r' i' o' id n Hin. apply (HO r' i' o' id n). rewrite E. apply in_or_app. auto. }
  pose proof E as E2. apply observe_app in E2 as (p & ws & -> & -> & Ew & Ek).
  assert (LP : length (observe c p) = length p) by (unfold observe; rewrite combine_length, trace_length; lia).
  rewrite LP, firstn_app, Nat.sub_diag, firstn_all in HI. cbn [firstn] in HI. rewrite app_nil_r in HI. destruct HI as [Pf I].
  pose proof (Ek 0%nat cy eq_refl) as E0. cbn [firstn] in E0. rewrite app_nil_r in E0. rewrite E0 in HA. cbn [outs so_arready] in HA.
  destruct (v_ar I HA) as (? & ? & ? & a & _ & _ & _ & X).
  assert (LWS : length ws = S (sc_p c)) by (rewrite <- Ew, map_length; cbn [length]; rewrite app_length; cbn [length]; lia).
  assert (NR : forall k, (k < sc_p c)%nat -> exists i, nth_error ws k = Some (false, i)).
  { intros k Hk. rewrite <- Ew, nth_error_map. destruct (nth_error (cy :: w ++ [cy']) k) as [z|] eqn:Ez.
    - cbn. rewrite app_comm_cons, nth_error_app1 in Ez by (cbn [length]; lia). apply nth_error_In in Ez. rewrite Forall_forall in HF.
      specialize (HF z Ez). destruct z as [[r i] o]. cbn in *. subst r. eauto.
    - apply nth_error_None in Ez. cbn [length] in Ez. rewrite app_length in Ez. cbn [length] in Ez. lia. }
  assert (G : forall k, (k < sc_p c)%nat -> nth k (c_pipe (st c (p ++ firstn k ws))) blank = hd blank (c_pipe (st c p))).
  { induction k as [|k IH]; intro Hk. { cbn [firstn]. rewrite app_nil_r. destruct (c_pipe (st c p)); reflexivity. }
    rewrite <- IH by lia. destruct (NR k ltac:(lia)) as [i Ei].
    assert (F : firstn (S k) ws = firstn k ws ++ [(false, i)]).
    { rewrite (firstn_S_nth _ (false, i)) by lia. do 2 f_equal. now apply nth_error_nth. }
    rewrite F, app_assoc, st_snoc. apply pipe_moves. rewrite pipe_len. lia. }
  specialize (G (sc_p c - 1)%nat ltac:(lia)). destruct (NR (sc_p c - 1)%nat ltac:(lia)) as [i Ei].
  assert (F : firstn (sc_p c) ws = firstn (sc_p c - 1) ws ++ [(false, i)]).
  { replace (sc_p c) with (S (sc_p c - 1)) at 1 by lia. rewrite (firstn_S_nth _ (false, i)) by lia. do 2 f_equal. now apply nth_error_nth. }
  assert (Ecy : nth_error (cy :: w ++ [cy']) (sc_p c) = Some cy').
  { rewrite app_comm_cons, nth_error_app2 by (cbn [length]; lia). cbn [length]. replace (sc_p c - S (length w))%nat with 0%nat by lia. reflexivity. }
  rewrite (Ek _ _ Ecy), F, app_assoc, st_snoc. cbn [outs so_rvalid]. set (s := st c (p ++ firstn (sc_p c - 1) ws)) in *.
  rewrite nxt_fields. cbn [c_rvalid]. assert (TL : last (c_pipe s) blank = nth (sc_p c - 1) (c_pipe s) blank).
  { assert (PL : length (c_pipe s) = sc_p c) by apply pipe_len. rewrite <- (firstn_all (c_pipe s)) at 1. rewrite PL.
    replace (sc_p c) with (S (sc_p c - 1)) at 1 by lia. apply last_firstn. lia. }
  rewrite TL, G. unfold rd1 in X. destruct (g_rd (hd blank (c_pipe (st c p)))) eqn:ER; [|discriminate].
  assert (In (hd blank (c_pipe (st c p))) (c_pipe (st c p))).
  { pose proof (pipe_len c p). destruct (c_pipe (st c p)); [cbn in *; lia|]. left; auto. }
  rewrite (v_excl I) by auto. reflexivity.
Qed.

(** * Progress *)
Lemma stat_progress c xs h w : cfg_ok c -> polite (observe c xs) -> ids_ok c (observe c xs) ->
  observe c xs = h ++ w -> 2 ^ sc_d c <= Z.of_nat (length (live h)) -> length w = (sc_p c + 2)%nat ->
  (forall rst i o, In (rst, i, o) w -> rst = false /\ si_stat i <> None /\ si_ar i = None) ->
  exists cy, In cy w /\ so_tready (snd cy) = true.
Proof.
  intros Hc HP HO E Hl L HF. pose proof E as E2. apply observe_app in E2 as (p & ws & -> & -> & Ew & Ek).
  destruct (existsb (fun cy : ccycle => so_tready (snd cy)) w) eqn:X. { apply existsb_exists in X. exact X. } exfalso.
  assert (NT : forall cy, In cy w -> so_tready (snd cy) = false).
  { intros cy Hcy. destruct (so_tready (snd cy)) eqn:T; auto. assert (existsb (fun cy : ccycle => so_tready (snd cy)) w = true); [|congruence]. apply existsb_exists. eauto. }
  assert (HI : exists Pf, inv c (live (observe c p)) (st c p) Pf).
  { apply inv_run; auto.
    - intros q a b t Eq. apply (HP q a b (t ++ w)). rewrite E, Eq, <- app_assoc. reflexivity.
    - intros r' i' o' id n Hin. apply (HO r' i' o' id n). rewrite E. apply in_or_app. auto. }
  destruct HI as [Pf I].
  assert (I0 : c_init (st c p) = false).
  { pose proof (v_init I) as V. destruct (c_init (st c p)); auto. lia. }
  assert (LWS : length ws = (sc_p c + 2)%nat) by (rewrite <- Ew, map_length; auto).
  assert (NR : forall k, (k < sc_p c + 2)%nat -> exists i id n, nth_error ws k = Some (false, i) /\ si_stat i = Some (id, n) /\ si_ar i = None /\ c_tready (st c (p ++ firstn k ws)) = false).
  { intros k Hk. destruct (nth_error w k) as [z|] eqn:Ez; [|apply nth_error_None in Ez; lia].
    pose proof (Ek _ _ Ez) as EO. destruct z as [[r i] o]. pose proof (nth_error_In _ _ Ez) as Hin. destruct (HF r i o Hin) as (-> & HS & HR).
    exists i. destruct (si_stat i) as [[id n]|] eqn:ES; [|congruence]. exists id, n. splits; auto.
    - rewrite <- Ew, nth_error_map, Ez. reflexivity.
    - cbn [snd] in EO. specialize (NT _ Hin). cbn [snd] in NT. rewrite EO in NT. exact NT. }
  assert (F : forall k i, nth_error ws k = Some (false, i) -> firstn (S k) ws = firstn k ws ++ [(false, i)]).
  { intros k i Hi. rewrite (firstn_S_nth _ (false, i)). { do 2 f_equal. now apply nth_error_nth. } apply nth_error_Some. congruence. }
  (* nothing is accepted *)
  assert (NA : forall k i, (k <= sc_p c)%nat -> nth_error ws k = Some (false, i) -> acc_now c (st c (p ++ firstn k ws)) i = None).
  { intros k i Hk Hi. destruct (NR (S k) ltac:(lia)) as (_ & _ & _ & _ & _ & _ & T). rewrite (F k i Hi), app_assoc, st_snoc, nxt_fields in T.
    cbn [c_tready] in T. destruct (acc_now _ _ i); [discriminate|auto]. }
  assert (G : forall k, (k <= sc_p c)%nat -> c_init (st c (p ++ firstn k ws)) = false /\
    forall j, (j < k)%nat -> let g := nth j (c_pipe (st c (p ++ firstn k ws))) blank in g_rd g = false /\ g_acc g = false).
  { induction k as [|k IH]; intro Hk. { cbn [firstn]. rewrite app_nil_r. split; auto. intros; lia. }
    destruct (IH ltac:(lia)) as [IH1 IH2]. destruct (NR k ltac:(lia)) as (i & id & n & Hi & _ & HA & _).
    rewrite (F k i Hi), app_assoc, st_snoc. set (s := st c (p ++ firstn k ws)) in *. split. { rewrite nxt_fields. cbn [c_init]. now rewrite IH1. }
    intros [|j] Hj.
    - rewrite nxt_fields. cbn [c_pipe]. pose proof (pipe_len c (p ++ firstn k ws)) as PL. fold s in PL.
      destruct (c_pipe s) as [|g q] eqn:EP. { cbn in PL. destruct Hc as (_ & _ & _ & ?). lia. }
      cbn [removelast nth]. assert (RN : rd_now c s i = None) by (unfold rd_now; now rewrite HA).
      pose proof (NA k i ltac:(lia) Hi) as N. fold s in N. unfold front. rewrite RN, N. auto.
    - rewrite pipe_moves by (unfold s; rewrite pipe_len; lia). apply IH2. lia. }
  destruct (G (sc_p c) (Nat.le_refl _)) as [G1 G2]. destruct (NR (sc_p c) ltac:(lia)) as (i & id & n & Hi & HS & HA & HT).
  pose proof (NA (sc_p c) i (Nat.le_refl _) Hi) as A. set (s := st c (p ++ firstn (sc_p c) ws)) in *.
  assert (HZ : hazard (c_pipe s) id = false).
  { destruct (hazard (c_pipe s) id) eqn:Z; auto. unfold hazard in Z. apply existsb_exists in Z as (g & Hg & Z).
    apply (In_nth _ _ blank) in Hg as (j & Hj & <-). unfold s in Hj. rewrite pipe_len in Hj. fold s in Hj. destruct (G2 j Hj) as [Z1 Z2]. rewrite Z1, Z2 in Z. discriminate. }
  unfold acc_now in A. rewrite HS, G1, HT, HZ in A. unfold rd_now in A. rewrite HA in A. discriminate.
Qed.

(** * Starvation *)
Definition sv_cfg := mkSc 1 16 16 2.
Definition sv_in : bool * scin := (false, mkScIn (Some (0, 1)) (Some 0) true false true).

Lemma sv_states n : st sv_cfg (repeat sv_in (2 + n)) = st sv_cfg (repeat sv_in 2) \/
  exists k, (k < 3)%nat /\ st sv_cfg (repeat sv_in (2 + n)) = st sv_cfg (repeat sv_in (3 + k)).
Proof.
  induction n as [|n IH]; [left; reflexivity|]. right.
  assert (E : repeat sv_in (2 + S n) = repeat sv_in (2 + n) ++ [sv_in]).
  { replace (2 + S n)%nat with ((2 + n) + 1)%nat by lia. now rewrite repeat_app. }
  rewrite E, st_snoc. destruct IH as [->|(k & Hk & ->)].
  - exists 0%nat. split; [lia|]. vm_compute. reflexivity.
  - destruct k as [|[|[|k]]]; [exists 1%nat|exists 2%nat|exists 0%nat|lia]; (split; [lia|]); vm_compute; reflexivity.
Qed.

Lemma sv_tready n : c_tready (st sv_cfg (repeat sv_in n)) = false.
Proof.
  destruct n as [|[|n]]; try reflexivity. destruct (sv_states n) as [E|(k & Hk & E)]; change (S (S n)) with (2 + n)%nat; rewrite E; [vm_compute; reflexivity|].
  destruct k as [|[|[|k]]]; [vm_compute; reflexivity..|lia].
Qed.

Lemma sv_observe n cy : In cy (observe sv_cfg (repeat sv_in n)) -> fst cy = sv_in /\ so_tready (snd cy) = false.
Proof.
  induction n as [|n IH]; [intros []|]. replace (repeat sv_in (S n)) with (repeat sv_in n ++ [sv_in]) by (rewrite <- Nat.add_1_r, repeat_app; reflexivity).
  rewrite observe_snoc, in_app_iff. intros [H|[<-|[]]]; auto. split; auto. apply sv_tready.
Qed.

Lemma sv_polite n : polite (observe sv_cfg (repeat sv_in n)).
Proof.
  intros p x y q E. assert (Hx : In x (observe sv_cfg (repeat sv_in n))) by (rewrite E; apply in_or_app; right; left; auto).
  assert (Hy : In y (observe sv_cfg (repeat sv_in n))) by (rewrite E; apply in_or_app; right; right; left; auto).
  apply sv_observe in Hx as [Hx _]. apply sv_observe in Hy as [Hy _]. destruct x as [[r i] o], y as [[r' i'] o'].
  cbn [fst] in *. injection Hx as -> ->. injection Hy as -> ->. intros _. auto.
Qed.

Lemma sv_ids n : ids_ok sv_cfg (observe sv_cfg (repeat sv_in n)).
Proof. intros r i o id k H E. apply sv_observe in H as [H _]. cbn [fst] in H. injection H as -> ->. cbn in E. injection E as <- <-. cbn. lia. Qed.

Lemma starvation : ~ (forall c, cfg_ok c -> exists n, forall xs h w, polite (observe c xs) -> ids_ok c (observe c xs) ->
  observe c xs = h ++ w -> 2 ^ sc_d c <= Z.of_nat (length (live h)) -> length w = n ->
  (forall rst i o, In (rst, i, o) w -> rst = false /\ si_stat i <> None) ->
  exists cy, In cy w /\ so_tready (snd cy) = true).
Proof.
  intro H. assert (C : cfg_ok sv_cfg) by (unfold cfg_ok; cbn; lia). destruct (H _ C) as [n Hn]. clear H.
  set (ob := observe sv_cfg (repeat sv_in (2 + n))).
  assert (LO : length ob = (2 + n)%nat) by (unfold ob, observe; rewrite combine_length, trace_length, repeat_length; lia).
  assert (IN : forall cy, In cy (skipn 2 ob) -> In cy ob).
  { intros cy Hc. rewrite <- (firstn_skipn 2 ob). apply in_or_app. auto. }
  destruct (Hn (repeat sv_in (2 + n)) (firstn 2 ob) (skipn 2 ob)) as (cy & Hcy & T).
  - apply sv_polite.
  - apply sv_ids.
  - symmetry. apply firstn_skipn.
  - assert (E : firstn 2 ob = observe sv_cfg (repeat sv_in 2)).
    { unfold ob. clear. replace (repeat sv_in (2 + n)) with (repeat sv_in 2 ++ repeat sv_in n) by (rewrite <- repeat_app; reflexivity).
      induction n as [|n IH]. { rewrite app_nil_r. reflexivity. }
      replace (repeat sv_in (S n)) with (repeat sv_in n ++ [sv_in]) by (rewrite <- (Nat.add_1_r n), repeat_app; reflexivity).
      rewrite app_assoc, observe_snoc, firstn_app.
      assert (L : length (observe sv_cfg (repeat sv_in 2 ++ repeat sv_in n)) = (2 + n)%nat) by (unfold observe; rewrite combine_length, trace_length, app_length, !repeat_length; lia).
      rewrite L. replace (2 - (2 + n))%nat with 0%nat by lia. cbn [firstn] in *. rewrite app_nil_r. exact IH. }
    rewrite E. vm_compute. discriminate.
  - rewrite skipn_length, LO. lia.
  - intros r i o Hin. apply IN, sv_observe in Hin as [Hin _]. cbn [fst] in Hin. injection Hin as -> ->. split; auto. discriminate.
  - apply IN, sv_observe in Hcy as [_ Hcy]. congruence.
Qed.

(** * Building polite histories *)
Lemma polite_one a : polite [a].
Proof. intros p x y q E. destruct p as [|? [|? ?]]; discriminate. Qed.
Lemma polite_cons a b q : held a b -> polite (b :: q) -> polite (a :: b :: q).
Proof.
  intros H1 H2 p x y t E. destruct p as [|z p]; cbn in E.
  - injection E as -> -> _. exact H1.
  - injection E as -> E. exact (H2 p x y t E).
Qed.

(** * Torn reads *)
Definition tr_cfg := mkSc 1 16 8 2.
Definition tr_in stat ar : bool * scin := (false, mkScIn stat ar true false true).
Definition tr_run : list (bool * scin) :=
  [tr_in None None; tr_in None None; tr_in (Some (0, 255)) None; tr_in (Some (0, 255)) None; tr_in None None;
   tr_in None (Some 0); tr_in None (Some 0); tr_in (Some (0, 1)) None; tr_in (Some (0, 1)) None; tr_in (Some (0, 1)) None; tr_in None None;
   tr_in None (Some 1); tr_in None (Some 1); tr_in None None; tr_in None None; tr_in None None].
Definition opt2_eqb (a b : option (Z * Z)) : bool :=
  match a, b with Some (x, y), Some (x', y') => (x =? x') && (y =? y') | None, None => true | _, _ => false end.
Definition opt_eqb (a b : option Z) : bool := match a, b with Some x, Some x' => x =? x' | None, None => true | _, _ => false end.
Definition heldb (x y : ccycle) : bool :=
  let '(rst, i, o) := x in let '(_, i', _) := y in
  rst || (((match si_stat i with None => true | _ => false end) || so_tready o || opt2_eqb (si_stat i') (si_stat i)) &&
          ((match si_ar i with None => true | _ => false end) || so_arready o || opt_eqb (si_ar i') (si_ar i))).
Lemma heldb_held x y : heldb x y = true -> held x y.
Proof.
  destruct x as [[r i] o], y as [[r' i'] o']. unfold heldb, held. intros H ->. cbn [orb] in H. apply andb_true_iff in H as [H1 H2]. split.
  - intros N T. rewrite T in H1. destruct (si_stat i) as [[a b]|]; [|congruence]. cbn [orb] in H1. destruct (si_stat i') as [[a' b']|]; [|discriminate].
    cbn in H1. apply andb_true_iff in H1 as [A B]. apply Z.eqb_eq in A, B. congruence.
  - intros N T. rewrite T in H2. destruct (si_ar i) as [a|]; [|congruence]. cbn [orb] in H2. destruct (si_ar i') as [a'|]; [|discriminate].
    cbn in H2. apply Z.eqb_eq in H2. congruence.
Qed.
Fixpoint politeb (l : list ccycle) : bool :=
  match l with x :: ((y :: _) as t) => heldb x y && politeb t | _ => true end.
Lemma politeb_polite l : politeb l = true -> polite l.
Proof.
  induction l as [|x [|y l] IH]; intro H.
  - intros p a b q E. destruct p; discriminate.
  - apply polite_one.
  - cbn [politeb] in H. apply andb_true_iff in H as [A B]. exact (@polite_cons x y l (@heldb_held x y A) (IH B)).
Qed.
(* Computing implicit arguments would normalise the run. *)
#[local] Unset Implicit Arguments.
Lemma tr_polite : polite (observe tr_cfg tr_run).
Proof. apply politeb_polite. vm_cast_no_check (eq_refl true). Qed.
Lemma tr_ids : ids_ok tr_cfg (observe tr_cfg tr_run).
Proof.
  intros r i o id n H E. assert (F : Forall (fun x : ccycle => match si_stat (snd (fst x)) with Some (id, _) => 0 <= id < 2 | None => True end) (observe tr_cfg tr_run)).
  { vm_compute. repeat constructor; discriminate || reflexivity. }
  rewrite Forall_forall in F. specialize (F _ H). cbn [fst snd] in F. rewrite E in F. exact F.
Qed.
Lemma tr_values : returned (live (observe tr_cfg tr_run)) = [255; 1] /\ read_addrs (live (observe tr_cfg tr_run)) = [0; 1].
Proof. split; vm_compute; reflexivity. Qed.
Lemma tr_never q r : live (observe tr_cfg tr_run) = q ++ r -> added 0 q mod 2 ^ sc_w tr_cfg <> 255 + 2 ^ sc_a tr_cfg * 1.
Proof.
  intro E. assert (Q : q = firstn (length q) (live (observe tr_cfg tr_run))) by (rewrite E, firstn_app, Nat.sub_diag, firstn_all; cbn [firstn]; now rewrite app_nil_r).
  assert (L : (length q < 17)%nat). { apply (f_equal (@length _)) in E. rewrite app_length in E. assert (L : length (live (observe tr_cfg tr_run)) = 16%nat) by (vm_compute; reflexivity). rewrite L in E. lia. }
  assert (G : forallb (fun k => negb (added 0 (firstn k (live (observe tr_cfg tr_run))) mod 2 ^ sc_w tr_cfg =? 255 + 2 ^ sc_a tr_cfg * 1)) (seq 0 17) = true) by (vm_compute; reflexivity).
  rewrite forallb_forall in G. specialize (G (length q)). rewrite <- Q in G. specialize (G ltac:(apply in_seq; lia)). apply negb_true_iff in G. lia.
Qed.
