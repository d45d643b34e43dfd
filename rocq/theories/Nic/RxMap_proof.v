(** Proofs about the receive queue map. *)
From Verif Require Import Base.Prelude Nic.RxMap_model Nic.RxMap_spec.
Local Open Scope Z_scope.

Definition st (c : rmcfg) (xs : list (bool * rmin)) : rmst := fst (trace (rm_step c) rm_init xs).
Definition outs (s : rmst) : rmout :=
  mkOut (t_wr_ack s) (t_rd_ack s) (t_rd_data s) (t_wready s) (t_bvalid s) (t_arready s) (t_rvalid1 s) (t_rdata1 s)
        (t_rvalid s) (t_rqueue s) (t_rtag s).
Definition nxt c s x : rmst := fst (rm_step c s x).

Lemma step_out c s x : rm_step c s x = (nxt c s x, outs s).
Proof. destruct x as [rst i]. reflexivity. Qed.

Lemma st_snoc c xs x : st c (xs ++ [x]) = nxt c (st c xs) x.
Proof.
  unfold st. rewrite trace_app. destruct (trace (rm_step c) rm_init xs) as [s os]. cbn [trace]. rewrite step_out. reflexivity.
Qed.

Lemma observe_snoc c xs x : observe c (xs ++ [x]) = observe c xs ++ [(x, outs (st c xs))].
Proof.
  unfold observe, st. rewrite trace_app. pose proof (@trace_length _ _ _ (rm_step c) xs rm_init) as L.
  destruct (trace (rm_step c) rm_init xs) as [s os]. cbn [trace]. rewrite step_out. cbn [fst snd] in *.
  revert os L. induction xs as [|y xs IH]; intros [|o os] L; cbn in L; try discriminate; auto.
  cbn [app combine]. now rewrite IH by congruence.
Qed.

Lemma observe_inv c xs h cy : observe c xs = h ++ [cy] ->
  exists xs' x, xs = xs' ++ [x] /\ h = observe c xs' /\ cy = (x, outs (st c xs')).
Proof.
  destruct xs as [|x xs _] using rev_ind; intro E.
  - destruct h; discriminate.
  - rewrite observe_snoc in E. apply app_inj_tail in E as [<- <-]. eauto.
Qed.

(** * Histories *)
Lemma acked_snoc h rst i o : acked (h ++ [(rst, i, o)]) =
  if rst then [] else acked h ++ match in_wr i with Some w => if o_wr_ack o then [w] else [] | None => [] end.
Proof. unfold acked. rewrite fold_left_app. reflexivity. Qed.
Lemma stored_snoc h rst i o : stored (h ++ [(rst, i, o)]) = stored h ++ if o_wready o then [(in_awaddr i, in_wdata i)] else [].
Proof. unfold stored. rewrite fold_left_app. reflexivity. Qed.
Lemma returned_snoc h rst i o : returned (h ++ [(rst, i, o)]) =
  if rst then [] else returned h ++ if o_rvalid o && in_rready i then [o_rdata o] else [].
Proof. unfold returned. rewrite fold_left_app. reflexivity. Qed.
Lemma writes_snoc h rst i o : writes (h ++ [(rst, i, o)]) = if rst then 0 else writes h + if o_wready o then 1 else 0.
Proof. unfold writes. rewrite fold_left_app. reflexivity. Qed.
Lemma responses_snoc h rst i o : responses (h ++ [(rst, i, o)]) = if rst then 0 else responses h + if o_bvalid o && in_bready i then 1 else 0.
Proof. unfold responses. rewrite fold_left_app. reflexivity. Qed.
Lemma wanted_snoc c (h : list cycle) rst i o : wanted c (h ++ [(rst, i, o)]) =
  if rst then [] else wanted c h ++ if o_arready o then [table c (entry_of c (in_araddr i)) h] else [].
Proof.
  unfold wanted. rewrite fold_left_app. set (F := fun '(past, acc) x => _).
  assert (H : forall h past acc, fst (fold_left F h (past, acc)) = past ++ h).
  { clear. induction h as [|x h IH]; intros; cbn [fold_left]. { now rewrite app_nil_r. }
    destruct x as [[rst i] o]. cbn [F]. rewrite IH, <- app_assoc. reflexivity. }
  specialize (H h [] []). cbn [fold_left]. destruct (fold_left F h ([], [])) as [p a]. cbn [fst app] in H. subst p. reflexivity.
Qed.
Lemma last_write_snoc here ws a d : last_write here (ws ++ [(a, d)]) = if here a then d else last_write here ws.
Proof. unfold last_write. rewrite fold_left_app. reflexivity. Qed.

Lemma polite_snoc2 h a b : polite (h ++ [a; b]) -> held a b.
Proof. intro H. exact (H h a b [] eq_refl). Qed.
Lemma polite_init h b : polite (h ++ [b]) -> polite h.
Proof. intros H p x y q E. apply (H p x y (q ++ [b])). subst h. rewrite <- app_assoc. reflexivity. Qed.
Lemma quiet_init h b : quiet (h ++ [b]) -> quiet h.
Proof. intros H i o E. apply (H i o), in_or_app. auto. Qed.

(** * Addresses *)
Lemma word_addr_at c a k off : wr_hits c off a k = at_reg c k off a.
Proof.
  unfold wr_hits, at_reg, word_addr. rewrite Z.shiftr_div_pow2 by lia. change (2 ^ 2) with 4.
  rewrite (Z.mul_comm 4). rewrite (Z.mul_comm (Z.of_nat k)). reflexivity.
Qed.
Lemma tbl_addr_at c a : tbl_addr c a = entry_of c a.
Proof. unfold tbl_addr, entry_of. rewrite Z.shiftr_div_pow2 by lia. reflexivity. Qed.

Lemma at_reg_off c a k k' off off' : at_reg c k off a = true -> at_reg c k' off' a = true ->
  0 <= off - 16 < 16 -> 0 <= off' - 16 < 16 -> k = k' /\ off = off'.
Proof. unfold at_reg. lia. Qed.

(** * Invariant *)
Record inv (c : rmcfg) (h : list cycle) (s : rmst) (P W : list (Z * Z)) : Prop := {
  i_hmask : forall k, (k < rm_ports c)%nat -> t_hmask s k = last_write (at_reg c k 0x14) P mod 2 ^ rm_q c;
  i_amask : forall k, (k < rm_ports c)%nat -> t_amask s k = last_write (at_reg c k 0x18) P mod 2 ^ rm_q c;
  i_direct : forall k, (k < rm_ports c)%nat -> t_direct s k = Z.testbit (last_write (at_reg c k 0x18) P) 31;
  i_mem : forall e, t_mem s e = last_write (fun a => entry_of c a =? e) W;
  i_ack : if t_wr_ack s then exists h0 i o w, h = h0 ++ [(false, i, o)] /\ in_wr i = Some w /\ o_wr_ack o = false /\ P = acked h ++ [w]
          else P = acked h;
  i_wready : if t_wready s then exists h0 i o, h = h0 ++ [(false, i, o)] /\ in_awvalid i = true /\ in_wvalid i = true /\
                 o_wready o = false /\ W = stored h ++ [(in_awaddr i, in_wdata i)]
             else W = stored h;
  i_arready : t_arready s = true -> t_rvalid0 s = true /\ t_wready s = false /\ exists h0 i o, h = h0 ++ [(false, i, o)] /\ in_arvalid i = true /\
                 o_arready o = false /\ t_rdata0 s = table c (entry_of c (in_araddr i)) h;
  i_reads : wanted c h ++ (if t_arready s then [t_rdata0 s] else []) =
            returned h ++ (if t_rvalid1 s then [t_rdata1 s] else []) ++ (if t_rvalid0 s then [t_rdata0 s] else []);
  i_writes : writes h + (if t_wready s then 1 else 0) = responses h + (if t_bvalid s then 1 else 0);
  i_excl : t_wready s = true -> t_bvalid s = true }.

Lemma inv_init c : inv c [] rm_init [] [].
Proof. constructor; try reflexivity; try discriminate. Qed.

(** The writes performed are those visible in the next cycle. *)
Lemma seen_acked c h s P W rst i : inv c h s P W -> polite (h ++ [((rst, i), outs s)]) -> rst = false ->
  acked (h ++ [((rst, i), outs s)]) = P.
Proof.
  intros I HP ->. rewrite acked_snoc. pose proof (i_ack I) as HA. cbn [outs o_wr_ack]. destruct (t_wr_ack s).
  - destruct HA as (h0 & i0 & o0 & w & Eh & Ew & Eo & ->). rewrite Eh, <- app_assoc in HP. apply polite_snoc2 in HP.
    destruct (HP eq_refl) as [HH _]. rewrite HH, Ew; [reflexivity | congruence | auto].
  - rewrite HA. destruct (in_wr i); now rewrite app_nil_r.
Qed.

Lemma seen_stored c h s P W rst i : inv c h s P W -> polite (h ++ [((rst, i), outs s)]) ->
  stored (h ++ [((rst, i), outs s)]) = W.
Proof.
  intros I HP. rewrite stored_snoc. pose proof (i_wready I) as HA. cbn [outs o_wready]. destruct (t_wready s).
  - destruct HA as (h0 & i0 & o0 & Eh & Ea & Ew & Eo & ->). rewrite Eh, <- app_assoc in HP. apply polite_snoc2 in HP.
    destruct (HP eq_refl) as (_ & H1 & H2 & _). destruct (H1 Ea Eo) as [_ ->]. destruct (H2 Ew Eo) as [_ ->]. reflexivity.
  - rewrite HA. now rewrite app_nil_r.
Qed.

Lemma seen_wanted c h s P W rst i : inv c h s P W -> polite (h ++ [((rst, i), outs s)]) -> rst = false ->
  wanted c (h ++ [((rst, i), outs s)]) = wanted c h ++ (if t_arready s then [t_rdata0 s] else []).
Proof.
  intros I HP ->. rewrite wanted_snoc. pose proof (i_arready I) as HA. cbn [outs o_arready]. destruct (t_arready s); auto.
  destruct (HA eq_refl) as (_ & _ & h0 & i0 & o0 & Eh & Ea & Eo & ->). do 2 f_equal.
  rewrite Eh, <- app_assoc in HP. apply polite_snoc2 in HP. destruct (HP eq_refl) as (_ & _ & _ & H3). now destruct (H3 Ea Eo) as [_ ->].
Qed.

Lemma wr_any_spec c a : wr_any c a = true <-> exists k, (k < rm_ports c)%nat /\ (at_reg c k 0x14 a = true \/ at_reg c k 0x18 a = true).
Proof.
  unfold wr_any. rewrite existsb_exists. split.
  - intros (k & Hk & E). apply in_seq in Hk. exists k. rewrite !word_addr_at in E. apply orb_true_iff in E. split; [lia|auto].
  - intros (k & Hk & E). exists k. rewrite !word_addr_at, orb_true_iff. rewrite in_seq. split; [lia|auto].
Qed.

Definition wr_now (s : rmst) (i : rmin) : option (Z * Z) :=
  match in_wr i with Some w => if t_wr_ack s then None else Some w | None => None end.
Definition w_elig (s : rmst) (i : rmin) : bool :=
  in_awvalid i && in_wvalid i && (negb (t_bvalid s) || in_bready i) && negb (t_wready s).
Definition r_elig (s : rmst) (i : rmin) : bool := in_arvalid i && (negb (t_rvalid1 s) || in_rready i) && negb (t_arready s).
Definition do_write (s : rmst) (i : rmin) : bool := w_elig s i && (negb (r_elig s i) || t_lastrd s).
Definition do_read (s : rmst) (i : rmin) : bool := negb (do_write s i) && r_elig s i.

Lemma inv_step c h s P W rst i : cfg_ok c -> inv c h s P W ->
  polite (h ++ [((rst, i), outs s)]) -> quiet (h ++ [((rst, i), outs s)]) ->
  exists P' W', inv c (h ++ [((rst, i), outs s)]) (nxt c s (rst, i)) P' W'.
Proof.
  intros (Hp & Hq & Hw & Hd) I HP HQ.
  pose proof (seen_stored _ _ I HP) as ES.
  set (h' := h ++ [((rst, i), outs s)]) in *.
  exists (if rst then [] else P ++ match wr_now s i with Some w => if wr_any c (fst w) then [w] else [] | None => [] end).
  exists (W ++ if do_write s i then [(in_awaddr i, in_wdata i)] else []).
  assert (Q : rst = true -> do_write s i = false).
  { intros ->. unfold do_write, w_elig. rewrite (HQ i (outs s)) by (apply in_or_app; cbn; auto). reflexivity. }
  assert (Emem : forall e, t_mem (nxt c s (rst, i)) e = last_write (fun a => entry_of c a =? e) (W ++ if do_write s i then [(in_awaddr i, in_wdata i)] else [])).
  { intro e. change (t_mem (nxt c s (rst, i))) with (if do_write s i then zupd (t_mem s) (tbl_addr c (in_awaddr i)) (in_wdata i) else t_mem s).
    destruct (do_write s i).
    - rewrite last_write_snoc, tbl_addr_at. unfold zupd. rewrite (Z.eqb_sym e), (i_mem I). reflexivity.
    - rewrite app_nil_r. apply (i_mem I). }
  assert (EP : rst = false -> acked h' = P) by (intro E; apply (seen_acked _ I HP E)).
  destruct rst.
  - (* reset *)
    rewrite Q by reflexivity. specialize (Q eq_refl). rewrite Q in Emem.
    assert (EA : acked h' = []) by (unfold h'; now rewrite acked_snoc).
    constructor; cbn [nxt rm_step fst t_hmask t_amask t_direct t_wr_ack t_wready t_arready t_rvalid0 t_rvalid1 t_bvalid t_rdata0 t_rdata1 negb andb];
      auto; try discriminate.
    + rewrite app_nil_r. auto.
    + unfold h'. rewrite wanted_snoc, returned_snoc. reflexivity.
    + unfold h'. rewrite writes_snoc, responses_snoc. reflexivity.
  - specialize (EP eq_refl).
    assert (EH : forall k, (k < rm_ports c)%nat -> forall off, off = 0x14 \/ off = 0x18 ->
      last_write (at_reg c k off) (P ++ match wr_now s i with Some w => if wr_any c (fst w) then [w] else [] | None => [] end) =
      match wr_now s i with Some (a, d) => if at_reg c k off a then d else last_write (at_reg c k off) P | None => last_write (at_reg c k off) P end).
    { intros k Hk off Ho. destruct (wr_now s i) as [[a d]|]; [|now rewrite app_nil_r]. cbn [fst].
      destruct (wr_any c a) eqn:E. { apply last_write_snoc. }
      rewrite app_nil_r. destruct (at_reg c k off a) eqn:E2; auto. exfalso.
      assert (wr_any c a = true); [|congruence]. apply wr_any_spec. exists k. destruct Ho; subst off; auto. }
    constructor.
    + intros k Hk. rewrite EH by auto. change (t_hmask (nxt c s (false, i)) k) with
        (match wr_now s i with Some (a, d) => wr_hmask c a d (t_hmask s) | None => t_hmask s end k).
      destruct (wr_now s i) as [[a d]|]; [|now apply (i_hmask I)]. unfold wr_hmask. rewrite word_addr_at.
      replace (k <? rm_ports c)%nat with true by lia. cbn [andb]. destruct (at_reg c k 20 a); auto. now apply (i_hmask I).
    + intros k Hk. rewrite EH by auto. change (t_amask (nxt c s (false, i)) k) with
        (match wr_now s i with Some (a, d) => wr_amask c a d (t_amask s) | None => t_amask s end k).
      destruct (wr_now s i) as [[a d]|]; [|now apply (i_amask I)]. unfold wr_amask. rewrite word_addr_at.
      replace (k <? rm_ports c)%nat with true by lia. cbn [andb]. destruct (at_reg c k 24 a); [|now apply (i_amask I)].
      replace 31 with (rm_q c + (31 - rm_q c)) by lia. rewrite Z.pow_add_r by lia.
      rewrite Z.rem_mul_r by (apply Z.pow_nonzero || apply Z.pow_pos_nonneg; lia).
      rewrite Z.mul_comm, Z.mod_add by (apply Z.pow_nonzero; lia). now rewrite Z.mod_mod by (apply Z.pow_nonzero; lia).
    + intros k Hk. rewrite EH by auto. change (t_direct (nxt c s (false, i)) k) with
        (match wr_now s i with Some (a, d) => wr_direct c a d (t_direct s) | None => t_direct s end k).
      destruct (wr_now s i) as [[a d]|]; [|now apply (i_direct I)]. unfold wr_direct. rewrite word_addr_at.
      replace (k <? rm_ports c)%nat with true by lia. cbn [andb]. destruct (at_reg c k 24 a); auto. now apply (i_direct I).
    + exact Emem.
    + change (t_wr_ack (nxt c s (false, i))) with (match wr_now s i with Some (a, _) => wr_any c a | None => false end).
      rewrite EP. unfold wr_now. destruct (in_wr i) as [[a d]|] eqn:Ei; [|now rewrite app_nil_r].
      destruct (t_wr_ack s) eqn:Ek; [now rewrite app_nil_r|]. cbn [fst]. destruct (wr_any c a); [|now rewrite app_nil_r].
      exists h, i, (outs s), (a, d). auto.
    + change (t_wready (nxt c s (false, i))) with (do_write s i). rewrite ES. destruct (do_write s i) eqn:E; [|now rewrite app_nil_r].
      exists h, i, (outs s). unfold do_write, w_elig in E. cbn [outs o_wready].
      destruct (in_awvalid i), (in_wvalid i), (t_wready s); cbn in E; rewrite ?andb_false_r in E; try discriminate. auto.
    + change (t_arready (nxt c s (false, i))) with (do_read s i). intro E.
      assert (Ew : do_write s i = false) by (unfold do_read in E; destruct (do_write s i); auto; discriminate).
      split; [|split].
      * change (t_rvalid0 (nxt c s (false, i))) with (if do_read s i then true else t_rvalid0 s && negb (in_rready i || negb (t_rvalid1 s))). now rewrite E.
      * exact Ew.
      * exists h, i, (outs s). unfold do_read, r_elig in E. cbn [outs o_arready].
        change (t_rdata0 (nxt c s (false, i))) with (if do_read s i then t_mem s (tbl_addr c (in_araddr i)) else t_rdata0 s).
        unfold do_read, r_elig. rewrite E. split; auto.
        destruct (in_arvalid i), (t_arready s); cbn in E; rewrite ?andb_false_r in E; try discriminate. split; auto. split; auto.
        unfold table. rewrite ES, (i_mem I), tbl_addr_at. reflexivity.
    + change (t_arready (nxt c s (false, i))) with (do_read s i).
      change (t_rdata0 (nxt c s (false, i))) with (if do_read s i then t_mem s (tbl_addr c (in_araddr i)) else t_rdata0 s).
      change (t_rvalid0 (nxt c s (false, i))) with (if do_read s i then true else t_rvalid0 s && negb (in_rready i || negb (t_rvalid1 s))).
      change (t_rvalid1 (nxt c s (false, i))) with (if negb (t_rvalid1 s) || in_rready i then t_rvalid0 s else t_rvalid1 s).
      change (t_rdata1 (nxt c s (false, i))) with (if negb (t_rvalid1 s) || in_rready i then t_rdata0 s else t_rdata1 s).
      unfold h'. rewrite (seen_wanted _ I HP eq_refl), returned_snoc, (i_reads I). cbn [outs o_rvalid o_rdata].
      assert (E : do_read s i = true -> negb (t_rvalid1 s) || in_rready i = true).
      { unfold do_read, r_elig. destruct (negb (t_rvalid1 s) || in_rready i); auto. rewrite !andb_false_r. cbn. rewrite ?andb_false_r. discriminate. }
      destruct (do_read s i); [specialize (E eq_refl)|clear E]; destruct (t_rvalid1 s), (in_rready i), (t_rvalid0 s); cbn in *;
        try discriminate; rewrite ?app_nil_r, <- ?app_assoc; reflexivity.
    + change (t_wready (nxt c s (false, i))) with (do_write s i).
      change (t_bvalid (nxt c s (false, i))) with (if do_write s i then true else t_bvalid s && negb (in_bready i)).
      unfold h'. rewrite writes_snoc, responses_snoc. cbn [outs o_wready o_bvalid]. pose proof (i_writes I) as E.
      assert (E2 : do_write s i = true -> negb (t_bvalid s) || in_bready i = true).
      { unfold do_write, w_elig. destruct (negb (t_bvalid s) || in_bready i); auto. rewrite !andb_false_r. discriminate. }
      destruct (do_write s i); [specialize (E2 eq_refl)|clear E2]; destruct (t_wready s), (t_bvalid s), (in_bready i); cbn in *; try discriminate; lia.
    + change (t_wready (nxt c s (false, i))) with (do_write s i).
      change (t_bvalid (nxt c s (false, i))) with (if do_write s i then true else t_bvalid s && negb (in_bready i)).
      intros ->. reflexivity.
Qed.

Lemma inv_run c xs : cfg_ok c -> polite (observe c xs) -> quiet (observe c xs) -> exists P W, inv c (observe c xs) (st c xs) P W.
Proof.
  intro Hc. induction xs as [|[rst i] xs IH] using rev_ind; intros HP HQ.
  - exists [], []. apply inv_init.
  - rewrite observe_snoc in *. rewrite st_snoc.
    destruct (IH (polite_init _ HP) (quiet_init _ _ HQ)) as (P & W & I). apply (inv_step _ _ Hc I HP HQ).
Qed.

(** * Requests *)
Lemma req_index_spec c h s P W i r : cfg_ok c -> inv c h s P W -> polite (h ++ [((false, i), outs s)]) ->
  (rq_id r < rm_ports c)%nat ->
  req_index c s r = Z.of_nat (rq_id r) * 2 ^ rm_w c + slot c (h ++ [((false, i), outs s)]) r.
Proof.
  intros (Hp & Hq & Hw & Hd) I HP Hr. unfold req_index, slot, app_mask, hash_mask. rewrite (seen_acked _ I HP eq_refl).
  rewrite (i_hmask I) by auto. rewrite (i_amask I) by auto. rewrite Z.add_comm. f_equal.
  destruct (Nat.ltb_spec 1 (rm_ports c)).
  - rewrite Z.mul_comm. f_equal. apply Z.mod_small. split; [lia|].
    unfold rm_clports. pose proof (Z.log2_up_spec (Z.of_nat (rm_ports c)) ltac:(lia)). lia.
  - replace (rq_id r) with 0%nat by lia. reflexivity.
Qed.

Lemma req_dest1_top c s r : 0 < rm_d c ->
  Z.testbit (req_dest1 c s r) (rm_d c - 1) = Z.testbit (rq_dest r) (rm_d c - 1) && t_direct s (rq_id r).
Proof.
  intro H. unfold req_dest1. set (b := _ && _). clearbody b.
  rewrite Z.testbit_eqb by lia. pose proof (Z.mod_pos_bound (rq_dest r) (2 ^ (rm_d c - 1)) (Z.pow_pos_nonneg 2 (rm_d c - 1) ltac:(lia) ltac:(lia))).
  rewrite Z.mul_comm, Z.div_add, Z.div_small by (auto; apply Z.pow_nonzero; lia). destruct b; reflexivity.
Qed.

Lemma req_dest1_low c s r : 0 <= rm_q c < rm_d c -> req_dest1 c s r mod 2 ^ rm_q c = rq_dest r mod 2 ^ rm_q c.
Proof.
  intro H. unfold req_dest1. set (b := Z.b2z _). clearbody b.
  replace (rm_d c - 1) with (rm_q c + (rm_d c - 1 - rm_q c)) by lia. rewrite Z.pow_add_r by lia.
  rewrite Z.rem_mul_r by (apply Z.pow_nonzero || apply Z.pow_pos_nonneg; lia).
  set (p := 2 ^ rm_q c). set (t := 2 ^ (rm_d c - 1 - rm_q c)).
  replace (rq_dest r mod p + p * ((rq_dest r / p) mod t) + p * t * b) with (rq_dest r mod p + ((rq_dest r / p) mod t + t * b) * p) by ring.
  rewrite Z.mod_add by (apply Z.pow_nonzero; lia). apply Z.mod_mod. apply Z.pow_nonzero; lia.
Qed.

Lemma observe4 c xs h a0 a1 a2 a3 : observe c xs = h ++ [a0; a1; a2; a3] ->
  exists p x0 x1 x2 x3, xs = p ++ [x0; x1; x2; x3] /\ h = observe c p /\
    a0 = (x0, outs (st c p)) /\ a1 = (x1, outs (nxt c (st c p) x0)) /\
    a2 = (x2, outs (nxt c (nxt c (st c p) x0) x1)) /\ a3 = (x3, outs (nxt c (nxt c (nxt c (st c p) x0) x1) x2)).
Proof.
  intro E. change (h ++ [a0; a1; a2; a3]) with (h ++ [a0] ++ [a1] ++ [a2] ++ [a3]) in E. rewrite !app_assoc in E.
  apply observe_inv in E as (xs3 & x3 & -> & E & ->). symmetry in E.
  apply observe_inv in E as (xs2 & x2 & -> & E & ->). symmetry in E.
  apply observe_inv in E as (xs1 & x1 & -> & E & ->). symmetry in E.
  apply observe_inv in E as (p & x0 & -> & E & ->). exists p, x0, x1, x2, x3.
  rewrite !st_snoc, <- !app_assoc. auto 10.
Qed.

Lemma response c xs h r0 i0 o0 r1 i1 o1 r2 i2 o2 r3 i3 o3 : cfg_ok c ->
  observe c xs = h ++ [(r0, i0, o0); (r1, i1, o1); (r2, i2, o2); (r3, i3, o3)] ->
  polite (observe c xs) -> quiet (observe c xs) ->
  o_valid o3 = negb r0 && negb r1 && negb r2 && (match in_req i0 with Some _ => true | None => false end) /\
  forall r, in_req i0 = Some r -> (rq_id r < rm_ports c)%nat -> o_valid o3 = true ->
    o_tag o3 = rq_tag r /\ o_queue o3 = chosen c (h ++ [(r0, i0, o0)]) (h ++ [(r0, i0, o0); (r1, i1, o1)]) r.
Proof.
  intros Hc E HP HQ. rewrite E in HP, HQ.
  apply observe4 in E as (p & x0 & x1 & x2 & x3 & _ & -> & E0 & E1 & E2 & E3).
  injection E0 as <- ->. injection E1 as <- ->. injection E2 as <- ->. injection E3 as <- ->.
  assert (V : o_valid (outs (nxt c (nxt c (nxt c (st c p) (r0, i0)) (r1, i1)) (r2, i2))) =
    negb r0 && negb r1 && negb r2 && (match in_req i0 with Some _ => true | None => false end)).
  { cbn. destruct r0, r1, r2, (in_req i0); reflexivity. }
  split; [exact V|]. intros r Hr Hid Hv. rewrite Hv in V.
  destruct r0; [discriminate|]. destruct r1; [discriminate|].
  assert (HP2 : polite (observe c p ++ [((false, i0), outs (st c p)); ((false, i1), outs (nxt c (st c p) (false, i0)))])).
  { intros q a b t Eq. match type of HP with polite (_ ++ [_; _; ?y; ?z]) => apply (HP q a b (t ++ [y; z])) end.
    rewrite app_comm_cons, app_comm_cons, app_assoc, <- Eq, <- app_assoc. reflexivity. }
  assert (HQ2 : quiet (observe c p ++ [((false, i0), outs (st c p)); ((false, i1), outs (nxt c (st c p) (false, i0)))])).
  { intros i o Hi. apply (HQ i o). apply in_app_iff. apply in_app_iff in Hi as [Hi|Hi]; auto. right. destruct Hi as [Hi|[Hi|[]]]; cbn; auto. }
  change [((false, i0), outs (st c p)); ((false, i1), outs (nxt c (st c p) (false, i0)))] with
    ([((false, i0), outs (st c p))] ++ [((false, i1), outs (nxt c (st c p) (false, i0)))]) in HP2, HQ2.
  rewrite app_assoc in HP2, HQ2. pose proof (polite_init _ HP2) as HP1. pose proof (quiet_init _ _ HQ2) as HQ1.
  destruct (inv_run _ Hc (polite_init _ HP1) (quiet_init _ _ HQ1)) as (P & W & I).
  destruct (inv_step _ _ Hc I HP1 HQ1) as (P1 & W1 & I1).
  split. { cbn. now rewrite Hr. }
  pose proof (req_index_spec _ r Hc I HP1 Hid) as EI. set (s := st c p) in *.
  unfold chosen. set (s1 := nxt c s (false, i0)) in *.
  change (o_queue (outs (nxt c (nxt c s1 (false, i1)) (r2, i2)))) with
    (if Z.testbit (t_dest1 s1) (rm_d c - 1) then t_dest1 s1 mod 2 ^ rm_q c else t_mem s1 (t_index s1) mod 2 ^ rm_q c).
  replace (t_dest1 s1) with (req_dest1 c s r) by (unfold s1; cbn; now rewrite Hr).
  replace (t_index s1) with (req_index c s r) by (unfold s1; cbn; now rewrite Hr). rewrite EI.
  destruct Hc as (Hp & Hq & Hw & Hd). rewrite req_dest1_top by lia. rewrite req_dest1_low by lia.
  unfold direct, app_direct. rewrite (seen_acked _ I HP1 eq_refl). rewrite (i_direct I) by auto.
  clear V. destruct (Z.testbit (rq_dest r) (rm_d c - 1) && _); auto. f_equal.
  change [((false, i0), outs s); ((false, i1), outs s1)] with ([((false, i0), outs s)] ++ [((false, i1), outs s1)]). rewrite app_assoc.
  unfold table. rewrite (seen_stored _ _ I1 HP2). rewrite <- (i_mem I1). reflexivity.
Qed.

Lemma response_early c xs h cy : observe c xs = h ++ [cy] -> (length h < 3)%nat -> o_valid (snd cy) = false.
Proof.
  intros E L. apply observe_inv in E as (xs1 & x1 & -> & -> & ->). cbn [snd outs o_valid].
  assert (L1 : (length xs1 < 3)%nat).
  { unfold observe in L. rewrite combine_length, trace_length, Nat.min_id in L. exact L. }
  destruct xs1 as [|[ra ia] [|[rb ib] [|[rd id] t]]]; cbn in L1; try lia; unfold st; cbn [trace]; rewrite ?step_out; cbn [fst]; cbn [trace];
    rewrite ?step_out; cbn; rewrite ?andb_false_r; reflexivity.
Qed.

(** * AXI lite *)
Lemma reads_prefix c xs : cfg_ok c -> polite (observe c xs) -> quiet (observe c xs) ->
  exists rest, wanted c (observe c xs) = returned (observe c xs) ++ rest /\ (length rest <= 2)%nat.
Proof.
  intros Hc HP HQ. destruct (inv_run _ Hc HP HQ) as (P & W & I). pose proof (i_reads I) as E. pose proof (i_arready I) as A.
  exists ((if t_rvalid1 (st c xs) then [t_rdata1 (st c xs)] else []) ++
          if t_arready (st c xs) then [] else if t_rvalid0 (st c xs) then [t_rdata0 (st c xs)] else []).
  split; [|destruct (t_rvalid1 (st c xs)), (t_arready (st c xs)), (t_rvalid0 (st c xs)); cbn; lia].
  destruct (t_arready (st c xs)).
  - destruct (A eq_refl) as (EV & _). rewrite EV, app_assoc in E. rewrite app_nil_r. exact (proj1 (app_inj_tail _ _ _ _ E)).
  - now rewrite app_nil_r in E.
Qed.

Lemma observe2 c xs h a0 a1 : observe c xs = h ++ [a0; a1] ->
  exists p x0 x1, xs = p ++ [x0; x1] /\ h = observe c p /\ a0 = (x0, outs (st c p)) /\ a1 = (x1, outs (nxt c (st c p) x0)) /\
    st c xs = nxt c (nxt c (st c p) x0) x1.
Proof.
  intro E. change (h ++ [a0; a1]) with (h ++ [a0] ++ [a1]) in E. rewrite !app_assoc in E.
  apply observe_inv in E as (xs1 & x1 & -> & E & ->). symmetry in E.
  apply observe_inv in E as (p & x0 & -> & E & ->). exists p, x0, x1.
  rewrite !st_snoc, <- !app_assoc. auto 10.
Qed.

Lemma reads_done c xs h i1 o1 i2 o2 : cfg_ok c -> polite (observe c xs) -> quiet (observe c xs) ->
  observe c xs = h ++ [(false, i1, o1); (false, i2, o2)] ->
  in_rready i1 = true -> in_rready i2 = true -> o_arready o2 = false ->
  returned (observe c xs) = wanted c (observe c xs).
Proof.
  intros Hc HP HQ E R1 R2 A2. destruct (inv_run _ Hc HP HQ) as (P & W & I). pose proof (i_reads I) as ER.
  pose proof (i_arready I) as A. apply observe2 in E as (p & x0 & x1 & _ & _ & E1 & E2 & E3).
  injection E1 as <- ->. injection E2 as <- ->. rewrite E3 in *. set (s := st c p) in *.
  assert (V1 : t_rvalid1 (nxt c (nxt c s (false, i1)) (false, i2)) = false).
  { cbn [nxt rm_step fst t_rvalid1 t_rvalid0 negb andb]. rewrite R2, orb_true_r.
    cbn [outs o_arready nxt rm_step fst t_arready negb andb] in A2. rewrite A2, R1. cbn. now rewrite andb_false_r. }
  assert (V0 : t_rvalid0 (nxt c (nxt c s (false, i1)) (false, i2)) = t_arready (nxt c (nxt c s (false, i1)) (false, i2))).
  { cbn [nxt rm_step fst t_rvalid0 t_arready negb andb]. rewrite R2. cbn [orb negb]. rewrite andb_false_r.
    match goal with |- (if ?b then _ else _) = _ => destruct b end; reflexivity. }
  rewrite V1, V0 in ER. apply app_inv_tail in ER. auto.
Qed.

Lemma write_responses c xs : cfg_ok c -> polite (observe c xs) -> quiet (observe c xs) ->
  forall h cy, observe c xs = h ++ [cy] ->
  writes h + (if o_wready (snd cy) then 1 else 0) = responses h + (if o_bvalid (snd cy) then 1 else 0).
Proof.
  intros Hc HP HQ h cy E. pose proof E as E0. apply observe_inv in E as (xs1 & x & -> & -> & ->). rewrite E0 in HP, HQ.
  destruct (inv_run _ Hc (polite_init _ HP) (quiet_init _ _ HQ)) as (P & W & I). exact (i_writes I).
Qed.

Lemma write_progress c xs h i1 o1 i2 o2 cy : 
  observe c xs = h ++ [(false, i1, o1); (false, i2, o2); cy] ->
  in_awvalid i1 = true -> in_wvalid i1 = true -> in_awvalid i2 = true -> in_wvalid i2 = true ->
  in_bready i1 = true -> in_bready i2 = true ->
  o_wready o1 = true \/ o_wready o2 = true \/ o_wready (snd cy) = true.
Proof.
  intros E A1 W1 A2 W2 B1 B2.
  change [(false, i1, o1); (false, i2, o2); cy] with ([(false, i1, o1); (false, i2, o2)] ++ [cy]) in E. rewrite app_assoc in E.
  apply observe_inv in E as (xs1 & x & -> & E & ->). symmetry in E.
  apply observe2 in E as (p & x0 & x1 & _ & _ & E1 & E2 & E3).
  injection E1 as <- ->. injection E2 as <- ->. rewrite E3. set (s := st c p).
  cbn [snd outs o_wready]. destruct (t_wready s) eqn:T; auto. right.
  change (t_wready (nxt c s (false, i1))) with (do_write s i1).
  change (t_wready (nxt c (nxt c s (false, i1)) (false, i2))) with (do_write (nxt c s (false, i1)) i2).
  destruct (do_write s i1) eqn:D; auto. right.
  unfold do_write. replace (w_elig (nxt c s (false, i1)) i2) with true.
  2: { unfold w_elig. change (t_wready (nxt c s (false, i1))) with (do_write s i1). rewrite D, A2, W2, B2, orb_true_r. reflexivity. }
  change (t_lastrd (nxt c s (false, i1))) with (if do_write s i1 then false else if do_read s i1 then true else t_lastrd s).
  rewrite D. replace (do_read s i1) with true. { cbn. apply orb_true_r. }
  unfold do_read. rewrite D. unfold do_write, w_elig in D. rewrite A1, W1, B1, T, orb_true_r in D. cbn in D.
  destruct (r_elig s i1); auto. 
Qed.

Lemma read_progress c xs h i1 o1 i2 o2 cy : 
  observe c xs = h ++ [(false, i1, o1); (false, i2, o2); cy] ->
  in_arvalid i1 = true -> in_arvalid i2 = true -> in_rready i1 = true -> in_rready i2 = true ->
  o_arready o1 = true \/ o_arready o2 = true \/ o_arready (snd cy) = true.
Proof.
  intros E A1 A2 B1 B2.
  change [(false, i1, o1); (false, i2, o2); cy] with ([(false, i1, o1); (false, i2, o2)] ++ [cy]) in E. rewrite app_assoc in E.
  apply observe_inv in E as (xs1 & x & -> & E & ->). symmetry in E.
  apply observe2 in E as (p & x0 & x1 & _ & _ & E1 & E2 & E3).
  injection E1 as <- ->. injection E2 as <- ->. rewrite E3. set (s := st c p).
  cbn [snd outs o_arready]. destruct (t_arready s) eqn:T; auto. right.
  change (t_arready (nxt c s (false, i1))) with (do_read s i1).
  change (t_arready (nxt c (nxt c s (false, i1)) (false, i2))) with (do_read (nxt c s (false, i1)) i2).
  destruct (do_read s i1) eqn:D; auto. right.
  assert (R1 : r_elig s i1 = true) by (unfold r_elig; now rewrite A1, B1, T, orb_true_r).
  assert (R2 : r_elig (nxt c s (false, i1)) i2 = true).
  { unfold r_elig. change (t_arready (nxt c s (false, i1))) with (do_read s i1). now rewrite D, A2, B2, orb_true_r. }
  unfold do_read in D. rewrite R1, andb_true_r in D. apply negb_false_iff in D.
  unfold do_read. rewrite R2, andb_true_r. unfold do_write, w_elig.
  change (t_wready (nxt c s (false, i1))) with (do_write s i1). rewrite D. cbn [negb]. rewrite andb_false_r. reflexivity.
Qed.

(** * Register reads *)
Lemma rd_value_spec c h s P W i a : cfg_ok c -> inv c h s P W -> polite (h ++ [((false, i), outs s)]) ->
  match rd_value c s a with
  | Some v => read_back c (h ++ [((false, i), outs s)]) a v
  | None => forall v, ~ read_back c (h ++ [((false, i), outs s)]) a v
  end.
Proof.
  intros (Hp & Hq & Hw & Hd) I HP. set (h' := h ++ _). pose proof (seen_acked _ I HP eq_refl) as EA. fold h' in EA.
  assert (Wd : word_addr a = a / 4 * 4). { unfold word_addr. rewrite Z.shiftr_div_pow2 by lia. change (2 ^ 2) with 4. lia. }
  (* ports below n *)
  assert (G : forall n, (n <= rm_ports c)%nat ->
    match fold_left (rd_port c s a) (seq 0 n) (rd_head c a) with
    | Some v => (exists v0, rd_head c a = Some v0 /\ v = v0) \/ exists port, (port < n)%nat /\
       ((at_reg c port 0x10 a = true /\ v = (rm_base c + 4 * (Z.of_nat port * 2 ^ rm_w c)) mod 2 ^ 32) \/
        (at_reg c port 0x14 a = true /\ v = hash_mask c port h') \/
        (at_reg c port 0x18 a = true /\ v = app_mask c port h' + if app_direct c port h' then 2 ^ 31 else 0))
    | None => rd_head c a = None /\ forall port, (port < n)%nat -> at_reg c port 0x10 a = false /\ at_reg c port 0x14 a = false /\ at_reg c port 0x18 a = false
    end).
  { induction n as [|n IH]; intro Hn.
    - cbn [seq fold_left]. destruct (rd_head c a); eauto. split; auto. intros; lia.
    - rewrite seq_S, fold_left_app. cbn [fold_left plus]. specialize (IH ltac:(lia)).
      set (acc := fold_left _ _ _) in *. unfold rd_port. rewrite !word_addr_at.
      destruct (at_reg c n 24 a) eqn:E18; [|destruct (at_reg c n 20 a) eqn:E14; [|destruct (at_reg c n 16 a) eqn:E10]].
      + right. exists n. split; [lia|]. right. right. split; auto. rewrite (i_amask I), (i_direct I) by lia.
        unfold app_mask, app_direct. rewrite EA. set (m := last_write _ P).
        rewrite (Z.mod_small (m mod 2 ^ rm_q c)). { destruct (Z.testbit m 31); cbn [Z.b2z]; lia. }
        pose proof (Z.mod_pos_bound m (2 ^ rm_q c) ltac:(apply Z.pow_pos_nonneg; lia)).
        pose proof (Z.pow_le_mono_r 2 (rm_q c) 31 ltac:(lia) ltac:(lia)). lia.
      + right. exists n. split; [lia|]. right. left. split; auto. unfold hash_mask. rewrite EA. apply (i_hmask I). lia.
      + right. exists n. split; [lia|]. left. split; auto. f_equal. rewrite Z.pow_add_r by lia. change (2 ^ 2) with 4. ring.
      + destruct acc as [v|].
        * destruct IH as [IH|(port & Hport & IH)]; auto. right. exists port. split; [lia|auto].
        * destruct IH as [IH1 IH2]. split; auto. intros port Hport. destruct (Nat.eq_dec port n) as [->|]; auto. apply IH2. lia. }
  specialize (G (rm_ports c) (Nat.le_refl _)). unfold rd_value. destruct (fold_left _ _ _) as [v|].
  - unfold read_back. destruct G as [(v0 & G & ->)|G]; [|auto 10]. unfold rd_head in G. rewrite Wd in G.
    destruct (Z.eqb_spec (a / 4 * 4) (rm_rbb c)). { injection G as <-. auto. }
    destruct (Z.eqb_spec (a / 4 * 4) (rm_rbb c + 4)). { injection G as <-. auto. }
    destruct (Z.eqb_spec (a / 4 * 4) (rm_rbb c + 8)). { injection G as <-. auto. }
    destruct (Z.eqb_spec (a / 4 * 4) (rm_rbb c + 12)). { injection G as <-. auto 10. }
    discriminate.
  - destruct G as [G1 G2]. intros v [[E _]|[[E _]|[[E _]|[[E _]|(port & Hport & H)]]]].
    1-4: unfold rd_head in G1; rewrite Wd, E in G1; repeat (match type of G1 with (if ?b then _ else _) = _ => destruct b eqn:?; [discriminate|] end); lia.
    destruct (G2 port Hport) as (H1 & H2 & H3). destruct H as [[H _]|[[H _]|[H _]]]; congruence.
Qed.

Lemma read_back_fun c h a v w : read_back c h a v -> read_back c h a w -> v = w.
Proof.
  intros H1 H2. unfold read_back, at_reg in *.
  destruct H1 as [[E1 ->]|[[E1 ->]|[[E1 ->]|[[E1 ->]|(k1 & K1 & [[E1 ->]|[[E1 ->]|[E1 ->]]])]]]];
    destruct H2 as [[E2 ->]|[[E2 ->]|[[E2 ->]|[[E2 ->]|(k2 & K2 & [[E2 ->]|[[E2 ->]|[E2 ->]]])]]]]; try reflexivity; try (exfalso; lia);
    assert (k1 = k2) as -> by lia; reflexivity.
Qed.

Lemma reg_read c xs h i0 o0 cy a : cfg_ok c -> polite (observe c xs) -> quiet (observe c xs) ->
  observe c xs = h ++ [(false, i0, o0); cy] -> in_rd i0 = Some a -> o_rd_ack o0 = false ->
  if o_rd_ack (snd cy) then read_back c (h ++ [(false, i0, o0)]) a (o_rd_data (snd cy))
  else forall v, ~ read_back c (h ++ [(false, i0, o0)]) a v.
Proof.
  intros Hc HP HQ E R A. rewrite E in HP, HQ.
  apply observe2 in E as (p & x0 & x1 & _ & -> & E1 & -> & _). injection E1 as <- ->.
  change [(false, i0, outs (st c p)); (x1, outs (nxt c (st c p) (false, i0)))] with
    ([(false, i0, outs (st c p))] ++ [(x1, outs (nxt c (st c p) (false, i0)))]) in HP, HQ.
  rewrite app_assoc in HP, HQ. pose proof (polite_init _ HP) as HP1. pose proof (quiet_init _ _ HQ) as HQ1.
  destruct (inv_run _ Hc (polite_init _ HP1) (quiet_init _ _ HQ1)) as (P & W & I).
  pose proof (rd_value_spec _ a Hc I HP1) as V. set (s := st c p) in *.
  cbn [snd outs o_rd_ack o_rd_data nxt rm_step fst t_rd_ack t_rd_data negb andb] in *. rewrite R, A.
  destruct (rd_value c s a); auto.
Qed.

(** * Addresses as computed by the driver *)
Lemma driver_entry c port idx : cfg_ok c -> (port < rm_ports c)%nat -> 0 <= idx < 2 ^ rm_w c ->
  rm_base c mod 2 ^ (rm_full c + 2) = 0 ->
  entry_of c (rm_base c + 4 * (Z.of_nat port * 2 ^ rm_w c) + idx * 4) = Z.of_nat port * 2 ^ rm_w c + idx.
Proof.
  intros (Hp & Hq & Hw & Hd) HP HI HB. unfold entry_of.
  assert (HF : 0 <= rm_full c) by (unfold rm_full, rm_clports; pose proof (Z.log2_up_nonneg (Z.of_nat (rm_ports c))); lia).
  rewrite Z.pow_add_r in HB by lia. change (2 ^ 2) with 4 in HB.
  apply Z.mod_divide in HB; [|pose proof (Z.pow_pos_nonneg 2 (rm_full c) ltac:(lia) HF); lia]. destruct HB as [m HB]. rewrite HB.
  replace (m * (2 ^ rm_full c * 4) + 4 * (Z.of_nat port * 2 ^ rm_w c) + idx * 4) with ((m * 2 ^ rm_full c + (Z.of_nat port * 2 ^ rm_w c + idx)) * 4) by ring.
  rewrite Z.div_mul by lia. rewrite Z.add_comm, Z.mod_add by (apply Z.pow_nonzero; lia). apply Z.mod_small.
  unfold rm_full, rm_clports. rewrite Z.pow_add_r by (try apply Z.log2_up_nonneg; lia).
  assert (Z.of_nat (rm_ports c) <= 2 ^ Z.log2_up (Z.of_nat (rm_ports c))).
  { destruct (Z.eq_dec (Z.of_nat (rm_ports c)) 1) as [->|]; [cbn; lia|]. pose proof (Z.log2_up_spec (Z.of_nat (rm_ports c)) ltac:(lia)). lia. }
  set (q := 2 ^ Z.log2_up _) in *. set (w := 2 ^ rm_w c) in *. clearbody q w. nia.
Qed.

Lemma chosen_own_table c h h' h'' r : cfg_ok c -> (rq_id r < rm_ports c)%nat ->
  (forall e, Z.of_nat (rq_id r) * 2 ^ rm_w c <= e < (Z.of_nat (rq_id r) + 1) * 2 ^ rm_w c -> table c e h' = table c e h'') ->
  chosen c h h' r = chosen c h h'' r.
Proof.
  intros (Hp & Hq & Hw & Hd) Hr H. unfold chosen. destruct (direct c h r); auto. rewrite H; auto.
  pose proof (Z.mod_pos_bound (Z.land (rq_dest r) (app_mask c (rq_id r) h) + Z.land (rq_hash r) (hash_mask c (rq_id r) h)) (2 ^ rm_w c) ltac:(apply Z.pow_pos_nonneg; lia)) as B.
  unfold slot. set (m := _ mod _) in *. clearbody m. set (w := 2 ^ rm_w c) in *. clearbody w. nia.
Qed.

Lemma chosen_range c h h' r : cfg_ok c -> 0 <= chosen c h h' r < 2 ^ rm_q c.
Proof. intros (Hp & Hq & Hw & Hd). unfold chosen. apply Z.mod_pos_bound, Z.pow_pos_nonneg; lia. Qed.

(** * Building polite histories *)
Lemma polite_nil : polite [].
Proof. intros p a b q E. destruct p; discriminate. Qed.
Lemma polite_one a : polite [a].
Proof. intros p x y q E. destruct p as [|? [|? ?]]; discriminate. Qed.
Lemma polite_cons a b q : held a b -> polite (b :: q) -> polite (a :: b :: q).
Proof.
  intros H1 H2 p x y t E. destruct p as [|z p]; cbn in E.
  - injection E as -> -> _. exact H1.
  - injection E as -> E. exact (H2 p x y t E).
Qed.

(** * Writes during reset *)
Definition rc_cfg := mkRm 2 3 2 4 0 0 0.
Definition idle := mkIn None None 0 false 0 false false 0 false false None.
Definition rst_run : list (bool * rmin) :=
  [(true, mkIn None None 0 true 5 true false 0 false false None); (false, mkIn None None 0 false 0 false false 0 false false (Some (mkRq 0 0 0 0)));
   (false, idle); (false, idle); (false, idle)].
Lemma reset_write_polite : polite (observe rc_cfg rst_run).
Proof.
  vm_compute. repeat apply polite_cons; try apply polite_one; intro; repeat split; intros; try discriminate; try reflexivity;
  try (match goal with H : None <> None |- _ => now elim H end).
Qed.
