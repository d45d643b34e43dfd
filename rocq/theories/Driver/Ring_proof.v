(** Lemmas for the TX and RX rings. *)
From Verif Require Import Base.Prelude Driver.Ring_model Driver.Ring_spec Driver.Ring_cq_proof.
From Coq Require Import Permutation Znumtheory.
Local Open Scope Z_scope.

(** ** Memory *)

Lemma mem_write_out bs : forall m a x, x < a \/ a + Z.of_nat (length bs) <= x ->
  mem_write m a bs x = m x.
Proof.
  induction bs as [|b t IH]; intros m a x H; simpl in *; auto.
  rewrite IH by lia. apply zupd_other. lia.
Qed.

Lemma mem_write_app d1 : forall m a d2,
  mem_write m a (d1 ++ d2) = mem_write (mem_write m a d1) (a + Z.of_nat (length d1)) d2.
Proof.
  induction d1 as [|b t IH]; intros m a d2; cbn [app mem_write length].
  - rewrite Z.add_0_r. reflexivity.
  - rewrite IH. f_equal. lia.
Qed.

Lemma mem_read_nat_ext n : forall m m' a, (forall x, a <= x < a + Z.of_nat n -> m x = m' x) ->
  mem_read_nat m a n = mem_read_nat m' a n.
Proof.
  induction n as [|n IH]; intros m m' a H; simpl; auto.
  f_equal; [apply H; lia|]. apply IH. intros; apply H; lia.
Qed.

Lemma mem_read_write_other m a bs b len :
  0 <= len -> b + len <= a \/ a + Z.of_nat (length bs) <= b ->
  mem_read (mem_write m a bs) b len = mem_read m b len.
Proof.
  intros Hl H. apply mem_read_nat_ext. intros x Hx. apply mem_write_out. lia.
Qed.

Lemma mem_read_nat_write bs : forall m a,
  mem_read_nat (mem_write m a bs) a (length bs) = bs.
Proof.
  induction bs as [|b t IH]; intros m a; simpl; auto.
  f_equal; [|apply IH]. rewrite mem_write_out by lia. apply zupd_same.
Qed.

Lemma mem_read_write m a bs : mem_read (mem_write m a bs) a (Z.of_nat (length bs)) = bs.
Proof. unfold mem_read. rewrite Nat2Z.id. apply mem_read_nat_write. Qed.

Lemma mem_read_nat_app n1 : forall m a n2,
  mem_read_nat m a (n1 + n2) = mem_read_nat m a n1 ++ mem_read_nat m (a + Z.of_nat n1) n2.
Proof.
  induction n1 as [|n IH]; intros m a n2; cbn [Nat.add mem_read_nat app].
  - rewrite Z.add_0_r. reflexivity.
  - rewrite IH. simpl. do 2 f_equal. f_equal. lia.
Qed.

Lemma mem_read_app m a l1 l2 : 0 <= l1 -> 0 <= l2 ->
  mem_read m a (l1 + l2) = mem_read m a l1 ++ mem_read m (a + l1) l2.
Proof.
  intros. unfold mem_read. rewrite Z2Nat.inj_add by auto. rewrite mem_read_nat_app.
  rewrite Z2Nat.id by auto. reflexivity.
Qed.

Lemma mem_read_length m a l : length (mem_read m a l) = Z.to_nat l.
Proof.
  unfold mem_read. generalize (Z.to_nat l). intros n; revert a.
  induction n; intros; simpl; auto.
Qed.

(** ** Descriptor segments *)

Lemma gather_segs_loop m len ptr n : forall off, 0 <= off <= len -> (n <> 0%nat \/ off = len) ->
  gather m (segs_loop n len ptr off) = mem_read m (ptr + off) (len - off).
Proof.
  induction n as [|n IH]; intros off Ho Hn.
  - simpl. destruct Hn; [congruence|]. subst. rewrite Z.sub_diag. reflexivity.
  - cbn [segs_loop]. set (s := match n with O => len - off | S _ => Z.min (len - off) 4096 end).
    assert (0 <= s <= len - off) as Hs by (subst s; destruct n; lia).
    unfold gather. cbn [flat_map fst snd].
    change (flat_map _ (segs_loop n len ptr (off + s))) with (gather m (segs_loop n len ptr (off + s))).
    rewrite IH; [|lia|].
    2:{ destruct n; [right; subst s; lia|left; congruence]. }
    replace (len - off) with (s + (len - (off + s))) by lia.
    rewrite mem_read_app by lia. f_equal.
    + destruct (Z.eqb_spec s 0) as [->|]; reflexivity.
    + rewrite Z.add_assoc. reflexivity.
Qed.

Lemma gather_tx_segs m dbs len ptr : 0 <= len -> (1 <= dbs)%nat ->
  gather m (tx_segs dbs len ptr) = mem_read m ptr len.
Proof.
  intros Hl Hd. unfold tx_segs.
  set (s := if Nat.ltb 1 dbs then Z.min len 42 else len).
  assert (0 <= s <= len) as Hs by (subst s; destruct (Nat.ltb 1 dbs); lia).
  unfold gather. cbn [flat_map fst snd].
  change (flat_map _ (segs_loop (dbs - 1) len ptr s)) with (gather m (segs_loop (dbs - 1) len ptr s)).
  rewrite gather_segs_loop; auto.
  2:{ subst s. destruct (Nat.ltb_spec 1 dbs); [left; lia|right; lia]. }
  assert (mem_read m ptr len = mem_read m ptr (s + (len - s))) as -> by (f_equal; lia).
  rewrite mem_read_app by lia. f_equal.
  destruct (Z.eqb_spec s 0) as [->|]; reflexivity.
Qed.

Lemma scatter_nil segs : forall m, scatter m segs [] = m.
Proof.
  induction segs as [|[l p] t IH]; intros m; simpl; auto.
  rewrite firstn_nil, skipn_nil. apply IH.
Qed.

Lemma scatter_segs_loop len ptr n : forall m off data,
  0 <= off <= len -> Z.of_nat (length data) <= len - off -> (n <> 0%nat \/ data = []) ->
  scatter m (segs_loop n len ptr off) data = mem_write m (ptr + off) data.
Proof.
  induction n as [|n IH]; intros m off data Ho Hd Hn.
  - simpl. destruct Hn; [congruence|]. subst. reflexivity.
  - cbn [segs_loop]. set (s := match n with O => len - off | S _ => Z.min (len - off) 4096 end).
    assert (0 <= s <= len - off) as Hs by (subst s; destruct n; lia).
    cbn [scatter].
    assert (mem_write m (if s =? 0 then 0 else ptr + off) (firstn (Z.to_nat s) data)
            = mem_write m (ptr + off) (firstn (Z.to_nat s) data)) as ->.
    { destruct (Z.eqb_spec s 0) as [->|]; reflexivity. }
    destruct (le_lt_dec (length data) (Z.to_nat s)) as [Hle|Hlt].
    + rewrite skipn_all2, firstn_all2 by auto. apply scatter_nil.
    + rewrite IH.
      * rewrite <- (firstn_skipn (Z.to_nat s) data) at 3.
        rewrite mem_write_app. rewrite firstn_length_le by lia.
        f_equal. lia.
      * lia.
      * rewrite skipn_length. lia.
      * left. subst s. destruct n; [|congruence]. lia.
Qed.

Lemma scatter_rx_segs m dbs len ptr data :
  (1 <= dbs)%nat -> Z.of_nat (length data) <= len ->
  scatter m (rx_segs dbs len ptr) data = mem_write m ptr data.
Proof.
  intros Hd Hl. unfold rx_segs. rewrite scatter_segs_loop; try lia.
  rewrite Z.add_0_r. reflexivity.
Qed.

(** Shape of descriptor blocks: lengths and contiguity. *)

Lemma tiles_segs_loop len ptr n : forall off, 0 <= off <= len -> (n <> 0%nat \/ off = len) ->
  tiles (segs_loop n len ptr off) (ptr + off) (len - off).
Proof.
  induction n as [|n IH]; intros off Ho Hn.
  - simpl. destruct Hn; [congruence|]. lia.
  - cbn [segs_loop]. set (s := match n with O => len - off | S _ => Z.min (len - off) 4096 end).
    assert (0 <= s <= len - off) as Hs by (subst s; destruct n; lia).
    cbn [tiles]. splits; try lia.
    + destruct (Z.eqb_spec s 0); auto; lia.
    + destruct (Z.eqb_spec s 0); auto; lia.
    + specialize (IH (off + s) ltac:(lia)).
      replace (ptr + off + s) with (ptr + (off + s)) by lia.
      replace (len - off - s) with (len - (off + s)) by lia. apply IH.
      destruct n; [right; subst s; lia|left; congruence].
Qed.

Lemma tiles_tx dbs len ptr : 0 <= len -> (1 <= dbs)%nat ->
  tiles (tx_segs dbs len ptr) ptr len /\ length (tx_segs dbs len ptr) = dbs.
Proof.
  intros Hl Hd. unfold tx_segs.
  set (s := if Nat.ltb 1 dbs then Z.min len 42 else len).
  assert (0 <= s <= len) as Hs by (subst s; destruct (Nat.ltb 1 dbs); lia).
  split.
  - cbn [tiles]. splits; try lia.
    + destruct (Z.eqb_spec s 0); auto; lia.
    + destruct (Z.eqb_spec s 0); auto; lia.
    + apply tiles_segs_loop; auto.
      subst s. destruct (Nat.ltb_spec 1 dbs); [left; lia|right; lia].
  - cbn [length].
    assert (forall n a b c, length (segs_loop n a b c) = n) as ->; [|lia].
    induction n; intros; simpl; auto.
Qed.

Lemma tiles_rx dbs len ptr : 0 <= len -> (1 <= dbs)%nat ->
  tiles (rx_segs dbs len ptr) ptr len /\ length (rx_segs dbs len ptr) = dbs.
Proof.
  intros Hl Hd. unfold rx_segs. split.
  - pose proof (@tiles_segs_loop len ptr dbs 0 ltac:(lia)) as H.
    rewrite Z.add_0_r, Z.sub_0_r in H. apply H. lia.
  - assert (forall n a b c, length (segs_loop n a b c) = n) as ->; auto.
    induction n; intros; simpl; auto.
Qed.

Lemma csum_cmd_decode s o : 0 <= s < 256 -> 0 <= o < 128 ->
  let c := csum_cmd (Some s) (Some o) in
  0 <= c < 65536 /\ Z.testbit c 15 = true /\ (c / 256) mod 128 = o /\ c mod 256 = s.
Proof.
  intros Hs Ho. cbv zeta. unfold csum_cmd.
  assert (Z.lor 32768 (Z.shiftl o 8) = 32768 + o * 256) as E1.
  { rewrite Z.shiftl_mul_pow2 by lia. change (2 ^ 8) with 256.
    rewrite <- Z.lxor_lor, <- Z.add_nocarry_lxor; auto;
    apply Z.bits_inj; intros n; rewrite Z.bits_0, Z.land_spec;
    change 32768 with (2 ^ 15); rewrite Z.pow2_bits_eqb by lia;
    (destruct (Z.eqb_spec 15 n) as [<-|]; [|reflexivity]);
    rewrite andb_true_l; rewrite Z.testbit_odd, Z.shiftr_div_pow2 by lia;
    rewrite Z.div_small by lia; reflexivity. }
  rewrite E1.
  assert (Z.lor (32768 + o * 256) s = 32768 + o * 256 + s) as E2.
  { assert (Z.land (32768 + o * 256) s = 0) as E.
    { apply Z.bits_inj; intros n; rewrite Z.bits_0, Z.land_spec.
      destruct (Z_lt_dec n 0); [rewrite Z.testbit_neg_r by lia; auto|].
      destruct (Z_lt_dec n 8).
      - replace (32768 + o * 256) with ((128 + o) * 2 ^ 8) by lia.
        rewrite Z.mul_pow2_bits_low by lia. auto.
      - rewrite (Z.bits_above_log2 s n); [apply andb_false_r|lia|].
        destruct (Z.eq_dec s 0) as [->|]; [simpl; lia|].
        assert (Z.log2 s < 8) by (apply Z.log2_lt_pow2; lia). lia. }
    rewrite <- Z.lxor_lor, <- Z.add_nocarry_lxor; auto. }
  rewrite E2. splits; try lia.
  - rewrite Z.testbit_odd, Z.shiftr_div_pow2 by lia.
    replace ((32768 + o * 256 + s) / 2 ^ 15) with 1; [reflexivity|].
    apply (Z.div_unique _ _ _ (o * 256 + s)); lia.
Qed.

(** ** Ring core invariant *)

Record core_inv (P : rparams) (r : ring) (M : list (Z * nat)) : Prop := {
  co_k : 0 <= rp_k P <= 16;
  co_ptr : 0 <= r_cons r <= r_prod r;
  co_size : r_prod r - r_cons r <= 2 ^ rp_k P;
  co_live : forall p b, In (p, b) M ->
     r_cons r <= p < r_prod r /\ r_info r (slot (rp_k P) p) = Some b;
  co_info : forall i b, 0 <= i < 2 ^ rp_k P -> r_info r i = Some b ->
     exists p, In (p, b) M /\ slot (rp_k P) p = i;
  co_ndp : NoDup (map fst M);
  co_pool : Permutation (map snd M ++ p_free (r_pool r)) (seq 0 (p_n (r_pool r)))
}.

Lemma slot_range k p : 0 <= k -> 0 <= slot k p < 2 ^ k.
Proof. intros. rewrite slot_mod by auto. apply Z.mod_pos_bound, pow2_pos; auto. Qed.

Lemma slot_index k p : 0 <= k <= 16 ->
  Z.land (p mod 65536) (ring_size k - 1) = slot k p.
Proof.
  intros Hk. change (Z.land (p mod 65536) (ring_size k - 1)) with (slot k (p mod 65536)).
  rewrite !slot_mod by lia. symmetry. apply Zmod_div_mod; try lia.
  exists (2 ^ (16 - k)). rewrite <- Z.pow_add_r by lia.
  replace (16 - k + k) with 16 by lia. reflexivity.
Qed.

Lemma perm_seq_lt l n x : Permutation l (seq 0 n) -> In x l -> (x < n)%nat.
Proof.
  intros Hp Hx. apply (Permutation_in _ Hp) in Hx. apply in_seq in Hx. lia.
Qed.

Lemma free_desc_step P r M1 M2 p b :
  core_inv P r (M1 ++ (p, b) :: M2) ->
  exists r', free_desc r (slot (rp_k P) p) = Some r' /\
    core_inv P r' (M1 ++ M2) /\
    r_prod r' = r_prod r /\ r_cons r' = r_cons r /\ r_desc r' = r_desc r /\
    r_mem r' = r_mem r /\ r_cq r' = r_cq r /\ r_hwprod r' = r_hwprod r /\
    r_pend r' = r_pend r /\ r_err r' = r_err r.
Proof.
  intros [Hk Hp Hs Hl Hi Hn Hpo].
  assert (In (p, b) (M1 ++ (p, b) :: M2)) as Hin by (apply in_elt).
  destruct (Hl _ _ Hin) as [Hr Hb].
  unfold free_desc. rewrite Hb. simpl.
  rewrite map_app in Hpo. simpl in Hpo.
  assert (b < p_n (r_pool r))%nat as Hlt.
  { eapply perm_seq_lt; [exact Hpo|]. apply in_or_app. left. apply in_elt. }
  destruct (Nat.ltb_spec b (p_n (r_pool r))); [|lia].
  eexists. split; [reflexivity|]. splits; auto.
  assert (forall p' b', In (p', b') (M1 ++ M2) -> p' <> p) as Hne.
  { intros p' b' H' ->. rewrite map_app in Hn. simpl in Hn.
    apply NoDup_remove_2 in Hn. apply Hn. rewrite <- map_app.
    apply in_map_iff. exists (p, b'). auto. }
  assert (forall p' b', In (p', b') (M1 ++ M2) -> In (p', b') (M1 ++ (p, b) :: M2)) as Hsub.
  { intros p' b' H'. apply in_app_or in H'. apply in_or_app. simpl. tauto. }
  pose proof (pow2_pos (proj1 Hk)) as Hpw.
  constructor; cbn [r_cons r_prod r_info r_pool p_free p_n]; auto.
  - intros p' b' H'. destruct (Hl _ _ (Hsub _ _ H')) as [Hr' Hb'].
    split; auto. rewrite zupd_other; auto.
    rewrite !slot_mod by lia. intros E.
    apply (Hne _ _ H'). eapply (mod_window_inj (lo := r_cons r)); eauto; lia.
  - intros i b' Hir. unfold zupd. destruct (Z.eqb_spec i (slot (rp_k P) p)); [discriminate|].
    intros Hib. destruct (Hi _ _ Hir Hib) as (p' & Hin' & Hsl).
    exists p'. split; auto. apply in_app_or in Hin'. apply in_or_app.
    destruct Hin' as [|[E|]]; auto. inversion E; subst. congruence.
  - rewrite map_app in *. simpl in Hn. eapply NoDup_remove_1; eauto.
  - rewrite <- Hpo, map_app. rewrite <- !app_assoc. apply Permutation_app_head. simpl.
    rewrite app_assoc. rewrite <- Permutation_cons_append. reflexivity.
Qed.

Lemma core_slot_free P r M :
  core_inv P r M -> r_prod r - r_cons r < 2 ^ rp_k P ->
  r_info r (slot (rp_k P) (r_prod r)) = None.
Proof.
  intros [Hk Hp Hs Hl Hi Hn Hpo] Hlt.
  destruct (r_info r (slot (rp_k P) (r_prod r))) as [b|] eqn:E; auto. exfalso.
  destruct (Hi _ _ (slot_range _ (proj1 Hk)) E) as (p & Hin & Hsl).
  destruct (Hl _ _ Hin) as [Hr _].
  rewrite !slot_mod in Hsl by lia.
  apply (@mod_window (r_prod r) p (2 ^ rp_k P)); auto; [apply pow2_pos; lia|lia].
Qed.

Lemma alloc_pool M (p : pool) : Permutation (M ++ p_free p) (seq 0 (p_n p)) ->
  let '(b, p') := alloc_pkt p in
  Permutation ((M ++ [b]) ++ p_free p') (seq 0 (p_n p')) /\ ~ In b M /\
  (b <= p_n p)%nat.
Proof.
  intros H. unfold alloc_pkt. destruct (p_free p) as [|b t] eqn:E.
  - cbn [p_free p_n]. rewrite app_nil_r in *. splits; auto.
    + rewrite seq_S. simpl. rewrite H. reflexivity.
    + intro Hin. apply (perm_seq_lt _ _ H) in Hin. lia.
  - cbn [p_free p_n]. splits.
    + rewrite <- app_assoc. exact H.
    + assert (NoDup (M ++ b :: t)) as Hn
        by (eapply Permutation_NoDup; [symmetry; exact H|apply seq_NoDup]).
      apply NoDup_remove_2 in Hn. intro. apply Hn. apply in_or_app. auto.
    + assert (In b (M ++ b :: t)) as Hin by (apply in_elt).
      apply (perm_seq_lt _ _ H) in Hin. lia.
Qed.

(** Posting one buffer at the producer pointer. *)
Lemma core_post P r M r' b p' :
  core_inv P r M -> r_prod r - r_cons r < 2 ^ rp_k P ->
  alloc_pkt (r_pool r) = (b, p') ->
  r_info r' = zupd (r_info r) (slot (rp_k P) (r_prod r)) (Some b) ->
  r_prod r' = r_prod r + 1 -> r_cons r' = r_cons r -> r_pool r' = p' ->
  core_inv P r' (M ++ [(r_prod r, b)]).
Proof.
  intros Hc Hlt Ha Hinfo Hprod Hcons Hpool.
  pose proof (core_slot_free Hc Hlt) as Hfree.
  destruct Hc as [Hk Hp Hs Hl Hi Hn Hpo].
  pose proof (alloc_pool _ _ Hpo) as Hal. rewrite Ha in Hal. destruct Hal as (Hpo' & Hnb & _).
  pose proof (pow2_pos (proj1 Hk)) as Hpw.
  constructor; rewrite ?Hinfo, ?Hprod, ?Hcons, ?Hpool; auto; try lia.
  - intros p b' Hin. apply in_app_or in Hin. destruct Hin as [Hin|[E|[]]].
    + destruct (Hl _ _ Hin) as [Hr Hb]. split; [lia|].
      rewrite zupd_other; auto. rewrite !slot_mod by lia. intros E.
      apply (@mod_window (r_prod r) p (2 ^ rp_k P)); auto; lia.
    + inversion E; subst. split; [lia|]. apply zupd_same.
  - intros i b' Hir. unfold zupd.
    destruct (Z.eqb_spec i (slot (rp_k P) (r_prod r))) as [->|].
    + intros E. inversion E; subst. exists (r_prod r). split; auto.
      apply in_or_app. right. left. auto.
    + intros E. destruct (Hi _ _ Hir E) as (p & Hin & Hsl). exists p.
      split; auto. apply in_or_app; auto.
  - rewrite map_app. simpl. apply NoDup_Add with (a := r_prod r) (l := map fst M).
    + rewrite <- (app_nil_r (map fst M)) at 1. apply Add_app.
    + split; auto. intros Hin. apply in_map_iff in Hin. destruct Hin as ([p b'] & Ep & Hin).
      destruct (Hl _ _ Hin). simpl in *. lia.
  - rewrite map_app. exact Hpo'.
Qed.

(** Advancing the consumer pointer. *)
Lemma adv_loop_spec k info prod n : forall c, c <= prod ->
  let c' := adv_loop n k info prod c in
  c <= c' <= prod /\ (forall p, c <= p < c' -> info (slot k p) = None) /\
  (prod - c <= Z.of_nat n -> c' = prod \/ info (slot k c') <> None).
Proof.
  induction n as [|n IH]; intros c Hc; simpl.
  - splits; try lia. 
  - destruct (Z.eqb_spec c prod) as [->|].
    + splits; try lia. 
    + destruct (info (slot k c)) eqn:E.
      * splits; try lia. intros _. right. congruence.
      * destruct (IH (c + 1) ltac:(lia)) as (A & B & C). splits; try lia.
        -- intros p Hp. destruct (Z.eq_dec p c) as [->|]; auto. apply B. lia.
        -- intros Hn. apply C. lia.
Qed.

Lemma core_advance P r M : core_inv P r M -> core_inv P (ring_advance P r) M.
Proof.
  intros [Hk Hp Hs Hl Hi Hn Hpo]. unfold ring_advance.
  destruct (@adv_loop_spec (rp_k P) (r_info r) (r_prod r)
              (Z.to_nat (r_prod r - r_cons r)) (r_cons r) ltac:(lia)) as (A & B & C).
  constructor; simpl; auto; try lia.
  intros p b Hin. destruct (Hl _ _ Hin) as [Hr Hb]. split; auto.
  destruct (Z_lt_dec p (adv_loop (Z.to_nat (r_prod r - r_cons r)) (rp_k P) (r_info r) (r_prod r) (r_cons r))); [|lia].
  rewrite B in Hb by lia. discriminate.
Qed.

Lemma advance_empty P r : core_inv P r [] -> r_cons (ring_advance P r) = r_prod r.
Proof.
  intros [Hk Hp Hs Hl Hi Hn Hpo]. unfold ring_advance. cbn [r_cons].
  destruct (@adv_loop_spec (rp_k P) (r_info r) (r_prod r)
              (Z.to_nat (r_prod r - r_cons r)) (r_cons r) ltac:(lia)) as (A & B & C).
  destruct C as [C|C]; [lia|auto|]. exfalso.
  destruct (r_info r _) as [b|] eqn:E; [|congruence].
  destruct (Hi _ _ (slot_range _ (proj1 Hk)) E) as (p & [] & _).
Qed.

(** ** Hardware side bookkeeping *)

Definition live (r : ring) (qs : list (Z * Z)) : list Z :=
  map fst qs ++ r_pend r ++ zrange (Z.to_nat (r_prod r - r_hwprod r)) (r_hwprod r).

Definition idx_of (pl : Z * Z) : Z * Z := (fst pl mod 65536, snd pl).

Record hw_inv (P : rparams) (r : ring) (qs : list (Z * Z)) (M : list (Z * nat)) : Prop := {
  hi_core : core_inv P r M;
  hi_cq : cq_inv (rp_kc P) (r_cq r) (map idx_of qs);
  hi_perm : Permutation (map fst M) (live r qs);
  hi_hw : r_hwprod r <= r_prod r;
  hi_err : r_err r = false
}.

Lemma in_zrange n : forall a x, In x (zrange n a) <-> a <= x < a + Z.of_nat n.
Proof.
  induction n as [|n IH]; intros a x; simpl; [lia|]. rewrite IH. lia.
Qed.

Lemma zrange_app n1 : forall n2 a, zrange (n1 + n2) a = zrange n1 a ++ zrange n2 (a + Z.of_nat n1).
Proof.
  induction n1 as [|n IH]; intros n2 a; cbn [Nat.add zrange app].
  - rewrite Z.add_0_r. reflexivity.
  - rewrite IH. f_equal. f_equal. f_equal. lia.
Qed.

Lemma hw_doorbell P r qs M : hw_inv P r qs M -> hw_inv P (ring_doorbell r) qs M.
Proof.
  intros [Hc Hq Hp Hh He]. constructor; auto.
  - destruct Hc; constructor; auto.
  - rewrite Hp. unfold live, ring_doorbell. cbn [r_pend r_prod r_hwprod].
    rewrite Z.sub_diag. simpl. rewrite app_nil_r. reflexivity.
  - simpl. lia.
Qed.

Lemma remove_perm_Z (p : Z) l : NoDup l -> In p l -> Permutation l (p :: remove Z.eq_dec p l).
Proof.
  induction l as [|x t IH]; simpl; intros Hnd Hin; [tauto|].
  inversion Hnd; subst.
  destruct (Z.eq_dec p x) as [->|Hne].
  - rewrite notin_remove; auto.
  - destruct Hin as [->|Hin]; [congruence|].
    rewrite IH at 1; auto. apply perm_swap.
Qed.

Lemma NoDup_app_l {A} (l1 l2 : list A) : NoDup (l1 ++ l2) -> NoDup l1.
Proof.
  induction l1; simpl; intros H; constructor; inversion H; subst; auto.
  intro. apply H2. apply in_or_app; auto.
Qed.
Lemma NoDup_app_r {A} (l1 l2 : list A) : NoDup (l1 ++ l2) -> NoDup l2.
Proof. induction l1; simpl; intros H; auto. inversion H; auto. Qed.

Lemma hw_complete P r qs M p len r' :
  hw_inv P r qs M -> ring_complete P r p len = Some r' ->
  hw_inv P r' (qs ++ [(p, len)]) M /\ In p (r_pend r).
Proof.
  intros [Hc Hq Hp Hh He] H. unfold ring_complete in H.
  destruct (existsb (Z.eqb p) (r_pend r)) eqn:Hex; [|discriminate].
  destruct (cq_full (rp_kc P) (r_cq r)) eqn:Hf; [discriminate|]. simpl in H.
  inversion H; subst; clear H.
  apply existsb_exists in Hex. destruct Hex as (x & Hin & Hx). apply Z.eqb_eq in Hx. subst x.
  split; auto. constructor; simpl; auto.
  - destruct Hc; constructor; auto.
  - rewrite map_app. simpl. apply cq_inv_write; auto.
  - rewrite Hp. unfold live. simpl. rewrite map_app. simpl.
    rewrite <- app_assoc. apply Permutation_app_head. simpl.
    rewrite app_comm_cons. apply Permutation_app_tail.
    apply remove_perm_Z; auto.
    assert (NoDup (live r qs)) as Hnd
      by (eapply Permutation_NoDup; [exact Hp|]; apply Hc).
    unfold live in Hnd. apply NoDup_app_r in Hnd. apply NoDup_app_l in Hnd. auto.
Qed.

Lemma hw_write_cons P r qs M : hw_inv P r qs M ->
  hw_inv P (set_cq r (cq_write_cons (r_cq r))) qs M.
Proof.
  intros [Hc Hq Hp Hh He]. constructor; auto.
  - destruct Hc; constructor; auto.
  - apply cq_inv_write_cons; auto.
Qed.

Lemma hw_advance P r qs M : hw_inv P r qs M -> hw_inv P (ring_advance P r) qs M.
Proof.
  intros [Hc Hq Hp Hh He]. constructor; auto. apply core_advance; auto.
Qed.

(** The pointer of a live descriptor: find its buffer and split it off. *)
Lemma perm_fst_split (M : list (Z * nat)) p l :
  Permutation (map fst M) (p :: l) ->
  exists b M1 M2, M = M1 ++ (p, b) :: M2 /\ Permutation (map fst (M1 ++ M2)) l.
Proof.
  intros H.
  assert (In p (map fst M)) as Hin by (eapply Permutation_in; [symmetry; exact H|left; auto]).
  apply in_map_iff in Hin. destruct Hin as ([p' b] & E & Hin). simpl in E. subst p'.
  destruct (in_split _ _ Hin) as (M1 & M2 & ->). exists b, M1, M2. split; auto.
  rewrite map_app in *. simpl in H.
  apply Permutation_cons_inv with (a := p). rewrite <- H. apply Permutation_middle.
Qed.

(** ** TX *)

Definition tx_data_inv (P : rparams) (r : ring) (M : list (Z * nat)) (hist : list (list Z)) : Prop :=
  r_prod r = Z.of_nat (length hist) /\
  forall p b, In (p, b) M -> exists d,
    nth_error hist (Z.to_nat p) = Some d /\
    Z.of_nat (length d) + 10 <= pkt_buf_size /\
    r_desc r (slot (rp_k P) p) = tx_segs (rp_dbs P) (Z.of_nat (length d)) (rp_base P b + 10) /\
    mem_read (r_mem r) (rp_base P b + 10) (Z.of_nat (length d)) = d.

Definition tx_inv (P : rparams) (r : ring) (hist : list (list Z)) : Prop :=
  exists qs M, hw_inv P r qs M /\ tx_data_inv P r M hist /\
    r_prod r - r_cons r <= full_size P.

Lemma full_size_lt P : 0 <= rp_k P -> full_size P < 2 ^ rp_k P /\ 0 <= full_size P.
Proof.
  intros Hk. unfold full_size, ring_size. rewrite Z.shiftr_div_pow2 by lia. change (2 ^ 1) with 2.
  pose proof (pow2_pos Hk). split; [apply Z.div_lt; lia|apply Z.div_pos; lia].
Qed.

Lemma tx_drain_step P k r qs : forall M p0 hist L,
  0 <= rp_k P <= 16 ->
  core_inv P r M -> Permutation (map fst M) (map fst qs ++ L) ->
  tx_data_inv P r M hist ->
  exists r' M', fold_opt (tx_handle P) r (recs_from k p0 (map idx_of qs)) = Some r' /\
    core_inv P r' M' /\ Permutation (map fst M') L /\ tx_data_inv P r' M' hist /\
    r_prod r' = r_prod r /\ r_cons r' = r_cons r /\ r_hwprod r' = r_hwprod r /\
    r_pend r' = r_pend r /\ r_err r' = r_err r /\ incl M' M.
Proof.
  revert r. induction qs as [|[p len] t IH]; intros r M p0 hist L Hk Hc Hp Hd.
  - exists r, M. simpl. splits; auto. apply incl_refl.
  - cbn [map app fst] in Hp.
    destruct (perm_fst_split _ Hp) as (b & M1 & M2 & -> & Hp').
    destruct (free_desc_step _ _ _ _ Hc) as (r1 & Hf & Hc1 & Epr & Eco & Ede & Eme & Ecq & Ehw & Epe & Eer).
    cbn [map idx_of recs_from fold_opt fst snd].
    unfold tx_handle at 1, rec_at. cbn [c_index fst].
    change (fst (idx_of (p, len))) with (p mod 65536). change (snd (idx_of (p, len))) with len.
    rewrite slot_index, Hf by auto.
    assert (tx_data_inv P r1 (M1 ++ M2) hist) as Hd1.
    { destruct Hd as [Hlen Hd]. split; [rewrite Epr; auto|].
      intros p' b' Hin. destruct (Hd p' b') as (d & A & B & C & D).
      - apply in_app_or in Hin. apply in_or_app. simpl. tauto.
      - exists d. rewrite Ede, Eme. auto. }
    destruct (IH r1 (M1 ++ M2) (p0 + 1) hist L Hk Hc1 Hp' Hd1)
      as (r' & M' & E & Hc' & HpL & Hd' & F1 & F2 & F3 & F4 & F5 & F6).
    exists r', M'. rewrite E. splits; auto; try congruence.
    intros x Hx. apply F6 in Hx. apply in_app_or in Hx. apply in_or_app. simpl. tauto.
Qed.

Lemma tx_poll_inv P r hist : tx_ok P -> tx_inv P r hist -> tx_inv P (tx_poll P r) hist.
Proof.
  intros Hok (qs & M & [Hc Hq Hp Hh He] & Hd & Hf).
  unfold tx_poll. rewrite (drain_spec _ _ Hq (cq_inv_len Hq)).
  destruct (@tx_drain_step P (rp_kc P) r qs M (q_csw (r_cq r)) hist _ (to_k Hok) Hc Hp Hd)
    as (r' & M' & E & Hc' & HpL & Hd' & F1 & F2 & F3 & F4 & F5 & F6).
  rewrite E. exists [], M'. splits.
  - constructor; auto.
    + destruct Hc'; constructor; auto.
    + cbn [map r_cq set_cq]. apply (cq_inv_drained Hq).
    + unfold live. cbn [map app r_pend r_prod r_hwprod set_cq].
      rewrite F4, F1, F3. exact HpL.
    + cbn. lia.
    + cbn. congruence.
  - destruct Hd' as [A B]. split; auto.
  - cbn [r_prod r_cons set_cq]. lia.
Qed.

Lemma alloc_eta p : exists b p', alloc_pkt p = (b, p').
Proof. destruct (alloc_pkt p) as [b p']; eauto. Qed.

Lemma tx_post_inv P r hist data : tx_ok P -> tx_inv P r hist ->
  Z.of_nat (length data) < rp_mtu P -> r_prod r - r_cons r < full_size P ->
  tx_inv P (tx_post P r data) (hist ++ [data]).
Proof.
  intros Hok (qs & M & [Hc Hq Hp Hh He] & [Hlen Hd] & Hf) Hmtu Hroom.
  destruct (full_size_lt P (proj1 (to_k Hok))) as [Hfs _].
  assert (r_prod r - r_cons r < 2 ^ rp_k P) as Hlt by lia.
  unfold tx_post. destruct (alloc_eta (r_pool r)) as (b & p' & Ha). rewrite Ha.
  rewrite (core_slot_free Hc Hlt).
  exists qs, (M ++ [(r_prod r, b)]). pose proof (to_mtu Hok) as Hm. unfold pkt_buf_size in Hm.
  pose proof (proj1 (to_k Hok)) as Hk0. pose proof (pow2_pos Hk0) as Hpw.
  splits.
  - constructor; auto.
    + eapply core_post; eauto.
    + rewrite map_app. simpl. unfold live in *. cbn [r_pend r_prod r_hwprod].
      rewrite Hp.
      replace (Z.to_nat (r_prod r + 1 - r_hwprod r)) with (Z.to_nat (r_prod r - r_hwprod r) + 1)%nat by lia.
      rewrite zrange_app. cbn [zrange].
      replace (r_hwprod r + Z.of_nat (Z.to_nat (r_prod r - r_hwprod r))) with (r_prod r) by lia.
      rewrite <- !app_assoc. reflexivity.
    + cbn. lia.
  - split; [cbn; rewrite app_length; simpl; lia|].
    intros p b' Hin. cbn [r_desc r_mem]. apply in_app_or in Hin.
    destruct Hin as [Hin|[E|[]]].
    + destruct (Hd _ _ Hin) as (d & A & B & C & D). exists d.
      destruct (co_live Hc _ _ Hin) as [Hr Hb].
      splits; auto.
      * rewrite nth_error_app1; auto. apply nth_error_Some. congruence.
      * rewrite zupd_other; auto. rewrite !slot_mod by auto. intros E.
        apply (@mod_window (r_prod r) p (2 ^ rp_k P)); auto; lia.
      * assert (b <> b') as Hbb.
        { pose proof (alloc_pool _ _ (co_pool Hc)) as Hal. rewrite Ha in Hal.
          destruct Hal as (_ & Hnb & _). intros ->. apply Hnb.
          apply in_map_iff. exists (p, b'). auto. }
        rewrite mem_read_write_other; auto; [lia|].
        pose proof (to_base Hok Hbb) as Hdis. unfold pkt_buf_size in *. lia.
    + inversion E; subst. exists data. splits.
      * rewrite nth_error_app2 by lia. replace (Z.to_nat (r_prod r) - length hist)%nat with 0%nat by lia.
        reflexivity.
      * unfold pkt_buf_size. lia.
      * apply zupd_same.
      * apply mem_read_write.
  - cbn [r_prod r_cons]. lia.
Qed.

Lemma tx_inv_init P m : tx_ok P -> tx_inv P (ring_init m) [].
Proof.
  intros Hok. destruct (full_size_lt P (proj1 (to_k Hok))) as [Hfs Hfs0].
  pose proof (proj1 (to_k Hok)) as Hk0. pose proof (pow2_pos Hk0) as Hpw.
  exists [], []. splits.
  - constructor; simpl; auto.
    + constructor; simpl; auto; try lia; try tauto.
      * apply (to_k Hok).
      * discriminate.
      * constructor.
    + apply cq_inv_init, Hok.
    + reflexivity.
  - split; auto. simpl. tauto.
  - simpl. lia.
Qed.

Lemma tx_step_inv P r hist o r' out :
  tx_ok P -> tx_inv P r hist -> tx_step P r o = (r', out) ->
  tx_inv P r' (hist ++ posted [o] [out]) /\
  (forall p d, out = TxFetched p d -> nth_error hist (Z.to_nat p) = Some d /\ 0 <= p).
Proof.
  intros Hok Hinv Hs.
  assert (forall X : Prop, X -> X /\ (forall p d, TxNone = TxFetched p d -> nth_error hist (Z.to_nat p) = Some d /\ 0 <= p)) as Hnone
    by (intros X HX; split; auto; intros; discriminate).
  destruct o as [data| |p|p| | |]; cbn [tx_step] in Hs.
  - destruct (negb (Z.of_nat (length data) <? rp_mtu P)) eqn:Em.
    { inversion Hs; subst. split; [|intros; discriminate]. simpl. rewrite app_nil_r. auto. }
    destruct (r_prod r - r_cons r <? full_size P) eqn:Er; inversion Hs; subst; clear Hs.
    + split; [|intros; discriminate]. simpl. apply tx_post_inv; auto; lia.
    + split; [|intros; discriminate]. simpl. rewrite app_nil_r. auto.
  - inversion Hs; subst; clear Hs. apply Hnone. simpl. rewrite app_nil_r.
    destruct Hinv as (qs & M & Hh & Hd & Hf). exists qs, M. splits; auto. apply hw_doorbell; auto.
  - destruct (existsb (Z.eqb p) (r_pend r)) eqn:Ex; inversion Hs; subst; clear Hs.
    + split; [simpl; rewrite app_nil_r; auto|]. intros p0 d E. inversion E; subst; clear E.
      destruct Hinv as (qs & M & [Hc Hq Hp Hh He] & [Hlen Hd] & Hf).
      apply existsb_exists in Ex. destruct Ex as (x & Hin & Hx). apply Z.eqb_eq in Hx. subst x.
      assert (In p0 (map fst M)) as HinM.
      { eapply Permutation_in; [symmetry; exact Hp|]. unfold live.
        apply in_or_app. right. apply in_or_app. auto. }
      apply in_map_iff in HinM. destruct HinM as ([p' b] & E & HinM). simpl in E. subst p'.
      destruct (Hd _ _ HinM) as (d & A & B & C & D).
      destruct (co_live Hc _ _ HinM) as [Hr _]. pose proof (co_ptr Hc).
      rewrite C. rewrite gather_tx_segs; [|lia|apply Hok].
      rewrite D. split; [auto|lia].
    + apply Hnone. simpl. rewrite app_nil_r. auto.
  - destruct (ring_complete P r p 0) as [r1|] eqn:Ec; inversion Hs; subst; clear Hs.
    + split; [|intros; discriminate]. simpl. rewrite app_nil_r.
      destruct Hinv as (qs & M & Hh & Hd & Hf).
      destruct (hw_complete _ _ Hh Ec) as [Hh' _].
      exists (qs ++ [(p, 0)]), M. splits; auto.
      * unfold ring_complete in Ec. destruct (_ && _); inversion Ec; subst. auto.
      * unfold ring_complete in Ec. destruct (_ && _); inversion Ec; subst. auto.
    + apply Hnone. simpl. rewrite app_nil_r. auto.
  - inversion Hs; subst; clear Hs. apply Hnone. simpl. rewrite app_nil_r.
    apply tx_poll_inv; auto.
  - inversion Hs; subst; clear Hs. apply Hnone. simpl. rewrite app_nil_r.
    destruct Hinv as (qs & M & Hh & Hd & Hf). exists qs, M. splits; auto.
    apply hw_write_cons; auto.
  - inversion Hs; subst; clear Hs. apply Hnone. simpl. rewrite app_nil_r.
    destruct Hinv as (qs & M & Hh & Hd & Hf). exists qs, M. splits; auto.
    + apply hw_advance; auto.
    + pose proof (co_ptr (core_advance (hi_core Hh))) as A.
      unfold ring_advance in *. cbn [r_prod r_cons] in *.
      destruct (@adv_loop_spec (rp_k P) (r_info r) (r_prod r)
              (Z.to_nat (r_prod r - r_cons r)) (r_cons r)) as (B & _).
      { pose proof (co_ptr (hi_core Hh)). lia. }
      lia.
Qed.

Lemma posted_cons o out ops outs :
  posted (o :: ops) (out :: outs) = posted [o] [out] ++ posted ops outs.
Proof. destruct o, out; reflexivity. Qed.

Lemma tx_trace_inv P ops : tx_ok P -> forall r hist,
  tx_inv P r hist ->
  let '(r', outs) := trace (tx_step P) r ops in
  tx_inv P r' (hist ++ posted ops outs) /\
  (forall p d, In (TxFetched p d) outs ->
     0 <= p /\ nth_error (hist ++ posted ops outs) (Z.to_nat p) = Some d).
Proof.
  intros Hok. induction ops as [|o ops IH]; intros r hist Hinv; simpl trace.
  - simpl. rewrite app_nil_r. split; auto. tauto.
  - destruct (tx_step P r o) as [r1 out] eqn:Es.
    destruct (tx_step_inv _ Hok Hinv Es) as [H1 Hf1].
    specialize (IH r1 _ H1). destruct (trace (tx_step P) r1 ops) as [r2 outs].
    rewrite posted_cons, app_assoc. destruct IH as [H2 Hf2]. split; auto.
    intros p d [->|Hin].
    + destruct (Hf1 _ _ eq_refl) as [A B]. split; auto.
      rewrite <- app_assoc, nth_error_app1; auto. apply nth_error_Some. congruence.
    + apply Hf2; auto.
Qed.

(** ** RX *)

(** [ds] are the packets received by hardware and not yet delivered, in the
    order of the unread completions [qs]. *)
Definition rx_data_inv (P : rparams) (r : ring) (M : list (Z * nat))
  (qs : list (Z * Z)) (ds : list (list Z)) : Prop :=
  (forall p b, In (p, b) M ->
     r_desc r (slot (rp_k P) p) = rx_segs (rp_dbs P) pkt_buf_size (rp_base P b)) /\
  Forall2 (fun pl d => snd pl = Z.of_nat (length d) /\ Z.of_nat (length d) <= pkt_buf_size /\
     forall b, In (fst pl, b) M -> mem_read (r_mem r) (rp_base P b) (Z.of_nat (length d)) = d) qs ds.

Definition rx_inv (P : rparams) (r : ring) (ds : list (list Z)) : Prop :=
  exists qs M, hw_inv P r qs M /\ rx_data_inv P r M qs ds.

Lemma rx_prepare_inv P r qs M ds : rx_ok P ->
  hw_inv P r qs M -> rx_data_inv P r M qs ds -> r_prod r - r_cons r < 2 ^ rp_k P ->
  exists b, hw_inv P (rx_prepare P r) qs (M ++ [(r_prod r, b)]) /\
    rx_data_inv P (rx_prepare P r) (M ++ [(r_prod r, b)]) qs ds.
Proof.
  intros Hok [Hc Hq Hp Hh He] [Hd1 Hd2] Hlt.
  unfold rx_prepare. destruct (alloc_eta (r_pool r)) as (b & p' & Ha). rewrite Ha.
  pose proof (proj1 (xo_k Hok)) as Hk0. pose proof (pow2_pos Hk0) as Hpw.
  exists b. split.
  - constructor; auto.
    + eapply core_post; eauto.
    + rewrite map_app. simpl. unfold live in *. cbn [r_pend r_prod r_hwprod].
      rewrite Hp.
      replace (Z.to_nat (r_prod r + 1 - r_hwprod r)) with (Z.to_nat (r_prod r - r_hwprod r) + 1)%nat by lia.
      rewrite zrange_app. cbn [zrange].
      replace (r_hwprod r + Z.of_nat (Z.to_nat (r_prod r - r_hwprod r))) with (r_prod r) by lia.
      rewrite <- !app_assoc. reflexivity.
    + cbn. lia.
  - split.
    + intros p b' Hin. cbn [r_desc]. apply in_app_or in Hin. destruct Hin as [Hin|[E|[]]].
      * destruct (co_live Hc _ _ Hin) as [Hr Hb].
        rewrite zupd_other; auto. rewrite !slot_mod by auto. intros E.
        apply (@mod_window (r_prod r) p (2 ^ rp_k P)); auto; lia.
      * inversion E; subst. apply zupd_same.
    + cbn [r_mem].
      assert (forall pl, In pl qs -> fst pl <> r_prod r) as Hne.
      { intros pl Hin E.
        assert (In (fst pl) (map fst M)) as HinM.
        { eapply Permutation_in; [symmetry; exact Hp|]. unfold live.
          apply in_or_app. left. apply in_map. auto. }
        apply in_map_iff in HinM. destruct HinM as ([p b'] & Ep & HinM). simpl in Ep. subst p.
        destruct (co_live Hc _ _ HinM). lia. }
      clear -Hd2 Hne. induction Hd2 as [|pl d qs ds (A & B & C) Hd IH]; constructor.
      * splits; auto. intros b' Hin. apply in_app_or in Hin. destruct Hin as [Hin|[E|[]]]; auto.
        inversion E. exfalso. apply (Hne pl); [left; auto|congruence].
      * apply IH. intros; apply Hne; right; auto.
Qed.

Lemma rx_fill_inv P ds n : rx_ok P -> forall r qs M,
  hw_inv P r qs M -> rx_data_inv P r M qs ds ->
  r_prod r - r_cons r + Z.of_nat n <= 2 ^ rp_k P ->
  exists M', hw_inv P (rx_fill n P r) qs M' /\ rx_data_inv P (rx_fill n P r) M' qs ds /\
    r_prod (rx_fill n P r) = r_prod r + Z.of_nat n /\ r_cons (rx_fill n P r) = r_cons r.
Proof.
  intros Hok. induction n as [|n IH]; intros r qs M Hh Hd Hn; cbn [rx_fill].
  - exists M. splits; auto. lia.
  - destruct (rx_prepare_inv Hok Hh Hd) as (b & Hh' & Hd'); [lia|].
    assert (r_prod (rx_prepare P r) = r_prod r + 1 /\ r_cons (rx_prepare P r) = r_cons r) as [Ep Ec].
    { unfold rx_prepare. destruct (alloc_pkt (r_pool r)). auto. }
    destruct (IH _ _ _ Hh' Hd') as (M' & A & B & C & D); [lia|].
    exists M'. splits; auto; lia.
Qed.

Lemma rx_refill_inv P r ds : rx_ok P -> rx_inv P r ds ->
  rx_inv P (rx_refill P r) ds /\
  (2 ^ rp_k P - (r_prod (rx_refill P r) - r_cons (rx_refill P r)) < 8).
Proof.
  intros Hok (qs & M & Hh & Hd). unfold rx_refill, ring_size.
  destruct (Z.ltb_spec (2 ^ rp_k P - (r_prod r - r_cons r)) 8).
  - split; [exists qs, M; auto|auto].
  - pose proof (co_size (hi_core Hh)).
    destruct (rx_fill_inv (Z.to_nat (2 ^ rp_k P - (r_prod r - r_cons r))) Hok Hh Hd)
      as (M' & A & B & C & D); [lia|].
    split; [exists qs, M'; auto|]. lia.
Qed.

Lemma rx_advance_inv P r ds : rx_inv P r ds -> rx_inv P (ring_advance P r) ds.
Proof.
  intros (qs & M & Hh & Hd). exists qs, M. split; [apply hw_advance; auto|auto].
Qed.

Lemma rx_receive_inv P r ds p data r' : rx_ok P -> rx_inv P r ds ->
  rx_receive P r p data = Some r' -> rx_inv P r' (ds ++ [data]).
Proof.
  intros Hok (qs & M & Hh & Hd) H. unfold rx_receive in H.
  destruct (Z.leb_spec (Z.of_nat (length data)) pkt_buf_size) as [Hlen|]; [|discriminate].
  destruct (ring_complete P r p (Z.of_nat (length data))) as [r1|] eqn:Ec; [|discriminate].
  inversion H; subst; clear H.
  destruct (hw_complete _ _ Hh Ec) as [Hh' Hpend].
  assert (r_desc r1 = r_desc r /\ r_mem r1 = r_mem r) as [Ed Em].
  { unfold ring_complete in Ec. destruct (_ && _); inversion Ec; subst. auto. }
  exists (qs ++ [(p, Z.of_nat (length data))]), M. split.
  - destruct Hh' as [Hc Hq Hp Hhw He]. constructor; auto. destruct Hc; constructor; auto.
  - destruct Hd as [Hd1 Hd2]. destruct Hh as [Hc Hq Hp Hhw He].
    assert (In p (map fst M)) as HinM.
    { eapply Permutation_in; [symmetry; exact Hp|]. unfold live.
      apply in_or_app. right. apply in_or_app. auto. }
    apply in_map_iff in HinM. destruct HinM as ([p' b] & E & HinM). simpl in E. subst p'.
    rewrite Ed. split; [exact Hd1|]. cbn [r_mem].
    rewrite Em, (Hd1 _ _ HinM). rewrite scatter_rx_segs; [|apply Hok|auto].
    assert (forall b', In (p, b') M -> b' = b) as Huniq.
    { intros b' Hin. destruct (co_live Hc _ _ Hin) as [_ X]. destruct (co_live Hc _ _ HinM) as [_ Y].
      congruence. }
    apply Forall2_app.
    + assert (forall pl, In pl qs -> fst pl <> p) as Hne.
      { intros pl Hin E.
        assert (NoDup (live r qs)) as Hnd
          by (eapply Permutation_NoDup; [exact Hp|]; apply Hc).
        unfold live in Hnd. subst p.
        apply in_split in Hin. destruct Hin as (q1 & q2 & ->).
        rewrite map_app, <- app_assoc in Hnd. simpl in Hnd.
        apply NoDup_app_r in Hnd. inversion Hnd; subst. apply H1.
        apply in_or_app. right. apply in_or_app. auto. }
      assert (forall p1 b1 p2 b2, In (p1, b1) M -> In (p2, b2) M -> p1 <> p2 -> b1 <> b2) as Hbinj.
      { intros p1 b1 p2 b2 H1 H2 Hne' ->.
        assert (NoDup (map snd M)) as Hnd.
        { eapply NoDup_app_l. eapply Permutation_NoDup; [symmetry; apply (co_pool Hc)|apply seq_NoDup]. }
        clear -H1 H2 Hne' Hnd. induction M as [|[p b] M IH]; [inversion H1|].
        simpl in Hnd. inversion Hnd; subst. destruct H1 as [E1|H1], H2 as [E2|H2].
        - congruence.
        - inversion E1; subst. apply H3. apply in_map_iff. exists (p2, b2). auto.
        - inversion E2; subst. apply H3. apply in_map_iff. exists (p1, b2). auto.
        - auto. }
      clear Hp Hq Hh'. induction Hd2 as [|pl d qs ds (A & B & C) Hd IH]; constructor.
      * splits; auto. intros b' Hin. rewrite mem_read_write_other; [auto|lia|].
        assert (b' <> b) as Hbb by (eapply Hbinj; eauto; apply Hne; left; auto).
        pose proof (xo_base Hok Hbb). unfold pkt_buf_size in *. lia.
      * apply IH. intros; apply Hne; right; auto.
    + constructor; [|constructor]. cbn [fst snd]. splits; auto.
      intros b' Hin. rewrite (Huniq _ Hin). apply mem_read_write.
Qed.

Lemma rx_drain_step P k qs : forall r M p0 ds L acc,
  0 <= rp_k P <= 16 ->
  core_inv P r M -> Permutation (map fst M) (map fst qs ++ L) ->
  rx_data_inv P r M qs ds ->
  exists r' M', fold_opt (rx_handle P) (r, acc) (recs_from k p0 (map idx_of qs)) = Some (r', acc ++ ds) /\
    core_inv P r' M' /\ Permutation (map fst M') L /\ rx_data_inv P r' M' [] [] /\
    r_prod r' = r_prod r /\ r_cons r' = r_cons r /\ r_hwprod r' = r_hwprod r /\
    r_pend r' = r_pend r /\ r_err r' = r_err r.
Proof.
  induction qs as [|[p len] t IH]; intros r M p0 ds L acc Hk Hc Hp [Hd1 Hd2].
  - inversion Hd2; subst. exists r, M. simpl. rewrite app_nil_r. splits; auto.
    split; auto.
  - inversion Hd2 as [|pl d qs' ds' (A & B & C) Hd3]; subst. cbn [fst snd] in *.
    cbn [map app fst] in Hp.
    destruct (perm_fst_split _ Hp) as (b & M1 & M2 & -> & Hp').
    destruct (free_desc_step _ _ _ _ Hc) as (r1 & Hf & Hc1 & Epr & Eco & Ede & Eme & Ecq & Ehw & Epe & Eer).
    assert (In (p, b) (M1 ++ (p, b) :: M2)) as Hin by apply in_elt.
    destruct (co_live Hc _ _ Hin) as [_ Hb].
    cbn [map idx_of recs_from fold_opt fst snd].
    unfold rx_handle at 1, rec_at. cbn [c_index c_len fst snd].
    change (fst (idx_of (p, len))) with (p mod 65536). change (snd (idx_of (p, len))) with len.
    rewrite slot_index, Hb, Hf by auto.
    rewrite A, Z.min_l by (unfold pkt_buf_size in *; lia). rewrite (C _ Hin).
    assert (rx_data_inv P r1 (M1 ++ M2) t ds') as Hd'.
    { assert (forall x, In x (M1 ++ M2) -> In x (M1 ++ (p, b) :: M2)) as Hsub.
      { intros x Hx. apply in_app_or in Hx. apply in_or_app. simpl. tauto. }
      split.
      - intros p' b' H'. rewrite Ede. apply Hd1. auto.
      - rewrite Eme. clear -Hd3 Hsub. induction Hd3 as [|pl d qs ds (A & B & C) Hd IH]; constructor; auto. }
    destruct (IH r1 (M1 ++ M2) (p0 + 1) ds' L (acc ++ [d]) Hk Hc1 Hp' Hd')
      as (r' & M' & E & Hc' & HpL & Hd'' & F1 & F2 & F3 & F4 & F5).
    exists r', M'. rewrite E. rewrite <- app_assoc. splits; auto; congruence.
Qed.

Lemma rx_poll_inv P r ds : rx_ok P -> rx_inv P r ds ->
  let '(r', l) := rx_poll P r in l = ds /\ rx_inv P r' [].
Proof.
  intros Hok (qs & M & [Hc Hq Hp Hh He] & Hd). unfold rx_poll.
  rewrite (drain_spec _ _ Hq (cq_inv_len Hq)).
  destruct (@rx_drain_step P (rp_kc P) qs r M (q_csw (r_cq r)) ds _ [] (xo_k Hok) Hc Hp Hd)
    as (r' & M' & E & Hc' & HpL & Hd' & F1 & F2 & F3 & F4 & F5).
  rewrite E. split; auto. exists [], M'. split.
  - constructor; auto.
    + destruct Hc'; constructor; auto.
    + cbn [map r_cq set_cq]. apply (cq_inv_drained Hq).
    + unfold live. cbn [map app r_pend r_prod r_hwprod set_cq].
      rewrite F4, F1, F3. exact HpL.
    + cbn. lia.
    + cbn. congruence.
  - auto.
Qed.

Lemma rx_inv_init P m : rx_ok P -> rx_inv P (ring_init m) [].
Proof.
  intros Hok. pose proof (proj1 (xo_k Hok)) as Hk0. pose proof (pow2_pos Hk0) as Hpw.
  exists [], []. split.
  - constructor; simpl; auto.
    + constructor; simpl; auto; try lia; try tauto.
      * apply (xo_k Hok).
      * discriminate.
      * constructor.
    + apply cq_inv_init, Hok.
    + reflexivity.
  - split; simpl; [tauto|constructor].
Qed.

Lemma rx_step_inv P r ds o r' out : rx_ok P -> rx_inv P r ds -> rx_step P r o = (r', out) ->
  exists ds', rx_inv P r' ds' /\
    ds ++ rx_received [out] = rx_delivered [out] ++ ds' /\
    (o = RxPoll -> ds' = []) /\
    (o = RxClean -> 2 ^ rp_k P - (r_prod r' - r_cons r') < 8).
Proof.
  intros Hok Hinv Hs. destruct o as [|p data| | |]; cbn [rx_step] in Hs.
  - inversion Hs; subst; clear Hs. exists ds. simpl. rewrite app_nil_r. splits; auto; try discriminate.
    destruct Hinv as (qs & M & Hh & Hd). exists qs, M. split; auto. apply hw_doorbell; auto.
  - destruct (rx_receive P r p data) as [r1|] eqn:Er; inversion Hs; subst; clear Hs.
    + exists (ds ++ [data]). simpl. splits; auto; try discriminate. eapply rx_receive_inv; eauto.
    + exists ds. simpl. rewrite app_nil_r. splits; auto; discriminate.
  - pose proof (rx_poll_inv Hok Hinv) as H. destruct (rx_poll P r) as [r1 l].
    inversion Hs; subst; clear Hs. destruct H as [-> H]. exists []. simpl.
    rewrite !app_nil_r. splits; auto; discriminate.
  - inversion Hs; subst; clear Hs. exists ds. simpl. rewrite app_nil_r. splits; auto; try discriminate.
    destruct Hinv as (qs & M & Hh & Hd). exists qs, M. split; auto. apply hw_write_cons; auto.
  - inversion Hs; subst; clear Hs.
    destruct (rx_refill_inv Hok (rx_advance_inv Hinv)) as [A B].
    exists ds. simpl rx_received. simpl rx_delivered. rewrite app_nil_r.
    splits; auto; discriminate.
Qed.

Lemma rx_received_cons o os : rx_received (o :: os) = rx_received [o] ++ rx_received os.
Proof. unfold rx_received. simpl. rewrite app_nil_r. reflexivity. Qed.
Lemma rx_delivered_cons o os : rx_delivered (o :: os) = rx_delivered [o] ++ rx_delivered os.
Proof. unfold rx_delivered. simpl. rewrite app_nil_r. reflexivity. Qed.

Lemma rx_trace_inv P ops : rx_ok P -> forall r ds, rx_inv P r ds ->
  let '(r', outs) := trace (rx_step P) r ops in
  exists ds', rx_inv P r' ds' /\ ds ++ rx_received outs = rx_delivered outs ++ ds'.
Proof.
  intros Hok. induction ops as [|o ops IH]; intros r ds Hinv; simpl trace.
  - exists ds. simpl. rewrite app_nil_r. auto.
  - destruct (rx_step P r o) as [r1 out] eqn:Es.
    destruct (rx_step_inv _ Hok Hinv Es) as (ds1 & H1 & E1 & _).
    specialize (IH r1 ds1 H1). destruct (trace (rx_step P) r1 ops) as [r2 outs].
    destruct IH as (ds2 & H2 & E2). exists ds2. split; auto.
    rewrite rx_received_cons, rx_delivered_cons, app_assoc, E1, <- !app_assoc, E2. reflexivity.
Qed.

(** ** TX: counting, and reclaiming when everything completed *)

Lemma completed_cons o os : completed (o :: os) = (completed [o] + completed os)%nat.
Proof. unfold completed. destruct o; reflexivity. Qed.

Lemma zrange_length n : forall a, length (zrange n a) = n.
Proof. induction n; intros; simpl; auto. Qed.

Definition hw_count (r : ring) (n : nat) : Prop :=
  Z.of_nat (n + length (r_pend r)) = r_hwprod r.

Lemma tx_drain_fields P l : forall r r', fold_opt (tx_handle P) r l = Some r' ->
  r_pend r' = r_pend r /\ r_hwprod r' = r_hwprod r.
Proof.
  induction l as [|c l IH]; simpl; intros r r' H; [inversion H; auto|].
  unfold tx_handle, free_desc in H.
  destruct (free_pkt _ _); [|discriminate]. apply IH in H. simpl in H. auto.
Qed.

Lemma tx_step_count P r hist o r' out n :
  tx_ok P -> tx_inv P r hist -> hw_count r n -> tx_step P r o = (r', out) ->
  hw_count r' (n + completed [out]).
Proof.
  intros Hok Hinv Hn Hs. unfold hw_count in *.
  destruct o as [data| |p|p| | |]; cbn [tx_step] in Hs.
  - destruct (negb _); [inversion Hs; subst; cbn; lia|].
    destruct (_ <? _); inversion Hs; subst; [|cbn; lia].
    unfold tx_post. destruct (alloc_pkt (r_pool r)).
    destruct (r_info r _); cbn; lia.
  - inversion Hs; subst. destruct Hinv as (qs & M & Hh & Hd & Hf).
    cbn. rewrite app_length, zrange_length. destruct Hh. lia.
  - destruct (existsb _ _); inversion Hs; subst; cbn; lia.
  - destruct (ring_complete P r p 0) as [r1|] eqn:Ec; inversion Hs; subst; [|cbn; lia].
    destruct Hinv as (qs & M & Hh & Hd & Hf).
    destruct (hw_complete _ _ Hh Ec) as [Hh' Hin].
    unfold ring_complete in Ec. destruct (_ && _); inversion Ec; subst. cbn.
    assert (NoDup (r_pend r)) as Hnd.
    { assert (NoDup (live r qs)) as Hnd
        by (eapply Permutation_NoDup; [apply (hi_perm Hh)|]; apply (hi_core Hh)).
      unfold live in Hnd. apply NoDup_app_r in Hnd. apply NoDup_app_l in Hnd. auto. }
    pose proof (Permutation_length (remove_perm_Z _ Hnd Hin)) as Hl. simpl in Hl. lia.
  - inversion Hs; subst. unfold tx_poll.
    destruct (drain _ _ _ _ _ _) as [r1 c| |] eqn:Ed; try (cbn; lia).
    destruct Hinv as (qs & M & Hh & Hd & Hf). pose proof (hi_cq Hh) as Hq.
    rewrite (drain_spec _ _ Hq (cq_inv_len Hq)) in Ed.
    destruct (fold_opt _ _ _) eqn:E; [|discriminate]. inversion Ed; subst.
    destruct (tx_drain_fields _ _ _ E) as [A B]. cbn. rewrite A, B. lia.
  - inversion Hs; subst; cbn; lia.
  - inversion Hs; subst; cbn; lia.
Qed.

Lemma tx_trace_count P ops : tx_ok P -> forall r hist n,
  tx_inv P r hist -> hw_count r n ->
  let '(r', outs) := trace (tx_step P) r ops in hw_count r' (n + completed outs).
Proof.
  intros Hok. induction ops as [|o ops IH]; intros r hist n Hinv Hn; simpl trace.
  - simpl. rewrite Nat.add_0_r. auto.
  - destruct (tx_step P r o) as [r1 out] eqn:Es.
    pose proof (tx_step_count _ Hok Hinv Hn Es) as Hn1.
    destruct (tx_step_inv _ Hok Hinv Es) as [H1 _].
    specialize (IH r1 _ _ H1 Hn1). destruct (trace (tx_step P) r1 ops) as [r2 outs].
    rewrite completed_cons, Nat.add_assoc. auto.
Qed.

Lemma tx_reclaim_all P r hist : tx_ok P -> tx_inv P r hist -> hw_count r (length hist) ->
  let r' := ring_advance P (tx_poll P r) in
  r_cons r' = r_prod r' /\
  Permutation (p_free (r_pool r')) (seq 0 (p_n (r_pool r'))).
Proof.
  intros Hok (qs & M & [Hc Hq Hp Hh He] & Hd & Hf) Hn.
  assert (r_prod r = Z.of_nat (length hist)) as Hlen by apply Hd.
  unfold hw_count in Hn.
  assert (r_pend r = [] /\ r_hwprod r = r_prod r) as [Epend Ehw].
  { destruct (r_pend r); simpl in Hn; [split; auto; lia|lia]. }
  cbv zeta. unfold tx_poll. rewrite (drain_spec _ _ Hq (cq_inv_len Hq)).
  destruct (@tx_drain_step P (rp_kc P) r qs M (q_csw (r_cq r)) hist _ (to_k Hok) Hc Hp Hd)
    as (r' & M' & E & Hc' & HpL & Hd' & F1 & F2 & F3 & F4 & F5 & F6).
  rewrite E. rewrite Epend, Ehw, Z.sub_diag in HpL. simpl in HpL.
  apply Permutation_sym, Permutation_nil, map_eq_nil in HpL. subst M'.
  set (r2 := set_cq r' _).
  assert (core_inv P r2 []) as Hc2 by (destruct Hc'; constructor; auto).
  split.
  - rewrite (advance_empty Hc2). reflexivity.
  - apply (co_pool (core_advance Hc2)).
Qed.

Lemma tx_system_correct P m ops : tx_ok P ->
  let '(r, outs) := trace (tx_step P) (ring_init m) ops in
  r_err r = false /\
  0 <= r_prod r - r_cons r <= 2 ^ rp_k P / 2 /\
  r_prod r = Z.of_nat (length (posted ops outs)) /\
  (forall p d, In (TxFetched p d) outs -> 0 <= p /\
     nth_error (posted ops outs) (Z.to_nat p) = Some d) /\
  (completed outs = length (posted ops outs) ->
   let r' := fst (trace (tx_step P) r [TxPoll; TxClean]) in
   r_cons r' = r_prod r' /\
   Permutation (p_free (r_pool r')) (seq 0 (p_n (r_pool r')))).
Proof.
  intros Hok. pose proof (@tx_trace_inv P ops Hok _ _ (tx_inv_init m Hok)) as H.
  assert (hw_count (ring_init m) 0) as H0 by reflexivity.
  pose proof (@tx_trace_count P ops Hok _ _ _ (tx_inv_init m Hok) H0) as Hcnt.
  destruct (trace (tx_step P) (ring_init m) ops) as [r outs].
  destruct H as [Hinv Hfetch]. simpl in Hinv, Hfetch, Hcnt.
  pose proof Hinv as (qs & M & [Hc Hq Hp Hh He] & Hd & Hf).
  splits; auto; try (destruct Hc; lia).
  - unfold full_size, ring_size in Hf. rewrite Z.shiftr_div_pow2 in Hf by lia.
    change (2 ^ 1) with 2 in Hf. lia.
  - apply Hd.
  - intros Hall. rewrite Hall in Hcnt. apply (tx_reclaim_all Hok Hinv Hcnt).
Qed.

(** A transmit that finds the ring full raises nothing and changes nothing. *)

(** ** RX: whole-system statement *)

Lemma rx_inv_open P m : rx_ok P -> rx_inv P (rx_open P m) [] /\
  2 ^ rp_k P - (r_prod (rx_open P m) - r_cons (rx_open P m)) < 8.
Proof. intros Hok. apply rx_refill_inv; auto. apply rx_inv_init; auto. Qed.

Lemma rx_system_correct P m ops : rx_ok P ->
  let '(r, outs) := trace (rx_step P) (rx_open P m) ops in
  r_err r = false /\
  0 <= r_prod r - r_cons r <= 2 ^ rp_k P /\
  exists pending, rx_received outs = rx_delivered outs ++ pending /\
    snd (rx_step P r RxPoll) = RxDelivered pending.
Proof.
  intros Hok. pose proof (@rx_trace_inv P ops Hok _ _ (proj1 (rx_inv_open m Hok))) as H.
  destruct (trace (rx_step P) (rx_open P m) ops) as [r outs].
  destruct H as (ds & Hinv & E). simpl in E.
  pose proof Hinv as (qs & M & [Hc Hq Hp Hh He] & Hd).
  splits; auto; try (destruct Hc; lia).
  exists ds. split; auto. pose proof (rx_poll_inv Hok Hinv) as Hpoll.
  cbn [rx_step]. destruct (rx_poll P r) as [r1 l]. destruct Hpoll as [-> _]. reflexivity.
Qed.

Lemma rx_refill_after_clean P m ops : rx_ok P ->
  let r := fst (trace (rx_step P) (rx_open P m) (ops ++ [RxClean])) in
  2 ^ rp_k P - (r_prod r - r_cons r) < 8 /\
  0 <= r_prod r - r_cons r <= 2 ^ rp_k P.
Proof.
  intros Hok. rewrite trace_app.
  pose proof (@rx_trace_inv P ops Hok _ _ (proj1 (rx_inv_open m Hok))) as H.
  destruct (trace (rx_step P) (rx_open P m) ops) as [r outs].
  destruct H as (ds & Hinv & E). cbn [trace].
  destruct (rx_step P r RxClean) as [r' out] eqn:Es. cbn [fst].
  destruct (rx_step_inv _ Hok Hinv Es) as (ds' & (qs & M & Hh & _) & _ & _ & H2).
  split; [apply H2; auto|]. destruct (hi_core Hh). lia.
Qed.

(** Rings with fewer than 8 slots are never filled. *)
Lemma rx_small_ring P m ops : 0 <= rp_k P < 3 ->
  let '(r, outs) := trace (rx_step P) (rx_open P m) ops in
  r_prod r = 0 /\ rx_received outs = [].
Proof.
  intros Hk.
  assert (2 ^ rp_k P < 8) as Hsz.
  { change 8 with (2 ^ 3). apply Z.pow_lt_mono_r; lia. }
  set (I := fun r => r_prod r = 0 /\ r_cons r = 0 /\ r_hwprod r = 0 /\ r_pend r = []
     /\ q_mem (r_cq r) = zero_cq /\ q_csw (r_cq r) = 0).
  assert (forall r o, I r -> I (fst (rx_step P r o)) /\ rx_received [snd (rx_step P r o)] = []) as Hstep.
  { intros r o (A & B & C & D & E & F). unfold I. destruct o; cbn [rx_step fst snd].
    - unfold ring_doorbell. cbn. rewrite A, C, D. simpl. auto 10.
    - unfold rx_receive, ring_complete. rewrite D. cbn [existsb andb].
      destruct (_ <=? _); cbn; auto 10.
    - unfold rx_poll. rewrite E, F. cbn [drain].
      assert (cq_empty_at (rp_kc P) zero_cq 0 = true) as -> by (unfold cq_empty_at; cbn; reflexivity).
      cbn. auto 10.
    - cbn. rewrite F. auto 10.
    - assert (adv_loop (Z.to_nat (r_prod r - r_cons r)) (rp_k P) (r_info r) (r_prod r) (r_cons r) = 0) as Ea
        by (rewrite A, B; reflexivity).
      unfold rx_refill, ring_advance. cbn [r_prod r_cons]. rewrite Ea, A. unfold ring_size.
      replace (2 ^ rp_k P - (0 - 0) <? 8) with true by (symmetry; apply Z.ltb_lt; lia).
      cbn. auto 10. }
  assert (I (rx_open P m)) as H0.
  { unfold rx_open, rx_refill, ring_size. cbn [r_prod r_cons ring_init].
    destruct (Z.ltb_spec (2 ^ rp_k P - (0 - 0)) 8); [|lia]. unfold I. cbn. auto 10. }
  revert H0. generalize (rx_open P m). induction ops as [|o ops IH]; intros r Hr; cbn [trace].
  - split; [apply Hr|reflexivity].
  - destruct (Hstep r o Hr) as [H1 H2]. destruct (rx_step P r o) as [r1 out]. cbn [fst snd] in *.
    specialize (IH r1 H1). destruct (trace (rx_step P) r1 ops) as [r2 outs].
    rewrite rx_received_cons, H2. auto.
Qed.

(** ** Pool histories *)

Lemma remove_perm_nat (p : nat) l : NoDup l -> In p l -> Permutation l (p :: remove Nat.eq_dec p l).
Proof.
  induction l as [|x t IH]; simpl; intros Hnd Hin; [tauto|].
  inversion Hnd; subst.
  destruct (Nat.eq_dec p x) as [->|Hne].
  - rewrite notin_remove; auto.
  - destruct Hin as [->|Hin]; [congruence|].
    rewrite IH at 1; auto. apply perm_swap.
Qed.

Lemma pool_history_ok ops : forall p held,
  Permutation (held ++ p_free p) (seq 0 (p_n p)) ->
  pool_well_used held ops (snd (trace pool_step p ops)) ->
  pool_history (p_n p) held ops (snd (trace pool_step p ops)).
Proof.
  induction ops as [|o ops IH]; intros p held Hp; cbn [trace].
  - intros _. constructor.
  - assert (NoDup (held ++ p_free p)) as Hnd
      by (eapply Permutation_NoDup; [symmetry; exact Hp|apply seq_NoDup]).
    destruct o as [|b]; cbn [pool_step].
    + destruct (alloc_pkt p) as [b p'] eqn:Ea. cbn [fst snd].
      destruct (trace pool_step p' ops) as [p2 rets] eqn:Et. cbn [snd pool_well_used].
      intros Hw. unfold alloc_pkt in Ea. destruct (p_free p) as [|b0 t] eqn:Ef; inversion Ea; subst.
      * rewrite app_nil_r in *. apply ph_create.
        -- intros b Hb. eapply Permutation_in; [symmetry; exact Hp|]. apply in_seq. lia.
        -- intros Hin. pose proof (perm_seq_lt _ _ Hp Hin). lia.
        -- specialize (IH (mkPool (S (p_n p)) []) (p_n p :: held)). cbn [p_n p_free] in IH.
           rewrite Et in IH. apply IH; auto. rewrite app_nil_r, seq_S. simpl.
           rewrite <- Permutation_cons_append. constructor. auto.
      * apply ph_reuse.
        -- eapply perm_seq_lt; [exact Hp|]. apply in_elt.
        -- apply NoDup_remove_2 in Hnd. intro. apply Hnd. apply in_or_app; auto.
        -- specialize (IH (mkPool (p_n p) t) (b :: held)). cbn [p_n p_free] in IH.
           rewrite Et in IH. apply IH; auto. rewrite <- Hp. simpl. apply Permutation_middle.
    + destruct (free_pkt p (Some b)) as [p'|] eqn:Ef; unfold free_pkt in Ef.
      * destruct (Nat.ltb_spec b (p_n p)); inversion Ef; subst; clear Ef.
        destruct (trace pool_step _ ops) as [p2 rets] eqn:Et. cbn [snd pool_well_used].
        intros [Hin Hw]. apply ph_free.
        specialize (IH (mkPool (p_n p) (p_free p ++ [b])) (remove Nat.eq_dec b held)).
        cbn [p_n p_free] in IH. rewrite Et in IH. apply IH; auto.
        rewrite <- Hp. apply NoDup_app_l in Hnd.
        rewrite (remove_perm_nat _ Hnd Hin) at 2. simpl.
        rewrite app_assoc. rewrite <- Permutation_cons_append. reflexivity.
      * destruct (Nat.ltb_spec b (p_n p)); [discriminate|].
        destruct (trace pool_step p ops) as [p2 rets] eqn:Et. cbn [snd pool_well_used].
        intros [Hin _]. exfalso.
        assert (b < p_n p)%nat; [|lia]. eapply perm_seq_lt; [exact Hp|]. apply in_or_app; auto.
Qed.

Lemma pool_correct ops :
  pool_well_used [] ops (snd (trace pool_step pool_init ops)) ->
  pool_history 0 [] ops (snd (trace pool_step pool_init ops)).
Proof. apply (pool_history_ok ops pool_init []). reflexivity. Qed.

Lemma tx_segs_correct (m : memory) dbs len ptr :
  0 <= len -> (1 <= dbs)%nat ->
  let segs := tx_segs dbs len ptr in
  length segs = dbs /\ tiles segs ptr len /\ gather m segs = mem_read m ptr len.
Proof.
  intros Hl Hd. destruct (@tiles_tx dbs len ptr Hl Hd). cbv zeta. splits; auto.
  apply gather_tx_segs; auto.
Qed.

Lemma read_ptrs_correct lag truth other :
  0 <= truth - lag < 65536 -> 0 <= other < 65536 ->
  read_prod_ptr lag (other * 65536 + truth mod 65536) = truth /\
  read_cons_ptr lag (truth mod 65536 * 65536 + other) = truth.
Proof.
  intros H Ho. unfold read_prod_ptr, read_cons_ptr. split.
  - rewrite (land_mask16 (other * 65536 + truth mod 65536)).
    rewrite (Z.add_comm (other * 65536)), Z.mod_add, Z.mod_mod by lia. apply read_ptr_correct; auto.
  - rewrite Z.shiftr_div_pow2 by lia. change (2 ^ 16) with 65536.
    replace ((truth mod 65536 * 65536 + other) / 65536) with (truth mod 65536).
    + apply read_ptr_correct; auto.
    + rewrite Z.add_comm, Z.div_add by lia. rewrite (Z.div_small other) by lia. lia.
Qed.

(** ** The consumer pointer moves up to the oldest descriptor that is still
    with the hardware *)

Lemma advance_oldest P r M :
  core_inv P r M ->
  let r' := ring_advance P r in
  r_cons r' = r_prod r \/ In (r_cons r') (map fst M).
Proof.
  intros [Hk Hp Hs Hl Hi Hn Hpo]. cbv zeta. unfold ring_advance. cbn [r_cons].
  destruct (@adv_loop_spec (rp_k P) (r_info r) (r_prod r)
              (Z.to_nat (r_prod r - r_cons r)) (r_cons r) ltac:(lia)) as (A & B & C).
  set (c := adv_loop _ _ _ _ _) in *.
  destruct (Z.eq_dec c (r_prod r)) as [|Hne]; [auto|]. right.
  destruct C as [C|C]; [lia|lia|].
  destruct (r_info r (slot (rp_k P) c)) as [b|] eqn:E; [|congruence].
  destruct (Hi _ _ (slot_range _ (proj1 Hk)) E) as (p & Hin & Hsl).
  destruct (Hl _ _ Hin) as [Hr _].
  assert (p = c) as ->.
  { rewrite !slot_mod in Hsl by lia.
    eapply (mod_window_inj (lo := r_cons r)); eauto; try lia. }
  apply in_map_iff. exists (c, b). auto.
Qed.

Lemma live_nil_in r p : In p (live r []) -> r_hwprod r <= r_prod r ->
  In p (r_pend r) \/ r_hwprod r <= p < r_prod r.
Proof.
  unfold live. simpl. intros H Hh. apply in_app_or in H. destruct H as [|H]; auto.
  apply in_zrange in H. right. lia.
Qed.

Lemma tx_poll_clean P r hist : tx_ok P -> tx_inv P r hist ->
  let r' := ring_advance P (tx_poll P r) in
  r_cons r' = r_prod r' \/ In (r_cons r') (r_pend r') \/ r_hwprod r' <= r_cons r' < r_prod r'.
Proof.
  intros Hok Hinv.
  destruct Hinv as (qs & M & [Hc Hq Hp Hh He] & Hd & Hf).
  cbv zeta. unfold tx_poll. rewrite (drain_spec _ _ Hq (cq_inv_len Hq)).
  destruct (@tx_drain_step P (rp_kc P) r qs M (q_csw (r_cq r)) hist _ (to_k Hok) Hc Hp Hd)
    as (r' & M' & E & Hc' & HpL & Hd' & F1 & F2 & F3 & F4 & F5 & F6).
  rewrite E. set (r2 := set_cq r' _).
  assert (core_inv P r2 M') as Hc2 by (destruct Hc'; constructor; auto).
  assert (r_pend r2 = r_pend r /\ r_hwprod r2 = r_hwprod r /\ r_prod r2 = r_prod r) as (G1 & G2 & G3)
    by (subst r2; cbn; auto).
  destruct (advance_oldest Hc2) as [H|H]; [left; rewrite H; reflexivity|right].
  apply (Permutation_in _ HpL) in H.
  change (r_pend (ring_advance P r2)) with (r_pend r2).
  change (r_hwprod (ring_advance P r2)) with (r_hwprod r2).
  change (r_prod (ring_advance P r2)) with (r_prod r2). rewrite G1, G2, G3.
  apply in_app_or in H. destruct H as [|H]; auto. apply in_zrange in H. right. lia.
Qed.

Lemma tx_progress P m ops : tx_ok P ->
  let r := fst (trace (tx_step P) (ring_init m) (ops ++ [TxPoll; TxClean])) in
  r_cons r = r_prod r \/ In (r_cons r) (r_pend r) \/ r_hwprod r <= r_cons r < r_prod r.
Proof.
  intros Hok. rewrite trace_app.
  pose proof (@tx_trace_inv P ops Hok _ _ (tx_inv_init m Hok)) as H.
  destruct (trace (tx_step P) (ring_init m) ops) as [r outs].
  destruct H as [Hinv _]. cbn [trace tx_step fst].
  apply (tx_poll_clean Hok Hinv).
Qed.

(** *** RX *)

Lemma rx_drain_fields P l : forall r acc r' acc',
  fold_opt (rx_handle P) (r, acc) l = Some (r', acc') ->
  r_pend r' = r_pend r /\ r_hwprod r' = r_hwprod r /\ r_prod r' = r_prod r.
Proof.
  induction l as [|c l IH]; cbn [fold_opt]; intros r acc r' acc' H; [inversion H; auto|].
  unfold rx_handle in H at 1. destruct (r_info r _) eqn:Ei; [|discriminate].
  unfold free_desc in H. rewrite Ei in H.
  destruct (free_pkt _ _); [|discriminate]. apply IH in H. simpl in H. auto.
Qed.

Lemma rx_fill_fields P n : forall r,
  r_pend (rx_fill n P r) = r_pend r /\ r_hwprod (rx_fill n P r) = r_hwprod r /\
  r_prod (rx_fill n P r) = r_prod r + Z.of_nat n /\ r_cons (rx_fill n P r) = r_cons r.
Proof.
  induction n as [|n IH]; intros r; cbn [rx_fill]; [splits; auto; lia|].
  destruct (IH (rx_prepare P r)) as (A & B & C & D). rewrite A, B, C, D.
  unfold rx_prepare. destruct (alloc_pkt _). cbn. splits; auto. lia.
Qed.

Lemma rx_step_count P r ds o r' out n :
  rx_ok P -> rx_inv P r ds -> hw_count r n -> rx_step P r o = (r', out) ->
  hw_count r' (n + length (rx_received [out])).
Proof.
  intros Hok Hinv Hn Hs. unfold hw_count in *.
  destruct o as [|p data| | |]; cbn [rx_step] in Hs.
  - inversion Hs; subst. destruct Hinv as (qs & M & Hh & Hd).
    cbn. rewrite app_length, zrange_length. destruct Hh. lia.
  - destruct (rx_receive P r p data) as [r1|] eqn:Er; inversion Hs; subst; [|cbn; lia].
    unfold rx_receive in Er. destruct (_ <=? _); [|discriminate].
    destruct (ring_complete P r p _) as [r1|] eqn:Ec; [|discriminate].
    inversion Er; subst; clear Er. cbn [r_pend r_hwprod].
    destruct Hinv as (qs & M & Hh & Hd).
    destruct (hw_complete _ _ Hh Ec) as [Hh' Hin].
    unfold ring_complete in Ec. destruct (_ && _); inversion Ec; subst. cbn.
    assert (NoDup (r_pend r)) as Hnd.
    { assert (NoDup (live r qs)) as Hnd
        by (eapply Permutation_NoDup; [apply (hi_perm Hh)|]; apply (hi_core Hh)).
      unfold live in Hnd. apply NoDup_app_r in Hnd. apply NoDup_app_l in Hnd. auto. }
    pose proof (Permutation_length (remove_perm_Z _ Hnd Hin)) as Hl. simpl in Hl. lia.
  - unfold rx_poll in Hs. destruct Hinv as (qs & M & Hh & Hd). pose proof (hi_cq Hh) as Hq.
    rewrite (drain_spec _ _ Hq (cq_inv_len Hq)) in Hs.
    destruct (fold_opt _ _ _) as [[r1 l]|] eqn:E; inversion Hs; subst; [|cbn; lia].
    destruct (rx_drain_fields _ _ _ _ E) as (A & B & _). cbn. rewrite A, B. lia.
  - inversion Hs; subst; cbn; lia.
  - inversion Hs; subst; clear Hs. unfold rx_refill.
    destruct (_ <? 8); [cbn; lia|].
    match goal with |- context [rx_fill ?k P ?x] => destruct (rx_fill_fields P k x) as (A & B & _) end.
    rewrite A, B. cbn. lia.
Qed.

Lemma rx_trace_count P ops : rx_ok P -> forall r ds n,
  rx_inv P r ds -> hw_count r n ->
  let '(r', outs) := trace (rx_step P) r ops in
  hw_count r' (n + length (rx_received outs)).
Proof.
  intros Hok. induction ops as [|o ops IH]; intros r ds n Hinv Hn; simpl trace.
  - simpl. rewrite Nat.add_0_r. auto.
  - destruct (rx_step P r o) as [r1 out] eqn:Es.
    pose proof (rx_step_count _ Hok Hinv Hn Es) as Hn1.
    destruct (rx_step_inv _ Hok Hinv Es) as (ds1 & H1 & _).
    specialize (IH r1 _ _ H1 Hn1). destruct (trace (rx_step P) r1 ops) as [r2 outs].
    rewrite rx_received_cons, app_length, Nat.add_assoc. auto.
Qed.

(** After a poll and a clean, at least [2^k - 7] buffers are with the hardware
    or about to be, counted from the oldest one it still owns; if it owns none,
    all [2^k] slots are posted again. *)
Lemma rx_progress P m ops : rx_ok P -> 3 <= rp_k P ->
  let '(r, outs) := trace (rx_step P) (rx_open P m) (ops ++ [RxPoll; RxClean]) in
  let owned p := In p (r_pend r) \/ r_hwprod r <= p < r_prod r in
  2 ^ rp_k P - 8 < r_prod r - r_cons r <= 2 ^ rp_k P /\
  owned (r_cons r) /\ (forall p, owned p -> r_cons r <= p < r_prod r) /\
  Z.of_nat (length (rx_received outs) + length (r_pend r)) = r_hwprod r.
Proof.
  intros Hok Hk3. 
  assert (8 <= 2 ^ rp_k P) as H8 by (change 8 with (2 ^ 3); apply Z.pow_le_mono_r; lia).
  assert (hw_count (rx_open P m) 0) as H0.
  { unfold rx_open, rx_refill. destruct (_ <? 8); [reflexivity|].
    match goal with |- context [rx_fill ?k P ?x] => destruct (rx_fill_fields P k x) as (A & B & _) end.
    unfold hw_count. rewrite A, B. reflexivity. }
  pose proof (@rx_trace_count P (ops ++ [RxPoll; RxClean]) Hok _ _ _ (proj1 (rx_inv_open m Hok)) H0) as Hcnt.
  pose proof (@rx_trace_inv P (ops ++ [RxPoll; RxClean]) Hok _ _ (proj1 (rx_inv_open m Hok))) as Hfin.
  pose proof (@rx_refill_after_clean P m (ops ++ [RxPoll]) Hok) as Hcl.
  rewrite <- app_assoc in Hcl. cbn [app] in Hcl.
  destruct (trace (rx_step P) (rx_open P m) (ops ++ [RxPoll; RxClean])) as [r outs] eqn:Et.
  cbn [fst] in Hcl. unfold hw_count in Hcnt. simpl in Hcnt.
  destruct Hfin as (ds & (qs & M & Hh & _) & _).
  cbv zeta. splits; try lia.
  2:{ intros p Hp.
      assert (In p (map fst M)) as HinM.
      { eapply Permutation_in; [symmetry; apply (hi_perm Hh)|]. unfold live.
        apply in_or_app. right. apply in_or_app. destruct Hp as [|Hp]; auto.
        right. apply in_zrange. lia. }
      apply in_map_iff in HinM. destruct HinM as ([p' b] & E & HinM). simpl in E. subst p'.
      apply (co_live (hi_core Hh) _ _ HinM). }
  (* recompute the last two steps *)
  rewrite trace_app in Et.
  pose proof (@rx_trace_inv P ops Hok _ _ (proj1 (rx_inv_open m Hok))) as H1.
  destruct (trace (rx_step P) (rx_open P m) ops) as [r1 outs1].
  destruct H1 as (ds1 & (qs1 & M1 & [Hc1 Hq1 Hp1 Hh1 He1] & Hd1) & _).
  cbn [trace rx_step] in Et. unfold rx_poll in Et.
  rewrite (drain_spec _ _ Hq1 (cq_inv_len Hq1)) in Et.
  destruct (@rx_drain_step P (rp_kc P) qs1 r1 M1 (q_csw (r_cq r1)) ds1 _ [] (xo_k Hok) Hc1 Hp1 Hd1)
    as (r2 & M2 & E2 & Hc2 & HpL2 & Hd2 & F1 & F2 & F3 & F4 & F5).
  rewrite E2 in Et. injection Et as Er Eo; clear Eo.
  set (r3 := set_cq r2 _) in *.
  assert (core_inv P r3 M2) as Hc3 by (destruct Hc2; constructor; auto).
  assert (r_pend r3 = r_pend r1 /\ r_hwprod r3 = r_hwprod r1 /\ r_prod r3 = r_prod r1) as (G1 & G2 & G3)
    by (subst r3; cbn; auto).
  pose proof (advance_oldest Hc3) as Hold. cbv zeta in Hold.
  pose proof (core_advance Hc3) as Hc4.
  assert (r_prod (ring_advance P r3) = r_prod r3 /\ r_pend (ring_advance P r3) = r_pend r3 /\
          r_hwprod (ring_advance P r3) = r_hwprod r3) as (K1 & K2 & K3) by (cbn; auto).
  set (r4 := ring_advance P r3) in *.
  assert (r_cons r = r_cons r4 /\ r_pend r = r_pend r4 /\ r_hwprod r = r_hwprod r4 /\
          r_prod r4 <= r_prod r /\ (r_prod r = r_prod r4 -> r_prod r4 - r_cons r4 > 0)) as (J1 & J2 & J3 & J4 & J5).
  { rewrite <- Er. unfold rx_refill, ring_size.
    destruct (Z.ltb_spec (2 ^ rp_k P - (r_prod r4 - r_cons r4)) 8).
    - splits; auto; lia.
    - match goal with |- context [rx_fill ?k P ?x] => destruct (rx_fill_fields P k x) as (A & B & C & D) end.
      rewrite A, B, C, D. pose proof (co_size Hc4). splits; auto; lia. }
  rewrite J1, J2, J3. rewrite K2, K3, G1, G2.
  pose proof (co_ptr Hc4) as Hptr4.
  destruct Hold as [H|H].
  - right. rewrite H, G3. rewrite H in J5. destruct (Z.eq_dec (r_prod r) (r_prod r4)); lia.
  - apply (Permutation_in _ HpL2) in H. apply in_app_or in H. destruct H as [|H]; auto.
    apply in_zrange in H. right. lia.
Qed.
