(** Proofs about memory requests, completions and host memory. *)
From Verif Require Import Base.Prelude Pcie.Tlp_model Pcie.Tlp_spec Pcie.Tlp_proof
  Pcie.Mem_model Pcie.Mem_spec.
Open Scope Z_scope.

Lemma land_fff a : Z.land a 0xfff = a mod 4096.
Proof. change 0xfff with (Z.ones 12). rewrite Z.land_ones by lia. reflexivity. Qed.
Lemma land_3 a : Z.land a 3 = a mod 4.
Proof. change 3 with (Z.ones 2). rewrite Z.land_ones by lia. reflexivity. Qed.
Lemma land_7f a : Z.land a 0x7f = a mod 128.
Proof. change 0x7f with (Z.ones 7). rewrite Z.land_ones by lia. reflexivity. Qed.
Lemma shl128 k : 0 <= k -> exists j, Z.shiftl 128 k = 128 * j /\ 1 <= j.
Proof.
  intros. exists (2 ^ k). rewrite Z.shiftl_mul_pow2 by auto. pose proof (Z.pow_pos_nonneg 2 k). lia.
Qed.

Lemma chunk_bounds mx addr rem : 0 <= mx -> 1 <= rem ->
  let n := chunk_len mx addr rem in
  1 <= n <= rem /\ n + addr mod 4 <= Z.shiftl 128 mx /\ n <= 4096 - addr mod 4096.
Proof.
  intros Hm Hr n. subst n. unfold chunk_len. rewrite land_fff.
  destruct (shl128 Hm) as (j & E & Hj). rewrite E.
  pose proof (Z.mod_pos_bound addr 4). pose proof (Z.mod_pos_bound addr 4096). lia.
Qed.

(** * Requests *)
Lemma set_be_keeps t a n :
  t_fmt (set_be t a n) = t_fmt t /\ t_type (set_be t a n) = t_type t /\ t_data (set_be t a n) = t_data t /\
  t_requester (set_be t a n) = t_requester t /\ t_tag (set_be t a n) = t_tag t /\
  t_byte_count (set_be t a n) = t_byte_count t.
Proof. destruct t as [x0 x1 x2 x3 x4 x5 x6 x7 x8 x9 y0 y1 y2 y3 y4 y5 y6 y7 y8 y9 z0 z1]. splits; reflexivity. Qed.

Lemma new_req_legal wr mx a n rq tag attr tc d :
  0 <= mx -> 1 <= n -> n + a mod 4 <= Z.shiftl 128 mx -> n <= 4096 - a mod 4096 ->
  let r := set_be (new_req wr a rq tag attr tc) a n in
  (if wr then Z.of_nat (length d) = t_length r else True) ->
  legal_req (Z.shiftl 128 mx) wr
    (let '(mkTlp f ty tc th td ep at1 at2 le co st bc byc rq de tag fb lb lo ad rn _) := r in
     mkTlp f ty tc th td ep at1 at2 le co st bc byc rq de tag fb lb lo ad rn d).
Proof.
  intros Hm Hn Hc Hp r Hd.
  destruct (@c36_exact (new_req wr a rq tag attr tc) a n Hn) as (P1 & P2 & B1 & B2 & B3 & _).
  destruct (@set_be_first_nonzero (new_req wr a rq tag attr tc) a n Hn) as (B4 & B5).
  destruct (set_be_keeps (new_req wr a rq tag attr tc) a n) as (K1 & K2 & _ & _ & _ & _).
  pose proof (set_be_addr (new_req wr a rq tag attr tc) a n) as P3.
  subst r. destruct (set_be _ a n) as [x0 x1 x2 x3 x4 x5 x6 x7 x8 x9 y0 y1 y2 y3 y4 y5 y6 y7 y8 y9 z0 z1].
  unfold legal_req, tlp_check, has_data, is_4dw, isft, ft in *.
  cbn [t_fmt t_type t_length t_data t_addr t_lower t_byte_count t_first_be t_last_be] in *.
  assert (L1 : 1 <= x8) by (subst x8; clear - Hn; Z.to_euclidean_division_equations; lia).
  assert (L2 : 4 * x8 <= Z.shiftl 128 mx).
  { destruct (shl128 Hm) as (j & E & Hj). rewrite E in *. subst x8.
    clear - Hn Hc. Z.to_euclidean_division_equations; lia. }
  assert (L3 : 4 * x8 <= 4096 - y9 mod 4096).
  { subst x8 y9. clear - Hn Hp. Z.to_euclidean_division_equations; lia. }
  assert (L4 : same_page y9 (4 * x8)).
  { unfold same_page. clear - L1 L3. Z.to_euclidean_division_equations; lia. }
  split; [auto|]. split; [auto|]. split; [auto|]. split; [auto|].
  split; [lia|]. split; [auto|].
  split; [split; [intros Q; destruct (Z.eq_dec x8 1); [auto|destruct (B5 n0 Q)]|auto]|].
  subst x0 x1. cbn [new_req t_type t_fmt].
  assert (G : (a >? 0xffffffff) = (2 ^ 32 <=? y9)).
  { subst y9. change (2 ^ 32) with 4294967296. pose proof (Z.mod_pos_bound a 4).
    destruct (Z.gtb_spec a 0xffffffff); symmetry; [apply Z.leb_le|apply Z.leb_gt];
    Z.to_euclidean_division_equations; lia. }
  rewrite G. split; [reflexivity|].
  rewrite land_fff.
  assert (X : (x8 * 4 >? 4096 - y9 mod 4096) = false) by (clear - L3; lia).
  rewrite X.
  destruct wr; destruct (Z.leb_spec (2 ^ 32) y9) as [HY|HY];
    rewrite ?Hd, ?Z.eqb_refl; (split; [reflexivity|]); (split; [split; intros Q; try discriminate; auto; lia|]);
    reflexivity.
Qed.

Lemma touches_data t d b : touches
    (let '(mkTlp f ty tc th td ep at1 at2 le co st bc byc rq de tag fb lb lo ad rn _) := t in
     mkTlp f ty tc th td ep at1 at2 le co st bc byc rq de tag fb lb lo ad rn d) b = touches t b.
Proof. destruct t as [x0 x1 x2 x3 x4 x5 x6 x7 x8 x9 y0 y1 y2 y3 y4 y5 y6 y7 y8 y9 z0 z1]. reflexivity. Qed.

Lemma firstn_ok {A} (P : A -> Prop) n l : Forall P l -> Forall P (firstn n l).
Proof. intros H. rewrite <- (firstn_skipn n l) in H. apply Forall_app in H. tauto. Qed.
Lemma skipn_ok {A} (P : A -> Prop) n l : Forall P l -> Forall P (skipn n l).
Proof. intros H. rewrite <- (firstn_skipn n l) in H. apply Forall_app in H. tauto. Qed.

(** C38 for writes. *)
Lemma write_loop_ok mx rq attr tc : 0 <= mx -> forall fuel addr data,
  (length data < fuel)%nat -> bytes_ok data ->
  exists ts, write_loop fuel mx rq attr tc addr data = Ok ts /\
    Forall (legal_req (Z.shiftl 128 mx) true) ts /\ carries addr ts data /\
    Forall (fun t => t_requester t = rq) ts.
Proof.
  intros Hm. induction fuel as [|fuel IH]; intros addr data Hf Hb; [lia|].
  cbn [write_loop]. destruct (Z.ltb_spec 0 (Z.of_nat (length data))) as [Hl|Hl].
  - destruct (@chunk_bounds mx addr (Z.of_nat (length data)) Hm ltac:(lia)) as (N1 & N2 & N3).
    set (n := chunk_len mx addr (Z.of_nat (length data))) in *.
    assert (SL : slice data 0 n = firstn (Z.to_nat n) data) by (unfold slice; rewrite Z.sub_0_r; reflexivity).
    rewrite SL. set (c := firstn (Z.to_nat n) data).
    assert (LC : Z.of_nat (length c) = n) by (subst c; rewrite firstn_length; lia).
    assert (BC : bytes_ok c) by (apply firstn_ok; auto).
    assert (NC : c <> []) by (intros E; rewrite E in LC; cbn in LC; lia).
    destruct (@c36_data (new_req true addr rq 0 attr tc) addr c NC BC) as (r & E & C1 & C2 & C3 & C4).
    destruct (@set_be_data_ok (new_req true addr rq 0 attr tc) addr c ltac:(lia) BC) as (d & E' & D1 & D2).
    cbv zeta in E'. rewrite E in E'. rewrite E. cbn [bind].
    destruct (IH (addr + n) (skipn (Z.to_nat n) data)) as (ts & ET & T1 & T2 & T3);
      [rewrite skipn_length; lia|apply skipn_ok; auto|].
    rewrite ET. cbn [bind]. eexists. split; [reflexivity|].
    assert (Er : r = let '(mkTlp f ty tc th td ep at1 at2 le co st bc byc rq de tag fb lb lo ad rn _) :=
       set_be (new_req true addr rq 0 attr tc) addr (Z.of_nat (length c)) in
       mkTlp f ty tc th td ep at1 at2 le co st bc byc rq de tag fb lb lo ad rn d) by congruence.
    split; [constructor; [|auto]|].
    + rewrite Er, LC. apply new_req_legal; auto; try lia. cbv beta iota. rewrite D1, LC. reflexivity.
    + split.
      * rewrite <- (firstn_skipn (Z.to_nat n) data). fold c. constructor; auto.
        rewrite LC. exact T2.
      * constructor; [|auto]. rewrite Er.
        destruct (set_be_keeps (new_req true addr rq 0 attr tc) addr (Z.of_nat (length c))) as (_ & _ & _ & K & _).
        destruct (set_be _ addr _) as [x0 x1 x2 x3 x4 x5 x6 x7 x8 x9 y0 y1 y2 y3 y4 y5 y6 y7 y8 y9 z0 z1]. exact K.
  - destruct data; [|cbn [length] in Hl; lia]. eexists. split; [reflexivity|].
    split; [constructor|]. split; [constructor|constructor].
Qed.

Lemma carries_tiles a ts d : carries a ts d -> tiles a ts (a + Z.of_nat (length d)).
Proof.
  induction 1 as [a|a t ts d d' Hn Ht Hb Hc IH].
  - rewrite Z.add_0_r. constructor.
  - rewrite app_length, Nat2Z.inj_add, Z.add_assoc. econstructor; eauto.
    destruct d; [congruence|cbn [length]; lia].
Qed.
Lemma carries_inj a ts d : carries a ts d -> forall b i, (i < length d)%nat -> b = a + Z.of_nat i ->
  exists pre t post, ts = pre ++ t :: post /\ touches t b = true /\ byte_at t b = nth i d 0 /\
   Forall (fun t => touches t b = false) (pre ++ post).
Proof.
  induction 1 as [a|a t ts d d' Hn Ht Hb Hc IH]; intros b i Hi E; [cbn in Hi; lia|].
  assert (F : forall b, b < a + Z.of_nat (length d) -> Forall (fun t => touches t b = false) ts).
  { clear - Hc. intros b Hb. remember (a + Z.of_nat (length d)) as s. clear Heqs.
    revert b Hb. induction Hc as [s|s t ts d1 d2 Hn Ht Hb Hc IH]; intros b Hs; constructor.
    - destruct (touches t b) eqn:E; [|auto]. apply Ht in E. lia.
    - apply IH. lia. }
  rewrite app_length in Hi. destruct (Nat.ltb_spec i (length d)) as [H|H].
  - exists [], t, ts. split; [reflexivity|]. split; [apply Ht; lia|].
    split; [rewrite app_nth1 by auto; subst b; auto|]. apply F. lia.
  - destruct (IH b (i - length d)%nat) as (pre & t' & post & -> & A & B & C); [lia|lia|].
    exists (t :: pre), t', post. split; [reflexivity|]. split; [auto|].
    split; [rewrite app_nth2 by auto; auto|]. constructor; [|auto].
    destruct (touches t b) eqn:Q; [apply Ht in Q; lia|auto].
Qed.

(** * Byte-enable scan *)
Lemma slice_length {A} (l : list A) a b : 0 <= a <= b -> b <= Z.of_nat (length l) ->
  Z.of_nat (length (slice l a b)) = b - a.
Proof. intros. unfold slice. rewrite firstn_length, skipn_length. lia. Qed.
Lemma nth_firstn' {A} (l : list A) n i d : (i < n)%nat -> nth i (firstn n l) d = nth i l d.
Proof.
  revert n i. induction l as [|x l IH]; intros n i H.
  - rewrite firstn_nil. reflexivity.
  - destruct n; [lia|]. destruct i; [reflexivity|]. cbn. apply IH. lia.
Qed.
Lemma nth_skipn' {A} (l : list A) n i d : nth i (skipn n l) d = nth (n + i) l d.
Proof.
  revert l. induction n as [|n IH]; intros l; [reflexivity|].
  destruct l as [|x l]; cbn [skipn Nat.add nth]; [destruct i; reflexivity|apply IH].
Qed.
Lemma slice_nth {A} (l : list A) a b i d : 0 <= a -> 0 <= i < b - a ->
  nth (Z.to_nat i) (slice l a b) d = nth (Z.to_nat (a + i)) l d.
Proof.
  intros. unfold slice. rewrite nth_firstn' by lia. rewrite nth_skipn'. f_equal. lia.
Qed.

Definition wrs (f : Z -> Z) (base : Z) (ws : list (Z * list Z)) : Z -> Z :=
  fold_left (fun f w => wr f (base + fst w) (snd w)) ws f.

(** Writes made so far, with [o] bytes scanned and the run [s .. o-1] pending. *)
Definition scan_inv (f : Z -> Z) (base : Z) (en : Z -> bool) (data : list Z) (st : scan_st) : Prop :=
  let '(start, o, w) := st in
  let s := match start with Some s => s | None => o end in
  0 <= s <= o /\ (forall i, s <= i < o -> en i = true) /\
  (match start with Some _ => s < o | None => True end) /\
  (forall b, wrs f base w b = if (0 <=? b - base) && (b - base <? s) && en (b - base)
                              then nth (Z.to_nat (b - base)) data 0 else f b) /\
  Forall (fun x => 0 <= fst x /\ fst x + Z.of_nat (length (snd x)) <= s /\ snd x <> [] /\
     (forall i, fst x <= i < fst x + Z.of_nat (length (snd x)) -> en i = true)) w.

Lemma scan_flush f base en data s o w : 
  scan_inv f base en data (Some s, o, w) -> o <= Z.of_nat (length data) ->
  (forall b, wrs f base (w ++ [(s, slice data s o)]) b =
     if (0 <=? b - base) && (b - base <? o) && en (b - base)
     then nth (Z.to_nat (b - base)) data 0 else f b) /\
  Forall (fun x => 0 <= fst x /\ fst x + Z.of_nat (length (snd x)) <= o /\ snd x <> [] /\
     (forall i, fst x <= i < fst x + Z.of_nat (length (snd x)) -> en i = true))
    (w ++ [(s, slice data s o)]).
Proof.
  intros (H1 & H2 & H3 & H4 & H5) Hl. cbv iota beta in H1, H2, H3, H4, H5. assert (SL := slice_length data (conj (proj1 H1) (proj2 H1)) Hl).
  split.
  - intros b. unfold wrs. rewrite fold_left_app. cbn [fold_left fst snd].
    change (fold_left _ w f) with (wrs f base w). unfold wr. rewrite SL, H4.
    destruct ((base + s <=? b) && (b <? base + s + (o - s)))%bool eqn:E.
    + rewrite slice_nth by lia.
      replace (s + (b - (base + s))) with (b - base) by lia.
      rewrite (H2 (b - base)) by lia.
      replace ((0 <=? b - base) && (b - base <? o) && true)%bool with true by lia. reflexivity.
    + destruct (en (b - base)) eqn:En.
      * replace (b - base <? o) with (b - base <? s) by lia. reflexivity.
      * rewrite !andb_false_r. reflexivity.
  - apply Forall_app. split.
    + eapply Forall_impl; [|exact H5]. cbv beta. intros x (Q1 & Q2 & Q3). split; [lia|split; [lia|auto]].
    + constructor; [|constructor]. cbn [fst snd]. rewrite SL.
      split; [lia|]. split; [lia|]. split; [intros E; rewrite E in SL; cbn in SL; lia|]. intros i Hi. apply H2. lia.
Qed.

Lemma be_step_inv f base en data mask st k :
  scan_inv f base en data st -> en (snd (fst st)) = Z.testbit mask k ->
  snd (fst st) < Z.of_nat (length data) ->
  scan_inv f base en data (be_step data mask st k) /\
  snd (fst (be_step data mask st k)) = snd (fst st) + 1.
Proof.
  destruct st as [[start o] w]. cbn [fst snd]. intros H He Hl.
  pose proof H as (H1 & H2 & H3 & H4 & H5). cbv iota beta in H1, H2, H3, H4, H5.
  unfold be_step. rewrite <- He. destruct (en o) eqn:En; split; try reflexivity.
  - unfold scan_inv. destruct start as [s|].
    + split; [lia|]. split; [|split; [lia|split; auto]].
      intros i Hi. destruct (Z.eqb_spec i o) as [->|]; [auto|apply H2; lia].
    + split; [lia|]. split; [|split; [lia|split; auto]].
      intros i Hi. replace i with o by lia. auto.
  - unfold scan_inv. split; [destruct start; lia|]. split; [intros; lia|]. split; [auto|].
    destruct start as [s|].
    + replace (negb (o =? s)) with true by (clear - H3; lia).
      destruct (@scan_flush _ _ _ _ _ _ _ H ltac:(lia)) as (F1 & F2). split.
      * intros b. rewrite F1. destruct (Z.eqb_spec (b - base) o) as [Q|Q].
        -- rewrite Q, En, !andb_false_r. reflexivity.
        -- replace (b - base <? o + 1) with (b - base <? o) by lia. reflexivity.
      * eapply Forall_impl; [|exact F2]. cbv beta. intros x (Q1 & Q2 & Q3). split; [lia|split; [lia|auto]].
    + split.
      * intros b. rewrite H4. destruct (Z.eqb_spec (b - base) o) as [Q|Q].
        -- rewrite Q, En, !andb_false_r. reflexivity.
        -- replace (b - base <? o + 1) with (b - base <? o) by lia. reflexivity.
      * eapply Forall_impl; [|exact H5]. cbv beta. intros x (Q1 & Q2 & Q3). split; [lia|split; [lia|auto]].
Qed.

Lemma be_steps_inv f base en data mask : forall ks st,
  scan_inv f base en data st ->
  (forall j k, nth_error ks j = Some k -> en (snd (fst st) + Z.of_nat j) = Z.testbit mask k) ->
  snd (fst st) + Z.of_nat (length ks) <= Z.of_nat (length data) ->
  scan_inv f base en data (fold_left (be_step data mask) ks st) /\
  snd (fst (fold_left (be_step data mask) ks st)) = snd (fst st) + Z.of_nat (length ks).
Proof.
  induction ks as [|k ks IH]; intros st H He Hl; cbn [fold_left length] in *; [split; [auto|lia]|].
  destruct (@be_step_inv f base en data mask st k H) as (A & B).
  - specialize (He 0%nat k eq_refl). rewrite Z.add_0_r in He. exact He.
  - lia.
  - destruct (IH _ A) as (C & D).
    + intros j k' Hj. rewrite B. specialize (He (S j) k' Hj). rewrite <- He. f_equal. lia.
    + rewrite B. lia.
    + split; [exact C|]. rewrite D, B. lia.
Qed.

Lemma four_masks (P : Z -> bool) mask o : 
  (forall k, 0 <= k < 4 -> P (o + k) = Z.testbit mask k) ->
  forall j k, nth_error [0; 1; 2; 3] j = Some k -> P (o + Z.of_nat j) = Z.testbit mask k.
Proof.
  intros H j k E. destruct j as [|[|[|[|j]]]]; cbn in E; try (injection E as <-; apply H; lia).
  destruct j; discriminate.
Qed.

Lemma be_writes_ok f base t : 1 <= t_length t -> t_length t = Z.of_nat (length (t_data t)) ->
  (forall b, wrs f base (be_writes t) b =
     if enabled t (b - base) then nth (Z.to_nat (b - base)) (get_data t) 0 else f b) /\
  Forall (fun x => 0 <= fst x /\ fst x + Z.of_nat (length (snd x)) <= 4 * t_length t /\ snd x <> [] /\
     (forall i, fst x <= i < fst x + Z.of_nat (length (snd x)) -> enabled t i = true)) (be_writes t).
Proof.
  intros H1 H2.
  assert (LD : Z.of_nat (length (get_data t)) = 4 * t_length t) by (rewrite get_data_length; lia).
  set (en := enabled t).
  assert (I0 : scan_inv f base en (get_data t) (None, 0, [])).
  { unfold scan_inv. split; [lia|]. split; [intros; lia|]. split; [auto|]. split; [|constructor].
    intros b. replace ((0 <=? b - base) && (b - base <? 0))%bool with false by lia. reflexivity. }
  assert (Efirst : forall k, 0 <= k < 4 -> en (0 + k) = Z.testbit (t_first_be t) k).
  { intros k Hk. unfold en, enabled. rewrite Z.add_0_l.
    replace ((0 <=? k) && (k <? 4 * t_length t))%bool with true by lia.
    replace (k <? 4) with true by lia. reflexivity. }
  assert (Emid : forall i, 4 <= i < 4 * (t_length t - 1) -> en i = true).
  { intros i Hi. unfold en, enabled.
    replace ((0 <=? i) && (i <? 4 * t_length t))%bool with true by lia.
    replace (i <? 4) with false by lia. replace (i <? 4 * (t_length t - 1)) with true by lia. reflexivity. }
  assert (Elast : 1 < t_length t -> forall k, 0 <= k < 4 ->
     en (4 * (t_length t - 1) + k) = Z.testbit (t_last_be t) k).
  { intros Hl k Hk. unfold en, enabled.
    replace ((0 <=? 4 * (t_length t - 1) + k) && (4 * (t_length t - 1) + k <? 4 * t_length t))%bool with true by lia.
    replace (4 * (t_length t - 1) + k <? 4) with false by lia.
    replace (4 * (t_length t - 1) + k <? 4 * (t_length t - 1)) with false by lia.
    replace ((4 * (t_length t - 1) + k) mod 4) with k; [reflexivity|].
    rewrite Z.add_comm, Z.mul_comm, Z.mod_add by lia. symmetry. apply Z.mod_small. lia. }
  unfold be_writes.
  destruct (@be_steps_inv f base en (get_data t) (t_first_be t) [0;1;2;3] (None, 0, []) I0) as (I1 & O1).
  { apply (four_masks en (t_first_be t) 0). exact Efirst. }
  { cbn [length fst snd]. lia. }
  cbv zeta. change (snd (fst (None, 0, @nil (Z * list Z)))) with 0 in O1. change (0 + Z.of_nat (length [0;1;2;3])) with 4 in O1.
  set (st1 := fold_left (be_step (get_data t) (t_first_be t)) [0;1;2;3] (None, 0, [])) in *. clearbody st1.
  assert (FIN : forall st, scan_inv f base en (get_data t) st -> snd (fst st) = 4 * t_length t ->
    let W := let '(start, offset, w) := st in
     match start with
     | Some s => if negb (offset =? s) then w ++ [(s, slice (get_data t) s offset)] else w
     | None => w end in
    (forall b, wrs f base W b = if en (b - base) then nth (Z.to_nat (b - base)) (get_data t) 0 else f b) /\
    Forall (fun x => 0 <= fst x /\ fst x + Z.of_nat (length (snd x)) <= 4 * t_length t /\ snd x <> [] /\
     (forall i, fst x <= i < fst x + Z.of_nat (length (snd x)) -> en i = true)) W).
  { intros [[start o] w] I O. cbn [fst snd] in O. subst o. cbv zeta.
    assert (Eout : forall b, ((0 <=? b - base) && (b - base <? 4 * t_length t) && en (b - base))%bool = en (b - base)).
    { intros b. unfold en, enabled. destruct ((0 <=? b - base) && (b - base <? 4 * t_length t))%bool; reflexivity. }
    destruct start as [s|].
    - pose proof I as (J1 & J2 & J3 & J4 & J5). replace (negb (4 * t_length t =? s)) with true by (clear - J3; lia).
      destruct (@scan_flush _ _ _ _ _ _ _ I ltac:(lia)) as (F1 & F2). split; [|exact F2].
      intros b. rewrite F1, Eout. reflexivity.
    - pose proof I as (J1 & J2 & J3 & J4 & J5). split; [|exact J5].
      intros b. rewrite J4, Eout. reflexivity. }
  apply FIN.
  - destruct (Z.gtb_spec (t_length t) 2) as [G2|G2].
    + destruct st1 as [[start o] w]. cbn [fst snd] in O1. subst o.
      replace (t_length t >? 1) with true by lia.
      set (st2 := (match start with Some s => Some s | None => Some 4 end, 4 + (t_length t - 2) * 4, w)).
      assert (I2 : scan_inv f base en (get_data t) st2).
      { destruct I1 as (J1 & J2 & J3 & J4 & J5). unfold st2, scan_inv. destruct start as [s|].
        - split; [lia|]. split; [|split; [lia|split; auto]].
          intros i Hi. destruct (Z.ltb_spec i 4); [apply J2; lia|apply Emid; lia].
        - split; [lia|]. split; [|split; [lia|split; auto]]. intros i Hi. apply Emid. lia. }
      apply be_steps_inv; [exact I2| |cbn [length]; unfold st2; cbn [fst snd]; lia].
      apply (four_masks en (t_last_be t)). unfold st2. cbn [fst snd].
      intros k Hk. replace (4 + (t_length t - 2) * 4 + k) with (4 * (t_length t - 1) + k) by lia. apply Elast; lia.
    + destruct (Z.gtb_spec (t_length t) 1) as [G1|G1]; [|exact I1].
      apply be_steps_inv; [exact I1| |cbn [length]; lia].
      apply (four_masks en (t_last_be t)). rewrite O1.
      intros k Hk. replace (4 + k) with (4 * (t_length t - 1) + k) by lia. apply Elast; lia.
  - destruct (Z.gtb_spec (t_length t) 2) as [G2|G2].
    + destruct st1 as [[start o] w]. cbn [fst snd] in O1. subst o.
      replace (t_length t >? 1) with true by lia.
      set (st2 := (match start with Some s => Some s | None => Some 4 end, 4 + (t_length t - 2) * 4, w)).
      assert (I2 : scan_inv f base en (get_data t) st2).
      { destruct I1 as (J1 & J2 & J3 & J4 & J5). unfold st2, scan_inv. destruct start as [s|].
        - split; [lia|]. split; [|split; [lia|split; auto]].
          intros i Hi. destruct (Z.ltb_spec i 4); [apply J2; lia|apply Emid; lia].
        - split; [lia|]. split; [|split; [lia|split; auto]]. intros i Hi. apply Emid. lia. }
      destruct (@be_steps_inv f base en (get_data t) (t_last_be t) [0;1;2;3] st2 I2) as (_ & O2).
      { apply (four_masks en (t_last_be t)). unfold st2. cbn [fst snd].
        intros k Hk. replace (4 + (t_length t - 2) * 4 + k) with (4 * (t_length t - 1) + k) by lia. apply Elast; lia. }
      { cbn [length]. unfold st2. cbn [fst snd]. lia. }
      rewrite O2. unfold st2. cbn [fst snd length]. lia.
    + destruct (Z.gtb_spec (t_length t) 1) as [G1|G1]; [|lia].
      destruct (@be_steps_inv f base en (get_data t) (t_last_be t) [0;1;2;3] st1 I1) as (_ & O2).
      { apply (four_masks en (t_last_be t)). rewrite O1.
        intros k Hk. replace (4 + k) with (4 * (t_length t - 1) + k) by lia. apply Elast; lia. }
      { cbn [length]. lia. }
      rewrite O2, O1. cbn [length]. lia.
Qed.

(** * Memory behind the completer *)
Lemma splice_length {A} (l : list A) a d : 0 <= a -> a + Z.of_nat (length d) <= Z.of_nat (length l) ->
  length (splice l a d) = length l.
Proof. intros. unfold splice. rewrite !app_length, firstn_length, skipn_length. lia. Qed.
Lemma splice_at mem a d b : 0 <= a -> a + Z.of_nat (length d) <= Z.of_nat (length mem) ->
  at_ (splice mem a d) b = wr (at_ mem) a d b.
Proof.
  intros Ha Hl. unfold at_, wr, splice. destruct (Z.leb_spec 0 b) as [Hb|Hb].
  2:{ replace ((a <=? b) && (b <? a + Z.of_nat (length d)))%bool with false by lia. reflexivity. }
  destruct (Z.ltb_spec b a) as [H|H].
  - replace ((a <=? b) && (b <? a + Z.of_nat (length d)))%bool with false by lia.
    rewrite app_nth1 by (rewrite firstn_length; lia). apply nth_firstn'. lia.
  - rewrite app_nth2 by (rewrite firstn_length; lia). rewrite firstn_length_le by lia.
    destruct (Z.ltb_spec b (a + Z.of_nat (length d))) as [H2|H2].
    + replace ((a <=? b) && true)%bool with true by lia. rewrite app_nth1 by lia. f_equal. lia.
    + rewrite andb_false_r. rewrite app_nth2 by lia. rewrite nth_skipn'. f_equal. lia.
Qed.

Lemma at_ext m1 m2 : length m1 = length m2 -> (forall b, at_ m1 b = at_ m2 b) -> m1 = m2.
Proof.
  intros L H. apply (nth_ext _ _ 0 0 L). intros n Hn. specialize (H (Z.of_nat n)). unfold at_ in H.
  replace (0 <=? Z.of_nat n) with true in H by lia. rewrite Nat2Z.id in H. exact H.
Qed.

Lemma wrs_ext f g base ws : (forall b, f b = g b) -> forall b, wrs f base ws b = wrs g base ws b.
Proof.
  revert f g. induction ws as [|w ws IH]; intros f g H b; [apply H|]. cbn. apply IH.
  intros x. unfold wr. rewrite H. reflexivity.
Qed.

Lemma splices_at base : forall ws mem,
  Forall (fun w => 0 <= base + fst w /\ base + fst w + Z.of_nat (length (snd w)) <= Z.of_nat (length mem)) ws ->
  let mem' := fold_left (fun mem w => splice mem (base + fst w) (snd w)) ws mem in
  length mem' = length mem /\ forall b, at_ mem' b = wrs (at_ mem) base ws b.
Proof.
  induction ws as [|w ws IH]; intros mem H; [split; reflexivity|].
  inversion H as [|? ? (H1 & H2) H3]; subst. cbn [fold_left]. cbv zeta.
  pose proof (splice_length mem _ H1 H2) as SL.
  destruct (IH (splice mem (base + fst w) (snd w))) as (A & B).
  { rewrite SL. exact H3. }
  split; [rewrite A, SL; reflexivity|]. intros b. rewrite B. cbn. apply wrs_ext.
  intros x. apply splice_at; auto.
Qed.

(** One request on the memory behind a BAR. *)
Lemma ep_write_ok base mem t :
  1 <= t_length t -> t_length t = Z.of_nat (length (t_data t)) ->
  (forall b, touches t b = true -> base <= b < base + Z.of_nat (length mem)) ->
  4 * t_length t <= 4096 - (t_addr t - base) mod 4096 ->
  length (ep_mem_write base mem t) = length mem /\
  forall b, at_ (ep_mem_write base mem t) (b - base) =
    if touches t b then byte_at t b else at_ mem (b - base).
Proof.
  intros H1 H2 Hr Hp. unfold ep_mem_write. rewrite land_fff.
  replace (t_length t * 4 >? 4096 - (t_addr t - base) mod 4096) with false by lia.
  destruct (@be_writes_ok (at_ mem) (t_addr t - base) t H1 H2) as (W1 & W2).
  destruct (@splices_at (t_addr t - base) (be_writes t) mem) as (A & B).
  { eapply Forall_impl; [|exact W2]. cbv beta. intros x (Q1 & Q2 & Q3 & Q4).
    assert (L : 1 <= Z.of_nat (length (snd x))) by (destruct (snd x); [congruence|cbn [length]; lia]).
    pose proof (Q4 (fst x) ltac:(lia)) as E1. pose proof (Q4 (fst x + Z.of_nat (length (snd x)) - 1) ltac:(lia)) as E2.
    assert (F1 := Hr (t_addr t + fst x)). assert (F2 := Hr (t_addr t + (fst x + Z.of_nat (length (snd x)) - 1))).
    unfold touches in F1, F2. rewrite Z.add_simpl_l in F1, F2. specialize (F1 E1). specialize (F2 E2). lia. }
  split; [exact A|]. intros b. rewrite B, W1.
  unfold touches. replace (b - base - (t_addr t - base)) with (b - t_addr t) by lia.
  destruct (enabled t (b - t_addr t)) eqn:E; [|reflexivity].
  symmetry. apply byte_at_get_data. unfold enabled in E. rewrite <- H2. lia.
Qed.


Lemma page_off base mem t : page_ok base mem -> 1 <= t_length t -> t_addr t mod 4 = 0 -> base mod 4 = 0 ->
  Z.of_nat (length mem) mod 4 = 0 ->
  same_page (t_addr t) (4 * t_length t) -> base <= t_addr t -> t_addr t + 4 * t_length t <= base + Z.of_nat (length mem) ->
  4 * t_length t <= 4096 - (t_addr t - base) mod 4096.
Proof.
  unfold same_page. intros [H|H] L A B M S R1 R2.
  - assert (E : (t_addr t - base) mod 4096 = t_addr t mod 4096).
    { rewrite Zminus_mod, H, Z.sub_0_r, Z.mod_mod by lia. reflexivity. }
    rewrite E. clear - S L. Z.to_euclidean_division_equations; lia.
  - rewrite Z.mod_small by lia. lia.
Qed.

(** A legal request does not leave a dword-aligned memory that has the bytes it
    touches. *)
Lemma legal_dwords mx w t base size : legal_req mx w t ->
  (forall b, touches t b = true -> base <= b < base + size) ->
  base mod 4 = 0 -> size mod 4 = 0 ->
  base <= t_addr t /\ t_addr t + 4 * t_length t <= base + size.
Proof.
  intros (A & L & _ & _ & B1 & B2 & B3 & _) H Hb Hs.
  destruct (@first_off_spec t ltac:(lia) ltac:(lia) L) as (F1 & _).
  destruct (@last_off_spec t ltac:(lia) B2 L) as (L1 & _).
  { destruct (Z.eqb_spec (t_length t) 1); [lia|]. intros E. apply B3 in E. lia. }
  assert (R1 : 0 <= first_be_offset t <= 3).
  { unfold first_be_offset. repeat destruct (_ =? 0); lia. }
  assert (R2 : 0 <= last_be_offset t <= 3).
  { unfold last_be_offset. cbv zeta. repeat destruct (_ =? _); lia. }
  assert (T1 := H (t_addr t + first_be_offset t)). assert (T2 := H (t_addr t + (4 * t_length t - 1 - last_be_offset t))).
  unfold touches in T1, T2. rewrite Z.add_simpl_l in T1, T2. specialize (T1 F1). specialize (T2 L1).
  clear - A Hb Hs T1 T2 R1 R2. Z.to_euclidean_division_equations; lia.
Qed.

Lemma wr_app f a d d' b : wr (wr f a d) (a + Z.of_nat (length d)) d' b = wr f a (d ++ d') b.
Proof.
  unfold wr. rewrite app_length, Nat2Z.inj_add.
  destruct ((a + Z.of_nat (length d) <=? b) && (b <? a + Z.of_nat (length d) + Z.of_nat (length d')))%bool eqn:E1.
  - replace ((a <=? b) && (b <? a + (Z.of_nat (length d) + Z.of_nat (length d'))))%bool with true by lia.
    rewrite app_nth2 by lia. f_equal. lia.
  - destruct ((a <=? b) && (b <? a + Z.of_nat (length d)))%bool eqn:E2.
    + replace ((a <=? b) && (b <? a + (Z.of_nat (length d) + Z.of_nat (length d'))))%bool with true by lia.
      rewrite app_nth1 by lia. reflexivity.
    + replace ((a <=? b) && (b <? a + (Z.of_nat (length d) + Z.of_nat (length d'))))%bool with false by lia.
      reflexivity.
Qed.

(** A sequence of legal requests carrying [d] writes exactly [d]. *)
Lemma ep_writes_ok mx base : base mod 4 = 0 -> forall ts a d mem,
  carries a ts d -> Forall (legal_req mx true) ts ->
  Z.of_nat (length mem) mod 4 = 0 -> page_ok base mem ->
  base <= a -> a + Z.of_nat (length d) <= base + Z.of_nat (length mem) ->
  fold_left (ep_mem_write base) ts mem = splice mem (a - base) d.
Proof.
  intros Hb ts a d mem C. revert mem. induction C as [a|a t ts d d' Hn Ht Hd C IH]; intros mem L M P R1 R2.
  - cbn [fold_left]. unfold splice. cbn [app length]. rewrite Nat.add_0_r, firstn_skipn. reflexivity.
  - inversion L as [|? ? L1 L2]; subst. cbn [fold_left].
    rewrite app_length, Nat2Z.inj_add in R2.
    assert (TR : forall b, touches t b = true -> base <= b < base + Z.of_nat (length mem)).
    { intros b E. apply Ht in E. lia. }
    destruct (@legal_dwords mx true t base _ L1 TR Hb M) as (D1 & D2).
    pose proof L1 as (A & Le & _ & SP & _ & _ & _ & _ & HD & _ & CK).
    assert (LL : t_length t = Z.of_nat (length (t_data t))).
    { unfold tlp_check in CK. apply andb_true_iff in CK. destruct CK as (CK & _).
      apply andb_true_iff in CK. destruct CK as (CK & _). apply andb_true_iff in CK. destruct CK as (CK & _).
      unfold has_data in HD. rewrite HD in CK. lia. }
    destruct (@ep_write_ok base mem t Le LL TR) as (E1 & E2).
    { eapply page_off; eauto. }
    assert (P' : page_ok base (ep_mem_write base mem t)) by (unfold page_ok in *; rewrite E1; exact P).
    rewrite (IH _ L2) by (rewrite ?E1; auto; lia).
    assert (E3 : ep_mem_write base mem t = splice mem (a - base) d).
    { apply at_ext; [rewrite splice_length; lia|]. intros b.
      rewrite splice_at by lia. replace b with ((b + base) - base) by lia. rewrite E2.
      unfold wr. destruct (touches t (b + base)) eqn:E.
      - apply Ht in E. replace ((a - base <=? b + base - base) && (b + base - base <? a - base + Z.of_nat (length d)))%bool with true by lia.
        specialize (Hd (Z.to_nat (b + base - a)) ltac:(lia)). replace (a + Z.of_nat (Z.to_nat (b + base - a))) with (b + base) in Hd by lia.
        rewrite Hd. f_equal. lia.
      - replace ((a - base <=? b + base - base) && (b + base - base <? a - base + Z.of_nat (length d)))%bool with false; [reflexivity|].
        destruct (Z.leb_spec (a - base) (b + base - base)); destruct (Z.ltb_spec (b + base - base) (a - base + Z.of_nat (length d))); try reflexivity.
        assert (touches t (b + base) = true) by (apply Ht; lia). congruence. }
    rewrite E3. apply at_ext.
    + rewrite !splice_length; try lia; rewrite ?app_length, ?splice_length; lia.
    + intros b. rewrite (@splice_at mem _ (d ++ d')) by (rewrite ?app_length; lia).
      rewrite splice_at by (rewrite ?splice_length; lia).
      unfold wr at 1. rewrite splice_at by lia.
      pose proof (wr_app (at_ mem) (a - base) d d' b) as W. unfold wr at 1 in W.
      replace (a - base + Z.of_nat (length d)) with (a + Z.of_nat (length d) - base) in W by lia. exact W.
Qed.

(** * Completions *)
Lemma set_data_full t data d : dwords_of data = Ok d ->
  set_data t data = let '(mkTlp f ty tc th td ep at1 at2 _ co st bc byc rq de tag fb lb lo ad rn _) := t in
   Ok (mkTlp f ty tc th td ep at1 at2 (Z.of_nat (length d)) co st bc byc rq de tag fb lb lo ad rn d).
Proof. intros E. unfold set_data. rewrite E. reflexivity. Qed.

Lemma skipn_skipn {A} : forall n m (l : list A), skipn n (skipn m l) = skipn (n + m) l.
Proof.
  intros n m. revert n. induction m as [|m IH]; intros n l; [rewrite Nat.add_0_r; reflexivity|].
  rewrite Nat.add_succ_r. destruct l; cbn [skipn]; [rewrite skipn_nil; reflexivity|apply IH].
Qed.
Lemma slice_skip {A} (l : list A) a b c : 0 <= a -> 0 <= b -> slice (skipn (Z.to_nat a) l) b c = slice l (a + b) (a + c).
Proof.
  intros. unfold slice. rewrite skipn_skipn. f_equal; [lia|]. f_equal. lia.
Qed.

Lemma dwords_app x y : dwords (x ++ y) = dwords x + dwords y.
Proof. unfold dwords, sumz. induction x as [|c x IH]; cbn in *; lia. Qed.

(** The loop from dword [m] on: [a0] is the request address, [lo] the first byte. *)
Definition answers_from (mx : Z) (t : tlp) (id : pid) (lo cnt m : Z) (data : list Z) (cs : list tlp) : Prop :=
  dwords cs = t_length t - m /\ flat_map get_data cs = skipn (Z.to_nat (4 * m)) data /\
  forall pre c post, cs = pre ++ c :: post ->
    let from := 4 * (m + dwords pre) in
    let first := Z.max lo from in
    ft c = TLP_CPL_DATA /\ t_status c = 0 /\ t_requester c = t_requester t /\ t_tag c = t_tag t /\
    t_tc c = t_tc t /\ t_attr c = t_attr t /\ t_completer c = id /\
    1 <= t_length c /\ 4 * t_length c <= mx /\ t_length c = Z.of_nat (length (t_data c)) /\
    t_lower c = (t_addr t + first) mod 128 /\
    t_byte_count c = lo + cnt - first /\
    (post <> [] -> (t_addr t + from + 4 * t_length c) mod 128 = 0) /\
    tlp_check c = true.

Lemma cpl_loop_ok mps t id data : 0 <= mps -> t_addr t mod 4 = 0 -> bytes_ok data ->
  Z.of_nat (length data) = 4 * t_length t ->
  let lo := first_be_offset t in let cnt := be_byte_count t in
  0 <= lo < 4 -> 4 * t_length t - 4 < lo + cnt <= 4 * t_length t ->
  forall fuel m n addr, 0 <= m <= t_length t -> (Z.to_nat (t_length t - m) < fuel)%nat ->
  (n = Z.max lo (4 * m) - lo) -> addr = t_addr t + Z.max lo (4 * m) ->
  exists cs, cpl_loop fuel mps t id data m n addr = Ok cs /\
    (m < t_length t -> cs <> []) /\
    answers_from (Z.shiftl 128 mps) t id lo cnt m data cs.
Proof.
  intros Hm Ha Hb Hl lo cnt Hlo Hcnt. induction fuel as [|fuel IH]; intros m n addr Hmr Hf En Ea; [lia|].
  cbn [cpl_loop]. destruct (Z.ltb_spec m (t_length t)) as [HM|HM].
  2:{ exists []. split; [reflexivity|]. split; [lia|]. split; [cbn; lia|].
      split; [cbn [flat_map]; rewrite skipn_all2 by lia; reflexivity|].
      intros [|] c post E; discriminate. }
  fold cnt.
  assert (E32 : exists j, Z.shiftl 32 mps = 32 * j /\ Z.shiftl 128 mps = 128 * j /\ 1 <= j).
  { exists (2 ^ mps). rewrite !Z.shiftl_mul_pow2 by auto. pose proof (Z.pow_pos_nonneg 2 mps). lia. }
  destruct E32 as (j & J1 & J2 & J3). rewrite J1 in *.
  assert (E7c : Z.shiftr (Z.land addr 0x7c) 2 = (addr mod 128) / 4).
  { rewrite land_7c, Z.shiftr_div_pow2 by lia. change (2 ^ 2) with 4.
    clear. Z.to_euclidean_division_equations; lia. }
  rewrite E7c, land_3, land_7f.
  set (dw := if t_length t - m >? 32 * j then 32 * j - addr mod 128 / 4 else t_length t - m).
  assert (D1 : 1 <= dw <= t_length t - m).
  { subst dw. destruct (Z.gtb_spec (t_length t - m) (32 * j)); [|lia].
    clear - J3 H. Z.to_euclidean_division_equations; lia. }
  assert (D2 : dw <= 32 * j).
  { subst dw. destruct (Z.gtb_spec (t_length t - m) (32 * j)); [|lia].
    clear - J3 H. Z.to_euclidean_division_equations; lia. }
  assert (D3 : dw < t_length t - m -> (t_addr t + 4 * m + 4 * dw) mod 128 = 0).
  { subst dw. destruct (Z.gtb_spec (t_length t - m) (32 * j)); [|lia]. intros _.
    assert (Q : addr mod 128 / 4 = ((t_addr t + 4 * m) mod 128) / 4).
    { subst addr. destruct (Z.eq_dec m 0) as [->|Hm0].
      - replace (Z.max lo (4 * 0)) with lo by lia. clear - Ha Hlo. Z.to_euclidean_division_equations; lia.
      - replace (Z.max lo (4 * m)) with (4 * m) by lia. reflexivity. }
    rewrite Q. set (x := t_addr t + 4 * m).
    assert (X4 : 4 * (x mod 128 / 4) = x mod 128).
    { assert (X0 : x mod 4 = 0) by (subst x; clear - Ha; Z.to_euclidean_division_equations; lia).
      clearbody x. clear - X0. Z.to_euclidean_division_equations; lia. }
    replace (x + 4 * (32 * j - x mod 128 / 4)) with ((x / 128 + j) * 128) by (pose proof (Z.div_mod x 128); lia).
    apply Z.mod_mul. lia. }
  assert (A3 : addr mod 4 = Z.max lo (4 * m) - 4 * m).
  { subst addr. destruct (Z.eq_dec m 0) as [->|Hm0].
    - replace (Z.max lo (4 * 0)) with lo by lia. clear - Ha Hlo. Z.to_euclidean_division_equations; lia.
    - replace (Z.max lo (4 * m)) with (4 * m) by lia. clear - Ha. Z.to_euclidean_division_equations; lia. }
  set (sl := slice data (m * 4) ((m + dw) * 4)).
  assert (SL : Z.of_nat (length sl) = 4 * dw) by (subst sl; rewrite slice_length; lia).
  destruct (@dwords_of_ok sl) as (d & Ed & Ef & Eln).
  { replace (length sl) with (4 * Z.to_nat dw)%nat by lia. rewrite Nat.mul_comm. apply Nat.mod_mul. lia. }
  { apply firstn_ok, skipn_ok. auto. }
  assert (LD : Z.of_nat (length d) = dw) by lia.
  destruct (IH (m + dw) (n + (dw * 4 - addr mod 4)) (addr + (dw * 4 - addr mod 4))) as (cs & EC & _ & C1 & C2 & C3);
    [lia|lia|rewrite A3, En; clear - Hlo D1 Hmr; lia|rewrite A3, Ea; clear - Hlo D1 Hmr; lia|].
  unfold cpl_data_for. destruct t as [x0 x1 x2 x3 x4 x5 x6 x7 x8 x9 y0 y1 y2 y3 y4 y5 y6 y7 y8 y9 z0 z1] eqn:Et.
  rewrite <- Et in *. cbv zeta iota. rewrite (@set_data_full _ _ _ Ed). cbn [bind]. rewrite EC. cbn [bind].
  eexists. split; [reflexivity|]. split; [intros; discriminate|]. split; [|split].
  - change (dwords (?c :: cs)) with (t_length c + dwords cs). cbn [t_length]. lia.
  - cbn [flat_map]. unfold get_data at 1. cbn [t_data]. rewrite Ef, C2. subst sl. unfold slice.
    replace (Z.to_nat (4 * (m + dw))) with (Z.to_nat ((m + dw) * 4 - m * 4) + Z.to_nat (m * 4))%nat by lia.
    rewrite <- skipn_skipn, firstn_skipn. f_equal. lia.
  - intros pre c post Epc. destruct pre as [|p pre].
    + cbn [app] in Epc. injection Epc as Ec Ep. cbv zeta. change (dwords []) with 0. rewrite Z.add_0_r.
      assert (Q1 : t_length c = dw) by (subst c; exact LD).
      assert (Q2 : t_lower c = (t_addr t + Z.max lo (4 * m)) mod 128) by (subst c; cbn [t_lower]; rewrite Ea; reflexivity).
      assert (Q3 : t_byte_count c = cnt - n) by (subst c; reflexivity).
      split; [subst c; reflexivity|]. split; [subst c; reflexivity|].
      split; [subst c t; reflexivity|]. split; [subst c t; reflexivity|]. split; [subst c t; reflexivity|].
      split; [subst c t; reflexivity|]. split; [subst c; reflexivity|].
      split; [lia|]. split; [lia|]. split; [subst c; reflexivity|]. split; [exact Q2|].
      split; [rewrite Q3, En; lia|].
      split.
      * intros Hpost. rewrite Q1. apply D3. subst post. destruct cs as [|c' cs]; [congruence|].
        clear - C1 C3. pose proof (C3 [] c' cs eq_refl) as (_ & _ & _ & _ & _ & _ & _ & X & _).
        change (dwords (c' :: cs)) with (t_length c' + dwords cs) in C1.
        assert (0 <= dwords cs); [|lia].
        assert (HH : forall c, In c cs -> 1 <= t_length c).
        { intros c Hc. apply in_split in Hc. destruct Hc as (l1 & l2 & ->).
          pose proof (C3 (c' :: l1) c l2 eq_refl) as (_ & _ & _ & _ & _ & _ & _ & Y & _). exact Y. }
        clear - HH. unfold dwords, sumz. induction cs as [|c cs IH]; cbn; [lia|].
        pose proof (HH c (or_introl eq_refl)). specialize (IH (fun x Hx => HH x (or_intror Hx))). lia.
      * assert (QL : t_lower c mod 4 = Z.max lo (4 * m) - 4 * m).
        { rewrite Q2, <- A3, Ea. clear. Z.to_euclidean_division_equations; lia. }
        unfold tlp_check. rewrite land_3, QL, Q3, Q1, En.
        replace (t_length c) with dw. 
        assert (QF : ft c = TLP_CPL_DATA) by (subst c; reflexivity).
        assert (QD : Z.of_nat (length (t_data c)) = dw) by (subst c; exact LD).
        rewrite QD. unfold isft. rewrite QF.
        assert (QFM : t_fmt c = FMT_3DW_DATA) by (subst c; reflexivity). rewrite QFM.
        replace (cnt - (Z.max lo (4 * m) - lo) + (Z.max lo (4 * m) - 4 * m) + 3 <? dw * 4) with false
          by (clear - Hcnt D1 Hlo; lia).
        cbn. rewrite Z.eqb_refl. reflexivity.
    + cbn [app] in Epc. injection Epc as Ec Ep. specialize (C3 _ _ _ Ep). cbv zeta in *.
      assert (Q1 : t_length p = dw) by (subst p; exact LD).
      change (dwords (p :: pre)) with (t_length p + dwords pre). rewrite Q1.
      replace (m + (dw + dwords pre)) with (m + dw + dwords pre) by lia. exact C3.
Qed.

Lemma first_off_range t : 0 <= first_be_offset t < 4.
Proof. unfold first_be_offset. cbv zeta. repeat destruct (_ =? 0); lia. Qed.
Lemma last_off_range t : 0 <= last_be_offset t < 4.
Proof. unfold last_be_offset. cbv zeta. repeat destruct (_ =? _); lia. Qed.

(** What the byte enables of a legal request say, given the bytes it touches. *)
Lemma legal_offsets mx w t a n : legal_req mx w t -> 1 <= n ->
  (forall b, touches t b = true <-> a <= b < a + n) ->
  first_be_offset t = a - t_addr t /\ be_byte_count t = n.
Proof.
  intros (A & L & _ & _ & B1 & B2 & B3 & _) Hn Ht.
  destruct (@byte_count_spec t ltac:(lia) B2 L ltac:(lia)) as (lo & hi & H1 & H2 & H3 & H4 & H5).
  { intros Q E. apply B3 in E. lia. }
  assert (T1 := Ht (t_addr t + lo)). assert (T2 := Ht (t_addr t + hi)).
  assert (T3 := Ht a). assert (T4 := Ht (a + n - 1)).
  unfold touches in *. rewrite Z.add_simpl_l in T1, T2. rewrite T1 in H1. rewrite T2 in H2.
  assert (T3' := H3 _ (proj2 T3 ltac:(lia))). assert (T4' := H3 _ (proj2 T4 ltac:(lia))). lia.
Qed.

Lemma completions_ok mps mx w t id data a n : 0 <= mps -> legal_req mx w t -> 1 <= n ->
  (forall b, touches t b = true <-> a <= b < a + n) ->
  bytes_ok data -> Z.of_nat (length data) = 4 * t_length t ->
  exists cs, completions mps t id data = Ok cs /\
    answers (Z.shiftl 128 mps) t id (a - t_addr t) n data cs.
Proof.
  intros Hm HL Hn Ht Hb Hl. destruct (@legal_offsets mx w t a n HL Hn Ht) as (F & B).
  pose proof HL as (A & L & _).
  pose proof (first_off_range t) as R1. pose proof (last_off_range t) as R2.
  destruct (@cpl_loop_ok mps t id data Hm A Hb Hl) with (fuel := S (Z.to_nat (t_length t))) (m := 0) (n := 0)
    (addr := t_addr t + first_be_offset t) as (cs & E & N & C1 & C2 & C3); try lia.
  - unfold be_byte_count. lia.
  - exists cs. split; [exact E|]. split; [apply N; lia|]. split; [lia|]. split; [exact C2|].
    intros pre c post Epc. specialize (C3 _ _ _ Epc). cbv zeta in *. rewrite Z.add_0_l, F, B in C3. exact C3.
Qed.

(** For any byte enables (contiguous or not), as long as they are not empty. *)
Lemma completions_be mps t id data : 0 <= mps -> t_addr t mod 4 = 0 -> 1 <= t_length t ->
  bytes_ok data -> Z.of_nat (length data) = 4 * t_length t ->
  exists cs, completions mps t id data = Ok cs /\
    answers (Z.shiftl 128 mps) t id (first_be_offset t) (be_byte_count t) data cs.
Proof.
  intros Hm A L Hb Hl.
  pose proof (first_off_range t) as R1. pose proof (last_off_range t) as R2.
  destruct (@cpl_loop_ok mps t id data Hm A Hb Hl) with (fuel := S (Z.to_nat (t_length t))) (m := 0) (n := 0)
    (addr := t_addr t + first_be_offset t) as (cs & E & N & C1 & C2 & C3); try lia.
  - unfold be_byte_count. lia.
  - exists cs. split; [exact E|]. split; [apply N; lia|]. split; [lia|]. split; [exact C2|].
    intros pre c post Epc. specialize (C3 _ _ _ Epc). cbv zeta in *. rewrite Z.add_0_l in C3. exact C3.
Qed.

(** * Reassembly *)
Lemma dwords_nonneg cs : (forall c, In c cs -> 1 <= t_length c) -> 0 <= dwords cs.
Proof.
  unfold dwords, sumz. induction cs as [|c cs IH]; cbn; intros H; [lia|].
  pose proof (H c (or_introl eq_refl)). specialize (IH (fun x Hx => H x (or_intror Hx))). lia.
Qed.

Lemma skipn_flat cs : forall pre, (forall c, In c pre -> t_length c = Z.of_nat (length (t_data c))) ->
  skipn (Z.to_nat (4 * dwords pre)) (flat_map get_data (pre ++ cs)) = flat_map get_data cs.
Proof.
  induction pre as [|p pre IH]; intros H; [reflexivity|].
  pose proof (H p (or_introl eq_refl)) as HP. specialize (IH (fun x Hx => H x (or_intror Hx))).
  change (dwords (p :: pre)) with (t_length p + dwords pre). cbn [app flat_map].
  assert (0 <= dwords pre). 
  { clear - H. assert (HH : forall c, In c pre -> 0 <= t_length c) by (intros c Hc; rewrite (H c (or_intror Hc)); lia).
    clear H. unfold dwords, sumz. induction pre as [|c pre IH]; cbn; [lia|].
    pose proof (HH c (or_introl eq_refl)). specialize (IH (fun x Hx => HH x (or_intror Hx))). lia. }
  replace (Z.to_nat (4 * (t_length p + dwords pre))) with
    (Z.to_nat (4 * dwords pre) + length (get_data p))%nat by (rewrite get_data_length; lia).
  rewrite <- skipn_skipn. rewrite skipn_app, skipn_all, Nat.sub_diag. cbn [app skipn]. exact IH.
Qed.

Lemma slice_split {A} (l : list A) a b c : 0 <= a <= b -> b <= c ->
  slice l a b ++ slice l b c = slice l a c.
Proof.
  intros H1 H2. unfold slice.
  replace (skipn (Z.to_nat b) l) with (skipn (Z.to_nat (b - a)) (skipn (Z.to_nat a) l))
    by (rewrite skipn_skipn; f_equal; lia).
  generalize (skipn (Z.to_nat a) l). intros m.
  replace (Z.to_nat (c - a)) with (Z.to_nat (b - a) + Z.to_nat (c - b))%nat by lia.
  rewrite <- (firstn_skipn (Z.to_nat (b - a)) m) at 3.
  destruct (Nat.le_gt_cases (length m) (Z.to_nat (b - a))) as [H|H].
  - rewrite !(skipn_all2 m) by lia. rewrite firstn_nil, !app_nil_r.
    rewrite !firstn_all2; auto; rewrite ?firstn_length; lia.
  - rewrite firstn_app. rewrite (firstn_all2 (firstn _ m)) by (rewrite firstn_length; lia).
    f_equal. f_equal. rewrite firstn_length. lia.
Qed.

Lemma slice_empty {A} (l : list A) a b : b <= a -> slice l a b = [].
Proof. intros. unfold slice. replace (Z.to_nat (b - a)) with 0%nat by lia. reflexivity. Qed.

Lemma read_cpls_ok mx t id lo cnt data cs : t_addr t mod 4 = 0 -> 0 <= lo < 4 -> 1 <= cnt ->
  4 * t_length t - 4 < lo + cnt <= 4 * t_length t ->
  answers mx t id lo cnt data cs ->
  read_cpls cs cnt 0 = Ok (slice data lo (lo + cnt)).
Proof.
  intros Ha Hlo Hcnt Hend (Hne & Hdw & Hdata & H).
  assert (HIN : forall c, In c cs -> 1 <= t_length c /\ t_length c = Z.of_nat (length (t_data c))).
  { intros c Hc. apply in_split in Hc. destruct Hc as (l1 & l2 & E). destruct (H _ _ _ E) as (_&_&_&_&_&_&_&X&_&Y&_). auto. }
  assert (G : forall post pre, cs = pre ++ post ->
    read_cpls post cnt (Z.max lo (4 * dwords pre) - lo) =
    Ok (slice data (Z.max lo (4 * dwords pre)) (lo + cnt))).
  2:{ specialize (G cs [] eq_refl). change (dwords []) with 0 in G.
      replace (Z.max lo (4 * 0) - lo) with 0 in G by lia. replace (Z.max lo (4 * 0)) with lo in G by lia. exact G. }
  induction post as [|c post IH]; intros pre E.
  - rewrite app_nil_r in E. subst pre. rewrite Hdw. cbn [read_cpls].
    replace (Z.max lo (4 * t_length t) - lo <? cnt) with false by lia.
    rewrite slice_empty by lia. reflexivity.
  - assert (PN : 0 <= dwords pre).
    { apply dwords_nonneg. intros x Hx. apply HIN. rewrite E. apply in_or_app. auto. }
    destruct (H pre c post E) as (F1 & F2 & _ & _ & _ & _ & _ & F3 & F4 & F5 & F6 & F7 & F8 & F9).
    assert (PL : dwords pre + t_length c + dwords post = t_length t).
    { rewrite <- Hdw, E, dwords_app. change (dwords (c :: post)) with (t_length c + dwords post). lia. }
    assert (PN2 : 0 <= dwords post).
    { apply dwords_nonneg. intros x Hx. apply HIN. rewrite E. apply in_or_app. cbn. auto. }
    cbn [read_cpls].
    set (first := Z.max lo (4 * dwords pre)) in *.
    replace (first - lo <? cnt) with true by lia.
    rewrite F2. cbn [Z.eqb negb].
    assert (QL : Z.land (t_lower c) 3 = first - 4 * dwords pre).
    { rewrite land_3, F6. clear IH H. subst first.
      destruct (Z.leb_spec lo (4 * dwords pre)).
      - rewrite Z.max_r by lia. clear - Ha. Z.to_euclidean_division_equations; lia.
      - replace (dwords pre) with 0 in * by lia. rewrite Z.max_l by lia.
        clear - Ha Hlo. Z.to_euclidean_division_equations; lia. }
    rewrite QL, F7.
    replace (lo + cnt - first + 3 + (first - 4 * dwords pre) >=? t_length c * 4) with true by (clear - PL PN2 Hend; lia).
    replace (lo + cnt - first =? cnt - (first - lo)) with true by lia.
    replace (Z.of_nat (length (t_data c)) <? t_length c) with false by lia. cbn [negb].
    rewrite firstn_all2 by lia. fold (get_data c).
    assert (GL : Z.of_nat (length (get_data c)) = 4 * t_length c) by (rewrite get_data_length; lia).
    assert (DP : dwords (pre ++ [c]) = dwords pre + t_length c).
    { rewrite dwords_app. change (dwords [c]) with (t_length c + 0). lia. }
    assert (FN : Z.max lo (4 * dwords (pre ++ [c])) = 4 * (dwords pre + t_length c)) by (rewrite DP; lia).
    replace (first - lo + Z.of_nat (length (get_data c)) - (first - 4 * dwords pre))
      with (Z.max lo (4 * dwords (pre ++ [c])) - lo) by (rewrite FN; lia).
    rewrite (IH (pre ++ [c])) by (rewrite <- app_assoc; exact E). cbn [bind]. f_equal. rewrite FN.
    (* the piece of this completion *)
    assert (GD : get_data c = slice data (4 * dwords pre) (4 * (dwords pre + t_length c))).
    { rewrite <- Hdata, E. unfold slice. rewrite skipn_flat.
      - cbn [flat_map]. rewrite firstn_app.
        replace (Z.to_nat (4 * (dwords pre + t_length c) - 4 * dwords pre)) with (length (get_data c)) by lia.
        rewrite Nat.sub_diag, firstn_all, firstn_O, app_nil_r. reflexivity.
      - intros x Hx. apply HIN. rewrite E. apply in_or_app. auto. }
    rewrite GD.
    assert (SS : forall x y b, 0 <= x -> 0 <= y -> slice (slice data x b) y (y + (lo + cnt - first)) =
       slice data (x + y) (Z.min b (x + y + (lo + cnt - first)))).
    { intros x y b Hx Hy. unfold slice. rewrite skipn_firstn_comm, skipn_skipn, firstn_firstn.
      f_equal; [lia|]. f_equal. lia. }
    rewrite SS by lia. replace (4 * dwords pre + (first - 4 * dwords pre)) with first by lia.
    replace (first + (lo + cnt - first)) with (lo + cnt) by lia.
    destruct (Z.leb_spec (4 * (dwords pre + t_length c)) (lo + cnt)).
    + rewrite Z.min_l by lia. apply slice_split; lia.
    + rewrite Z.min_r by lia. rewrite (@slice_empty _ data (4 * (dwords pre + t_length c))) by lia. apply app_nil_r.
Qed.

Lemma slice_slice {A} (l : list A) x b y z : 0 <= x -> 0 <= y -> x + z <= b ->
  slice (slice l x b) y z = slice l (x + y) (x + z).
Proof.
  intros Hx Hy Hb. unfold slice. rewrite skipn_firstn_comm, skipn_skipn, firstn_firstn.
  f_equal; [lia|]. f_equal. lia.
Qed.


Lemma set_data_same t : (let '(mkTlp f ty tc th td ep at1 at2 le co st bc byc rq de tag fb lb lo ad rn _) := t in
     mkTlp f ty tc th td ep at1 at2 le co st bc byc rq de tag fb lb lo ad rn (t_data t)) = t.
Proof. destruct t as [x0 x1 x2 x3 x4 x5 x6 x7 x8 x9 y0 y1 y2 y3 y4 y5 y6 y7 y8 y9 z0 z1]. reflexivity. Qed.

Lemma one_request mrrs mx base mem resp addr rem rq tag attr tc : 0 <= mrrs ->
  completer mx base mem resp -> base mod 4 = 0 -> Z.of_nat (length mem) mod 4 = 0 ->
  1 <= rem -> base <= addr -> addr + rem <= base + Z.of_nat (length mem) ->
  let n := chunk_len mrrs addr rem in
  let t := set_be (new_req false addr rq tag attr tc) addr n in
  legal_req (Z.shiftl 128 mrrs) false t /\ 1 <= n <= rem /\
  (forall b, touches t b = true <-> addr <= b < addr + n) /\
  read_cpls (resp t) n 0 = Ok (slice mem (addr - base) (addr - base + n)).
Proof.
  intros Hm HC Hb4 Hm4 Hr Hb He n t.
  destruct (@chunk_bounds mrrs addr rem Hm Hr) as (N1 & N2 & N3). fold n in N1, N2, N3.
  assert (LT : legal_req (Z.shiftl 128 mrrs) false t).
  { pose proof (@new_req_legal false mrrs addr n rq tag attr tc (t_data t) Hm ltac:(lia) N2 N3 I) as L.
    cbv zeta in L. fold t in L. rewrite set_data_same in L. exact L. }
  destruct (@c36_exact (new_req false addr rq tag attr tc) addr n ltac:(lia)) as (P1 & P2 & _ & _ & _ & P6).
  fold t in P1, P2, P6.
  split; [exact LT|]. split; [exact N1|]. split; [exact P6|].
  destruct (@legal_dwords _ _ t base (Z.of_nat (length mem)) LT) as (D1 & D2); auto.
  { intros b E. apply P6 in E. lia. }
  destruct (HC _ t addr n LT ltac:(lia) P6 D1 D2) as (id & HA).
  assert (TA : t_addr t = addr - addr mod 4) by apply set_be_addr.
  assert (R1 : 0 <= addr - t_addr t < 4) by (rewrite TA; pose proof (Z.mod_pos_bound addr 4); lia).
  assert (R2 : 4 * t_length t - 4 < addr - t_addr t + n <= 4 * t_length t)
    by (rewrite P2, TA; clear - N1; Z.to_euclidean_division_equations; lia).
  rewrite (@read_cpls_ok _ _ _ _ _ _ _ P1 R1 (proj1 N1) R2 HA).
  f_equal. rewrite slice_slice by lia. f_equal; lia.
Qed.

Lemma rc_read_loop_ok mrrs mx base mem resp rq attr tc tag total : 0 <= mrrs ->
  completer mx base mem resp -> base mod 4 = 0 -> Z.of_nat (length mem) mod 4 = 0 ->
  forall fuel k addr rem, (Z.to_nat rem < fuel)%nat -> 0 <= rem -> base <= addr ->
  addr + rem <= base + Z.of_nat (length mem) ->
  exists ts, read_loop fuel false mrrs rq attr tc tag k resp total addr rem =
      Ok (ts, slice mem (addr - base) (addr - base + rem)) /\
    Forall (legal_req (Z.shiftl 128 mrrs) false) ts /\ tiles addr ts (addr + rem).
Proof.
  intros Hm HC Hb4 Hm4. induction fuel as [|fuel IH]; intros k addr rem Hf Hr Hb He; [lia|].
  cbn [read_loop]. destruct (Z.ltb_spec 0 rem) as [H|H].
  - destruct (@one_request mrrs mx base mem resp addr rem rq (tag k) attr tc Hm HC Hb4 Hm4 ltac:(lia) Hb He)
      as (LT & N & T & RD).
    set (n := chunk_len mrrs addr rem) in *. rewrite RD. cbn [bind].
    destruct (IH (S k) (addr + n) (rem - n)) as (ts & E & F & G); [lia|lia|lia|lia|].
    rewrite E. cbn [bind fst snd]. eexists. split; [f_equal; f_equal|].
    + replace (addr + n - base) with (addr - base + n) by lia.
      replace (addr - base + n + (rem - n)) with (addr - base + rem) by lia.
      apply slice_split; lia.
    + split; [constructor; auto|]. econstructor; [|exact T|]; [lia|].
      replace (addr + n + (rem - n)) with (addr + rem) in G by lia. exact G.
  - exists []. rewrite slice_empty by lia. split; [reflexivity|]. split; [constructor|].
    replace (addr + rem) with addr by lia. constructor.
Qed.
