(** Completers of the simulation model answer legal requests; host memory regions. *)
From Verif Require Import Base.Prelude Pcie.Tlp_model Pcie.Tlp_spec Pcie.Tlp_proof
  Pcie.Mem_model Pcie.Mem_spec Pcie.Mem_proof.
Open Scope Z_scope.


Lemma slice_ok (l : list Z) a b : bytes_ok l -> bytes_ok (slice l a b).
Proof. intros. apply firstn_ok, skipn_ok. auto. Qed.

Lemma ep_completer mps id base mem : 0 <= mps -> bytes_ok mem -> base mod 4 = 0 ->
  Z.of_nat (length mem) mod 4 = 0 -> page_ok base mem ->
  completer (Z.shiftl 128 mps) base mem (fun t => sent (ep_mem_read mps id (Some (base, mem)) t)).
Proof.
  intros Hm Hb B4 M4 HP mrrs t a n LT Hn Ht R1 R2. exists id. unfold ep_mem_read.
  pose proof LT as (A & L & _ & SP & _).
  pose proof (@page_off base mem t HP L A B4 M4 SP R1 R2) as PG.
  rewrite land_fff. replace (t_length t * 4 >? 4096 - (t_addr t - base) mod 4096) with false by lia.
  rewrite (Z.mul_comm (t_length t) 4).
  destruct (@completions_ok mps mrrs false t id
     (slice mem (t_addr t - base) (t_addr t - base + 4 * t_length t)) a n Hm LT Hn Ht) as (cs & E & HA).
  { apply slice_ok; auto. }
  { rewrite slice_length; lia. }
  rewrite E. exact HA.
Qed.

(** * Host regions *)
Lemma find_mid pre r post b : wf_regions (pre ++ r :: post) -> in_region b r = true ->
  find_region (pre ++ r :: post) b = Some r.
Proof.
  intros (_ & HP) Hb. induction pre as [|p pre IH]; cbn [app find_region find] in *.
  - rewrite Hb. reflexivity.
  - inversion HP as [|? ? H1 H2]; subst.
    destruct (in_region b p) eqn:E.
    + rewrite Forall_forall in H1. specialize (H1 r). cbn in H1.
      rewrite (H1 ltac:(apply in_or_app; cbn; auto) b E) in Hb. discriminate.
    + apply IH. auto.
Qed.

Lemma rc_write_mid pre r post a d : wf_regions (pre ++ r :: post) -> in_region a r = true ->
  a - r_base r + Z.of_nat (length d) <= r_size r ->
  rc_write (pre ++ r :: post) a d =
  Ok (pre ++ mkRegion (r_base r) (r_size r) (splice (r_mem r) (a - r_base r) d) :: post).
Proof.
  intros (HW & HP) Hb Hd. induction pre as [|p pre IH]; cbn [app rc_write] in *.
  - rewrite Hb. inversion HW as [|? ? (W1 & W2) W3]; subst.
    replace (Z.of_nat (length (r_mem r)) <? a - r_base r + Z.of_nat (length d)) with false by lia. reflexivity.
  - inversion HP as [|? ? H1 H2]; subst. inversion HW as [|? ? W1 W2]; subst.
    destruct (in_region a p) eqn:E.
    + rewrite Forall_forall in H1. specialize (H1 r). cbn in H1.
      rewrite (H1 ltac:(apply in_or_app; cbn; auto) a E) in Hb. discriminate.
    + rewrite IH by auto. reflexivity.
Qed.

Lemma wf_mid pre r post m : wf_regions (pre ++ r :: post) -> length m = length (r_mem r) ->
  wf_regions (pre ++ mkRegion (r_base r) (r_size r) m :: post).
Proof.
  intros (HW & HP) Hl. split.
  - apply Forall_app in HW. destruct HW as (H1 & H2). inversion H2 as [|? ? (W1 & W2) W3]; subst.
    apply Forall_app. split; [auto|]. constructor; [|auto]. split; cbn; [auto|]. rewrite Hl. auto.
  - clear HW. induction pre as [|p pre IH]; cbn [app] in *.
    + inversion HP as [|? ? H1 H2]; subst. constructor; [|auto].
      eapply Forall_impl; [|exact H1]. intros q Hq b. apply (Hq b).
    + inversion HP as [|? ? H1 H2]; subst. constructor; [|auto].
      apply Forall_app in H1. destruct H1 as (H3 & H4). inversion H4 as [|? ? H5 H6]; subst.
      apply Forall_app. split; [auto|]. constructor; [|auto]. intros b. apply (H5 b).
Qed.

Definition put (r : region) (m : list Z) : region := mkRegion (r_base r) (r_size r) m.

(** One request on host memory. *)
Lemma rc_handle_write_ok pre r post mx t a d :
  wf_regions (pre ++ r :: post) -> legal_req mx true t ->
  (forall b, touches t b = true <-> a <= b < a + Z.of_nat (length d)) ->
  (forall i, (i < length d)%nat -> byte_at t (a + Z.of_nat i) = nth i d 0) ->
  d <> [] -> r_base r mod 4 = 0 -> r_base r <= a -> a + Z.of_nat (length d) <= r_base r + r_size r ->
  rc_handle_write (pre ++ r :: post) t = Ok (pre ++ put r (splice (r_mem r) (a - r_base r) d) :: post).
Proof.
  intros HW LT Ht Hd Hne B4 R1 R2.
  assert (LD : 1 <= Z.of_nat (length d)) by (destruct d; [congruence|cbn [length]; lia]).
  assert (WR : wf_region r).
  { destruct HW as (HW & _). apply Forall_app in HW. destruct HW as (_ & HW). inversion HW; auto. }
  destruct WR as (W1 & W2).
  pose proof LT as (A & Le & _ & SP & B1 & B2 & B3 & _ & HD & _ & CK).
  destruct (@legal_offsets _ _ t a _ LT LD Ht) as (F & B).
  pose proof (first_off_range t) as RO.
  assert (TA : r_base r <= t_addr t <= a) by (clear - F RO R1 A B4; Z.to_euclidean_division_equations; lia).
  unfold rc_handle_write. rewrite (@find_mid pre r post) by (auto; unfold in_region; lia).
  rewrite land_fff.
  replace (t_length t * 4 >? 4096 - t_addr t mod 4096) with false
    by (unfold same_page in SP; clear - SP Le; Z.to_euclidean_division_equations; lia).
  assert (LL : t_length t = Z.of_nat (length (t_data t))).
  { unfold tlp_check in CK. apply andb_true_iff in CK. destruct CK as (CK & _).
    apply andb_true_iff in CK. destruct CK as (CK & _). apply andb_true_iff in CK. destruct CK as (CK & _).
    unfold has_data in HD. rewrite HD in CK. lia. }
  destruct (@be_writes_ok (at_ (r_mem r)) (t_addr t - r_base r) t Le LL) as (V1 & V2).
  assert (INR : Forall (fun w => 0 <= t_addr t - r_base r + fst w /\
     t_addr t - r_base r + fst w + Z.of_nat (length (snd w)) <= r_size r /\ snd w <> []) (be_writes t)).
  { eapply Forall_impl; [|exact V2]. cbv beta. intros x (Q1 & Q2 & Q3 & Q4).
    assert (L : 1 <= Z.of_nat (length (snd x))) by (destruct (snd x); [congruence|cbn [length]; lia]).
    pose proof (Q4 (fst x + Z.of_nat (length (snd x)) - 1) ltac:(lia)) as E2.
    assert (F2 := proj1 (Ht (t_addr t + (fst x + Z.of_nat (length (snd x)) - 1)))).
    unfold touches in F2. rewrite Z.add_simpl_l in F2. specialize (F2 E2). split; [lia|]. split; [lia|auto]. }
  assert (RUN : forall ws m, length m = length (r_mem r) ->
     Forall (fun w => 0 <= t_addr t - r_base r + fst w /\
       t_addr t - r_base r + fst w + Z.of_nat (length (snd w)) <= r_size r /\ snd w <> []) ws ->
     fold_left (fun r0 w => bind r0 (fun rs => rc_write rs (t_addr t + fst w) (snd w))) ws
       (Ok (pre ++ put r m :: post)) =
     Ok (pre ++ put r (fold_left (fun mem w => splice mem (t_addr t - r_base r + fst w) (snd w)) ws m) :: post)).
  { induction ws as [|w ws IH]; intros m Hm HF; [reflexivity|].
    inversion HF as [|? ? (G1 & G2 & G3) G4]; subst. cbn [fold_left bind].
    assert (1 <= Z.of_nat (length (snd w))) by (destruct (snd w); [congruence|cbn [length]; lia]).
    rewrite rc_write_mid.
    - cbn [r_base r_size r_mem put]. replace (t_addr t + fst w - r_base r) with (t_addr t - r_base r + fst w) by lia.
      fold (put r (splice m (t_addr t - r_base r + fst w) (snd w))). apply IH; [|auto].
      rewrite splice_length; lia.
    - apply wf_mid; auto.
    - unfold in_region. cbn [put r_base r_size]. lia.
    - cbn [put r_base r_size]. lia. }
  replace (pre ++ r :: post) with (pre ++ put r (r_mem r) :: post) by (destruct r; reflexivity).
  rewrite RUN by auto. do 4 f_equal.
  destruct (@splices_at (t_addr t - r_base r) (be_writes t) (r_mem r)) as (E1 & E2).
  { eapply Forall_impl; [|exact INR]. cbv beta. intros x (Q1 & Q2 & Q3). lia. }
  apply at_ext; [rewrite splice_length by lia; exact E1|].
  intros b. rewrite E2, V1, splice_at by lia. unfold wr.
  replace (enabled t (b - (t_addr t - r_base r))) with (touches t (b + r_base r)) by (unfold touches; f_equal; lia).
  destruct (touches t (b + r_base r)) eqn:E.
  - pose proof (proj1 (Ht _) E) as E'.
    replace ((a - r_base r <=? b) && (b <? a - r_base r + Z.of_nat (length d)))%bool with true by lia.
    specialize (Hd (Z.to_nat (b + r_base r - a)) ltac:(lia)).
    replace (a + Z.of_nat (Z.to_nat (b + r_base r - a))) with (b + r_base r) in Hd by lia.
    rewrite byte_at_get_data in Hd.
    2:{ unfold touches, enabled in E. rewrite <- LL. lia. }
    replace (Z.to_nat (b - (t_addr t - r_base r))) with (Z.to_nat (b + r_base r - t_addr t)) by lia.
    rewrite Hd. f_equal. lia.
  - replace ((a - r_base r <=? b) && (b <? a - r_base r + Z.of_nat (length d)))%bool with false; [reflexivity|].
    destruct (Z.leb_spec (a - r_base r) b); destruct (Z.ltb_spec b (a - r_base r + Z.of_nat (length d))); try reflexivity.
    assert (touches t (b + r_base r) = true) by (apply Ht; lia). congruence.
Qed.

Lemma splice_splice (m : list Z) a d d' : 0 <= a -> a + Z.of_nat (length (d ++ d')) <= Z.of_nat (length m) ->
  splice (splice m a d) (a + Z.of_nat (length d)) d' = splice m a (d ++ d').
Proof.
  rewrite app_length, Nat2Z.inj_add. intros H1 H2. apply at_ext.
  - rewrite !splice_length; try lia; rewrite ?app_length, ?splice_length; lia.
  - intros b. rewrite (@splice_at m _ (d ++ d')) by (rewrite ?app_length; lia).
    rewrite splice_at by (rewrite ?splice_length; lia).
    rewrite <- wr_app. unfold wr at 1. rewrite splice_at by lia. reflexivity.
Qed.

(** A stream of write requests on host memory. *)
Lemma rc_writes_ok mx pre post : forall ts a d r,
  carries a ts d -> Forall (legal_req mx true) ts ->
  wf_regions (pre ++ r :: post) -> r_base r mod 4 = 0 ->
  r_base r <= a -> a + Z.of_nat (length d) <= r_base r + r_size r ->
  fold_left (fun rs t => bind rs (fun rs => rc_handle_write rs t)) ts (Ok (pre ++ r :: post)) =
  Ok (pre ++ put r (splice (r_mem r) (a - r_base r) d) :: post).
Proof.
  intros ts a d r C. revert r. induction C as [a|a t ts d d' Hn Ht Hd C IH]; intros r L W B4 R1 R2.
  - cbn [fold_left]. unfold splice. cbn [app length]. rewrite Nat.add_0_r, firstn_skipn. destruct r; reflexivity.
  - inversion L as [|? ? L1 L2]; subst. cbn [fold_left bind].
    rewrite app_length, Nat2Z.inj_add in R2.
    assert (WR : wf_region r).
    { destruct W as (W & _). apply Forall_app in W. destruct W as (_ & W). inversion W; auto. }
    destruct WR as (W1 & W2).
    rewrite (@rc_handle_write_ok pre r post mx t a d) by (auto; lia).
    rewrite IH; auto; try (cbn [put r_base r_size]; lia).
    + cbn [put r_base r_size r_mem]. unfold put. cbn [r_base r_size]. do 4 f_equal.
      replace (a + Z.of_nat (length d) - r_base r) with (a - r_base r + Z.of_nat (length d)) by lia.
      apply splice_splice; rewrite ?app_length; lia.
    + apply wf_mid; auto. rewrite splice_length; lia.
Qed.

Lemma host_byte_mid pre r post m b : wf_regions (pre ++ r :: post) -> length m = length (r_mem r) ->
  host_byte (pre ++ put r m :: post) b =
  if in_region b r then nth_error m (Z.to_nat (b - r_base r)) else host_byte (pre ++ r :: post) b.
Proof.
  intros W L. destruct (in_region b r) eqn:E.
  - unfold host_byte. rewrite (@find_mid pre (put r m) post); [reflexivity|apply wf_mid; auto|exact E].
  - unfold host_byte. replace (find_region (pre ++ put r m :: post) b) with (find_region (pre ++ r :: post) b).
    + reflexivity.
    + clear W. unfold find_region. induction pre as [|p pre IH]; cbn [app find].
      * replace (in_region b (put r m)) with (in_region b r) by reflexivity. rewrite E. reflexivity.
      * rewrite IH. reflexivity.
Qed.

Lemma splice_nth_error (m : list Z) a d j : 0 <= a -> a + Z.of_nat (length d) <= Z.of_nat (length m) -> 0 <= j ->
  nth_error (splice m a d) (Z.to_nat j) =
  if (a <=? j) && (j <? a + Z.of_nat (length d)) then nth_error d (Z.to_nat (j - a)) else nth_error m (Z.to_nat j).
Proof.
  intros Ha Hl Hj. unfold splice. destruct (Z.ltb_spec j a) as [H|H].
  - replace (a <=? j) with false by lia. cbn [andb]. rewrite nth_error_app1 by (rewrite firstn_length; lia).
    rewrite <- (firstn_skipn (Z.to_nat a) m) at 2. rewrite nth_error_app1 by (rewrite firstn_length; lia). reflexivity.
  - replace (a <=? j) with true by lia. rewrite nth_error_app2 by (rewrite firstn_length; lia).
    rewrite firstn_length_le by lia. destruct (Z.ltb_spec j (a + Z.of_nat (length d))) as [H2|H2]; cbn [andb].
    + rewrite nth_error_app1 by lia. f_equal. lia.
    + rewrite nth_error_app2 by lia.
      rewrite <- (firstn_skipn (Z.to_nat a + length d) m) at 2.
      rewrite (@nth_error_app2 _ (firstn _ m)) by (rewrite firstn_length; lia). f_equal. rewrite firstn_length. lia.
Qed.

Lemma host_write_ok rs r mx a ts d :
  wf_regions rs -> find_region rs a = Some r -> d <> [] ->
  carries a ts d -> Forall (legal_req mx true) ts ->
  r_base r mod 4 = 0 -> a + Z.of_nat (length d) <= r_base r + r_size r ->
  exists rs', fold_left (fun rs t => bind rs (fun rs => rc_handle_write rs t)) ts (Ok rs) = Ok rs' /\
    wf_regions rs' /\
    forall b, host_byte rs' b = if (a <=? b) && (b <? a + Z.of_nat (length d))
                                then nth_error d (Z.to_nat (b - a)) else host_byte rs b.
Proof.
  intros W F Hne C L B4 R2. pose proof F as F0. unfold find_region in F. 
  destruct (find_some _ _ F) as (HIN & HR). apply in_split in HIN. destruct HIN as (pre & post & ->).
  unfold in_region in HR.
  assert (WR : wf_region r).
  { destruct W as (W & _). apply Forall_app in W. destruct W as (_ & W). inversion W; auto. }
  destruct WR as (W1 & W2).
  exists (pre ++ put r (splice (r_mem r) (a - r_base r) d) :: post).
  split; [eapply rc_writes_ok; eauto; lia|].
  assert (SL : length (splice (r_mem r) (a - r_base r) d) = length (r_mem r)) by (apply splice_length; lia).
  split; [apply wf_mid; auto|].
  intros b. rewrite host_byte_mid by auto. destruct (in_region b r) eqn:E.
  - assert (E' := E). unfold in_region in E. rewrite splice_nth_error by lia.
    replace ((a - r_base r <=? b - r_base r) && (b - r_base r <? a - r_base r + Z.of_nat (length d)))%bool
      with ((a <=? b) && (b <? a + Z.of_nat (length d)))%bool by lia.
    replace (b - r_base r - (a - r_base r)) with (b - a) by lia.
    unfold host_byte. rewrite (@find_mid pre r post b W E'). reflexivity.
  - unfold in_region in E. replace ((a <=? b) && (b <? a + Z.of_nat (length d)))%bool with false by lia. reflexivity.
Qed.

Lemma rc_completer mps rs r : 0 <= mps -> wf_regions rs -> In r rs -> bytes_ok (r_mem r) ->
  completer (Z.shiftl 128 mps) (r_base r) (r_mem r) (fun t => sent (rc_handle_read mps rs t)).
Proof.
  intros Hm W HIN Hb mrrs t a n LT Hn Ht R1 R2. exists pid0. unfold rc_handle_read.
  pose proof LT as (A & L & _ & SP & _). apply in_split in HIN. destruct HIN as (pre & post & ->).
  assert (WR : wf_region r).
  { destruct W as (W & _). apply Forall_app in W. destruct W as (_ & W). inversion W; auto. }
  destruct WR as (W1 & W2).
  assert (FR : find_region (pre ++ r :: post) (t_addr t) = Some r).
  { apply find_mid; auto. unfold in_region. lia. }
  rewrite FR, land_fff.
  replace (t_length t * 4 >? 4096 - t_addr t mod 4096) with false
    by (unfold same_page in SP; clear - SP L; Z.to_euclidean_division_equations; lia).
  unfold rc_read. rewrite FR. cbv zeta. cbn [bind]. rewrite (Z.mul_comm (t_length t) 4).
  destruct (@completions_ok mps mrrs false t pid0
     (slice (r_mem r) (t_addr t - r_base r) (t_addr t - r_base r + 4 * t_length t)) a n Hm LT Hn Ht) as (cs & E & HA).
  { apply slice_ok; auto. }
  { rewrite slice_length; lia. }
  rewrite E. exact HA.
Qed.

(** * Reads by a function: one request is fine, several are not *)
Lemma function_read_one mrrs mx base mem resp rq attr tc tag addr len : 0 <= mrrs ->
  completer mx base mem resp -> base mod 4 = 0 -> Z.of_nat (length mem) mod 4 = 0 ->
  0 <= len -> base <= addr -> addr + len <= base + Z.of_nat (length mem) ->
  (0 < len -> chunk_len mrrs addr len = len) ->
  exists ts, function_mem_read mrrs rq attr tc tag resp addr len =
      Ok (ts, slice mem (addr - base) (addr - base + len)).
Proof.
  intros Hm HC B4 M4 Hl Hb He H1. unfold function_mem_read. cbn [read_loop].
  destruct (Z.ltb_spec 0 len) as [H|H].
  - destruct (@one_request mrrs mx base mem resp addr len rq (tag 0%nat) attr tc Hm HC B4 M4 ltac:(lia) Hb He)
      as (LT & N & T & RD). rewrite (H1 H) in *. rewrite RD. cbn [bind]. rewrite Z.sub_diag.
    destruct (Z.to_nat len) eqn:E; [lia|]. cbn [read_loop Z.ltb Z.compare bind fst snd].
    eexists. rewrite app_nil_r. reflexivity.
  - exists []. rewrite slice_empty by lia. reflexivity.
Qed.

Lemma function_read_many mrrs mx base mem resp rq attr tc tag addr len : 0 <= mrrs ->
  completer mx base mem resp -> 0 < len -> chunk_len mrrs addr len < len ->
  let t := set_be (new_req false addr rq (tag 0%nat) attr tc) addr len in
  (exists id data, answers mx t id (addr mod 4) len data (resp t)) \/ resp t = [] ->
  function_mem_read mrrs rq attr tc tag resp addr len = Raise EAssert \/
  function_mem_read mrrs rq attr tc tag resp addr len = Raise ETimeout.
Proof.
  intros Hm HC Hl Hch t HR. unfold function_mem_read. cbn [read_loop].
  replace (0 <? len) with true by lia. fold t.
  destruct (@chunk_bounds mrrs addr len Hm ltac:(lia)) as (N1 & _).
  set (n := chunk_len mrrs addr len) in *.
  destruct HR as [(id & data & HA)|HE].
  - left. destruct HA as (Hne & Hdw & _ & H). destruct (resp t) as [|c cs] eqn:E; [congruence|].
    destruct (H [] c cs eq_refl) as (F1 & F2 & _ & _ & _ & _ & _ & F3 & F4 & F5 & F6 & F7 & _).
    cbn [read_cpls]. replace (0 <? n) with true by lia. rewrite F2. cbn [Z.eqb negb].
    change (4 * dwords []) with 0 in F7. pose proof (Z.mod_pos_bound addr 4).
    destruct (negb _); [reflexivity|]. rewrite F7.
    replace (addr mod 4 + len - Z.max (addr mod 4) 0 =? n - 0) with false by lia. reflexivity.
  - right. rewrite HE. cbn [read_cpls]. replace (0 <? n) with true by lia. reflexivity.
Qed.

(** * Allocation of host memory (C41) *)
Lemma align_up_spec v k : 0 <= k ->
  let r := align_up v (2 ^ k - 1) in v <= r < v + 2 ^ k /\ r mod 2 ^ k = 0 /\ (r = v <-> v mod 2 ^ k = 0).
Proof.
  intros Hk r. subst r. unfold align_up.
  replace (2 ^ k - 1) with (Z.ones k) by (rewrite Z.ones_equiv; lia).
  rewrite !Z.land_ones by auto. rewrite Z.ones_equiv.
  pose proof (Z.pow_pos_nonneg 2 k). set (p := 2 ^ k) in *. clearbody p.
  pose proof (Z.mod_pos_bound v p).
  destruct (Z.eqb_spec (v mod p) 0) as [E|E].
  - split; [lia|]. split; [auto|]. split; auto.
  - replace (v + Z.pred p + 1 - v mod p) with ((v / p + 1) * p) by (pose proof (Z.div_mod v p); lia).
    pose proof (Z.div_mod v p). split; [lia|]. split; [apply Z.mod_mul; lia|]. split; [lia|congruence].
Qed.


Definition rc_inv (s : rc_mem) : Prop :=
  wf_regions (rc_regions s) /\
  (rc_regions s = [] \/ rc_limit s mod 2 = 1) /\
  Forall (fun r => 0 <= r_base r /\ r_base r mod 2 = 0 /\ r_base r + r_size r - 1 <= rc_limit s) (rc_regions s).

Lemma fop_snoc {A} (R : A -> A -> Prop) l x : ForallOrdPairs R l -> Forall (fun y => R y x) l ->
  ForallOrdPairs R (l ++ [x]).
Proof.
  induction 1 as [|a l Ha Hl IH]; intros H; cbn [app].
  - constructor; [constructor|constructor].
  - inversion H; subst. constructor; [apply Forall_app; split; [auto|constructor; auto]|auto].
Qed.

Lemma alloc_inv lg s n : rc_inv s -> 0 <= rc_limit s -> 1 <= lg n -> 2 <= n -> n mod 2 = 0 ->
  rc_inv (fst (alloc_region lg s n)) /\ 0 <= rc_limit (fst (alloc_region lg s n)) /\
  snd (alloc_region lg s n) mod 2 ^ lg n = 0 /\
  rc_limit s <= snd (alloc_region lg s n).
Proof.
  intros (W & D & F) H0 Hlg Hn He. unfold alloc_region. cbn [fst snd].
  destruct (@align_up_spec (rc_limit s) (lg n) ltac:(lia)) as (A1 & A2 & A3).
  set (a := align_up (rc_limit s) (2 ^ lg n - 1)) in *.
  assert (A4 : a mod 2 = 0).
  { replace (lg n) with (1 + (lg n - 1)) in A2 by lia. rewrite Z.pow_add_r in A2 by lia.
    change (2 ^ 1) with 2 in A2. pose proof (Z.pow_pos_nonneg 2 (lg n - 1)).
    apply Z.mod_divide in A2; [|lia]. apply Z.mod_divide; [lia|].
    destruct A2 as (q & ->). exists (q * 2 ^ (lg n - 1)). ring. }
  assert (LT : Forall (fun r => r_base r + r_size r <= a) (rc_regions s)).
  { destruct D as [D|D]; [rewrite D; constructor|].
    eapply Forall_impl; [|exact F]. cbv beta. intros r (R1 & R2 & R3).
    assert (a <> rc_limit s) by (intros E; rewrite E in A4; lia). lia. }
  split; [|cbn [rc_limit]; split; [lia|split; [auto|lia]]].
  split; [|split]; cbn [rc_regions rc_limit].
  - destruct W as (W1 & W2). split.
    + apply Forall_app. split; [auto|]. constructor; [|constructor]. split; cbn [r_size r_mem]; [lia|].
      rewrite repeat_length. lia.
    + apply fop_snoc; [auto|]. eapply Forall_impl; [|exact LT]. cbv beta. intros r R b.
      unfold in_region. cbn [r_base r_size]. lia.
  - right. clear - A4 He. Z.to_euclidean_division_equations; lia.
  - apply Forall_app. split.
    + eapply Forall_impl; [|exact F]. cbv beta. intros r (R1 & R2 & R3). split; [auto|]. split; [auto|]. lia.
    + constructor; [|constructor]. cbn [r_base r_size]. split; [lia|]. split; [auto|lia].
Qed.

Lemma alloc_all_inv lg : forall sizes s, rc_inv s -> 0 <= rc_limit s ->
  Forall (fun n => 2 <= n /\ n mod 2 = 0 /\ 1 <= lg n) sizes ->
  rc_inv (alloc_all lg sizes s) /\ 0 <= rc_limit (alloc_all lg sizes s).
Proof.
  induction sizes as [|n sizes IH]; intros s I H0 H; [auto|].
  inversion H as [|? ? (H1 & H2 & H3) H4]; subst. cbn [alloc_all fold_left].
  destruct (@alloc_inv lg s n I H0 H3 H1 H2) as (A & B & _). apply IH; auto.
Qed.

Lemma alloc_all_regions lg : forall sizes s, exists l, rc_regions (alloc_all lg sizes s) = rc_regions s ++ l /\
  map r_size l = sizes.
Proof.
  induction sizes as [|n sizes IH]; intros s.
  - exists []. split; [rewrite app_nil_r; reflexivity|reflexivity].
  - cbn [alloc_all fold_left]. destruct (IH (fst (alloc_region lg s n))) as (l & E & M).
    eexists. unfold alloc_all in E. rewrite E. cbn [alloc_region fst rc_regions]. rewrite <- app_assoc.
    split; [reflexivity|]. cbn. rewrite M. reflexivity.
Qed.

(** * Statements in the vocabulary of the properties *)
Lemma mem_write_ok mx rq attr tc addr data : 0 <= mx -> bytes_ok data ->
  exists ts, mem_write mx rq attr tc addr data = Ok ts /\
    Forall (legal_req (Z.shiftl 128 mx) true) ts /\ carries addr ts data /\
    tiles addr ts (addr + Z.of_nat (length data)).
Proof.
  intros Hm Hb. destruct (@write_loop_ok mx rq attr tc Hm (S (length data)) addr data) as (ts & A & B & C & _); auto.
  exists ts. split; [exact A|]. split; [auto|]. split; [auto|]. apply carries_tiles. auto.
Qed.
Lemma rc_mem_read_ok mrrs mx base mem resp rq attr tc tag addr len : 0 <= mrrs ->
  completer mx base mem resp -> base mod 4 = 0 -> Z.of_nat (length mem) mod 4 = 0 ->
  0 <= len -> base <= addr -> addr + len <= base + Z.of_nat (length mem) ->
  exists ts, rc_mem_read mrrs rq attr tc tag resp addr len = Ok (ts, slice mem (addr - base) (addr - base + len)) /\
    Forall (legal_req (Z.shiftl 128 mrrs) false) ts /\ tiles addr ts (addr + len).
Proof. intros. eapply rc_read_loop_ok; eauto. Qed.

Lemma c41_alloc lg sizes :
  Forall (fun n => 2 <= n /\ n mod 2 = 0 /\ 1 <= lg n) sizes ->
  let rs := rc_regions (alloc_all lg sizes rc_empty) in
  wf_regions rs /\ map r_size rs = sizes /\
  (forall r b, In r rs -> within r b -> find_region rs b = Some r) /\
  (forall b r, find_region rs b = Some r -> In r rs /\ within r b).
Proof.
  intros H rs. destruct (@alloc_all_inv lg sizes rc_empty) as ((W & _) & _); auto.
  { split; [split; constructor|]. split; [left; reflexivity|constructor]. }
  { cbn. lia. }
  fold rs in W. destruct (alloc_all_regions lg sizes rc_empty) as (l & E & M).
  split; [exact W|]. split; [subst rs; rewrite E; exact M|]. split.
  - intros r b HI HB. apply in_split in HI. destruct HI as (pre & post & E'). rewrite E' in *.
    apply find_mid; auto. unfold in_region. unfold within in HB. lia.
  - intros b r F. apply find_some in F. destruct F as (F1 & F2). split; [auto|]. unfold in_region in F2. unfold within. lia.
Qed.
Lemma c41_aligned lg s n : 0 <= lg n -> snd (alloc_region lg s n) mod 2 ^ lg n = 0.
Proof.
  intros H. unfold alloc_region. cbn [snd].
  destruct (@align_up_spec (rc_limit s) (lg n) H) as (_ & E & _). exact E.
Qed.

Lemma ep_write_stream mx rq attr tc addr data base mem : 0 <= mx -> bytes_ok data ->
  base mod 4 = 0 -> Z.of_nat (length mem) mod 4 = 0 -> page_ok base mem ->
  base <= addr -> addr + Z.of_nat (length data) <= base + Z.of_nat (length mem) ->
  exists ts, mem_write mx rq attr tc addr data = Ok ts /\
    fold_left (ep_mem_write base) ts mem = splice mem (addr - base) data.
Proof.
  intros Hm Hb B4 M4 P R1 R2. destruct (@mem_write_ok mx rq attr tc addr data Hm Hb) as (ts & A & B & C & _).
  exists ts. split; [auto|]. eapply ep_writes_ok; eauto.
Qed.
Lemma host_write_stream mx rq attr tc addr data rs r : 0 <= mx -> bytes_ok data -> data <> [] ->
  wf_regions rs -> find_region rs addr = Some r -> r_base r mod 4 = 0 ->
  addr + Z.of_nat (length data) <= r_base r + r_size r ->
  exists ts rs', mem_write mx rq attr tc addr data = Ok ts /\ host_after rs ts = Ok rs' /\ wf_regions rs' /\
    forall b, host_byte rs' b = if (addr <=? b) && (b <? addr + Z.of_nat (length data))
                                then nth_error data (Z.to_nat (b - addr)) else host_byte rs b.
Proof.
  intros Hm Hb Hn W F B4 R2. destruct (@mem_write_ok mx rq attr tc addr data Hm Hb) as (ts & A & B & C & _).
  destruct (@host_write_ok rs r _ addr ts data W F Hn C B B4 R2) as (rs' & E & W' & H).
  exists ts, rs'. auto.
Qed.
Lemma splice_bytes mem a d : bytes_ok mem -> bytes_ok d -> bytes_ok (splice mem a d).
Proof.
  intros H1 H2. unfold splice. apply Forall_app. split; [apply firstn_ok; auto|]. apply Forall_app.
  split; [auto|]. apply skipn_ok. auto.
Qed.
Lemma slice_splice (mem : list Z) a d : 0 <= a -> a + Z.of_nat (length d) <= Z.of_nat (length mem) ->
  slice (splice mem a d) a (a + Z.of_nat (length d)) = d.
Proof.
  intros H1 H2. unfold slice, splice. rewrite skipn_app, firstn_length_le, Nat.sub_diag by lia.
  rewrite skipn_all2 by (rewrite firstn_length; lia). cbn [app skipn].
  rewrite firstn_app. replace (Z.to_nat (a + Z.of_nat (length d) - a)) with (length d) by lia.
  rewrite firstn_all, Nat.sub_diag, firstn_O, app_nil_r. reflexivity.
Qed.

Lemma write_then_read mx mrrs mps rq attr tc attr' tc' tag id addr data base mem :
  0 <= mx -> 0 <= mrrs -> 0 <= mps -> bytes_ok data -> bytes_ok mem ->
  base mod 4 = 0 -> Z.of_nat (length mem) mod 4 = 0 -> page_ok base mem ->
  base <= addr -> addr + Z.of_nat (length data) <= base + Z.of_nat (length mem) ->
  exists ts, mem_write mx rq attr tc addr data = Ok ts /\
    let mem' := fold_left (ep_mem_write base) ts mem in
    exists rs, rc_mem_read mrrs rq attr' tc' tag
      (fun t => sent (ep_mem_read mps id (Some (base, mem')) t)) addr (Z.of_nat (length data)) = Ok (rs, data).
Proof.
  intros Hm Hr Hp Hd Hb B4 M4 P R1 R2.
  destruct (@ep_write_stream mx rq attr tc addr data base mem Hm Hd B4 M4 P R1 R2) as (ts & A & B).
  exists ts. split; [auto|]. cbv zeta. rewrite B.
  assert (SL : length (splice mem (addr - base) data) = length mem) by (apply splice_length; lia).
  destruct (@rc_mem_read_ok mrrs (Z.shiftl 128 mps) base (splice mem (addr - base) data)
    (fun t => sent (ep_mem_read mps id (Some (base, splice mem (addr - base) data)) t))
    rq attr' tc' tag addr (Z.of_nat (length data)) Hr) as (rs & E & _); auto; try (rewrite SL; auto); try lia.
  - apply ep_completer; auto; try (rewrite SL; auto); [apply splice_bytes; auto|].
    unfold page_ok in *. rewrite SL. auto.
  - exists rs. rewrite E. rewrite slice_splice by lia. reflexivity.
Qed.
