From Verif Require Import Base.Prelude Driver.RegBlock_model Driver.RegBlock_spec.
From Coq Require Import Permutation.
Local Open Scope Z_scope.

Lemma land3_mod4 x : Z.land x 3 = x mod 4.
Proof. change 3 with (Z.ones 2). rewrite Z.land_ones by lia. reflexivity. Qed.

Lemma chain_blocks_S regs start n :
  chain_blocks regs start (S n) =
  chain_blocks regs start n ++ [block_at regs (chain regs start n)].
Proof.
  unfold chain_blocks. rewrite seq_S, map_app. reflexivity.
Qed.

Lemma in_chain_blocks regs start n o :
  existsb (fun b => rb_off b =? o) (chain_blocks regs start n) = true <->
  exists j, (j < n)%nat /\ chain regs start j = o.
Proof.
  unfold chain_blocks. rewrite existsb_exists. split.
  - intros (b & Hb & He). apply in_map_iff in Hb. destruct Hb as (k & <- & Hk).
    apply in_seq in Hk. exists k. split; [lia|]. simpl in He. lia.
  - intros (j & Hj & <-). exists (block_at regs (chain regs start j)). split.
    + apply in_map_iff. exists j. split; auto. apply in_seq. lia.
    + simpl. lia.
Qed.

Lemma legal_S regs start n :
  legal_upto regs start n ->
  chain regs start (S n) <> 0 ->
  chain regs start (S n) mod 4 = 0 ->
  (forall j, (j < S n)%nat -> chain regs start j <> chain regs start (S n)) ->
  legal_upto regs start (S n).
Proof.
  intros H H1 H2 H3 k Hk.
  destruct (Nat.eq_dec k (S n)) as [->|]; auto.
  apply H. lia.
Qed.

(** Result of enumeration described by the chain. *)
Definition enum_describes (regs : regfile) (start : Z) (r : enum_result) : Prop :=
  exists n, legal_upto regs start n /\
    let o' := chain regs start (S n) in
    match r with
    | EnumDone bs => bs = chain_blocks regs start (S n) /\ o' = 0
    | EnumMisaligned bs => bs = chain_blocks regs start (S n) /\ o' <> 0 /\ o' mod 4 <> 0
    | EnumLoop bs => bs = chain_blocks regs start (S n) /\ o' <> 0 /\ o' mod 4 = 0 /\
                     exists j, (j <= n)%nat /\ chain regs start j = o'
    | EnumOutOfFuel => False
    end.

Lemma enumerate_step regs start fuel : forall n,
  legal_upto regs start n ->
  let r := enumerate fuel regs (chain_blocks regs start n) (chain regs start n) in
  (r <> EnumOutOfFuel -> enum_describes regs start r) /\
  (r = EnumOutOfFuel -> legal_upto regs start (n + fuel)%nat).
Proof.
  induction fuel as [|fuel IH]; intros n Hl; simpl.
  - split; [congruence|]. intros _. rewrite Nat.add_0_r. auto.
  - change RB_REG_TYPE with 0. change RB_REG_VER with 4. change RB_REG_NEXT_PTR with 8.
    rewrite Z.add_0_r.
    change (mkRB (chain regs start n) (regs (chain regs start n)) (regs (chain regs start n + 4)))
      with (block_at regs (chain regs start n)).
    rewrite <- chain_blocks_S.
    change (regs (chain regs start n + 8)) with (chain regs start (S n)).
    destruct (Z.eqb_spec (chain regs start (S n)) 0) as [H0|H0].
    { split; [|congruence]. intros _. exists n. simpl. auto. }
    rewrite land3_mod4.
    destruct (Z.eqb_spec (chain regs start (S n) mod 4) 0) as [Ha|Ha]; cbn [negb].
    2:{ split; [|congruence]. intros _. exists n. simpl in *. auto. }
    destruct (existsb _ _) eqn:He.
    { split; [|congruence]. intros _. exists n. split; auto. cbv zeta.
      repeat split; auto. apply in_chain_blocks in He. destruct He as (j & Hj & Hj').
      exists j. split; [lia|auto]. }
    assert (legal_upto regs start (S n)) as Hl'.
    { apply legal_S; auto. intros j Hj Heq.
      assert (existsb (fun b => rb_off b =? chain regs start (S n)) (chain_blocks regs start (S n)) = true)
        by (apply in_chain_blocks; eauto).
      congruence. }
    specialize (IH (S n) Hl'). cbv zeta in IH.
    replace (n + S fuel)%nat with (S n + fuel)%nat by lia. exact IH.
Qed.

(** Pigeonhole: distinct chain elements below B are at most B many. *)
Lemma distinct_bounded regs start n (B : nat) :
  (forall a, 0 <= regs a < Z.of_nat B) ->
  (forall i j, (i < j <= n)%nat -> chain regs start i <> chain regs start j) ->
  (n <= B)%nat.
Proof.
  intros Hd Hu.
  set (l := map (fun k => Z.to_nat (chain regs start (S k))) (seq 0 n)).
  assert (NoDup l) as Hnd.
  { apply (NoDup_nth _ 0%nat). intros i j Hi Hj He.
    unfold l in Hi, Hj. rewrite map_length, seq_length in Hi, Hj.
    assert (forall k, (k < n)%nat -> nth k l 0%nat = Z.to_nat (chain regs start (S k))) as Hk.
    { intros k Hk. unfold l.
      rewrite nth_indep with (d' := Z.to_nat (chain regs start (S 0)))
        by (rewrite map_length, seq_length; auto).
      rewrite (map_nth (fun k => Z.to_nat (chain regs start (S k))) (seq 0 n) 0%nat k).
      rewrite seq_nth; auto. }
    rewrite !Hk in He by auto.
    pose proof (Hd (chain regs start i + 8)). pose proof (Hd (chain regs start j + 8)).
    change (regs (chain regs start i + 8)) with (chain regs start (S i)) in *.
    change (regs (chain regs start j + 8)) with (chain regs start (S j)) in *.
    assert (chain regs start (S i) = chain regs start (S j)) as Hc by lia.
    destruct (Nat.lt_trichotomy i j) as [Hlt|[Heq|Hlt]]; auto.
    - exfalso. apply (Hu (S i) (S j)); [lia|auto].
    - exfalso. apply (Hu (S j) (S i)); [lia|auto]. }
  assert (incl l (seq 0 B)) as Hin.
  { intros x Hx. unfold l in Hx. apply in_map_iff in Hx. destruct Hx as (k & <- & Hk).
    apply in_seq. pose proof (Hd (chain regs start k + 8)) as Hb.
    change (regs (chain regs start k + 8)) with (chain regs start (S k)) in Hb. lia. }
  apply NoDup_incl_length in Hin; auto.
  rewrite seq_length in Hin. unfold l in Hin. rewrite map_length, seq_length in Hin. auto.
Qed.

Lemma dwords_bound regs : dwords regs ->
  exists B : nat, forall a, 0 <= regs a < Z.of_nat B.
Proof.
  intros Hd. exists (Z.to_nat (2 ^ 32)). intros a. specialize (Hd a).
  rewrite Z2Nat.id by lia. exact Hd.
Qed.

Lemma chain_blocks_0 regs start : chain_blocks regs start 0 = [].
Proof. reflexivity. Qed.

Lemma legal_0 regs start : legal_upto regs start 0.
Proof. intros k Hk. lia. Qed.

Lemma enumerate_correct regs start :
  dwords regs ->
  exists fuel0, forall fuel, (fuel0 <= fuel)%nat ->
    enum_describes regs start (enumerate fuel regs [] start).
Proof.
  intros Hd. destruct (dwords_bound Hd) as [B HB]. exists (S B). intros fuel Hf.
  destruct (enumerate_step fuel (@legal_0 regs start)) as [H1 H2].
  rewrite chain_blocks_0 in H1, H2. cbn [chain] in H1, H2.
  apply H1. intro He. apply H2 in He.
  assert (0 + fuel <= B)%nat; [|lia]. apply (@distinct_bounded regs start); auto.
  intros i j Hij. destruct (He j) as (_ & _ & C); [lia|]. apply C. lia.
Qed.

Lemma legal_prefix regs start n m :
  legal_upto regs start n -> (m <= n)%nat -> legal_upto regs start m.
Proof. intros H Hm k Hk. apply H. lia. Qed.

(** The description determines the result. *)
Lemma describes_unique regs start r1 r2 :
  enum_describes regs start r1 -> enum_describes regs start r2 -> r1 = r2.
Proof.
  intros (n & Hl & H) (m & Hm & H').
  assert (forall n m : nat, legal_upto regs start n -> legal_upto regs start m ->
    (chain regs start (S n) = 0 \/ chain regs start (S n) mod 4 <> 0 \/
     exists j, (j <= n)%nat /\ chain regs start j = chain regs start (S n)) ->
    (m <= n)%nat) as Hno.
  { clear. intros n m Hn Hm Hst. destruct (le_lt_dec m n); auto. exfalso.
    destruct (Hm (S n)) as (A & B & C); [lia|].
    destruct Hst as [|[|(j & Hj & Hc)]]; auto. apply (C j); [lia|auto]. }
  assert (n = m) as ->.
  { apply Nat.le_antisymm.
    - eapply Hno; eauto. destruct r2; simpl in H'; tauto.
    - eapply Hno; eauto. destruct r1; simpl in H; tauto. }
  cbv zeta in *.
  destruct r1, r2; try tauto; destruct H as (-> & H), H' as (-> & H'); auto; try tauto;
    destruct H as (? & ?), H' as (? & ?); tauto.
Qed.

(** ** find *)

Definition matches (ty : Z) (version : option Z) (b : rblock) : bool :=
  (rb_type b =? ty) &&
  (match version with None => true | Some 0 => true | Some v => rb_ver b =? v end).

Lemma matches_eq ty v b : matches ty v b = (rb_type b =? ty) && ver_match v b.
Proof. unfold matches, ver_match. destruct v as [[| |]|]; auto. Qed.

Lemma find_correct blocks ty version : forall index,
  find blocks ty version index =
  nth_error (filter (matches ty version) blocks) (Z.to_nat index).
Proof.
  induction blocks as [|b t IH]; intros index; simpl.
  - destruct (Z.to_nat index); reflexivity.
  - rewrite matches_eq. destruct ((rb_type b =? ty) && ver_match version b); auto.
    destruct (Z.leb_spec index 0).
    + replace (Z.to_nat index) with 0%nat by lia. reflexivity.
    + rewrite IH. replace (Z.to_nat index) with (S (Z.to_nat (index - 1))) by lia. reflexivity.
Qed.

Lemma cfind_find blocks ty version : forall index,
  cfind blocks ty version index = find blocks ty (Some version) index.
Proof.
  induction blocks as [|b t IH]; intros index; simpl; auto.
  destruct ((rb_type b =? ty) && ((version =? 0) || (rb_ver b =? version))); auto.
  destruct (Z.ltb_spec 0 index), (Z.leb_spec index 0); try lia; auto.
Qed.

(** ** C enumeration *)

(** Legal for the C code: nonzero (except the start), in range, not seen. *)
Definition clegal (regs : regfile) (size start : Z) (n : nat) : Prop :=
  forall k, (k < n)%nat ->
    (k <> 0%nat -> chain regs start k <> 0) /\
    chain regs start k < size /\
    (forall j, (j < k)%nat -> chain regs start j <> chain regs start k).

Definition cenum_describes (regs : regfile) (size start : Z) (r : cenum_result) : Prop :=
  exists n, clegal regs size start n /\
    match r with
    | CDone bs rd => bs = chain_blocks regs start n /\
        rd = flat_map (fun k => [chain regs start k; chain regs start k + 4; chain regs start k + 8]) (seq 0 n) /\
        ((n <> 0%nat /\ chain regs start n = 0) \/ size <= chain regs start n)
    | CLoop => chain regs start n < size /\ (exists j, (j < n)%nat /\ chain regs start j = chain regs start n)
    | _ => False
    end.

Lemma chain_blocks_length regs start n : length (chain_blocks regs start n) = n.
Proof. unfold chain_blocks. rewrite map_length, seq_length. auto. Qed.

Lemma cenumerate_step regs size start fuel : forall n mc,
  clegal regs size start n -> (n < mc)%nat ->
  let rd := flat_map (fun k => [chain regs start k; chain regs start k + 4; chain regs start k + 8]) (seq 0 n) in
  let r := cenumerate fuel regs size (chain_blocks regs start n) rd mc (chain regs start n) in
  (r <> COutOfFuel -> cenum_describes regs size start r) /\
  (r = COutOfFuel -> clegal regs size start (n + fuel)%nat).
Proof.
  induction fuel as [|fuel IH]; intros n mc Hl Hmc rd; simpl.
  - split; [congruence|]. rewrite Nat.add_0_r. auto.
  - rewrite chain_blocks_length.
    destruct (Nat.ltb_spec n mc); [|lia]. simpl.
    destruct ((chain regs start n =? 0) && negb (n =? 0)%nat || (size <=? chain regs start n)) eqn:E.
    { split; [|congruence]. intros _. exists n. split; auto. split; [reflexivity|].
      split; [reflexivity|].
      apply orb_prop in E. destruct E as [E|E]; [left|right; lia].
      apply andb_prop in E. lia. }
    apply orb_false_elim in E. destruct E as [E1 E2].
    destruct (existsb _ _) eqn:He.
    { split; [|congruence]. intros _. exists n. split; auto.
      apply in_chain_blocks in He. split; [lia|]. exact He. }
    change RB_REG_TYPE with 0. change RB_REG_VER with 4. change RB_REG_NEXT_PTR with 8.
    rewrite Z.add_0_r.
    change (mkRB (chain regs start n) (regs (chain regs start n)) (regs (chain regs start n + 4)))
      with (block_at regs (chain regs start n)).
    rewrite <- chain_blocks_S, chain_blocks_length.
    change (regs (chain regs start n + 8)) with (chain regs start (S n)).
    replace (rd ++ [chain regs start n; chain regs start n + 4; chain regs start n + 8])
      with (flat_map (fun k => [chain regs start k; chain regs start k + 4; chain regs start k + 8]) (seq 0 (S n))).
    2:{ rewrite seq_S, flat_map_app. reflexivity. }
    assert (clegal regs size start (S n)) as Hl'.
    { intros k Hk. destruct (Nat.eq_dec k n) as [->|]; [|apply Hl; lia].
      split; [|split].
      - intros Hn H0. rewrite H0 in E1. simpl in E1. destruct n; simpl in E1; congruence.
      - lia.
      - intros j Hj Hc.
        assert (existsb (fun b => rb_off b =? chain regs start n) (chain_blocks regs start n) = true)
          by (apply in_chain_blocks; eauto).
        congruence. }
    destruct (Nat.leb_spec mc (S n)).
    + destruct (IH (S n) (mc + 4)%nat Hl') as [A B]; [lia|].
      replace (n + S fuel)%nat with (S n + fuel)%nat by lia. split; auto.
    + destruct (IH (S n) mc Hl') as [A B]; [lia|].
      replace (n + S fuel)%nat with (S n + fuel)%nat by lia. split; auto.
Qed.

Lemma cenum_correct regs size start :
  dwords regs ->
  exists fuel0, forall fuel, (fuel0 <= fuel)%nat ->
    cenum_describes regs size start (cenum fuel regs size start).
Proof.
  intros Hd. destruct (dwords_bound Hd) as [B HB]. exists (S (S B)). intros fuel Hf.
  assert (clegal regs size start 0) as H0 by (intros k Hk; lia).
  destruct (cenumerate_step fuel (n := 0) (mc := 8) H0) as [H1 H2]; [lia|].
  unfold cenum. apply H1. intro He. apply H2 in He.
  assert (fuel - 1 <= B)%nat; [|lia]. apply (@distinct_bounded regs start); auto.
  intros i j Hij. destruct (He j) as (_ & _ & C); [lia|]. apply C. lia.
Qed.
