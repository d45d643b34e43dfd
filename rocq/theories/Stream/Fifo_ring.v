(** Pointers with a wrap bit into a circular memory hold a pair of queues: the words
    between the read and the commit pointer, and those between commit and write. *)
From Verif Require Import Base.Prelude Base.Bits Stream.Axis_model Stream.Fifo_model.
Local Open Scope Z_scope.

Lemma depth_pos w : 0 < depth_of w.
Proof. unfold depth_of. apply pow2_pos. lia. Qed.
Lemma depth_nat w : depth_of w = Z.of_nat (2 ^ w).
Proof. unfold depth_of. rewrite Nat2Z.inj_pow. reflexivity. Qed.

(** Flipping the wrap bit adds the depth. *)
Lemma flip_wrap w p : 0 <= p < 2 * depth_of w -> Z.lxor p (depth_of w) = (p + depth_of w) mod (2 * depth_of w).
Proof.
  intros H. unfold depth_of in *. set (n := Z.of_nat w) in *. assert (Hn : 0 <= n) by lia.
  assert (K : forall q, 0 <= q < 2 ^ n -> Z.lxor q (2 ^ n) = q + 2 ^ n).
  { intros q Hq. symmetry. apply Z.add_nocarry_lxor. apply Z.bits_inj'. intros m Hm.
    rewrite Z.land_spec, Z.pow2_bits_eqb, Z.bits_0 by lia.
    destruct (Z.eqb_spec n m); [|apply andb_false_r]. subst m.
    destruct (Z.eq_dec q 0) as [->|]; [rewrite Z.bits_0; reflexivity|].
    rewrite (Z.bits_above_log2 q n); auto; [lia|]. apply Z.log2_lt_pow2; lia. }
  destruct (Z_lt_ge_dec p (2 ^ n)) as [Hp|Hp].
  - rewrite K by lia. rewrite Z.mod_small; lia.
  - replace p with ((p - 2 ^ n) + 2 ^ n) at 1 by lia. rewrite <- K by lia.
    rewrite Z.lxor_assoc, Z.lxor_nilpotent, Z.lxor_0_r.
    replace (p + 2 ^ n) with ((p - 2 ^ n) + 1 * (2 * 2 ^ n)) by lia.
    rewrite Z.mod_add, Z.mod_small; lia.
Qed.

(** [ring w mem rd cm wr Q U]: the memory holds [Q], committed, then [U], not yet
    committed. *)
Definition ring (w : nat) (mem : Z -> beat) (rd cm wr : Z) (Q U : list beat) : Prop :=
  let M := depth_of w in
  let nq := Z.of_nat (length Q) in
  let nu := Z.of_nat (length U) in
  exists r, rd = r mod (2 * M) /\ cm = (r + nq) mod (2 * M) /\ wr = (r + nq + nu) mod (2 * M) /\
    nq + nu <= M /\
    forall j x, nth_error (Q ++ U) j = Some x -> mem ((r + Z.of_nat j) mod M) = x.

Lemma mod2_eq r a b M : 0 < M -> 0 <= a <= M -> 0 <= b <= M ->
  ((r + a) mod (2 * M) = (r + b) mod (2 * M) <-> a = b).
Proof.
  intros HM Ha Hb. split; [|intros ->; auto]. intros H.
  pose proof (Z.div_mod (r + a) (2 * M)). pose proof (Z.div_mod (r + b) (2 * M)).
  assert ((r + a) / (2 * M) = (r + b) / (2 * M)) by nia. nia.
Qed.

Lemma mod_mod2 r M : 0 < M -> (r mod (2 * M)) mod M = r mod M.
Proof.
  intros HM. rewrite (Z.mul_comm 2 M), Z.rem_mul_r by lia.
  rewrite (Z.mul_comm M), Z.mod_add by lia. apply Z.mod_mod. lia.
Qed.

Lemma ring_bound w mem rd cm wr Q U : ring w mem rd cm wr Q U ->
  Z.of_nat (length Q) + Z.of_nat (length U) <= depth_of w.
Proof. intros (r & _ & _ & _ & H & _). exact H. Qed.

Lemma mod_range r M : 0 < M -> 0 <= r mod M < M.
Proof. intros. apply Z.mod_pos_bound. auto. Qed.

Lemma flip_mod w r : Z.lxor (r mod (2 * depth_of w)) (depth_of w) = (r + depth_of w) mod (2 * depth_of w).
Proof.
  pose proof (depth_pos w). rewrite flip_wrap by (apply mod_range; lia).
  rewrite Z.add_mod_idemp_l by lia. reflexivity.
Qed.

Lemma ring_full w mem rd cm wr Q U : ring w mem rd cm wr Q U ->
  pfull w wr rd = (Z.of_nat (length Q) + Z.of_nat (length U) =? depth_of w).
Proof.
  intros (r & -> & -> & -> & H & _). unfold pfull. rewrite flip_mod.
  pose proof (depth_pos w).
  rewrite <- Z.add_assoc.
  pose proof (@mod2_eq r (Z.of_nat (length Q) + Z.of_nat (length U)) (depth_of w) (depth_of w)) as E.
  apply eq_true_iff_eq. rewrite !Z.eqb_eq. apply E; lia.
Qed.

Lemma ring_full_wr w mem rd cm wr Q U : ring w mem rd cm wr Q U ->
  pfull w wr cm = (Z.of_nat (length U) =? depth_of w).
Proof.
  intros (r & -> & -> & -> & H & _). unfold pfull. rewrite flip_mod.
  pose proof (depth_pos w).
  pose proof (@mod2_eq (r + Z.of_nat (length Q)) (Z.of_nat (length U)) (depth_of w) (depth_of w)) as E.
  apply eq_true_iff_eq. rewrite !Z.eqb_eq. apply E; lia.
Qed.

Lemma ring_empty w mem rd cm wr Q U : ring w mem rd cm wr Q U ->
  pempty cm rd = match Q with [] => true | _ => false end.
Proof.
  intros (r & -> & -> & -> & H & _). unfold pempty.
  pose proof (depth_pos w).
  pose proof (@mod2_eq r (Z.of_nat (length Q)) 0 (depth_of w)) as E.
  rewrite Z.add_0_r in E. destruct Q as [|x Q].
  - apply Z.eqb_eq. apply E; cbn; lia.
  - apply Z.eqb_neq. intros A. apply E in A; cbn [length] in *; lia.
Qed.

Lemma ring_diff w mem rd cm wr Q U : ring w mem rd cm wr Q U ->
  pdiff w wr rd = Z.of_nat (length Q) + Z.of_nat (length U) /\ pdiff w cm rd = Z.of_nat (length Q).
Proof.
  intros (r & -> & -> & -> & H & _). unfold pdiff. pose proof (depth_pos w).
  rewrite <- !Zminus_mod. split.
  - replace (r + _ + _ - r) with (Z.of_nat (length Q) + Z.of_nat (length U)) by lia. apply Z.mod_small; lia.
  - replace (r + _ - r) with (Z.of_nat (length Q)) by lia. apply Z.mod_small; lia.
Qed.

Lemma ring_pop w mem rd cm wr x Q U : ring w mem rd cm wr (x :: Q) U ->
  mem (rd mod depth_of w) = x /\ ring w mem (pinc w rd) cm wr Q U.
Proof.
  intros (r & -> & -> & -> & H & Hm). pose proof (depth_pos w). cbn [length] in *. split.
  - rewrite mod_mod2 by lia. rewrite <- (Hm 0%nat x eq_refl). f_equal. f_equal. lia.
  - exists (r + 1). unfold pinc. rewrite Z.add_mod_idemp_l by lia. splits; auto.
    + f_equal. lia.
    + f_equal. lia.
    + lia.
    + intros j y Hj. rewrite <- (Hm (S j) y Hj). f_equal. f_equal. lia.
Qed.

Lemma ring_push w mem rd cm wr Q U x : ring w mem rd cm wr Q U -> pfull w wr rd = false ->
  ring w (zupd mem (wr mod depth_of w) x) rd cm (pinc w wr) Q (U ++ [x]).
Proof.
  intros HR Hf. rewrite (ring_full HR) in Hf. destruct HR as (r & -> & -> & -> & H & Hm).
  pose proof (depth_pos w) as HM. set (M := depth_of w) in *.
  exists r. unfold pinc. fold M. rewrite Z.add_mod_idemp_l by lia. rewrite app_length. cbn [length].
  splits; auto.
  - f_equal. lia.
  - lia.
  - intros j y Hj. rewrite mod_mod2 by lia. rewrite app_assoc in Hj.
    destruct (Nat.lt_ge_cases j (length (Q ++ U))) as [Hlt|Hge].
    + rewrite nth_error_app1 in Hj by lia. rewrite zupd_other; [apply Hm; auto|].
      rewrite app_length in Hlt. intros E.
      pose proof (Z.div_mod (r + Z.of_nat j) M). pose proof (Z.div_mod (r + Z.of_nat (length Q) + Z.of_nat (length U)) M).
      assert ((r + Z.of_nat j) / M = (r + Z.of_nat (length Q) + Z.of_nat (length U)) / M) by nia. nia.
    + rewrite nth_error_app2 in Hj by lia.
      destruct (j - length (Q ++ U))%nat as [|k] eqn:Ek; [|destruct k; discriminate].
      cbn in Hj. inversion Hj; subst y. rewrite app_length in *.
      replace (r + Z.of_nat j) with (r + Z.of_nat (length Q) + Z.of_nat (length U)) by lia.
      apply zupd_same.
Qed.

Lemma ring_commit w mem rd cm wr Q U : ring w mem rd cm wr Q U -> ring w mem rd wr wr (Q ++ U) [].
Proof.
  intros (r & -> & -> & -> & H & Hm). exists r. rewrite app_length, app_nil_r. cbn [length].
  splits; auto; try (f_equal; lia).
Qed.

Lemma ring_rollback w mem rd cm wr Q U : ring w mem rd cm wr Q U -> ring w mem rd cm cm Q [].
Proof.
  intros (r & -> & -> & -> & H & Hm). exists r. rewrite app_nil_r. cbn [length].
  splits; auto; try (f_equal; lia).
  - intros j x Hj. apply Hm. rewrite nth_error_app1; auto. apply nth_error_Some. congruence.
Qed.

(** A store that is not followed by moving the write pointer changes nothing. *)
Lemma ring_scratch w mem rd cm wr Q U x : ring w mem rd cm wr Q U -> pfull w wr rd = false ->
  ring w (zupd mem (wr mod depth_of w) x) rd cm cm Q [].
Proof. intros H Hf. eapply ring_rollback. eapply ring_push; eauto. Qed.

Lemma ring_init w mem : ring w mem 0 0 0 [] [].
Proof.
  exists 0. cbn [length app]. pose proof (depth_pos w). rewrite !Z.mod_0_l by lia. splits; auto; try lia.
  intros [|j] x Hj; discriminate.
Qed.
