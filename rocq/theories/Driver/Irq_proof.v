(** Proofs about edge-triggered interrupts. *)
From Verif Require Import Base.Prelude Driver.Irq_model Driver.Irq_spec.
Local Open Scope Z_scope.

Lemma irq_bit v x : (Z.land v (Z.shiftl 1 (Z.of_nat x)) =? 0) = negb (line v x).
Proof.
  unfold line. destruct (Z.testbit v (Z.of_nat x)) eqn:E; simpl.
  - apply Z.eqb_neq. intro H.
    assert (T : Z.testbit (Z.land v (Z.shiftl 1 (Z.of_nat x))) (Z.of_nat x) = false)
      by (rewrite H; apply Z.bits_0).
    rewrite Z.land_spec, E, Z.shiftl_spec in T by lia.
    rewrite Z.sub_diag in T. discriminate.
  - apply Z.eqb_eq. apply Z.bits_inj'. intros n Hn.
    rewrite Z.bits_0, Z.land_spec, Z.shiftl_spec by lia.
    destruct (Z.eq_dec n (Z.of_nat x)) as [->|Hne].
    + rewrite E. reflexivity.
    + assert (Z.testbit 1 (n - Z.of_nat x) = false) as ->.
      { destruct (Z.ltb_spec n (Z.of_nat x)).
        - apply Z.testbit_neg_r; lia.
        - replace 1 with (2 ^ 0) by reflexivity. apply Z.pow2_bits_false. lia. }
      apply andb_false_r.
Qed.

Lemma put_all_from count : forall a q edge i,
  fold_left (fun q x => if Z.land edge (Z.shiftl 1 (Z.of_nat x)) =? 0 then q else irq_put q x)
    (seq a count) q i =
  ((if (a <=? i)%nat && (i <? a + count)%nat && line edge i then 1 else 0) + q i)%nat.
Proof.
  induction count as [|c IH]; intros a q edge i; cbn [seq fold_left].
  - destruct ((a <=? i)%nat && (i <? a + 0)%nat) eqn:E; auto.
    apply andb_prop in E as [E1 E2]. apply Nat.leb_le in E1. apply Nat.ltb_lt in E2. lia.
  - rewrite IH, irq_bit.
    destruct (Nat.eq_dec i a) as [->|Hne].
    + assert ((S a <=? a)%nat = false) as -> by (apply Nat.leb_gt; lia).
      assert ((a <=? a)%nat = true) as -> by (apply Nat.leb_le; lia).
      assert ((a <? a + S c)%nat = true) as -> by (apply Nat.ltb_lt; lia).
      simpl. destruct (line edge a); simpl; auto.
      unfold irq_put, nupd. rewrite Nat.eqb_refl. reflexivity.
    + assert (Q : (if negb (line edge a) then q else irq_put q a) i = q i).
      { destruct (line edge a); simpl; auto. unfold irq_put, nupd.
        destruct (Nat.eqb_spec i a); auto. lia. }
      assert (((S a <=? i)%nat && (i <? S a + c)%nat) = ((a <=? i)%nat && (i <? a + S c)%nat)) as ->.
      { apply Bool.eq_iff_eq_true. rewrite !andb_true_iff, !Nat.leb_le, !Nat.ltb_lt. lia. }
      rewrite Q. reflexivity.
Qed.

Lemma put_all_spec count edge q i : (i < count)%nat ->
  irq_put_all count edge q i = ((if line edge i then 1 else 0) + q i)%nat.
Proof.
  intros H. unfold irq_put_all. rewrite put_all_from.
  assert ((i <? 0 + count)%nat = true) as -> by (apply Nat.ltb_lt; lia). reflexivity.
Qed.

Lemma line_edge v i : line (Z.land v (Z.lnot 0)) i = line v i.
Proof.
  unfold line. rewrite Z.land_spec, Z.lnot_spec by lia. rewrite Z.bits_0. apply andb_true_r.
Qed.

(** Accounting: calls + queued = changes that leave the line high. *)
Lemma irq_account count i ops : (i < count)%nat -> forall s s' os,
  iq_last s = 0 -> trace (irq_step count) s ops = (s', os) ->
  iq_last s' = 0 /\ iq_sig s' = level (iq_sig s) (wave ops) /\
  (calls i os + iq_queue s' i = high_changes i (iq_sig s) (wave ops) + iq_queue s i)%nat.
Proof.
  intros Hi. induction ops as [|o ops IH]; intros s s' os Hl T.
  - cbn in T. injection T as <- <-. cbn. auto.
  - cbn [trace] in T. destruct (irq_step count s o) as [s1 o1] eqn:E.
    destruct (trace (irq_step count) s1 ops) as [s2 os2] eqn:T2.
    injection T as <- <-.
    destruct o as [v|j|j]; cbn [irq_step] in E.
    + injection E as <- <-. cbn [wave calls high_changes level].
      destruct (Z.eqb_spec v (iq_sig s)) as [->|Hne].
      * destruct (IH _ _ _ Hl T2) as (A & B & C). rewrite andb_false_r. auto.
      * destruct (IH (irq_edge count v s) _ _ Hl T2) as (A & B & C). cbn in B, C.
        split; [exact A|]. split; [exact B|].
        rewrite C. cbn [irq_edge iq_queue]. rewrite put_all_spec, Hl by exact Hi.
        rewrite line_edge, andb_true_r. lia.
    + destruct (iq_busy s j) eqn:Bz.
      { injection E as <- <-. cbn. apply IH; auto. }
      destruct (iq_queue s j) as [|n] eqn:Q.
      { injection E as <- <-. cbn. apply IH; auto. }
      injection E as <- <-. cbn [wave calls].
      destruct (IH (mkIrqs (iq_sig s) (iq_last s) (nupd (iq_queue s) j n) (nupd (iq_busy s) j true)) _ _ Hl T2) as (A & B & C).
      cbn in B, C. split; [exact A|]. split; [exact B|].
      unfold nupd in C. destruct (Nat.eqb_spec j i) as [->|Hne].
      * rewrite Nat.eqb_refl in C. lia.
      * destruct (Nat.eqb_spec i j); [congruence|]. lia.
    + injection E as <- <-. cbn [wave calls].
      destruct (IH (mkIrqs (iq_sig s) (iq_last s) (iq_queue s) (nupd (iq_busy s) j false)) _ _ Hl T2) as (A & B & C).
      cbn in B, C. auto.
Qed.

Lemma irq_turns count i : forall n s s' os,
  trace (irq_step count) s (turns n i) = (s', os) ->
  iq_queue s' i = (iq_queue s i - n)%nat.
Proof.
  induction n as [|n IH]; intros s s' os T.
  - cbn in T. injection T as <- <-. lia.
  - cbn [turns trace] in T. cbn [irq_step iq_busy iq_queue] in T.
    unfold nupd at 1 in T. rewrite Nat.eqb_refl in T.
    destruct (iq_queue s i) as [|m] eqn:Q.
    + destruct (trace (irq_step count) _ (turns n i)) as [s2 os2] eqn:T2.
      injection T as <- <-. apply IH in T2. cbn in T2. lia.
    + destruct (trace (irq_step count) _ (turns n i)) as [s2 os2] eqn:T2.
      injection T as <- <-. apply IH in T2. cbn in T2.
      unfold nupd in T2. rewrite Nat.eqb_refl in T2. lia.
Qed.

Lemma wave_turns n i : wave (turns n i) = [].
Proof. induction n; auto. Qed.

Lemma wave_app a b : wave (a ++ b) = wave a ++ wave b.
Proof.
  induction a as [|o a IH]; auto. destruct o; cbn; rewrite ?IH; auto.
Qed.

Lemma calls_le count i v0 ops : (i < count)%nat ->
  (calls i (snd (trace (irq_step count) (irq_init v0) ops)) <= high_changes i v0 (wave ops))%nat.
Proof.
  intros Hi. destruct (trace _ _ _) as [s os] eqn:T.
  destruct (@irq_account count i ops Hi (irq_init v0) s os eq_refl T) as (_ & _ & C). cbn in C.
  cbn. lia.
Qed.

Lemma calls_flushed count i v0 ops n : (i < count)%nat ->
  (high_changes i v0 (wave ops) <= n)%nat ->
  calls i (snd (trace (irq_step count) (irq_init v0) (ops ++ turns n i))) =
  high_changes i v0 (wave ops).
Proof.
  intros Hi Hn. destruct (trace _ _ _) as [s os] eqn:T.
  destruct (@irq_account count i _ Hi (irq_init v0) s os eq_refl T) as (_ & _ & C). cbn in C.
  rewrite wave_app, wave_turns, app_nil_r in C.
  rewrite trace_app in T.
  destruct (trace (irq_step count) (irq_init v0) ops) as [s1 o1] eqn:T1.
  destruct (trace (irq_step count) s1 (turns n i)) as [s2 o2] eqn:T2.
  injection T as <- <-.
  destruct (@irq_account count i _ Hi (irq_init v0) s1 o1 eq_refl T1) as (_ & _ & C1). cbn in C1.
  apply irq_turns in T2. cbn. lia.
Qed.

Lemma rises_le_high i : forall vs u, (rises i u vs <= high_changes i u vs)%nat.
Proof.
  induction vs as [|v vs IH]; intros u; cbn; auto.
  specialize (IH v). destruct (line v i) eqn:L; cbn; [|lia].
  destruct (line u i) eqn:Lu; cbn; [lia|].
  destruct (Z.eqb_spec v u) as [->|]; cbn; [congruence|lia].
Qed.

Lemma rises_eq_high i : forall vs u, others_still i u vs -> high_changes i u vs = rises i u vs.
Proof.
  induction vs as [|v vs IH]; intros u H; cbn; auto.
  destruct H as [H1 H2]. rewrite (IH v H2).
  destruct (line v i) eqn:L; cbn; auto.
  destruct (Z.eqb_spec v u) as [->|Hne]; cbn.
  - rewrite L. reflexivity.
  - destruct (line u i) eqn:Lu; cbn; auto. exfalso. auto.
Qed.

Lemma single_line_still : forall vs u, on_lines 1 u -> Forall (on_lines 1) vs -> others_still 0 u vs.
Proof.
  induction vs as [|v vs IH]; intros u Hu HF; cbn; auto.
  inversion HF; subst. split; auto. unfold on_lines, line in *. cbn in *.
  intros A B. assert (u = 0 \/ u = 1) as [->| ->] by lia; [discriminate|].
  assert (v = 0 \/ v = 1) as [->| ->] by lia; [discriminate|]. reflexivity.
Qed.

Lemma irq_no_overlap count i : forall ops s s' os,
  trace (irq_step count) s ops = (s', os) ->
  (calls i os + (if iq_busy s i then 1 else 0) <= (if iq_busy s' i then 1 else 0) + returns i ops)%nat.
Proof.
  induction ops as [|o ops IH]; intros s s' os T.
  - cbn in T. injection T as <- <-. cbn. lia.
  - cbn [trace] in T. destruct (irq_step count s o) as [s1 o1] eqn:E.
    destruct (trace (irq_step count) s1 ops) as [s2 os2] eqn:T2.
    injection T as <- <-. specialize (IH _ _ _ T2).
    destruct o as [v|j|j]; cbn [irq_step] in E.
    + injection E as <- <-. cbn. destruct (v =? iq_sig s); exact IH.
    + destruct (iq_busy s j) eqn:Bz.
      { injection E as <- <-. exact IH. }
      destruct (iq_queue s j) as [|n] eqn:Q.
      { injection E as <- <-. exact IH. }
      injection E as <- <-. cbn in *. unfold nupd in IH.
      destruct (Nat.eqb_spec j i) as [->|Hne].
      * rewrite Nat.eqb_refl in IH. rewrite Bz. lia.
      * destruct (Nat.eqb_spec i j); [congruence|]. exact IH.
    + injection E as <- <-. cbn in *. unfold nupd in IH.
      destruct (Nat.eqb_spec j i) as [->|Hne].
      * rewrite Nat.eqb_refl in IH. destruct (iq_busy s i); lia.
      * destruct (Nat.eqb_spec i j); [congruence|]. exact IH.
Qed.

Lemma irq_order count i v0 ops :
  (returns i ops <= 0 -> calls i (snd (trace (irq_step count) (irq_init v0) ops)) <= 1)%nat /\
  (calls i (snd (trace (irq_step count) (irq_init v0) ops)) <= 1 + returns i ops)%nat.
Proof.
  destruct (trace _ _ _) as [s os] eqn:T. apply (@irq_no_overlap count i) in T. cbn in *.
  destruct (iq_busy s i); split; lia.
Qed.

Lemma from_edge_silent : forall ops s s' os,
  f_queue s = O -> trace irq1_step s ops = (s', os) -> Forall (fun b => b = false) os.
Proof.
  induction ops as [|o ops IH]; intros s s' os Hq T.
  - cbn in T. injection T as <- <-. constructor.
  - cbn [trace] in T. destruct (irq1_step s o) as [s1 o1] eqn:E.
    destruct (trace irq1_step s1 ops) as [s2 os2] eqn:T2. injection T as <- <-.
    assert (f_queue s1 = O /\ o1 = false) as [Q1 ->].
    { destruct o; cbn in E.
      - injection E as <- <-. cbn. unfold irq1_rise. rewrite Hq. destruct (v && _); auto.
      - destruct (f_busy s); [injection E as <- <-; auto|]. rewrite Hq in E. injection E as <- <-; auto.
      - injection E as <- <-; auto. }
    constructor; auto. eapply IH; eauto.
Qed.
