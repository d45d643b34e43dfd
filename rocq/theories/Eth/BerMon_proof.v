(** Proofs for the bit error rate monitor. *)
From Coq Require Import List Arith Bool Lia.
From Verif Require Import Eth.FrameSync_model Eth.FrameSync_spec Eth.FrameSync_proof Eth.BerMon_model Eth.BerMon_spec.
Import ListNotations.

Lemma bm_run_app : forall n s a b, bm_run n s (a ++ b) = bm_run n (bm_run n s a) b.
Proof. intros; apply fold_left_app. Qed.
Lemma bm_run_snoc : forall n s a x, bm_run n s (a ++ [x]) = bm_step n (bm_run n s a) x.
Proof. intros; rewrite bm_run_app; reflexivity. Qed.

Definition st (n : nat) (hi : bool) : bm := {| b_time := bm_load n; b_ber := 0; b_high := hi |}.

Lemma quiet_snoc : forall p x, quiet (p ++ [x]) -> quiet p /\ i_rst x = false.
Proof. intros p x Q. apply Forall_app in Q. destruct Q as [Q1 Q2]. inversion Q2; auto. Qed.

Lemma bad_sync : forall x, i_rst x = false -> bad x = negb (sync_hdr (i_hdr x)).
Proof. intros x R. unfold bad. rewrite R, sync_xor. reflexivity. Qed.

Lemma part : forall n hi p, quiet p -> length p <= bm_load n ->
  bm_run n (st n hi) p = {| b_time := bm_load n - length p; b_ber := Nat.min 15 (bads p); b_high := hi || (16 <=? bads p) |}.
Proof.
  intros n hi p. induction p as [|x p IH] using rev_ind; intros Q L.
  - cbn. rewrite Nat.sub_0_r, orb_false_r. reflexivity.
  - rewrite app_length in *. cbn [length] in *. destruct (quiet_snoc _ _ Q) as [Q1 R].
    rewrite bm_run_snoc, IH by (auto; lia). clear IH. rewrite bads_snoc.
    unfold bm_step. rewrite R. unfold bm_next. cbn [b_time b_ber b_high].
    destruct (bm_load n - length p =? 0) eqn:E; [apply Nat.eqb_eq in E; lia|].
    pose proof (bad_sync x R) as B. destruct (sync_hdr (i_hdr x)); cbn [negb] in B; rewrite B; rewrite ?andb_false_r.
    + rewrite Nat.add_0_r. f_equal; lia.
    + destruct (Nat.min 15 (bads p) =? 15) eqn:M; [apply Nat.eqb_eq in M | apply Nat.eqb_neq in M].
      * f_equal; [lia|lia|]. replace (16 <=? bads p + 1) with true by (symmetry; apply Nat.leb_le; lia). now rewrite orb_true_r.
      * f_equal; [lia|rewrite Nat.mod_small; lia|].
        replace (16 <=? bads p + 1) with false by (symmetry; apply Nat.leb_gt; lia).
        replace (16 <=? bads p) with false by (symmetry; apply Nat.leb_gt; lia). reflexivity.
Qed.

Lemma whole : forall n hi w, quiet w -> length w = S (bm_load n) -> bm_run n (st n hi) w = st n (verdict hi w).
Proof.
  intros n hi w Q L. destruct (exists_last (l := w)) as (p & x & ->); [intro; subst; discriminate|].
  rewrite app_length in L. cbn in L. destruct (quiet_snoc _ _ Q) as [Q1 R].
  rewrite bm_run_snoc, part by (auto; lia). unfold verdict. rewrite removelast_last, bads_snoc.
  unfold bm_step. rewrite R. unfold bm_next, st. cbn [b_time b_ber b_high].
  replace (bm_load n - length p =? 0) with true by (symmetry; apply Nat.eqb_eq; lia). rewrite andb_true_r.
  f_equal. pose proof (bad_sync x R) as B. destruct (sync_hdr (i_hdr x)); cbn [negb] in B; rewrite B;
    destruct (Nat.min 15 (bads p) =? 15) eqn:M; [apply Nat.eqb_eq in M | apply Nat.eqb_neq in M | apply Nat.eqb_eq in M | apply Nat.eqb_neq in M]; cbn [negb].
  - rewrite Nat.add_0_r. destruct (16 <=? bads p) eqn:G; [apply orb_true_r|]. apply Nat.leb_gt in G.
    replace (bads p =? 15) with true by (symmetry; apply Nat.eqb_eq; lia). apply orb_false_r.
  - replace (16 <=? bads p + 0) with false by (symmetry; apply Nat.leb_gt; lia).
    replace (bads p =? 15) with false by (symmetry; apply Nat.eqb_neq; lia). reflexivity.
  - replace (16 <=? bads p + 1) with true by (symmetry; apply Nat.leb_le; lia). reflexivity.
  - replace (16 <=? bads p + 1) with false by (symmetry; apply Nat.leb_gt; lia).
    replace (bads p =? 15) with false by (symmetry; apply Nat.eqb_neq; lia). reflexivity.
Qed.

Lemma wholes : forall n ws hi, Forall (fun w => quiet w /\ length w = S (bm_load n)) ws ->
  bm_run n (st n hi) (concat ws) = st n (fold_left verdict ws hi).
Proof.
  induction ws as [|w ws IH]; intros hi F; [reflexivity|]. inversion F as [|? ? [Q L] F']; subst.
  cbn [concat fold_left]. rewrite bm_run_app, whole by auto. apply IH, F'.
Qed.

Lemma anew_init : forall n h, anew h -> bm_run n (bm_init n) h = bm_init n.
Proof.
  intros n h [->|(h' & i & -> & R)]; [reflexivity|]. rewrite bm_run_snoc. unfold bm_step. now rewrite R.
Qed.

Lemma alarm_is : forall n h ws p, anew h -> Forall (fun w => quiet w /\ length w = S (bm_load n)) ws ->
  quiet p -> length p <= bm_load n ->
  alarm n (h ++ concat ws ++ p) = fold_left verdict ws false || (16 <=? bads p).
Proof.
  intros n h ws p A F Q L. unfold alarm. rewrite !bm_run_app, anew_init by exact A.
  change (bm_init n) with (st n false). rewrite wholes, part by auto. reflexivity.
Qed.

Lemma load_small : forall n, (forall k, n <> 2 ^ k) -> bm_load n = n.
Proof.
  intros n P. unfold bm_load. destruct n as [|[|n]]; [reflexivity | now destruct (P 0)|].
  apply Nat.mod_small. pose proof (Nat.log2_up_spec (S (S n))) as [_ H]; [lia|].
  specialize (P (Nat.log2_up (S (S n)))). lia.
Qed.

Lemma load_pow2 : forall k, bm_load (2 ^ k) = 0.
Proof. intro k. unfold bm_load. rewrite Nat.log2_up_pow2 by lia. apply Nat.mod_same, Nat.pow_nonzero. lia. Qed.

Lemma deaf : forall k h, bm_run (2 ^ k) (bm_init (2 ^ k)) h = {| b_time := 0; b_ber := 0; b_high := false |}.
Proof.
  intros k h. unfold bm_init. rewrite load_pow2. induction h as [|x h IH] using rev_ind; [reflexivity|].
  rewrite bm_run_snoc, IH. unfold bm_step, bm_init, bm_next. rewrite load_pow2. cbn.
  destruct (i_rst x), (sync_hdr (i_hdr x)); reflexivity.
Qed.

(** Rising: in the windows since power-up or the last reset. *)
Lemma bads_skip : forall p q, bads (p ++ q) = bads p + bads q.
Proof. intros; unfold bads; now rewrite filter_app, app_length. Qed.

Definition binv (n : nat) (h : list fs_in) (s : bm) : Prop :=
  exists h0 w, h = h0 ++ w /\ quiet w /\ b_time s + length w = bm_load n /\ b_ber s = Nat.min 15 (bads w).

Lemma binv_run : forall n h, binv n h (bm_run n (bm_init n) h).
Proof.
  intros n h. induction h as [|x h IH] using rev_ind.
  - exists [], []. repeat split; auto; cbn; try lia. constructor.
  - rewrite bm_run_snoc. set (s := bm_run n (bm_init n) h) in *. clearbody s.
    destruct IH as (h0 & w & E & Q & T & B).
    unfold bm_step. destruct (i_rst x) eqn:R; [exists (h ++ [x]), []; rewrite app_nil_r; repeat split; cbn; auto; constructor|].
    unfold bm_next. destruct (b_time s =? 0) eqn:Z.
    + exists (h ++ [x]), []. rewrite app_nil_r. repeat split; cbn; auto. constructor.
    + apply Nat.eqb_neq in Z. exists h0, (w ++ [x]). split; [rewrite E; symmetry; apply app_assoc|].
      split; [apply Forall_app; split; [exact Q|constructor; auto]|]. rewrite app_length, bads_snoc. cbn [length b_time b_ber].
      split; [lia|]. rewrite (bad_sync x R). destruct (sync_hdr (i_hdr x)); cbn [negb]; [lia|].
      destruct (b_ber s =? 15) eqn:F; [apply Nat.eqb_eq in F; lia|]. apply Nat.eqb_neq in F. rewrite Nat.mod_small; lia.
Qed.

Lemma raised : forall n h i, alarm n h = false -> alarm n (h ++ [i]) = true ->
  exists h0 w, h ++ [i] = h0 ++ w /\ quiet w /\ length w <= S (bm_load n) /\ bads w >= 16.
Proof.
  intros n h x A0 A1. unfold alarm in *. rewrite bm_run_snoc in A1. pose proof (binv_run n h) as I.
  set (s := bm_run n (bm_init n) h) in *. clearbody s. destruct I as (h0 & w & E & Q & T & B).
  unfold bm_step in A1. destruct (i_rst x) eqn:R; [discriminate|]. unfold bm_next in A1. cbn [b_high] in A1.
  pose proof (bad_sync x R) as X. destruct (sync_hdr (i_hdr x)); cbn [negb] in X.
  - rewrite A0 in A1. destruct (negb (b_ber s =? 15) && (b_time s =? 0)); discriminate.
  - destruct (b_ber s =? 15) eqn:F; [|rewrite A0 in A1; destruct (b_time s =? 0); discriminate].
    apply Nat.eqb_eq in F. exists h0, (w ++ [x]). split; [rewrite E; symmetry; apply app_assoc|].
    split; [apply Forall_app; split; [exact Q|constructor; auto]|]. rewrite app_length, bads_snoc, X. cbn [length]. lia.
Qed.
