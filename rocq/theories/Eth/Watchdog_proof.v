(** Proofs for the receive watchdog. *)
From Coq Require Import List Arith Bool Lia.
From Verif Require Import Eth.FrameSync_model Eth.FrameSync_proof Eth.BerMon_model Eth.BerMon_proof Eth.Watchdog_model Eth.Watchdog_spec.
Import ListNotations.

Lemma wd_run_app : forall n s a b, wd_run n s (a ++ b) = wd_run n (wd_run n s a) b.
Proof. intros; apply fold_left_app. Qed.
Lemma wd_run_snoc : forall n s a x, wd_run n s (a ++ [x]) = wd_step n (wd_run n s a) x.
Proof. intros; rewrite wd_run_app; reflexivity. Qed.

Definition at_start (n e c : nat) (r u : bool) : wd :=
  {| d_time := bm_load n; d_err := e; d_st := c; d_saw := false; d_blk := 0; d_req := r; d_status := u |}.

Definition faults (p : list wd_in) : nat := length (filter fault p).

Lemma calm_snoc : forall p x, calm (p ++ [x]) -> calm p /\ v_rst x = false.
Proof. intros p x Q. apply Forall_app in Q. destruct Q as [Q1 Q2]. inversion Q2; auto. Qed.

Lemma seen_ctrl : forall x, seen x = v_lock x && ctrl_hdr (v_hdr x).
Proof. intros [r [[] []] b q l]; reflexivity. Qed.

Lemma wpart : forall n e c r u p, calm p -> length p <= bm_load n ->
  wd_run n (at_start n e c r u) p =
  {| d_time := bm_load n - length p; d_err := e; d_st := if forallb v_lock p then c else 0; d_saw := existsb seen p;
     d_blk := Nat.min 1023 (faults p); d_req := match p with [] => r | _ => false end; d_status := u && forallb v_lock p |}.
Proof.
  intros n e c r u p. induction p as [|x p IH] using rev_ind; intros Q L.
  - cbn [wd_run fold_left length existsb forallb faults filter]. rewrite Nat.sub_0_r, andb_true_r. reflexivity.
  - rewrite app_length in *. cbn [length] in *. destruct (calm_snoc _ _ Q) as [Q1 R].
    rewrite wd_run_snoc, IH by (auto; lia). clear IH. unfold wd_step. rewrite R. unfold wd_next.
    cbn [d_time d_err d_st d_saw d_blk d_req d_status].
    destruct (bm_load n - length p =? 0) eqn:E; [apply Nat.eqb_eq in E; lia|]. cbn [negb].
    rewrite forallb_app, existsb_app. cbn [forallb existsb]. rewrite <- seen_ctrl, !andb_true_r, orb_false_r.
    assert (B : faults (p ++ [x]) = faults p + (if fault x then 1 else 0)).
    { unfold faults. rewrite filter_app, app_length. cbn. now destruct (fault x). }
    rewrite B. clear B. rewrite andb_assoc. fold (fault x).
    f_equal.
    + lia.
    + destruct (v_lock x), (forallb v_lock p); reflexivity.
    + destruct (seen x), (existsb seen p); reflexivity.
    + destruct (fault x); cbn [andb]; [|lia].
      destruct (Nat.min 1023 (faults p) =? 1023) eqn:M; [apply Nat.eqb_eq in M | apply Nat.eqb_neq in M]; cbn [negb]; [lia|].
      rewrite Nat.mod_small; lia.
    + destruct p; reflexivity.
    + destruct (v_lock x), u, (forallb v_lock p); reflexivity.
Qed.

Definition poorb (p : list wd_in) : bool := negb (existsb seen p) || (1023 <=? faults p).

Lemma poorb_iff : forall w, poorb (removelast w) = true <-> poor w.
Proof.
  intro w. unfold poorb, poor. rewrite orb_true_iff, negb_true_iff, Nat.leb_le. unfold faults.
  split; intros [H|H]; auto; left.
  - intros i I. destruct (seen i) eqn:S1; auto. exfalso. rewrite <- not_true_iff_false in H. apply H, existsb_exists. eauto.
  - destruct (existsb seen (removelast w)) eqn:E; auto. apply existsb_exists in E. destruct E as (i & I & S1). rewrite H in S1; auto.
Qed.

(** The effect of a window. *)
Definition est (e : nat) (w : list wd_in) : nat := if e =? 15 then 0 else if poorb (removelast w) then e + 1 else 0.

Lemma wwhole : forall n e c r u w, e <= 15 -> c <= 15 -> calm w -> length w = S (bm_load n) ->
  exists c' u', c' <= 15 /\ wd_run n (at_start n e c r u) w = at_start n (est e w) c' (e =? 15) u' /\
    (c' <> 0 -> poorb (removelast w) = false /\ (c = 15 \/ c' <= c + 1)) /\
    (c' > 1 -> forallb v_lock (removelast w) = true) /\
    (u = false -> u' = true -> c = 15 /\ forallb v_lock (removelast w) = true) /\
    (u = true -> u' = false -> exists i, In i w /\ v_lock i = false).
Proof.
  intros n e c r u w He Hc Q L. destruct (exists_last (l := w)) as (p & x & ->); [intro; subst; discriminate|].
  rewrite app_length in L. cbn in L. destruct (calm_snoc _ _ Q) as [Q1 R].
  rewrite wd_run_snoc, wpart by (auto; lia). unfold wd_step. rewrite R. unfold wd_next, est. rewrite removelast_last.
  cbn [d_time d_err d_st d_saw d_blk d_req d_status].
  replace (bm_load n - length p =? 0) with true by (symmetry; apply Nat.eqb_eq; lia). cbn [negb].
  assert (P : negb (existsb seen p) || (Nat.min 1023 (faults p) =? 1023) = poorb p).
  { unfold poorb. f_equal. destruct (1023 <=? faults p) eqn:G; [apply Nat.leb_le in G; apply Nat.eqb_eq; lia | apply Nat.leb_gt in G; apply Nat.eqb_neq; lia]. }
  rewrite P. clear P.
  set (c0 := if forallb v_lock p then c else 0). assert (C0 : c0 <= 15) by (unfold c0; destruct (forallb v_lock p); lia).
  set (c1 := if v_lock x then c0 else 0). assert (C1 : c1 <= 15) by (unfold c1; destruct (v_lock x); lia).
  exists (if poorb p then 0 else if negb (c0 =? 15) then (c0 + 1) mod 16 else c1),
    (if c0 =? 15 then true else if v_lock x then u && forallb v_lock p else false).
  assert (M : c0 <> 15 -> (c0 + 1) mod 16 = c0 + 1) by (intro; apply Nat.mod_small; lia).
  split; [destruct (poorb p); [lia|]; destruct (c0 =? 15) eqn:E; cbn [negb]; [exact C1|]; apply Nat.eqb_neq in E; rewrite M by auto; lia|].
  split; [unfold at_start; f_equal; destruct (e =? 15) eqn:E; auto; apply Nat.eqb_neq in E; destruct (poorb p); auto; rewrite Nat.mod_small; lia|].
  split; [|split; [|split]].
  - destruct (poorb p); [intro N; now destruct N|]. intros _. split; [reflexivity|].
    destruct (c0 =? 15) eqn:E; cbn [negb]; [apply Nat.eqb_eq in E | apply Nat.eqb_neq in E].
    + left. unfold c0 in E. destruct (forallb v_lock p); lia.
    + rewrite M by auto. right. unfold c0. destruct (forallb v_lock p); lia.
  - destruct (forallb v_lock p) eqn:FL; [reflexivity|]. intro G. exfalso. revert G.
    assert (Z : c0 = 0) by reflexivity. rewrite Z. cbn. destruct (poorb p); lia.
  - intros -> U. destruct (c0 =? 15) eqn:E; [apply Nat.eqb_eq in E | cbn in U; destruct (v_lock x); discriminate].
    unfold c0 in E. destruct (forallb v_lock p); [auto|lia].
  - intros -> U. destruct (c0 =? 15); [discriminate|]. destruct (v_lock x) eqn:LX.
    + cbn in U. assert (exists i, In i p /\ v_lock i = false) as (i & I1 & I2).
      { clear -U. induction p as [|j p IH]; [discriminate|]. cbn in U. destruct (v_lock j) eqn:J.
        - destruct (IH U) as (i & I1 & I2). exists i. split; [right|]; auto.
        - exists j. split; [left|]; auto. }
      exists i. split; [apply in_or_app|]; auto.
    + exists x. split; [apply in_or_app; right; left|]; auto.
Qed.

(** The states between windows, with what the counters stand for. *)
Definition runs (P : list wd_in -> Prop) (ws : list (list wd_in)) (k : nat) : Prop :=
  exists a b, ws = a ++ b /\ length b = k /\ Forall P b.

Lemma runs_0 : forall P ws, runs P ws 0.
Proof. intros. exists ws, []. rewrite app_nil_r. auto. Qed.
Lemma runs_S : forall P ws w k, runs P ws k -> P w -> runs P (ws ++ [w]) (S k).
Proof.
  intros P ws w k (a & b & -> & <- & F) W. exists a, (b ++ [w]). rewrite app_assoc, app_length. cbn.
  repeat split; [lia|]. apply Forall_app; auto.
Qed.
Lemma runs_le : forall P ws k j, runs P ws k -> j <= k -> runs P ws j.
Proof.
  intros P ws k j (a & b & -> & <- & F) J. exists (a ++ firstn (length b - j) b), (skipn (length b - j) b).
  rewrite <- app_assoc, firstn_skipn, skipn_length. repeat split; [lia|]. apply Forall_skipn', F.
Qed.

Definition fine (w : list wd_in) : Prop := ~ poor w.

Lemma between : forall n ws h, from_reset h -> Forall (fun w => calm w /\ length w = S (bm_load n)) ws ->
  exists e c r u, wd_run n wd_power (h ++ concat ws) = at_start n e c r u /\ e <= 15 /\ c <= 15 /\
    runs poor ws e /\ runs fine ws c.
Proof.
  intros n ws h (h' & i & -> & R). induction ws as [|w ws IH] using rev_ind; intro F.
  - exists 0, 0, false, false. cbn [concat]. rewrite app_nil_r, wd_run_snoc. unfold wd_step. rewrite R.
    repeat split; try lia; apply runs_0.
  - apply Forall_app in F. destruct F as [F1 F2]. inversion F2 as [|? ? [Q L] _]; subst.
    destruct (IH F1) as (e & c & r & u & E & He & Hc & Re & Rc).
    rewrite concat_app. cbn [concat]. rewrite app_nil_r, app_assoc, wd_run_app, E.
    destruct (wwhole n e c r u w He Hc Q L) as (c' & u' & Hc' & E' & K & _).
    exists (est e w), c', (e =? 15), u'. split; [exact E'|].
    assert (X : est e w <= 15 /\ runs poor (ws ++ [w]) (est e w)).
    { unfold est. destruct (e =? 15) eqn:E15; [split; [lia|apply runs_0]|]. apply Nat.eqb_neq in E15.
      destruct (poorb (removelast w)) eqn:P; [|split; [lia|apply runs_0]]. split; [lia|].
      rewrite Nat.add_1_r. apply runs_S; auto. now apply poorb_iff. }
    destruct X. repeat split; auto. destruct c' as [|c']; [apply runs_0|]. destruct K as [K1 K2]; [lia|].
    apply runs_le with (S c); [|lia].
    apply runs_S; auto. intro PW. apply poorb_iff in PW. congruence.
Qed.

Lemma req_only : forall n h ws p, from_reset h -> Forall (fun w => calm w /\ length w = S (bm_load n)) ws ->
  calm p -> length p <= bm_load n -> reset_req n (h ++ concat ws ++ p) = true ->
  p = [] /\ exists a b w, ws = a ++ b ++ [w] /\ length b = 15 /\ Forall poor b.
Proof.
  intros n h ws p H F Q L R. unfold reset_req in R.
  destruct ws as [|w ws _] using rev_ind.
  - destruct H as (h' & i & -> & Ri). cbn [concat app] in R. rewrite wd_run_app, wd_run_snoc in R. unfold wd_step at 1 in R. rewrite Ri in R.
    change (wd_reset n) with (at_start n 0 0 false false) in R. rewrite wpart in R by auto. cbn [d_req] in R. destruct p; discriminate.
  - apply Forall_app in F. destruct F as [F1 F2]. inversion F2 as [|? ? [Qw Lw] _]; subst.
    destruct (between n ws h H F1) as (e & c & r & u & E & He & Hc & (a & b & Ew & Lb & Fb) & _).
    destruct (wwhole n e c r u w He Hc Qw Lw) as (c' & u' & Hc' & E' & _).
    rewrite concat_app in R. cbn [concat] in R. rewrite app_nil_r in R.
    replace (h ++ (concat ws ++ w) ++ p) with ((h ++ concat ws) ++ w ++ p) in R by (now rewrite <- !app_assoc).
    rewrite wd_run_app, E, wd_run_app, E' in R.
    rewrite wpart in R by auto. cbn [d_req] in R. destruct p; [|discriminate]. apply Nat.eqb_eq in R.
    split; [reflexivity|]. exists a, b, w. subst. rewrite <- app_assoc. auto.
Qed.

Lemma req_if : forall n b h ws, from_reset h -> Forall (fun w => calm w /\ length w = S (bm_load n)) (ws ++ b) ->
  length b = 16 -> Forall poor b ->
  exists k, 1 <= k <= 16 /\ reset_req n (h ++ concat (ws ++ firstn k b)) = true.
Proof.
  intros n b h ws H F Lb Fb. apply Forall_app in F. destruct F as [F1 F2].
  destruct (between n ws h H F1) as (e & c & r & u & E & He & Hc & _).
  enough (G : forall m b e c r u, e + m = 15 -> e <= 15 -> c <= 15 -> m < length b -> Forall poor b ->
     Forall (fun w => calm w /\ length w = S (bm_load n)) b ->
     d_req (wd_run n (at_start n e c r u) (concat (firstn (S m) b))) = true).
  { exists (S (15 - e)). split; [lia|]. unfold reset_req. rewrite concat_app, app_assoc, wd_run_app, E. apply G; auto; lia. }
  clear. induction m as [|m IH]; intros [|w b] e c r u Em He Hc Lb Fb F2; cbn in Lb; try lia;
    inversion Fb as [|? ? P Fb']; subst; inversion F2 as [|? ? [Q L] F2']; subst;
    destruct (wwhole n e c r u w He Hc Q L) as (c' & u' & Hc' & E' & _).
  - cbn [firstn concat]. rewrite app_nil_r, E'. cbn. apply Nat.eqb_eq. lia.
  - rewrite firstn_cons. cbn [concat]. rewrite wd_run_app, E'.
    assert (X : est e w = e + 1).
    { unfold est. destruct (e =? 15) eqn:E15; [apply Nat.eqb_eq in E15; lia|]. apply poorb_iff in P. now rewrite P. }
    rewrite X. apply IH; auto; lia.
Qed.

Lemma up_only : forall n h ws p i, from_reset h -> Forall (fun w => calm w /\ length w = S (bm_load n)) ws ->
  calm (p ++ [i]) -> length p <= bm_load n ->
  link_up n (h ++ concat ws ++ p) = false -> link_up n (h ++ concat ws ++ p ++ [i]) = true ->
  length p = bm_load n /\ (forall j, In j p -> v_lock j = true) /\ exists a b, ws = a ++ b /\ length b = 15 /\ Forall fine b.
Proof.
  intros n h ws p x H F Q L U0 U1. unfold link_up in *. destruct (calm_snoc _ _ Q) as [Q1 R].
  destruct (between n ws h H F) as (e & c & r & u & E & He & Hc & _ & (a & b & Ew & Lb & Fb)).
  rewrite app_assoc, wd_run_app, E in U0, U1. rewrite wd_run_snoc in U1. rewrite wpart in U0, U1 by auto.
  cbn [d_status] in U0. unfold wd_step in U1. rewrite R in U1. unfold wd_next in U1.
  cbn [d_time d_err d_st d_saw d_blk d_req d_status] in U1. rewrite U0 in U1.
  destruct (bm_load n - length p =? 0) eqn:Z; cbn [negb d_status] in U1; [|destruct (v_lock x); discriminate].
  apply Nat.eqb_eq in Z. destruct (_ =? 15) eqn:C in U1; [|destruct (v_lock x); discriminate]. apply Nat.eqb_eq in C.
  destruct (forallb v_lock p) eqn:FL; [|discriminate]. rewrite forallb_forall in FL.
  split; [lia|]. split; [exact FL|]. exists a, b. subst. auto.
Qed.

(** Any state: status goes down only without lock. *)
Lemma down_only : forall n h i, link_up n h = true -> link_up n (h ++ [i]) = false -> v_rst i = true \/ v_lock i = false.
Proof.
  intros n h x U0 U1. unfold link_up in *. rewrite wd_run_snoc in U1. set (s := wd_run n wd_power h) in *. clearbody s.
  unfold wd_step in U1. destruct (v_rst x); [auto|]. right. unfold wd_next in U1.
  destruct (v_lock x); [|reflexivity]. exfalso. destruct (d_time s =? 0); cbn [negb d_status] in U1; [destruct (d_st s =? 15)|]; congruence.
Qed.

Lemma down_if : forall n h ws p i, from_reset h -> Forall (fun w => calm w /\ length w = S (bm_load n)) ws ->
  calm (p ++ [i]) -> length p < bm_load n -> v_lock i = false -> link_up n (h ++ concat ws ++ p ++ [i]) = false.
Proof.
  intros n h ws p x H F Q L V. unfold link_up. destruct (calm_snoc _ _ Q) as [Q1 R].
  destruct (between n ws h H F) as (e & c & r & u & E & He & Hc & _).
  rewrite app_assoc, wd_run_app, E, wpart; [|exact Q|rewrite app_length; cbn; lia]. cbn [d_status].
  rewrite forallb_app. cbn. rewrite V. now rewrite !andb_false_r.
Qed.
