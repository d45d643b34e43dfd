From Coq Require Import String.
From Verif Require Import Base.Prelude Tools.Build_model Tools.Build_spec.

(** * Counting *)
Definition b2n (b : bool) : nat := if b then 1 else 0.
Definition total (f : job -> bool) (l : list job) : nat := list_sum (map (fun j => b2n (f j)) l).

Lemma total_lset f : forall l i j x, nth_error l i = Some j ->
  total f (lset l i x) + b2n (f j) = total f l + b2n (f x).
Proof.
  induction l as [|a l IH]; intros [|i] j x H; cbn in H; try discriminate.
  - injection H as ->. unfold total, list_sum. cbn [lset map fold_right]. lia.
  - specialize (IH i j x H). unfold total, list_sum in *. cbn [lset map fold_right]. lia.
Qed.
Lemma total_zero f l : total f l = 0 -> forall j, In j l -> f j = false.
Proof.
  induction l as [|a l IH]; intros H j Hj; [destruct Hj|].
  unfold total, list_sum in *. cbn [map fold_right] in H.
  destruct Hj as [->|Hj]; [destruct (f j); cbn [b2n] in H; [lia|reflexivity]|].
  apply IH; [lia|exact Hj].
Qed.
Lemma zero_total f l : (forall j, In j l -> f j = false) -> total f l = 0.
Proof.
  induction l as [|a l IH]; intro H; [reflexivity|]. unfold total in *. cbn.
  rewrite (H a) by (left; reflexivity). cbn. apply IH. intros j Hj. apply H. right. exact Hj.
Qed.

(** A count over indices, bounded by one over the list. *)
Lemma count_total f (P : nat -> bool) l :
  (forall i j, nth_error l i = Some j -> P i = true -> f j = true) -> count (length l) P <= total f l.
Proof.
  unfold count. revert P.
  induction l as [|a l IH]; intros P H; [cbn; lia|].
  cbn [length seq]. rewrite <- seq_shift. cbn [filter].
  assert (length (filter P (map S (seq 0 (length l)))) <= total f l) as H1.
  { assert (forall xs, length (filter P (map S xs)) = length (filter (fun i => P (S i)) xs)) as ->
      by (induction xs as [|x xs IHx]; cbn; [reflexivity|destruct (P (S x)); cbn; rewrite IHx; reflexivity]).
    apply IH. intros i j Hj HP. exact (H (S i) j Hj HP). }
  unfold total, list_sum in *. cbn [map fold_right].
  destruct (P 0) eqn:E.
  - rewrite (H 0 a eq_refl E). cbn [length b2n]. lia.
  - destruct (f a); cbn [b2n]; lia.
Qed.
Lemma count_exact f (P : nat -> bool) l :
  (forall i j, nth_error l i = Some j -> P i = f j) -> count (length l) P = total f l.
Proof.
  unfold count. revert P.
  induction l as [|a l IH]; intros P H; [reflexivity|].
  cbn [length seq]. rewrite <- seq_shift. cbn [filter].
  assert (length (filter P (map S (seq 0 (length l)))) = total f l) as H1.
  { assert (forall xs, length (filter P (map S xs)) = length (filter (fun i => P (S i)) xs)) as ->
      by (induction xs as [|x xs IHx]; cbn; [reflexivity|destruct (P (S x)); cbn; rewrite IHx; reflexivity]).
    apply IH. intros i j Hj. exact (H (S i) j Hj). }
  unfold total, list_sum in *. cbn [map fold_right].
  rewrite (H 0 a eq_refl). destruct (f a); cbn [length b2n]; lia.
Qed.

(** * Permits held *)
Definition holds_b (j : job) : bool :=
  match j_phase j with WaitSynth | Spawning | Reading _ _ | Crashed _ _ => true | _ => false end.
Definition holds_s (j : job) : bool :=
  match j_phase j with Spawning | Reading _ _ | Crashed _ _ => j_ssem j | _ => false end.

Lemma scan_over k s l : synth_over k (Line s (Some l)) = scan_done k l.
Proof.
  destruct k; cbn; [reflexivity| |].
  - destruct (prefix "xst" l) eqn:E; [|reflexivity].
    destruct l as [|c l]; [reflexivity|]. cbn in *.
    match type of E with context [if ?d then _ else _] => destruct d as [<-|]; [reflexivity|discriminate E] end.
  - destruct (prefix "quartus_fit" l) eqn:E.
    + do 9 (destruct l as [|?c l]; [discriminate E|cbn in E; match type of E with context [if ?d then _ else _] => destruct d as [<-|]; [|discriminate E] end]).
      reflexivity.
    + destruct (prefix "quartus_ipgenerate" l); [reflexivity|].
      destruct (prefix "quartus_map" l || prefix "quartus_syn" l); reflexivity.
Qed.

(** What is known of a build whose events so far are [tr] (for index [i]). *)
Definition seen_k (tr : list (nat * jev)) (i : nat) (k : kind) : bool := seen tr i (synth_over k).
Definition jinv (tr : list (nat * jev)) (i : nat) (j : job) : Prop :=
  match j_phase j with
  | Idle => seen tr i is_got_build = false /\ seen tr i is_got_synth = false /\ seen tr i is_spawned = false
            /\ seen tr i is_released = false /\ seen_k tr i (j_kind j) = false
  | WaitBuild => j_bsem j = true /\ j_ssem j = true /\
            seen tr i is_got_build = false /\ seen tr i is_got_synth = false /\ seen tr i is_spawned = false
            /\ seen tr i is_released = false /\ seen_k tr i (j_kind j) = false
  | WaitSynth => j_bsem j = true /\ j_ssem j = true /\
            seen tr i is_got_build = true /\ seen tr i is_got_synth = false /\ seen tr i is_spawned = false
            /\ seen tr i is_released = false /\ seen_k tr i (j_kind j) = false
  | Spawning => j_bsem j = true /\ j_ssem j = true /\
            seen tr i is_got_build = true /\ seen tr i is_got_synth = true /\ seen tr i is_spawned = false
            /\ seen tr i is_released = false /\ seen_k tr i (j_kind j) = false
  | Reading o e => j_bsem j = true /\ seen_k tr i (j_kind j) = negb (j_ssem j) /\
            seen tr i is_got_build = true /\ seen tr i is_got_synth = true /\ seen tr i is_released = false
            /\ (o = false -> seen tr i is_eof_out = true) /\ (e = false -> seen tr i is_eof_err = true)
  | Crashed o e => seen_k tr i (j_kind j) = negb (j_ssem j) /\
            seen tr i is_got_build = true /\ seen tr i is_got_synth = true /\ seen tr i is_released = false
  | Copying | Finished => j_bsem j = false /\ j_ssem j = false /\
            seen tr i is_got_build = true /\ seen tr i is_got_synth = true /\ seen tr i is_released = true
            /\ seen tr i is_eof_out = true /\ seen tr i is_eof_err = true
  end
  /\ (j_phase j = Finished <-> seen tr i is_copied = true)
  /\ match j_phase j with Crashed _ _ => existsb (fun e => is_failure (snd e)) tr = true | _ => True end.

Lemma seen_snoc tr i x P : seen (tr ++ [x]) i P = seen tr i P || ((fst x =? i) && P (snd x)).
Proof. unfold seen. rewrite existsb_app. cbn. rewrite orb_false_r. reflexivity. Qed.

Lemma jinv_other tr i k e j : i <> k -> jinv tr i j -> jinv (tr ++ [(k, e)]) i j.
Proof.
  intros N H.
  assert (forall P, seen (tr ++ [(k, e)]) i P = seen tr i P) as E.
  { intro P. rewrite seen_snoc. cbn [fst snd]. destruct (Nat.eqb_spec k i); [congruence|]. apply orb_false_r. }
  unfold jinv, seen_k in *. destruct H as (H1 & H2 & H3).
  split; [destruct (j_phase j); rewrite ?E; exact H1|]. split; [rewrite E; exact H2|].
  destruct (j_phase j); try exact Logic.I. rewrite existsb_app, H3. reflexivity.
Qed.

Ltac fin :=
  repeat match goal with H : forall _ : jev -> bool, _ |- _ => clear H end;
  repeat match goal with H : _ /\ _ |- _ => destruct H end;
  repeat match goal with |- _ /\ _ => split end; intros;
  lazymatch goal with
  | |- @eq nat _ _ => clear; lia
  | |- _ <-> _ => first [ split; reflexivity |
      match goal with H : _ <-> _ |- _ => let a := fresh in let b := fresh in let X := fresh in
        destruct H as [a b]; split; intro X; [discriminate X|first [reflexivity|specialize (b X); discriminate b]] end ]
  | _ => first [assumption | reflexivity | discriminate | congruence | auto ]
  end.

Lemma jstep_inv tr i j e nb ns j' nb' ns' : jinv tr i j -> jstep j e nb ns = Some (j', nb', ns') ->
  jinv (tr ++ [(i, e)]) i j' /\ j_kind j' = j_kind j /\
  nb' + b2n (holds_b j') = nb + b2n (holds_b j) /\ ns' + b2n (holds_s j') = ns + b2n (holds_s j).
Proof.
  intros H E.
  assert (forall P, seen (tr ++ [(i, e)]) i P = seen tr i P || P e) as Es.
  { intro P. rewrite seen_snoc. cbn [fst snd]. rewrite Nat.eqb_refl. reflexivity. }
  assert (existsb (fun e => is_failure (snd e)) (tr ++ [(i, e)]) = existsb (fun e => is_failure (snd e)) tr || is_failure e) as Ef
    by (rewrite existsb_app; cbn; rewrite orb_false_r; reflexivity).
  destruct j as [k p bs ss]. unfold jinv, seen_k in *. cbn [j_kind j_phase j_bsem j_ssem] in *.
  destruct e as [| | |ok|s l|s| |]; unfold jstep in E; cbn [j_phase j_kind] in E.
  - destruct p; try discriminate E. injection E as <- <- <-. cbn [j_kind j_phase j_bsem j_ssem holds_b holds_s] in *.
    rewrite !Es, ?orb_false_r. cbn [is_got_build is_got_synth is_spawned is_released is_copied synth_over]. rewrite ?orb_false_r.
    fin.
  - destruct p; try discriminate E. destruct nb as [|b]; [discriminate E|]. injection E as <- <- <-.
    cbn [j_kind j_phase j_bsem j_ssem holds_b holds_s at_phase b2n] in *. rewrite !Es.
    cbn [is_got_build is_got_synth is_spawned is_released is_copied synth_over]. rewrite ?orb_false_r, ?orb_true_r.
    fin.
  - destruct p; try discriminate E. destruct ns as [|c]; [discriminate E|]. injection E as <- <- <-.
    cbn [j_kind j_phase j_bsem j_ssem holds_b holds_s at_phase b2n] in *. rewrite !Es.
    cbn [is_got_build is_got_synth is_spawned is_released is_copied synth_over]. rewrite ?orb_false_r, ?orb_true_r.
    destruct H as ((H1 & H2 & H) & H'). rewrite H2. cbn [b2n].
    fin.
  - destruct ok, p; try discriminate E; injection E as <- <- <-;
    cbn [j_kind j_phase j_bsem j_ssem holds_b holds_s at_phase b2n] in *; rewrite !Es, ?Ef;
    cbn [is_got_build is_got_synth is_spawned is_released is_copied is_eof_out is_eof_err synth_over is_failure]; rewrite ?orb_false_r, ?orb_true_r;
    destruct H as ((H1 & H2 & H) & H'); rewrite ?H2; cbn [b2n negb];
    fin.
  - destruct l as [l|].
    + destruct p as [| | | |o r| | |o r]; try discriminate E.
      * destruct (is_open s o r); [|discriminate E].
        unfold on_line, synth_done in E. cbn [j_kind j_ssem j_phase j_bsem] in E.
        destruct (scan_done k l) eqn:Ek; [destruct ss|]; injection E as <- <- <-;
        cbn [j_kind j_phase j_bsem j_ssem holds_b holds_s b2n negb] in *; rewrite ?orb_true_r, ?orb_false_r;
        rewrite ?Es, ?scan_over, ?Ek, ?orb_true_r, ?orb_false_r;
        cbn [is_got_build is_got_synth is_spawned is_released is_copied is_eof_out is_eof_err];
        rewrite ?orb_false_r; fin.
      * destruct (is_open s o r); [|discriminate E].
        rewrite Ef. unfold on_line, synth_done in E. cbn [j_kind j_ssem j_phase j_bsem] in E.
        destruct (scan_done k l) eqn:Ek; [destruct ss|]; injection E as <- <- <-;
        cbn [j_kind j_phase j_bsem j_ssem holds_b holds_s b2n negb] in *;
        rewrite ?Es, ?scan_over, ?Ek, ?orb_true_r, ?orb_false_r;
        cbn [is_got_build is_got_synth is_spawned is_released is_copied is_eof_out is_eof_err];
        rewrite ?orb_false_r; destruct H as (H1 & H2 & H3); rewrite H3; fin.
    + destruct p as [| | | |o r| | |o r]; try discriminate E;
      (destruct (is_open s o r); [|discriminate E]); injection E as <- <- <-;
      cbn [j_kind j_phase j_bsem j_ssem holds_b holds_s at_phase b2n negb] in *; rewrite !Es, ?Ef;
      cbn [is_got_build is_got_synth is_spawned is_released is_copied is_eof_out is_eof_err synth_over is_failure];
      rewrite ?orb_true_r, ?orb_false_r; fin.
  - destruct p as [| | | |o r| | |o r]; try discriminate E;
      (destruct (is_open s o r) eqn:Eo; [|discriminate E]); injection E as <- <- <-;
      destruct s; cbn [j_kind j_phase j_bsem j_ssem holds_b holds_s at_phase b2n negb close_out close_err is_open] in *; rewrite !Es, ?Ef;
      cbn [is_got_build is_got_synth is_spawned is_released is_copied is_eof_out is_eof_err synth_over is_failure];
      rewrite ?orb_true_r, ?orb_false_r; fin.
  - destruct p as [| | | |o r| | |o r]; try discriminate E. destruct o, r; try discriminate E.
    destruct H as ((H1 & H2 & H3 & H4 & H5 & H6 & H7) & H8 & H9). subst bs.
    unfold synth_done, build_done in E. cbn [at_phase j_ssem j_bsem j_kind j_phase] in E.
    destruct ss; cbn [j_bsem j_kind j_phase j_ssem] in E; injection E as <- <- <-;
    cbn [j_kind j_phase j_bsem j_ssem holds_b holds_s at_phase b2n negb] in *; rewrite !Es;
    cbn [is_got_build is_got_synth is_spawned is_released is_copied is_eof_out is_eof_err synth_over is_failure];
    rewrite ?orb_true_r, ?orb_false_r; fin.
  - destruct p; try discriminate E. injection E as <- <- <-.
    cbn [j_kind j_phase j_bsem j_ssem holds_b holds_s at_phase b2n negb] in *; rewrite !Es;
    cbn [is_got_build is_got_synth is_spawned is_released is_copied is_eof_out is_eof_err synth_over is_failure];
    rewrite ?orb_true_r, ?orb_false_r; fin.
Qed.

(** * The whole system *)
Record inv (kinds : list kind) (p q : nat) (tr : list (nat * jev)) (s : st) : Prop := {
  i_kinds : map j_kind (s_jobs s) = kinds;
  i_jobs : forall i j, nth_error (s_jobs s) i = Some j -> jinv tr i j;
  i_b : s_build s + total holds_b (s_jobs s) = p;
  i_s : s_synth s + total holds_s (s_jobs s) = q }.

Lemma inv_init kinds p q : inv kinds p q [] (init kinds p q).
Proof.
  constructor; unfold init; cbn [s_jobs s_build s_synth].
  - rewrite map_map. cbn. apply map_id.
  - intros i j H. rewrite nth_error_map in H. destruct (nth_error kinds i); [|discriminate]. injection H as <-.
    unfold jinv, seen_k, seen. cbn. intuition congruence.
  - rewrite zero_total; [lia|]. intros j Hj. apply in_map_iff in Hj. destruct Hj as (k & <- & _). reflexivity.
  - rewrite zero_total; [lia|]. intros j Hj. apply in_map_iff in Hj. destruct Hj as (k & <- & _). reflexivity.
Qed.

Lemma map_lset A B (f : A -> B) : forall l i x, map f (lset l i x) = lset (map f l) i (f x).
Proof. induction l as [|a l IH]; intros [|i] x; cbn; [reflexivity|reflexivity|reflexivity|]. f_equal. apply IH. Qed.
Lemma lset_id A : forall (l : list A) i x, nth_error l i = Some x -> lset l i x = l.
Proof. induction l as [|a l IH]; intros [|i] x H; cbn in *; try discriminate; [congruence|]. f_equal. apply IH. exact H. Qed.

Lemma inv_step kinds p q tr s e s' : inv kinds p q tr s -> step s e = Some s' -> inv kinds p q (tr ++ [e]) s'.
Proof.
  intros [I1 I2 I3 I4] E. destruct e as [i e]. unfold step in E. cbn [fst snd] in E.
  destruct (nth_error (s_jobs s) i) as [j|] eqn:Ej; [|discriminate].
  destruct (jstep j e (s_build s) (s_synth s)) as [[[j' nb] ns]|] eqn:Es; [|discriminate].
  injection E as <-. destruct (jstep_inv _ _ _ (I2 i j Ej) Es) as (J1 & J2 & J3 & J4).
  assert (i < length (s_jobs s)) as Hi by (apply nth_error_Some; congruence).
  constructor; cbn [s_jobs s_build s_synth].
  - rewrite map_lset, J2, lset_id; [exact I1|]. rewrite nth_error_map, Ej. reflexivity.
  - intros k jk Hk. destruct (Nat.eq_dec i k) as [<-|N].
    + rewrite lset_nth_error_same in Hk by exact Hi. injection Hk as <-. exact J1.
    + rewrite lset_nth_error_other in Hk by exact N. apply jinv_other; [congruence|]. apply I2. exact Hk.
  - pose proof (total_lset holds_b _ _ j' Ej). lia.
  - pose proof (total_lset holds_s _ _ j' Ej). lia.
Qed.

Lemma steps_inv kinds p q : forall tr tr0 s s', inv kinds p q tr0 s -> steps s tr = Some s' -> inv kinds p q (tr0 ++ tr) s'.
Proof.
  induction tr as [|e tr IH]; intros tr0 s s' H E; cbn in E.
  - injection E as <-. rewrite app_nil_r. exact H.
  - destruct (step s e) as [s1|] eqn:E1; [|discriminate].
    replace (tr0 ++ e :: tr) with ((tr0 ++ [e]) ++ tr) by (rewrite <- app_assoc; reflexivity).
    eapply IH; [|exact E]. eapply inv_step; eassumption.
Qed.
Lemma reach_inv kinds p q tr s : steps (init kinds p q) tr = Some s -> inv kinds p q tr s.
Proof. intro H. exact (@steps_inv kinds p q tr [] _ _ (inv_init kinds p q) H). Qed.

Lemma inv_length kinds p q tr s : inv kinds p q tr s -> length (s_jobs s) = length kinds.
Proof. intros [I1 _ _ _]. rewrite <- I1, map_length. reflexivity. Qed.
Lemma inv_kind kinds p q tr s i j : inv kinds p q tr s -> nth_error (s_jobs s) i = Some j -> nth i kinds Vivado = j_kind j.
Proof.
  intros [I1 _ _ _] H. rewrite <- I1. apply nth_error_nth. rewrite nth_error_map, H. reflexivity.
Qed.

(** ** Limits *)
Lemma limits kinds p q tr s : steps (init kinds p q) tr = Some s ->
  count (length kinds) (running tr) <= p /\ count (length kinds) (in_synthesis kinds tr) <= q.
Proof.
  intro H. apply reach_inv in H. pose proof (inv_length H) as L. rewrite <- L. split.
  - eapply Nat.le_trans; [apply (@count_total holds_b)|pose proof (i_b H); lia].
    intros i j Hj HP. pose proof (i_jobs H _ Hj) as J. unfold jinv in J. unfold running in HP. unfold holds_b.
    apply andb_true_iff in HP. destruct HP as [P1 P2]. rewrite negb_true_iff, andb_false_iff in P2.
    destruct (j_phase j); intuition congruence.
  - eapply Nat.le_trans; [apply (@count_total holds_s)|pose proof (i_s H); lia].
    intros i j Hj HP. pose proof (i_jobs H _ Hj) as J. unfold jinv, seen_k in J. unfold in_synthesis, running in HP. unfold holds_s.
    rewrite (@inv_kind _ _ _ _ _ _ _ H Hj) in HP.
    apply andb_true_iff in HP. destruct HP as [HP P3]. rewrite negb_true_iff in P3.
    apply andb_true_iff in HP. destruct HP as [P1 P2]. rewrite negb_true_iff, andb_false_iff in P2.
    destruct (j_phase j), (j_ssem j); cbn [negb] in *; intuition congruence.
Qed.

(** ** Accounting *)
Lemma accounting kinds p q tr s : steps (init kinds p q) tr = Some s ->
  s_build s + count (length kinds) (fun i => seen tr i is_got_build && negb (seen tr i is_released)) = p /\
  s_synth s + count (length kinds) (fun i => seen tr i is_got_synth && negb (seen tr i is_released
                                     || seen tr i (synth_over (nth i kinds Vivado)))) = q.
Proof.
  intro H. apply reach_inv in H. pose proof (inv_length H) as L. rewrite <- L. split.
  - rewrite (@count_exact holds_b); [exact (i_b H)|]. intros i j Hj. pose proof (i_jobs H _ Hj) as J.
    unfold jinv in J. unfold holds_b. destruct (j_phase j); destruct J as (J & _);
    repeat match type of J with _ /\ _ => let a := fresh in destruct J as (a & J); try rewrite a end; try rewrite J; try reflexivity.
  - rewrite (@count_exact holds_s); [exact (i_s H)|]. intros i j Hj. pose proof (i_jobs H _ Hj) as J.
    rewrite (@inv_kind _ _ _ _ _ _ _ H Hj).
    unfold jinv, seen_k in J. unfold holds_s. destruct (j_phase j); destruct J as (J & _);
    repeat match type of J with _ /\ _ => let a := fresh in destruct J as (a & J); try rewrite a end; try rewrite J; try reflexivity;
    destruct (j_ssem j); reflexivity.
Qed.

Lemma all_back kinds p q tr s : steps (init kinds p q) tr = Some s ->
  (forall i, i < length kinds -> seen tr i is_copied = true) -> s_build s = p /\ s_synth s = q.
Proof.
  intros H Ha. apply reach_inv in H. pose proof (inv_length H) as L.
  assert (forall j, In j (s_jobs s) -> j_phase j = Finished) as F.
  { intros j Hj. apply In_nth_error in Hj. destruct Hj as [i Hi].
    pose proof (i_jobs H _ Hi) as (_ & J & _). apply J. apply Ha. rewrite <- L. apply nth_error_Some. congruence. }
  pose proof (i_b H) as B. pose proof (i_s H) as C.
  rewrite zero_total in B by (intros j Hj; unfold holds_b; rewrite (F j Hj); reflexivity).
  rewrite zero_total in C by (intros j Hj; unfold holds_s; rewrite (F j Hj); reflexivity). lia.
Qed.

(** ** Progress *)
Definition weight (p : phase) : nat :=
  match p with
  | Idle => 8 | WaitBuild => 7 | WaitSynth => 6 | Spawning => 5
  | Reading o e => 2 + b2n o + b2n e | Copying => 1 | Finished => 0 | Crashed _ _ => 0
  end.
Definition work (l : list job) : nat := list_sum (map (fun j => weight (j_phase j)) l).
Lemma work_lset : forall l i j x, nth_error l i = Some j ->
  work (lset l i x) + weight (j_phase j) = work l + weight (j_phase x).
Proof.
  induction l as [|a l IH]; intros [|i] j x H; cbn in H; try discriminate.
  - injection H as ->. unfold work, list_sum. cbn [lset map fold_right]. lia.
  - specialize (IH i j x H). unfold work, list_sum in *. cbn [lset map fold_right]. lia.
Qed.

Definition alive (j : job) : Prop := match j_phase j with Crashed _ _ => False | _ => True end.

Lemma jstep_forward j nb ns : alive j ->
  match j_phase j with WaitBuild => 1 <= nb | WaitSynth => 1 <= ns | Finished => False | _ => True end ->
  exists e j' nb' ns', jstep j e nb ns = Some (j', nb', ns') /\ alive j' /\ weight (j_phase j') < weight (j_phase j) /\ is_failure e = false.
Proof.
  intros Ha Hp. destruct j as [k p bs ss]. unfold alive in *. cbn [j_phase] in *.
  destruct p as [| | | |o r| | |o r]; cbn [j_phase] in *; try contradiction.
  - exists Started. do 3 eexists. split; [reflexivity|]. cbn. split; [exact Logic.I|split; [lia|reflexivity]].
  - exists GotBuild. destruct nb; [lia|]. do 3 eexists. split; [reflexivity|]. cbn. split; [exact Logic.I|split; [lia|reflexivity]].
  - exists GotSynth. destruct ns; [lia|]. do 3 eexists. split; [reflexivity|]. cbn. split; [exact Logic.I|split; [lia|reflexivity]].
  - exists (Spawned true). do 3 eexists. split; [reflexivity|]. cbn. split; [exact Logic.I|split; [lia|reflexivity]].
  - destruct o.
    + exists (Eof Out). do 3 eexists. split; [reflexivity|]. cbn. split; [exact Logic.I|split; [lia|reflexivity]].
    + destruct r.
      * exists (Eof Err). do 3 eexists. split; [reflexivity|]. cbn. split; [exact Logic.I|split; [lia|reflexivity]].
      * exists Released. unfold jstep, synth_done, build_done. cbn [j_phase at_phase j_ssem j_bsem j_kind].
        destruct ss, bs; do 3 eexists; (split; [reflexivity|]); cbn; (split; [exact Logic.I|split; [lia|reflexivity]]).
  - exists Copied. do 3 eexists. split; [reflexivity|]. cbn. split; [exact Logic.I|split; [lia|reflexivity]].
Qed.

Lemma find_phase (Q : phase -> bool) l : (exists i j, nth_error l i = Some j /\ Q (j_phase j) = true) \/ (forall j, In j l -> Q (j_phase j) = false).
Proof.
  induction l as [|a l [(i & j & H1 & H2)|H]].
  - right. intros j [].
  - left. exists (S i), j. auto.
  - destruct (Q (j_phase a)) eqn:E; [left; exists 0, a; auto|].
    right. intros j [<-|Hj]; auto.
Qed.

Lemma progress kinds p q tr s : inv kinds p q tr s -> (forall j, In j (s_jobs s) -> alive j) -> 1 <= p -> 1 <= q ->
  (forall j, In j (s_jobs s) -> j_phase j = Finished) \/
  exists e s', step s e = Some s' /\ (forall j, In j (s_jobs s') -> alive j) /\ work (s_jobs s') < work (s_jobs s)
               /\ is_failure (snd e) = false.
Proof.
  intros H Ha Hp Hq.
  assert (forall i j, nth_error (s_jobs s) i = Some j ->
    match j_phase j with WaitBuild => 1 <= s_build s | WaitSynth => 1 <= s_synth s | Finished => False | _ => True end ->
    exists e s', step s e = Some s' /\ (forall j, In j (s_jobs s') -> alive j) /\ work (s_jobs s') < work (s_jobs s)
                 /\ is_failure (snd e) = false) as Go.
  { intros i j Hj Hph.
    destruct (@jstep_forward j (s_build s) (s_synth s) (Ha j (nth_error_In _ _ Hj)) Hph) as (e & j' & nb & ns & E & Aj & W & NF).
    exists (i, e). unfold step. cbn [fst snd]. rewrite Hj, E. eexists. split; [reflexivity|]. cbn [s_jobs].
    split; [|split; [|exact NF]].
    - intros x Hx. apply In_nth_error in Hx. destruct Hx as [k Hk]. destruct (Nat.eq_dec i k) as [<-|N].
      + rewrite lset_nth_error_same in Hk by (apply nth_error_Some; congruence). injection Hk as <-. exact Aj.
      + rewrite lset_nth_error_other in Hk by exact N. apply Ha. eapply nth_error_In; exact Hk.
    - pose proof (work_lset _ _ j' Hj). lia. }
  destruct (find_phase (fun p => match p with Idle | Spawning | Reading _ _ | Copying => true | _ => false end) (s_jobs s))
    as [(i & j & Hj & Q)|N1].
  { right. apply (Go i j Hj). destruct (j_phase j); try discriminate Q; exact Logic.I. }
  assert (s_synth s = q) as Eq.
  { pose proof (i_s H) as C. rewrite zero_total in C; [lia|]. intros j Hj. specialize (N1 j Hj). specialize (Ha j Hj).
    unfold alive, holds_s in *. destruct (j_phase j); try discriminate N1; try contradiction; reflexivity. }
  destruct (find_phase (fun p => match p with WaitSynth => true | _ => false end) (s_jobs s)) as [(i & j & Hj & Q)|N2].
  { right. apply (Go i j Hj). destruct (j_phase j); try discriminate Q. lia. }
  assert (s_build s = p) as Ep.
  { pose proof (i_b H) as B. rewrite zero_total in B; [lia|]. intros j Hj. specialize (N1 j Hj). specialize (N2 j Hj). specialize (Ha j Hj).
    unfold alive, holds_b in *. destruct (j_phase j); try discriminate N1; try discriminate N2; try contradiction; reflexivity. }
  destruct (find_phase (fun p => match p with WaitBuild => true | _ => false end) (s_jobs s)) as [(i & j & Hj & Q)|N3].
  { right. apply (Go i j Hj). destruct (j_phase j); try discriminate Q. lia. }
  left. intros j Hj. specialize (N1 j Hj). specialize (N2 j Hj). specialize (N3 j Hj). specialize (Ha j Hj). unfold alive in Ha.
  destruct (j_phase j); try discriminate N1; try discriminate N2; try discriminate N3; try contradiction. reflexivity.
Qed.

Lemma steps_app : forall a b s s1, steps s a = Some s1 -> steps s (a ++ b) = steps s1 b.
Proof.
  induction a as [|e a IH]; intros b s s1 H; cbn in *; [congruence|].
  destruct (step s e); [apply IH; exact H|discriminate].
Qed.

Lemma no_deadlock kinds p q tr s : 1 <= p -> 1 <= q -> steps (init kinds p q) tr = Some s -> no_failure tr ->
  exists tr' s', steps s tr' = Some s' /\ no_failure tr' /\
  forall i, i < length kinds -> seen (tr ++ tr') i is_copied = true.
Proof.
  intros Hp Hq H Hn. apply reach_inv in H.
  assert (forall j, In j (s_jobs s) -> alive j) as Ha.
  { intros j Hj. apply In_nth_error in Hj. destruct Hj as [i Hi]. pose proof (i_jobs H _ Hi) as (_ & _ & J).
    unfold alive. destruct (j_phase j); try exact Logic.I.
    apply existsb_exists in J. destruct J as (x & Hx & Fx). pose proof (proj1 (Forall_forall _ _) Hn x Hx) as K. cbn in K. congruence. }
  clear Hn. remember (work (s_jobs s)) as w eqn:Ew. revert tr s H Ha Ew.
  induction w as [w IH] using lt_wf_ind. intros tr s H Ha Ew.
  destruct (progress H Ha Hp Hq) as [F|(e & s1 & E1 & A1 & W1 & F1)].
  - exists [], s. split; [reflexivity|]. split; [constructor|]. intros i Hi. rewrite app_nil_r.
    rewrite <- (inv_length H) in Hi. apply nth_error_Some in Hi. destruct (nth_error (s_jobs s) i) as [j|] eqn:Ej; [|congruence].
    pose proof (i_jobs H _ Ej) as (_ & J & _). apply J. apply F. eapply nth_error_In; exact Ej.
  - destruct (IH (work (s_jobs s1)) ltac:(lia) (tr ++ [e]) s1 (@inv_step _ _ _ _ _ _ _ H E1) A1 eq_refl) as (tr' & s' & S' & N' & F').
    exists (e :: tr'), s'. split; [cbn; rewrite E1; exact S'|]. split; [constructor; assumption|].
    intros i Hi. specialize (F' i Hi). rewrite <- app_assoc in F'. exact F'.
Qed.

(** ** A failed build keeps its permits *)
Lemma stuck_step s e s' : s_build s = 0 ->
  nth_error (s_jobs s) 0 = Some (mkJob Vivado (Crashed false false) true true) ->
  (exists j, nth_error (s_jobs s) 1 = Some j /\ (j_phase j = Idle \/ j_phase j = WaitBuild)) -> length (s_jobs s) = 2 ->
  step s e = Some s' ->
  s_build s' = 0 /\
  nth_error (s_jobs s') 0 = Some (mkJob Vivado (Crashed false false) true true) /\
  (exists j, nth_error (s_jobs s') 1 = Some j /\ (j_phase j = Idle \/ j_phase j = WaitBuild)) /\ length (s_jobs s') = 2 /\
  snd e <> GotBuild.
Proof.
  intros Hb H0 (j & H1 & Hj) Hl E. destruct e as [i e]. unfold step in E. cbn [fst snd] in *.
  destruct (nth_error (s_jobs s) i) as [ji|] eqn:Ei; [|discriminate].
  assert (i < 2) as Hi by (rewrite <- Hl; apply nth_error_Some; congruence).
  destruct i as [|[|i]]; [| |lia].
  - rewrite H0 in Ei. injection Ei as <-. rewrite Hb in E.
    destruct e as [| | |[]|[] [l|]|[]| |]; cbn in E; discriminate.
  - rewrite H1 in Ei. injection Ei as <-. rewrite Hb in E. destruct j as [k ph b ss]. cbn [j_phase] in Hj.
    destruct (s_jobs s) as [|x [|y [|]]]; cbn in Hl; try lia. cbn in H0, H1.
    destruct Hj as [-> | ->]; destruct e as [| | |[]|[] [l|]|[]| |]; cbn in E; try discriminate.
    injection E as <-. cbn. split; [reflexivity|]. split; [exact H0|]. split; [|split; [reflexivity|discriminate]].
    eexists. split; [reflexivity|]. right. reflexivity.
Qed.
Lemma stuck : forall tr s s', s_build s = 0 ->
  nth_error (s_jobs s) 0 = Some (mkJob Vivado (Crashed false false) true true) ->
  (exists j, nth_error (s_jobs s) 1 = Some j /\ (j_phase j = Idle \/ j_phase j = WaitBuild)) -> length (s_jobs s) = 2 ->
  steps s tr = Some s' -> forall i, seen tr i is_got_build = false.
Proof.
  induction tr as [|e tr IH]; intros s s' A B C D E i; [reflexivity|]. cbn in E.
  destruct (step s e) as [s1|] eqn:E1; [|discriminate].
  destruct (@stuck_step _ _ _ A B C D E1) as (A1 & B1 & C1 & D1 & N).
  unfold seen. cbn. rewrite (IH s1 s' A1 B1 C1 D1 E i : existsb _ tr = false), orb_false_r.
  destruct (snd e); cbn; try apply andb_false_r. congruence.
Qed.
