From Verif Require Import Base.Prelude Base.Bits Rtl.Handshake_spec Rtl.Handshake_proof Stream.Axis_model Nic.CplWrite_model Nic.CplWrite_spec Nic.CplWrite_proof.
From Coq Require Import Lia Arith ZArith.
Local Open Scope Z_scope.
#[local] Unset Implicit Arguments.

Lemma pipe_shift l x y : pipe_step true (y :: l) x = l ++ [x].
Proof. revert y. induction l as [|z l IH]; intros y; [reflexivity|]. change (z :: pipe_step true (z :: l) x = (z :: l) ++ [x]). rewrite IH. reflexivity. Qed.
Lemma pipe_length g l x : length (pipe_step g l x) = length l.
Proof. revert g. induction l as [|y l IH]; intros g; cbn; [reflexivity|]. rewrite IH. reflexivity. Qed.
Lemma somes_snoc (l : list (option Z)) x : somes (l ++ [x]) = somes l ++ olist x.
Proof. rewrite somes_app. f_equal. destruct x; reflexivity. Qed.
Lemma somes_le {X} (l : list (option X)) : (length (somes l) <= length l)%nat.
Proof. induction l as [|y l IH]; [cbn; lia|]. rewrite somes_cons, app_length. destruct y; cbn [olist length]; lia. Qed.
Lemma pipe_flow g l x : l <> [] -> (x = None \/ pipe_ready g l = true) ->
  olist (if g then hd None l else None) ++ somes (pipe_step g l x) = somes l ++ olist x.
Proof.
  destruct g.
  - destruct l as [|y l]; [congruence|]. intros _ _. rewrite pipe_shift, somes_snoc, somes_cons, app_assoc. reflexivity.
  - cbn [olist app]. induction l as [|y l IH]; [congruence|]. intros _ H. destruct y as [y|].
    + cbn [pipe_step isnone orb]. destruct l as [|z l].
      * destruct H as [->|H]; [reflexivity|discriminate].
      * rewrite !somes_cons, <- app_assoc. rewrite IH; [reflexivity|discriminate|]. destruct H as [H|H]; [left; exact H|right]. exact H.
    + change (pipe_step false (None :: l) x) with (pipe_step true (None :: l) x). rewrite pipe_shift, somes_snoc, somes_cons. reflexivity.
Qed.

Lemma sum_bit m (b : bool) x j : 0 <= m -> 0 <= j -> Z.testbit ((if b then 2 ^ m else 0) + x mod 2 ^ m) j =
  if j <? m then Z.testbit x j else if j =? m then b else false.
Proof.
  intros M J. pose proof (Z.pow_pos_nonneg 2 m ltac:(lia) M) as P. pose proof (Z.mod_pos_bound x (2 ^ m) P) as B.
  destruct (Z.ltb_spec j m).
  - transitivity (Z.testbit (((if b then 2 ^ m else 0) + x mod 2 ^ m) mod 2 ^ m) j).
    { symmetry. apply Z.mod_pow2_bits_low. lia. }
    rewrite <- (Z.mod_pow2_bits_low x m j) by lia. f_equal. rewrite Z.add_mod_idemp_r by lia. destruct b; [|reflexivity].
    replace (2 ^ m + x) with (x + 1 * 2 ^ m) by lia. apply Z.mod_add. lia.
  - destruct b; [|rewrite Z.add_0_l, Z.mod_pow2_bits_high by lia; destruct (j =? m); reflexivity].
    rewrite testbit_odd_div by lia. destruct (Z.eqb_spec j m) as [->|E].
    + replace ((2 ^ m + x mod 2 ^ m) / 2 ^ m) with 1; [reflexivity|]. apply Z.div_unique with (x mod 2 ^ m); lia.
    + rewrite Z.div_small; [reflexivity|]. split; [lia|]. assert (2 ^ (m + 1) <= 2 ^ j) by (apply Z.pow_le_mono_r; lia). rewrite Z.pow_add_r in H0 by lia. lia.
Qed.

Lemma Forall2_length {X Y} (P : X -> Y -> Prop) l m : Forall2 P l m -> length l = length m.
Proof. induction 1; cbn; congruence. Qed.

Lemma word_ok c n e p r : sane c -> n_data e = q_data (p_req p) -> p_ans p = Some r -> n_phase e = r_phase r -> data_ok c n p (piece c n (word c e)).
Proof.
  intros (S1 & S2 & _) D An Ph j J. unfold piece. rewrite Z.mod_pow2_bits_low by lia. rewrite Z.shiftr_spec by lia. unfold word, record_bit.
  rewrite sum_bit by nia. rewrite D, An, Ph. replace (j + w_seg c * Z.of_nat n) with (w_seg c * Z.of_nat n + j) by lia. reflexivity.
Qed.

Section Step.
  Variables (c : wcfg) (s : wst) (L : ledger) (hold : nat -> option resp) (A : list nat) (F : nat) (h : logs) (i : win) (n : nat).
  Hypothesis Sane : sane c.
  Hypothesis I : inv c s L hold A F h.
  Notation o := (snd (w_step c s i)).
  Hypothesis W : owed c L hold i o.
  Lemma data_step R D : length (x_pipe s n) = w_pipe c -> Forall2 (fits c n) R (D ++ somes (x_pipe s n)) ->
    length (x_pipe (fst (w_step c s i)) n) = w_pipe c /\
    Forall2 (fits c n) (R ++ wanted c n L i o) ((D ++ olist (data_out n i o)) ++ somes (x_pipe (fst (w_step c s i)) n)).
  Proof.
    intros Ln H. pose proof (w_rst _ _ _ _ _ W) as Rs. 
    assert (E : x_pipe (fst (w_step c s i)) n = pipe_step (i_rrdy i n) (x_pipe s n)
      (match i_cmd i n with
       | Some a => if pipe_ready (i_rrdy i n) (x_pipe s n) then Some (piece c n (word c (x_tab s (wslot c (Z.to_nat (a mod Z.of_nat (w_n c))))))) else None
       | None => None end)) by (unfold w_step; rewrite Rs; reflexivity).
    rewrite E. clear E. split; [rewrite pipe_length; exact Ln|].
    rewrite <- app_assoc. unfold data_out. change (o_data o n) with (hd None (x_pipe s n)).
    rewrite pipe_flow.
    2:{ intros E. rewrite E in Ln. destruct Sane as (_ & _ & P & _). cbn in Ln. lia. }
    2:{ destruct (i_cmd i n); [|left; reflexivity]. destruct (pipe_ready _ _); [right; reflexivity|left; reflexivity]. }
    rewrite app_assoc. apply Forall2_app; [exact H|]. unfold wanted, cmd_in. change (o_cmdrdy o n) with (pipe_ready (i_rrdy i n) (x_pipe s n)).
    destruct (i_cmd i n) as [a|]; [|destruct (pipe_ready _ _); constructor]. destruct (pipe_ready _ _); [|constructor]. cbn [olist]. constructor; [|constructor].
    destruct (find _ _) as [k|] eqn:Fi; [|exact Logic.I]. cbn [option_map fits]. apply find_some in Fi. destruct Fi as (_ & Fi).
    rewrite !andb_true_iff, negb_true_iff in Fi. destruct Fi as ((M & Wr) & Dn). apply means_iff in M. destruct M as (M1 & M2 & M3).
    destruct (iv_wg _ _ _ _ _ _ _ I k M1 Wr) as (r & An & Bd).
    assert (K : (F <= k < l_n L)%nat).
    { split; [|exact M1]. destruct (Nat.le_gt_cases F k) as [|X]; [assumption|]. exfalso. destruct (iv_old _ _ _ _ _ _ _ I k X) as [Y|[_ Y]]; [|congruence].
      rewrite refused_bad, An in Y. congruence. }
    pose proof (iv_live _ _ _ _ _ _ _ I k K) as Ag. rewrite <- M2, slot_slot. apply (word_ok c n _ _ r Sane).
    - apply Ag.
    - exact An.
    - apply (ag_ans _ _ _ Ag). apply va_ans. exact An.
  Qed.
End Step.

Lemma reads_cons c n L i is o os : reads_from c n L (i :: is) (o :: os) = wanted c n L i o ++ reads_from c n (keep c L (i, o)) is os.
Proof. reflexivity. Qed.
Lemma data_run c n : sane c -> forall is s L hold A F h R D, inv c s L hold A F h -> lawful_from c L hold is (snd (trace (w_step c) s is)) ->
  length (x_pipe s n) = w_pipe c -> Forall2 (fits c n) R (D ++ somes (x_pipe s n)) ->
  length (x_pipe (fst (trace (w_step c) s is)) n) = w_pipe c /\
  Forall2 (fits c n) (R ++ reads_from c n L is (snd (trace (w_step c) s is)))
    ((D ++ over (data_out n) is (snd (trace (w_step c) s is))) ++ somes (x_pipe (fst (trace (w_step c) s is)) n)).
Proof.
  intros Sane. induction is as [|i is IH]; intros s L hold A F h R D I W Ln H.
  - cbn [trace fst snd reads_from]. unfold over. cbn. rewrite !app_nil_r. auto.
  - rewrite trace_cons' in *. cbn [snd fst lawful_from] in *. destruct W as (W1 & W2).
    destruct (step_inv c s L hold A F h i Sane I W1) as (A1 & I1).
    destruct (data_step c s L hold A F h i n Sane I W1 R D Ln H) as (Ln1 & H1).
    destruct (IH _ _ _ _ _ _ _ _ I1 W2 Ln1 H1) as (Ln2 & H2). split; [exact Ln2|].
    rewrite reads_cons, over_cons. rewrite !app_assoc in *. exact H2.
Qed.
Lemma fresh_pipe c s n : started c s -> x_pipe s n = repeat None (w_pipe c).
Proof.
  intros [(mem & ->)|(mem & js & j & R & ->)]; [reflexivity|]. rewrite trace_app. destruct (trace (w_step c) (w_init c mem) js) as [s1 os1].
  cbn [trace]. unfold w_step. rewrite R. reflexivity.
Qed.
Lemma somes_repeat {X} k : somes (repeat (@None X) k) = [].
Proof. induction k; [reflexivity|assumption]. Qed.

Section Result.
  Variables (c : wcfg) (s : wst) (is : list win) (n : nat).
  Hypothesis Sane : sane c.
  Hypothesis St : started c s.
  Notation os := (snd (trace (w_step c) s is)).
  Hypothesis W : lawful c is os.
  Lemma data_all : length (x_pipe (fst (trace (w_step c) s is)) n) = w_pipe c /\
    Forall2 (fits c n) (reads c n is os) (over (data_out n) is os ++ somes (x_pipe (fst (trace (w_step c) s is)) n)).
  Proof.
    apply (data_run c n Sane is s l0 (fun _ => None) [] 0%nat (mkH [] [] [] []) [] []).
    - apply fresh_inv, St.
    - exact W.
    - rewrite (fresh_pipe c s n St). apply repeat_length.
    - rewrite (fresh_pipe c s n St), somes_repeat. constructor.
  Qed.
  Lemma data_result : exists answered rest, reads c n is os = answered ++ rest /\ (length rest <= w_pipe c)%nat /\
    Forall2 (fits c n) answered (over (data_out n) is os).
  Proof.
    destruct data_all as (Ln & H). apply Forall2_app_inv_r in H. destruct H as (a & r & H1 & H2 & E). exists a, r. splits; auto.
    apply Forall2_length in H2. rewrite H2, <- Ln. apply somes_le.
  Qed.
End Result.

(** While the reader takes data, what was asked for comes out after at most as many cycles as there are stages. *)
Lemma drain c n : forall is s, Forall (fun i => i_rst i = false /\ i_rrdy i n = true) is ->
  (length (somes (firstn (length is) (x_pipe s n))) <= length (over (data_out n) is (snd (trace (w_step c) s is))))%nat.
Proof.
  induction is as [|i is IH]; intros s H; [cbn; lia|]. apply Forall_cons_iff in H. destruct H as ((Rs & Rd) & H). rewrite trace_cons'. cbn [snd length].
  rewrite over_cons. specialize (IH (fst (w_step c s i)) H). rewrite app_length. unfold data_out at 1. change (o_data (snd (w_step c s i)) n) with (hd None (x_pipe s n)).
  rewrite Rd. destruct (x_pipe s n) as [|y l] eqn:E; [cbn; lia|]. cbn [firstn hd]. rewrite somes_cons, app_length.
  enough (X : (length (somes (firstn (length is) l)) <= length (somes (firstn (length is) (x_pipe (fst (w_step c s i)) n))))%nat) by lia.
  unfold w_step. rewrite Rs. cbn [fst x_pipe]. cbv zeta. rewrite Rd, E, pipe_shift, firstn_app, somes_app, app_length. lia.
Qed.
Lemma over_app {X} (f : win -> wout -> option X) is1 os1 is2 os2 : length is1 = length os1 -> over f (is1 ++ is2) (os1 ++ os2) = over f is1 os1 ++ over f is2 os2.
Proof.
  intros E. revert os1 E. induction is1 as [|i is1 IH]; intros [|o os1] E; try discriminate; [reflexivity|]. cbn [app]. rewrite !over_cons, IH, app_assoc; [reflexivity|]. cbn in E; lia.
Qed.
Lemma no_reset c : forall is s L hold, lawful_from c L hold is (snd (trace (w_step c) s is)) -> Forall (fun i => i_rst i = false) is.
Proof.
  induction is as [|i is IH]; intros s L hold W; [constructor|]. rewrite trace_cons' in W. destruct W as (W1 & W2). constructor; [apply W1|]. eapply IH. exact W2.
Qed.
Lemma drain_result c s is1 is2 n : sane c -> started c s -> lawful c (is1 ++ is2) (snd (trace (w_step c) s (is1 ++ is2))) ->
  (w_pipe c <= length is2)%nat -> Forall (fun i => i_rrdy i n = true) is2 ->
  (length (reads c n is1 (snd (trace (w_step c) s is1))) <= length (over (data_out n) (is1 ++ is2) (snd (trace (w_step c) s (is1 ++ is2)))))%nat.
Proof.
  intros Sane St W Ln H. destruct (lawful_app _ _ _ _ _ _ W) as (W1 & W2). destruct (data_all c s is1 n Sane St W1) as (Pl & D).
  apply Forall2_length in D. rewrite app_length in D. rewrite D. rewrite trace_app. destruct (trace (w_step c) s is1) as [s1 os1] eqn:T1.
  pose proof (trace_length (w_step c) is1 s) as TL. rewrite T1 in TL. destruct (trace (w_step c) s1 is2) as [s2 os2] eqn:T2. cbn [fst snd] in *.
  rewrite over_app by (symmetry; exact TL). rewrite app_length. apply Nat.add_le_mono_l.
  assert (Rs : Forall (fun i => i_rst i = false /\ i_rrdy i n = true) is2).
  { pose proof (no_reset c is2 s1 _ _ W2) as Q. rewrite Forall_forall in *. auto. }
  pose proof (drain c n is2 s1 Rs) as Q. rewrite T2 in Q. cbn [snd] in Q. rewrite firstn_all2 in Q by lia. exact Q.
Qed.
