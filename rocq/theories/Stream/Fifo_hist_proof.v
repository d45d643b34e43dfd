(** Whole runs of the stream FIFO: what was accepted against what was delivered. *)
From Verif Require Import Base.Prelude Base.Bits Rtl.Handshake_spec Rtl.Handshake_proof
  Stream.Axis_model Stream.Axis_spec Stream.Axis_proof Stream.Fifo_model Stream.Fifo_spec Stream.Fifo_ring
  Stream.Fifo_proof.
Local Open Scope nat_scope.

(** * Starting states *)
Record fresh (c : fcfg) (s : fifo) : Prop := mkFresh {
  fr_inv : inv c s [] [] [];
  fr_pipe : somes (z_pipe s) = [];
  fr_out : q_out (z_q s) = None;
  fr_drop : w_drop (z_w s) = false;
  fr_mark : w_mark (z_w s) = false;
  fr_send : w_send (z_w s) = false;
  fr_sframe : w_sframe (z_w s) = false;
  fr_ovf : w_ovf (z_w s) = false;
  fr_bad : w_bad (z_w s) = false;
  fr_good : w_good (z_w s) = false;
  fr_pause : z_pause s = false;
  fr_pframe : z_pframe s = false }.

Lemma somes_nones A B (l : list B) : somes (map (fun _ => @None A) l) = [].
Proof. induction l; auto. Qed.
Lemma somes_repeat A n : somes (repeat (@None A) n) = [].
Proof. induction n; auto. Qed.

Lemma pipe_len c is : forall s, length (z_pipe s) = f_pipe c + 1 ->
  length (z_pipe (fst (f_trace c s is))) = f_pipe c + 1.
Proof.
  unfold f_trace. induction is as [|i is IH]; intros s H; [exact H|].
  cbn [trace]. destruct (f_step c s i) as [s1 o] eqn:E.
  destruct (trace (f_step c) s1 is) as [s2 os] eqn:Et. cbn [fst].
  replace s2 with (fst (trace (f_step c) s1 is)) by (rewrite Et; auto). apply IH.
  apply (f_equal fst) in E. cbn [fst] in E. subst s1.
  unfold f_step. destruct (pause_step c s i). cbn [fst].
  destruct (x_rst i); cbn [z_pipe]; [rewrite map_length|rewrite pshift_length]; auto.
Qed.

Lemma started_fresh c s : started c s -> fresh c s.
Proof.
  intros [mem qmem|mem qmem pre i Hr].
  - unfold f_init. constructor; auto; cbn [z_pipe]; [|apply somes_repeat].
    constructor; cbn [z_w z_rd z_pipe z_q w_mem w_cm w_wr q_mem q_rd q_wr q_half].
    + apply ring_init.
    + apply repeat_length.
    + destruct (f_ofifo c); auto. rewrite somes_repeat. splits; auto using ring_init; cbn; lia.
  - pose proof (@pipe_len c pre (f_init c mem qmem) (repeat_length _ _)) as HL.
    unfold f_trace in *. rewrite trace_app.
    destruct (trace (f_step c) (f_init c mem qmem) pre) as [s1 os]. cbn [fst] in HL.
    cbn [trace]. destruct (f_step c s1 i) as [s2 o] eqn:E. cbn [fst].
    apply (f_equal fst) in E. unfold f_step in E. destruct (pause_step c s1 i). cbn [fst] in E.
    rewrite Hr in E. subst s2. unfold w_rst, o_rst.
    constructor; auto; cbn [z_pipe]; [|apply somes_nones].
    constructor; cbn [z_w z_rd z_pipe z_q w_mem w_cm w_wr q_mem q_rd q_wr q_half].
    + apply ring_init.
    + rewrite map_length. exact HL.
    + destruct (f_ofifo c); auto. rewrite somes_nones. splits; auto using ring_init; cbn; lia.
Qed.

Lemma fresh_content c s : fresh c s -> content c s [] [] = [].
Proof. intros H. unfold content. rewrite (fr_pipe H), (fr_out H). destruct (f_ofifo c); reflexivity. Qed.

(** * Induction over a run *)
Lemma got_cons i o is os : got (i :: is) (o :: os) = olist (taken (sin_of i) (sout_of o)) ++ got is os.
Proof. unfold got. cbn [map]. apply accepted_cons. Qed.
Lemma sent_cons i o is os : sent (i :: is) (o :: os) = olist (given (sin_of i) (sout_of o)) ++ sent is os.
Proof. unfold sent. cbn [map]. apply delivered_cons. Qed.

Lemma outs_cons c s i is : outs c s (i :: is) = snd (f_step c s i) :: outs c (fst (f_step c s i)) is.
Proof.
  unfold outs, f_trace. cbn [trace]. destruct (f_step c s i). cbn [fst snd].
  destruct (trace (f_step c) f is). reflexivity.
Qed.
Lemma after_cons c s i is : after c s (i :: is) = after c (fst (f_step c s i)) is.
Proof.
  unfold after, f_trace. cbn [trace]. destruct (f_step c s i). cbn [fst snd].
  destruct (trace (f_step c) f is). reflexivity.
Qed.
Lemma outs_app c s a b : outs c s (a ++ b) = outs c s a ++ outs c (after c s a) b.
Proof.
  revert s; induction a as [|i a IH]; intros s; [reflexivity|].
  cbn [app]. rewrite !outs_cons, after_cons, IH. reflexivity.
Qed.
Lemma after_app c s a b : after c s (a ++ b) = after c (after c s a) b.
Proof. revert s; induction a as [|i a IH]; intros s; [reflexivity|]. cbn [app]. rewrite !after_cons. apply IH. Qed.
Lemma outs_length c s is : length (outs c s is) = length is.
Proof. apply trace_length. Qed.

Lemma got_app is1 os1 is2 os2 : length is1 = length os1 -> got (is1 ++ is2) (os1 ++ os2) = got is1 os1 ++ got is2 os2.
Proof. intros. unfold got. rewrite !map_app. apply accepted_app. rewrite !map_length. auto. Qed.
Lemma sent_app is1 os1 is2 os2 : length is1 = length os1 -> sent (is1 ++ is2) (os1 ++ os2) = sent is1 os1 ++ sent is2 os2.
Proof. intros. unfold sent. rewrite !map_app. apply delivered_app. rewrite !map_length. auto. Qed.
Lemma got_more is os os2 : length is = length os -> got is (os ++ os2) = got is os.
Proof. intros. rewrite <- (app_nil_r is) at 1. rewrite got_app by auto. unfold got at 2. cbn. apply app_nil_r. Qed.
Lemma sent_more is os os2 : length is = length os -> sent is (os ++ os2) = sent is os.
Proof. intros. rewrite <- (app_nil_r is) at 1. rewrite sent_app by auto. unfold sent at 2. cbn. apply app_nil_r. Qed.

Section Hist.
  Variable c : fcfg.
  Variable I : list beat -> list beat -> list fout -> fifo -> Prop.
  Hypothesis HI : forall A D F s i, x_rst i = false -> I A D F s ->
    I (A ++ olist (taken (sin_of i) (sout_of (snd (f_step c s i)))))
      (D ++ olist (given (sin_of i) (sout_of (snd (f_step c s i)))))
      (F ++ [snd (f_step c s i)]) (fst (f_step c s i)).
  Lemma hist is : forall A D F s, no_reset is -> I A D F s ->
    I (A ++ got is (outs c s is)) (D ++ sent is (outs c s is)) (F ++ outs c s is) (after c s is).
  Proof.
    induction is as [|i is IH]; intros A D F s Hr H.
    - unfold outs, after, f_trace. cbn. rewrite !app_nil_r. exact H.
    - inversion Hr as [|? ? R1 Hr1]; subst.
      rewrite outs_cons, after_cons, got_cons, sent_cons.
      change (?a :: ?b) with ([a] ++ b). rewrite !app_assoc. apply IH; auto.
  Qed.
End Hist.

(** Outputs are a function of the state. *)
Definition view (c : fcfg) (s : fifo) : fout :=
  mkFout (sready c (z_w s) (z_rd s)) (m_vis c s) (paused c s) (z_depth s) (z_depthc s)
         (w_ovf (z_w s)) (w_bad (z_w s)) (w_good (z_w s)).
Lemma step_view c s i : snd (f_step c s i) = view c s.
Proof. unfold f_step. destruct (pause_step c s i). reflexivity. Qed.
Lemma outs_snoc c s is j : outs c s (is ++ [j]) = outs c s is ++ [view c (after c s is)].
Proof. rewrite outs_app, outs_cons, step_view. reflexivity. Qed.

Lemma taken_eq c s i : taken (sin_of i) (sout_of (snd (f_step c s i)))
  = if sready c (z_w s) (z_rd s) && x_v i then Some (x_b i) else None.
Proof.
  rewrite step_view. unfold taken, sin_of, sout_of, view. cbn. destruct (sready c (z_w s) (z_rd s)), (x_v i); reflexivity.
Qed.

Lemma stored_plain c w b : w_mark w = false -> stored c w b = b.
Proof. intros H. unfold stored. rewrite H, orb_false_r. destruct b; reflexivity. Qed.

(** * How much is inside *)
Lemma content_bound c s Q U O : inv c s Q U O -> length (content c s Q O) + length U <= room c.
Proof.
  intros HI. pose proof (ring_bound (iv_ring HI)) as HB. rewrite depth_nat in HB.
  pose proof (iv_len HI) as HL. pose proof (somes_len (z_pipe s)) as HS.
  pose proof (iv_o HI) as HO.
  unfold content, room. rewrite map_length, !app_length.
  destruct (f_ofifo c) eqn:E.
  - destruct HO as (HR & _). apply ring_bound in HR. rewrite depth_nat in HR. cbn [length] in HR.
    rewrite app_length. assert (length (olist (q_out (z_q s))) <= 1) by (destruct (q_out (z_q s)); cbn; lia). lia.
  - cbn [length]. lia.
Qed.

(** * Normal mode *)
Section Normal.
  Variable c : fcfg.
  Hypothesis Hf : f_frame c = false.
  Hypothesis Hm : f_mark c = false.

  Definition Inorm (A D : list beat) (F : list fout) (s : fifo) : Prop :=
    exists Q O, inv c s Q [] O /\ w_mark (z_w s) = false /\
      map (present (f_ax c)) A = D ++ content c s Q O.

  Lemma norm_act s i : w_mark (z_w s) = false ->
    act c s i = if sready c (z_w s) (z_rd s) && x_v i then PushCommit else Keep.
  Proof. intros H. unfold act, wact, act_of. rewrite Hf, Hm, H, !andb_false_r. cbn. reflexivity. Qed.

  Lemma norm_mark s i : x_rst i = false -> w_mark (z_w s) = false -> w_mark (z_w (fst (f_step c s i))) = false.
  Proof.
    intros Hr H. rewrite f_step_next by auto. cbn [z_w]. unfold w_step. rewrite Hf, Hm, H, !andb_false_r.
    destruct (_ && x_v i); reflexivity.
  Qed.

  Lemma norm_step A D F s i : x_rst i = false -> Inorm A D F s ->
    Inorm (A ++ olist (taken (sin_of i) (sout_of (snd (f_step c s i)))))
      (D ++ olist (given (sin_of i) (sout_of (snd (f_step c s i)))))
      (F ++ [snd (f_step c s i)]) (fst (f_step c s i)).
  Proof.
    intros Hr (Q & O & HI & HM & HE).
    pose proof (@inv_step c s i Q _ O Hr HI) as HI'. pose proof (@content_step c s i Q _ O Hr HI) as HC.
    assert (EU : nU c s i [] = []).
    { unfold nU. rewrite (@norm_act s i HM). destruct (sready c (z_w s) (z_rd s) && x_v i); reflexivity. }
    rewrite EU in HI'. exists (nQ c s i Q []), (nO c s i O). splits; auto using norm_mark.
    rewrite map_app, HE, <- !app_assoc, <- HC. f_equal. f_equal.
    rewrite taken_eq. rewrite (@norm_act s i HM). unfold sb. rewrite stored_plain by auto.
    destruct (sready c (z_w s) (z_rd s) && x_v i); reflexivity.
  Qed.

  Lemma norm_run s is : started c s -> no_reset is ->
    Inorm (got is (outs c s is)) (sent is (outs c s is)) (outs c s is) (after c s is).
  Proof.
    intros Hs Hr. apply (@hist c Inorm norm_step is [] [] [] s Hr). apply started_fresh in Hs.
    exists [], []. split; [apply (fr_inv Hs)|]. split; [apply (fr_mark Hs)|]. rewrite (fresh_content Hs). reflexivity.
  Qed.

  Lemma norm_prefix s is : started c s -> no_reset is ->
    exists rest, map (present (f_ax c)) (got is (outs c s is)) = sent is (outs c s is) ++ rest /\
      length rest <= room c.
  Proof.
    intros Hs Hr. destruct (norm_run Hs Hr) as (Q & O & HI & _ & HE). exists (content c (after c s is) Q O).
    split; auto. pose proof (content_bound HI). lia.
  Qed.

  (** Not ready only when the memory is full. *)
  Lemma norm_refuses s is j : started c s -> no_reset is ->
    y_sready (snd (f_step c (after c s is) j)) = false ->
    length (sent is (outs c s is)) + 2 ^ f_aw c <= length (got is (outs c s is)).
  Proof.
    intros Hs Hr H. destruct (norm_run Hs Hr) as (Q & O & HI & _ & HE).
    rewrite step_view in H. cbn [view y_sready] in H. unfold sready in H. rewrite Hf, Hm, orb_false_r in H.
    apply negb_false_iff in H. rewrite (ring_full (iv_ring HI)) in H. apply Z.eqb_eq in H.
    rewrite depth_nat in H. cbn [length] in H.
    apply (f_equal (@length beat)) in HE. rewrite map_length, app_length in HE.
    unfold content in HE. rewrite map_length, !app_length in HE. lia.
  Qed.
End Normal.
