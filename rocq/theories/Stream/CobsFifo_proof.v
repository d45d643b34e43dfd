(** The two FIFOs of the encoder as queues of words. *)
From Verif Require Import Base.Prelude Base.Bits Rtl.Handshake_spec Rtl.Handshake_proof
  Stream.Axis_model Stream.Axis_spec Stream.Axis_proof Stream.Fifo_model Stream.Fifo_spec Stream.Fifo_ring
  Stream.Fifo_proof Stream.Fifo_hist_proof Stream.Cobs_model.
Local Open Scope nat_scope.
#[local] Unset Implicit Arguments.

Definition pres (u : bool) : beat -> beat := present (f_ax (cfifo u)).
Definition holdsc (u : bool) (s : fifo) (L : list cb) : Prop :=
  exists Q, inv (cfifo u) s Q [] [] /\ w_mark (z_w s) = false /\
    L = map (fun b => of_beat (pres u b)) (somes (z_pipe s) ++ Q).
Definition cready (u : bool) (s : fifo) : bool := sready (cfifo u) (z_w s) (z_rd s).
Definition chead (u : bool) (s : fifo) : option cb := option_map of_beat (m_vis (cfifo u) s).
Definition cin_of (p : option cb) (r : bool) : fin :=
  mkFin false (negb (isnone p)) (to_beat (match p with Some w => w | None => mkCb 0 false false end)) r false.

Lemma chead_eq u s : chead u s = option_map (fun b => of_beat (pres u b)) (hd None (z_pipe s)).
Proof. unfold chead, m_vis, m_out. cbn [paused cfifo f_pause andb f_ofifo]. destruct (hd None (z_pipe s)); reflexivity. Qed.

Lemma chead_holds u s L q : holdsc u s L -> chead u s = Some q -> exists t, L = q :: t.
Proof.
  intros (Q & _ & _ & ->) H. rewrite chead_eq in H. destruct (hd None (z_pipe s)) as [b|] eqn:E; [|discriminate].
  destruct (somes_head _ E) as [t Et]. rewrite Et. cbn [option_map map app] in *. injection H as <-. eexists. reflexivity.
Qed.

Lemma round u w : (u = false -> c_u w = false) -> of_beat (pres u (to_beat w)) = w.
Proof.
  intros H. unfold of_beat, pres, present, to_beat. destruct w as [d l us]. destruct u; cbn in *; [destruct us; reflexivity|].
  rewrite H by reflexivity. reflexivity.
Qed.

Lemma ct_plain u s Q : map of_beat (content (cfifo u) s Q []) = map (fun b => of_beat (pres u b)) (somes (z_pipe s) ++ Q).
Proof. unfold content. cbn [f_ofifo cfifo app]. rewrite map_map. reflexivity. Qed.

Lemma holdsc_step u s L p r : holdsc u s L -> (p <> None -> cready u s = true) -> (u = false -> forall w, p = Some w -> c_u w = false) ->
  holdsc u (fst (f_step (cfifo u) s (cin_of p r)))
    ((match (if r then chead u s else None) with Some _ => tl L | None => L end) ++ olist p).
Proof.
  intros (Q & HI & HM & ->) HP HU.
  assert (R : x_rst (cin_of p r) = false) by reflexivity.
  pose proof (@inv_step (cfifo u) s (cin_of p r) Q [] [] R HI) as HN. pose proof (@content_step (cfifo u) s (cin_of p r) Q [] [] R HI) as HC.
  assert (EA : act (cfifo u) s (cin_of p r) = match p with Some _ => PushCommit | None => Keep end).
  { rewrite (@norm_act (cfifo u) eq_refl eq_refl s (cin_of p r) HM). unfold cready in HP. unfold cin_of. cbn [x_v].
    destruct p; cbn [isnone negb]; [rewrite HP by discriminate; reflexivity|rewrite andb_false_r; reflexivity]. }
  assert (EU : nU (cfifo u) s (cin_of p r) [] = []) by (unfold nU; rewrite EA; destruct p; reflexivity).
  assert (EO : nO (cfifo u) s (cin_of p r) [] = []) by reflexivity. rewrite EU, EO in HN. rewrite EO in HC.
  exists (nQ (cfifo u) s (cin_of p r) Q []). splits; auto using (@norm_mark (cfifo u) eq_refl eq_refl).
  apply (f_equal (map of_beat)) in HC. rewrite !map_app, !ct_plain, EA in HC.
  assert (EG : given (sin_of (cin_of p r)) (sout_of (snd (f_step (cfifo u) s (cin_of p r)))) = if r then m_vis (cfifo u) s else None).
  { unfold f_step, given, sin_of, sout_of. destruct (pause_step (cfifo u) s (cin_of p r)). reflexivity. }
  rewrite EG in HC.
  assert (EP : map of_beat (map (present (f_ax (cfifo u))) (dQ (match p with Some _ => PushCommit | None => Keep end) [] (sb (cfifo u) s (cin_of p r)))) = olist p).
  { destruct p as [w|]; [|reflexivity]. unfold sb. rewrite stored_plain by exact HM. cbn [dQ app map cin_of x_b olist].
    fold (pres u). rewrite round; [reflexivity|]. intros E. exact (HU E w eq_refl). }
  rewrite EP in HC. unfold chead. destruct r.
  - destruct (m_vis (cfifo u) s) as [b|] eqn:E; cbn [option_map olist map app] in *; [|rewrite HC; reflexivity].
    destruct (somes (z_pipe s)) as [|b' t] eqn:Es.
    + unfold m_vis, m_out in E. cbn [paused cfifo f_pause andb f_ofifo] in E. destruct (z_pipe s) as [|[x|] pp]; cbn in *; try discriminate.
    + apply (f_equal (@tl cb)) in HC. exact HC.
  - cbn [olist map app] in HC. exact HC.
Qed.

Lemma holdsc_reset u s p r : (exists L, holdsc u s L) ->
  holdsc u (fst (f_step (cfifo u) s (mkFin true (x_v (cin_of p r)) (x_b (cin_of p r)) r false))) [].
Proof.
  intros (L & Q & HI & _). exists []. unfold f_step. destruct (pause_step (cfifo u) s _). cbn [fst x_rst].
  cbn [z_pipe]. rewrite somes_nones. splits; auto. constructor; cbn [z_w z_rd z_pipe z_q w_rst w_mem w_cm w_wr].
  - apply ring_init.
  - rewrite map_length. apply (iv_len HI).
  - reflexivity.
Qed.

Lemma holdsc_init u m m2 : holdsc u (f_init (cfifo u) m m2) [].
Proof.
  exists []. unfold f_init. cbn [z_pipe]. rewrite somes_repeat. splits; auto. constructor; cbn [z_w z_rd z_pipe z_q w_mem w_cm w_wr].
  - apply ring_init.
  - apply repeat_length.
  - reflexivity.
Qed.

Lemma holdsc_ready u s L : holdsc u s L -> length L < 256 -> cready u s = true.
Proof.
  intros (Q & HI & _ & ->) H. unfold cready, sready. cbn [f_frame cfifo f_mark f_aw].
  pose proof (ring_full (iv_ring HI)) as E. cbn [f_aw cfifo] in E. rewrite E, depth_nat. cbn [length].
  rewrite map_length, app_length in H. rewrite orb_false_r. apply negb_true_iff, Z.eqb_neq. change (2 ^ 8) with 256. lia.
Qed.

Lemma holdsc_full u s L : holdsc u s L -> cready u s = false -> L <> [].
Proof. intros H R E. subst L. rewrite (holdsc_ready u s [] H) in R; [discriminate|cbn; lia]. Qed.

Lemma holdsc_bound u s L : holdsc u s L -> length L <= 258.
Proof.
  intros (Q & HI & _ & ->). pose proof (content_bound HI) as B. unfold content in B. cbn [f_ofifo cfifo app] in B. rewrite map_length in *.
  unfold room in B. cbn in B |- *. lia.
Qed.

(* how far the first word is from the output *)
Definition fdist (s : fifo) : nat :=
  match hd None (z_pipe s) with
  | Some _ => 0
  | None => match nth 1 (z_pipe s) None with Some _ => 1 | None => 2 end
  end.
Lemma fdist2 s : fdist s <= 2.
Proof. unfold fdist. destruct (hd None (z_pipe s)), (nth 1 (z_pipe s) None); lia. Qed.
Lemma fdist0 u s : fdist s = 0 <-> chead u s <> None.
Proof. rewrite chead_eq. unfold fdist. destruct (hd None (z_pipe s)), (nth 1 (z_pipe s) None); cbn; split; congruence || discriminate || lia. Qed.

Lemma fdist_step u s L p r : holdsc u s L -> L <> [] -> fdist s <> 0 ->
  fdist (fst (f_step (cfifo u) s (cin_of p r))) < fdist s.
Proof.
  intros (Q & HI & _ & ->) NL ND. rewrite f_step_next by reflexivity. unfold fdist in *. cbn [z_pipe].
  pose proof (iv_len HI) as Len. cbn [f_pipe cfifo] in Len.
  pose proof (ring_empty (iv_ring HI)) as RE.
  destruct (z_pipe s) as [|a [|b [|? ?]]] eqn:EP; try discriminate Len. cbn [hd nth] in *.
  destruct a as [a|]; [congruence|]. destruct b as [b|]; cbn.
  - rewrite orb_true_r. cbn. lia.
  - rewrite orb_true_r. cbn. cbn in NL. destruct Q as [|q Q]; [cbn in NL; congruence|].
    unfold takes, pipe_adv. cbn [rdyp cfifo f_ofifo existsb isnone]. rewrite RE. rewrite EP. cbn. rewrite !orb_true_r. cbn. lia.
Qed.
Lemma fdist_keep u s p : fdist s = 0 -> fdist (fst (f_step (cfifo u) s (cin_of p false))) = 0.
Proof.
  intros D. rewrite f_step_next by reflexivity. unfold fdist in *. cbn [z_pipe].
  destruct (hd None (z_pipe s)) as [b|] eqn:E; [|destruct (nth 1 (z_pipe s) None); discriminate].
  unfold rdyp. cbn [cfifo f_ofifo]. unfold rdyo. cbn [x_mready cin_of andb]. rewrite (pshift_head_kept _ _ E). reflexivity.
Qed.

Lemma holdsc_nil u s L : holdsc u s [] -> holdsc u s L -> L = [].
Proof.
  intros (Q & HI & _ & E) (Q' & HI' & _ & ->). pose proof (ring_empty (iv_ring HI)) as R. pose proof (ring_empty (iv_ring HI')) as R'.
  symmetry in E. apply map_eq_nil in E. apply app_eq_nil in E. destruct E as [Es ->]. rewrite Es. rewrite R in R'.
  destruct Q'; [reflexivity|discriminate R'].
Qed.
