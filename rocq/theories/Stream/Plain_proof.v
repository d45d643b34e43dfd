(** A FIFO with the default parameters as a queue of beats. *)
From Verif Require Import Base.Prelude Base.Bits Rtl.Handshake_spec Rtl.Handshake_proof
  Stream.Axis_model Stream.Axis_spec Stream.Axis_proof Stream.Fifo_model Stream.Fifo_spec Stream.Fifo_ring
  Stream.Fifo_proof Stream.Fifo_hist_proof.
Local Open Scope nat_scope.
#[local] Unset Implicit Arguments.

Section Plain.
Variables (aw : nat) (ax : axcfg).
Let c : fcfg := mkFcfg aw 1 false false 1 1 false false false false false false ax.

Definition holdsp (s : fifo) (L : list beat) : Prop :=
  exists Q, inv c s Q [] [] /\ w_mark (z_w s) = false /\ L = map (present ax) (somes (z_pipe s) ++ Q).
Definition pready (s : fifo) : bool := sready c (z_w s) (z_rd s).
Definition phead (s : fifo) : option beat := m_vis c s.
Definition taken_in (s : fifo) (i : fin) : option beat := if pready s && x_v i then Some (x_b i) else None.

Lemma phead_eq s : phead s = option_map (present ax) (hd None (z_pipe s)).
Proof. unfold phead, m_vis, m_out. cbn [paused c f_pause andb f_ofifo]. reflexivity. Qed.

Lemma phead_holds s L q : holdsp s L -> phead s = Some q -> exists t, L = q :: t.
Proof.
  intros (Q & _ & _ & ->) H. rewrite phead_eq in H. destruct (hd None (z_pipe s)) as [b|] eqn:E; [|discriminate].
  destruct (somes_head _ E) as [t Et]. rewrite Et. cbn [option_map map app] in *. injection H as <-. eexists. reflexivity.
Qed.

Lemma ct_plain s Q : content c s Q [] = map (present ax) (somes (z_pipe s) ++ Q).
Proof. unfold content. cbn [f_ofifo c app]. reflexivity. Qed.

Lemma holdsp_step s L i : holdsp s L -> x_rst i = false ->
  holdsp (fst (f_step c s i))
    ((match (if x_mready i then phead s else None) with Some _ => tl L | None => L end) ++ map (present ax) (olist (taken_in s i))).
Proof.
  intros (Q & HI & HM & ->) R.
  pose proof (@inv_step c s i Q [] [] R HI) as HN. pose proof (@content_step c s i Q [] [] R HI) as HC.
  assert (EA : act c s i = match taken_in s i with Some _ => PushCommit | None => Keep end).
  { rewrite (@norm_act c eq_refl eq_refl s i HM). unfold taken_in, pready. destruct (sready c (z_w s) (z_rd s) && x_v i); reflexivity. }
  assert (EU : nU c s i [] = []) by (unfold nU; rewrite EA; destruct (taken_in s i); reflexivity).
  assert (EO : nO c s i [] = []) by reflexivity. rewrite EU, EO in HN. rewrite EO in HC.
  exists (nQ c s i Q []). splits; auto using (@norm_mark c eq_refl eq_refl).
  rewrite !ct_plain, EA in HC.
  assert (EG : given (sin_of i) (sout_of (snd (f_step c s i))) = if x_mready i then m_vis c s else None).
  { unfold f_step, given, sin_of, sout_of. destruct (pause_step c s i). reflexivity. }
  rewrite EG in HC.
  assert (EP : map (present (f_ax c)) (dQ (match taken_in s i with Some _ => PushCommit | None => Keep end) [] (sb c s i)) = map (present ax) (olist (taken_in s i))).
  { unfold taken_in. destruct (pready s && x_v i); [|reflexivity]. unfold sb. rewrite stored_plain by exact HM. reflexivity. }
  rewrite EP in HC. unfold phead. destruct (x_mready i).
  - destruct (m_vis c s) as [b|] eqn:E; cbn [olist app] in *; [|rewrite HC; reflexivity].
    destruct (somes (z_pipe s)) as [|b' t] eqn:Es.
    + unfold m_vis, m_out in E. cbn [paused c f_pause andb f_ofifo] in E. destruct (z_pipe s) as [|[x|] pp]; cbn in *; try discriminate.
    + apply (f_equal (@tl beat)) in HC. exact HC.
  - cbn [olist app] in HC. exact HC.
Qed.

Lemma holdsp_reset s i : (exists L, holdsp s L) -> x_rst i = true -> holdsp (fst (f_step c s i)) [].
Proof.
  intros (L & Q & HI & _) R. exists []. unfold f_step. destruct (pause_step c s _). rewrite R. cbn [fst].
  cbn [z_pipe]. rewrite somes_nones. splits; auto. constructor; cbn [z_w z_rd z_pipe z_q w_rst w_mem w_cm w_wr].
  - apply ring_init.
  - rewrite map_length. apply (iv_len HI).
  - reflexivity.
Qed.

Lemma holdsp_init m m2 : holdsp (f_init c m m2) [].
Proof.
  exists []. unfold f_init. cbn [z_pipe]. rewrite somes_repeat. splits; auto. constructor; cbn [z_w z_rd z_pipe z_q w_mem w_cm w_wr].
  - apply ring_init.
  - apply repeat_length.
  - reflexivity.
Qed.

Lemma holdsp_ready s L : holdsp s L -> length L < 2 ^ aw -> pready s = true.
Proof.
  intros (Q & HI & _ & ->) H. unfold pready, sready. cbn [f_frame c f_mark f_aw].
  pose proof (ring_full (iv_ring HI)) as E. cbn [f_aw c] in E. rewrite E, depth_nat. cbn [length].
  rewrite map_length, app_length in H. rewrite orb_false_r. apply negb_true_iff, Z.eqb_neq. lia.
Qed.

(* a word not pushed: the FIFO stays ready *)
Lemma pready_keep s L i : holdsp s L -> x_rst i = false -> x_v i = false -> pready s = true -> pready (fst (f_step c s i)) = true.
Proof.
  intros (Q & HI & HM & ->) R V P.
  pose proof (@inv_step c s i Q [] [] R HI) as HN.
  assert (EA : act c s i = Keep).
  { rewrite (@norm_act c eq_refl eq_refl s i HM). rewrite V, andb_false_r. reflexivity. }
  assert (EU : nU c s i [] = []) by (unfold nU; rewrite EA; reflexivity).
  assert (EO : nO c s i [] = []) by reflexivity. rewrite EU, EO in HN.
  unfold pready, sready in *. cbn [f_frame c f_mark f_aw] in *. rewrite orb_false_r in *.
  pose proof (ring_full (iv_ring HI)) as E. pose proof (ring_full (iv_ring HN)) as E'. cbn [f_aw c] in E, E'.
  rewrite E in P. rewrite E'. apply negb_true_iff in P. apply Z.eqb_neq in P. apply negb_true_iff, Z.eqb_neq.
  pose proof (ring_bound (iv_ring HI)) as B. cbn [f_aw c] in B. cbn [length] in *.
  pose proof (depth_pos aw). unfold nQ, nQr. rewrite EA. cbn [dQ]. rewrite app_nil_r. destruct (takes c s i); destruct Q; cbn [tl length] in *; lia.
Qed.

Lemma holdsp_bound s L : holdsp s L -> length L <= 2 ^ aw + 2.
Proof.
  intros (Q & HI & _ & ->). pose proof (content_bound HI) as B. rewrite ct_plain in B.
  unfold room in B. cbn in B |- *. lia.
Qed.

Definition pdist (s : fifo) : nat :=
  match hd None (z_pipe s) with
  | Some _ => 0
  | None => match nth 1 (z_pipe s) None with Some _ => 1 | None => 2 end
  end.
Lemma pdist2 s : pdist s <= 2.
Proof. unfold pdist. destruct (hd None (z_pipe s)), (nth 1 (z_pipe s) None); lia. Qed.
Lemma pdist0 s : pdist s = 0 <-> phead s <> None.
Proof. rewrite phead_eq. unfold pdist. destruct (hd None (z_pipe s)), (nth 1 (z_pipe s) None); cbn; split; congruence || discriminate || lia. Qed.

Lemma pdist_step s L i : holdsp s L -> x_rst i = false -> L <> [] -> pdist s <> 0 -> pdist (fst (f_step c s i)) < pdist s.
Proof.
  intros (Q & HI & _ & ->) R NL ND. rewrite f_step_next by exact R. unfold pdist in *. cbn [z_pipe].
  pose proof (iv_len HI) as Len. cbn [f_pipe c] in Len.
  pose proof (ring_empty (iv_ring HI)) as RE.
  destruct (z_pipe s) as [|a [|b [|? ?]]] eqn:EP; try discriminate Len. cbn [hd nth] in *.
  destruct a as [a|]; [congruence|]. destruct b as [b|]; cbn.
  - rewrite orb_true_r. cbn. lia.
  - rewrite orb_true_r. cbn. cbn in NL. destruct Q as [|q Q]; [cbn in NL; congruence|].
    unfold takes, pipe_adv. cbn [rdyp c f_ofifo existsb isnone]. rewrite RE. rewrite EP. cbn. rewrite !orb_true_r. cbn. lia.
Qed.
Lemma pdist_keep s i : x_rst i = false -> x_mready i = false -> pdist s = 0 -> pdist (fst (f_step c s i)) = 0.
Proof.
  intros R M D. rewrite f_step_next by exact R. unfold pdist in *. cbn [z_pipe].
  destruct (hd None (z_pipe s)) as [b|] eqn:E; [|destruct (nth 1 (z_pipe s) None); discriminate].
  unfold rdyp. cbn [c f_ofifo]. unfold rdyo. rewrite M. cbn [andb]. rewrite (pshift_head_kept _ _ E). reflexivity.
Qed.
End Plain.
