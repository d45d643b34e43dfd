(** The stream FIFO as the scheduler uses it: no frames, no output FIFO, no
    pause; a queue of numbers. *)
From Verif Require Import Base.Prelude Base.Bits Rtl.Handshake_spec Rtl.Handshake_proof
  Stream.Axis_model Stream.Axis_spec Stream.Axis_proof Stream.Fifo_model Stream.Fifo_spec Stream.Fifo_ring
  Stream.Fifo_proof Stream.Fifo_hist_proof Sched.Rr_model Sched.Rr_spec.
Local Open Scope nat_scope.

Definition holds (a : nat) (s : fifo) (L : list Z) : Prop :=
  exists Q, inv (fcfg_of a) s Q [] [] /\ L = map tdata (somes (z_pipe s) ++ Q).

Lemma content_plain a s Q : map tdata (content (fcfg_of a) s Q []) = map tdata (somes (z_pipe s) ++ Q).
Proof. unfold content. cbn [f_ofifo fcfg_of app]. rewrite map_map. apply map_ext. reflexivity. Qed.

Lemma act_plain a s i : act (fcfg_of a) s i = if sready (fcfg_of a) (z_w s) (z_rd s) && x_v i then PushCommit else Keep.
Proof.
  unfold act, wact, act_of. cbn [f_frame fcfg_of f_mark]. rewrite !andb_false_r.
  destruct (sready (fcfg_of a) (z_w s) (z_rd s) && x_v i); reflexivity.
Qed.

Lemma vis_plain a s : m_vis (fcfg_of a) s = option_map (present (f_ax (fcfg_of a))) (hd None (z_pipe s)).
Proof. reflexivity. Qed.

Definition fhead a s := fifo_head (fcfg_of a) s.

Lemma fhead_eq a s : fhead a s = option_map tdata (hd None (z_pipe s)).
Proof. unfold fhead, fifo_head. rewrite vis_plain. destruct (hd None (z_pipe s)); reflexivity. Qed.

Lemma holds_head a s L q : holds a s L -> fhead a s = Some q -> exists t, L = q :: t.
Proof.
  intros (Q & HI & ->) H. rewrite fhead_eq in H. destruct (hd None (z_pipe s)) as [b|] eqn:E; [|discriminate].
  destruct (somes_head _ E) as [t Et]. rewrite Et. cbn in *. injection H as <-. eauto.
Qed.

Definition frdy a s := sready (fcfg_of a) (z_w s) (z_rd s).

Lemma holds_step a s L i : x_rst i = false -> holds a s L ->
  holds a (fst (f_step (fcfg_of a) s i))
    ((match (if x_mready i then fhead a s else None) with Some _ => tl L | None => L end) ++
     (if frdy a s && x_v i then [tdata (x_b i)] else [])).
Proof.
  intros R (Q & HI & ->). pose proof (@inv_step (fcfg_of a) s i Q [] [] R HI) as HN. pose proof (@content_step (fcfg_of a) s i Q [] [] R HI) as HC.
  assert (EU : nU (fcfg_of a) s i [] = []).
  { unfold nU. rewrite act_plain. destruct (_ && _); reflexivity. }
  assert (EO : nO (fcfg_of a) s i [] = []) by reflexivity. rewrite EU, EO in HN. rewrite EO in HC.
  exists (nQ (fcfg_of a) s i Q []). split; auto.
  apply (f_equal (map tdata)) in HC. rewrite !map_app in HC. rewrite !content_plain in HC.
  rewrite act_plain in HC. fold (frdy a s) in HC.
  assert (EG : given (sin_of i) (sout_of (snd (f_step (fcfg_of a) s i))) = if x_mready i then m_vis (fcfg_of a) s else None).
  { unfold f_step, given, sin_of, sout_of. destruct (pause_step (fcfg_of a) s i). reflexivity. }
  rewrite EG in HC.
  assert (EP : map tdata (map (present (f_ax (fcfg_of a))) (dQ (if frdy a s && x_v i then PushCommit else Keep) [] (sb (fcfg_of a) s i)))
             = if frdy a s && x_v i then [tdata (x_b i)] else []).
  { destruct (frdy a s && x_v i); reflexivity. }
  rewrite EP in HC. unfold fhead, fifo_head. destruct (x_mready i).
  - destruct (m_vis (fcfg_of a) s) as [b|] eqn:E; cbn [option_map olist map app] in *; [|exact HC].
    destruct (somes (z_pipe s)) as [|b' t] eqn:Es.
    + rewrite vis_plain in E. destruct (z_pipe s) as [|[x|] p]; cbn in *; try discriminate.
    + cbn [map app] in *. injection HC as _ HC. exact HC.
  - cbn [olist map app] in HC. exact HC.
Qed.

Lemma holds_reset a s i : x_rst i = true -> (exists L, holds a s L) -> holds a (fst (f_step (fcfg_of a) s i)) [].
Proof.
  intros R (L & Q & HI & _). exists []. unfold f_step. destruct (pause_step (fcfg_of a) s i). cbn [fst]. rewrite R.
  cbn [z_pipe]. rewrite somes_nones. split; auto. constructor; cbn [z_w z_rd z_pipe z_q w_rst w_mem w_cm w_wr].
  - apply ring_init.
  - rewrite map_length. apply (iv_len HI).
  - reflexivity.
Qed.

Lemma holds_init a m m2 : holds a (f_init (fcfg_of a) m m2) [].
Proof.
  exists []. unfold f_init. cbn [z_pipe]. rewrite somes_repeat. split; auto. constructor; cbn [z_w z_rd z_pipe z_q w_mem w_cm w_wr].
  - apply ring_init.
  - apply repeat_length.
  - reflexivity.
Qed.

Lemma holds_ready a s L : holds a s L -> length L < 2 ^ a -> frdy a s = true.
Proof.
  intros (Q & HI & ->) H. unfold frdy, sready. cbn [f_frame fcfg_of f_mark f_aw].
  pose proof (ring_full (iv_ring HI)) as E. cbn [f_aw fcfg_of] in E. rewrite E, depth_nat. cbn [length].
  rewrite map_length, app_length in H. rewrite orb_false_r. apply negb_true_iff, Z.eqb_neq. lia.
Qed.

Lemma holds_contents a s L : holds a s L -> contents a s = L.
Proof.
  intros (Q & HI & ->). unfold contents. rewrite map_app. f_equal. pose proof (iv_ring HI) as HR. cbn [f_aw fcfg_of] in HR.
  destruct (ring_diff HR) as [_ ->]. rewrite Nat2Z.id. destruct HR as (r & -> & _ & _ & _ & Hm).
  rewrite app_nil_r in Hm. pose proof (depth_pos a). revert r Hm. clear HI.
  assert (G : forall r n, (forall j x, nth_error Q j = Some x -> w_mem (z_w s) ((r + Z.of_nat (n + j)) mod depth_of a)%Z = x) ->
     map (fun k => tdata (w_mem (z_w s) ((r mod (2 * depth_of a) + Z.of_nat k) mod depth_of a)%Z)) (seq n (length Q)) = map tdata Q).
  { induction Q as [|x Q IH]; intros r n Hm; [reflexivity|]. cbn [length seq map]. f_equal.
    - rewrite <- (Z.add_mod_idemp_l (r mod (2 * depth_of a))%Z) by lia. rewrite mod_mod2 by lia.
      rewrite Z.add_mod_idemp_l by lia. rewrite <- (Hm 0 x eq_refl), Nat.add_0_r. reflexivity.
    - apply IH. intros j y Hj. rewrite <- (Hm (S j) y Hj), Nat.add_succ_r. reflexivity. }
  intros r Hm. apply (G r 0). intros j x Hj. apply (Hm j x Hj).
Qed.
