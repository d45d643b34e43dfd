(** The claims about the statistics collector (C45, second part). *)
From Verif Require Import Base.Prelude Nic.StatsCollect_model Nic.StatsCollect_spec Nic.StatsCollect_proof.
Local Open Scope Z_scope.

(** Whatever the sink does and whenever reports are asked for, the collector
    never hands over more of a channel than came in since reset, as long as what
    is outstanding fits the output width. *)
Theorem C45_collect_no_excess : forall c mem0 xs n, cfg_ok c -> wires_ok c xs -> (n < sl_k c)%nat ->
  fits c n (live (observe c mem0 xs)) ->
  delivered n (live (observe c mem0 xs)) <= received n (live (observe c mem0 xs)).
Proof. exact no_excess. Qed.
Print Assumptions C45_collect_no_excess.

(** Every increment presented up to the cycle of an [update] is handed over
    within 2 COUNT + 1 cycles if the sink is ready in them. *)
Theorem C45_collect_update : forall c mem0 xs h cu w n, cfg_ok c -> wires_ok c xs -> (n < sl_k c)%nat ->
  observe c mem0 xs = h ++ cu :: w -> li_update (snd (fst cu)) = true -> Forall ready_cycle (cu :: w) ->
  length w = (2 * sl_k c + 1)%nat -> fits c n (live (observe c mem0 xs)) ->
  received n (live (h ++ [cu])) <= delivered n (live (h ++ cu :: w)).
Proof. exact flush_update. Qed.
Print Assumptions C45_collect_update.

(** Without [update]: within UPDATE_PERIOD + 2 COUNT + 1 cycles. *)
Theorem C45_collect_period : forall c mem0 xs h w n, cfg_ok c -> wires_ok c xs -> (n < sl_k c)%nat ->
  observe c mem0 xs = h ++ w -> Forall ready_cycle w ->
  Z.of_nat (length w) = sl_up c + 2 * Z.of_nat (sl_k c) + 1 -> fits c n (live (observe c mem0 xs)) ->
  received n (live h) <= delivered n (live (h ++ w)).
Proof. exact flush_period. Qed.
Print Assumptions C45_collect_period.

(** If more is outstanding, what is handed over is still right modulo the
    output width. *)
Theorem C45_collect_modulo : forall c mem0 xs h cu w n, cfg_ok c -> wires_ok c xs -> (n < sl_k c)%nat ->
  observe c mem0 xs = h ++ cu :: w -> li_update (snd (fst cu)) = true -> Forall ready_cycle (cu :: w) ->
  length w = (2 * sl_k c + 1)%nat -> Forall (quiet n) w ->
  (received n (live (observe c mem0 xs)) - delivered n (live (observe c mem0 xs))) mod 2 ^ sl_sw c = 0.
Proof. exact flush_update_mod. Qed.
Print Assumptions C45_collect_modulo.

(** Without [update], a channel is reported at most once in UPDATE_PERIOD
    cycles, unless UPDATE_PERIOD - 1 is a power of two. *)
Theorem C45_collect_rate : forall c mem0 xs n, cfg_ok c -> wires_ok c xs -> (forall k, 0 <= k -> sl_up c - 1 <> 2 ^ k) ->
  (forall rst i, In (rst, i) xs -> li_update i = false) ->
  sl_up c * reports n (live (observe c mem0 xs)) <= Z.of_nat (length (live (observe c mem0 xs))).
Proof. exact report_rate. Qed.
Print Assumptions C45_collect_rate.

(** A report offered and not taken stays as it is. *)
Theorem C45_collect_stable : forall c mem0 xs h x y, observe c mem0 xs = h ++ [x; y] -> fst (fst x) = false ->
  lo_tvalid (snd x) = true -> li_tready (snd (fst x)) = false -> snd y = snd x.
Proof. exact out_stable. Qed.
Print Assumptions C45_collect_stable.

(** The exception in the rate is real: the period counter is then a bit too
    narrow for its reload value. *)
Definition pw_cfg := mkSl 2 4 8 9.
Definition pw_in : bool * slin := (false, mkSlIn (fun _ => Some 1) true false).
Theorem C45_collect_rate_refuted : ~ (forall c mem0 xs n, cfg_ok c -> wires_ok c xs ->
  (forall rst i, In (rst, i) xs -> li_update i = false) ->
  sl_up c * reports n (live (observe c mem0 xs)) <= Z.of_nat (length (live (observe c mem0 xs)))).
Proof.
  intro H. specialize (H pw_cfg (fun _ => 0) (repeat pw_in 20) 0%nat).
  assert (X : (sl_up pw_cfg * reports 0 (live (observe pw_cfg (fun _ => 0) (repeat pw_in 20))) <=? Z.of_nat (length (live (observe pw_cfg (fun _ => 0) (repeat pw_in 20))))) = false) by (vm_compute; reflexivity).
  apply Z.leb_gt in X. apply Z.lt_nge in X. apply X. apply H.
  - unfold cfg_ok; cbn; lia.
  - intros r i n v Hi E. apply repeat_spec in Hi. injection Hi as -> ->. cbn in E. injection E as <-. cbn. lia.
  - intros r i Hi. apply repeat_spec in Hi. injection Hi as -> ->. reflexivity.
Qed.
Print Assumptions C45_collect_rate_refuted.

(** "Nothing is lost while the sink is always ready" is false for the widths the
    DMA statistics use (16 bit increments, 24 bit reports, a period of 1024
    cycles): large increments overflow the stored sum before it is reported. *)
Definition ov_cfg := mkSl 4 16 24 1024.
Definition ov_in : bool * slin := (false, mkSlIn (fun n => if Nat.eqb n 0 then Some 65535 else None) true false).
Theorem C45_collect_overflow_refuted : ~ (forall c mem0 xs h w n, cfg_ok c -> wires_ok c xs -> (n < sl_k c)%nat ->
  observe c mem0 xs = h ++ w -> Forall ready_cycle (h ++ w) ->
  Z.of_nat (length w) = sl_up c + 2 * Z.of_nat (sl_k c) + 1 ->
  received n (live h) <= delivered n (live (h ++ w))).
Proof.
  intro H. set (o := observe ov_cfg (fun _ => 0) (repeat ov_in 1533)).
  specialize (H ov_cfg (fun _ => 0) (repeat ov_in 1533) (firstn 500 o) (skipn 500 o) 0%nat).
  rewrite firstn_skipn in H. fold o in H.
  assert (X : (received 0 (live (firstn 500 o)) <=? delivered 0 (live o)) = false) by (vm_compute; reflexivity).
  apply Z.leb_gt in X. apply Z.lt_nge in X. apply X. apply H; clear H.
  - unfold cfg_ok; cbn; lia.
  - intros r i n v Hi E. apply repeat_spec in Hi. injection Hi as -> ->. cbn in E. destruct (Nat.eqb n 0); [|discriminate]. injection E as <-. cbn. lia.
  - apply Nat.ltb_lt. reflexivity.
  - reflexivity.
  - apply Forall_forall. intros y Hy. apply (in_map fst) in Hy. unfold o in Hy. rewrite obs_observe, obs_fst in Hy. apply repeat_spec in Hy.
    unfold ready_cycle. rewrite Hy. auto.
  - rewrite skipn_length. unfold o. rewrite obs_observe, obs_length, repeat_length. reflexivity.
Qed.
Print Assumptions C45_collect_overflow_refuted.

(** A run meeting the hypotheses: increments, a stalled sink, then an update. *)
Definition nv_cfg := mkSl 2 4 8 100.
Definition nv_in n v r u : bool * slin := (false, mkSlIn (fun m => if Nat.eqb m n then Some v else None) r u).
Definition nv_run : list (bool * slin) :=
  [nv_in 0 15 false true; nv_in 1 3 false false; nv_in 0 7 false false; nv_in 1 15 false false; nv_in 0 1 true true;
   nv_in 1 1 true false; nv_in 0 1 true false; nv_in 5 1 true false; nv_in 5 1 true false; nv_in 5 1 true false].
Example C45_collect_nonvacuous :
  cfg_ok nv_cfg /\ received 0 (live (firstn 5 (observe nv_cfg (fun _ => 9) nv_run))) = 23 /\
  received 1 (live (firstn 5 (observe nv_cfg (fun _ => 9) nv_run))) = 18 /\
  delivered 0 (live (firstn 5 (observe nv_cfg (fun _ => 9) nv_run))) = 15 /\
  delivered 0 (live (observe nv_cfg (fun _ => 9) nv_run)) = 23 /\ delivered 1 (live (observe nv_cfg (fun _ => 9) nv_run)) = 19 /\
  length (skipn 5 nv_run) = (2 * sl_k nv_cfg + 1)%nat.
Proof. split; [unfold cfg_ok; cbn; lia|]. repeat split; vm_compute; reflexivity. Qed.
Example C45_collect_hypotheses_nonvacuous :
  wires_ok nv_cfg nv_run /\ Forall ready_cycle (skipn 4 (observe nv_cfg (fun _ => 9) nv_run)) /\
  fits nv_cfg 0 (live (observe nv_cfg (fun _ => 9) nv_run)) /\ fits nv_cfg 1 (live (observe nv_cfg (fun _ => 9) nv_run)).
Proof.
  assert (B : forall n l, forallb (fun k => received n (firstn k l) - delivered n (firstn k l) <? 2 ^ sl_sw nv_cfg) (seq 0 (S (length l))) = true -> fits nv_cfg n l).
  { intros n l H q r E. assert (Q : q = firstn (length q) l) by (rewrite E, firstn_app, Nat.sub_diag, firstn_all; cbn [firstn]; now rewrite app_nil_r).
    rewrite forallb_forall in H. specialize (H (length q)). rewrite <- Q in H. apply Z.ltb_lt, H, in_seq.
    apply (f_equal (@length _)) in E. rewrite app_length in E. lia. }
  split; [|split; [|split]].
  - intros r i n v Hi E.
    assert (F : forallb (fun x : bool * slin => forallb (fun m => match li_inc (snd x) m with Some v => (0 <=? v) && (v <? 16) | None => true end) [0%nat; 1%nat; 5%nat]) nv_run = true) by (vm_compute; reflexivity).
    rewrite forallb_forall in F. specialize (F _ Hi). rewrite forallb_forall in F.
    assert (In n [0%nat; 1%nat; 5%nat]).
    { cbn [In nv_run] in Hi. unfold nv_in in Hi. repeat (destruct Hi as [Hi|Hi]; [injection Hi as <- <-; cbn in E; destruct n as [|[|[|[|[|[|n]]]]]]; cbn in E; try discriminate; cbn; auto|]). destruct Hi. }
    specialize (F n H). cbn [snd] in F. rewrite E in F. cbn. lia.
  - vm_compute. repeat constructor.
  - apply B. vm_compute. reflexivity.
  - apply B. vm_compute. reflexivity.
Qed.
