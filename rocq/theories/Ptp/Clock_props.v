(** The claims about the PTP clock (C46). *)
From Verif Require Import Base.Prelude Ptp.Clock_model Ptp.Clock_spec Ptp.Clock_proof.
Local Open Scope Z_scope.

(** The 96-bit time, from any cycle [x] that resets it or sets it to a
    normalised time: set value plus the sum of the increments computed since,
    each taken up two cycles later.  It is always normalised. *)
Theorem C46_time96 : forall c xs h x w y v, cfg_ok c -> Forall (in_ok c) xs -> observe c xs = h ++ x :: w ++ [y] ->
  set96 c (fst x) = Some v -> Forall (fun z : pcycle => set96 c (fst z) = None) w ->
  time96 (snd y) = shown c ((v + total (firstn (length w - 1) (skipn (S (length h)) (lagged c (h ++ x :: w))))) mod epoch c) /\
  0 <= o_s (snd y) < 2 ^ 48 /\ 0 <= o_ns (snd y) < 1000000000 /\ 0 <= o_fns (snd y) < 65536.
Proof. exact elapsed96. Qed.
Print Assumptions C46_time96.

(** The 64-bit time: the same increments, two cycles earlier. *)
Theorem C46_time64 : forall c xs h x w y v, cfg_ok c -> observe c xs = h ++ x :: w ++ [y] ->
  set64 c (fst x) = Some v -> Forall (fun z : pcycle => set64 c (fst z) = None) w ->
  o_64 (snd y) = shown c ((v + total (firstn (length w) (skipn (length h) (incs c (h ++ x :: w))))) mod 2 ^ (48 + p_f c)).
Proof. exact elapsed64. Qed.
Print Assumptions C46_time64.

(** The increment of a cycle is period plus active adjustment plus due drift,
    whenever that is not negative. *)
Theorem C46_increment : forall c xs h x w, cfg_ok c -> Forall (in_ok c) xs -> observe c xs = h ++ x :: w ->
  0 <= rate_of c h x -> inc_of c h x = rate_of c h x.
Proof. exact increment_exact. Qed.
Print Assumptions C46_increment.

(** An adjustment with count [n] given while none is in progress is active in
    exactly [n] consecutive cycles. *)
Theorem C46_adjustment : forall c xs h x w y v n, Forall (in_ok c) xs -> observe c xs = h ++ x :: w ++ [y] ->
  (forall h' x0, h = h' ++ [x0] -> fst (fst x0) = true \/ i_adj (snd (fst x0)) = None) -> o_active (snd x) = false ->
  fst (fst x) = false -> i_adj (snd (fst x)) = Some (v, n) ->
  Forall (fun z : pcycle => fst (fst z) = false /\ i_adj (snd (fst z)) = None) w ->
  o_active (snd y) = (1 <=? Z.of_nat (length w)) && (Z.of_nat (length w) <=? n).
Proof. exact adjustment. Qed.
Print Assumptions C46_adjustment.

(** The drift is applied in every DRIFT_RATE-th cycle after reset. *)
Theorem C46_drift : forall c h x w, fst (fst x) = true ->
  Forall (fun z : pcycle => fst (fst z) = false /\ i_drift (snd (fst z)) = None) w -> cfg_ok c -> p_den c = true ->
  drift_on c (h ++ x :: w) = (Z.of_nat (length w) mod (if p_rate c =? 0 then 65536 else p_rate c) =? 0).
Proof. exact drift_regular. Qed.
Print Assumptions C46_drift.

(** The seconds advance exactly with the pulse per second. *)
Theorem C46_pps : forall c xs h x y, observe c xs = h ++ [x; y] -> set96 c (fst x) = None ->
  o_s (snd y) = if o_pps (snd y) then (o_s (snd x) + 1) mod 2 ^ 48 else o_s (snd x).
Proof. exact pps_seconds. Qed.
Print Assumptions C46_pps.

(** Unless it is set, the 96-bit time never goes back, except when the seconds
    wrap. *)
Theorem C46_monotonic : forall c xs h x w y z, cfg_ok c -> Forall (in_ok c) xs -> observe c xs = h ++ x :: w ++ [y; z] ->
  set96 c (fst x) <> None -> Forall (fun z : pcycle => set96 c (fst z) = None) (w ++ [y]) ->
  time96 (snd y) <= time96 (snd z) \/ (o_s (snd y) = 2 ^ 48 - 1 /\ o_s (snd z) = 0 /\ o_pps (snd z) = true).
Proof. exact monotonic. Qed.
Print Assumptions C46_monotonic.

(** The step flag tells exactly the cycles that follow a set or in which an
    adjustment is active. *)
Theorem C46_step : forall c xs h x y, observe c xs = h ++ [x; y] -> fst (fst x) = false ->
  o_step (snd y) = o_active (snd y) || (match i_96 (snd (fst x)) with Some _ => true | None => false end) || (match i_64 (snd (fst x)) with Some _ => true | None => false end).
Proof. exact step_flag. Qed.
Print Assumptions C46_step.

(** PIPELINE_OUTPUT delays the outputs by that many cycles. *)
Theorem C46_pipeline : forall c n xs t, (n <= t < length xs)%nat -> Forall (fun x : bool * pin => fst x = false) (firstn n (skipn (t - n) xs)) ->
  nth t (map snd (observe_pipelined c n xs)) blank =
    with_active (nth (t - n) (map snd (observe c xs)) blank) (o_active (nth t (map snd (observe c xs)) blank)).
Proof. exact pipelined. Qed.
Print Assumptions C46_pipeline.

(** ** What does not hold *)
(** The default parameters. *)
Definition d_cfg := mkPc 4 4 4 16 419430 true 2 5.
Definition none : pin := mkPin None None None None None.
Ltac in_range := repeat (apply Forall_cons; [unfold in_ok; cbn; splits; intros; try discriminate;
  match goal with H : Some _ = Some _ |- _ => injection H; clear H; intros; subst; lia end|]); apply Forall_nil.

(** Without a reset after power-up the time starts at one second. *)
Theorem C46_power_up_refuted : ~ (forall c xs y, cfg_ok c -> Forall (in_ok c) xs -> Forall (fun x => set96 c x = None) xs ->
  In y (observe c xs) -> time96 (snd y) <= shown c (total (incs c (observe c xs)))).
Proof.
  intro H. specialize (H d_cfg (repeat (false, none) 4) (nth 3 (observe d_cfg (repeat (false, none) 4)) (false, none, blank))).
  assert (X : (time96 (snd (nth 3 (observe d_cfg (repeat (false, none) 4)) (false, none, blank))) <=? shown d_cfg (total (incs d_cfg (observe d_cfg (repeat (false, none) 4))))) = false) by (vm_compute; reflexivity).
  apply Z.leb_gt in X. apply Z.lt_nge in X. apply X, H.
  - unfold cfg_ok. cbn. lia.
  - apply Forall_forall. intros x Hx. apply repeat_spec in Hx. subst x. unfold in_ok. cbn. splits; intros; discriminate.
  - apply Forall_forall. intros x Hx. apply repeat_spec in Hx. now subst x.
  - apply nth_In. rewrite observe_length. cbn. lia.
Qed.
Print Assumptions C46_power_up_refuted.

(** A negative sum does not hold the clock back, it makes it leap. *)
Definition neg_run : list (bool * pin) :=
  [(true, none); (false, mkPin None None None (Some (524288, 1)) None); (false, none); (false, none)].
Theorem C46_negative_refuted : ~ (forall c xs h x w, cfg_ok c -> Forall (in_ok c) xs -> observe c xs = h ++ x :: w -> inc_of c h x = rate_of c h x).
Proof.
  intro H. set (o := observe d_cfg neg_run). set (x := nth 3 o (false, none, blank)).
  specialize (H d_cfg neg_run (firstn 3 o) x []).
  assert (E : (inc_of d_cfg (firstn 3 o) x =? rate_of d_cfg (firstn 3 o) x) = false) by (vm_compute; reflexivity).
  apply Z.eqb_neq in E. apply E, H.
  - unfold cfg_ok. cbn. lia.
  - unfold neg_run. in_range.
  - vm_compute. reflexivity.
Qed.
Print Assumptions C46_negative_refuted.

(** Setting the 64-bit time is right only with 16 bits of fraction. *)
Theorem C46_load64 : forall c xs h x y v, cfg_ok c -> p_f c = 16 -> observe c xs = h ++ [x; y] -> fst (fst x) = false ->
  i_64 (snd (fst x)) = Some v -> 0 <= v < 2 ^ 64 -> o_64 (snd y) = v.
Proof.
  intros c xs h x y v C F E R I V. assert (S : set64 c (fst x) = Some v).
  { unfold set64. rewrite R, I, F. change (48 + 16) with 64. now rewrite Z.mod_small. }
  rewrite (@elapsed64 c xs h x [] y v C E S (Forall_nil _)). cbn [length firstn total fold_right]. rewrite Z.add_0_r, F. change (48 + 16) with 64.
  rewrite Z.mod_small by auto. unfold shown. rewrite F. apply Z.div_mul. discriminate.
Qed.
Print Assumptions C46_load64.
Definition f8_cfg := mkPc 4 4 4 8 1638 true 2 5.
Theorem C46_load64_refuted : ~ (forall c xs h x y v, cfg_ok c -> observe c xs = h ++ [x; y] -> fst (fst x) = false ->
  i_64 (snd (fst x)) = Some v -> 0 <= v < 2 ^ 48 -> o_64 (snd y) = v).
Proof.
  intro H. set (xs := [(true, none); (false, mkPin None (Some 65536) None None None); (false, none)]). set (o := observe f8_cfg xs).
  specialize (H f8_cfg xs (firstn 1 o) (nth 1 o (false, none, blank)) (nth 2 o (false, none, blank)) 65536).
  assert (E : (o_64 (snd (nth 2 o (false, none, blank))) =? 65536) = false) by (vm_compute; reflexivity).
  apply Z.eqb_neq in E. apply E, H; try (vm_compute; reflexivity).
  - unfold cfg_ok. cbn. lia.
  - split; [discriminate|reflexivity].
Qed.
Print Assumptions C46_load64_refuted.

(** An adjustment given while another is in progress loses its count. *)
Definition adj_run : list (bool * pin) :=
  [(true, none); (false, mkPin None None None (Some (1, 2)) None); (false, mkPin None None None (Some (1, 5)) None);
   (false, none); (false, none); (false, none)].
Theorem C46_adjustment_lost_refuted : ~ (forall c xs h x w y v n, Forall (in_ok c) xs -> observe c xs = h ++ x :: w ++ [y] ->
  o_active (snd x) = false -> fst (fst x) = false -> i_adj (snd (fst x)) = Some (v, n) ->
  Forall (fun z : pcycle => fst (fst z) = false /\ i_adj (snd (fst z)) = None) w ->
  o_active (snd y) = (1 <=? Z.of_nat (length w)) && (Z.of_nat (length w) <=? n)).
Proof.
  intro H. set (o := observe d_cfg adj_run).
  specialize (H d_cfg adj_run (firstn 2 o) (nth 2 o (false, none, blank)) (firstn 2 (skipn 3 o)) (nth 5 o (false, none, blank)) 1 5).
  assert (E : o_active (snd (nth 5 o (false, none, blank))) = false) by (vm_compute; reflexivity).
  rewrite E in H. assert (N : length (firstn 2 (skipn 3 o)) = 2%nat) by (vm_compute; reflexivity). rewrite N in H.
  change ((1 <=? Z.of_nat 2) && (Z.of_nat 2 <=? 5)) with true in H.
  assert (X : false = true); [|discriminate]. apply H; clear H.
  - unfold adj_run. in_range.
  - vm_compute. reflexivity.
  - vm_compute. reflexivity.
  - vm_compute. reflexivity.
  - vm_compute. reflexivity.
  - vm_compute. repeat constructor.
Qed.
Print Assumptions C46_adjustment_lost_refuted.

(** A run: reset, a time just before the end of a second is set, and a second
    passes; an adjustment of 3 cycles is given on the way. *)
Definition nv_run : list (bool * pin) :=
  [(true, none); (true, none); (false, mkPin (Some (7, 999999990, 0)) (Some 0) None None None); (false, none);
   (false, mkPin None None None (Some (65536, 3)) None)] ++ repeat (false, none) 8.
Example C46_nonvacuous :
  cfg_ok d_cfg /\ Forall (in_ok d_cfg) nv_run /\
  map (fun y : pcycle => (o_s (snd y), o_ns (snd y), o_pps (snd y), o_active (snd y))) (skipn 3 (observe d_cfg nv_run)) =
    [(7, 999999990, false, false); (7, 999999990, false, false); (7, 999999996, false, false); (8, 2, true, true);
     (8, 9, false, true); (8, 15, false, true); (8, 22, false, false); (8, 29, false, false); (8, 36, false, false); (8, 44, false, false)].
Proof.
  splits.
  - unfold cfg_ok. cbn. lia.
  - unfold nv_run. cbn [app repeat]. in_range.
  - vm_compute. reflexivity.
Qed.
