(** C25, C26, C55-C58: the stream FIFO. *)
From Verif Require Import Base.Prelude Base.Bits Rtl.Handshake_spec Stream.Axis_model Stream.Axis_spec
  Stream.Fifo_model Stream.Fifo_spec Stream.Fifo_hist_proof Stream.Fifo_live_proof Stream.Fifo_frame_proof
  Stream.Fifo_gap_proof Stream.Fifo_mark_proof.
Local Open Scope nat_scope.

(** * C25: normal mode *)

(** From power-on or any reset, under every schedule of both sides: what was delivered,
    followed by at most [room] beats still inside, is what was accepted. *)
Theorem C25_fifo_preserves c s is :
  f_frame c = false -> f_mark c = false -> started c s -> no_reset is ->
  exists rest, map (present (f_ax c)) (got is (outs c s is)) = sent is (outs c s is) ++ rest /\
    length rest <= room c.
Proof. exact (fun Hf Hm => @norm_prefix c Hf Hm s is). Qed.
Print Assumptions C25_fifo_preserves.

(** It refuses a beat only while at least 2^ADDR_WIDTH accepted beats are inside. *)
Theorem C25_fifo_refuses_only_when_full c s is j :
  f_frame c = false -> f_mark c = false -> started c s -> no_reset is ->
  y_sready (snd (f_step c (after c s is) j)) = false ->
  length (sent is (outs c s is)) + 2 ^ f_aw c <= length (got is (outs c s is)).
Proof. exact (fun Hf Hm => @norm_refuses c Hf Hm s is j). Qed.
Print Assumptions C25_fifo_refuses_only_when_full.

(** With the sink ready and not paused, everything accepted comes out. *)
Theorem C25_fifo_drains c s is tail :
  f_frame c = false -> f_mark c = false -> started c s -> no_reset is ->
  no_reset tail -> sinking tail -> silent tail -> S (drain_time c) <= length tail ->
  sent (is ++ tail) (outs c s (is ++ tail)) = map (present (f_ax c)) (got is (outs c s is)).
Proof. exact (@norm_drain c s is tail). Qed.
Print Assumptions C25_fifo_drains.

(** In every mode: with the sink ready, an offered beat is eventually accepted. *)
Theorem C25_fifo_accepts_again c s is b tail :
  started c s -> no_reset (is ++ tail) -> sinking tail -> offering b tail ->
  S (S (drain_time c)) <= length tail ->
  exists t o, nth_error (outs c s (is ++ tail)) (length is + t) = Some o /\ y_sready o = true.
Proof. exact (@accept_top c s is b tail). Qed.
Print Assumptions C25_fifo_accepts_again.

(** In every mode without pausing: an offered beat stays offered until it is taken. *)
Theorem C25_fifo_output_stable c s is :
  f_pause c = false -> started c s -> no_reset is ->
  stable_output (map sin_of is) (map sout_of (outs c s is)).
Proof. exact (@stable_top c s is). Qed.
Print Assumptions C25_fifo_output_stable.

(** The fill level shown is the number of beats inside one cycle earlier, up to the
    beats in the read pipeline and output FIFO. *)
Theorem C25_fifo_fill_level c s is i j :
  f_frame c = false -> f_mark c = false -> started c s -> no_reset is -> x_rst i = false ->
  exists d, y_depth (snd (f_step c (after c s (is ++ [i])) j)) = Z.of_nat d /\
    length (sent is (outs c s is)) + d <= length (got is (outs c s is)) /\
    length (got is (outs c s is)) + 2 ^ f_aw c <= length (sent is (outs c s is)) + d + room c.
Proof. exact (@norm_depth c s is i j). Qed.
Print Assumptions C25_fifo_fill_level.

(** * C26: frame mode with dropping *)

(** After any run, the accepted beats split into complete frames and one unfinished
    frame.  Each complete frame has the fate its status pulse reported, for a reason;
    the output is the concatenation of the good frames, in order and unchanged, of
    which at most [room] beats are still inside; and a ready sink gets them all. *)
Theorem C26_frames_whole_or_dropped c s is j :
  f_frame c = true -> f_drop_over c = true -> started c s -> no_reset is ->
  let os := outs c s (is ++ [j]) in
  exists fs part rest,
    got is os = concat (map fst fs) ++ part /\
    Forall (fun p => is_frame (fst p)) fs /\ Forall (fun b => tlast b = false) part /\
    pulses os = map snd fs /\ Forall (justified c os) fs /\
    map (present (f_ax c)) (concat (with_fate Good fs)) = sent is os ++ rest /\ length rest <= room c /\
    (forall tail, no_reset tail -> sinking tail -> silent tail -> S (drain_time c) <= length tail ->
      sent (is ++ tail) (outs c s (is ++ tail)) = map (present (f_ax c)) (concat (with_fate Good fs))).
Proof. exact (fun Hf Hd => @frame_top c Hf Hd s is j). Qed.
Print Assumptions C26_frames_whole_or_dropped.

(** In every mode, no two status outputs are high in one cycle. *)
Theorem C26_one_status_per_cycle c s is :
  started c s -> no_reset is -> Forall one_pulse (outs c s is).
Proof. exact (@one_pulse_top c s is). Qed.
Print Assumptions C26_one_status_per_cycle.

(** * C55: frame mode without dropping *)

(** Nothing is dropped: the delivered beats, those inside and the tail of an unfinished
    frame are the accepted ones; every finished frame is reported good; a ready sink
    gets everything but that tail. *)
Theorem C55_frame_mode_lossless c s is j :
  fcfg_ok c = true -> f_frame c = true -> f_drop_over c = false -> started c s -> no_reset is ->
  let os := outs c s (is ++ [j]) in
  exists rest part,
    map (present (f_ax c)) (got is os) = sent is os ++ rest ++ map (present (f_ax c)) part /\
    length rest + length part <= room c /\
    Forall (fun b => tlast b = false) part /\
    pulses os = map (fun _ => Good) (filter tlast (got is os)) /\
    (forall tail, no_reset tail -> sinking tail -> silent tail -> S (drain_time c) <= length tail ->
      map (present (f_ax c)) (got is os)
      = sent (is ++ tail) (outs c s (is ++ tail)) ++ map (present (f_ax c)) part).
Proof. exact (fun Hok Hf Hd => @nodrop_top c Hok Hf Hd s is j). Qed.
Print Assumptions C55_frame_mode_lossless.

(** * C56: MARK_WHEN_FULL *)

(** Never back-pressures. *)
Theorem C56_mark_always_ready c s is :
  fcfg_ok c = true -> f_mark c = true -> started c s -> no_reset is ->
  Forall (fun o => y_sready o = true) (outs c s is).
Proof. exact (fun Hok Hm => @mark_accepts c Hok Hm s is). Qed.
Print Assumptions C56_mark_always_ready.

(** Each accepted frame comes out whole, or as a proper non-empty prefix ended by a beat
    with the bad frame value, or not at all; the frames not kept are exactly those
    reported by overflow pulses; and unless the memory was seen full, all are kept. *)
Theorem C56_mark_cuts_and_reports c s is j :
  fcfg_ok c = true -> f_mark c = true -> started c s -> no_reset is ->
  let os := outs c s (is ++ [j]) in
  exists fs part cur rest,
    got is os = concat (map fst fs) ++ part /\
    Forall (fun p => is_frame (fst p)) fs /\ Forall (fun b => tlast b = false) part /\
    Forall (mok c) fs /\ (closed fs \/ (open_tail fs /\ cur = [])) /\ (exists n, cur = firstn n part) /\
    pulses os = map (fun _ => Over) (filter (fun p => negb (is_kept p)) fs) /\
    map (present (f_ax c)) (concat (map mout fs) ++ cur) = sent is os ++ rest /\ length rest <= room c /\
    ((forallb is_kept fs = true /\ cur = part) \/ exists o, In o os /\ y_depth o = Z.of_nat (2 ^ f_aw c)).
Proof. exact (fun Hok Hm => @mark_top c Hok Hm s is j). Qed.
Print Assumptions C56_mark_cuts_and_reports.

(** When the source stops between frames and the sink is ready, every cut frame gets
    its terminating beat. *)
Theorem C56_mark_terminates_frames c s is gs tail :
  fcfg_ok c = true -> f_mark c = true -> started c s -> no_reset is -> Forall is_frame gs ->
  got is (outs c s is) = concat gs ->
  no_reset tail -> sinking tail -> silent tail -> 2 * drain_time c + 3 <= length tail ->
  exists fs, concat (map fst fs) = concat gs /\ Forall (fun p => is_frame (fst p)) fs /\
    Forall (mok c) fs /\ closed fs /\
    sent (is ++ tail) (outs c s (is ++ tail)) = map (present (f_ax c)) (concat (map mout fs)).
Proof. exact (fun Hok Hm => @mark_drain c Hok Hm s is gs tail). Qed.
Print Assumptions C56_mark_terminates_frames.

(** * C57: frames without gaps *)

(** Store-and-forward: without the output FIFO, a frame goes out in consecutive cycles
    of a ready sink. *)
Theorem C57_frames_without_gaps c s is :
  fcfg_ok c = true -> f_frame c = true -> f_drop_over c = true -> f_ofifo c = false ->
  (f_pause c = true -> f_fpause c = true) ->
  started c s -> no_reset is -> no_gap is (outs c s is).
Proof. exact (fun Hok Hf Hd Ho Hp => @gap_top c Hok Hf Hd Ho Hp s is). Qed.
Print Assumptions C57_frames_without_gaps.

Definition ax1 : axcfg := mkAx true 1 true true true true.
Definition bt (d : nat) (l : bool) (u : Z) : beat := mkBeat (Z.of_nat d) 1 l 0 0 u.
Definition b0 : beat := bt 0 false 0.
Definition fgap : fcfg := mkFcfg 4 1 true true 1 1 true false false false false false ax1.
(** A frame of 16 beats, and a sink that starts reading in cycle 40. *)
Definition igap : list fin :=
  map (fun k => mkFin false (k <? 16) (bt k (k =? 15) 0) (40 <=? k) false) (seq 0 60).

(** With the output FIFO and the default RAM_PIPELINE of 1 it is false: the output
    stalls for a cycle in the middle of a stored frame. *)
Theorem C57_output_fifo_gap_refuted :
  ~ forall c s is, fcfg_ok c = true -> f_frame c = true -> f_drop_over c = true -> f_pause c = false ->
      started c s -> no_reset is -> no_gap is (outs c s is).
Proof.
  intros H. specialize (H fgap (f_init fgap (fun _ => b0) (fun _ => b0)) igap eq_refl eq_refl eq_refl eq_refl).
  assert (Hr : no_reset igap) by repeat constructor.
  specialize (H (started_on _ _ _) Hr).
  set (os := outs fgap (f_init fgap (fun _ => b0) (fun _ => b0)) igap) in H.
  assert (E : match nth_error igap 47, nth_error os 47, nth_error os 48 with
              | Some i, Some o, Some o' =>
                  x_mready i && match y_m o with Some b => negb (tlast b) | None => false end && isnone (y_m o')
              | _, _, _ => false end = true) by (vm_compute; reflexivity).
  clearbody os.
  destruct (nth_error igap 47) as [i|] eqn:E1; [|discriminate E].
  destruct (nth_error os 47) as [o|] eqn:E2; [|discriminate E].
  destruct (nth_error os 48) as [o'|] eqn:E3; [|discriminate E].
  apply andb_true_iff in E. destruct E as [E E6]. apply andb_true_iff in E. destruct E as [E4 E5].
  destruct (y_m o) as [b|] eqn:E7; [|discriminate E5]. apply negb_true_iff in E5.
  apply (H 47 i o b E1 E2 E4 E7 E5 o' E3). destruct (y_m o'); [discriminate E6|reflexivity].
Qed.
Print Assumptions C57_output_fifo_gap_refuted.

(** * C58: pausing *)

(** FRAME_PAUSE: the FIFO is never paused inside a frame. *)
Theorem C58_pause_between_frames c s is j :
  f_fpause c = true -> started c s -> no_reset is -> mid_frame (sent is (outs c s is)) ->
  exists o, nth_error (outs c s (is ++ [j])) (length is) = Some o /\ y_pack o = false.
Proof. exact (fun Hf => @pause_top c Hf s is j). Qed.
Print Assumptions C58_pause_between_frames.

(** So inside a frame an offered beat stays offered until it is taken. *)
Theorem C58_frame_output_stable c s is i j o o' b :
  f_fpause c = true -> started c s -> no_reset (is ++ [i]) -> mid_frame (sent is (outs c s is)) ->
  nth_error (outs c s (is ++ [i; j])) (length is) = Some o ->
  nth_error (outs c s (is ++ [i; j])) (S (length is)) = Some o' ->
  y_m o = Some b -> x_mready i = false -> y_m o' = Some b.
Proof. exact (fun Hf => @mid_stable c Hf s is i j o o' b). Qed.
Print Assumptions C58_frame_output_stable.

Definition fpz : fcfg := mkFcfg 2 0 false false 1 1 false false false false true true ax1.
Definition ipz : list fin :=
  [mkFin false true (bt 1 true 0) false false; mkFin false false b0 false false;
   mkFin false false b0 false true; mkFin false false b0 false true].

(** At a frame boundary a pause request takes back a beat already offered. *)
Theorem C58_pause_retracts_offer_refuted :
  ~ forall c s is, fcfg_ok c = true -> f_fpause c = true -> started c s -> no_reset is ->
      stable_output (map sin_of is) (map sout_of (outs c s is)).
Proof.
  intros H. specialize (H fpz (f_init fpz (fun _ => b0) (fun _ => b0)) ipz eq_refl eq_refl (started_on _ _ _)).
  assert (Hr : no_reset ipz) by repeat constructor. specialize (H Hr).
  specialize (H 2 (mkSin false None false) (mkSout true (Some (bt 1 true 0))) (bt 1 true 0)).
  specialize (H eq_refl). assert (E : nth_error (map sout_of (outs fpz (f_init fpz (fun _ => b0) (fun _ => b0)) ipz)) 2
    = Some (mkSout true (Some (bt 1 true 0)))) by (vm_compute; reflexivity).
  specialize (H E eq_refl eq_refl (mkSout true None)).
  assert (E2 : nth_error (map sout_of (outs fpz (f_init fpz (fun _ => b0) (fun _ => b0)) ipz)) 3
    = Some (mkSout true None)) by (vm_compute; reflexivity).
  specialize (H E2). discriminate.
Qed.
Print Assumptions C58_pause_retracts_offer_refuted.

(** * Concrete cases *)
Definition on (c : fcfg) : fifo := f_init c (fun _ => b0) (fun _ => b0).
Definition wr (d : nat) (l : bool) (u : Z) (r : bool) : fin := mkFin false true (bt d l u) r false.
Definition idle (r : bool) : fin := mkFin false false b0 r false.
Definition tags (l : list beat) : list Z := map tdata l.

(** Two words of memory and one pipeline stage: three beats fit, a fourth is refused,
    two come out. *)
Definition fn : fcfg := mkFcfg 1 0 false false 1 1 false false false false false false ax1.
Definition inn : list fin :=
  [wr 1 false 0 false; wr 2 false 0 false; wr 3 true 0 false; wr 4 true 0 false; wr 4 true 0 false;
   idle true; idle true].
Example C25_nonvacuous :
  no_reset inn /\ tags (got inn (outs fn (on fn) inn)) = [1; 2; 3]%Z /\
  tags (sent inn (outs fn (on fn) inn)) = [1; 2]%Z /\
  y_sready (snd (f_step fn (after fn (on fn) (firstn 4 inn)) (wr 4 true 0 false))) = false.
Proof. split; [repeat constructor|]. vm_compute. auto. Qed.

(** A good frame, a frame whose user signal says bad, one longer than the memory, and
    another good one. *)
Definition ff : fcfg := mkFcfg 2 0 false true 1 1 true true false false false false ax1.
Definition inf : list fin :=
  [wr 1 false 0 true; wr 2 true 0 true; wr 3 false 0 true; wr 4 true 1 true;
   wr 5 false 0 true; wr 6 false 0 true; wr 7 false 0 true; wr 8 false 0 true; wr 9 true 0 true;
   wr 10 true 0 true; wr 11 false 0 true; idle true; idle true].
Example C26_nonvacuous :
  no_reset inf /\ pulses (outs ff (on ff) (inf ++ [idle true])) = [Good; Bad; Over; Good] /\
  tags (sent inf (outs ff (on ff) inf)) = [1; 2; 10]%Z.
Proof. split; [repeat constructor|]. vm_compute. auto. Qed.

(** A frame longer than the memory passes through frame mode without dropping. *)
Definition fl : fcfg := mkFcfg 1 0 false true 1 1 false false false false false false ax1.
Definition inl_ : list fin :=
  map (fun k => wr k (k =? 9) 0 true) [1; 2; 3; 3; 3; 4; 5; 6; 7; 8; 9] ++ repeat (idle true) 4.
Example C55_nonvacuous :
  fcfg_ok fl = true /\ no_reset inl_ /\
  tags (got inl_ (outs fl (on fl) inl_)) = [1; 2; 3; 4; 5; 6; 7; 8; 9]%Z /\
  tags (sent inl_ (outs fl (on fl) inl_)) = [1; 2; 3; 4; 5; 6; 7; 8; 9]%Z.
Proof. split; [reflexivity|]. split; [repeat constructor|]. vm_compute. auto. Qed.

(** Two words of memory and one pipeline stage behind a stalled sink: a frame cut after
    three beats, a frame lost, and, once the sink reads, the terminating beat. *)
Definition fm : fcfg := mkFcfg 1 0 false false 1 1 false false false true false false ax1.
Definition inm : list fin :=
  [wr 1 false 0 false; wr 2 false 0 false; wr 3 false 0 false; wr 4 true 0 false; wr 5 true 0 false;
   idle true; idle true; idle true; idle true; idle true].
Example C56_nonvacuous :
  fcfg_ok fm = true /\ no_reset inm /\
  map (fun b => (tdata b, tlast b, tuser b)) (sent inm (outs fm (on fm) inm))
    = [(1, false, 0); (2, false, 0); (3, false, 0); (0, true, 1)]%Z /\
  pulses (outs fm (on fm) inm) = [Over; Over].
Proof. split; [reflexivity|]. split; [repeat constructor|]. vm_compute. auto. Qed.

(** A stored frame goes out beat by beat. *)
Definition fg : fcfg := mkFcfg 2 2 false true 1 1 true false false false true true ax1.
Definition ing : list fin :=
  [wr 1 false 0 true; idle true; wr 2 false 0 true; idle true; wr 3 true 0 true] ++ repeat (idle true) 8.
Example C57_nonvacuous :
  fcfg_ok fg = true /\ no_reset ing /\
  map (fun o => option_map tdata (y_m o)) (outs fg (on fg) ing)
    = [None; None; None; None; None; None; None; None; Some 1; Some 2; Some 3; None; None]%Z.
Proof. split; [reflexivity|]. split; [repeat constructor|]. vm_compute. auto. Qed.

(** A pause requested inside a frame is acknowledged after its last beat. *)
Definition inp : list fin :=
  [wr 1 false 0 true; wr 2 false 0 true; wr 3 true 0 true; wr 4 true 0 true] ++
  map (fun k => mkFin false false b0 true (1 <=? k)) (seq 0 6).
Definition fq : fcfg := mkFcfg 2 0 false true 1 1 true false false false true true ax1.
Example C58_nonvacuous :
  fcfg_ok fq = true /\
  map (fun o => (option_map tdata (y_m o), y_pack o)) (skipn 4 (outs fq (on fq) inp))
    = [(Some 1, false); (Some 2, false); (Some 3, false); (None, true); (None, true); (None, true)]%Z /\
  mid_frame (sent (firstn 6 inp) (outs fq (on fq) (firstn 6 inp))).
Proof. split; [reflexivity|]. split; [vm_compute; reflexivity|]. exists [bt 1 false 0], (bt 2 false 0). vm_compute. auto. Qed.
