(** The stream FIFO refines a pair of queues followed by a pipeline. *)
From Verif Require Import Base.Prelude Base.Bits Rtl.Handshake_spec Rtl.Handshake_proof
  Stream.Axis_model Stream.Axis_spec Stream.Axis_proof Stream.Fifo_model Stream.Fifo_spec Stream.Fifo_ring.
Local Open Scope nat_scope.

(** * Write side *)
Inductive action := Keep | Push | PushCommit | Commit | Rollback | Scratch.

(** Which of the pointer updates the write logic makes. *)
Definition act_of (c : fcfg) (full full_wr rdy : bool) (w : wside) (v : bool) (b : beat) : action :=
  if f_frame c then
    if rdy && v then
      if (full && f_drop_full c) || (full_wr && f_drop_over c) || w_drop w then
        if tlast b then Rollback else Keep
      else if tlast b || (negb (f_drop_over c) && (full_wr || w_send w)) then
        if tlast b && f_drop_bad c && bad_user c b then Scratch else PushCommit
      else Push
    else if v && full_wr && negb (f_drop_over c) then Commit else Keep
  else
    if rdy && v then
      if w_drop w && f_mark c then
        if tlast b then if negb full && w_mark w then PushCommit else Keep else Keep
      else if (full || w_mark w) && f_mark c then Keep
      else PushCommit
    else if negb full && negb (w_drop w) && w_mark w && f_mark c then PushCommit else Keep.

Definition dQ (a : action) (U : list beat) (x : beat) : list beat :=
  match a with PushCommit => U ++ [x] | Commit => U | _ => [] end.
Definition dU (a : action) (U : list beat) (x : beat) : list beat :=
  match a with Keep => U | Push => U ++ [x] | _ => [] end.

Definition wact c (w : wside) rd v b : action :=
  act_of c (pfull (f_aw c) (w_wr w) rd) (pfull (f_aw c) (w_wr w) (w_cm w)) (sready c w rd) w v b.

Lemma w_step_ring c w rd v b Q U :
  ring (f_aw c) (w_mem w) rd (w_cm w) (w_wr w) Q U ->
  let w' := w_step c w rd v b in
  ring (f_aw c) (w_mem w') rd (w_cm w') (w_wr w')
       (Q ++ dQ (wact c w rd v b) U (stored c w b)) (dU (wact c w rd v b) U (stored c w b)).
Proof.
  intros HR w'. subst w'. unfold wact, act_of, w_step.
  set (full := pfull (f_aw c) (w_wr w) rd) in *. set (fw := pfull (f_aw c) (w_wr w) (w_cm w)).
  assert (Hp : full = false -> forall x, ring (f_aw c) (zupd (w_mem w) (w_wr w mod depth_of (f_aw c)) x) rd
                (w_cm w) (pinc (f_aw c) (w_wr w)) Q (U ++ [x])) by (intros; apply ring_push; auto).
  assert (Hpc : full = false -> forall x, ring (f_aw c) (zupd (w_mem w) (w_wr w mod depth_of (f_aw c)) x) rd
                (pinc (f_aw c) (w_wr w)) (pinc (f_aw c) (w_wr w)) (Q ++ U ++ [x]) [])
    by (intros; eapply ring_commit; auto).
  assert (Hsc : full = false -> forall x, ring (f_aw c) (zupd (w_mem w) (w_wr w mod depth_of (f_aw c)) x) rd
                (w_cm w) (w_cm w) Q []) by (intros; eapply ring_scratch; eauto).
  pose proof (ring_commit HR) as Hc. pose proof (ring_rollback HR) as Hrb.
  set (sb := stored c w b) in *.
  assert (Hrdy : sready c w rd = if f_frame c then negb full || (fw && f_drop_over c) || f_drop_full c
                                 else negb full || f_mark c) by reflexivity.
  destruct (f_frame c).
  - destruct (sready c w rd && v) eqn:Ex.
    + apply andb_true_iff in Ex. destruct Ex as [Ex _]. rewrite Ex in Hrdy.
      destruct ((full && f_drop_full c) || (fw && f_drop_over c) || w_drop w) eqn:Ed.
      * destruct (tlast b); cbn [w_mem w_cm w_wr dQ dU]; rewrite app_nil_r; auto.
      * assert (Hf : full = false).
        { destruct full; auto. destruct (fw && f_drop_over c), (f_drop_full c); cbn in *; discriminate. }
        destruct (tlast b || _); [destruct (tlast b && f_drop_bad c && bad_user c b)|];
          cbn [w_mem w_cm w_wr dQ dU]; rewrite ?app_nil_r; auto.
    + destruct (v && fw && negb (f_drop_over c)); cbn [w_mem w_cm w_wr dQ dU]; rewrite ?app_nil_r; auto.
  - destruct (sready c w rd && v) eqn:Ex.
    + apply andb_true_iff in Ex. destruct Ex as [Ex _]. rewrite Ex in Hrdy.
      destruct (w_drop w && f_mark c).
      * destruct (tlast b); [destruct full, (w_mark w)|]; cbn [negb andb w_mem w_cm w_wr dQ dU]; rewrite ?app_nil_r; auto.
      * destruct full, (w_mark w), (f_mark c); cbn [negb andb orb w_mem w_cm w_wr dQ dU] in *;
          try discriminate; rewrite ?app_nil_r; auto.
    + destruct (negb full && negb (w_drop w) && w_mark w && f_mark c) eqn:Em;
        cbn [w_mem w_cm w_wr dQ dU]; rewrite ?app_nil_r; auto.
      apply Hpc. destruct full; auto.
Qed.

(** * The read pipeline *)
Lemma pshift_true e t x : pshift true (e :: t) x = t ++ [x].
Proof.
  revert e; induction t as [|p t IH]; intros e; [reflexivity|].
  change (pshift true (e :: p :: t) x) with (p :: pshift true (p :: t) x). rewrite IH. reflexivity.
Qed.

Lemma pshift_length adv l x : length (pshift adv l x) = length l.
Proof. revert adv; induction l; intros; cbn; auto. Qed.

Lemma pshift_none e t x : pshift false (None :: t) x = pshift true (e :: t) x.
Proof. reflexivity. Qed.

Lemma pshift_somes (rdy : bool) l x : l <> [] -> (x = None \/ pipe_adv rdy l = true) ->
  olist (if rdy then hd None l else None) ++ somes (pshift rdy l x) = somes l ++ olist x.
Proof.
  destruct rdy.
  - intros Hne _. destruct l as [|e t]; [easy|]. rewrite pshift_true, somes_app, somes_cons.
    cbn [hd]. rewrite app_assoc. f_equal. cbn. apply app_nil_r.
  - unfold pipe_adv. cbn [orb olist app]. induction l as [|e t IH]; [easy|]. intros _ H.
    destruct e as [b|].
    + cbn [pshift orb isnone]. rewrite !somes_cons. cbn [olist app]. f_equal.
      destruct t as [|p t].
      * destruct H as [->|H]; [reflexivity|cbn in H; discriminate].
      * apply IH; [easy|]. destruct H as [H|H]; auto.
    + rewrite (pshift_none None), pshift_true, somes_app, somes_cons. cbn. rewrite app_nil_r. reflexivity.
Qed.

Lemma pshift_head_kept l x b : hd None l = Some b -> hd None (pshift false l x) = Some b.
Proof. destruct l as [|e t]; [discriminate|]. cbn [hd]. intros ->. reflexivity. Qed.

Lemma somes_len A (l : list (option A)) : length (somes l) <= length l.
Proof. induction l as [|[x|] l IH]; auto; rewrite somes_cons; cbn [olist app length]; lia. Qed.

Lemma somes_head (l : list (option beat)) b : hd None l = Some b -> exists t, somes l = b :: t.
Proof. destruct l as [|e t]; cbn; [discriminate|]. intros ->. eexists; reflexivity. Qed.

(** * One step *)
Section Step.
  Variable c : fcfg.
  Notation P := (present (f_ax c)).

  Lemma present_idem b : P (P b) = P b.
  Proof.
    unfold present. cbn [tdata tkeep tlast tid tdest tuser].
    destruct (keep_en (f_ax c)), (last_en (f_ax c)), (id_en (f_ax c)), (dest_en (f_ax c)), (user_en (f_ax c)); reflexivity.
  Qed.

  Definition rdyo (s : fifo) (i : fin) : bool := x_mready i && negb (paused c s).
  Definition rdyp s i : bool := if f_ofifo c then true else rdyo s i.
  Definition takes (s : fifo) (i : fin) : bool :=
    pipe_adv (rdyp s i) (z_pipe s) && negb (pempty (w_cm (z_w s)) (z_rd s)) &&
    (if f_ofifo c then negb (q_half (z_q s)) else true).
  Definition popq (s : fifo) (i : fin) : bool :=
    negb (pempty (q_wr (z_q s)) (q_rd (z_q s))) && (isnone (q_out (z_q s)) || rdyo s i).
  Definition act (s : fifo) (i : fin) : action := wact c (z_w s) (z_rd s) (x_v i) (x_b i).
  Definition sb (s : fifo) (i : fin) : beat := stored c (z_w s) (x_b i).

  (** The queues after a step. *)
  Definition nQr (s : fifo) (i : fin) (Q : list beat) := if takes s i then tl Q else Q.
  Definition nQ s i Q U := nQr s i Q ++ dQ (act s i) U (sb s i).
  Definition nU s i U := dU (act s i) U (sb s i).
  Definition nO (s : fifo) (i : fin) (O : list beat) : list beat :=
    if f_ofifo c then (if popq s i then tl O else O) ++ olist (option_map P (hd None (z_pipe s))) else [].

  Definition half : nat := 2 ^ (ofaw c - 1).
  Lemma ofaw_pos : 1 <= ofaw c.
  Proof.
    unfold ofaw. destruct (f_pipe c <? 2); [lia|].
    change 1 with (Nat.log2_up 2). apply Nat.log2_up_le_mono. lia.
  Qed.
  Lemma half_double : 2 ^ ofaw c = 2 * half.
  Proof.
    unfold half. pose proof ofaw_pos. replace (ofaw c) with (S (ofaw c - 1)) at 1 by lia. reflexivity.
  Qed.
  Lemma half_big : f_pipe c + 3 <= half.
  Proof.
    pose proof half_double as H. unfold ofaw in H. unfold half, ofaw in *.
    destruct (f_pipe c <? 2) eqn:E.
    - apply Nat.ltb_lt in E. cbn. lia.
    - assert (f_pipe c * 2 + 7 <= 2 ^ Nat.log2_up (f_pipe c * 2 + 7)) by (apply Nat.log2_up_spec; lia). lia.
  Qed.

  Record inv (s : fifo) (Q U O : list beat) : Prop := mkInv {
    iv_ring : ring (f_aw c) (w_mem (z_w s)) (z_rd s) (w_cm (z_w s)) (w_wr (z_w s)) Q U;
    iv_len : length (z_pipe s) = f_pipe c + 1;
    iv_o : if f_ofifo c
           then ring (ofaw c) (q_mem (z_q s)) (q_rd (z_q s)) (q_wr (z_q s)) (q_wr (z_q s)) O [] /\
                length O + length (somes (z_pipe s)) <= half + f_pipe c + 2 /\
                (q_half (z_q s) = false -> length O <= half) /\ Forall (fun b => P b = b) O
           else O = [] }.

  Definition content (s : fifo) (Q O : list beat) : list beat :=
    map P ((if f_ofifo c then olist (q_out (z_q s)) ++ O else []) ++ somes (z_pipe s) ++ Q).

  Lemma f_step_next s i : x_rst i = false ->
    fst (f_step c s i) =
    mkFifo (w_step c (z_w s) (z_rd s) (x_v i) (x_b i))
           (if takes s i then pinc (f_aw c) (z_rd s) else z_rd s)
           (pshift (rdyp s i) (z_pipe s)
              (if takes s i then Some (w_mem (z_w s) (z_rd s mod depth_of (f_aw c))%Z) else None))
           (o_step c (z_q s) (hd None (z_pipe s)) (rdyo s i))
           (fst (pause_step c s i)) (snd (pause_step c s i))
           (pdiff (f_aw c) (w_wr (z_w s)) (z_rd s)) (pdiff (f_aw c) (w_cm (z_w s)) (z_rd s)).
  Proof.
    intros Hr. unfold f_step. destruct (pause_step c s i) as [pa pf]. cbn [fst snd]. rewrite Hr. reflexivity.
  Qed.

  (** Taking from the memory. *)
  Lemma takes_head s i Q U O : inv s Q U O -> takes s i = true ->
    exists x, Q = x :: tl Q /\ w_mem (z_w s) (z_rd s mod depth_of (f_aw c))%Z = x.
  Proof.
    intros [HR _ _] H. unfold takes in H. rewrite (ring_empty HR) in H.
    destruct Q as [|x Q]; [rewrite andb_false_r in H; discriminate|].
    exists x. split; auto. apply (ring_pop HR).
  Qed.

  Lemma ring_step s i Q U O : x_rst i = false -> inv s Q U O ->
    let s' := fst (f_step c s i) in
    ring (f_aw c) (w_mem (z_w s')) (z_rd s') (w_cm (z_w s')) (w_wr (z_w s')) (nQ s i Q U) (nU s i U).
  Proof.
    intros Hr HI s'. subst s'. rewrite f_step_next by auto. cbn [z_w z_rd].
    pose proof (@w_step_ring c (z_w s) (z_rd s) (x_v i) (x_b i) Q U (iv_ring HI)) as HW. cbv zeta in HW.
    unfold nQ, nQr, nU, act, sb.
    destruct (takes s i) eqn:E; auto.
    destruct (takes_head _ HI E) as (x & EQ & _). rewrite EQ in HW. cbn [app tl] in HW.
    exact (proj2 (ring_pop HW)).
  Qed.

  (** The output FIFO never overflows. *)
  Lemma o_room s Q U O : inv s Q U O -> f_ofifo c = true -> hd None (z_pipe s) <> None ->
    pfull (ofaw c) (q_wr (z_q s)) (q_rd (z_q s)) = false.
  Proof.
    intros HI Ho Hh. destruct HI as [_ _ HO]. rewrite Ho in HO. destruct HO as (HR & HB & _).
    rewrite (ring_full HR). rewrite depth_nat. pose proof half_double. pose proof half_big.
    destruct (hd None (z_pipe s)) as [b|] eqn:E; [|easy].
    destruct (somes_head _ E) as [t Et]. rewrite Et in HB. cbn [length] in *. lia.
  Qed.

  Lemma o_step_ring s i Q U O : inv s Q U O -> f_ofifo c = true ->
    let q' := o_step c (z_q s) (hd None (z_pipe s)) (rdyo s i) in
    ring (ofaw c) (q_mem q') (q_rd q') (q_wr q') (q_wr q') (nO s i O) [] /\
    q_half q' = (half <=? length O) /\
    q_out q' = (if popq s i then hd_error O else if rdyo s i then None else q_out (z_q s)).
  Proof.
    intros HI Ho q'. pose proof (o_room HI Ho) as Hroom.
    destruct HI as [_ _ HO]. rewrite Ho in HO. destruct HO as (HR & HB & Hh & HF).
    unfold nO. rewrite Ho.
    assert (Eh : (2 ^ (Z.of_nat (ofaw c) - 1) <=? pdiff (ofaw c) (q_wr (z_q s)) (q_rd (z_q s)))%Z = (half <=? length O)).
    { destruct (ring_diff HR) as [-> _]. cbn [length]. rewrite Z.add_0_r. unfold half. pose proof ofaw_pos.
      replace (Z.of_nat (ofaw c) - 1)%Z with (Z.of_nat (ofaw c - 1)) by lia.
      change 2%Z with (Z.of_nat 2). rewrite <- Nat2Z.inj_pow.
      destruct (Nat.leb_spec (2 ^ (ofaw c - 1)) (length O)); [apply Z.leb_le|apply Z.leb_gt]; lia. }
    unfold q', o_step. rewrite Eh.
    assert (W : exists wr1 mem1,
      match hd None (z_pipe s) with
      | Some b => if pfull (ofaw c) (q_wr (z_q s)) (q_rd (z_q s)) then (q_wr (z_q s), q_mem (z_q s))
                  else (pinc (ofaw c) (q_wr (z_q s)),
                        zupd (q_mem (z_q s)) (q_wr (z_q s) mod depth_of (ofaw c))%Z (P b))
      | None => (q_wr (z_q s), q_mem (z_q s))
      end = (wr1, mem1) /\
      ring (ofaw c) mem1 (q_rd (z_q s)) wr1 wr1 (O ++ olist (option_map P (hd None (z_pipe s)))) []).
    { destruct (hd None (z_pipe s)) as [b|].
      - rewrite Hroom by easy. do 2 eexists. split; [reflexivity|].
        cbn [option_map olist]. pose proof (ring_push (P b) HR (Hroom ltac:(easy))) as H.
        apply ring_commit in H. exact H.
      - do 2 eexists. split; [reflexivity|]. cbn. rewrite app_nil_r. exact HR. }
    destruct W as (wr1 & mem1 & -> & HW).
    unfold popq. rewrite (ring_empty HR).
    destruct O as [|x O].
    - cbn [negb andb tl app]. cbn [q_mem q_rd q_wr q_half q_out]. auto.
    - cbn [negb andb]. destruct (isnone (q_out (z_q s)) || rdyo s i);
        cbn [q_mem q_rd q_wr q_half q_out hd_error tl]; auto.
      splits; auto.
      + cbn [app] in HW. exact (proj2 (ring_pop HW)).
      + f_equal. exact (proj1 (ring_pop HR)).
  Qed.

  Lemma popq_nonempty s i Q U O : inv s Q U O -> f_ofifo c = true -> popq s i = true -> exists x, O = x :: tl O.
  Proof.
    intros HI Ho H. destruct HI as [_ _ HO]. rewrite Ho in HO. destruct HO as (HR & _).
    unfold popq in H. rewrite (ring_empty HR) in H. destruct O as [|x O]; [discriminate|]. eauto.
  Qed.

  Definition takenb (s : fifo) (i : fin) : option beat :=
    if takes s i then Some (w_mem (z_w s) (z_rd s mod depth_of (f_aw c))%Z) else None.

  Lemma takes_adv s i : takenb s i = None \/ pipe_adv (rdyp s i) (z_pipe s) = true.
  Proof.
    unfold takenb. destruct (takes s i) eqn:E; auto. right. unfold takes in E.
    destruct (pipe_adv (rdyp s i) (z_pipe s)); auto.
  Qed.

  Lemma takenb_Q s i Q U O : inv s Q U O -> Q = olist (takenb s i) ++ nQr s i Q.
  Proof.
    intros HI. unfold takenb, nQr. destruct (takes s i) eqn:E; auto.
    destruct (takes_head _ HI E) as (x & EQ & Em). rewrite Em. cbn. rewrite EQ at 1. reflexivity.
  Qed.

  Lemma pipe_ne s Q U O : inv s Q U O -> z_pipe s <> [].
  Proof. intros [_ H _]. destruct (z_pipe s); [cbn in H; lia|easy]. Qed.

  Lemma pipe_eq s i Q U O : inv s Q U O ->
    olist (if rdyp s i then hd None (z_pipe s) else None) ++ somes (pshift (rdyp s i) (z_pipe s) (takenb s i))
    = somes (z_pipe s) ++ olist (takenb s i).
  Proof. intros HI. apply pshift_somes; [apply (pipe_ne HI)|apply takes_adv]. Qed.

  Lemma o_inv_step s i Q U O : inv s Q U O -> f_ofifo c = true ->
    length (nO s i O) + length (somes (pshift (rdyp s i) (z_pipe s) (takenb s i))) <= half + f_pipe c + 2 /\
    ((half <=? length O) = false -> length (nO s i O) <= half) /\ Forall (fun b => P b = b) (nO s i O).
  Proof.
    intros HI Ho. pose proof (pipe_eq i HI) as EP. apply (f_equal (@length beat)) in EP.
    pose proof (@popq_nonempty s i Q U O HI Ho) as Hne.
    pose proof (iv_len HI) as HL. pose proof (somes_len (z_pipe s)) as HS.
    destruct HI as [_ _ HO]. rewrite Ho in HO. destruct HO as (_ & HB & Hh & HF).
    unfold nO. rewrite Ho in *. unfold rdyp in *. rewrite Ho in *.
    rewrite !app_length in *.
    assert (Hpop : length (if popq s i then tl O else O) <= length O).
    { destruct (popq s i); auto. destruct O; cbn; lia. }
    assert (HT : takenb s i = None \/ length O <= half).
    { unfold takenb. destruct (takes s i) eqn:E; auto. right. apply Hh.
      unfold takes in E. rewrite Ho in E. destruct (q_half (z_q s)); auto. rewrite andb_false_r in E. discriminate. }
    assert (Hm : length (olist (option_map P (hd None (z_pipe s)))) = length (olist (hd None (z_pipe s))))
      by (destruct (hd None (z_pipe s)); reflexivity).
    assert (length (olist (hd None (z_pipe s))) <= 1) by (destruct (hd None (z_pipe s)); cbn; lia).
    splits.
    - destruct HT as [HT|HT].
      + rewrite HT in EP at 2. cbn in EP. lia.
      + assert (length (olist (takenb s i)) <= 1) by (destruct (takenb s i); cbn; lia). lia.
    - intros Hlt. apply Nat.leb_gt in Hlt. lia.
    - apply Forall_app. split.
      + destruct (popq s i); auto. destruct O; cbn; auto. inversion HF; auto.
      + destruct (hd None (z_pipe s)); cbn; auto. constructor; auto. apply present_idem.
  Qed.

  Lemma inv_step s i Q U O : x_rst i = false -> inv s Q U O ->
    inv (fst (f_step c s i)) (nQ s i Q U) (nU s i U) (nO s i O).
  Proof.
    intros Hr HI. constructor.
    - apply (ring_step _ Hr HI).
    - rewrite f_step_next by auto. cbn [z_pipe]. rewrite pshift_length. apply (iv_len HI).
    - destruct (f_ofifo c) eqn:Ho.
      + destruct (o_step_ring i HI Ho) as (A & B & C). destruct (o_inv_step i HI Ho) as (D & E & F).
        rewrite f_step_next by auto. cbn [z_q z_pipe]. fold (takenb s i). splits; auto. rewrite B. exact E.
      + unfold nO. rewrite Ho. reflexivity.
  Qed.

  (** What a step hands over and what it keeps. *)
  Lemma content_step s i Q U O : x_rst i = false -> inv s Q U O ->
    content s Q O ++ map P (dQ (act s i) U (sb s i))
    = olist (given (sin_of i) (sout_of (snd (f_step c s i)))) ++ content (fst (f_step c s i)) (nQ s i Q U) (nO s i O).
  Proof.
    intros Hr HI. unfold content, nQ. rewrite f_step_next by auto. cbn [z_q z_pipe]. fold (takenb s i).
    rewrite <- map_app, <- !app_assoc.
    assert (EG : given (sin_of i) (sout_of (snd (f_step c s i))) = if rdyo s i then m_out c s else None).
    { unfold f_step, given, sin_of, sout_of, rdyo. destruct (pause_step c s i). cbn.
      unfold m_vis. destruct (x_mready i), (paused c s); reflexivity. }
    rewrite EG. unfold m_out. pose proof (pipe_eq i HI) as EP. pose proof (takenb_Q i HI) as EQ.
    set (D := dQ (act s i) U (sb s i)) in *. set (N := nQr s i Q) in *.
    destruct (f_ofifo c) eqn:Ho.
    - destruct (o_step_ring i HI Ho) as (_ & _ & ->).
      pose proof (@popq_nonempty s i Q U O HI Ho) as Hne.
      unfold rdyp in *. rewrite Ho in *. unfold nO. rewrite Ho.
      rewrite EQ at 1. rewrite <- !app_assoc.
      assert (E1 : map P (olist (q_out (z_q s)) ++ O)
        = olist (if rdyo s i then option_map P (q_out (z_q s)) else None)
          ++ map P (olist (if popq s i then hd_error O else if rdyo s i then None else q_out (z_q s))
                    ++ (if popq s i then tl O else O))).
      { destruct (popq s i) eqn:Ep.
        - destruct (Hne eq_refl) as [x Ex]. rewrite Ex. cbn [hd_error tl olist app].
          unfold popq in Ep. destruct (q_out (z_q s)) as [y|]; destruct (rdyo s i); cbn in *; auto.
          rewrite andb_false_r in Ep. discriminate.
        - destruct (rdyo s i), (q_out (z_q s)); reflexivity. }
      rewrite !app_assoc. rewrite <- (app_assoc _ (somes (z_pipe s))). rewrite <- EP.
      rewrite !map_app. rewrite <- (map_app P (olist (q_out (z_q s))) O). rewrite E1. rewrite !map_app, !app_assoc.
      assert (E2 : map P (olist (option_map P (hd None (z_pipe s)))) = map P (olist (hd None (z_pipe s)))).
      { destruct (hd None (z_pipe s)); cbn; auto. rewrite present_idem. reflexivity. }
      rewrite E2. reflexivity.
    - cbn [app]. unfold rdyp in EP. rewrite Ho in EP. rewrite EQ at 1. rewrite <- !app_assoc.
      rewrite (app_assoc (somes (z_pipe s))). rewrite <- EP. rewrite <- app_assoc, map_app.
      f_equal.
      + destruct (rdyo s i), (hd None (z_pipe s)); reflexivity.
      + unfold rdyp. rewrite Ho. reflexivity.
  Qed.
End Step.
