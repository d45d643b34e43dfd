(** The pipelined queue manager refines the atomic one. *)
From Verif Require Import Base.Prelude Base.Bits Rtl.OpTable_model Rtl.OpTable_spec
  Rtl.OpTable_proof Rtl.Pipe_proof Rtl.Handshake_spec Rtl.Handshake_proof Rtl.Qm_model Rtl.Qm_spec.
Open Scope Z_scope.

(** RAM word as the atomic queue, with the consumer pointer given separately. *)
Definition absq (d : qrec) (c : Z) : squeue :=
  mkS (q_prod d) c (q_cqn d) (q_lsz d) (q_lblk d) (q_en d) (q_base d).

Definition wfr (d : qrec) : Prop := 0 <= q_lsz d < 16 /\ 0 <= q_lblk d < 4.

Lemma write_sim d reg data strb :
  absq (fst (do_write d reg data strb)) (q_cons (fst (do_write d reg data strb)))
    = s_write (absq d (q_cons d)) reg data strb /\
  snd (do_write d reg data strb) = s_doorbell (absq d (q_cons d)) reg data.
Proof.
  destruct d as [pr co cq ls lb en opi ba].
  unfold do_write, s_doorbell, s_write, decode, absq. cbn [q_prod q_cons q_cqn q_lsz q_lblk q_en q_opi q_base].
  destruct (Z.eqb_spec reg 0) as [->|N0].
  { destruct en; split; reflexivity. }
  destruct (Z.eqb_spec reg 1) as [->|N1].
  { destruct en; split; reflexivity. }
  assert (Er : ((reg =? 2) || (reg =? 3) || (reg =? 4))%bool = ((2 <=? reg) && (reg <=? 4))%bool) by lia.
  rewrite Er. destruct ((2 <=? reg) && (reg <=? 4)); [|split; reflexivity].
  pose proof (@bits_div data 16 16 8 ltac:(lia) ltac:(lia)) as E1.
  pose proof (@bits_div data 8 24 8 ltac:(lia) ltac:(lia)) as E2.
  change (16 + 8) with 24 in E1. change (16 - 8) with 8 in E1.
  change (8 + 8) with 16 in E2. change (24 - 8) with 16 in E2.
  change (2 ^ 8) with 256 in E1, E2. rewrite <- E1.
  rewrite !bits_lo0. change (2 ^ 4) with 16.
  assert (E3 : bits data 8 2 = data / 256 mod 4) by reflexivity. rewrite E3.
  rewrite Z.bit0_odd.
  set (hi := bits data 16 16) in *. set (lo := bits data 8 24) in *.
  destruct (Z.eqb_spec hi 0x8001) as [E|].
  { rewrite E. cbn -[Z.div Z.modulo Z.pow].
    change (0x8001 / 256) with 128. cbn -[Z.div Z.modulo Z.pow].
    destruct (Z.eqb_spec lo 0x400001) as [El|]; [rewrite El in E2; rewrite E in E2; discriminate|].
    split; reflexivity. }
  destruct (Z.eqb_spec hi 0x8002) as [E|].
  { destruct en; split; reflexivity. }
  destruct (Z.eqb_spec (hi / 256) 0xC0) as [E|].
  { destruct (Z.eqb_spec hi 0x8080) as [Eh|]; [rewrite Eh in E; discriminate|].
    destruct (Z.eqb_spec hi 0x8090) as [Eh|]; [rewrite Eh in E; discriminate|].
    destruct en; split; reflexivity. }
  destruct (Z.eqb_spec hi 0x8080) as [E|].
  { destruct en; split; reflexivity. }
  destruct (Z.eqb_spec hi 0x8090) as [E|].
  { destruct en; split; reflexivity. }
  destruct (Z.eqb_spec lo 0x400001) as [E|]; destruct en; split; reflexivity.
Qed.

Lemma write_wf d reg data strb : wfr d -> wfr (fst (do_write d reg data strb)).
Proof.
  unfold wfr, do_write. destruct d as [pr co cq ls lb en opi ba].
  cbn [q_lsz q_lblk]. intros H.
  repeat match goal with |- context [if ?b then _ else _] => destruct b end;
    cbn [fst q_lsz q_lblk]; auto.
  split; [apply (@bits_range data 0 4)|apply (@bits_range data 8 2)]; lia.
Qed.

Lemma write_opi d reg data strb : q_opi (fst (do_write d reg data strb)) = q_opi d.
Proof.
  unfold do_write. destruct d as [pr co cq ls lb en opi ba].
  repeat match goal with |- context [if ?b then _ else _] => destruct b end; reflexivity.
Qed.

Lemma read_sim t q d reg :
  do_read t q d reg = s_read (absq d (q_cons d)) (q_active t q d) reg.
Proof.
  unfold do_read, s_read, absq. cbn [s_base s_en s_cqn s_lsz s_lblk s_prod s_cons].
  destruct (Z.eqb_spec reg 0) as [->|].
  { rewrite <- bits_lo0. change 4096 with (2 ^ 12). rewrite bits_div by lia. reflexivity. }
  destruct (Z.eqb_spec reg 1) as [->|]; [reflexivity|].
  destruct (Z.eqb_spec reg 2) as [->|]; [reflexivity|].
  destruct (Z.eqb_spec reg 3) as [->|]; [lia|].
  destruct (Z.eqb_spec reg 4) as [->|]; [lia|].
  destruct reg as [|p|p]; auto; try lia.
  do 3 (destruct p as [p|p|]; auto; try lia).
Qed.

(** Pointer of the finish operation for [q] in the pipe. *)
Fixpoint pend_fin (q : Z) (p : list stage) : option Z :=
  match p with
  | [] => None
  | Some (PFin q' ptr, _) :: t => if q' =? q then Some ptr else pend_fin q t
  | _ :: t => pend_fin q t
  end.

Lemma pend_fin_app q a b :
  pend_fin q (a ++ b) = match pend_fin q a with Some x => Some x | None => pend_fin q b end.
Proof.
  induction a as [|[[[] d]|] a IH]; simpl; auto. destruct (q0 =? q); auto.
Qed.

Lemma pend_fin_none q p : ~ In q (keys pop_q p) -> pend_fin q p = None.
Proof.
  induction p as [|[[o d]|] p IH]; simpl; auto. intros H.
  assert (H2 : pend_fin q p = None) by (apply IH; tauto).
  destruct o; simpl in *; auto.
  destruct (Z.eqb_spec q0 q); [subst; tauto|auto].
Qed.

Lemma hazard_keys p q : hazard p q = false -> ~ In q (keys pop_q p).
Proof.
  unfold hazard. induction p as [|[[o d]|] p IH]; simpl; auto.
  rewrite orb_false_iff. intros [H1 H2] [E|Hi].
  - subst q. rewrite Z.eqb_refl in H1. discriminate.
  - apply IH; auto.
Qed.

Definition pcons (ram : Z -> qrec) (p : list stage) (q : Z) : Z :=
  match pend_fin q p with Some c => c | None => q_cons (ram q) end.

Record Rel (N : Z) (s : qm) (A : satom) : Prop := mkR {
  r_tab : ot_rel N (m_tab s) (a_ops A);
  r_fin : a_fin A = t_finish (m_tab s);
  r_pipe : m_pipe s <> [];
  r_coh : coh pop_q (m_ram s) (m_pipe s);
  r_q : forall q, a_q A q = absq (m_ram s q) (pcons (m_ram s) (m_pipe s) q);
  r_wf : forall q, wfr (m_ram s q);
  r_opi : forall q j, lastpos q (a_ops A) = Some j ->
            q_opi (m_ram s q) = slot N (m_tab s) j;
  r_req : (cnt is_req (m_pipe s) <= 1)%nat;
  r_reqp : cnt is_req (m_pipe s) = 1%nat -> zlen (a_ops A) < N /\ m_resp s = None;
  r_rd : (cnt is_read (m_pipe s) <= 1)%nat;
  r_rdp : cnt is_read (m_pipe s) = 1%nat -> m_r s = None;
  r_wr : (cnt is_write (m_pipe s) <= 1)%nat;
  r_wrp : cnt is_write (m_pipe s) = 1%nat -> m_b s = false }.

Lemma rel0 N d : (1 <= d)%nat -> 0 < N -> Rel N (qm0 d) satom0.
Proof.
  intros Hd HN. constructor; cbn [qm0 m_tab m_pipe m_ram m_resp m_r m_b a_ops satom0 a_fin a_q];
    rewrite ?cnt_repeat; try lia; try discriminate.
  - apply ot_init; auto.
  - reflexivity.
  - destruct d; [lia|discriminate].
  - apply coh_init.
  - intros q. unfold pcons. replace (pend_fin q (repeat None d)) with (@None Z); [reflexivity|].
    induction d; simpl; auto. destruct d; auto. apply IHd; lia.
  - intros. unfold wfr; simpl; lia.
Qed.

(** Is the queue busy: the op_index trick of the RTL is exact. *)
Lemma active_busy N s A q :
  Rel N s A -> q_active (m_tab s) q (m_ram s q) = busy q (a_ops A) /\
  (forall p, last_ptr q (a_ops A) = Some p -> t_ptr (m_tab s) (q_opi (m_ram s q)) = p).
Proof.
  intros R. pose proof (r_tab R) as T. unfold q_active.
  destruct (lastpos q (a_ops A)) as [j|] eqn:E.
  - rewrite (r_opi R _ E). destruct (lastpos_some _ _ E) as [Hj Hq].
    destruct (or_entry T Hj) as [Ha He]. rewrite He in Hq. cbn [so_q] in Hq.
    rewrite Ha, Hq, Z.eqb_refl. split.
    + simpl. destruct (busy q (a_ops A)) eqn:Eb; auto.
      apply lastpos_none in Eb. congruence.
    + intros p Hp. rewrite lastpos_ptr, E, He in Hp. cbn [so_ptr] in Hp. congruence.
  - split.
    + pose proof (proj1 (lastpos_none _ _) E) as Eb. rewrite Eb.
      destruct (t_active (m_tab s) (q_opi (m_ram s q))) eqn:Ea; auto. simpl.
      destruct (Z.eqb_spec (t_queue (m_tab s) (q_opi (m_ram s q))) q); auto. exfalso.
      destruct (or_only T _ Ea) as (k & Hk & Ek).
      destruct (or_entry T Hk) as [_ He]. rewrite <- Ek, e in He.
      unfold busy in Eb.
      assert (existsb (fun o => so_q o =? q) (a_ops A) = true).
      { apply existsb_exists. exists (nth k (a_ops A) op0). split; [apply nth_In; auto|].
        rewrite He. simpl. apply Z.eqb_refl. }
      congruence.
    + intros p Hp. rewrite lastpos_ptr, E in Hp. discriminate.
Qed.

Lemma active_head N s A q :
  Rel N s A -> pend_fin q (m_pipe s) = None ->
  active_cons (m_tab s) q (m_ram s q) = s_head A q.
Proof.
  intros R Hp. unfold active_cons, s_head. destruct (active_busy q R) as [Ea Ep].
  rewrite Ea. destruct (last_ptr q (a_ops A)) as [p|] eqn:E.
  - destruct (busy q (a_ops A)) eqn:Eb; [apply Ep; auto|].
    apply last_ptr_none in Eb. congruence.
  - rewrite (proj1 (last_ptr_none _ _) E). rewrite (r_q R). unfold absq, pcons.
    cbn [s_cons]. rewrite Hp. reflexivity.
Qed.

Lemma req_sim N cld s A q tag :
  0 <= cld -> Rel N s A -> pend_fin q (m_pipe s) = None ->
  fst (do_req cld (m_tab s) q tag (m_ram s q)) = s_resp N cld A q tag /\
  snd (do_req cld (m_tab s) q tag (m_ram s q)) = ok_resp (s_resp N cld A q tag).
Proof.
  intros Hc R Hp. unfold do_req, s_resp. rewrite (active_head q R Hp).
  rewrite (r_q R). unfold absq. cbn [s_lsz s_base s_lblk s_cqn s_en s_prod fst snd].
  destruct (r_wf R q) as [Hl Hb].
  rewrite (or_start (r_tab R)), (r_fin R). unfold zlen.
  rewrite testbit_odd_div by lia. rewrite Z.negb_odd.
  rewrite Z.pow_add_r by lia. split; [reflexivity|].
  unfold ok_resp. cbn [rs_empty rs_err]. apply andb_comm.
Qed.

Lemma aruns_one N cld A e B : astep N cld A e B -> aruns N cld A [e] B.
Proof. intros. econstructor; eauto. constructor. Qed.

Lemma aruns_app N cld A a B b C :
  aruns N cld A a B -> aruns N cld B b C -> aruns N cld A (a ++ b) C.
Proof. induction 1; simpl; intros; auto. econstructor; eauto. Qed.

Lemma last_in_pipe (p : list stage) x : p <> [] -> last p None = x -> In x p.
Proof.
  intros Hp <-. rewrite (@app_removelast_last _ p None Hp) at 2. apply in_or_app; simpl; auto.
Qed.

Lemma cnt_cons_none f (p : list stage) : cnt f (None :: p) = cnt f p.
Proof. reflexivity. Qed.

Lemma pend_fin_split q (p : list stage) :
  p <> [] -> pend_fin q p =
  match pend_fin q (removelast p) with Some x => Some x | None => pend_fin q [last p None] end.
Proof. intros Hp. rewrite (pipe_split Hp) at 1. apply pend_fin_app. Qed.

Definition out_resp (rsp : option resp) (rdy : bool) (old : option resp) :=
  match rsp with Some x => Some x | None => if rdy then None else old end.
Definition out_r (r : option Z) (rdy : bool) (old : option Z) :=
  match r with Some x => Some x | None => if rdy then None else old end.

(** An operation leaves the pipeline: it acts as in the atomic machine. *)
Lemma retire N cld s A c1 c2 c3 x1 x2 x3 x4 x5 ram' t1 rsp b r db evs :
  0 <= cld -> N <= 256 -> Rel N s A ->
  last_stage N cld (m_ram s) (m_tab s) (last (m_pipe s) None)
    = (ram', t1, rsp, b, r, db, evs) ->
  exists B, aruns N cld A evs B /\
    Rel N (mkQm ram' (None :: removelast (m_pipe s)) t1
             (out_resp rsp c1 (m_resp s)) (b || (m_b s && negb c2))
             (out_r r c3 (m_r s)) x1 x2 x3 x4 x5) B /\
    (forall k, (forall o d, last (m_pipe s) None = Some (o, d) -> k <> pop_q o) ->
       ram' k = m_ram s k) /\
    (forall o l, a_ops A = o :: l -> exists l', a_ops B = o :: l') /\
    t_finish t1 = t_finish (m_tab s) /\
    (cnt is_req [last (m_pipe s) None] = 0%nat -> t1 = m_tab s /\ a_ops B = a_ops A /\ rsp = None) /\
    (cnt is_read [last (m_pipe s) None] = 0%nat -> r = None) /\
    (cnt is_write [last (m_pipe s) None] = 0%nat -> b = false) /\
    (forall j, t_active (m_tab s) j = true ->
       t_active t1 j = true /\ t_commit t1 j = t_commit (m_tab s) j /\
       t_queue t1 j = t_queue (m_tab s) j /\ t_ptr t1 j = t_ptr (m_tab s) j).
Proof.
  intros Hc H256 R HL.
  pose proof (r_pipe R) as Hp. pose proof (r_coh R) as Hcoh. pose proof (r_tab R) as T.
  destruct (last (m_pipe s) None) as [[o d]|] eqn:El.
  2:{ cbn in HL. injection HL as <- <- <- <- <- <- <-.
      exists A. split; [constructor|]. split.
      { constructor; cbn [m_tab m_pipe m_ram m_resp m_b m_r out_resp out_r orb];
          try exact (r_tab R); try exact (r_fin R); try exact (r_wf R); try exact (r_opi R);
          try discriminate.
        - eapply coh_step; eauto. discriminate.
        - intros q. rewrite (r_q R). unfold pcons. cbn [pend_fin].
          rewrite (pend_fin_split q Hp), El. cbn [pend_fin].
          destruct (pend_fin q (removelast (m_pipe s))); reflexivity.
        - pose proof (r_req R) as H. rewrite (cnt_split is_req Hp), El in H.
          rewrite cnt_cons_none. lia.
        - rewrite cnt_cons_none. intros H. pose proof (r_reqp R) as H2.
          rewrite (cnt_split is_req Hp), El in H2. cbn in H2. rewrite Nat.add_0_r in H2.
          destruct (H2 H) as [? ->]. split; auto. destruct c1; auto.
        - pose proof (r_rd R) as H. rewrite (cnt_split is_read Hp), El in H.
          rewrite cnt_cons_none. lia.
        - rewrite cnt_cons_none. intros H. pose proof (r_rdp R) as H2.
          rewrite (cnt_split is_read Hp), El in H2. cbn in H2. rewrite Nat.add_0_r in H2.
          rewrite (H2 H). destruct c3; auto.
        - pose proof (r_wr R) as H. rewrite (cnt_split is_write Hp), El in H.
          rewrite cnt_cons_none. lia.
        - rewrite cnt_cons_none. intros H. pose proof (r_wrp R) as H2.
          rewrite (cnt_split is_write Hp), El in H2. cbn in H2. rewrite Nat.add_0_r in H2.
          rewrite (H2 H). reflexivity. }
      splits; auto. eauto. }
  destruct (coh_last Hp Hcoh El) as [Ed Hni]. subst d.
  pose proof (@pend_fin_none (pop_q o) (removelast (m_pipe s)) Hni) as Hpn.
  set (rest := removelast (m_pipe s)) in *.
  assert (Hpq : forall q, pend_fin q (m_pipe s) =
            match pend_fin q rest with Some x => Some x | None => pend_fin q [Some (o, m_ram s (pop_q o))] end).
  { intros q. rewrite (pend_fin_split q Hp), El. reflexivity. }
  assert (Hcnt : forall f, cnt f (m_pipe s) = (cnt f rest + (if f o then 1 else 0))%nat).
  { intros f. rewrite (cnt_split f Hp), El. fold rest. unfold cnt at 2. simpl.
    destruct (f o); reflexivity. }
  pose proof (r_req R) as C1. pose proof (r_reqp R) as C2. pose proof (r_rd R) as C3.
  pose proof (r_rdp R) as C4. pose proof (r_wr R) as C5. pose proof (r_wrp R) as C6.
  rewrite Hcnt in C1, C2, C3, C4, C5, C6.
  destruct o as [q reg data strb|q reg|q ptr|q tag]; cbn [pop_q] in *.
  - (* write *)
    cbn [is_req is_read is_write] in *.
    unfold last_stage in HL. cbn [last_stage] in HL.
    destruct (do_write (m_ram s q) reg data strb) as [d' dbl] eqn:Ew.
    destruct (write_sim (m_ram s q) reg data strb) as [W1 W2]. rewrite Ew in W1, W2.
    cbn [fst snd] in W1, W2.
    pose proof (@write_wf (m_ram s q) reg data strb (r_wf R q)) as W3. rewrite Ew in W3.
    pose proof (write_opi (m_ram s q) reg data strb) as W4. rewrite Ew in W4. cbn [fst] in W3, W4.
    assert (Hpend : pend_fin q (m_pipe s) = None) by (rewrite Hpq, Hpn; reflexivity).
    assert (Eq : a_q A q = absq (m_ram s q) (q_cons (m_ram s q))).
    { rewrite (r_q R). unfold pcons. rewrite Hpend. reflexivity. }
    injection HL as <- <- <- <- <- <- <-.
    rewrite <- Eq in W1, W2.
    exists (mkA (zupd (a_q A) q (s_write (a_q A q) reg data strb)) (a_ops A) (a_fin A)).
    split. { apply aruns_one. subst dbl. constructor. }
    split.
    { constructor; cbn [m_tab m_pipe m_ram m_resp m_b m_r out_resp out_r orb a_ops a_fin a_q];
        try rewrite !cnt_cons_none; try exact (r_tab R); try exact (r_fin R); try discriminate; try lia.
      - eapply coh_step; eauto; [|discriminate].
        intros k Hk. apply zupd_other. apply (Hk _ _ El).
      - intros k. unfold pcons. cbn [pend_fin]. unfold zupd.
        destruct (Z.eqb_spec k q) as [->|Hk].
        + fold rest. rewrite Hpn. auto.
        + rewrite (r_q R). unfold pcons. rewrite Hpq. cbn [pend_fin].
          fold rest. destruct (pend_fin k rest); reflexivity.
      - intros k. unfold zupd. destruct (Z.eqb_spec k q); [auto|apply (r_wf R)].
      - intros k j Hj. unfold zupd. destruct (Z.eqb_spec k q) as [->|]; [rewrite W4|]; apply (r_opi R); auto.
      - intros H. destruct C2 as [? ->]; [lia|]. split; auto. destruct c1; auto.
      - intros H. rewrite C4 by lia. destruct c3; auto. }
    splits; eauto.
    + intros k Hk. apply zupd_other. apply (Hk _ _ eq_refl).
    + unfold cnt; simpl; discriminate.
  - (* read *)
    cbn [is_req is_read is_write] in *. cbn [last_stage] in HL.
    injection HL as <- <- <- <- <- <- <-.
    assert (Hpend : pend_fin q (m_pipe s) = None) by (rewrite Hpq, Hpn; reflexivity).
    assert (Eq : a_q A q = absq (m_ram s q) (q_cons (m_ram s q))).
    { rewrite (r_q R). unfold pcons. rewrite Hpend. reflexivity. }
    rewrite read_sim, <- Eq, (proj1 (active_busy q R)).
    exists A. split. { apply aruns_one. constructor. }
    split.
    { constructor; cbn [m_tab m_pipe m_ram m_resp m_b m_r out_resp out_r orb a_ops a_fin a_q];
        try rewrite !cnt_cons_none; try exact (r_tab R); try exact (r_fin R); try discriminate; try lia;
        try exact (r_wf R); try exact (r_opi R).
      - eapply coh_step; eauto; discriminate.
      - intros k. unfold pcons. cbn [pend_fin].
        rewrite (r_q R). unfold pcons. rewrite Hpq. cbn [pend_fin].
        fold rest. destruct (pend_fin k rest); reflexivity.
      - intros H. destruct C2 as [? ->]; [lia|]. split; auto. destruct c1; auto. }
    splits; eauto. unfold cnt; simpl; discriminate.
  - (* finish *)
    cbn [is_req is_read is_write] in *. cbn [last_stage] in HL.
    injection HL as <- <- <- <- <- <- <-.
    assert (Hpend : pend_fin q (m_pipe s) = Some ptr).
    { rewrite Hpq, Hpn. cbn [pend_fin]. rewrite Z.eqb_refl. reflexivity. }
    exists A. split. { constructor. }
    split.
    { constructor; cbn [m_tab m_pipe m_ram m_resp m_b m_r out_resp out_r orb a_ops a_fin a_q];
        try rewrite !cnt_cons_none; try exact (r_tab R); try exact (r_fin R); try discriminate; try lia.
      - eapply coh_step; eauto; [|discriminate].
        intros k Hk. apply zupd_other. apply (Hk _ _ El).
      - intros k. unfold pcons. cbn [pend_fin]. unfold zupd.
        destruct (Z.eqb_spec k q) as [->|Hk].
        + fold rest. rewrite Hpn. rewrite (r_q R). unfold pcons. rewrite Hpend. reflexivity.
        + rewrite (r_q R). unfold pcons. rewrite Hpq. cbn [pend_fin].
          fold rest. destruct (pend_fin k rest); [reflexivity|].
          destruct (Z.eqb_spec q k); [congruence|reflexivity].
      - intros k. unfold zupd. destruct (Z.eqb_spec k q); [apply (r_wf R q)|apply (r_wf R)].
      - intros k j Hj. unfold zupd. destruct (Z.eqb_spec k q) as [->|]; apply (r_opi R); auto.
      - intros H. destruct C2 as [? ->]; [lia|]. split; auto. destruct c1; auto.
      - intros H. rewrite C4 by lia. destruct c3; auto. }
    splits; eauto.
    intros k Hk. apply zupd_other. apply (Hk _ _ eq_refl).
  - (* request *)
    cbn [is_req is_read is_write] in *. cbn [last_stage] in HL.
    assert (Hpend : pend_fin q (m_pipe s) = None) by (rewrite Hpq, Hpn; reflexivity).
    destruct (@req_sim N cld s A q tag Hc R Hpend) as [Q1 Q2].
    destruct (do_req cld (m_tab s) q tag (m_ram s q)) as [rr ok] eqn:Er.
    cbn [fst snd] in Q1, Q2.
    destruct C2 as [Hlen Hresp]; [lia|].
    destruct ok.
    + injection HL as <- <- <- <- <- <- <-.
      assert (Eptr : rs_ptr rr = s_head A q) by (rewrite Q1; reflexivity).
      assert (Es : t_start (m_tab s) mod 2 ^ 8 = t_start (m_tab s)).
      { apply Z.mod_small. pose proof (ot_start_range T). change (2 ^ 8) with 256. lia. }
      exists (mkA (a_q A) (a_ops A ++ [mkOp q ((s_head A q + 1) mod 2 ^ 16) false]) (a_fin A)).
      split. { apply aruns_one. rewrite Q1. apply as_req_ok; auto. }
      split.
      { constructor; cbn [m_tab m_pipe m_ram m_resp m_b m_r out_resp out_r orb a_ops a_fin a_q];
          try rewrite !cnt_cons_none; try discriminate; try lia.
        - rewrite Eptr. apply ot_start; auto.
        - cbn [tab_start t_finish]. exact (r_fin R).
        - eapply coh_step; eauto; [|discriminate].
          intros k Hk. apply zupd_other. apply (Hk _ _ El).
        - intros k. unfold pcons. cbn [pend_fin]. unfold zupd.
          destruct (Z.eqb_spec k q) as [->|Hk].
          + fold rest. rewrite Hpn. rewrite (r_q R). unfold pcons. rewrite Hpend. reflexivity.
          + rewrite (r_q R). unfold pcons. rewrite Hpq. cbn [pend_fin].
            fold rest. destruct (pend_fin k rest); reflexivity.
        - intros k. unfold zupd. destruct (Z.eqb_spec k q); [apply (r_wf R q)|apply (r_wf R)].
        - intros k j Hj. rewrite lastpos_app in Hj. cbn [so_q] in Hj.
          unfold zupd. destruct (Z.eqb_spec k q) as [->|Hk].
          + rewrite Z.eqb_refl in Hj. injection Hj as <-. cbn [q_opi].
            change (Z.pow_pos 2 8) with (2 ^ 8); rewrite Es, (or_start T). reflexivity.
          + destruct (Z.eqb_spec q k); [congruence|]. rewrite (r_opi R _ Hj). reflexivity.
        - intros H. rewrite C4 by lia. destruct c3; auto. }
      splits; auto.
      * intros k Hk. apply zupd_other. apply (Hk _ _ eq_refl).
      * intros o l E. rewrite E. simpl. eauto.
      * unfold cnt; simpl; discriminate.
      * intros j Hj. cbn [tab_start t_active t_commit t_queue t_ptr].
        assert (j <> t_start (m_tab s)).
        { intros ->. pose proof (proj2 (ot_free_iff T)). rewrite H in Hj; [discriminate|exact Hlen]. }
        rewrite !zupd_other by auto. auto.
    + injection HL as <- <- <- <- <- <- <-.
      exists A. split. { apply aruns_one. rewrite Q1. apply as_req_fail; auto. }
      split.
      { constructor; cbn [m_tab m_pipe m_ram m_resp m_b m_r out_resp out_r orb a_ops a_fin a_q];
          try rewrite !cnt_cons_none; try exact (r_tab R); try exact (r_fin R); try discriminate; try lia;
          try exact (r_wf R); try exact (r_opi R).
        - eapply coh_step; eauto; discriminate.
        - intros k. unfold pcons. cbn [pend_fin].
          rewrite (r_q R). unfold pcons. rewrite Hpq. cbn [pend_fin].
          fold rest. destruct (pend_fin k rest); reflexivity.
        - intros H. rewrite C4 by lia. destruct c3; auto. }
      splits; eauto. unfold cnt; simpl; discriminate.
Qed.

Lemma slot_finish N t j : 0 < N -> slot N (tab_finish N t) j = slot N t (S j).
Proof.
  intros. unfold slot. cbn [tab_finish t_finish].
  rewrite Z.add_mod_idemp_l by lia. f_equal. lia.
Qed.

(** An operation enters the pipeline; a finish takes effect here. *)
Lemma enter N cld ram rest t rsp b r x1 x2 x3 x4 x5 A o :
  Rel N (mkQm ram (None :: rest) t rsp b r x1 x2 x3 x4 x5) A ->
  ~ In (pop_q o) (keys pop_q rest) ->
  (is_write o = true -> cnt is_write rest = 0%nat /\ b = false) ->
  (is_read o = true -> cnt is_read rest = 0%nat /\ r = None) ->
  (is_req o = true -> cnt is_req rest = 0%nat /\ rsp = None /\ zlen (a_ops A) < N) ->
  (forall q p, o = PFin q p -> t_active t (t_finish t) = true /\ t_commit t (t_finish t) = true /\
     q = t_queue t (t_finish t) /\ p = t_ptr t (t_finish t)) ->
  let '(t', ev) := match o with
                   | PFin q p => (tab_finish N t, [EvFin q p])
                   | _ => (t, [])
                   end in
  exists B, aruns N cld A ev B /\
    Rel N (mkQm ram (Some (o, ram (pop_q o)) :: rest) t' rsp b r x1 x2 x3 x4 x5) B.
Proof.
  intros R Hk Hw Hr Hq Hf.
  pose proof (@pend_fin_none (pop_q o) rest Hk) as Hpn.
  assert (Hcoh : coh pop_q ram (Some (o, ram (pop_q o)) :: rest)).
  { destruct (r_coh R) as [H1 H2]. cbn [m_ram m_pipe] in *. split.
    - intros o' d' [E|Hi]; [injection E as <- <-; auto|]. apply H1. right; auto.
    - simpl. constructor; auto. }
  pose proof (r_req R) as C1. pose proof (r_reqp R) as C2. pose proof (r_rd R) as C3.
  pose proof (r_rdp R) as C4. pose proof (r_wr R) as C5. pose proof (r_wrp R) as C6.
  pose proof (r_q R) as Rq. pose proof (r_wf R) as Rw. pose proof (r_opi R) as Ro.
  pose proof (r_tab R) as T. pose proof (r_fin R) as Rf.
  cbn [m_pipe m_ram m_tab m_resp m_b m_r] in *. rewrite cnt_cons_none in *.
  assert (Hcnt : forall f, cnt f (Some (o, ram (pop_q o)) :: rest) =
                   ((if f o then 1 else 0) + cnt f rest)%nat).
  { intros f. unfold cnt. simpl. destruct (f o); reflexivity. }
  destruct o as [q reg data strb|q reg|q ptr|q tag]; cbn [pop_q is_write is_read is_req] in *.
  - exists A. split; [constructor|].
    destruct (Hw eq_refl) as [? ->].
    constructor; cbn [m_pipe m_ram m_tab m_resp m_b m_r]; rewrite ?Hcnt; cbn [is_write is_read is_req];
      auto; try discriminate; try lia.
  - exists A. split; [constructor|].
    destruct (Hr eq_refl) as [? ->].
    constructor; cbn [m_pipe m_ram m_tab m_resp m_b m_r]; rewrite ?Hcnt; cbn [is_write is_read is_req];
      auto; try discriminate; try lia.
  - destruct (Hf _ _ eq_refl) as (Ha & Hc & Eq & Ep).
    destruct (ot_head_inv T Ha) as (h & l & El). rewrite El in T.
    destruct (ot_head T) as [_ Eh]. rewrite Hc, <- Eq, <- Ep in Eh.
    exists (mkA (zupd (a_q A) (so_q h)
                  (let '(mkS pr _ cq ls lb en ba) := a_q A (so_q h) in
                   mkS pr (so_ptr h) cq ls lb en ba)) l ((a_fin A + 1) mod N)).
    split.
    { apply aruns_one.
      replace (EvFin q ptr) with (EvFin (so_q h) (so_ptr h)) by (rewrite Eh; reflexivity).
      apply as_fin; auto. rewrite Eh; reflexivity. }
    rewrite Eh. cbn [so_q so_ptr].
    constructor; cbn [m_pipe m_ram m_tab m_resp m_b m_r a_ops a_fin a_q]; rewrite ?Hcnt;
      cbn [is_write is_read is_req]; auto; try discriminate; try lia.
    + eapply ot_finish; eauto.
    + cbn [tab_finish t_finish]. rewrite Rf. reflexivity.
    + intros k. unfold pcons. cbn [pend_fin]. unfold zupd.
      destruct (Z.eqb_spec k q) as [->|Hkq].
      * rewrite Z.eqb_refl, Rq. reflexivity.
      * destruct (Z.eqb_spec q k); [congruence|]. rewrite Rq. reflexivity.
    + intros k j Hj. rewrite slot_finish by (apply (or_N T)).
      apply Ro. rewrite El. cbn [lastpos]. rewrite Hj. reflexivity.
    + intros H. destruct C2 as [C2 ->]; [lia|]. split; auto.
      rewrite El in C2. unfold zlen in *. simpl length in C2. lia.
  - exists A. split; [constructor|].
    destruct (Hq eq_refl) as (? & -> & ?).
    constructor; cbn [m_pipe m_ram m_tab m_resp m_b m_r]; rewrite ?Hcnt; cbn [is_write is_read is_req];
      auto; try discriminate; try lia.
Qed.

(** Bookkeeping of handed-out tags. *)
Definition out_after1 (out : list Z) (e : qev) : list Z :=
  match e with
  | EvReq r => if ok_resp r then rs_optag r :: out else out
  | EvCommit tag => remove Z.eq_dec tag out
  | _ => out
  end.
Definition out_after (out : list Z) (es : list qev) : list Z := fold_left out_after1 es out.

Lemma commits_ok_app out a b :
  commits_ok out (a ++ b) <-> commits_ok out a /\ commits_ok (out_after out a) b.
Proof.
  unfold out_after. revert out; induction a as [|e a IH]; intros out; simpl; [tauto|].
  destruct e; simpl; rewrite ?IH; tauto.
Qed.

Definition tagsok (N : Z) (out : list Z) (A : satom) : Prop :=
  forall tag, In tag out -> exists j, (j < length (a_ops A))%nat /\
    tag = (a_fin A + Z.of_nat j) mod N /\ so_done (nth j (a_ops A) op0) = false.

Lemma tagsok_step N cld A e B out :
  0 < N -> astep N cld A e B -> tagsok N out A -> tagsok N (out_after1 out e) B.
Proof.
  intros HN Hs Ht.
  destruct Hs as [q reg data strb|q reg|q tag Ho|q tag Ho Hl|j Hj Hd|o rest El Hd];
    cbn [out_after1].
  - exact Ht.
  - exact Ht.
  - rewrite Ho. exact Ht.
  - rewrite Ho. intros tg [E|Hi]; cbn [a_ops a_fin].
    + exists (length (a_ops A)). rewrite app_length. split; [simpl; lia|].
      split; [symmetry; exact E|]. rewrite app_nth2, Nat.sub_diag by lia. reflexivity.
    + destruct (Ht _ Hi) as (j & Hj & Ej & Dj). exists j. rewrite app_length.
      split; [lia|]. split; auto. rewrite app_nth1; auto.
  - intros tg Hi. apply in_remove in Hi. destruct Hi as [Hi Hne].
    destruct (Ht _ Hi) as (k & Hk & Ek & Dk). exists k. cbn [a_ops a_fin].
    rewrite mark_length, mark_nth by auto. split; auto. split; auto.
    destruct (Nat.eqb_spec k j); [subst; congruence|auto].
  - intros tg Hi. destruct (Ht _ Hi) as (k & Hk & Ek & Dk). rewrite El in *.
    destruct k as [|k]; [simpl in Dk; congruence|].
    exists k. cbn [a_ops a_fin]. simpl in Hk, Dk. split; [lia|]. split; auto.
    rewrite Ek, Z.add_mod_idemp_l by lia. f_equal. lia.
Qed.

Lemma tagsok_runs N cld A es B out :
  0 < N -> aruns N cld A es B -> tagsok N out A -> tagsok N (out_after out es) B.
Proof.
  intros HN Hr. revert out. unfold out_after. induction Hr; intros out Ht; simpl; auto.
  apply IHHr. eapply tagsok_step; eauto.
Qed.

Lemma accept_cases s i o : accept s i = Some o ->
  hazard (m_pipe s) (pop_q o) = false /\
  (is_write o = true -> in_pipe is_write (m_pipe s) = false /\ (negb (m_b s) || i_bready i) = true /\
     exists q r dt sb, i_aw i = Some (q, r, dt, sb) /\ o = PWrite q r dt sb) /\
  (is_read o = true -> in_pipe is_read (m_pipe s) = false /\ (m_r s = None \/ i_rready i = true) /\
     exists q r, i_ar i = Some (q, r) /\ o = PRead q r) /\
  (is_req o = true -> in_pipe is_req (m_pipe s) = false /\ (m_resp s = None \/ i_rspready i = true) /\
     t_active (m_tab s) (t_start (m_tab s)) = false /\
     exists q tg, i_req i = Some (q, tg) /\ o = PReq q tg) /\
  (forall q p, o = PFin q p ->
     t_active (m_tab s) (t_finish (m_tab s)) = true /\ t_commit (m_tab s) (t_finish (m_tab s)) = true /\
     q = t_queue (m_tab s) (t_finish (m_tab s)) /\ p = t_ptr (m_tab s) (t_finish (m_tab s))).
Proof.
  unfold accept, orelse. intros H.
  destruct (acc_write s i) as [o1|] eqn:E1.
  { injection H as ->. unfold acc_write in E1.
    destruct (i_aw i) as [[[[q r] dt] sb]|] eqn:Eaw; [|discriminate].
    match type of E1 with (if ?c then _ else _) = _ => destruct c eqn:Ec; [|discriminate] end.
    injection E1 as <-. rewrite !andb_true_iff, !negb_true_iff in Ec.
    cbn [pop_q is_write is_read is_req]. splits; try discriminate; try tauto.
    intros _. splits; try tauto. eauto 8. }
  destruct (acc_read s i) as [o1|] eqn:E2.
  { injection H as ->. unfold acc_read in E2.
    destruct (i_ar i) as [[q r]|] eqn:Eaw; [|discriminate].
    match type of E2 with (if ?c then _ else _) = _ => destruct c eqn:Ec; [|discriminate] end.
    injection E2 as <-. rewrite !andb_true_iff, !negb_true_iff, orb_true_iff in Ec.
    cbn [pop_q is_write is_read is_req]. splits; try discriminate; try tauto.
    intros _. splits; try tauto; [|eauto]. destruct (m_r s); simpl in Ec; [right|left]; auto.
    destruct Ec as [[[Ec|Ec] _] _]; [discriminate|auto]. }
  destruct (acc_fin s) as [o1|] eqn:E3.
  { injection H as ->. unfold acc_fin in E3. cbv zeta in E3.
    match type of E3 with (if ?c then _ else _) = _ => destruct c eqn:Ec; [|discriminate] end.
    injection E3 as <-. rewrite !andb_true_iff, !negb_true_iff in Ec.
    cbn [pop_q is_write is_read is_req]. splits; try discriminate; try tauto.
    intros ? ? E; injection E as <- <-; tauto. }
  unfold acc_req in H. destruct (i_req i) as [[q2 tg]|] eqn:Erq; [|discriminate].
  match type of H with (if ?c then _ else _) = _ => destruct c eqn:Ec; [|discriminate] end.
  injection H as <-; rewrite !andb_true_iff, !negb_true_iff, orb_true_iff in Ec.
  cbn [pop_q is_write is_read is_req]; splits; try discriminate; try tauto.
  intros _; splits; try tauto; [|eauto].
  destruct (m_resp s); simpl in Ec; [right|left]; auto.
  destruct Ec as [[[_ [Ec|Ec]] _] _]; [discriminate|auto].
Qed.

(** One clock cycle refines the atomic machine. *)
Lemma step_sim N cld s A i out :
  0 <= cld -> 0 < N <= 256 -> Rel N s A -> tagsok N out A ->
  commits_ok out (o_ev (snd (qm_step N cld s i))) ->
  exists B, aruns N cld A (o_ev (snd (qm_step N cld s i))) B /\
            Rel N (fst (qm_step N cld s i)) B /\
            tagsok N (out_after out (o_ev (snd (qm_step N cld s i)))) B.
Proof.
  intros Hc HN R HT HO.
  assert (G : exists B, aruns N cld A (o_ev (snd (qm_step N cld s i))) B /\
            Rel N (fst (qm_step N cld s i)) B).
  2:{ destruct G as (B & G1 & G2). exists B. splits; auto.
      eapply tagsok_runs; eauto. lia. }
  unfold qm_step in *.
  destruct (last_stage N cld (m_ram s) (m_tab s) (last (m_pipe s) None))
    as [[[[[[ram' t1] rsp] b] r] db] evs] eqn:EL.
  pose proof (accept_cases s i) as HA.
  destruct (@retire N cld s A (i_rspready i) (i_bready i) (i_rready i) db (i_enable i)
              (match accept s i with Some o => is_write o | None => false end)
              (match accept s i with Some o => is_read o | None => false end)
              (match accept s i with Some o => is_req o | None => false end)
              ram' t1 rsp b r db evs Hc ltac:(lia) R EL)
    as (B & HB & RB & Hfr & Hhd & Hfin & Hnreq & Hnrd & Hnwr & Hact).
  pose proof (r_pipe R) as Hp.
  assert (G1 : let '(t2, ev1) := match accept s i with
            | Some (PFin q ptr) => (tab_finish N t1, [EvFin q ptr])
            | _ => (t1, [])
            end in
     exists C, aruns N cld B ev1 C /\
       Rel N (mkQm ram' (match accept s i with Some o => Some (o, m_ram s (pop_q o)) | None => None end
                          :: removelast (m_pipe s)) t2
             (out_resp rsp (i_rspready i) (m_resp s)) (b || (m_b s && negb (i_bready i)))
             (out_r r (i_rready i) (m_r s)) db (i_enable i)
              (match accept s i with Some o => is_write o | None => false end)
              (match accept s i with Some o => is_read o | None => false end)
              (match accept s i with Some o => is_req o | None => false end)) C).
  { destruct (accept s i) as [o|] eqn:Ea.
    2:{ exists B. split; [constructor|exact RB]. }
    specialize (HA o eq_refl). destruct HA as (Hz & Hw & Hr & Hq & Hf).
    apply hazard_keys in Hz.
    assert (Hkeep : ram' (pop_q o) = m_ram s (pop_q o)).
    { apply Hfr. intros o' d' El Ek. apply Hz. rewrite Ek. eapply in_keys.
      eapply last_in_pipe; eauto. }
    assert (Hz' : ~ In (pop_q o) (keys pop_q (removelast (m_pipe s)))).
    { intro H. apply Hz. apply keys_removelast. exact H. }
    rewrite <- Hkeep.
    assert (Hz0 : forall f, in_pipe f (m_pipe s) = false ->
               cnt f (removelast (m_pipe s)) = 0%nat /\ cnt f [last (m_pipe s) None] = 0%nat).
    { intros f Hf0. unfold in_pipe in Hf0. apply cnt_zero in Hf0.
      rewrite (cnt_split f Hp) in Hf0. clear - Hf0. lia. }
    epose proof (@enter N cld ram' (removelast (m_pipe s)) t1 _ _ _ _ _ _ _ _ B o RB Hz') as HE.
    match type of HE with ?P1 -> ?P2 -> ?P3 -> ?P4 -> _ =>
      assert (H1 : P1); [|assert (H2 : P2); [|assert (H3 : P3); [|assert (H4 : P4)]]] end.
    - intros E. destruct (Hw E) as (E1 & E2 & _). destruct (Hz0 _ E1) as [E3 E4].
      split; auto. rewrite (Hnwr E4). simpl. destruct (m_b s), (i_bready i); simpl in *; congruence.
    - intros E. destruct (Hr E) as (E1 & E2 & _). destruct (Hz0 _ E1) as [E3 E4].
      split; auto. rewrite (Hnrd E4). unfold out_r. destruct E2 as [-> | ->]; auto.
      destruct (i_rready i); auto.
    - intros E. destruct (Hq E) as (E1 & E2 & E5 & _). destruct (Hz0 _ E1) as [E3 E4].
      destruct (Hnreq E4) as (-> & Eo & ->).
      splits; auto.
      + unfold out_resp. destruct E2 as [-> | ->]; auto. destruct (i_rspready i); auto.
      + rewrite Eo. eapply ot_free; eauto. exact (r_tab R).
    - intros q p E. destruct (Hf q p E) as (E1 & E2 & E3 & E4).
      rewrite Hfin. destruct (Hact _ E1) as (A1 & A2 & A3 & A4).
      rewrite A1, A2, A3, A4. auto.
    - specialize (HE H1 H2 H3 H4).
      destruct o; cbn [is_write is_read is_req] in *; exact HE. }
  destruct (match accept s i with
            | Some (PFin q ptr) => (tab_finish N t1, [EvFin q ptr])
            | _ => (t1, [])
            end) as [t2 ev1] eqn:E2.
  destruct G1 as (C & HC & RC).
  destruct (i_commit i) as [tag|] eqn:Ecm; [destruct (m_crdy s) eqn:Ecr|].
  - cbn [o_ev fst snd] in *.
    rewrite app_assoc in HO. apply commits_ok_app in HO. destruct HO as [_ HO].
    simpl in HO. destruct HO as [Hin _].
    assert (HTC : tagsok N (out_after out (evs ++ ev1)) C).
    { eapply tagsok_runs; [lia| |exact HT]. eapply aruns_app; eauto. }
    destruct (HTC _ Hin) as (j & Hj & Ej & Dj).
    exists (mkA (a_q C) (mark (a_ops C) j) (a_fin C)). split.
    + rewrite app_assoc. eapply aruns_app; [eapply aruns_app; eauto|].
      apply aruns_one. rewrite Ej. apply as_commit; auto.
    + pose proof (r_fin RC) as Rf. cbn [m_tab] in Rf. rewrite Rf in Ej.
      assert (Ej' : tag = slot N t2 j) by exact Ej.
      rewrite Ej'.
      destruct RC. constructor; cbn [m_tab m_pipe m_ram m_resp m_b m_r a_ops a_fin a_q] in *; auto.
      * apply ot_commit; auto.
      * intros k l Hl. rewrite lastpos_mark in Hl. apply r_opi0; auto.
      * intros H. unfold zlen in *. rewrite mark_length. auto.
  - exists C. cbn [o_ev fst snd] in *. rewrite app_nil_r. split; auto. eapply aruns_app; eauto.
  - exists C. cbn [o_ev fst snd] in *. rewrite app_nil_r. split; auto. eapply aruns_app; eauto.
Qed.

Lemma events_cons o os : events (o :: os) = o_ev o ++ events os.
Proof. reflexivity. Qed.

Lemma trace_sim N cld : 0 <= cld -> 0 < N <= 256 ->
  forall is s A out, Rel N s A -> tagsok N out A ->
  commits_ok out (events (snd (trace (qm_step N cld) s is))) ->
  exists B, aruns N cld A (events (snd (trace (qm_step N cld) s is))) B /\
    Rel N (fst (trace (qm_step N cld) s is)) B /\
    tagsok N (out_after out (events (snd (trace (qm_step N cld) s is)))) B.
Proof.
  intros Hc HN is. induction is as [|i is IH]; intros s A out R T HO.
  - simpl. exists A. splits; auto. constructor.
  - cbn [trace] in *. destruct (qm_step N cld s i) as [s1 o] eqn:Es.
    specialize (IH s1). destruct (trace (qm_step N cld) s1 is) as [s2 os] eqn:Et.
    cbn [fst snd] in *. rewrite events_cons in *.
    apply commits_ok_app in HO. destruct HO as [HO1 HO2].
    destruct (@step_sim N cld s A i out Hc HN R T) as (B & B1 & B2 & B3).
    { rewrite Es. exact HO1. }
    rewrite Es in *. cbn [fst snd] in *.
    destruct (IH B _ B2 B3 HO2) as (C & C1 & C2 & C3).
    exists C. splits; auto.
    + eapply aruns_app; eauto.
    + unfold out_after in *. rewrite fold_left_app. exact C3.
Qed.

Ltac out_tac :=
  splits; try eassumption;
  repeat match goal with
         | |- context [if i_rspready ?i then _ else _] => destruct (i_rspready i)
         | |- context [if i_rready ?i then _ else _] => destruct (i_rready i)
         | |- context [i_bready ?i] => destruct (i_bready i)
         | |- context [m_b ?i] => destruct (m_b i)
         | |- context [m_r ?i] => destruct (m_r i)
         | |- context [m_resp ?i] => destruct (m_resp i)
         | |- context [m_db ?i] => destruct (m_db i)
         end; try eassumption; try reflexivity.

(** Output registers: nothing lost, nothing invented. *)
Lemma step_out N cld s A i s' o :
  Rel N s A -> qm_step N cld s i = (s', o) ->
  olist (m_resp s) ++ ev_resps (o_ev o) = olist (o_resp o) ++ olist (m_resp s') /\
  olist (m_r s) ++ ev_reads (o_ev o) = olist (o_r o) ++ olist (m_r s') /\
  (b2z (m_b s) + Z.of_nat (ev_writes (o_ev o)) = b2z (o_b o) + b2z (m_b s')) /\
  olist (m_db s) ++ ev_doorbells (o_ev o) = olist (o_db o) ++ olist (m_db s') /\
  inflight (m_pipe s) ++ olist (o_acc o) = olist (o_done o) ++ inflight (m_pipe s') /\
  ev_ops (o_ev o) = filter (fun p => negb (is_fin p)) (olist (o_done o)).
Proof.
  intros R Es. unfold qm_step in Es.
  pose proof (r_pipe R) as Hp.
  pose proof (r_reqp R) as C2. pose proof (r_rdp R) as C4. pose proof (r_wrp R) as C6.
  pose proof (r_req R) as C1. pose proof (r_rd R) as C3. pose proof (r_wr R) as C5.
  rewrite (cnt_split is_req Hp) in C1, C2.
  rewrite (cnt_split is_read Hp) in C3, C4. rewrite (cnt_split is_write Hp) in C5, C6.
  pose proof (inflight_split Hp) as HF.
  destruct (last_stage N cld (m_ram s) (m_tab s) (last (m_pipe s) None))
    as [[[[[[ram' t1] rsp] b] r] db] evs] eqn:EL.
  destruct (match accept s i with
            | Some (PFin q ptr) => (tab_finish N t1, [EvFin q ptr])
            | _ => (t1, [])
            end) as [t2 ev1] eqn:E2.
  destruct (match i_commit i with
            | Some tag => if m_crdy s then (tab_commit t2 tag, [EvCommit tag]) else (t2, [])
            | None => (t2, [])
            end) as [t3 ev2] eqn:E3.
  injection Es as <- <-.
  cbn [o_ev o_resp o_r o_b o_db o_acc o_done m_resp m_r m_b m_db m_pipe].
  assert (Hev : exists c f, ev1 ++ ev2 = c ++ f /\ (c = [] \/ exists q p, c = [EvFin q p]) /\
                            (f = [] \/ exists t, f = [EvCommit t])).
  { exists ev1, ev2. splits; auto.
    - destruct (accept s i) as [[]|]; injection E2 as <- <-; eauto.
    - destruct (i_commit i); [destruct (m_crdy s)|]; injection E3 as <- <-; eauto. }
  assert (Hpure : forall X (g : qev -> list X), (forall q p, g (EvFin q p) = []) ->
            (forall t, g (EvCommit t) = []) -> flat_map g (evs ++ ev1 ++ ev2) = flat_map g evs).
  { intros X g G1 G2. destruct Hev as (c & f & E & Hcc & Hff). rewrite E.
    destruct Hcc as [->|(q & p & ->)], Hff as [->|(t & ->)]; rewrite flat_map_app; simpl;
      rewrite ?G1, ?G2; simpl; now rewrite ?app_nil_r. }
  assert (Hw : ev_writes (evs ++ ev1 ++ ev2) = ev_writes evs).
  { unfold ev_writes. destruct Hev as (c & f & E & Hcc & Hff). rewrite E.
    destruct Hcc as [->|(q & p & ->)], Hff as [->|(t & ->)]; rewrite filter_app; simpl;
      now rewrite ?app_nil_r. }
  assert (P1 : ev_resps (evs ++ ev1 ++ ev2) = ev_resps evs) by (apply Hpure; reflexivity).
  assert (P2 : ev_reads (evs ++ ev1 ++ ev2) = ev_reads evs) by (apply Hpure; reflexivity).
  assert (P3 : ev_doorbells (evs ++ ev1 ++ ev2) = ev_doorbells evs) by (apply Hpure; reflexivity).
  assert (P4 : ev_ops (evs ++ ev1 ++ ev2) = ev_ops evs) by (apply Hpure; reflexivity).
  rewrite P1, P2, P3, P4, Hw. clear P1 P2 P3 P4 Hw Hpure Hev E2 E3.
  rewrite inflight_cons.
  assert (HFl : inflight (m_pipe s) ++ olist (accept s i) =
     olist (option_map fst (last (m_pipe s) None)) ++
     inflight (removelast (m_pipe s)) ++
     match match accept s i with Some o => Some (o, m_ram s (pop_q o)) | None => None end with
     | Some (o, _) => [o] | None => [] end).
  { rewrite HF. rewrite <- app_assoc. f_equal.
    - destruct (last (m_pipe s) None) as [[]|]; reflexivity.
    - f_equal. destruct (accept s i); reflexivity. }
  destruct (last (m_pipe s) None) as [[[q reg data strb|q reg|q ptr|q tag] d]|];
    cbn [last_stage] in EL; unfold cnt in C1, C2, C3, C4, C5, C6; cbn in C1, C2, C3, C4, C5, C6.
  - destruct (do_write d reg data strb) as [d' dbl].
    injection EL as <- <- <- <- <- <- <-.
    rewrite (C6 ltac:(lia)). clear -HFl. destruct dbl; out_tac.
  - injection EL as <- <- <- <- <- <- <-.
    rewrite (C4 ltac:(lia)). clear -HFl. out_tac.
  - injection EL as <- <- <- <- <- <- <-. clear -HFl. out_tac.
  - destruct (do_req cld (m_tab s) q tag d) as [rr ok] eqn:Erq.
    assert (Erq' : rs_queue rr = q /\ rs_tag rr = tag).
    { unfold do_req in Erq. cbv zeta in Erq. injection Erq as <- _. auto. }
    destruct Erq' as [Eq1 Eq2].
    destruct ok; injection EL as <- <- <- <- <- <- <-;
      rewrite (proj2 (C2 ltac:(lia))); cbn [ev_ops flat_map]; rewrite ?Eq1, ?Eq2;
      clear -HFl; out_tac.
  - injection EL as <- <- <- <- <- <- <-. clear -HFl. out_tac.
Qed.

Lemma count_true_cons b l : Z.of_nat (count_true (b :: l)) = b2z b + Z.of_nat (count_true l).
Proof. unfold count_true. destruct b; cbn [filter length b2z]; lia. Qed.

Lemma ev_writes_app a b : ev_writes (a ++ b) = (ev_writes a + ev_writes b)%nat.
Proof. unfold ev_writes. rewrite filter_app, app_length. reflexivity. Qed.

Lemma trace_out N cld : 0 <= cld -> 0 < N <= 256 ->
  forall is s A out sf os, Rel N s A -> tagsok N out A ->
  trace (qm_step N cld) s is = (sf, os) ->
  commits_ok out (events os) ->
  olist (m_resp s) ++ ev_resps (events os) = somes (map o_resp os) ++ olist (m_resp sf) /\
  olist (m_r s) ++ ev_reads (events os) = somes (map o_r os) ++ olist (m_r sf) /\
  (b2z (m_b s) + Z.of_nat (ev_writes (events os)) = Z.of_nat (count_true (map o_b os)) + b2z (m_b sf)) /\
  olist (m_db s) ++ ev_doorbells (events os) = somes (map o_db os) ++ olist (m_db sf) /\
  inflight (m_pipe s) ++ somes (map o_acc os) = somes (map o_done os) ++ inflight (m_pipe sf) /\
  ev_ops (events os) = filter (fun p => negb (is_fin p)) (somes (map o_done os)).
Proof.
  intros Hc HN is. induction is as [|i is IH]; intros s A out sf os R T Et HO.
  - simpl in Et. injection Et as <- <-. simpl. rewrite !app_nil_r. splits; auto. unfold ev_writes; simpl; lia.
  - cbn [trace] in Et. destruct (qm_step N cld s i) as [s1 o] eqn:Es.
    destruct (trace (qm_step N cld) s1 is) as [s2 os'] eqn:Et'.
    injection Et as <- <-. rewrite events_cons in *.
    apply commits_ok_app in HO. destruct HO as [HO1 HO2].
    destruct (@step_sim N cld s A i out Hc HN R T) as (B & B1 & B2 & B3).
    { rewrite Es. exact HO1. }
    rewrite Es in *. cbn [fst snd] in *.
    destruct (IH _ _ _ _ _ B2 B3 Et' HO2) as (I1 & I2 & I3 & I4 & I5 & I6).
    destruct (step_out _ _ R Es) as (J1 & J2 & J3 & J4 & J5 & J6).
    unfold ev_resps, ev_reads, ev_doorbells, ev_ops in *. rewrite !flat_map_app, !map_cons, !somes_cons.
    rewrite ev_writes_app, count_true_cons, Nat2Z.inj_add.
    splits.
    + rewrite app_assoc, J1, <- !app_assoc. f_equal. exact I1.
    + rewrite app_assoc, J2, <- !app_assoc. f_equal. exact I2.
    + lia.
    + rewrite app_assoc, J4, <- !app_assoc. f_equal. exact I4.
    + rewrite app_assoc, J5, <- !app_assoc. f_equal. exact I5.
    + rewrite filter_app, J6, I6. reflexivity.
Qed.

(** Input channels. *)
Definition stage0_is (f : pop -> bool) (p : list stage) : bool :=
  match p with Some (o, _) :: _ => f o | _ => false end.

Lemma stage0_in f p : stage0_is f p = true -> in_pipe f p = true.
Proof. destruct p as [|[[o d]|] p]; simpl; try discriminate. intros ->. reflexivity. Qed.

Definition rdy_inv (s : qm) : Prop :=
  m_awrdy s = stage0_is is_write (m_pipe s) /\
  m_arrdy s = stage0_is is_read (m_pipe s) /\
  m_qrdy s = stage0_is is_req (m_pipe s).

Lemma qm_step_shape N cld s i :
  exists ram t rsp b r db ev,
  qm_step N cld s i =
  (mkQm ram (match accept s i with Some o => Some (o, m_ram s (pop_q o)) | None => None end
               :: removelast (m_pipe s)) t rsp b r db (i_enable i)
     (match accept s i with Some o => is_write o | None => false end)
     (match accept s i with Some o => is_read o | None => false end)
     (match accept s i with Some o => is_req o | None => false end),
   mkObs ev (accept s i) (option_map fst (last (m_pipe s) None))
     (if i_rspready i then m_resp s else None)
     (m_b s && i_bready i)
     (if i_rready i then m_r s else None)
     (m_db s)
     (if m_awrdy s then i_aw i else None)
     (if m_arrdy s then i_ar i else None)
     (if m_qrdy s then i_req i else None)).
Proof.
  unfold qm_step.
  destruct (last_stage N cld (m_ram s) (m_tab s) (last (m_pipe s) None))
    as [[[[[[ram' t1] rsp] b] r] db] evs].
  destruct (match accept s i with
            | Some (PFin q ptr) => (tab_finish N t1, [EvFin q ptr])
            | _ => (t1, [])
            end) as [t2 ev1].
  destruct (match i_commit i with
            | Some tag => if m_crdy s then (tab_commit t2 tag, [EvCommit tag]) else (t2, [])
            | None => (t2, [])
            end) as [t3 ev2].
  repeat eexists.
Qed.

Lemma rdy_inv_step N cld s i : rdy_inv s -> rdy_inv (fst (qm_step N cld s i)).
Proof.
  intros _. destruct (qm_step_shape N cld s i) as (ram & t & rsp & b & r & db & ev & ->).
  unfold rdy_inv. cbn [fst m_awrdy m_arrdy m_qrdy m_pipe stage0_is].
  destruct (accept s i); auto.
Qed.

Lemma chan_write N cld d is :
  holds_until (map i_aw is) (map o_aw (snd (trace (qm_step N cld) (qm0 d) is))) ->
  exists pend, somes (map acc_aw (snd (trace (qm_step N cld) (qm0 d) is)))
     = somes (map o_aw (snd (trace (qm_step N cld) (qm0 d) is))) ++ pend /\ (length pend <= 1)%nat.
Proof.
  intros H. apply (regready (qm_step N cld) i_aw m_awrdy o_aw acc_aw rdy_inv) with (is := is); auto.
  - intros s i Hs. apply rdy_inv_step; auto.
  - intros s i. destruct (qm_step_shape N cld s i) as (ram & t & rsp & b & r & db & ev & ->). reflexivity.
  - intros s i. destruct (qm_step_shape N cld s i) as (ram & t & rsp & b & r & db & ev & ->).
    unfold acc_aw. cbn [fst snd m_awrdy o_acc]. destruct (accept s i) as [[]|]; reflexivity.
  - intros s i x. destruct (qm_step_shape N cld s i) as (ram & t & rsp & b & r & db & ev & ->).
    unfold acc_aw. cbn [fst snd m_awrdy o_acc]. destruct (accept s i) as [o|] eqn:E; [|discriminate].
    destruct (accept_cases _ _ E) as (_ & Hw & _).
    destruct o; try discriminate. intros Ex. destruct (Hw eq_refl) as (_ & _ & q' & r' & d' & b' & E1 & E2).
    congruence.
  - intros s i (Hi & _) Hr. destruct (qm_step_shape N cld s i) as (ram & t & rsp & b & r & db & ev & ->).
    unfold acc_aw. cbn [fst snd m_awrdy o_acc]. destruct (accept s i) as [o|] eqn:E; auto.
    destruct (accept_cases _ _ E) as (_ & Hw & _).
    destruct o; auto. destruct (Hw eq_refl) as (Hn & _).
    rewrite Hi in Hr. apply stage0_in in Hr. congruence.
  - unfold rdy_inv; destruct d; splits; reflexivity.
Qed.

Lemma chan_read N cld d is :
  holds_until (map i_ar is) (map o_ar (snd (trace (qm_step N cld) (qm0 d) is))) ->
  exists pend, somes (map acc_ar (snd (trace (qm_step N cld) (qm0 d) is)))
     = somes (map o_ar (snd (trace (qm_step N cld) (qm0 d) is))) ++ pend /\ (length pend <= 1)%nat.
Proof.
  intros H. apply (regready (qm_step N cld) i_ar m_arrdy o_ar acc_ar rdy_inv) with (is := is); auto.
  - intros s i Hs. apply rdy_inv_step; auto.
  - intros s i. destruct (qm_step_shape N cld s i) as (ram & t & rsp & b & r & db & ev & ->). reflexivity.
  - intros s i. destruct (qm_step_shape N cld s i) as (ram & t & rsp & b & r & db & ev & ->).
    unfold acc_ar. cbn [fst snd m_arrdy o_acc]. destruct (accept s i) as [[]|]; reflexivity.
  - intros s i x. destruct (qm_step_shape N cld s i) as (ram & t & rsp & b & r & db & ev & ->).
    unfold acc_ar. cbn [fst snd m_arrdy o_acc]. destruct (accept s i) as [o|] eqn:E; [|discriminate].
    destruct (accept_cases _ _ E) as (_ & _ & Hw & _).
    destruct o; try discriminate. intros Ex. destruct (Hw eq_refl) as (_ & _ & q' & r' & E1 & E2).
    congruence.
  - intros s i (_ & Hi & _) Hr. destruct (qm_step_shape N cld s i) as (ram & t & rsp & b & r & db & ev & ->).
    unfold acc_ar. cbn [fst snd m_arrdy o_acc]. destruct (accept s i) as [o|] eqn:E; auto.
    destruct (accept_cases _ _ E) as (_ & _ & Hw & _).
    destruct o; auto. destruct (Hw eq_refl) as (Hn & _).
    rewrite Hi in Hr. apply stage0_in in Hr. congruence.
  - unfold rdy_inv; destruct d; splits; reflexivity.
Qed.

Lemma chan_req N cld d is :
  holds_until (map i_req is) (map o_req (snd (trace (qm_step N cld) (qm0 d) is))) ->
  exists pend, somes (map acc_rq (snd (trace (qm_step N cld) (qm0 d) is)))
     = somes (map o_req (snd (trace (qm_step N cld) (qm0 d) is))) ++ pend /\ (length pend <= 1)%nat.
Proof.
  intros H. apply (regready (qm_step N cld) i_req m_qrdy o_req acc_rq rdy_inv) with (is := is); auto.
  - intros s i Hs. apply rdy_inv_step; auto.
  - intros s i. destruct (qm_step_shape N cld s i) as (ram & t & rsp & b & r & db & ev & ->). reflexivity.
  - intros s i. destruct (qm_step_shape N cld s i) as (ram & t & rsp & b & r & db & ev & ->).
    unfold acc_rq. cbn [fst snd m_qrdy o_acc]. destruct (accept s i) as [[]|]; reflexivity.
  - intros s i x. destruct (qm_step_shape N cld s i) as (ram & t & rsp & b & r & db & ev & ->).
    unfold acc_rq. cbn [fst snd m_qrdy o_acc]. destruct (accept s i) as [o|] eqn:E; [|discriminate].
    destruct (accept_cases _ _ E) as (_ & _ & _ & Hw & _).
    destruct o; try discriminate. intros Ex. destruct (Hw eq_refl) as (_ & _ & _ & q' & r' & E1 & E2).
    congruence.
  - intros s i (_ & _ & Hi) Hr. destruct (qm_step_shape N cld s i) as (ram & t & rsp & b & r & db & ev & ->).
    unfold acc_rq. cbn [fst snd m_qrdy o_acc]. destruct (accept s i) as [o|] eqn:E; auto.
    destruct (accept_cases _ _ E) as (_ & _ & _ & Hw & _).
    destruct o; auto. destruct (Hw eq_refl) as (Hn & _).
    rewrite Hi in Hr. apply stage0_in in Hr. congruence.
  - unfold rdy_inv; destruct d; splits; reflexivity.
Qed.
