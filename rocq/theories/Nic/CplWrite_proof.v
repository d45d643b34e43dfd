From Verif Require Import Base.Prelude Base.Bits Rtl.Handshake_spec Rtl.Handshake_proof Stream.Axis_model Nic.CplWrite_model Nic.CplWrite_spec.
From Verif Require Nic.TxEngine_model Nic.TxEngine_spec Nic.TxEngine_proof.
From Coq Require Import Lia Arith ZArith.
Local Open Scope Z_scope.
#[local] Unset Implicit Arguments.

Section Ptr.
  Variable c : wcfg.
  Notation N := (w_n c).
  Let ec := TxEngine_model.mkEc (w_cl c) 0 0 0 0 0 0 0 0 0 0 false false.
  Lemma N_pos : (0 < N)%nat. Proof. exact (TxEngine_proof.N_pos ec). Qed.
  Lemma slot_lt p : (wslot c p < N)%nat. Proof. exact (TxEngine_proof.slot_lt ec p). Qed.
  Lemma slot_small p : (p < N)%nat -> wslot c p = p. Proof. exact (TxEngine_proof.slot_small ec p). Qed.
  Lemma slot_slot p : wslot c (wslot c p) = wslot c p. Proof. apply slot_small, slot_lt. Qed.
  Lemma slot_ptr p : wslot c (p mod (2 * N)) = wslot c p. Proof. exact (TxEngine_proof.slot_ptr ec p). Qed.
  Lemma slot_inj a b : (a < b + N -> b < a + N -> wslot c a = wslot c b -> a = b)%nat. Proof. exact (TxEngine_proof.slot_inj ec a b). Qed.
  Lemma ptr_eqb a b : (a <= b <= a + N)%nat -> ((a mod (2 * N) =? b mod (2 * N)) = (a =? b))%nat. Proof. exact (TxEngine_proof.ptr_eqb ec a b). Qed.
  Lemma diff_ok a b : (b <= a <= b + N)%nat -> wdiff c (a mod (2 * N)) (b mod (2 * N)) = (a - b)%nat. Proof. exact (TxEngine_proof.pdiff_ok ec a b). Qed.
  Lemma next_ok a : wnext c (a mod (2 * N)) = (S a mod (2 * N))%nat. Proof. exact (TxEngine_proof.pnext_ok ec a). Qed.
  Lemma means_iff n k t : means c n k t = true <-> (k < n /\ wslot c k = t /\ n <= k + N)%nat. Proof. exact (TxEngine_proof.means_iff ec n k t). Qed.
  Lemma means_live n k t : (k < n <= k + N)%nat -> means c n k t = (wslot c k =? t)%nat. Proof. exact (TxEngine_proof.means_live ec n k t). Qed.
End Ptr.

(** The answer whose ready is high, and the answers that count. *)
Definition pend (s : wst) (hold : nat -> option resp) : option resp := match x_rrdy s with Some p => hold p | None => None end.
Definition va (c : wcfg) (L : ledger) (pd : option resp) (k : nat) : option resp :=
  match p_ans (l_op L k) with
  | Some r => Some r
  | None => match pd with Some r => if (wslot c k =? r_tag r)%nat then Some r else None | None => None end
  end.
Record agrees (e : wentry) (p : wop) (v : option resp) : Prop := mkAg {
  ag_id : n_sel e = q_sel (p_req p) /\ n_tag e = q_tag (p_req p) /\ n_data e = q_data (p_req p);
  ag_inv : n_inv e = match v with Some r => bad r | None => false end;
  ag_ans : forall r, v = Some r -> n_phase e = r_phase r /\ n_op e = r_op r;
  ag_done : n_done e = p_done p }.
Record logs := mkH { h_enq : list (nat * Z * nat); h_st : list (Z * bool * bool); h_wr : list wd; h_cm : list (nat * Z) }.
Definition wof (c : wcfg) (L : ledger) (v : nat -> option resp) (k : nat) : list wd :=
  match v k with
  | Some r => if bad r then [] else [mkWd (r_addr r) (Z.of_nat (wslot c k) * 2 ^ w_sh c) (w_bits c / 8) (wslot c k)]
  | None => []
  end.

Record inv (c : wcfg) (s : wst) (L : ledger) (hold : nat -> option resp) (A : list nat) (F : nat) (h : logs) : Prop := mkI {
  iv_cnt : (F <= l_n L /\ l_n L <= F + w_n c)%nat;
  iv_ptr : x_sp s = (l_n L mod (2 * w_n c))%nat /\ x_fp s = (F mod (2 * w_n c))%nat;
  iv_on : forall j, (F <= j < l_n L)%nat -> n_act (x_tab s (wslot c j)) = true;
  iv_off : forall j, (l_n L <= j < F + w_n c)%nat -> n_act (x_tab s (wslot c j)) = false;
  iv_ready : x_ready s = true -> (l_n L < F + w_n c)%nat /\ x_enq s = None;
  iv_sel : forall k, (k < l_n L)%nat -> (q_sel (p_req (l_op L k)) < w_ports c)%nat;
  iv_live : forall k, (F <= k < l_n L)%nat -> agrees (x_tab s (wslot c k)) (l_op L k) (va c L (pend s hold) k);
  iv_old : forall k, (k < F)%nat -> settled (l_op L k);
  iv_pend : match x_rrdy s with
            | Some p => exists r k, hold p = Some r /\ (p < w_ports c)%nat /\ (F <= k < l_n L)%nat /\ wslot c k = r_tag r /\
                q_sel (p_req (l_op L k)) = p /\ p_ans (l_op L k) = None /\ A = l_ans L ++ [k] /\
                x_stat s = Some (q_tag (p_req (l_op L k)), r_full r, r_err r)
            | None => A = l_ans L /\ x_stat s = None
            end;
  iv_set : NoDup (l_ans L) /\ forall k, In k (l_ans L) <-> (k < l_n L)%nat /\ p_ans (l_op L k) <> None;
  iv_enq : h_enq h ++ olist (x_enq s) = map (fun k => (q_sel (p_req (l_op L k)), q_queue (p_req (l_op L k)), wslot c k)) (seq 0 (l_n L));
  iv_ask : forall k, (k < l_n L)%nat -> p_asked (l_op L k) = true \/ S k = l_n L /\ x_enq s <> None;
  iv_st : h_st h = map (fun k => status_of (l_op L k)) (l_ans L);
  iv_wr : h_wr h ++ olist (x_write s) = flat_map (wof c L (va c L (pend s hold))) A;
  iv_dw : forall k, (k < l_n L)%nat -> p_done (l_op L k) = true -> p_wr (l_op L k) = true;
  iv_wg : forall k, (k < l_n L)%nat -> p_wr (l_op L k) = true -> exists r, p_ans (l_op L k) = Some r /\ bad r = false;
  iv_wx : forall d, x_write s = Some d -> exists k r, (F <= k < l_n L)%nat /\ d_tag d = wslot c k /\ p_wr (l_op L k) = false /\
            va c L (pend s hold) k = Some r /\ bad r = false;
  iv_wq : forall k r, (F <= k < l_n L)%nat -> va c L (pend s hold) k = Some r -> bad r = false ->
            p_wr (l_op L k) = true \/ exists d, x_write s = Some d /\ d_tag d = wslot c k;
  iv_cm : Forall2 (fun k x => commit_as (l_op L k) x) (filter (fun k => goes (l_op L k)) (seq 0 F)) (h_cm h ++ olist (x_commit s)) }.

Lemma goes_bad p : goes p = match p_ans p with Some r => negb (bad r) | None => false end.
Proof. unfold goes, bad. destruct (p_ans p) as [r|]; [|reflexivity]. destruct (r_full r), (r_err r); reflexivity. Qed.
Lemma refused_bad p : refused p = match p_ans p with Some r => bad r | None => false end.
Proof. unfold refused, bad. destruct (p_ans p) as [r|]; [|reflexivity]. destruct (r_full r), (r_err r); reflexivity. Qed.
Lemma settled_ans p : settled p -> exists r, p_ans p = Some r.
Proof. unfold settled. rewrite refused_bad, goes_bad. destruct (p_ans p) as [r|]; [eauto|]. intros [X|[X _]]; discriminate. Qed.
Lemma va_ans c L pd k r : p_ans (l_op L k) = Some r -> va c L pd k = Some r.
Proof. unfold va. intros ->. reflexivity. Qed.

Lemma NoDup_app_snoc' {X} (l : list X) x : NoDup l -> ~ In x l -> NoDup (l ++ [x]).
Proof.
  intros N H. induction N as [|y l Hy N IH]; cbn; [repeat constructor; intros []|]. constructor.
  - rewrite in_app_iff. intros [Q|[->|[]]]; [contradiction|]. apply H. left. reflexivity.
  - apply IH. intros Q. apply H. right. exact Q.
Qed.
Lemma filter_one f m k : (k < m)%nat -> f k = true -> (forall x, (x < m)%nat -> f x = true -> x = k) -> filter f (seq 0 m) = [k].
Proof.
  revert k. induction m as [|m IH]; intros k K E U; [lia|]. rewrite seq_S, filter_app. cbn [filter Nat.add].
  destruct (Nat.eq_dec k m) as [->|X].
  - rewrite E. assert (Z : filter f (seq 0 m) = []); [|rewrite Z; reflexivity].
    assert (G : forall l, (forall x, In x l -> f x = false) -> filter f l = []).
    { induction l as [|x l IHl]; intros H; cbn; [reflexivity|]. rewrite H by (left; reflexivity). apply IHl. intros; apply H; right; assumption. }
    apply G. intros x Hx. apply in_seq in Hx. destruct (f x) eqn:Q; [|reflexivity]. apply U in Q; lia.
  - rewrite (IH k) by (try lia; auto). destruct (f m) eqn:Q; [apply U in Q; lia|]. reflexivity.
Qed.
Lemma flat_map_same {X Y} (f g : X -> list Y) l : (forall x, In x l -> f x = g x) -> flat_map f l = flat_map g l.
Proof. induction l as [|x l IH]; intros H; cbn; [reflexivity|]. rewrite H by (left; reflexivity). rewrite IH; [reflexivity|]. intros; apply H; right; assumption. Qed.
Lemma filter_same {X} (f g : X -> bool) l : (forall x, In x l -> f x = g x) -> filter f l = filter g l.
Proof. induction l as [|x l IH]; intros H; cbn; [reflexivity|]. rewrite H by (left; reflexivity). rewrite IH; [reflexivity|]. intros; apply H; right; assumption. Qed.
Lemma Forall2_impl' {X Y} (P Q : X -> Y -> Prop) l m : (forall x y, In x l -> P x y -> Q x y) -> Forall2 P l m -> Forall2 Q l m.
Proof. intros H G. induction G; constructor; [apply H; [left; reflexivity|assumption]|apply IHG; intros; apply H; [right; assumption|assumption]]. Qed.

Section Step.
  Variables (c : wcfg) (s : wst) (L : ledger) (hold : nat -> option resp) (A : list nat) (F : nat) (h : logs) (i : win).
  Hypothesis Sane : sane c.
  Hypothesis I : inv c s L hold A F h.
  Notation n := (l_n L).
  Notation N := (w_n c).
  Notation o := (snd (w_step c s i)).
  Notation v := (va c L (pend s hold)).
  Hypothesis W : owed c L hold i o.

  Lemma w_rst : i_rst i = false. Proof. apply W. Qed.
  Lemma sp_slot : wslot c (x_sp s) = wslot c n.
  Proof. destruct (iv_ptr _ _ _ _ _ _ _ I) as (-> & _). apply slot_ptr. Qed.
  Lemma fp_slot : wslot c (x_fp s) = wslot c F.
  Proof. destruct (iv_ptr _ _ _ _ _ _ _ I) as (_ & ->). apply slot_ptr. Qed.
  Lemma live_means k t : (F <= k < n)%nat -> means c n k t = (wslot c k =? t)%nat.
  Proof. intros H. apply means_live. pose proof (iv_cnt _ _ _ _ _ _ _ I). lia. Qed.
  Lemma live_slot j k : (F <= j < n)%nat -> (F <= k < n)%nat -> wslot c j = wslot c k -> j = k.
  Proof. intros H1 H2. pose proof (iv_cnt _ _ _ _ _ _ _ I). apply slot_inj; lia. Qed.
  Lemma req_room r : v_req s i = Some r -> (n < F + N)%nat /\ x_enq s = None.
  Proof. unfold v_req. destruct (x_ready s) eqn:X; [|discriminate]. intros _. apply (iv_ready _ _ _ _ _ _ _ I X). Qed.
  Lemma new_slot k r : v_req s i = Some r -> (F <= k < n)%nat -> wslot c n <> wslot c k.
  Proof. intros R K E. apply req_room in R. apply slot_inj in E; lia. Qed.
  Lemma old_ans k : (k < F)%nat -> exists r, p_ans (l_op L k) = Some r.
  Proof. intros K. apply settled_ans, (iv_old _ _ _ _ _ _ _ I k K). Qed.

  Lemma req_is : req_in i o = v_req s i.
  Proof. reflexivity. Qed.
  Lemma resp_is : resp_in i o = pend s hold.
  Proof.
    unfold resp_in, pend. change (o_rrdy o) with (x_rrdy s). pose proof (iv_pend _ _ _ _ _ _ _ I) as P.
    destruct (x_rrdy s) as [p|]; [|reflexivity]. destruct P as (r & k & H & Hp & _). rewrite H. apply W; assumption.
  Qed.
  Lemma pend_some r : pend s hold = Some r -> exists k, (F <= k < n)%nat /\ wslot c k = r_tag r /\ p_ans (l_op L k) = None /\
    x_rrdy s = Some (q_sel (p_req (l_op L k))) /\ A = l_ans L ++ [k] /\ x_stat s = Some (q_tag (p_req (l_op L k)), r_full r, r_err r).
  Proof.
    unfold pend. pose proof (iv_pend _ _ _ _ _ _ _ I) as P. destruct (x_rrdy s) as [p|]; [|discriminate].
    destruct P as (r' & k & H & Hp & K & S & Q & An & EA & ES). rewrite H. intros [= <-]. exists k. subst p. tauto.
  Qed.
  Lemma pend_none : pend s hold = None -> x_rrdy s = None /\ A = l_ans L /\ x_stat s = None.
  Proof.
    unfold pend. pose proof (iv_pend _ _ _ _ _ _ _ I) as P. destruct (x_rrdy s) as [p|]; [|tauto].
    destruct P as (r' & k & H & _). rewrite H. discriminate.
  Qed.
  Lemma v_new k r : p_ans (l_op L k) = None -> v k = Some r -> pend s hold = Some r /\ wslot c k = r_tag r.
  Proof.
    unfold va. intros ->. destruct (pend s hold) as [r'|]; [|discriminate]. destruct (Nat.eqb_spec (wslot c k) (r_tag r')); [|discriminate].
    intros [= <-]. auto.
  Qed.

  (** The answer processed. *)
  Lemma resp_some p r : v_resp c s i = Some (p, r) -> exists k, (F <= k < n)%nat /\ wslot c k = r_tag r /\ v k = None /\ p_ans (l_op L k) = None /\
    (p < w_ports c)%nat /\ q_sel (p_req (l_op L k)) = p /\ i_resp i p = Some r /\ x_write s = None /\ x_rrdy s <> Some p.
  Proof.
    unfold v_resp. destruct (x_write s) eqn:X; [discriminate|]. cbn [isnone].
    destruct (find _ _) as [p'|] eqn:Fi; [|discriminate]. destruct (i_resp i p') as [r'|] eqn:R; [|discriminate].
    intros [= -> ->]. apply find_some in Fi. destruct Fi as [In_ Fi]. apply in_seq in In_. apply andb_true_iff in Fi. destruct Fi as [_ Fi].
    apply negb_true_iff in Fi.
    assert (NR : x_rrdy s <> Some p). { intros E. rewrite E, Nat.eqb_refl in Fi. discriminate. }
    destruct W as (_ & _ & _ & W4 & _). destruct (W4 p r ltac:(lia) R) as (k & M & Q & As & An). apply means_iff in M. destruct M as (M1 & M2 & M3).
    assert (K : (F <= k < n)%nat).
    { split; [|exact M1]. destruct (Nat.le_gt_cases F k); [assumption|]. exfalso. destruct (old_ans k) as (r' & E); [assumption|congruence]. }
    exists k. splits; try assumption; try lia; try reflexivity.
    destruct (v k) as [r'|] eqn:V; [|reflexivity]. exfalso. destruct (v_new k r' An V) as [P1 P2].
    destruct (pend_some _ P1) as (k' & K' & S' & _ & XR & _). assert (k' = k) by (apply live_slot; [assumption|assumption|congruence]). subst k'.
    rewrite XR, Q in NR. congruence.
  Qed.
  Lemma done_some t : i_done i = Some t -> exists k, (F <= k < n)%nat /\ wslot c k = t /\ p_wr (l_op L k) = true /\ p_done (l_op L k) = false.
  Proof.
    intros D. destruct W as (_ & _ & _ & _ & W5). destruct (W5 _ D) as (k & M & P1 & P2). apply means_iff in M. destruct M as (M1 & M2 & M3).
    exists k. splits; try assumption. destruct (Nat.le_gt_cases F k) as [|X]; [assumption|]. exfalso.
    destruct (iv_old _ _ _ _ _ _ _ I k X) as [Y|[_ Y]]; [|congruence]. rewrite refused_bad in Y.
    destruct (iv_wg _ _ _ _ _ _ _ I k M1 P1) as (r & V & B). rewrite V in Y. congruence.
  Qed.

  Definition L' := keep c L (i, o).
  Definition s' := fst (w_step c s i).
  Definition hold' := still i o.
  Definition F' := if moves (v_fin c s) then S F else F.
  Notation n' := (l_n L').
  Lemma n_next : n' = match v_req s i with Some _ => S n | None => n end.
  Proof. unfold L', keep. rewrite req_is. destruct (v_req s i); reflexivity. Qed.
  Lemma op_old k : (k < n)%nat -> l_op L' k = op_next c n i o k (l_op L k).
  Proof.
    intros K. unfold L', keep. rewrite req_is. destruct (v_req s i); cbn [l_op]; [|reflexivity].
    destruct (Nat.eqb_spec k n); [lia|reflexivity].
  Qed.
  Lemma op_new r : v_req s i = Some r -> l_op L' n = blank r.
  Proof. intros R. unfold L', keep. rewrite req_is, R. cbn [l_op]. rewrite Nat.eqb_refl. reflexivity. Qed.
  Lemma req_old k : (k < n)%nat -> p_req (l_op L' k) = p_req (l_op L k).
  Proof. intros K. rewrite op_old by assumption. reflexivity. Qed.
  Lemma ans_old k : (k < n)%nat -> p_ans (l_op L' k) = v k.
  Proof.
    intros K. rewrite op_old by assumption. unfold op_next. cbn [p_ans]. rewrite resp_is. unfold va.
    destruct (Nat.le_gt_cases F k) as [X|X].
    - destruct (pend s hold) as [r|] eqn:P; [|destruct (p_ans (l_op L k)); reflexivity]. rewrite live_means by lia.
      destruct (Nat.eqb_spec (wslot c k) (r_tag r)) as [E|E]; [|destruct (p_ans (l_op L k)); reflexivity].
      destruct (pend_some _ P) as (k' & K' & S' & An & _). assert (k' = k) by (apply live_slot; [lia|lia|congruence]). subst k'. rewrite An. reflexivity.
    - destruct (old_ans k X) as (r0 & E0). rewrite E0. destruct (pend s hold) as [r|] eqn:P; [|reflexivity].
      destruct (means c n k (r_tag r)) eqn:M; [|reflexivity]. apply means_iff in M. destruct M as (_ & M2 & M3).
      destruct (pend_some _ P) as (k' & K' & S' & An & _). assert (k' = k).
      { pose proof (iv_cnt _ _ _ _ _ _ _ I). apply (slot_inj c); [lia|lia|congruence]. }
      subst k'. lia.
  Qed.
  Lemma pend_next : pend s' hold' = option_map snd (v_resp c s i).
  Proof.
    unfold pend, s', w_step. rewrite w_rst. cbn [fst x_rrdy]. destruct (v_resp c s i) as [[p r]|] eqn:R; [|reflexivity]. cbn [option_map fst snd].
    destruct (resp_some _ _ R) as (k & _ & _ & _ & _ & _ & _ & IR & _ & NR). unfold hold', still. change (o_rrdy o) with (x_rrdy s).
    destruct (x_rrdy s) as [q|]; [|exact IR]. destruct (Nat.eqb_spec q p); [congruence|exact IR].
  Qed.
  Notation vn := (va c L' (pend s' hold')).
  Lemma va_next k : (k < n)%nat -> vn k = match v k with
    | Some r => Some r
    | None => match v_resp c s i with Some (_, r) => if (wslot c k =? r_tag r)%nat then Some r else None | None => None end end.
  Proof.
    intros K. unfold va at 1. rewrite ans_old by assumption. destruct (v k); [reflexivity|]. rewrite pend_next.
    destruct (v_resp c s i) as [[p r]|]; reflexivity.
  Qed.
  Lemma va_new r : v_req s i = Some r -> vn n = None.
  Proof.
    intros R. unfold va. rewrite (op_new _ R). cbn [blank p_ans]. rewrite pend_next. destruct (v_resp c s i) as [[p x]|] eqn:V; [|reflexivity]. cbn [option_map snd].
    destruct (resp_some _ _ V) as (k & K & S & _). destruct (Nat.eqb_spec (wslot c n) (r_tag x)); [|reflexivity]. exfalso.
    apply (new_slot k r R K). congruence.
  Qed.
  Lemma va_keep k r : (k < n)%nat -> v k = Some r -> vn k = Some r.
  Proof. intros K E. rewrite va_next, E by assumption. reflexivity. Qed.
  (** Only the answer processed is new. *)
  Lemma va_fresh k r : (k < n)%nat -> v k = None -> vn k = Some r -> exists p, v_resp c s i = Some (p, r) /\ wslot c k = r_tag r /\ (F <= k)%nat.
  Proof.
    intros K E. rewrite va_next, E by assumption. destruct (v_resp c s i) as [[p x]|]; [|discriminate].
    destruct (Nat.eqb_spec (wslot c k) (r_tag x)); [|discriminate]. intros [= <-]. exists p. splits; auto.
    destruct (Nat.le_gt_cases F k) as [|X]; [assumption|]. exfalso. destruct (old_ans k X) as (r0 & E0). rewrite (va_ans _ _ _ _ _ E0) in E. discriminate.
  Qed.

  (* the end of an operation *)
  Lemma fin_moves : moves (v_fin c s) = true -> (F < n)%nat.
  Proof.
    unfold v_fin. destruct (_ && _) eqn:E; [|discriminate]. intros _. apply andb_true_iff in E. destruct E as [_ E]. apply negb_true_iff in E.
    destruct (iv_ptr _ _ _ _ _ _ _ I) as (P1 & P2). rewrite P1, P2 in E. pose proof (iv_cnt _ _ _ _ _ _ _ I). rewrite ptr_eqb in E by lia.
    apply Nat.eqb_neq in E. lia.
  Qed.
  Lemma fin_skip : v_fin c s = Skip -> (F < n)%nat /\ exists r, v F = Some r /\ bad r = true.
  Proof.
    intros E. assert (M : (F < n)%nat) by (apply fin_moves; rewrite E; reflexivity). split; [exact M|].
    unfold v_fin in E. rewrite fp_slot in E. destruct (_ && _); [|discriminate].
    rewrite (ag_inv _ _ _ (iv_live _ _ _ _ _ _ _ I F ltac:(lia))) in E. destruct (v F) as [r|].
    - exists r. destruct (bad r); [auto|]. destruct (_ && _); discriminate.
    - destruct (_ && _); discriminate.
  Qed.
  Lemma fin_go : v_fin c s = Go -> (F < n)%nat /\ p_done (l_op L F) = true /\ x_commit s = None /\ exists r, v F = Some r /\ bad r = false.
  Proof.
    intros E. assert (M : (F < n)%nat) by (apply fin_moves; rewrite E; reflexivity). split; [exact M|].
    unfold v_fin in E. rewrite fp_slot in E. destruct (n_act _ && _); [|discriminate].
    pose proof (iv_live _ _ _ _ _ _ _ I F ltac:(lia)) as G. destruct (n_inv _); [discriminate|].
    rewrite (ag_done _ _ _ G) in E. destruct (p_done (l_op L F)) eqn:D; [|discriminate]. destruct (x_commit s); [discriminate|].
    splits; auto. destruct (iv_wg _ _ _ _ _ _ _ I F M (iv_dw _ _ _ _ _ _ _ I F M D)) as (r & E' & B). exists r. split; [apply va_ans; exact E'|exact B].
  Qed.
  Lemma F_le : (F <= F')%nat /\ (F' <= n)%nat /\ (F' <= S F)%nat.
  Proof. unfold F'. destruct (moves (v_fin c s)) eqn:M; [apply fin_moves in M|pose proof (iv_cnt _ _ _ _ _ _ _ I)]; lia. Qed.

  (* the table *)
  Lemma tab_next k : x_tab s' k = wentry_upd c s i (v_resp c s i) (v_fin c s) k (x_tab s k).
  Proof. unfold s', w_step. rewrite w_rst. reflexivity. Qed.
  Lemma no_new k : (F <= k < n)%nat -> match v_req s i with Some r => if (wslot c (x_sp s) =? wslot c k)%nat then Some r else None | None => None end = None.
  Proof.
    intros K. destruct (v_req s i) as [r|] eqn:R; [|reflexivity]. rewrite sp_slot. destruct (Nat.eqb_spec (wslot c n) (wslot c k)) as [E|]; [|reflexivity].
    exfalso. exact (new_slot k r R K E).
  Qed.
  Lemma live_next k : (F <= k < n)%nat -> agrees (x_tab s' (wslot c k)) (l_op L' k) (vn k).
  Proof.
    intros K. rewrite tab_next. unfold wentry_upd. rewrite no_new by assumption. cbn [isnone].
    pose proof (iv_live _ _ _ _ _ _ _ I k K) as G.
    assert (T : forall p r, v_resp c s i = Some (p, r) -> (wslot c (r_tag r) =? wslot c k)%nat = (wslot c k =? r_tag r)%nat).
    { intros p r R. destruct (resp_some _ _ R) as (k' & K' & S & _). rewrite <- S, slot_slot. apply Nat.eqb_sym. }
    constructor; cbn [n_sel n_tag n_data n_inv n_phase n_op n_done].
    - rewrite req_old by lia. apply G.
    - rewrite va_next by lia. rewrite (ag_inv _ _ _ G). destruct (v_resp c s i) as [[p r]|] eqn:R; [|destruct (v k); reflexivity].
      rewrite (T _ _ eq_refl). destruct (Nat.eqb_spec (wslot c k) (r_tag r)) as [E|E]; [|destruct (v k); reflexivity].
      destruct (resp_some _ _ R) as (k' & K' & S & V & _). assert (k' = k) by (apply live_slot; [assumption|assumption|congruence]). subst k'. rewrite V. reflexivity.
    - intros r. rewrite va_next by lia. destruct (v_resp c s i) as [[p x]|] eqn:R.
      + rewrite (T _ _ eq_refl). destruct (Nat.eqb_spec (wslot c k) (r_tag x)) as [E|E].
        * destruct (resp_some _ _ R) as (k' & K' & S & V & _). assert (k' = k) by (apply live_slot; [assumption|assumption|congruence]). subst k'. rewrite V.
          intros [= <-]. auto.
        * destruct (v k) as [r'|] eqn:V; [|discriminate]. intros [= <-]. apply (ag_ans _ _ _ G). reflexivity.
      + destruct (v k) as [r'|] eqn:V; [|discriminate]. intros [= <-]. apply (ag_ans _ _ _ G). reflexivity.
    - rewrite op_old by lia. unfold op_next. cbn [p_done]. rewrite (ag_done _ _ _ G). unfold hit.
      destruct (i_done i) as [t|] eqn:D; [|rewrite orb_false_r; reflexivity]. rewrite live_means by assumption.
      destruct (done_some _ D) as (k' & K' & S & _). rewrite <- S, slot_slot, (Nat.eqb_sym (wslot c k)).
      destruct (wslot c k' =? wslot c k)%nat; [rewrite orb_true_r|rewrite orb_false_r]; reflexivity.
  Qed.
  Lemma new_next r : v_req s i = Some r -> agrees (x_tab s' (wslot c n)) (l_op L' n) (vn n).
  Proof.
    intros R. rewrite tab_next, (va_new _ R), (op_new _ R). unfold wentry_upd. rewrite R, sp_slot, Nat.eqb_refl. cbn [isnone].
    assert (V : match v_resp c s i with Some (_, x) => if (wslot c (r_tag x) =? wslot c n)%nat then Some x else None | None => None end = None).
    { destruct (v_resp c s i) as [[p x]|] eqn:V; [|reflexivity]. destruct (resp_some _ _ V) as (k & K & S & _). rewrite <- S, slot_slot.
      destruct (Nat.eqb_spec (wslot c k) (wslot c n)) as [E|]; [|reflexivity]. exfalso. apply (new_slot k r R K). congruence. }
    rewrite V. constructor; cbn [n_sel n_tag n_data n_inv n_phase n_op n_done blank p_req p_done]; auto.
    - discriminate.
    - destruct (i_done i) as [t|] eqn:D; [|reflexivity]. destruct (done_some _ D) as (k & K & S & _). rewrite <- S, slot_slot.
      destruct (Nat.eqb_spec (wslot c k) (wslot c n)) as [E|]; [|reflexivity]. exfalso. apply (new_slot k r R K). congruence.
  Qed.
  Lemma act_next k : n_act (x_tab s' (wslot c k)) =
    if moves (v_fin c s) && (wslot c F =? wslot c k)%nat then false
    else match v_req s i with Some _ => if (wslot c n =? wslot c k)%nat then true else n_act (x_tab s (wslot c k)) | None => n_act (x_tab s (wslot c k)) end.
  Proof.
    rewrite tab_next. unfold wentry_upd. rewrite fp_slot, sp_slot. cbn [n_act]. destruct (_ && _); [reflexivity|].
    destruct (v_req s i); [|reflexivity]. destruct (_ =? _)%nat; reflexivity.
  Qed.
  Lemma on_next j : (F' <= j < n')%nat -> n_act (x_tab s' (wslot c j)) = true.
  Proof.
    intros J. rewrite act_next. rewrite n_next in J. pose proof (iv_cnt _ _ _ _ _ _ _ I) as Cn. unfold F' in J.
    destruct (moves (v_fin c s)) eqn:M; cbn [andb].
    - pose proof (fin_moves M). destruct (v_req s i) as [r|] eqn:R.
      + pose proof (req_room _ R). destruct (Nat.eqb_spec (wslot c F) (wslot c j)) as [E|E]; [apply slot_inj in E; lia|].
        destruct (Nat.eqb_spec (wslot c n) (wslot c j)) as [E2|E2]; [reflexivity|]. apply (iv_on _ _ _ _ _ _ _ I).
        destruct (Nat.eq_dec j n); [subst; congruence|lia].
      + destruct (Nat.eqb_spec (wslot c F) (wslot c j)) as [E|E]; [apply slot_inj in E; lia|]. apply (iv_on _ _ _ _ _ _ _ I). lia.
    - destruct (v_req s i) as [r|] eqn:R.
      + destruct (Nat.eqb_spec (wslot c n) (wslot c j)) as [E2|E2]; [reflexivity|]. apply (iv_on _ _ _ _ _ _ _ I).
        destruct (Nat.eq_dec j n); [subst; congruence|lia].
      + apply (iv_on _ _ _ _ _ _ _ I). lia.
  Qed.
  Lemma off_next j : (n' <= j < F' + N)%nat -> n_act (x_tab s' (wslot c j)) = false.
  Proof.
    intros J. rewrite act_next. rewrite n_next in J. pose proof (iv_cnt _ _ _ _ _ _ _ I) as Cn. unfold F' in J.
    destruct (moves (v_fin c s)) eqn:M; cbn [andb].
    - pose proof (fin_moves M). destruct (Nat.eqb_spec (wslot c F) (wslot c j)) as [E|E]; [reflexivity|].
      assert (j <> F + N)%nat. { intros ->. apply E. unfold wslot. rewrite <- (Nat.mul_1_l N) at 2. rewrite Nat.mod_add by (pose proof (N_pos c); lia). reflexivity. }
      destruct (v_req s i) as [r|] eqn:R.
      + destruct (Nat.eqb_spec (wslot c n) (wslot c j)) as [E2|E2]; [apply slot_inj in E2; lia|]. apply (iv_off _ _ _ _ _ _ _ I). lia.
      + apply (iv_off _ _ _ _ _ _ _ I). lia.
    - destruct (v_req s i) as [r|] eqn:R.
      + destruct (Nat.eqb_spec (wslot c n) (wslot c j)) as [E2|E2]; [apply slot_inj in E2; lia|]. apply (iv_off _ _ _ _ _ _ _ I). lia.
      + apply (iv_off _ _ _ _ _ _ _ I). lia.
  Qed.

  Lemma fin_v : moves (v_fin c s) = true -> v F <> None.
  Proof.
    intros M. destruct (v_fin c s) eqn:E; [discriminate| |].
    - destruct (fin_skip E) as (_ & r & V & _). congruence.
    - destruct (fin_go E) as (_ & _ & _ & r & V & _). congruence.
  Qed.
  Lemma still_live k : (F <= k)%nat -> v k = None \/ (exists r, v k = Some r /\ bad r = false /\ p_done (l_op L k) = false) -> (F' <= k)%nat.
  Proof.
    intros K H. unfold F'. destruct (moves (v_fin c s)) eqn:M; [|exact K]. destruct (Nat.eq_dec k F) as [->|]; [|lia]. exfalso.
    destruct (v_fin c s) eqn:E; [discriminate| |].
    - destruct (fin_skip E) as (_ & r & V & B). destruct H as [H|(r' & H & B' & _)]; congruence.
    - destruct (fin_go E) as (_ & D & _ & r & V & B). destruct H as [H|(r' & H & _ & B')]; congruence.
  Qed.
  Lemma A_in k : In k A <-> (k < n)%nat /\ v k <> None.
  Proof.
    destruct (iv_set _ _ _ _ _ _ _ I) as (_ & S). destruct (pend s hold) as [r|] eqn:P.
    - destruct (pend_some _ P) as (k0 & K0 & S0 & An & _ & EA & _). rewrite EA, in_app_iff, S. cbn [In]. split.
      + intros [[X1 X2]|[<-|[]]].
        * split; [exact X1|]. unfold va. destruct (p_ans (l_op L k)); congruence.
        * split; [lia|]. unfold va. rewrite An, S0, Nat.eqb_refl. discriminate.
      + intros (X1 & X2). destruct (p_ans (l_op L k)) as [x|] eqn:E; [left; split; [exact X1|congruence]|]. right. left.
        destruct (va c L (Some r) k) as [y|] eqn:V; [|congruence]. unfold va in V. rewrite E in V.
        destruct (Nat.eqb_spec (wslot c k) (r_tag r)) as [Q|]; [|discriminate].
        apply live_slot; [exact K0| |congruence]. split; [|exact X1]. destruct (Nat.le_gt_cases F k) as [|Y]; [assumption|].
        destruct (old_ans k Y) as (z & Z). congruence.
    - destruct (pend_none P) as (_ & EA & _). rewrite EA, S. unfold va. destruct (p_ans (l_op L k)); [|tauto]. split; intros [? _]; split; auto; discriminate.
  Qed.
  Lemma A_nodup : NoDup A.
  Proof.
    destruct (iv_set _ _ _ _ _ _ _ I) as (ND & S). destruct (pend s hold) as [r|] eqn:P.
    - destruct (pend_some _ P) as (k0 & K0 & S0 & An & _ & EA & _). rewrite EA. apply NoDup_app_snoc'; [exact ND|].
      rewrite S. tauto.
    - destruct (pend_none P) as (_ & EA & _). rewrite EA. exact ND.
  Qed.
  Lemma ans_next : l_ans L' = A.
  Proof.
    unfold L', keep. rewrite resp_is. transitivity (l_ans L ++ match pend s hold with Some r => filter (fun k => means c n k (r_tag r)) (seq 0 n) | None => [] end).
    { destruct (req_in i o); reflexivity. }
    destruct (pend s hold) as [r|] eqn:P.
    - destruct (pend_some _ P) as (k0 & K0 & S0 & An & _ & EA & _). rewrite EA. f_equal. apply filter_one; [lia| |].
      + rewrite live_means by assumption. apply Nat.eqb_eq. exact S0.
      + intros x X M. apply means_iff in M. destruct M as (M1 & M2 & M3). pose proof (iv_cnt _ _ _ _ _ _ _ I). apply (slot_inj c); [lia|lia|congruence].
    - destruct (pend_none P) as (_ & EA & _). rewrite EA. apply app_nil_r.
  Qed.
  Lemma write_hit k d : write_out i o = Some d -> (k < n)%nat -> hit c n k (option_map d_tag (write_out i o)) = true ->
    p_wr (l_op L k) = false /\ exists r, v k = Some r /\ bad r = false.
  Proof.
    intros E K M. rewrite E in M. cbn [option_map hit] in M. unfold write_out in E. change (o_write o) with (x_write s) in E.
    destruct (i_wrdy i); [|discriminate]. destruct (iv_wx _ _ _ _ _ _ _ I d E) as (k' & r & K' & T & P & V & B).
    apply means_iff in M. destruct M as (M1 & M2 & M3). pose proof (iv_cnt _ _ _ _ _ _ _ I).
    assert (k' = k) by (apply (slot_inj c); [lia|lia|congruence]). subst k'. eauto.
  Qed.
  Lemma wr_next : x_write s' = match v_resp c s i with
     | Some (_, r) => if bad r then None
         else Some (mkWd (r_addr r) ((Z.of_nat (wslot c (r_tag r)) * 2 ^ w_sh c) mod 2 ^ w_raw c) (w_bits c / 8) (wslot c (r_tag r)))
     | None => if i_wrdy i then None else x_write s end.
  Proof. unfold s', w_step. rewrite w_rst. reflexivity. Qed.
  Lemma ram_small k : (Z.of_nat (wslot c k) * 2 ^ w_sh c) mod 2 ^ w_raw c = Z.of_nat (wslot c k) * 2 ^ w_sh c.
  Proof.
    destruct Sane as (_ & _ & _ & S1 & S2). pose proof (slot_lt c k) as Q. pose proof (Z.pow_pos_nonneg 2 (w_sh c) ltac:(lia) S1) as P1.
    apply Z.mod_small. split; [nia|]. apply Z.lt_le_trans with (2 ^ (Z.of_nat (w_cl c) + w_sh c)).
    - rewrite Z.pow_add_r by lia. assert (Z.of_nat (w_n c) = 2 ^ Z.of_nat (w_cl c)) by (unfold w_n; rewrite Nat2Z.inj_pow; reflexivity). nia.
    - apply Z.pow_le_mono_r; lia.
  Qed.
  Lemma enq_next : x_enq s' = match v_req s i with
     | Some r => Some (q_sel r, q_queue r, wslot c n)
     | None => if match x_enq s with Some (p, _, _) => i_qrdy i p | None => true end then None else x_enq s end.
  Proof.
    unfold s', w_step. rewrite w_rst. cbn [fst x_enq]. destruct (v_req s i) as [r|] eqn:R; [|reflexivity].
    rewrite sp_slot. unfold onehot. destruct W as (_ & W2 & _). specialize (W2 r). rewrite req_is in W2. apply W2, Nat.ltb_lt in R. rewrite R. reflexivity.
  Qed.
  Lemma commit_next : x_commit s' = match v_fin c s with
     | Go => Some (q_sel (p_req (l_op L F)), n_op (x_tab s (wslot c F)))
     | _ => match x_commit s with Some (p, t) => if i_crdy i p then None else x_commit s | None => None end end.
  Proof.
    unfold s', w_step. rewrite w_rst. cbn [fst x_commit]. destruct (v_fin c s) eqn:E; [reflexivity|reflexivity|].
    destruct (fin_go E) as (M & _). rewrite fp_slot. pose proof (iv_cnt _ _ _ _ _ _ _ I).
    destruct (ag_id _ _ _ (iv_live _ _ _ _ _ _ _ I F ltac:(lia))) as (-> & _). unfold onehot.
    pose proof (iv_sel _ _ _ _ _ _ _ I F M) as Q. apply Nat.ltb_lt in Q. rewrite Q. reflexivity.
  Qed.
  Lemma done_next k : (k < n)%nat -> p_done (l_op L k) = true -> p_done (l_op L' k) = true.
  Proof. intros K D. rewrite op_old by assumption. unfold op_next. cbn [p_done]. rewrite D. reflexivity. Qed.
  Lemma goes_old k : (k < F)%nat -> goes (l_op L' k) = goes (l_op L k).
  Proof.
    intros K. pose proof (iv_cnt _ _ _ _ _ _ _ I). rewrite !goes_bad, ans_old by lia. destruct (old_ans k K) as (r & E).
    rewrite (va_ans _ _ _ _ _ E), E. reflexivity.
  Qed.

  Definition h' := mkH (h_enq h ++ olist (enq_out i o)) (h_st h ++ olist (o_stat o)) (h_wr h ++ olist (write_out i o)) (h_cm h ++ olist (commit_out i o)).
  Definition A_next (A' : list nat) : Prop := match v_resp c s i with
    | Some (p, r) => exists k, A' = A ++ [k] /\ (F <= k < n)%nat /\ wslot c k = r_tag r
    | None => A' = A end.

  Lemma step_inv : exists A', inv c s' L' hold' A' F' h'.
  Proof.
    assert (EA : exists A', A_next A').
    { unfold A_next. destruct (v_resp c s i) as [[p r]|] eqn:R; [|eauto]. destruct (resp_some _ _ R) as (k & K & S & _). exists (A ++ [k]), k. auto. }
    destruct EA as (A' & EA). exists A'.
    pose proof (iv_cnt _ _ _ _ _ _ _ I) as Cn. pose proof F_le as FL. pose proof n_next as NN.
    assert (NN' : (n <= n' <= S n)%nat) by (rewrite NN; destruct (v_req s i); lia).
    assert (RM : forall r, v_req s i = Some r -> (n < F + N)%nat) by (intros r R; apply (req_room _ R)).
    constructor.
    - rewrite NN. destruct (v_req s i) as [r|] eqn:R; [specialize (RM r eq_refl)|]; lia.
    - destruct (iv_ptr _ _ _ _ _ _ _ I) as (P1 & P2). unfold s', w_step. rewrite w_rst. cbn [fst x_sp x_fp]. split.
      + rewrite NN. destruct (v_req s i); rewrite P1; [apply next_ok|reflexivity].
      + unfold F'. destruct (moves (v_fin c s)); rewrite P2; [apply next_ok|reflexivity].
    - apply on_next.
    - apply off_next.
    - intros RD. unfold s', w_step in RD. rewrite w_rst in RD. cbn [fst x_ready] in RD. rewrite NN. rewrite enq_next.
      destruct (v_req s i) as [r|]; [discriminate|]. rewrite !andb_true_iff in RD. destruct RD as (((_ & _) & RD) & RQ). rewrite RQ.
      split; [|reflexivity]. apply Nat.ltb_lt in RD. destruct (iv_ptr _ _ _ _ _ _ _ I) as (P1 & P2). rewrite P1, P2, diff_ok in RD by lia. lia.
    - intros k K. destruct (Nat.lt_ge_cases k n) as [K1|K1].
      + rewrite req_old by assumption. apply (iv_sel _ _ _ _ _ _ _ I k K1).
      + rewrite NN in K. destruct (v_req s i) as [r|] eqn:R; [|lia]. assert (k = n) by lia. subst k. rewrite (op_new _ R). cbn [blank p_req].
        destruct W as (_ & W2 & _). apply (W2 r). exact R.
    - intros k K. destruct (Nat.lt_ge_cases k n) as [K1|K1].
      + apply live_next. lia.
      + rewrite NN in K. destruct (v_req s i) as [r|] eqn:R; [|lia]. assert (k = n) by lia. subst k. apply (new_next r R).
    - intros k K. unfold settled. rewrite refused_bad, goes_bad.
      destruct (Nat.lt_ge_cases k F) as [K1|K1].
      + rewrite ans_old by lia. destruct (iv_old _ _ _ _ _ _ _ I k K1) as [X|[X Y]].
        * left. rewrite refused_bad in X. destruct (old_ans k K1) as (r & E). rewrite (va_ans _ _ _ _ _ E). rewrite E in X. exact X.
        * right. split; [|apply done_next; [lia|exact Y]]. rewrite goes_bad in X. destruct (old_ans k K1) as (r & E). rewrite (va_ans _ _ _ _ _ E). rewrite E in X. exact X.
      + unfold F' in K. destruct (moves (v_fin c s)) eqn:M; [|lia]. assert (k = F) by lia. subst k. pose proof (fin_moves M). rewrite ans_old by lia.
        destruct (v_fin c s) eqn:E; [discriminate| |].
        * destruct (fin_skip E) as (_ & r & -> & B). left. exact B.
        * destruct (fin_go E) as (_ & D & _ & r & -> & B). right. rewrite B. split; [reflexivity|]. apply done_next; [lia|exact D].
    - replace (x_rrdy s') with (option_map fst (v_resp c s i)) by (unfold s', w_step; rewrite w_rst; reflexivity).
      assert (XS : x_stat s' = match v_resp c s i with Some (_, r) => Some (n_tag (x_tab s (wslot c (r_tag r))), r_full r, r_err r) | None => None end)
        by (unfold s', w_step; rewrite w_rst; reflexivity).
      rewrite XS, ans_next. unfold A_next in EA. destruct (v_resp c s i) as [[p r]|] eqn:R; cbn [option_map fst]; [|auto].
      destruct EA as (k & -> & K & S). destruct (resp_some _ _ R) as (k' & K' & S' & V & An & Hp & Q & IR & XW & NR).
      assert (k' = k) by (apply live_slot; [assumption|assumption|congruence]). subst k'.
      exists r, k. splits; auto.
      + pose proof pend_next as PN. rewrite R in PN. unfold pend in PN. replace (x_rrdy s') with (Some p) in PN; [exact PN|].
        unfold s', w_step. rewrite w_rst. cbn [fst x_rrdy]. rewrite R. reflexivity.
      + apply still_live; [lia|auto].
      + lia.
      + rewrite req_old by lia. exact Q.
      + rewrite ans_old by lia. exact V.
      + rewrite <- S, slot_slot, req_old by lia. destruct (ag_id _ _ _ (iv_live _ _ _ _ _ _ _ I k ltac:(lia))) as (_ & -> & _). reflexivity.
    - rewrite ans_next. split; [apply A_nodup|]. intros k. rewrite A_in. split.
      + intros (X1 & X2). rewrite ans_old by assumption. split; [lia|exact X2].
      + intros (X1 & X2). destruct (Nat.lt_ge_cases k n) as [K1|K1]; [rewrite ans_old in X2 by assumption; auto|]. exfalso.
        rewrite NN in X1. destruct (v_req s i) as [r|] eqn:R; [|lia]. assert (k = n) by lia. subst k. rewrite (op_new _ R) in X2. apply X2. reflexivity.
    - rewrite enq_next. cbn [h_enq h']. rewrite <- app_assoc.
      assert (EQ : forall m, (m <= n)%nat -> map (fun k => (q_sel (p_req (l_op L' k)), q_queue (p_req (l_op L' k)), wslot c k)) (seq 0 m) =
                   map (fun k => (q_sel (p_req (l_op L k)), q_queue (p_req (l_op L k)), wslot c k)) (seq 0 m)).
      { intros m Hm. apply map_ext_in. intros k Hk. apply in_seq in Hk. rewrite req_old by lia. reflexivity. }
      pose proof (iv_enq _ _ _ _ _ _ _ I) as E. unfold enq_out. change (o_enq o) with (x_enq s). rewrite NN.
      destruct (v_req s i) as [r|] eqn:R.
      + destruct (req_room _ R) as (_ & X). rewrite X in *. cbn [olist app] in *. rewrite app_nil_r in E. rewrite seq_S, map_app, EQ by lia. rewrite <- E.
        cbn [map Nat.add]. rewrite (op_new _ R). reflexivity.
      + rewrite EQ by lia. rewrite <- E. destruct (x_enq s) as [[[p q] t]|]; [|reflexivity]. destruct (i_qrdy i p); [rewrite app_nil_r|]; reflexivity.
    - intros k K. rewrite enq_next. rewrite NN in K. rewrite NN.
      destruct (v_req s i) as [r|] eqn:R.
      + destruct (req_room _ R) as (_ & X). destruct (Nat.eq_dec k n) as [->|Y]; [right; split; [reflexivity|discriminate]|].
        left. rewrite op_old by lia. unfold op_next. cbn [p_asked]. destruct (iv_ask _ _ _ _ _ _ _ I k ltac:(lia)) as [->|[_ Z]]; [reflexivity|congruence].
      + rewrite op_old by lia. unfold op_next. cbn [p_asked]. destruct (iv_ask _ _ _ _ _ _ _ I k ltac:(lia)) as [->|[Q Z]]; [left; reflexivity|].
        destruct (x_enq s) as [[[p q] t]|] eqn:X; [|congruence]. destruct (i_qrdy i p) eqn:RQ; [|right; split; [exact Q|discriminate]]. left.
        assert (T : t = wslot c k).
        { pose proof (iv_enq _ _ _ _ _ _ _ I) as E. rewrite X in E. rewrite <- Q, seq_S, map_app in E. cbn [map olist Nat.add] in E. apply app_inj_tail in E.
          destruct E as [_ E]. congruence. }
        unfold enq_out. change (o_enq o) with (x_enq s). rewrite X, RQ. cbn [option_map snd hit]. subst t.
        assert (M : means c n k (wslot c k) = true) by (apply means_iff; pose proof (N_pos c); lia). rewrite M. apply orb_true_r.
    - cbn [h_st h']. change (o_stat o) with (x_stat s). rewrite ans_next, (iv_st _ _ _ _ _ _ _ I).
      assert (EQ : forall l, (forall k, In k l -> In k (l_ans L)) -> map (fun k => status_of (l_op L' k)) l = map (fun k => status_of (l_op L k)) l).
      { intros l Hl. apply map_ext_in. intros k Hk. apply Hl in Hk. apply (iv_set _ _ _ _ _ _ _ I) in Hk. destruct Hk as (K & An).
        unfold status_of. rewrite ans_old, req_old by assumption. destruct (p_ans (l_op L k)) as [r|] eqn:E; [|congruence].
        rewrite (va_ans _ _ _ _ _ E). reflexivity. }
      destruct (pend s hold) as [r|] eqn:P.
      + destruct (pend_some _ P) as (k & K & S & An & _ & EA' & XS). rewrite EA', XS, map_app, EQ by auto. cbn [map olist]. f_equal. f_equal.
        unfold status_of. rewrite ans_old, req_old by lia. unfold va. rewrite An, P, S, Nat.eqb_refl. reflexivity.
      + destruct (pend_none P) as (_ & EA' & XS). rewrite EA', XS, EQ by auto. apply app_nil_r.
    - cbn [h_wr h']. rewrite wr_next.
      assert (EQ : flat_map (wof c L' vn) A = flat_map (wof c L v) A).
      { apply flat_map_same. intros k Hk. apply A_in in Hk. destruct Hk as (K & V). unfold wof. destruct (v k) as [r|] eqn:E; [|congruence].
        rewrite (va_keep k r K E). reflexivity. }
      pose proof (iv_wr _ _ _ _ _ _ _ I) as E. unfold write_out. change (o_write o) with (x_write s). unfold A_next in EA.
      destruct (v_resp c s i) as [[p r]|] eqn:R.
      + destruct EA as (k & -> & K & S). destruct (resp_some _ _ R) as (k' & K' & S' & V & An & Hp & Q & IR & XW & NR).
        assert (k' = k) by (apply live_slot; [assumption|assumption|congruence]). subst k'.
        rewrite flat_map_app, EQ. rewrite XW in *. cbn [olist] in E. rewrite app_nil_r in E. rewrite E. destruct (i_wrdy i); cbn [olist]; rewrite app_nil_r; f_equal;
          cbn [flat_map]; rewrite app_nil_r; unfold wof; rewrite va_next, V, R, S, Nat.eqb_refl by lia; destruct (bad r); try reflexivity;
          rewrite <- S, slot_slot, ram_small; reflexivity.
      + subst A'. rewrite EQ, <- E. destruct (i_wrdy i); [cbn [olist]; rewrite app_nil_r; reflexivity|]. cbn [olist]. rewrite app_nil_r. reflexivity.
    - intros k K D. destruct (Nat.lt_ge_cases k n) as [K1|K1].
      + rewrite op_old in * by assumption. unfold op_next in *. cbn [p_done p_wr] in *. apply orb_true_iff in D. destruct D as [D|D].
        * rewrite (iv_dw _ _ _ _ _ _ _ I k K1 D). reflexivity.
        * unfold hit in D. destruct (i_done i) as [t|] eqn:ED; [|discriminate]. destruct (done_some _ ED) as (k' & K' & S & P & _).
          apply means_iff in D. destruct D as (M1 & M2 & M3). assert (k' = k) by (apply (slot_inj c); [lia|lia|congruence]). subst k'. rewrite P. reflexivity.
      + rewrite NN in K. destruct (v_req s i) as [r|] eqn:R; [|lia]. assert (k = n) by lia. subst k. rewrite (op_new _ R) in D. discriminate.
    - intros k K P. destruct (Nat.lt_ge_cases k n) as [K1|K1].
      + rewrite op_old in P by assumption. unfold op_next in P. cbn [p_wr] in P. apply orb_true_iff in P. destruct P as [P|P].
        * destruct (iv_wg _ _ _ _ _ _ _ I k K1 P) as (r & V & B). exists r. rewrite ans_old by assumption. split; [apply va_ans; exact V|exact B].
        * destruct (write_out i o) as [d|] eqn:EW; [|discriminate]. rewrite <- EW in P. destruct (write_hit k d EW K1 P) as (_ & r & V & B).
          exists r. rewrite ans_old by assumption. auto.
      + rewrite NN in K. destruct (v_req s i) as [r|] eqn:R; [|lia]. assert (k = n) by lia. subst k. rewrite (op_new _ R) in P. discriminate.
    - intros d. rewrite wr_next. destruct (v_resp c s i) as [[p r]|] eqn:R.
      + destruct (bad r) eqn:B; [discriminate|]. intros [= <-]. destruct (resp_some _ _ R) as (k & K & S & V & An & Hp & Q & IR & XW & NR).
        exists k, r. rewrite va_next, V, R, S, Nat.eqb_refl by lia. splits; auto.
        * apply still_live; [lia|auto].
        * lia.
        * cbn [d_tag]. rewrite <- S. apply slot_slot.
        * rewrite op_old by lia. unfold op_next. cbn [p_wr]. apply orb_false_iff. split.
          -- destruct (p_wr (l_op L k)) eqn:P; [|reflexivity]. destruct (iv_wg _ _ _ _ _ _ _ I k ltac:(lia) P) as (x & X & _). congruence.
          -- unfold write_out. change (o_write o) with (x_write s). rewrite XW. destruct (i_wrdy i); reflexivity.
      + destruct (i_wrdy i) eqn:RW; [discriminate|]. intros X. destruct (iv_wx _ _ _ _ _ _ _ I d X) as (k & r & K & T & P & V & B).
        exists k, r. splits; auto.
        * apply still_live; [lia|]. right. exists r. splits; auto. destruct (p_done (l_op L k)) eqn:D; [|reflexivity].
          apply (iv_dw _ _ _ _ _ _ _ I k ltac:(lia)) in D. congruence.
        * lia.
        * rewrite op_old by lia. unfold op_next. cbn [p_wr]. rewrite P. unfold write_out. rewrite RW. reflexivity.
        * apply va_keep; [lia|exact V].
    - intros k r K V B. destruct (Nat.lt_ge_cases k n) as [K1|K1].
      + rewrite op_old by assumption. unfold op_next. cbn [p_wr]. rewrite wr_next. destruct (v k) as [r0|] eqn:V0.
        * rewrite (va_keep k r0 K1 V0) in V. injection V as ->. destruct (iv_wq _ _ _ _ _ _ _ I k r ltac:(lia) V0 B) as [P|(d & X & T)]; [left; rewrite P; reflexivity|].
          unfold write_out. change (o_write o) with (x_write s). rewrite X. destruct (v_resp c s i) as [[p x]|] eqn:R.
          { destruct (resp_some _ _ R) as (k' & K' & S & V' & An & Hp & Q & IR & XW & NR). congruence. }
          destruct (i_wrdy i); [|right; eauto]. left. cbn [option_map hit]. rewrite live_means by lia. rewrite T, Nat.eqb_refl. apply orb_true_r.
        * destruct (va_fresh k r K1 V0 V) as (p & R & S & _). right. rewrite R, B. eexists. split; [reflexivity|]. cbn [d_tag]. rewrite <- S. apply slot_slot.
      + rewrite NN in K. destruct (v_req s i) as [x|] eqn:R; [|lia]. assert (k = n) by lia. subst k. rewrite (va_new _ R) in V. discriminate.
    - cbn [h_cm h']. rewrite commit_next. pose proof (iv_cm _ _ _ _ _ _ _ I) as E.
      assert (E1 : Forall2 (fun k x => commit_as (l_op L' k) x) (filter (fun k => goes (l_op L' k)) (seq 0 F)) (h_cm h ++ olist (x_commit s))).
      { rewrite (filter_same _ (fun k => goes (l_op L k))) by (intros k Hk; apply in_seq in Hk; apply goes_old; lia).
        eapply Forall2_impl'; [|exact E]. intros k x Hk (D & r & An & X). apply filter_In in Hk. destruct Hk as (Hk & _). apply in_seq in Hk.
        split; [apply done_next; [lia|exact D]|]. exists r. rewrite ans_old, req_old by lia. split; [apply va_ans; exact An|exact X]. }
      assert (E2 : (h_cm h ++ olist (commit_out i o)) ++ olist (match x_commit s with Some (p, t) => if i_crdy i p then None else x_commit s | None => None end) = h_cm h ++ olist (x_commit s)).
      { rewrite <- app_assoc. f_equal. unfold commit_out. change (o_commit o) with (x_commit s). destruct (x_commit s) as [[p t]|]; [|reflexivity]. destruct (i_crdy i p); reflexivity. }
      unfold F'. destruct (v_fin c s) eqn:EF; cbn [moves].
      + rewrite E2. exact E1.
      + rewrite E2. destruct (fin_skip EF) as (M & r & V & B). rewrite seq_S, filter_app. cbn [filter Nat.add]. rewrite goes_bad, ans_old, V, B by lia. cbn [negb]. rewrite app_nil_r. exact E1.
      + destruct (fin_go EF) as (M & D & XC & r & V & B). rewrite seq_S, filter_app. cbn [filter Nat.add]. rewrite goes_bad, ans_old, V, B by lia. cbn [negb].
        unfold commit_out. change (o_commit o) with (x_commit s). rewrite XC in *. cbn [olist] in *. rewrite app_nil_r in *. apply Forall2_app; [exact E1|].
        constructor; [|constructor]. split; [apply done_next; [lia|exact D]|]. exists r. rewrite ans_old, req_old by lia. split; [exact V|]. f_equal.
        apply (ag_ans _ _ _ (iv_live _ _ _ _ _ _ _ I F ltac:(lia))). exact V.
  Qed.
End Step.

(* ----- runs ----- *)
Fixpoint hold_end (hold : nat -> option resp) (is : list win) (os : list wout) : nat -> option resp :=
  match is, os with
  | i :: is, o :: os => hold_end (still i o) is os
  | _, _ => hold
  end.
Definition ledger_from (c : wcfg) (L : ledger) (is : list win) (os : list wout) : ledger := fold_left (keep c) (combine is os) L.
Definition hplus (h : logs) (is : list win) (os : list wout) : logs :=
  mkH (h_enq h ++ over enq_out is os) (h_st h ++ somes (map o_stat os)) (h_wr h ++ over write_out is os) (h_cm h ++ over commit_out is os).

Lemma over_cons {X} (f : win -> wout -> option X) i is o os : over f (i :: is) (o :: os) = olist (f i o) ++ over f is os.
Proof. unfold over. cbn [combine map fst snd]. apply somes_cons. Qed.
Lemma trace_cons' {S I O} (f : S -> I -> S * O) s i is : trace f s (i :: is) = (fst (trace f (fst (f s i)) is), snd (f s i) :: snd (trace f (fst (f s i)) is)).
Proof. cbn [trace]. destruct (f s i) as [s1 o]. cbn [fst snd]. destruct (trace f s1 is). reflexivity. Qed.

Lemma run_inv c : sane c -> forall is s L hold A F h, inv c s L hold A F h -> lawful_from c L hold is (snd (trace (w_step c) s is)) ->
  exists A' F', inv c (fst (trace (w_step c) s is)) (ledger_from c L is (snd (trace (w_step c) s is)))
    (hold_end hold is (snd (trace (w_step c) s is))) A' F' (hplus h is (snd (trace (w_step c) s is))).
Proof.
  intros Sane. induction is as [|i is IH]; intros s L hold A F h I W.
  - exists A, F. cbn. unfold hplus, over. cbn. rewrite !app_nil_r. destruct h; exact I.
  - rewrite trace_cons' in *. cbn [snd fst lawful_from] in *. destruct W as (W1 & W2).
    destruct (step_inv c s L hold A F h i Sane I W1) as (A1 & I1). specialize (IH _ _ _ _ _ _ I1 W2).
    destruct IH as (A2 & F2 & I2). exists A2, F2. cbn [hold_end]. unfold ledger_from in *. cbn [combine fold_left].
    replace (hplus h (i :: is) _) with (hplus (h' c s h i) is (snd (trace (w_step c) (fst (w_step c s i)) is))); [exact I2|].
    unfold hplus. rewrite !over_cons. cbn [map]. rewrite somes_cons. unfold h'. cbn [h_enq h_st h_wr h_cm]. rewrite !app_assoc. reflexivity.
Qed.
Lemma lawful_app c : forall is1 is2 s L hold, lawful_from c L hold (is1 ++ is2) (snd (trace (w_step c) s (is1 ++ is2))) ->
  lawful_from c L hold is1 (snd (trace (w_step c) s is1)) /\
  lawful_from c (ledger_from c L is1 (snd (trace (w_step c) s is1))) (hold_end hold is1 (snd (trace (w_step c) s is1))) is2
    (snd (trace (w_step c) (fst (trace (w_step c) s is1)) is2)).
Proof.
  induction is1 as [|i is1 IH]; intros is2 s L hold; [cbn; auto|]. cbn [app]. rewrite !trace_cons'. cbn [fst snd lawful_from hold_end].
  intros (W1 & W2). apply IH in W2. destruct W2 as (W2 & W3). auto.
Qed.

Lemma fresh_inv c s : started c s -> inv c s l0 (fun _ => None) [] 0 (mkH [] [] [] []).
Proof.
  intros St.
  assert (E : (x_ready s, x_stat s, x_enq s, x_rrdy s, x_commit s, x_write s, x_sp s, x_fp s) = (false, None, None, None, None, None, 0%nat, 0%nat) /\
              forall k, n_act (x_tab s k) = false).
  { destruct St as [(mem & ->)|(mem & js & j & R & ->)]; [split; reflexivity|]. rewrite trace_app. destruct (trace (w_step c) (w_init c mem) js) as [s1 os1].
    cbn [trace]. unfold w_step. rewrite R. split; reflexivity. }
  destruct E as (E & Act). injection E as E1 E2 E3 E4 E5 E6 E7 E8.
  constructor; cbn [l0 l_n l_op l_ans h_enq h_st h_wr h_cm]; rewrite ?E1, ?E2, ?E3, ?E4, ?E5, ?E6, ?E7, ?E8; try (intros; lia); try (intros; discriminate); auto.
  - rewrite Nat.mod_0_l; [auto|]. pose proof (N_pos c). lia.
  - split; [constructor|]. intros k. cbn. split; [tauto|lia].
  - constructor.
Qed.

Section Results.
  Variables (c : wcfg) (s : wst) (is : list win).
  Hypothesis Sane : sane c.
  Hypothesis St : started c s.
  Notation os := (snd (trace (w_step c) s is)).
  Notation L := (ledger_of c is os).
  Hypothesis W : lawful c is os.
  Notation Sf := (fst (trace (w_step c) s is)).

  Lemma run : exists A F, inv c Sf L (hold_end (fun _ => None) is os) A F (hplus (mkH [] [] [] []) is os).
  Proof. apply (run_inv c Sane is s l0 (fun _ => None) [] 0%nat (mkH [] [] [] [])); [apply fresh_inv; exact St|exact W]. Qed.

  Lemma enq_result : exists w, (length w <= 1)%nat /\
    over enq_out is os ++ w = map (fun k => (q_sel (p_req (l_op L k)), q_queue (p_req (l_op L k)), (k mod w_n c)%nat)) (seq 0 (l_n L)).
  Proof.
    destruct run as (A & F & I). exists (olist (x_enq Sf)). split; [destruct (x_enq Sf); cbn; lia|]. apply (iv_enq _ _ _ _ _ _ _ I).
  Qed.
  Lemma status_result : somes (map o_stat os) = map (fun k => status_of (l_op L k)) (l_ans L) /\ NoDup (l_ans L) /\
    forall k, In k (l_ans L) <-> (k < l_n L)%nat /\ p_ans (l_op L k) <> None.
  Proof. destruct run as (A & F & I). split; [apply (iv_st _ _ _ _ _ _ _ I)|apply (iv_set _ _ _ _ _ _ _ I)]. Qed.
  Lemma write_result : exists w, (length w <= 1)%nat /\
    over write_out is os ++ w = flat_map (fun k => write_of c k (l_op L k)) (l_ans L).
  Proof.
    destruct run as (A & F & I). pose proof (iv_wr _ _ _ _ _ _ _ I) as E. cbn [h_wr hplus app] in E.
    assert (Q : flat_map (wof c L (va c L (pend Sf (hold_end (fun _ => None) is os)))) (l_ans L) = flat_map (fun k => write_of c k (l_op L k)) (l_ans L)).
    { apply flat_map_same. intros k K. apply (iv_set _ _ _ _ _ _ _ I) in K. destruct K as (_ & K). unfold wof, va, write_of. rewrite goes_bad.
      destruct (p_ans (l_op L k)) as [r|]; [|congruence]. destruct (bad r); reflexivity. }
    destruct (pend Sf (hold_end (fun _ => None) is os)) as [r|] eqn:P.
    - destruct (pend_some _ _ _ _ _ _ _ I _ P) as (k & K & Sk & An & _ & EA & _).
      rewrite EA, flat_map_app in E. cbn [flat_map] in E. rewrite app_nil_r, Q in E.
      assert (V : va c L (Some r) k = Some r) by (unfold va; rewrite An, Sk, Nat.eqb_refl; reflexivity).
      unfold wof in E. rewrite V in E. destruct (bad r) eqn:B.
      + rewrite app_nil_r in E. exists (olist (x_write Sf)). split; [destruct (x_write Sf); cbn; lia|exact E].
      + pose proof (iv_wq _ _ _ _ _ _ _ I k r K) as X. rewrite P in X. specialize (X V B). destruct X as [X|(d & X & _)].
        * destruct (iv_wg _ _ _ _ _ _ _ I k ltac:(lia) X) as (r' & Y & _). congruence.
        * rewrite X in E. cbn [olist] in E. apply app_inj_tail in E. exists []. rewrite app_nil_r. split; [cbn; lia|apply E].
    - destruct (pend_none _ _ _ _ _ _ _ I P) as (_ & EA & _). rewrite EA, Q in E. exists (olist (x_write Sf)). split; [destruct (x_write Sf); cbn; lia|exact E].
  Qed.
  Lemma commit_result : exists ks rest, passed L = ks ++ rest /\ Forall2 (fun k x => commit_as (l_op L k) x) ks (over commit_out is os).
  Proof.
    destruct run as (A & F & I). pose proof (iv_cm _ _ _ _ _ _ _ I) as E. cbn [h_cm hplus app] in E. pose proof (iv_cnt _ _ _ _ _ _ _ I) as Cn.
    apply Forall2_app_inv_r in E. destruct E as (k1 & k2 & E1 & E2 & E3). exists k1, (k2 ++ filter (fun k => goes (l_op L k)) (seq F (l_n L - F))).
    split; [|exact E1]. unfold passed. replace (l_n L) with (F + (l_n L - F))%nat at 1 by lia. rewrite seq_app, filter_app, E3, app_assoc. reflexivity.
  Qed.
  Lemma reuse_result i : let o := snd (w_step c Sf i) in o_ready o = true -> forall k, (k + w_n c <= l_n L)%nat -> settled (l_op L k).
  Proof.
    cbv zeta. destruct run as (A & F & I). change (o_ready (snd (w_step c Sf i))) with (x_ready Sf). intros R k K.
    apply (iv_old _ _ _ _ _ _ _ I). pose proof (iv_ready _ _ _ _ _ _ _ I R). lia.
  Qed.
End Results.
