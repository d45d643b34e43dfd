From Verif Require Import Base.Prelude Base.Bits Rtl.Handshake_spec Rtl.Handshake_proof Stream.Axis_model Nic.DescFetch_model Nic.DescFetch_spec.
From Verif Require Nic.TxEngine_model Nic.TxEngine_spec Nic.TxEngine_proof.
From Coq Require Import Lia Arith ZArith.
Local Open Scope Z_scope.
#[local] Unset Implicit Arguments.

Section Ptr.
  Variable c : fcfg.
  Notation N := (f_n c).
  Let ec := TxEngine_model.mkEc (f_cl c) 0 0 0 0 0 0 0 0 0 0 false false.
  Lemma N_pos : (0 < N)%nat. Proof. exact (TxEngine_proof.N_pos ec). Qed.
  Lemma slot_lt p : (fslot c p < N)%nat. Proof. exact (TxEngine_proof.slot_lt ec p). Qed.
  Lemma slot_small p : (p < N)%nat -> fslot c p = p. Proof. exact (TxEngine_proof.slot_small ec p). Qed.
  Lemma slot_slot p : fslot c (fslot c p) = fslot c p. Proof. apply slot_small, slot_lt. Qed.
  Lemma slot_ptr p : fslot c (p mod (2 * N)) = fslot c p. Proof. exact (TxEngine_proof.slot_ptr ec p). Qed.
  Lemma slot_inj a b : (a < b + N -> b < a + N -> fslot c a = fslot c b -> a = b)%nat. Proof. exact (TxEngine_proof.slot_inj ec a b). Qed.
  Lemma ptr_eqb a b : (a <= b <= a + N)%nat -> ((a mod (2 * N) =? b mod (2 * N)) = (a =? b))%nat. Proof. exact (TxEngine_proof.ptr_eqb ec a b). Qed.
  Lemma diff_ok a b : (b <= a <= b + N)%nat -> fdiff c (a mod (2 * N)) (b mod (2 * N)) = (a - b)%nat. Proof. exact (TxEngine_proof.pdiff_ok ec a b). Qed.
  Lemma next_ok a : fnext c (a mod (2 * N)) = (S a mod (2 * N))%nat. Proof. exact (TxEngine_proof.pnext_ok ec a). Qed.
  Lemma means_iff n k t : means c n k t = true <-> (k < n /\ fslot c k = t /\ n <= k + N)%nat. Proof. exact (TxEngine_proof.means_iff ec n k t). Qed.
  Lemma N_Z : Z.of_nat N = 2 ^ Z.of_nat (f_cl c).
  Proof. unfold f_n. rewrite Nat2Z.inj_pow. reflexivity. Qed.
  Lemma row_place k : sane c -> row c (fslot c k) = place c k.
  Proof.
    intros (S1 & S2 & S3 & _). unfold row, place. fold (fslot c k). pose proof (slot_lt k) as Q.
    assert (0 < 2 ^ f_lb c) by (apply Z.pow_pos_nonneg; lia). rewrite Z.shiftl_mul_pow2 by lia.
    assert (0 < 2 ^ (f_ds c + 2 ^ f_lb c - 1)) by (apply Z.pow_pos_nonneg; lia).
    apply Z.mod_small. split; [nia|]. apply Z.lt_le_trans with (2 ^ (Z.of_nat (f_cl c) + (f_ds c + 2 ^ f_lb c - 1))).
    - rewrite Z.pow_add_r by lia. rewrite <- N_Z. nia.
    - apply Z.pow_le_mono_r; lia.
  Qed.
  Lemma len_size w r : sane c -> f_ds c + 2 ^ f_lb c - 1 < w -> 0 <= r_bs r < 2 ^ f_lb c -> len_of c w (r_bs r) = size c r.
  Proof.
    intros (S1 & S2 & _) H B. unfold len_of, size. rewrite Z.shiftl_mul_pow2 by lia. rewrite <- Z.pow_add_r by lia. apply Z.mod_small. split.
    - apply Z.pow_nonneg. lia.
    - apply Z.pow_lt_mono_r; lia.
  Qed.
End Ptr.

Definition wt {X} (x : option X) : nat := match x with Some _ => 1 | None => 0 end.
Lemma wt_olist {X} (x : option X) : length (olist x) = wt x. Proof. destruct x; reflexivity. Qed.
Lemma plus1_wt {X} n (x : option X) : plus1 n x = (n + wt x)%nat. Proof. destruct x; cbn; lia. Qed.
Lemma number_snoc {X} (l : list X) x : number (l ++ [x]) = number l ++ [(length l, x)].
Proof.
  unfold number. rewrite app_length, seq_app. cbn [length seq Nat.add].
  assert (G : forall (a : list nat) (b : list X) y z, length a = length b -> combine (a ++ [y]) (b ++ [z]) = combine a b ++ [(y, z)]).
  { induction a as [|a0 a IH]; intros [|b0 b] y z E; try discriminate; cbn; [reflexivity|]. f_equal. apply IH. cbn in E. congruence. }
  apply G. apply seq_length.
Qed.
Lemma number_len {X} (l : list X) : length (number l) = length l.
Proof. unfold number. rewrite combine_length, seq_length. lia. Qed.
Lemma number_nth {X} (l : list X) k x : nth_error l k = Some x -> nth_error (number l) k = Some (k, x).
Proof.
  unfold number. intros H. assert (K : (k < length l)%nat) by (apply nth_error_Some; congruence).
  assert (G : forall n0 (l : list X) k x, nth_error l k = Some x -> nth_error (combine (seq n0 (length l)) l) k = Some ((n0 + k)%nat, x)).
  { clear. intros n0 l. revert n0. induction l as [|y l IH]; intros n0 [|k] x E; try discriminate; cbn in *.
    - injection E as ->. rewrite Nat.add_0_r. reflexivity.
    - rewrite (IH _ _ _ E). f_equal. f_equal. lia. }
  apply (G 0%nat); exact H.
Qed.
Lemma firstn_snoc {X} (l : list X) k x : nth_error l k = Some x -> firstn (S k) l = firstn k l ++ [x].
Proof. revert k. induction l as [|y l IH]; intros [|k] E; try discriminate; cbn in *; [congruence|]. f_equal. apply IH. exact E. Qed.
Lemma firstn_app_le {X} (l m : list X) k : (k <= length l)%nat -> firstn k (l ++ m) = firstn k l.
Proof. intros H. rewrite firstn_app. replace (k - length l)%nat with 0%nat by lia. cbn. apply app_nil_r. Qed.
Lemma times_le : forall X Y, (forall p, (times p X <= times p Y)%nat) -> (length X <= length Y)%nat.
Proof.
  unfold times. induction X as [|x X IH]; intros Y H; [cbn; lia|].
  assert (In x Y) as Hin. { apply (count_occ_In Nat.eq_dec). specialize (H x). cbn in H. destruct (Nat.eq_dec x x); [lia|congruence]. }
  apply in_split in Hin. destruct Hin as (Y1 & Y2 & ->). specialize (IH (Y1 ++ Y2)). rewrite app_length in *. cbn [length]. cut (length X <= length Y1 + length Y2)%nat; [lia|].
  apply IH. intros p. specialize (H p). cbn [count_occ] in H. rewrite count_occ_app in *. cbn [count_occ] in H. destruct (Nat.eq_dec x p); lia.
Qed.
Lemma times_app p X Y : times p (X ++ Y) = (times p X + times p Y)%nat. Proof. apply count_occ_app. Qed.

(** The answer whose ready is high. *)
Definition pend (s : fst_) (hold : nat -> option dresp) : option (nat * dresp) :=
  match x_ack s with Some p => match hold p with Some r => Some (p, r) | None => None end | None => None end.
Record logs := mkH { h_req : list dreq; h_ask : list (nat * Z * Z); h_ans : list (nat * dresp); h_st : list dstat; h_dma : list rd; h_cmd : list rc; h_cm : list (nat * Z) }.
Definition ans (s : fst_) (hold : nat -> option dresp) (h : logs) : list (nat * dresp) := h_ans h ++ olist (pend s hold).
Definition holds (L : ledger) (j : nat) (x : nat * dresp) (e : fentry) : Prop :=
  n_sel e = fst x /\ n_bs e = r_bs (snd x) /\ n_tag e = r_tag (snd x) /\ n_op e = r_op (snd x) /\ n_fet e = l_fet L j /\ n_done e = l_done L j.
Definition asks (r : dreq) : nat * Z * Z := (q_sel r, q_queue r, q_tag r).

Record inv (b : bool) (c : fcfg) (s : fst_) (L : ledger) (hold : nat -> option dresp) (A : list (nat * dresp)) (R F : nat) (h : logs) : Prop := mkI {
  iv_A : A = ans s hold h;
  iv_cnt : (F <= R /\ R <= length (fetches A) /\ length (fetches A) <= F + f_n c)%nat;
  iv_ptr : x_sp s = (length (fetches A) mod (2 * f_n c))%nat /\ x_rp s = (R mod (2 * f_n c))%nat /\ x_fp s = (F mod (2 * f_n c))%nat;
  iv_on : forall j, (F <= j < length (fetches A))%nat -> n_act (x_tab s (fslot c j)) = true;
  iv_off : forall j, (length (fetches A) <= j < F + f_n c)%nat -> n_act (x_tab s (fslot c j)) = false;
  iv_tab : forall j x, (F <= j)%nat -> nth_error (fetches A) j = Some x -> holds L j x (x_tab s (fslot c j));
  iv_port : Forall (fun x => (fst x < f_ports c)%nat /\ 0 <= r_bs (snd x) < 2 ^ f_lb c) A;
  iv_old : forall j, (j < F)%nat -> l_done L j = true;
  iv_rd : forall j, (j < R)%nat -> l_fet L j = true;
  iv_dma : (l_dma L + wt (x_dma s))%nat = length (fetches A);
  iv_cmd : (l_cmd L + wt (x_cmd s))%nat = R;
  iv_fd : forall j, l_fet L j = true -> (j < l_dma L)%nat;
  iv_dd : forall j, l_done L j = true -> (j < l_cmd L)%nat;
  iv_pend : match x_ack s with
            | Some p => exists r, hold p = Some r /\ (p < f_ports c)%nat /\ x_stat s = Some (stat_of (p, r)) /\ (full (p, r) = true -> x_dma s <> None)
            | None => x_stat s = None
            end;
  iv_lans : l_ans L = map fst (h_ans h);
  iv_times : forall p, (times p (map fst A) <= times p (l_ask L))%nat;
  iv_len : (length (l_ask L) + wt (x_ask s))%nat = length (h_req h);
  iv_n : x_cnt s = Z.of_nat (length (h_req h)) - Z.of_nat (length A) + Z.of_nat (length (fetches A)) - Z.of_nat F /\ x_cnt s <= Z.of_nat (f_n c);
  iv_lim : Z.of_nat (length (h_req h)) - (Z.of_nat (length (h_ans h)) - Z.of_nat (length (fetches (h_ans h)))) - Z.of_nat F <= Z.of_nat (f_n c);
  iv_ready : x_ready s = true -> x_cnt s < Z.of_nat (f_n c) /\ x_ask s = None;
  iv_asks : h_ask h ++ olist (x_ask s) = map asks (h_req h);
  iv_st : h_st h = map stat_of (h_ans h);
  iv_dmas : h_dma h ++ olist (x_dma s) = map (dma_of c) (number (fetches A));
  iv_cmds : h_cmd h ++ olist (x_cmd s) = firstn R (map (cmd_of c) (number (fetches A)));
  iv_ap : forall p q t, x_ask s = Some (p, q, t) -> (p < f_ports c)%nat;
  iv_cp : forall p t, x_commit s = Some (p, t) -> (p < f_ports c)%nat;
  iv_cm : b = true -> h_cm h ++ olist (x_commit s) = firstn R (map commit_of (fetches A)) }.

Lemma full_bad x : full x = negb (bad (snd x)).
Proof. unfold full, bad. destruct (r_empty (snd x)), (r_err (snd x)); reflexivity. Qed.
Lemma fetches_snoc A x : fetches (A ++ [x]) = if bad (snd x) then fetches A else fetches A ++ [x].
Proof. unfold fetches. rewrite filter_app. cbn [filter]. rewrite full_bad. destruct (bad (snd x)); cbn; [apply app_nil_r|reflexivity]. Qed.
Lemma fetches_le A : (length (fetches A) <= length A)%nat.
Proof. unfold fetches. induction A as [|x A IH]; cbn; [lia|]. destruct (full x); cbn; lia. Qed.

Section Step.
  Variables (b : bool) (c : fcfg) (s : fst_) (L : ledger) (hold : nat -> option dresp) (A : list (nat * dresp)) (R F : nat) (h : logs) (i : fin).
  Hypothesis Sane : sane c.
  Hypothesis I : inv b c s L hold A R F h.
  Notation N := (f_n c).
  Notation o := (snd (f_step c s i)).
  Notation G := (fetches A).
  Notation n := (length G).
  Hypothesis W : owed c L hold i o.

  Lemma w_rst : i_rst i = false. Proof. apply W. Qed.
  Lemma sp_slot : fslot c (x_sp s) = fslot c n.
  Proof. destruct (iv_ptr _ _ _ _ _ _ _ _ _ I) as (-> & _). apply slot_ptr. Qed.
  Lemma rp_slot : fslot c (x_rp s) = fslot c R.
  Proof. destruct (iv_ptr _ _ _ _ _ _ _ _ _ I) as (_ & -> & _). apply slot_ptr. Qed.
  Lemma fp_slot : fslot c (x_fp s) = fslot c F.
  Proof. destruct (iv_ptr _ _ _ _ _ _ _ _ _ I) as (_ & _ & ->). apply slot_ptr. Qed.
  Lemma resp_is : resp_in i o = pend s hold.
  Proof.
    unfold resp_in, pend. change (o_ack o) with (x_ack s). pose proof (iv_pend _ _ _ _ _ _ _ _ _ I) as P.
    destruct (x_ack s) as [p|]; [|reflexivity]. destruct P as (r & H & Hp & _). rewrite H.
    destruct W as (_ & _ & W3 & _). rewrite (W3 p r Hp H). reflexivity.
  Qed.
  Lemma room_lt : v_room c s = true -> (n < F + N)%nat.
  Proof.
    unfold v_room. rewrite andb_true_iff. intros (_ & H). apply Nat.ltb_lt in H. pose proof (iv_cnt _ _ _ _ _ _ _ _ _ I).
    destruct (iv_ptr _ _ _ _ _ _ _ _ _ I) as (P1 & _ & P3). rewrite P1, P3, diff_ok in H by lia. lia.
  Qed.
  Lemma room_if : (n < F + N)%nat -> v_room c s = true.
  Proof.
    intros H. unfold v_room. pose proof (iv_cnt _ _ _ _ _ _ _ _ _ I). rewrite sp_slot, (iv_off _ _ _ _ _ _ _ _ _ I) by lia. cbn [negb andb].
    destruct (iv_ptr _ _ _ _ _ _ _ _ _ I) as (P1 & _ & P3). rewrite P1, P3, diff_ok by lia. apply Nat.ltb_lt. lia.
  Qed.
  Lemma resp_some p r : v_resp c s i = Some (p, r) -> x_dma s = None /\ (n < F + N)%nat /\ (p < f_ports c)%nat /\ i_resp i p = Some r /\ x_ack s <> Some p.
  Proof.
    unfold v_resp. destruct (_ && _) eqn:X; [|discriminate]. apply andb_true_iff in X. destruct X as (X & Y).
    destruct (find _ _) as [p'|] eqn:Fi; [|discriminate]. destruct (i_resp i p') as [r'|] eqn:RR; [|discriminate].
    intros [= -> ->]. apply find_some in Fi. destruct Fi as [In_ Fi]. apply in_seq in In_. apply andb_true_iff in Fi. destruct Fi as [_ Fi].
    apply negb_true_iff in Fi. splits; try assumption; try lia.
    - destruct (x_dma s); [discriminate|reflexivity].
    - apply room_lt. exact Y.
    - intros E. rewrite E, Nat.eqb_refl in Fi. discriminate.
  Qed.
  Lemma nth_lt j : (j < n)%nat -> exists x, nth_error G j = Some x.
  Proof. intros H. destruct (nth_error G j) as [x|] eqn:E; [eauto|]. apply nth_error_None in E. lia. Qed.
  Lemma nth_in j x : nth_error G j = Some x -> (j < n)%nat /\ (fst x < f_ports c)%nat /\ 0 <= r_bs (snd x) < 2 ^ f_lb c.
  Proof.
    intros H. split; [apply nth_error_Some; congruence|]. apply nth_error_In in H. unfold fetches in H. apply filter_In in H. destruct H as (H & _).
    pose proof (iv_port _ _ _ _ _ _ _ _ _ I) as P. rewrite Forall_forall in P. apply P. exact H.
  Qed.
  Lemma read_some : v_read c s = true -> (R < n)%nat /\ exists x, nth_error G R = Some x /\ holds L R x (x_tab s (fslot c R)) /\ l_fet L R = true /\ x_cmd s = None /\
    (forall t, x_commit s <> Some (fst x, t)).
  Proof.
    unfold v_read. rewrite rp_slot, !andb_true_iff. intros ((((_ & E) & Fe) & C) & X). pose proof (iv_cnt _ _ _ _ _ _ _ _ _ I) as Cn.
    destruct (iv_ptr _ _ _ _ _ _ _ _ _ I) as (P1 & P2 & P3). rewrite P1, P2 in E. rewrite ptr_eqb in E by lia. apply negb_true_iff, Nat.eqb_neq in E.
    assert (K : (R < n)%nat) by lia. split; [exact K|]. destruct (nth_lt R K) as (x & Hx). exists x. pose proof (iv_tab _ _ _ _ _ _ _ _ _ I R x ltac:(lia) Hx) as T.
    splits; auto.
    - destruct T as (_ & _ & _ & _ & T & _). congruence.
    - destruct (x_cmd s); [discriminate|reflexivity].
    - intros t Q. rewrite Q in C. destruct T as (T & _). rewrite T, Nat.eqb_refl in C. discriminate.
  Qed.
  Lemma fin_some : v_fin c s = true -> (F < n)%nat /\ l_done L F = true /\ (F < R)%nat.
  Proof.
    unfold v_fin. rewrite fp_slot, !andb_true_iff. intros ((_ & E) & D). pose proof (iv_cnt _ _ _ _ _ _ _ _ _ I) as Cn.
    destruct (iv_ptr _ _ _ _ _ _ _ _ _ I) as (P1 & P2 & P3). rewrite P1, P3 in E. rewrite ptr_eqb in E by lia. apply negb_true_iff, Nat.eqb_neq in E.
    assert (K : (F < n)%nat) by lia. destruct (nth_lt F K) as (x & Hx). destruct (iv_tab _ _ _ _ _ _ _ _ _ I F x ltac:(lia) Hx) as (_ & _ & _ & _ & _ & T).
    rewrite T in D. splits; auto. apply (iv_dd _ _ _ _ _ _ _ _ _ I) in D. pose proof (iv_cmd _ _ _ _ _ _ _ _ _ I). lia.
  Qed.
  Lemma fet_some t e : i_fet i = Some (t, e) -> exists k, (F <= k < n)%nat /\ (k < l_dma L)%nat /\ fslot c k = t /\ l_fet L k = false.
  Proof.
    intros E. destruct W as (_ & _ & _ & _ & W5 & _). destruct (W5 _ _ E) as (k & M & P). apply means_iff in M. exists k.
    pose proof (iv_dma _ _ _ _ _ _ _ _ _ I). pose proof (iv_cnt _ _ _ _ _ _ _ _ _ I). splits; try tauto; [|lia].
    destruct (Nat.le_gt_cases F k); [assumption|]. rewrite (iv_rd _ _ _ _ _ _ _ _ _ I) in P by lia. discriminate.
  Qed.
  Lemma done_some t : i_done i = Some t -> exists k, (F <= k < R)%nat /\ (k < l_cmd L)%nat /\ fslot c k = t /\ l_done L k = false.
  Proof.
    intros E. destruct W as (_ & _ & _ & _ & _ & W5). destruct (W5 _ E) as (k & M & P). apply means_iff in M. exists k.
    pose proof (iv_cmd _ _ _ _ _ _ _ _ _ I). pose proof (iv_cnt _ _ _ _ _ _ _ _ _ I). splits; try tauto; [|lia].
    destruct (Nat.le_gt_cases F k); [assumption|]. rewrite (iv_old _ _ _ _ _ _ _ _ _ I) in P by lia. discriminate.
  Qed.
  (** A report hits the operation whose slot it names. *)
  Lemma fet_hit k : (F <= k < F + N)%nat -> hit c (l_dma L) k (option_map fst (i_fet i)) = at_slot c (fslot c k) (option_map fst (i_fet i)).
  Proof.
    intros K. destruct (i_fet i) as [[t e]|] eqn:E; [|reflexivity]. cbn [option_map fst hit at_slot].
    destruct (fet_some _ _ E) as (k0 & K0 & K1 & T & _). pose proof (iv_cnt _ _ _ _ _ _ _ _ _ I). pose proof (iv_dma _ _ _ _ _ _ _ _ _ I).
    subst t. rewrite slot_slot. apply eq_true_iff_eq. rewrite means_iff, Nat.eqb_eq. split.
    - intros (M1 & M2 & M3). symmetry. exact M2.
    - intros Q. assert (k0 = k) by (apply (slot_inj c); [lia|lia|exact Q]). subst k0. splits; [lia|reflexivity|lia].
  Qed.
  Lemma done_hit k : (F <= k < F + N)%nat -> hit c (l_cmd L) k (i_done i) = at_slot c (fslot c k) (i_done i).
  Proof.
    intros K. destruct (i_done i) as [t|] eqn:E; [|reflexivity]. cbn [hit at_slot].
    destruct (done_some _ E) as (k0 & K0 & K1 & T & _). pose proof (iv_cnt _ _ _ _ _ _ _ _ _ I). pose proof (iv_cmd _ _ _ _ _ _ _ _ _ I).
    subst t. rewrite slot_slot. apply eq_true_iff_eq. rewrite means_iff, Nat.eqb_eq. split.
    - intros (M1 & M2 & M3). symmetry. exact M2.
    - intros Q. assert (k0 = k) by (apply (slot_inj c); [lia|lia|exact Q]). subst k0. splits; [lia|reflexivity|lia].
  Qed.

  Definition L' := keep c L (i, o).
  Definition s' := fst (f_step c s i).
  Definition hold' := still i o.
  Definition F' := if v_fin c s then S F else F.
  Definition R' := if v_read c s then S R else R.
  Definition A' := A ++ olist (v_resp c s i).
  Definition h' := mkH (h_req h ++ olist (req_in i o)) (h_ask h ++ olist (ask_out i o)) (h_ans h ++ olist (resp_in i o)) (h_st h ++ olist (o_stat o))
    (h_dma h ++ olist (dma_out i o)) (h_cmd h ++ olist (cmd_out i o)) (h_cm h ++ olist (commit_out i o)).
  Notation G' := (fetches A').
  Notation n' := (length G').

  Definition good : bool := match v_resp c s i with Some (_, r) => negb (bad r) | None => false end.
  Lemma G_next : G' = G ++ (if good then olist (v_resp c s i) else []).
  Proof.
    unfold A', good. destruct (v_resp c s i) as [[p r]|]; [|cbn; rewrite !app_nil_r; reflexivity]. cbn [olist]. rewrite fetches_snoc. cbn [snd].
    destruct (bad r); [symmetry; apply app_nil_r|reflexivity].
  Qed.
  Lemma n_next : n' = if good then S n else n.
  Proof.
    rewrite G_next. unfold good. destruct (v_resp c s i) as [[p r]|]; [|rewrite app_nil_r; reflexivity].
    destruct (bad r); cbn [negb olist]; [rewrite app_nil_r; reflexivity|]. rewrite app_length. cbn. lia.
  Qed.
  Lemma pend_next : pend s' hold' = v_resp c s i.
  Proof.
    unfold pend, s', f_step. rewrite w_rst. cbn [fst x_ack]. destruct (v_resp c s i) as [[p r]|] eqn:V; [|reflexivity]. cbn [option_map fst].
    destruct (resp_some _ _ V) as (_ & _ & _ & IR & NR). unfold hold', still. change (o_ack o) with (x_ack s).
    destruct (x_ack s) as [q|]; [|rewrite IR; reflexivity]. destruct (Nat.eqb_spec q p); [congruence|rewrite IR; reflexivity].
  Qed.
  Lemma A_next : A' = ans s' hold' h'.
  Proof. unfold A', ans. cbn [h_ans h']. rewrite pend_next, resp_is, (iv_A _ _ _ _ _ _ _ _ _ I). reflexivity. Qed.
  Lemma good_room : good = true -> (n < F + N)%nat /\ x_dma s = None /\ exists p r, v_resp c s i = Some (p, r) /\ bad r = false.
  Proof.
    unfold good. destruct (v_resp c s i) as [[p r]|] eqn:V; [|discriminate]. intros B. apply negb_true_iff in B.
    destruct (resp_some _ _ V) as (X & Y & _). splits; eauto.
  Qed.
  Lemma new_slot k : good = true -> (F <= k < n)%nat -> fslot c n <> fslot c k.
  Proof. intros Gd K E. apply good_room in Gd. apply slot_inj in E; lia. Qed.
  Lemma F_le : (F <= F' <= R)%nat.
  Proof. unfold F'. pose proof (iv_cnt _ _ _ _ _ _ _ _ _ I). destruct (v_fin c s) eqn:V; [apply fin_some in V|]; lia. Qed.
  Lemma R_le : (R <= R' <= n)%nat.
  Proof. unfold R'. pose proof (iv_cnt _ _ _ _ _ _ _ _ _ I). destruct (v_read c s) eqn:V; [apply read_some in V|]; lia. Qed.

  (* the table *)
  Lemma tab_next k : x_tab s' k = fentry_upd c s i (v_resp c s i) (v_fin c s) k (x_tab s k).
  Proof. unfold s', f_step. rewrite w_rst. reflexivity. Qed.
  Lemma new_is k : match v_resp c s i with Some (p, r) => if negb (bad r) && (fslot c (x_sp s) =? fslot c k)%nat then Some (p, r) else None | None => None end =
    if good && (fslot c n =? fslot c k)%nat then v_resp c s i else None.
  Proof. rewrite sp_slot. unfold good. destruct (v_resp c s i) as [[p r]|]; reflexivity. Qed.
  Lemma act_next k : n_act (x_tab s' (fslot c k)) =
    if v_fin c s && (fslot c F =? fslot c k)%nat then false
    else if good && (fslot c n =? fslot c k)%nat then true else n_act (x_tab s (fslot c k)).
  Proof.
    rewrite tab_next. unfold fentry_upd. rewrite new_is, fp_slot. cbn [n_act]. destruct (_ && _); [reflexivity|].
    destruct (good && _) eqn:E; [|reflexivity]. apply andb_true_iff in E. destruct E as (E & _). apply good_room in E.
    destruct E as (_ & _ & p & r & E & _). rewrite E. reflexivity.
  Qed.
  Lemma on_next j : (F' <= j < n')%nat -> n_act (x_tab s' (fslot c j)) = true.
  Proof.
    intros J. rewrite act_next. rewrite n_next in J. pose proof (iv_cnt _ _ _ _ _ _ _ _ _ I) as Cn. unfold F' in J.
    assert (X : (v_fin c s && (fslot c F =? fslot c j)%nat) = false).
    { destruct (v_fin c s) eqn:V; [|reflexivity]. cbn [andb]. apply Nat.eqb_neq. intros E. destruct good eqn:Gd.
      - pose proof (good_room Gd). apply slot_inj in E; lia.
      - apply slot_inj in E; lia. }
    rewrite X. destruct good eqn:Gd; cbn [andb].
    - destruct (Nat.eqb_spec (fslot c n) (fslot c j)) as [E2|E2]; [reflexivity|]. apply (iv_on _ _ _ _ _ _ _ _ _ I).
      destruct (Nat.eq_dec j n) as [->|]; [congruence|]. destruct (v_fin c s); lia.
    - apply (iv_on _ _ _ _ _ _ _ _ _ I). destruct (v_fin c s); lia.
  Qed.
  Lemma off_next j : (n' <= j < F' + N)%nat -> n_act (x_tab s' (fslot c j)) = false.
  Proof.
    intros J. rewrite act_next. rewrite n_next in J. pose proof (iv_cnt _ _ _ _ _ _ _ _ _ I) as Cn. unfold F' in J.
    destruct (v_fin c s && (fslot c F =? fslot c j)%nat) eqn:X; [reflexivity|].
    assert (Y : (j < F + N)%nat).
    { destruct (v_fin c s) eqn:V; [|lia]. cbn [andb] in X. apply Nat.eqb_neq in X. destruct (Nat.eq_dec j (F + N)) as [->|]; [|lia]. exfalso. apply X.
      unfold fslot. rewrite <- (Nat.mul_1_l N) at 2. rewrite Nat.mod_add by (pose proof (N_pos c); lia). reflexivity. }
    destruct good eqn:Gd; cbn [andb].
    - pose proof (good_room Gd). destruct (Nat.eqb_spec (fslot c n) (fslot c j)) as [E2|E2]; [apply slot_inj in E2; lia|]. apply (iv_off _ _ _ _ _ _ _ _ _ I). lia.
    - apply (iv_off _ _ _ _ _ _ _ _ _ I). lia.
  Qed.
  Lemma not_yet : l_fet L n = false /\ l_done L n = false.
  Proof.
    pose proof (iv_dma _ _ _ _ _ _ _ _ _ I). pose proof (iv_cmd _ _ _ _ _ _ _ _ _ I). pose proof (iv_cnt _ _ _ _ _ _ _ _ _ I). split.
    - destruct (l_fet L n) eqn:E; [|reflexivity]. apply (iv_fd _ _ _ _ _ _ _ _ _ I) in E. lia.
    - destruct (l_done L n) eqn:E; [|reflexivity]. apply (iv_dd _ _ _ _ _ _ _ _ _ I) in E. lia.
  Qed.
  Lemma live_next j x : (F' <= j)%nat -> nth_error G' j = Some x -> holds L' j x (x_tab s' (fslot c j)).
  Proof.
    intros J H. pose proof F_le as FL. pose proof (iv_cnt _ _ _ _ _ _ _ _ _ I) as Cn.
    assert (K : (j < n')%nat) by (apply nth_error_Some; congruence). rewrite n_next in K.
    assert (KN : (F <= j < F + N)%nat). { destruct good eqn:Gd; [pose proof (good_room Gd)|]; lia. }
    rewrite tab_next. unfold fentry_upd. rewrite new_is. rewrite G_next in H.
    assert (C : (j < n)%nat \/ good = true /\ j = n) by (destruct good; lia). destruct C as [C|[Gd ->]].
    - assert (X : (good && (fslot c n =? fslot c j)%nat) = false).
      { destruct good eqn:Gd; [|reflexivity]. cbn [andb]. apply Nat.eqb_neq. apply new_slot; [exact Gd|lia]. }
      rewrite X. cbn [isnone]. rewrite nth_error_app1 in H by exact C. destruct (iv_tab _ _ _ _ _ _ _ _ _ I j x ltac:(lia) H) as (T1 & T2 & T3 & T4 & T5 & T6).
      unfold holds. cbn [n_sel n_bs n_tag n_op n_fet n_done]. unfold L', keep. cbn [l_fet l_done]. rewrite T5, T6, <- (fet_hit j KN), <- (done_hit j KN). splits; auto.
      + destruct (l_fet L j), (hit _ _ _ _); reflexivity.
      + destruct (l_done L j), (hit _ _ _ _); reflexivity.
    - rewrite Gd in H |- *. destruct (good_room Gd) as (_ & _ & p & r & V & B). rewrite V in H |- *. rewrite nth_error_app2, Nat.sub_diag in H by lia. cbn in H. injection H as <-.
      rewrite Nat.eqb_refl. cbn [andb isnone]. unfold holds. cbn [n_sel n_bs n_tag n_op n_fet n_done fst snd]. unfold L', keep. cbn [l_fet l_done].
      destruct not_yet as (Y1 & Y2). rewrite Y1, Y2, (fet_hit _ KN), (done_hit _ KN). cbn [orb]. splits; auto; destruct (at_slot _ _ _); reflexivity.
  Qed.

  Lemma dma_next : x_dma s' = match v_resp c s i with
     | Some (_, r) => if bad r then None else Some (mkRd (r_addr r) (row c (fslot c n)) (len_of c (f_lw c) (r_bs r)) (fslot c n))
     | None => if i_drdy i then None else x_dma s end.
  Proof. unfold s', f_step. rewrite w_rst. cbn [fst x_dma]. rewrite sp_slot. reflexivity. Qed.
  Lemma cmd_next : x_cmd s' = if v_read c s then Some (mkRc (row c (fslot c R)) (len_of c 8 (n_bs (x_tab s (fslot c R)))) (fslot c R) (n_tag (x_tab s (fslot c R))))
     else if i_rrdy i then None else x_cmd s.
  Proof. unfold s', f_step. rewrite w_rst. cbn [fst x_cmd]. rewrite rp_slot. reflexivity. Qed.
  Lemma ask_next : x_ask s' = match v_req s i with
     | Some r => Some (asks r)
     | None => if match x_ask s with Some (p, _, _) => i_qrdy i p | None => true end then None else x_ask s end.
  Proof.
    unfold s', f_step. rewrite w_rst. cbn [fst x_ask]. destruct (v_req s i) as [r|] eqn:V; [|reflexivity].
    unfold onehot. destruct W as (_ & W2 & _). specialize (W2 r V). apply Nat.ltb_lt in W2. rewrite W2. reflexivity.
  Qed.
  Lemma req_room r : v_req s i = Some r -> x_cnt s < Z.of_nat N /\ x_ask s = None.
  Proof. unfold v_req. destruct (x_ready s) eqn:X; [|discriminate]. intros _. apply (iv_ready _ _ _ _ _ _ _ _ _ I X). Qed.
  Lemma times_next p : (times p (map fst A') <= times p (l_ask L'))%nat.
  Proof.
    unfold A'. rewrite map_app, times_app. unfold L', keep. cbn [l_ask]. rewrite times_app.
    pose proof (iv_times _ _ _ _ _ _ _ _ _ I p) as T. destruct (v_resp c s i) as [[q r]|] eqn:V; [|cbn; lia].
    replace (times p (map fst (olist (Some (q, r))))) with (if Nat.eq_dec q p then 1 else 0)%nat by reflexivity.
    destruct (Nat.eq_dec q p) as [->|E]; [|lia].
    destruct (resp_some _ _ V) as (_ & _ & Hp & IR & NR). destruct W as (_ & _ & _ & W4 & _). destruct (W4 p r Hp IR) as (W5 & _).
    assert (Q : times p (map fst A) = times p (l_ans L)).
    { rewrite (iv_A _ _ _ _ _ _ _ _ _ I). unfold ans. rewrite map_app, times_app, (iv_lans _ _ _ _ _ _ _ _ _ I). unfold pend.
      destruct (x_ack s) as [q|]; [|apply Nat.add_0_r]. destruct (hold q) as [d|]; [|apply Nat.add_0_r].
      replace (times p (map fst (olist (Some (q, d))))) with (if Nat.eq_dec q p then 1 else 0)%nat by reflexivity. destruct (Nat.eq_dec q p); [congruence|apply Nat.add_0_r]. }
    rewrite Q. lia.
  Qed.
  Lemma len_next : (length (l_ask L') + wt (x_ask s'))%nat = length (h_req h').
  Proof.
    rewrite ask_next. cbn [h_req h']. unfold L', keep. cbn [l_ask]. rewrite !app_length, !wt_olist.
    pose proof (iv_len _ _ _ _ _ _ _ _ _ I) as E. change (req_in i o) with (v_req s i). unfold ask_out. change (o_ask o) with (x_ask s).
    destruct (v_req s i) as [r|] eqn:V.
    - destruct (req_room _ V) as (_ & X). rewrite X in *. cbn in *. lia.
    - destruct (x_ask s) as [[[p q] t]|]; [|cbn in *; lia]. destruct (i_qrdy i p); cbn in *; lia.
  Qed.
  Lemma A_le : (length A' <= length (h_req h'))%nat.
  Proof. pose proof (times_le _ _ times_next) as T. rewrite map_length in T. pose proof len_next. lia. Qed.

  Hypothesis Pm : b = true -> f_ports c = 1%nat \/ forall p t, x_commit s = Some (p, t) -> i_crdy i p = true.
  Lemma step_inv : inv b c s' L' hold' A' R' F' h'.
  Proof.
    pose proof (iv_cnt _ _ _ _ _ _ _ _ _ I) as Cn. pose proof F_le as FL. pose proof R_le as RL. pose proof n_next as NN.
    assert (NN' : (n <= n')%nat) by (rewrite NN; destruct good; lia).
    constructor.
    - apply A_next.
    - splits; [lia|lia|]. rewrite NN. destruct good eqn:Gd; [pose proof (good_room Gd)|]; lia.
    - destruct (iv_ptr _ _ _ _ _ _ _ _ _ I) as (P1 & P2 & P3). unfold s', f_step. rewrite w_rst. cbn [fst x_sp x_rp x_fp]. fold good. splits.
      + rewrite NN. destruct good; rewrite P1; [apply next_ok|reflexivity].
      + unfold R'. destruct (v_read c s); rewrite P2; [apply next_ok|reflexivity].
      + unfold F'. destruct (v_fin c s); rewrite P3; [apply next_ok|reflexivity].
    - apply on_next.
    - apply off_next.
    - apply live_next.
    - unfold A'. apply Forall_app. split; [apply (iv_port _ _ _ _ _ _ _ _ _ I)|]. destruct (v_resp c s i) as [[p r]|] eqn:V; [|constructor]. constructor; [|constructor].
      destruct (resp_some _ _ V) as (_ & _ & Hp & IR & _). destruct W as (_ & _ & _ & W4 & _). destruct (W4 p r Hp IR) as (_ & W5). auto.
    - intros j J. unfold L', keep. cbn [l_done]. apply orb_true_iff. left. unfold F' in J. destruct (v_fin c s) eqn:V; [|apply (iv_old _ _ _ _ _ _ _ _ _ I); exact J].
      destruct (Nat.eq_dec j F) as [->|]; [apply (fin_some V)|apply (iv_old _ _ _ _ _ _ _ _ _ I); lia].
    - intros j J. unfold L', keep. cbn [l_fet]. apply orb_true_iff. left. unfold R' in J. destruct (v_read c s) eqn:V; [|apply (iv_rd _ _ _ _ _ _ _ _ _ I); exact J].
      destruct (Nat.eq_dec j R) as [->|]; [|apply (iv_rd _ _ _ _ _ _ _ _ _ I); lia]. destruct (read_some V) as (_ & x & _ & _ & X & _). exact X.
    - unfold L', keep. cbn [l_dma]. rewrite plus1_wt, dma_next, NN. pose proof (iv_dma _ _ _ _ _ _ _ _ _ I) as D. unfold dma_out. change (o_dma o) with (x_dma s).
      unfold good. destruct (v_resp c s i) as [[p r]|] eqn:V.
      + destruct (resp_some _ _ V) as (X & _). rewrite X in *. destruct (i_drdy i), (bad r); cbn in *; lia.
      + destruct (i_drdy i), (x_dma s); cbn in *; lia.
    - unfold L', keep. cbn [l_cmd]. rewrite plus1_wt, cmd_next. pose proof (iv_cmd _ _ _ _ _ _ _ _ _ I) as D. unfold cmd_out. change (o_cmd o) with (x_cmd s).
      unfold R'. destruct (v_read c s) eqn:V.
      + destruct (read_some V) as (_ & x & _ & _ & _ & X & _). rewrite X in *. destruct (i_rrdy i); cbn in *; lia.
      + destruct (i_rrdy i), (x_cmd s); cbn in *; lia.
    - intros j. unfold L', keep. cbn [l_fet l_dma]. rewrite plus1_wt, orb_true_iff. intros [X|X].
      + apply (iv_fd _ _ _ _ _ _ _ _ _ I) in X. lia.
      + unfold hit in X. destruct (option_map _ _); [|discriminate]. apply means_iff in X. lia.
    - intros j. unfold L', keep. cbn [l_done l_cmd]. rewrite plus1_wt, orb_true_iff. intros [X|X].
      + apply (iv_dd _ _ _ _ _ _ _ _ _ I) in X. lia.
      + unfold hit in X. destruct (i_done i); [|discriminate]. apply means_iff in X. lia.
    - assert (XA : x_ack s' = option_map fst (v_resp c s i)) by (unfold s', f_step; rewrite w_rst; reflexivity).
      assert (XS : x_stat s' = option_map stat_of (v_resp c s i)).
      { unfold s', f_step. rewrite w_rst. cbn [fst x_stat]. destruct (v_resp c s i) as [[p r]|]; reflexivity. }
      pose proof pend_next as PN. unfold pend in PN. rewrite XA in PN |- *. rewrite XS, dma_next. destruct (v_resp c s i) as [[p r]|] eqn:V; [|reflexivity]. cbn [option_map fst] in *.
      destruct (hold' p) as [r'|]; [|discriminate]. injection PN as ->. exists r. destruct (resp_some _ _ V) as (_ & _ & Hp & _). splits; auto.
      rewrite full_bad. cbn [snd]. destruct (bad r); [discriminate|intros _; discriminate].
    - unfold L', keep. cbn [l_ans h_ans h']. rewrite (iv_lans _ _ _ _ _ _ _ _ _ I), map_app. f_equal. destruct (resp_in i o); reflexivity.
    - apply times_next.
    - apply len_next.
    - pose proof A_le as AL. destruct (iv_n _ _ _ _ _ _ _ _ _ I) as (E1 & E2).
      assert (V : x_cnt s + one (negb (isnone (v_req s i))) - one (match v_resp c s i with Some (_, r) => bad r | None => false end) - one (v_fin c s) =
        Z.of_nat (length (h_req h')) - Z.of_nat (length A') + Z.of_nat n' - Z.of_nat F').
      { rewrite E1, NN. unfold A', F', good. cbn [h_req h']. change (req_in i o) with (v_req s i). rewrite !app_length, !wt_olist, !Nat2Z.inj_add.
        destruct (v_req s i), (v_resp c s i) as [[p r]|], (v_fin c s); try destruct (bad r); cbn [one wt isnone negb]; lia. }
      assert (B : 0 <= Z.of_nat (length (h_req h')) - Z.of_nat (length A') + Z.of_nat n' - Z.of_nat F' <= Z.of_nat N).
      { split; [lia|]. rewrite <- V. destruct (v_req s i) as [r|] eqn:Q; cbn [isnone negb one].
        - pose proof (req_room _ Q). destruct (match v_resp c s i with Some (_, r0) => bad r0 | None => false end), (v_fin c s); cbn [one]; lia.
        - destruct (match v_resp c s i with Some (_, r0) => bad r0 | None => false end), (v_fin c s); cbn [one]; lia. }
      assert (X : x_cnt s' = Z.of_nat (length (h_req h')) - Z.of_nat (length A') + Z.of_nat n' - Z.of_nat F').
      { unfold s', f_step. rewrite w_rst. cbn [fst x_cnt]. rewrite V. apply Z.mod_small. rewrite Z.pow_add_r by lia. rewrite <- N_Z. pose proof (N_pos c). lia. }
      rewrite X. split; [reflexivity|lia].
    - destruct (iv_n _ _ _ _ _ _ _ _ _ I) as (E1 & E2). cbn [h_req h_ans h']. rewrite resp_is. fold (ans s hold h). rewrite <- (iv_A _ _ _ _ _ _ _ _ _ I).
      change (req_in i o) with (v_req s i). rewrite app_length, wt_olist. destruct (v_req s i) as [r|] eqn:V; [pose proof (req_room _ V)|]; cbn [wt]; lia.
    - intros RD. assert (VN : v_req s i = None).
      { unfold s', f_step in RD. rewrite w_rst in RD. cbn [fst x_ready] in RD. destruct (v_req s i); [discriminate|reflexivity]. }
      assert (XC : x_cnt s' <= x_cnt s).
      { unfold s', f_step. rewrite w_rst. cbn [fst x_cnt]. rewrite VN. cbn [isnone negb one].
        destruct (iv_n _ _ _ _ _ _ _ _ _ I) as (E1 & E2). pose proof A_le as AL.
        assert (B : 0 <= x_cnt s + 0 - one (match v_resp c s i with Some (_, r) => bad r | None => false end) - one (v_fin c s)).
        { cbn [h_req h'] in AL. unfold A' in AL. change (req_in i o) with (v_req s i) in AL. rewrite VN in AL. rewrite !app_length, !wt_olist in AL. cbn [wt] in AL.
          clear - AL E1 FL Cn. unfold F' in FL. destruct (v_resp c s i) as [[p r]|], (v_fin c s); cbn [wt] in AL; try destruct (bad r); cbn [one]; lia. }
        transitivity (x_cnt s + 0 - one (match v_resp c s i with Some (_, r) => bad r | None => false end) - one (v_fin c s)).
        - apply Z.mod_le; [exact B|apply Z.pow_pos_nonneg; lia].
        - destruct (match v_resp c s i with Some (_, r) => bad r | None => false end), (v_fin c s); cbn [one]; lia. }
      unfold s', f_step in RD. rewrite w_rst in RD. cbn [fst x_ready] in RD. rewrite ask_next.
      destruct (v_req s i) as [r|]; [discriminate|]. rewrite !andb_true_iff in RD. destruct RD as (((_ & RD) & _) & RQ). rewrite RQ.
      split; [|reflexivity]. apply Z.ltb_lt in RD. lia.
    - rewrite ask_next. cbn [h_ask h_req h']. rewrite <- app_assoc, map_app, <- (iv_asks _ _ _ _ _ _ _ _ _ I), <- app_assoc. f_equal.
      change (req_in i o) with (v_req s i). unfold ask_out. change (o_ask o) with (x_ask s). destruct (v_req s i) as [r|] eqn:V.
      + destruct (req_room _ V) as (_ & X). rewrite X. reflexivity.
      + destruct (x_ask s) as [[[p q] t]|]; [|reflexivity]. destruct (i_qrdy i p); reflexivity.
    - cbn [h_st h_ans h']. change (o_stat o) with (x_stat s). rewrite resp_is, (iv_st _ _ _ _ _ _ _ _ _ I), map_app. f_equal.
      unfold pend. pose proof (iv_pend _ _ _ _ _ _ _ _ _ I) as P. destruct (x_ack s) as [p|]; [|rewrite P; reflexivity].
      destruct P as (r & H & _ & X & _). rewrite H, X. reflexivity.
    - cbn [h_dma h']. rewrite dma_next, G_next. pose proof (iv_dmas _ _ _ _ _ _ _ _ _ I) as E. unfold dma_out. change (o_dma o) with (x_dma s). unfold good.
      destruct (v_resp c s i) as [[p r]|] eqn:V.
      + destruct (resp_some _ _ V) as (X & _ & Hp & IR & _). rewrite X in *. cbn [olist] in E. rewrite app_nil_r in E.
        replace (olist (if i_drdy i then None else None)) with (@nil rd) by (destruct (i_drdy i); reflexivity). rewrite app_nil_r.
        destruct (bad r) eqn:B; cbn [negb olist].
        * rewrite !app_nil_r. exact E.
        * rewrite number_snoc, map_app, <- E. cbn [map dma_of]. f_equal. f_equal. destruct W as (_ & _ & _ & W4 & _). destruct (W4 p r Hp IR) as (_ & W5).
          destruct Sane as (S1 & S2 & S3 & S4 & S5). rewrite (row_place c n Sane), (len_size c _ r Sane S4 W5). reflexivity.
      + rewrite app_nil_r, <- E, <- app_assoc. f_equal. destruct (i_drdy i); [apply app_nil_r|reflexivity].
    - cbn [h_cmd h']. rewrite cmd_next. pose proof (iv_cmds _ _ _ _ _ _ _ _ _ I) as E. unfold cmd_out. change (o_cmd o) with (x_cmd s).
      assert (Q : forall k, (k <= n)%nat -> firstn k (map (cmd_of c) (number G')) = firstn k (map (cmd_of c) (number G))).
      { intros k K. rewrite G_next. unfold good. destruct (v_resp c s i) as [[p r]|]; [|rewrite app_nil_r; reflexivity]. destruct (bad r); cbn [negb olist]; [rewrite app_nil_r; reflexivity|].
        rewrite number_snoc, map_app. apply firstn_app_le. rewrite map_length, number_len. exact K. }
      unfold R' in *. destruct (v_read c s) eqn:V.
      + destruct (read_some V) as (Rn & x & Hx & T & _ & X & _). rewrite Q by lia. rewrite X in *. cbn [olist] in E. rewrite app_nil_r in E.
        replace (olist (if i_rrdy i then None else None)) with (@nil rc) by (destruct (i_rrdy i); reflexivity). rewrite app_nil_r.
        erewrite firstn_snoc by (apply map_nth_error, number_nth; exact Hx). rewrite <- E. cbn [olist]. f_equal. f_equal. destruct x as [p r]. cbn [cmd_of].
        destruct T as (_ & T2 & T3 & _). cbn [snd] in *. destruct (nth_in _ _ Hx) as (_ & _ & Bs). destruct Sane as (S1 & S2 & S3 & S4 & S5).
        rewrite T2, T3, (row_place c R Sane), (len_size c 8 r Sane S5 Bs). reflexivity.
      + rewrite Q by lia. rewrite <- E, <- app_assoc. f_equal. destruct (i_rrdy i); [apply app_nil_r|reflexivity].
    - intros p q t. unfold s', f_step. rewrite w_rst. cbn [fst x_ask]. pose proof (iv_ap _ _ _ _ _ _ _ _ _ I) as Q. destruct (v_req s i) as [r|].
      + unfold onehot. destruct (Nat.ltb_spec (q_sel r) (f_ports c)); [|discriminate]. intros [= <- _ _]. assumption.
      + destruct (match x_ask s with Some (p0, _, _) => i_qrdy i p0 | None => true end); [discriminate|]. apply Q.
    - intros p t. unfold s', f_step. rewrite w_rst. cbn [fst x_commit]. pose proof (iv_cp _ _ _ _ _ _ _ _ _ I) as Q. destruct (v_read c s).
      + unfold onehot. destruct (Nat.ltb_spec (n_sel (x_tab s (fslot c (x_rp s)))) (f_ports c)); [|discriminate]. intros [= <- _]. assumption.
      + destruct (x_commit s) as [[p' t']|]; [|discriminate]. destruct (i_crdy i p'); [discriminate|]. apply Q.
    - intros B. pose proof (iv_cm _ _ _ _ _ _ _ _ _ I B) as E. cbn [h_cm h'].
      assert (XC : x_commit s' = if v_read c s then onehot c (n_sel (x_tab s (fslot c R))) (n_sel (x_tab s (fslot c R)), n_op (x_tab s (fslot c R)))
        else match x_commit s with Some (p, t) => if i_crdy i p then None else x_commit s | None => None end).
      { unfold s', f_step. rewrite w_rst. cbn [fst x_commit]. rewrite rp_slot. reflexivity. }
      rewrite XC. unfold commit_out. change (o_commit o) with (x_commit s).
      assert (Q : forall k, (k <= n)%nat -> firstn k (map commit_of G') = firstn k (map commit_of G)).
      { intros k K. rewrite G_next, map_app. apply firstn_app_le. rewrite map_length. exact K. }
      unfold R' in *. destruct (v_read c s) eqn:V.
      + destruct (read_some V) as (Rn & x & Hx & T & _ & X & NC). destruct (nth_in _ _ Hx) as (_ & Hp & _). rewrite Q by lia.
        destruct T as (T1 & _ & _ & T4 & _). rewrite T1, T4. unfold onehot. apply Nat.ltb_lt in Hp as Hp'. rewrite Hp'. cbn [olist].
        rewrite (firstn_snoc _ _ (commit_of x)) by (apply map_nth_error; exact Hx). rewrite <- E. f_equal. f_equal.
        * destruct (x_commit s) as [[p t]|] eqn:C; [|reflexivity]. destruct (Pm B) as [P1|P1].
          -- exfalso. pose proof (iv_cp _ _ _ _ _ _ _ _ _ I p t C). assert (p = fst x) as -> by lia. exact (NC t eq_refl).
          -- rewrite (P1 p t eq_refl). reflexivity.
      + rewrite Q by lia. rewrite <- E, <- app_assoc. f_equal. destruct (x_commit s) as [[p t]|]; [|reflexivity]. destruct (i_crdy i p); reflexivity.
  Qed.
End Step.

(* ----- runs ----- *)
Fixpoint hold_end (hold : nat -> option dresp) (is : list fin) (os : list fout) : nat -> option dresp :=
  match is, os with
  | i :: is, o :: os => hold_end (still i o) is os
  | _, _ => hold
  end.
Definition ledger_from (c : fcfg) (L : ledger) (is : list fin) (os : list fout) : ledger := fold_left (keep c) (combine is os) L.
Definition hplus (h : logs) (is : list fin) (os : list fout) : logs :=
  mkH (h_req h ++ over req_in is os) (h_ask h ++ over ask_out is os) (h_ans h ++ over resp_in is os) (h_st h ++ somes (map o_stat os))
    (h_dma h ++ over dma_out is os) (h_cmd h ++ over cmd_out is os) (h_cm h ++ over commit_out is os).
Definition h0 : logs := mkH [] [] [] [] [] [] [].

Lemma over_cons {X} (f : fin -> fout -> option X) i is o os : over f (i :: is) (o :: os) = olist (f i o) ++ over f is os.
Proof. unfold over. cbn [combine map fst snd]. apply somes_cons. Qed.
Lemma trace_cons' {S I O} (f : S -> I -> S * O) s i is : trace f s (i :: is) = (fst (trace f (fst (f s i)) is), snd (f s i) :: snd (trace f (fst (f s i)) is)).
Proof. cbn [trace]. destruct (f s i) as [s1 o]. cbn [fst snd]. destruct (trace f s1 is). reflexivity. Qed.

Lemma run_inv b c : sane c -> forall is s L hold A R F h, inv b c s L hold A R F h -> lawful_from c L hold is (snd (trace (f_step c) s is)) ->
  (b = true -> prompt c is (snd (trace (f_step c) s is))) ->
  exists A' R' F', inv b c (fst (trace (f_step c) s is)) (ledger_from c L is (snd (trace (f_step c) s is)))
    (hold_end hold is (snd (trace (f_step c) s is))) A' R' F' (hplus h is (snd (trace (f_step c) s is))).
Proof.
  intros Sane. induction is as [|i is IH]; intros s L hold A R F h I W P.
  - exists A, R, F. cbn. unfold hplus, over. cbn. rewrite !app_nil_r. destruct h; exact I.
  - rewrite trace_cons' in *. cbn [snd fst lawful_from] in *. destruct W as (W1 & W2).
    assert (P1 : b = true -> f_ports c = 1%nat \/ forall p t, x_commit s = Some (p, t) -> i_crdy i p = true).
    { intros B. destruct (P B) as [Q|Q]; [left; exact Q|right]. intros p t E. apply (Q i (snd (f_step c s i)) (or_introl eq_refl) p t). exact E. }
    pose proof (step_inv b c s L hold A R F h i Sane I W1 P1) as I1.
    assert (P2 : b = true -> prompt c is (snd (trace (f_step c) (fst (f_step c s i)) is))).
    { intros B. destruct (P B) as [Q|Q]; [left; exact Q|right]. intros j o Hin. apply Q. right. exact Hin. }
    specialize (IH _ _ _ _ _ _ _ I1 W2 P2).
    destruct IH as (A2 & R2 & F2 & I2). exists A2, R2, F2. cbn [hold_end]. unfold ledger_from in *. cbn [combine fold_left].
    replace (hplus h (i :: is) _) with (hplus (h' c s h i) is (snd (trace (f_step c) (fst (f_step c s i)) is))); [exact I2|].
    unfold hplus. rewrite !over_cons. cbn [map]. rewrite somes_cons. unfold h'. cbn [h_req h_ask h_ans h_st h_dma h_cmd h_cm]. rewrite !app_assoc. reflexivity.
Qed.
Lemma lawful_app c : forall is1 is2 s L hold, lawful_from c L hold (is1 ++ is2) (snd (trace (f_step c) s (is1 ++ is2))) ->
  lawful_from c L hold is1 (snd (trace (f_step c) s is1)) /\
  lawful_from c (ledger_from c L is1 (snd (trace (f_step c) s is1))) (hold_end hold is1 (snd (trace (f_step c) s is1))) is2
    (snd (trace (f_step c) (fst (trace (f_step c) s is1)) is2)).
Proof.
  induction is1 as [|i is1 IH]; intros is2 s L hold; [cbn; auto|]. cbn [app]. rewrite !trace_cons'. cbn [fst snd lawful_from hold_end].
  intros (W1 & W2). apply IH in W2. destruct W2 as (W2 & W3). auto.
Qed.

Lemma fresh_inv b c s : started c s -> inv b c s l0 (fun _ => None) [] 0 0 h0.
Proof.
  intros St.
  assert (E : (x_ready s, x_stat s, x_ask s, x_ack s, x_commit s, x_dma s, x_cmd s, x_cnt s, (x_sp s, x_rp s, x_fp s)) =
              (false, None, None, None, None, None, None, 0, (0%nat, 0%nat, 0%nat)) /\ forall k, n_act (x_tab s k) = false).
  { destruct St as [(mem & ->)|(mem & js & j & R & ->)]; [split; reflexivity|]. rewrite trace_app. destruct (trace (f_step c) (f_init mem) js) as [s1 os1].
    cbn [trace]. unfold f_step. rewrite R. split; reflexivity. }
  destruct E as (E & Act). injection E as E1 E2 E3 E4 E5 E6 E7 E8 E9 E10 E11. pose proof (N_pos c).
  constructor; cbn [l0 l_ask l_ans l_dma l_fet l_cmd l_done h0 h_req h_ask h_ans h_st h_dma h_cmd h_cm fetches filter length];
    rewrite ?E1, ?E2, ?E3, ?E4, ?E5, ?E6, ?E7, ?E8, ?E9, ?E10, ?E11; try (intros; lia); try (intros; discriminate); auto.
  - unfold ans, pend. rewrite E4. reflexivity.
  - rewrite Nat.mod_0_l; [auto|]. lia.
  - intros j x _ X. destruct j; discriminate.
Qed.

Lemma firstn_prefix {X} (l : list X) k a b : a ++ b = firstn k l -> l = a ++ (b ++ skipn k l).
Proof. intros E. rewrite app_assoc, E, firstn_skipn. reflexivity. Qed.
Lemma filter_len {X} (f : X -> bool) l : (length (filter f l) + length (filter (fun x => negb (f x)) l))%nat = length l.
Proof. induction l as [|x l IH]; [reflexivity|]. cbn. destruct (f x); cbn; lia. Qed.

Section Results.
  Variables (c : fcfg) (s : fst_) (is : list fin).
  Hypothesis Sane : sane c.
  Hypothesis St : started c s.
  Notation os := (snd (trace (f_step c) s is)).
  Notation L := (ledger_of c is os).
  Hypothesis W : lawful c is os.
  Notation Sf := (fst (trace (f_step c) s is)).

  Lemma run b : (b = true -> prompt c is os) -> exists A R F, inv b c Sf L (hold_end (fun _ => None) is os) A R F (hplus h0 is os).
  Proof. intros P. apply (run_inv b c Sane is s l0 (fun _ => None) [] 0%nat 0%nat h0); [apply fresh_inv; exact St|exact W|exact P]. Qed.
  Lemma run' : exists A R F, inv false c Sf L (hold_end (fun _ => None) is os) A R F (hplus h0 is os).
  Proof. apply run. discriminate. Qed.

  Lemma ask_result : exists w, (length w <= 1)%nat /\ over ask_out is os ++ w = map (fun r => (q_sel r, q_queue r, q_tag r)) (over req_in is os).
  Proof. destruct run' as (A & R & F & I). exists (olist (x_ask Sf)). split; [destruct (x_ask Sf); cbn; lia|]. apply (iv_asks _ _ _ _ _ _ _ _ _ I). Qed.
  Lemma status_result : somes (map o_stat os) = map stat_of (over resp_in is os).
  Proof. destruct run' as (A & R & F & I). apply (iv_st _ _ _ _ _ _ _ _ _ I). Qed.

  Section Inv.
    Variables (b : bool) (A : list (nat * dresp)) (R F : nat).
    Hypothesis I : inv b c Sf L (hold_end (fun _ => None) is os) A R F (hplus h0 is os).
    Notation T := (over resp_in is os).
    Lemma A_cases : fetches A = fetches T \/ exists x, fetches A = fetches T ++ [x] /\ x_dma Sf <> None.
    Proof.
      pose proof (iv_A _ _ _ _ _ _ _ _ _ I) as E. unfold ans in E. cbn [h_ans hplus h0 app] in E. pose proof (iv_pend _ _ _ _ _ _ _ _ _ I) as P. unfold pend in E.
      destruct (x_ack Sf) as [p|]; [|left; rewrite E; cbn [olist]; rewrite app_nil_r; reflexivity]. destruct P as (r & H & _ & _ & X). rewrite H in E. rewrite E. cbn [olist].
      rewrite fetches_snoc. cbn [snd]. rewrite full_bad in X. cbn [snd] in X. destruct (bad r); [left; reflexivity|]. right. exists (p, r). split; [reflexivity|]. apply X. reflexivity.
    Qed.
    Lemma R_dma : (R <= l_dma L)%nat.
    Proof. destruct R as [|R0] eqn:E; [lia|]. apply (iv_fd _ _ _ _ _ _ _ _ _ I R0). apply (iv_rd _ _ _ _ _ _ _ _ _ I). lia. Qed.
    Lemma R_T : (R <= length (fetches T))%nat.
    Proof.
      pose proof (iv_dma _ _ _ _ _ _ _ _ _ I) as D. pose proof R_dma. destruct A_cases as [E|(x & E & X)]; rewrite E in D; [lia|].
      destruct (x_dma Sf); [|congruence]. rewrite app_length in D. cbn in D. lia.
    Qed.
    Lemma number_T : exists y, number (fetches A) = number (fetches T) ++ y /\ (length y <= 1)%nat.
    Proof.
      destruct A_cases as [E|(x & E & X)]; rewrite E; [exists []; rewrite app_nil_r; cbn; auto|]. rewrite number_snoc. eexists. split; [reflexivity|cbn; lia].
    Qed.
    Lemma cmds_T : over cmd_out is os ++ olist (x_cmd Sf) = firstn R (map (cmd_of c) (number (fetches T))).
    Proof.
      pose proof (iv_cmds _ _ _ _ _ _ _ _ _ I) as E. cbn [h_cmd hplus h0 app] in E. rewrite E. destruct number_T as (y & -> & _). rewrite map_app. apply firstn_app_le.
      rewrite map_length, number_len. apply R_T.
    Qed.
    Lemma cms_T : b = true -> over commit_out is os ++ olist (x_commit Sf) = firstn R (map commit_of (fetches T)).
    Proof.
      intros B. pose proof (iv_cm _ _ _ _ _ _ _ _ _ I B) as E. cbn [h_cm hplus h0 app] in E. rewrite E. pose proof R_T. destruct A_cases as [->|(x & -> & _)]; [reflexivity|].
      rewrite map_app. apply firstn_app_le. rewrite map_length. assumption.
    Qed.
    Lemma F_finished : (F <= finished L)%nat.
    Proof.
      unfold finished. assert (K : (F <= l_cmd L)%nat).
      { destruct F as [|F0] eqn:E; [lia|]. apply (iv_dd _ _ _ _ _ _ _ _ _ I F0). apply (iv_old _ _ _ _ _ _ _ _ _ I). lia. }
      replace (l_cmd L) with (F + (l_cmd L - F))%nat by lia. rewrite seq_app, filter_app, app_length.
      assert (Q : filter (l_done L) (seq 0 F) = seq 0 F).
      { pose proof (iv_old _ _ _ _ _ _ _ _ _ I) as O. clear - O. assert (G : forall l, (forall x, In x l -> l_done L x = true) -> filter (l_done L) l = l).
        { induction l as [|x l IH]; intros H; cbn; [reflexivity|]. rewrite H by (left; reflexivity). f_equal. apply IH. intros; apply H; right; assumption. }
        apply G. intros x Hx. apply O. apply in_seq in Hx. lia. }
      rewrite Q, seq_length. lia.
    Qed.
  End Inv.

  Lemma dma_result : exists w, (length w <= 1)%nat /\ over dma_out is os ++ w = map (dma_of c) (number (fetches (over resp_in is os))).
  Proof.
    destruct run' as (A & R & F & I). pose proof (iv_dmas _ _ _ _ _ _ _ _ _ I) as E. cbn [h_dma hplus h0 app] in E.
    destruct (A_cases _ _ _ _ I) as [Q|(x & Q & X)]; rewrite Q in E.
    - exists (olist (x_dma Sf)). split; [destruct (x_dma Sf); cbn; lia|exact E].
    - destruct (x_dma Sf) as [d|]; [|congruence]. rewrite number_snoc, map_app in E. cbn [olist map] in E. apply app_inj_tail in E. exists []. rewrite app_nil_r.
      split; [cbn; lia|apply E].
  Qed.
  Lemma cmd_result : exists rest, map (cmd_of c) (number (fetches (over resp_in is os))) = over cmd_out is os ++ rest /\
    forall k, (k < length (over cmd_out is os))%nat -> l_fet L k = true.
  Proof.
    destruct run' as (A & R & F & I). pose proof (cmds_T _ _ _ _ I) as E. eexists. split; [apply firstn_prefix; exact E|]. intros k K. apply (iv_rd _ _ _ _ _ _ _ _ _ I).
    apply (f_equal (@length _)) in E. rewrite app_length, firstn_length in E. lia.
  Qed.
  Lemma commit_result : prompt c is os -> exists rest, map commit_of (fetches (over resp_in is os)) = over commit_out is os ++ rest /\
    forall k, (k < length (over commit_out is os))%nat -> l_fet L k = true.
  Proof.
    intros P. destruct (run true (fun _ => P)) as (A & R & F & I). pose proof (cms_T _ _ _ _ I eq_refl) as E. eexists. split; [apply firstn_prefix; exact E|].
    intros k K. apply (iv_rd _ _ _ _ _ _ _ _ _ I). apply (f_equal (@length _)) in E. rewrite app_length, firstn_length in E. lia.
  Qed.
  Lemma row_result i d : o_dma (snd (f_step c Sf i)) = Some d -> d_tag d = (l_dma L mod f_n c)%nat /\ forall k, (k + f_n c <= l_dma L)%nat -> l_done L k = true.
  Proof.
    destruct run' as (A & R & F & I). change (o_dma (snd (f_step c Sf i))) with (x_dma Sf). intros X. pose proof (iv_dma _ _ _ _ _ _ _ _ _ I) as D.
    pose proof (iv_dmas _ _ _ _ _ _ _ _ _ I) as E. pose proof (iv_cnt _ _ _ _ _ _ _ _ _ I) as Cn. rewrite X in D, E. cbn [wt olist] in D, E. split.
    - destruct (exists_last (l := fetches A)) as (G0 & x0 & Q); [intros Q; rewrite Q in D; cbn in D; lia|]. rewrite Q in D, E. rewrite number_snoc, map_app in E. cbn [map] in E. apply app_inj_tail in E. destruct E as (_ & ->).
      destruct x0 as [p r]. cbn. rewrite app_length in D. cbn in D. f_equal. lia.
    - intros k K. apply (iv_old _ _ _ _ _ _ _ _ _ I). lia.
  Qed.
  Lemma apart_result d1 d2 : In d1 (over dma_out is os) -> In d2 (over dma_out is os) -> d_tag d1 <> d_tag d2 -> apart (d_ram d1) (d_len d1) (d_ram d2) (d_len d2).
  Proof.
    destruct run' as (A & R & F & I). pose proof (iv_dmas _ _ _ _ _ _ _ _ _ I) as E. cbn [h_dma hplus h0 app] in E.
    assert (G : forall d, In d (over dma_out is os) -> exists k, d_ram d = Z.of_nat (d_tag d) * 2 ^ (f_ds c + 2 ^ f_lb c - 1) /\ d_tag d = (k mod f_n c)%nat /\ 0 <= d_len d <= 2 ^ (f_ds c + 2 ^ f_lb c - 1)).
    { intros d Hd. assert (Hd' : In d (map (dma_of c) (number (fetches A)))) by (rewrite <- E; apply in_or_app; left; exact Hd).
      apply in_map_iff in Hd'. destruct Hd' as ([k [p r]] & <- & Hk). exists k. cbn [dma_of d_ram d_tag d_len]. split; [reflexivity|split; [reflexivity|]].
      unfold number in Hk. apply in_combine_r in Hk. apply filter_In in Hk. destruct Hk as (Hk & _). pose proof (iv_port _ _ _ _ _ _ _ _ _ I) as P. rewrite Forall_forall in P.
      apply P in Hk. cbn [snd] in Hk. destruct Sane as (S1 & S2 & _). unfold size. rewrite <- Z.pow_add_r by lia. split; [apply Z.pow_nonneg; lia|]. apply Z.pow_le_mono_r; lia. }
    intros H1 H2 Ne. destruct (G _ H1) as (k1 & E1 & T1 & B1). destruct (G _ H2) as (k2 & E2 & T2 & B2). rewrite E1, E2. unfold apart.
    destruct (Nat.lt_ge_cases (d_tag d1) (d_tag d2)); [left|right]; nia.
  Qed.
  Lemma limit_result : (length (over req_in is os) <= length (filter (fun x => negb (full x)) (over resp_in is os)) + finished L + f_n c)%nat.
  Proof.
    destruct run' as (A & R & F & I). pose proof (iv_lim _ _ _ _ _ _ _ _ _ I) as E. cbn [h_req h_ans hplus h0 app] in E. pose proof (F_finished _ _ _ _ I) as Q.
    pose proof (filter_len full (over resp_in is os)) as FL. unfold fetches in E. lia.
  Qed.
End Results.
