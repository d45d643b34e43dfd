From Coq Require Import Permutation.
From Verif Require Import Base.Prelude Base.Bits Rtl.Handshake_spec Rtl.Handshake_proof Stream.Axis_model Stream.Axis_proof
  Nic.RxEngine_model Nic.RxEngine_spec.
From Coq Require Import Lia Arith ZArith.
Local Open Scope Z_scope.
#[local] Unset Implicit Arguments.

(* ----- pointers ----- *)
Section Ptr.
  Variable c : gcfg.
  Notation N := (g_n c).
  Lemma N_pos : (0 < N)%nat.
  Proof. unfold g_n. pose proof (Nat.pow_nonzero 2 (g_cl c)). lia. Qed.
  Lemma slot_lt p : (slot c p < N)%nat.
  Proof. apply Nat.mod_upper_bound. pose proof N_pos. lia. Qed.
  Lemma slot_small p : (p < N)%nat -> slot c p = p.
  Proof. apply Nat.mod_small. Qed.
  Lemma slot_ptr p : slot c (p mod (2 * N)) = slot c p.
  Proof.
    unfold slot. pose proof N_pos. pose proof (Nat.div_mod p (2 * N) ltac:(lia)) as E.
    rewrite E at 2. replace (2 * N * (p / (2 * N)) + p mod (2 * N))%nat with (p mod (2 * N) + (2 * (p / (2 * N))) * N)%nat by lia.
    rewrite Nat.mod_add by lia. reflexivity.
  Qed.
  Lemma mod_inj m a b : (0 < m -> a <= b < a + m -> a mod m = b mod m -> a = b)%nat.
  Proof.
    intros H A E. pose proof (Nat.div_mod a m ltac:(lia)). pose proof (Nat.div_mod b m ltac:(lia)).
    assert (a / m = b / m)%nat; [|nia].
    assert (~ (b / m < a / m)%nat) by (intros X; nia). assert (~ (a / m < b / m)%nat) by (intros X; nia). lia.
  Qed.
  Lemma slot_inj a b : (a < b + N -> b < a + N -> slot c a = slot c b -> a = b)%nat.
  Proof.
    unfold slot. intros A B E. pose proof N_pos. destruct (Nat.le_ge_cases a b) as [X|X].
    - apply (mod_inj N); [lia|lia|exact E].
    - symmetry. apply (mod_inj N); [lia|lia|symmetry; exact E].
  Qed.
  Lemma ptr_eqb a b : (a <= b <= a + N)%nat -> ((a mod (2 * N) =? b mod (2 * N)) = (a =? b))%nat.
  Proof.
    intros A. pose proof N_pos. destruct (Nat.eqb_spec a b) as [->|E]; [apply Nat.eqb_refl|]. apply Nat.eqb_neq. intros X. apply E.
    apply (mod_inj (2 * N)); [lia|lia|exact X].
  Qed.
  Lemma pdiff_ok a b : (b <= a <= b + N)%nat -> pdiff c (a mod (2 * N)) (b mod (2 * N)) = (a - b)%nat.
  Proof.
    intros A. unfold pdiff. pose proof N_pos as P. set (m := (2 * N)%nat) in *. assert (Hm : (m <> 0)%nat) by (unfold m; lia).
    assert (Hb : (a - b < m)%nat) by (unfold m; lia). clearbody m. clear P.
    pose proof (Nat.div_mod a m Hm). pose proof (Nat.div_mod b m Hm). pose proof (Nat.mod_upper_bound a m Hm). pose proof (Nat.mod_upper_bound b m Hm).
    set (qa := (a / m)%nat) in *. set (qb := (b / m)%nat) in *. set (ra := (a mod m)%nat) in *. set (rb := (b mod m)%nat) in *.
    clearbody qa qb ra rb.
    destruct (Nat.le_gt_cases rb ra) as [X|X].
    - assert (qa = qb) by nia. replace (ra + m - rb)%nat with ((ra - rb) + 1 * m)%nat by lia. rewrite Nat.mod_add by lia.
      rewrite Nat.mod_small by lia. nia.
    - assert (qa = S qb) by nia. rewrite Nat.mod_small by lia. nia.
  Qed.
  Lemma pnext_ok a : pnext c (a mod (2 * N)) = (S a mod (2 * N))%nat.
  Proof.
    unfold pnext. pose proof N_pos. rewrite <- (Nat.add_1_r (a mod _)), <- (Nat.add_1_r a).
    rewrite Nat.add_mod_idemp_l by lia. reflexivity.
  Qed.

  Lemma means_iff n k t : means c n k t = true <-> (k < n /\ slot c k = t /\ n <= k + N)%nat.
  Proof. unfold means, slot. rewrite !andb_true_iff, Nat.ltb_lt, Nat.eqb_eq, Nat.leb_le. tauto. Qed.
  Lemma means_one n j k t : means c n j t = true -> means c n k t = true -> j = k.
  Proof. rewrite !means_iff. intros (A & B & C) (D & E & G). apply slot_inj; [lia|lia|congruence]. Qed.
  Lemma means_live n k t : (k < n <= k + N)%nat -> means c n k t = (slot c k =? t)%nat.
  Proof.
    intros A. unfold means, slot. destruct (Nat.ltb_spec k n); [|lia]. destruct (Nat.leb_spec n (k + N)); [|lia].
    cbn [andb]. rewrite andb_true_r. reflexivity.
  Qed.
End Ptr.

(* ----- placed writes ----- *)
Lemma total_app ds d : total (ds ++ [d]) = total ds + d_len d.
Proof. unfold total. rewrite map_app, fold_right_app. cbn. rewrite Z.add_0_r. induction (map d_len ds); cbn; lia. Qed.
Lemma total_pos ds : Forall (fun d => 0 <= d_len d) ds -> 0 <= total ds.
Proof. unfold total. induction 1; cbn; lia. Qed.
Lemma spread_app c t ds : forall a len d, Forall (fun d => 0 <= d_len d) ds -> 0 <= len ->
  spread c t a len (ds ++ [d]) = spread c t a len ds ++ spread c t (a + Z.min (total ds) len) (len - Z.min (total ds) len) [d].
Proof.
  induction ds as [|x ds IH]; intros a len d H P; cbn [app].
  - cbn [spread app]. unfold total. cbn [map fold_right]. assert (Z.min 0 len = 0) as -> by lia. rewrite Z.add_0_r, Z.sub_0_r. reflexivity.
  - inversion H as [|? ? H1 H2]. subst. cbn [spread]. rewrite IH by (try assumption; lia). rewrite <- app_assoc. f_equal. f_equal.
    pose proof (total_pos ds H2). unfold total in *. cbn [map fold_right]. set (u := fold_right Z.add 0 (map d_len ds)) in *. clearbody u.
    assert (E : Z.min (d_len x) len + Z.min u (len - Z.min (d_len x) len) = Z.min (d_len x + u) len) by lia.
    cbn [spread]. rewrite <- E, !Z.add_assoc. rewrite !Z.sub_add_distr. reflexivity.
Qed.

(* ----- an entry and its request ----- *)
Definition mine (k : nat) (r : wr) : bool := (w_tag r =? k)%nat.
Definition place (c : gcfg) (b : Z) : Z := (b mod 2 ^ g_bl c + g_off c) mod 2 ^ g_raw c.
Record agrees (c : gcfg) (sk : list wr) (k : nat) (e : entry) (p : op) : Prop := mkAg {
  ag_tag : n_tag e = p_tag p;
  ag_rxd : forall d, p_rxd p = Some d -> x_addr d = place c (n_buf e) /\ x_room d <= g_max c;
  ag_rx : forall r, p_rx p = Some r -> p_rxd p <> None /\ 0 <= r_len r <= g_max c /\ n_len e = r_len r /\ n_id e = r_id r /\ n_ts e = r_ts r /\
    n_hash e = r_hash r mod 2 ^ 32 /\ n_ht e = r_ht r mod 2 ^ 4;
  ag_q : match p_queue p with Some q => n_done e = true /\ n_queue e = q /\ p_rx p <> None | None => n_done e = false end;
  ag_inv : n_inv e = match p_ans p with Some None => true | _ => false end;
  ag_ans : match p_ans p with Some (Some (a, q)) => n_qptr e = a /\ n_cq e = q | _ => True end;
  ag_desc : p_descs p <> [] -> has_packet p = true;
  ag_wh : p_whole p = true -> p_descs p <> [];
  ag_pos : Forall (fun d => 0 <= d_len d) (p_descs p);
  ag_wr : p_writes p ++ filter (mine (slot c k)) sk = placed c k p;
  ag_got : (0 < p_got p)%nat -> p_whole p = true /\ filter (mine (slot c k)) sk = [];
  ag_le : (p_got p <= length (p_writes p))%nat;
  ag_nw : n_wr e = (0 <? p_got p)%nat;
  ag_cw : n_cw e = p_written p;
  ag_w : p_written p = true -> p_cpl p = true }.

(** A request whose packet is delivered, or that has no descriptor. *)
Definition fixedop (c : gcfg) (k : nat) (p : op) : Prop :=
  p_ans p = Some None /\ p_descs p = [] /\ p_whole p = false /\ p_writes p = [] \/ delivered c k p.

(** What has been handed over so far. *)
Record logs := mkH { h_rx : list rxd; h_dr : list (Z * nat); h_w : list wr; h_cpl : list cpl; h_st : list (Z * Z) }.
Definition pk (L : ledger) (k : nat) : bool := has_packet (l_op L k).
Definition quiet (p : op) : Prop := p_descs p = [] \/ p_whole p = true.
Definition isnil {A} (l : list A) : bool := match l with [] => true | _ => false end.
(** The registers of the descriptor stream, in the middle of a packet. *)
Definition amid (s : gst) (p : op) : Prop :=
  forall r, p_rx p = Some r -> x_done s = negb (isnil (p_descs p)) && (r_len r <=? total (p_descs p)) /\
    (x_done s = false -> x_len s = total (p_descs p)).
(** Requests whose descriptors are still to come. *)
Definition unf (L : ledger) (k : nat) : list unit :=
  match p_ans (l_op L k) with
  | None => [tt]
  | Some None => []
  | Some (Some _) => if p_whole (l_op L k) then [] else [tt]
  end.
Definition wrs (L : ledger) (k : nat) : list wr := p_writes (l_op L k).
Definition sts (L : ledger) (k : nat) : Z * Z := status_of (l_op L k).

Record inv (c : gcfg) (s : gst) (L : ledger) (D C F : nat) (h : logs) : Prop := mkI {
  iv_cnt : (F <= C /\ C <= D /\ D <= l_n L /\ l_n L <= F + g_n c)%nat;
  iv_k : g_csum c = true -> (C <= length (l_cks L) /\ length (l_cks L) <= l_n L)%nat /\ x_kp s = (length (l_cks L) mod (2 * g_n c))%nat;
  iv_ptr : x_sp s = (l_n L mod (2 * g_n c))%nat /\ x_dp s = (D mod (2 * g_n c))%nat /\ x_cp s = (C mod (2 * g_n c))%nat /\
           x_fp s = (F mod (2 * g_n c))%nat;
  iv_on : forall j, (F <= j < l_n L)%nat -> n_act (x_tab s (slot c j)) = true;
  iv_off : forall j, (l_n L <= j < F + g_n c)%nat -> n_act (x_tab s (slot c j)) = false;
  iv_ready : x_ready s = true -> (l_n L < F + g_n c)%nat /\ x_rx s = None;
  iv_skid : skid_inv (x_skid s);
  iv_dready : x_dready s = true -> k_rdy (x_skid s) = true;
  iv_tags : forall r, In r (skid_content (x_skid s)) -> exists k, (C <= k < l_n L)%nat /\ w_tag r = slot c k;
  iv_mtu : x_mtu s <= g_max c;
  iv_cready : x_cready s = true -> g_csum c = true /\ (length (l_cks L) < l_n L)%nat;
  iv_live : forall k, (F <= k < l_n L)%nat -> agrees c (skid_content (x_skid s)) k (x_tab s (slot c k)) (l_op L k);
  iv_old : forall k, (k < F)%nat -> settled c k (l_op L k);
  iv_D : forall k, (k < D)%nat -> p_rxd (l_op L k) <> None /\ p_rx (l_op L k) <> None /\ p_queue (l_op L k) <> None;
  iv_D' : forall k, (D <= k < l_n L)%nat -> p_dreq (l_op L k) = false /\ p_ans (l_op L k) = None;
  iv_K : g_csum c = true -> forall k, (length (l_cks L) <= k < l_n L)%nat -> p_ans (l_op L k) <> Some None;
  iv_C : forall k, (k < C)%nat -> fixedop c k (l_op L k);
  iv_C' : forall k, (C <= k < l_n L)%nat -> p_cpl (l_op L k) = false;
  iv_sent : forall k, (k < l_n L)%nat -> p_cpl (l_op L k) = true -> pk L k = true;
  iv_cur : (x_done s = false /\ x_len s = 0 /\ forall j, (j < l_n L)%nat -> quiet (l_op L j)) \/
           exists k, (C <= k < l_n L)%nat /\ p_descs (l_op L k) <> [] /\ p_whole (l_op L k) = false /\ amid s (l_op L k) /\
             forall j, (j < l_n L)%nat -> j <> k -> quiet (l_op L j);
  iv_ck : g_csum c = true -> forall k, (F <= k < l_n L)%nat -> (k < length (l_cks L))%nat -> n_ck (x_tab s (slot c k)) = nth k (l_cks L) 0;
  iv_rxp : forall d, x_rx s = Some d -> exists k, S k = l_n L /\ x_tag d = slot c k /\ p_rxd (l_op L k) = None /\
             x_addr d = place c (n_buf (x_tab s (slot c k))) /\ x_room d <= g_max c;
  iv_rxl : Forall2 (fun k d => p_rxd (l_op L k) = Some d /\ x_tag d = slot c k) (seq 0 (length (h_rx h))) (h_rx h);
  iv_rxn : length (h_rx h ++ olist (x_rx s)) = l_n L;
  iv_dr : Forall2 (fun k d => exists q, p_queue (l_op L k) = Some q /\ d = (q, slot c k)) (seq 0 D) (h_dr h ++ olist (x_dreq s));
  iv_dq : forall d, x_dreq s = Some d -> exists k, S k = D /\ snd d = slot c k /\ p_dreq (l_op L k) = false /\ p_ans (l_op L k) = None;
  iv_ask : forall k, (k < D)%nat -> p_dreq (l_op L k) = true \/ S k = D /\ x_dreq s <> None;
  iv_cpl : Forall2 (cpl_as c L) (filter (pk L) (seq 0 C)) (h_cpl h ++ olist (x_cpl s));
  iv_cplp : forall x, x_cpl s = Some x -> exists k, (F <= k < C)%nat /\ c_tag x = slot c k /\ p_cpl (l_op L k) = false /\ pk L k = true;
  iv_cplq : forall k, (k < C)%nat -> pk L k = true -> p_cpl (l_op L k) = true \/ exists d, x_cpl s = Some d /\ c_tag d = slot c k;
  iv_st : h_st h ++ olist (x_stat s) = map (sts L) (seq 0 F);
  iv_w : Permutation (h_w h) (flat_map (wrs L) (seq 0 (l_n L)));
  iv_num : x_cnt s = Z.of_nat (length (flat_map (unf L) (seq 0 D))) }.

Ltac nb := repeat match goal with
  | H : (_ =? _)%nat = true |- _ => apply Nat.eqb_eq in H
  | H : (_ =? _)%nat = false |- _ => apply Nat.eqb_neq in H
  | H : (_ && _)%bool = true |- _ => apply andb_true_iff in H; destruct H
  | H : negb _ = true |- _ => apply negb_true_iff in H
  end.

Lemma Forall2_impl' {A B} (P Q : A -> B -> Prop) l m : (forall x y, In x l -> P x y -> Q x y) -> Forall2 P l m -> Forall2 Q l m.
Proof. intros H F. induction F; constructor; [apply H; [left; reflexivity|assumption]|apply IHF; intros; apply H; [right; assumption|assumption]]. Qed.
Lemma Permutation_refl' {A} (l m : list A) : l = m -> Permutation l m.
Proof. intros ->. apply Permutation_refl. Qed.
Lemma flat_map_plus {A B} (f g e : A -> list B) l : (forall x, In x l -> g x = f x ++ e x) ->
  Permutation (flat_map g l) (flat_map f l ++ flat_map e l).
Proof.
  induction l as [|x l IH]; intros H; cbn [flat_map]; [constructor|]. rewrite (H x) by (left; reflexivity).
  rewrite <- !app_assoc. apply Permutation_app_head. rewrite IH by (intros; apply H; right; assumption).
  rewrite !app_assoc. apply Permutation_app_tail. apply Permutation_app_comm.
Qed.
Lemma flat_map_one {B} (e : nat -> list B) m a : (a < m)%nat -> (forall x, (x < m)%nat -> x <> a -> e x = []) -> flat_map e (seq 0 m) = e a.
Proof.
  induction m as [|m IH]; intros A H; [lia|]. rewrite seq_S, flat_map_app. cbn [flat_map Nat.add]. rewrite app_nil_r.
  destruct (Nat.eq_dec a m) as [->|X].
  - assert (Z : flat_map e (seq 0 m) = []); [|rewrite Z; reflexivity].
    assert (G : forall l, (forall x, In x l -> e x = []) -> flat_map e l = []).
    { induction l as [|x l IHl]; intros K; cbn; [reflexivity|]. rewrite K by (left; reflexivity). apply IHl. intros; apply K; right; assumption. }
    apply G. intros x Hx. apply in_seq in Hx. apply H; lia.
  - rewrite IH by (try lia; intros; apply H; lia). rewrite (H m) by lia. apply app_nil_r.
Qed.
Lemma flat_map_none {B} (e : nat -> list B) m : (forall x, (x < m)%nat -> e x = []) -> flat_map e (seq 0 m) = [].
Proof.
  induction m as [|m IH]; intros H; [reflexivity|]. rewrite seq_S, flat_map_app. cbn [flat_map Nat.add]. rewrite (H m) by lia. rewrite IH by (intros; apply H; lia). reflexivity.
Qed.

Section Step.
  Variables (c : gcfg) (s : gst) (L : ledger) (D C F : nat) (h : logs) (i : gin).
  Hypothesis Sane : sane c.
  Hypothesis I : inv c s L D C F h.
  Notation n := (l_n L).
  Notation N := (g_n c).
  Notation K := (length (l_cks L)).
  Notation o := (snd (g_step c s i)).
  Hypothesis W : owed c L i o.
  Notation iv f := (f c s L D C F h I).

  Lemma w_rst : i_rst i = false.
  Proof. apply W. Qed.
  Lemma cnt : (F <= C /\ C <= D /\ D <= n /\ n <= F + N)%nat.
  Proof. exact (iv iv_cnt). Qed.
  Lemma live_sees k t : (F <= k < n)%nat -> means c n k t = (slot c k =? t)%nat.
  Proof. intros A. apply means_live. pose proof cnt. lia. Qed.
  Lemma same_target j k : (F <= j < n)%nat -> means c n k (slot c j) = true -> k = j.
  Proof. intros A M. apply (means_one c n k j (slot c j)); [exact M|]. rewrite live_sees by exact A. apply Nat.eqb_refl. Qed.
  (** A tag of a live request, seen by a live entry. *)
  Lemma see j k : (F <= j < n)%nat -> (F <= k < n)%nat -> (slot c (slot c j) =? slot c k)%nat = means c n k (slot c j).
  Proof. intros A B. rewrite live_sees by exact B. rewrite slot_small by apply slot_lt. apply Nat.eqb_sym. Qed.
  Lemma new_slot k r : v_req s i = Some r -> (F <= k < n)%nat -> slot c n <> slot c k.
  Proof.
    intros R A E. unfold v_req in R. destruct (x_ready s) eqn:X; [|discriminate].
    destruct (iv iv_ready X) as [B _]. apply slot_inj in E; lia.
  Qed.
  Lemma sp_slot : slot c (x_sp s) = slot c n.
  Proof. destruct (iv iv_ptr) as (-> & _). apply slot_ptr. Qed.
  Lemma dp_slot : slot c (x_dp s) = slot c D.
  Proof. destruct (iv iv_ptr) as (_ & -> & _). apply slot_ptr. Qed.
  Lemma cp_slot : slot c (x_cp s) = slot c C.
  Proof. destruct (iv iv_ptr) as (_ & _ & -> & _). apply slot_ptr. Qed.
  Lemma fp_slot : slot c (x_fp s) = slot c F.
  Proof. destruct (iv iv_ptr) as (_ & _ & _ & ->). apply slot_ptr. Qed.
  Lemma kp_slot : g_csum c = true -> slot c (x_kp s) = slot c K.
  Proof. intros X. destruct (iv iv_k X) as (_ & ->). apply slot_ptr. Qed.
  Lemma fixed_ans k p : fixedop c k p -> p_ans p <> None.
  Proof. intros [(E & _)|(E & _)]; [congruence|]. unfold has_packet in E. destruct (p_ans p); congruence. Qed.
  Lemma fixed_whole k p : fixedop c k p -> has_packet p = true -> p_whole p = true.
  Proof. intros [(E & _)|(_ & E & _)] H; [unfold has_packet in H; rewrite E in H; discriminate|exact E]. Qed.
  Lemma pk_D k : (k < n)%nat -> has_packet (l_op L k) = true -> (k < D)%nat.
  Proof.
    intros A B. destruct (Nat.lt_ge_cases k D) as [|X]; [assumption|]. destruct (iv iv_D' k ltac:(lia)) as [_ Y].
    unfold has_packet in B. rewrite Y in B. discriminate.
  Qed.

  (* targets of what comes in *)
  Lemma w_rx t r : i_rx i = Some (t, r) -> exists k d, (D <= k < n)%nat /\ t = slot c k /\ p_rxd (l_op L k) = Some d /\
    p_rx (l_op L k) = None /\ 0 <= r_len r <= x_room d.
  Proof.
    intros E. destruct W as (_ & X & _). destruct (X _ _ E) as (k & d & M & A & B & R). apply means_iff in M. exists k, d.
    split; [|split; [symmetry; tauto|auto]]. split; [|tauto]. destruct (Nat.le_gt_cases D k) as [|Y]; [assumption|].
    destruct (iv iv_D k Y) as (_ & Y1 & _). congruence.
  Qed.
  Lemma w_map t q : i_map i = Some (t, q) -> exists k, (D <= k < n)%nat /\ t = slot c k /\ p_rx (l_op L k) <> None /\ p_queue (l_op L k) = None.
  Proof.
    intros E. destruct W as (_ & _ & X & _). destruct (X _ _ E) as (k & M & A & B). apply means_iff in M. exists k.
    split; [|split; [symmetry; tauto|auto]]. split; [|tauto]. destruct (Nat.le_gt_cases D k) as [|Y]; [assumption|].
    destruct (iv iv_D k Y) as (_ & _ & Y1). congruence.
  Qed.
  Lemma w_ans t a q b : i_ans i = Some (t, a, q, b) -> exists k, (C <= k < D)%nat /\ t = slot c k /\ p_ans (l_op L k) = None /\ p_dreq (l_op L k) = true /\
    (b = true -> g_csum c = true -> (k < K)%nat).
  Proof.
    intros E. destruct W as (_ & _ & _ & X & _). destruct (X _ _ _ _ E) as (k & M & A & B & Y). apply means_iff in M.
    exists k. split; [|split; [symmetry; tauto|split; [exact B|split; [exact A|exact Y]]]]. split.
    - destruct (Nat.le_gt_cases C k) as [|Z]; [assumption|]. exfalso. exact (fixed_ans k _ (iv iv_C k Z) B).
    - destruct (Nat.lt_ge_cases k D) as [|Z]; [assumption|]. destruct (iv iv_D' k ltac:(lia)) as [Z1 _]. congruence.
  Qed.
  Lemma w_desc d t l : desc_in i o = Some (d, t, l) -> exists k, (C <= k < D)%nat /\ t = slot c k /\ has_packet (l_op L k) = true /\
    p_whole (l_op L k) = false /\ 0 <= d_len d /\ forall j, (j < n)%nat -> j <> k -> quiet (l_op L j).
  Proof.
    intros E. destruct W as (_ & _ & _ & _ & X & _). destruct (X _ _ _ E) as (k & M & A & B & P & J). apply means_iff in M.
    destruct M as (M1 & M2 & M3). exists k. split; [split|split; [symmetry; exact M2|split; [exact A|split; [exact B|split; [exact P|exact J]]]]].
    - destruct (Nat.le_gt_cases C k) as [|Y]; [assumption|]. rewrite (fixed_whole k _ (iv iv_C k Y) A) in B. discriminate.
    - apply pk_D; assumption.
  Qed.
  Lemma w_wdone t : i_wdone i = Some t -> exists k, (F <= k < n)%nat /\ t = slot c k /\ p_whole (l_op L k) = true /\
    length (p_writes (l_op L k)) = length (placed c k (l_op L k)) /\ (p_got (l_op L k) < length (p_writes (l_op L k)))%nat.
  Proof.
    intros E. destruct W as (_ & _ & _ & _ & _ & X & _). destruct (X _ E) as (k & M & A & B & G & H). apply means_iff in M.
    exists k. split; [|split; [symmetry; tauto|auto]]. split; [|tauto].
    destruct (Nat.le_gt_cases F k) as [|Y]; [assumption|]. exfalso. destruct (iv iv_old k Y) as [Z|(_ & _ & Z)]; [|congruence].
    destruct (iv iv_C k) as [(_ & _ & Q & _)|(Q & _)]; [pose proof cnt; lia|congruence|]. unfold has_packet in Q. rewrite Z in Q. discriminate.
  Qed.
  Lemma w_cans t : i_cans i = Some t -> exists k, (F <= k < C)%nat /\ t = slot c k /\ p_cpl (l_op L k) = true.
  Proof.
    intros E. destruct W as (_ & _ & _ & _ & _ & _ & X). destruct (X _ E) as (k & M & A & B). apply means_iff in M.
    exists k. split; [|split; [symmetry; tauto|exact A]]. split.
    - destruct (Nat.le_gt_cases F k) as [|Y]; [assumption|]. exfalso. destruct (iv iv_old k Y) as [G|G].
      + assert (P : pk L k = true) by (apply (iv iv_sent); [tauto|auto]). unfold pk, has_packet in P. rewrite G in P. discriminate.
      + destruct G as (_ & _ & G). congruence.
    - destruct (Nat.lt_ge_cases k C) as [|Y]; [assumption|]. exfalso.
      rewrite (iv iv_C' k) in A by lia. discriminate.
  Qed.

  (* what is accepted *)
  Lemma req_same : req_in i o = v_req s i.
  Proof. reflexivity. Qed.
  Lemma desc_same : v_desc c s i = desc_in i o.
  Proof.
    unfold v_desc. destruct (desc_in i o) as [[[d t] l]|] eqn:E.
    - destruct (w_desc _ _ _ E) as (k & A & -> & _). unfold desc_in in E. cbn in E. destruct (x_dready s); [|discriminate]. rewrite E.
      rewrite slot_small by apply slot_lt. rewrite (iv iv_on) by (pose proof cnt; lia). reflexivity.
    - unfold desc_in in E. cbn in E. destruct (x_dready s); [rewrite E|]; reflexivity.
  Qed.
  (** Under the law a checksum is stored exactly when one is handed over, for request number K. *)
  Lemma ck_same : match csum_in i o with
    | Some v => g_csum c = true /\ (K < n)%nat /\ v_ck c s i = Go /\ i_csum i = Some v
    | None => v_ck c s i = Wait end.
  Proof.
    pose proof cnt as Q. unfold csum_in. cbn. unfold v_ck. destruct (x_cready s) eqn:R.
    - destruct (iv iv_cready R) as [Hc Hk]. destruct (iv iv_k Hc) as ((K1 & K2) & Kp).
      assert (On : v_ckon c s = true).
      { unfold v_ckon. rewrite (kp_slot Hc), (iv iv_on) by lia. rewrite Kp. destruct (iv iv_ptr) as (-> & _).
        rewrite ptr_eqb by lia. rewrite Hc. destruct (Nat.eqb_spec K n); [lia|reflexivity]. }
      rewrite On, (kp_slot Hc). pose proof (ag_inv _ _ _ _ _ (iv iv_live K ltac:(lia))) as Iv.
      assert (n_inv (x_tab s (slot c K)) = false) as ->.
      { rewrite Iv. pose proof (iv iv_K Hc K ltac:(lia)) as Z. destruct (p_ans (l_op L K)) as [[|]|]; congruence. }
      destruct (i_csum i); cbn; auto.
    - cbn. destruct (v_ckon c s) eqn:On; [|reflexivity]. unfold v_ckon in On. apply andb_true_iff in On. destruct On as [On Hc].
      apply andb_true_iff in On. destruct On as [On1 On2]. destruct (iv iv_k Hc) as ((K1 & K2) & Kp). rewrite (kp_slot Hc).
      rewrite Kp in On2. destruct (iv iv_ptr) as (Sp & _). rewrite Sp, ptr_eqb in On2 by lia. apply negb_true_iff, Nat.eqb_neq in On2.
      rewrite (ag_inv _ _ _ _ _ (iv iv_live K ltac:(lia))). pose proof (iv iv_K Hc K ltac:(lia)) as Z.
      destruct (p_ans (l_op L K)) as [[|]|]; congruence.
  Qed.
  Lemma ck_go : v_ck c s i = Wait \/ v_ck c s i = Go.
  Proof. pose proof ck_same as X. destruct (csum_in i o); [right|left]; tauto. Qed.

  Notation next k := (op_next c n i o k (l_op L k)).
  Lemma rx_pend d : rx_out i o = Some d -> exists k, S k = n /\ (D <= k)%nat /\ x_tag d = slot c k /\ p_rxd (l_op L k) = None /\
    x_addr d = place c (n_buf (x_tab s (slot c k))) /\ x_room d <= g_max c.
  Proof.
    unfold rx_out. cbn. destruct (i_rxrdy i); [|discriminate]. intros E. destruct (iv iv_rxp d E) as (k & A & B & G & X). exists k. splits; auto; try tauto.
    destruct (Nat.le_gt_cases D k) as [|Y]; [assumption|]. destruct (iv iv_D k Y) as (Z & _). congruence.
  Qed.
  Lemma rxd_next k : p_rxd (l_op L k) <> None -> p_rxd (next k) = p_rxd (l_op L k).
  Proof.
    intros A. unfold op_next. cbn [p_rxd]. destruct (rx_out i o) as [d|] eqn:E; [|reflexivity]. destruct (rx_pend d E) as (j & J1 & J2 & -> & J3 & _).
    destruct (means c n k (slot c j)) eqn:M; [|reflexivity]. pose proof cnt. apply same_target in M; [|lia]. congruence.
  Qed.
  Lemma rx_next k : p_rx (l_op L k) <> None -> p_rx (next k) = p_rx (l_op L k).
  Proof.
    intros A. unfold op_next. cbn [p_rx]. destruct (i_rx i) as [[t r]|] eqn:E; [|reflexivity]. destruct (w_rx _ _ E) as (j & d & J1 & -> & _ & J2 & _).
    destruct (means c n k (slot c j)) eqn:M; [|reflexivity]. pose proof cnt. apply same_target in M; [|lia]. congruence.
  Qed.
  Lemma q_next k : p_queue (l_op L k) <> None -> p_queue (next k) = p_queue (l_op L k).
  Proof.
    intros A. unfold op_next. cbn [p_queue]. destruct (i_map i) as [[t r]|] eqn:E; [|reflexivity]. destruct (w_map _ _ E) as (j & J1 & -> & _ & J2).
    destruct (means c n k (slot c j)) eqn:M; [|reflexivity]. pose proof cnt. apply same_target in M; [|lia]. congruence.
  Qed.
  Lemma ans_next k : p_ans (l_op L k) <> None -> p_ans (next k) = p_ans (l_op L k).
  Proof.
    intros A. unfold op_next. cbn [p_ans]. destruct (i_ans i) as [[[[t a] q] b]|] eqn:E; [|reflexivity]. destruct (w_ans _ _ _ _ E) as (j & J1 & -> & J2 & _).
    destruct (means c n k (slot c j)) eqn:M; [|reflexivity]. pose proof cnt. apply same_target in M; [|lia]. congruence.
  Qed.
  Lemma pk_next k : has_packet (l_op L k) = true -> has_packet (next k) = true.
  Proof. intros X. unfold has_packet. rewrite ans_next; [exact X|]. unfold has_packet in X. destruct (p_ans (l_op L k)); congruence. Qed.

  (** What happens to request [k]. *)
  Definition dj (k : nat) : option (desc * bool) :=
    match desc_in i o with Some (d, t, l) => if means c n k t then Some (d, l) else None | None => None end.
  Lemma descs_next k : p_descs (next k) = p_descs (l_op L k) ++ match dj k with Some (d, _) => [d] | None => [] end.
  Proof.
    unfold op_next, dj. cbn [p_descs]. destruct (desc_in i o) as [[[d t] l]|]; [|rewrite app_nil_r; reflexivity].
    destruct (means c n k t); [reflexivity|rewrite app_nil_r; reflexivity].
  Qed.
  Lemma whole_next k : p_whole (next k) = match dj k with Some (_, l) => l | None => p_whole (l_op L k) end.
  Proof. unfold op_next, dj. cbn [p_whole]. destruct (desc_in i o) as [[[d t] l]|]; [destruct (means c n k t)|]; reflexivity. Qed.
  Lemma dj_facts k d l : dj k = Some (d, l) -> (C <= k < D)%nat /\ desc_in i o = Some (d, slot c k, l) /\ has_packet (l_op L k) = true /\
    p_whole (l_op L k) = false /\ 0 <= d_len d /\ (forall j, (j < n)%nat -> j <> k -> quiet (l_op L j)) /\ amid s (l_op L k).
  Proof.
    unfold dj. destruct (desc_in i o) as [[[d' t] l']|] eqn:E; [|discriminate]. destruct (means c n k t) eqn:M; [|discriminate].
    intros X. injection X as -> ->. destruct (w_desc _ _ _ E) as (j & A & -> & B & B1 & B2 & B3). pose proof cnt.
    apply same_target in M; [|lia]. subst j. splits; auto; try lia.
    destruct (iv iv_cur) as [(K1 & K2 & K3)|(m & K1 & K2 & K3 & K4 & K5)].
    - destruct (K3 k ltac:(lia)) as [Y|Y]; [|congruence]. intros r Hr. rewrite Y. cbn [isnil negb andb]. auto.
    - destruct (Nat.eq_dec k m) as [->|Ne]; [exact K4|]. exfalso. destruct (B3 m ltac:(lia) ltac:(auto)) as [Y|Y]; congruence.
  Qed.
  Lemma dj_one j k d l : dj k = Some (d, l) -> (j < n)%nat -> j <> k -> dj j = None.
  Proof.
    intros A B E. destruct (dj j) as [[d' l']|] eqn:X; [|reflexivity]. exfalso. apply E. pose proof cnt.
    destruct (dj_facts _ _ _ A) as (A1 & A2 & _). destruct (dj_facts _ _ _ X) as (B1 & B2 & _).
    apply (slot_inj c); [lia|lia|congruence].
  Qed.
  (** The descriptor of the cycle: what is written, and how the stream goes on. *)
  Lemma dj_write k d l r a : dj k = Some (d, l) -> p_rx (l_op L k) = Some r -> p_rxd (l_op L k) = Some a ->
    let u := Z.min (total (p_descs (l_op L k))) (r_len r) in
    olist (v_write c s i) = spread c (slot c k) (x_addr a + u) (r_len r - u) [d] /\
    (x_done s || negb (v_short c s d (slot c k)) = (r_len r <=? total (p_descs (l_op L k) ++ [d]))) /\
    (x_done s || negb (v_short c s d (slot c k)) = false -> (x_len s + d_len d) mod 2 ^ g_lw c = total (p_descs (l_op L k) ++ [d])).
  Proof.
    intros Dj Hr Ha u. destruct (dj_facts _ _ _ Dj) as (A & Hin & _ & _ & P & _ & Am). destruct (Am r Hr) as [Am1 Am2]. pose proof cnt as Q.
    pose proof (iv iv_live k ltac:(lia)) as G. destruct (ag_rx _ _ _ _ _ G r Hr) as (_ & R1 & R2 & _). destruct (ag_rxd _ _ _ _ _ G a Ha) as (R3 & _).
    pose proof (total_pos _ (ag_pos _ _ _ _ _ G)) as Tp. destruct Sane as (S1 & S2 & S3 & S4 & _).
    assert (Lw : 2 ^ g_lw c <= 2 ^ 32) by (apply Z.pow_le_mono_r; lia).
    unfold v_write. rewrite desc_same, Hin. unfold v_wlen, v_short, v_left. rewrite (slot_small c (slot c k)) by apply slot_lt. rewrite R2, total_app.
    set (tt := total (p_descs (l_op L k))) in *. cbn [spread]. rewrite app_nil_r. destruct (x_done s) eqn:Xd.
    - symmetry in Am1. apply andb_true_iff in Am1. destruct Am1 as [_ Am1]. apply Z.leb_le in Am1. rewrite orb_true_r. cbn [olist orb].
      assert (E : Z.min (d_len d) (r_len r - u) = 0) by (clear - Am1 P; unfold u; lia). rewrite E, Z.eqb_refl. splits; [reflexivity| |discriminate].
      symmetry. apply Z.leb_le. clear - Am1 P. lia.
    - specialize (Am2 eq_refl). assert (Le : tt <= r_len r).
      { unfold tt. destruct (p_descs (l_op L k)) as [|d0 ds0] eqn:Ed; [unfold total; cbn; lia|]. cbn [isnil negb andb] in Am1. symmetry in Am1. apply Z.leb_gt in Am1. lia. }
      assert (u = tt) as -> by (clear - Le; unfold u; lia). rewrite Am2, orb_false_r. cbn [orb].
      rewrite (Z.mod_small (r_len r - tt)) by (clear - Le R1 S1 Lw Tp; lia).
      assert (M : (if d_len d <? r_len r - tt then d_len d else r_len r - tt) = Z.min (d_len d) (r_len r - tt)) by (destruct (Z.ltb_spec (d_len d) (r_len r - tt)); lia).
      rewrite M, Z.mod_small by (clear - Le R1 S2 P Tp; lia). splits.
      + destruct (Z.min (d_len d) (r_len r - tt) =? 0); [reflexivity|]. cbn [olist]. f_equal. f_equal. rewrite R3. unfold place.
        rewrite Zplus_mod_idemp_l. f_equal. ring.
      + destruct (Z.ltb_spec (d_len d) (r_len r - tt)), (Z.leb_spec (r_len r) (tt + d_len d)); cbn; lia.
      + intros X. apply negb_false_iff, Z.ltb_lt in X. apply Z.mod_small. clear - X P Tp R1 S1. lia.
  Qed.
  Lemma write_none : desc_in i o = None -> v_write c s i = None.
  Proof. intros E. unfold v_write. rewrite desc_same, E. reflexivity. Qed.
  Lemma content : skid_content (x_skid s) ++ olist (v_write c s i) = olist (write_out i o) ++ skid_content (x_skid (fst (g_step c s i))).
  Proof.
    pose proof (@skid_step_content wr (x_skid s) (v_write c s i) (i_wrdy i) (iv iv_skid)) as X.
    assert (Y : (if k_rdy (x_skid s) then v_write c s i else None) = v_write c s i).
    { destruct (v_write c s i) as [r|] eqn:E; [|destruct (k_rdy (x_skid s)); reflexivity].
      unfold v_write, v_desc in E. destruct (x_dready s) eqn:Z; [|discriminate]. rewrite (iv iv_dready Z). reflexivity. }
    rewrite Y in X. unfold g_step. rewrite w_rst. exact X.
  Qed.
  Lemma write_out_in r : write_out i o = Some r -> In r (skid_content (x_skid s)).
  Proof. unfold write_out. cbn. destruct (i_wrdy i); [|discriminate]. unfold skid_content. intros ->. left. reflexivity. Qed.
  Lemma write_tag r : In r (olist (v_write c s i)) -> exists k, (C <= k < D)%nat /\ w_tag r = slot c k /\ dj k <> None.
  Proof.
    unfold v_write. rewrite desc_same. destruct (desc_in i o) as [[[d t] l]|] eqn:E; [|contradiction]. destruct (w_desc _ _ _ E) as (k & A & -> & _).
    destruct (_ || _); [contradiction|]. intros [<-|[]]. exists k. splits; try lia.
    - cbn. apply slot_small, slot_lt.
    - unfold dj. pose proof cnt. rewrite E, live_sees by lia. rewrite Nat.eqb_refl. discriminate.
  Qed.
  Lemma writes_next k : (F <= k < n)%nat ->
    p_writes (next k) ++ filter (mine (slot c k)) (skid_content (x_skid (fst (g_step c s i)))) =
    (p_writes (l_op L k) ++ filter (mine (slot c k)) (skid_content (x_skid s))) ++ match dj k with Some _ => olist (v_write c s i) | None => [] end.
  Proof.
    intros A. pose proof cnt as Q.
    assert (E1 : p_writes (next k) = p_writes (l_op L k) ++ filter (mine (slot c k)) (olist (write_out i o))).
    { unfold op_next. cbn [p_writes]. destruct (write_out i o) as [r|]; [|cbn; rewrite app_nil_r; reflexivity].
      rewrite live_sees by exact A. cbn [olist filter]. unfold mine. rewrite Nat.eqb_sym. destruct (w_tag r =? slot c k)%nat; [reflexivity|rewrite app_nil_r; reflexivity]. }
    rewrite E1, <- app_assoc, <- filter_app, <- content, filter_app, app_assoc. f_equal.
    destruct (olist (v_write c s i)) as [|r [|]] eqn:E; [destruct (dj k); reflexivity| |unfold olist in E; destruct (v_write c s i); discriminate].
    destruct (write_tag r) as (j & J1 & J2 & J3); [rewrite E; left; reflexivity|]. cbn [filter]. unfold mine. rewrite J2.
    destruct (Nat.eqb_spec (slot c j) (slot c k)) as [X|X].
    - apply slot_inj in X; [|lia|lia]. subst j. destruct (dj k); [reflexivity|congruence].
    - destruct (dj k) as [[d l]|] eqn:Dk; [|reflexivity]. exfalso. apply J3. apply (dj_one j k d l Dk); [lia|]. congruence.
  Qed.
  Lemma descs_rx k : (F <= k < n)%nat -> p_descs (l_op L k) <> [] \/ dj k <> None -> exists r a, p_rx (l_op L k) = Some r /\ p_rxd (l_op L k) = Some a.
  Proof.
    intros A B. assert (X : (k < D)%nat).
    { destruct B as [B|B]; [apply pk_D; [lia|]; exact (ag_desc _ _ _ _ _ (iv iv_live k A) B)|]. destruct (dj k) as [[d l]|] eqn:E; [|congruence].
      destruct (dj_facts _ _ _ E) as (Y & _). lia. }
    destruct (iv iv_D k X) as (Y1 & Y2 & _). destruct (p_rx (l_op L k)); [|congruence]. destruct (p_rxd (l_op L k)); [|congruence]. eauto.
  Qed.
  Lemma placed_next k : (F <= k < n)%nat ->
    placed c k (next k) = placed c k (l_op L k) ++ match dj k with Some _ => olist (v_write c s i) | None => [] end.
  Proof.
    intros A. unfold placed. rewrite descs_next. destruct (dj k) as [[d l]|] eqn:E.
    - destruct (descs_rx k A) as (r & a & Hr & Ha); [right; congruence|]. rewrite rx_next, rxd_next by congruence. rewrite Hr, Ha.
      rewrite spread_app; [|exact (ag_pos _ _ _ _ _ (iv iv_live k A))|apply (ag_rx _ _ _ _ _ (iv iv_live k A) r Hr)]. f_equal.
      symmetry. apply (dj_write k d l r a E Hr Ha).
    - rewrite !app_nil_r. destruct (p_descs (l_op L k)) as [|d ds] eqn:Ed.
      + cbn [spread]. destruct (p_rxd (next k)), (p_rx (next k)), (p_rxd (l_op L k)), (p_rx (l_op L k)); reflexivity.
      + destruct (descs_rx k A) as (r & a & Hr & Ha); [left; congruence|]. rewrite rx_next, rxd_next by congruence. reflexivity.
  Qed.
  Lemma wdone_hit k : (F <= k < n)%nat -> is_tag c (i_wdone i) (slot c k) = hit c n k (i_wdone i).
  Proof.
    intros A. unfold is_tag, hit. destruct (i_wdone i) as [t|] eqn:E; [|reflexivity]. destruct (w_wdone _ E) as (j & B & -> & _). apply see; assumption.
  Qed.
  Lemma wdone_got k : hit c n k (i_wdone i) = true -> (F <= k < n)%nat /\ p_whole (l_op L k) = true /\
    length (p_writes (l_op L k)) = length (placed c k (l_op L k)) /\ (p_got (l_op L k) < length (p_writes (l_op L k)))%nat.
  Proof.
    unfold hit. destruct (i_wdone i) as [t|] eqn:E; [|discriminate]. intros M. destruct (w_wdone _ E) as (j & B & -> & Q).
    apply same_target in M; [|lia]. subst j. auto.
  Qed.
  Lemma cans_hit k : (F <= k < n)%nat -> is_tag c (i_cans i) (slot c k) = hit c n k (i_cans i).
  Proof.
    intros A. unfold is_tag, hit. destruct (i_cans i) as [t|] eqn:E; [|reflexivity]. destruct (w_cans _ E) as (j & B & -> & _).
    pose proof cnt. apply see; [lia|assumption].
  Qed.

  Lemma writes_prefix k : exists l, p_writes (next k) = p_writes (l_op L k) ++ l.
  Proof.
    unfold op_next. cbn [p_writes]. destruct (write_out i o) as [r|]; [destruct (means _ _ _ _); [eauto|]|]; exists []; rewrite app_nil_r; reflexivity.
  Qed.
  Lemma got_next k : (F <= k < n)%nat -> (0 < p_got (next k))%nat -> p_whole (l_op L k) = true /\ filter (mine (slot c k)) (skid_content (x_skid s)) = [].
  Proof.
    intros A X. pose proof (iv iv_live k A) as G. unfold op_next in X. cbn [p_got] in X. destruct (hit c n k (i_wdone i)) eqn:H; [|exact (ag_got _ _ _ _ _ G X)].
    destruct (wdone_got k H) as (_ & B1 & B2 & _). split; [exact B1|]. rewrite <- (ag_wr _ _ _ _ _ G), app_length in B2. apply length_zero_iff_nil. lia.
  Qed.

  Lemma agrees_step k : (F <= k < n)%nat ->
    agrees c (skid_content (x_skid (fst (g_step c s i)))) k (entry_next c s i (slot c k) (x_tab s (slot c k))) (next k).
  Proof.
    intros A. pose proof cnt as Q. pose proof (iv iv_live k A) as G. set (e := x_tab s (slot c k)) in *.
    assert (New : match v_req s i with Some _ => (slot c (x_sp s) =? slot c k)%nat | None => false end = false).
    { destruct (v_req s i) as [r|] eqn:E; [|reflexivity]. apply Nat.eqb_neq. rewrite sp_slot. exact (new_slot k r E A). }
    assert (DF := dj_facts k).
    assert (Buf : n_buf (entry_next c s i (slot c k) e) = n_buf e) by (unfold entry_next, entry_upd; cbn [n_buf]; rewrite New; reflexivity).
    constructor.
    - unfold entry_next, entry_upd, op_next. cbn [n_tag p_tag]. rewrite <- (ag_tag _ _ _ _ _ G). fold e. destruct (v_req s i); [rewrite New|]; reflexivity.
    - intros d X. rewrite Buf. unfold op_next in X. cbn [p_rxd] in X. destruct (rx_out i o) as [d'|] eqn:E; [|exact (ag_rxd _ _ _ _ _ G d X)].
      destruct (means c n k (x_tag d')) eqn:M; [|exact (ag_rxd _ _ _ _ _ G d X)]. injection X as ->.
      destruct (rx_pend _ E) as (j & J1 & J2 & J3 & _ & J4). rewrite J3 in M. apply same_target in M; [|lia]. subst j. exact J4.
    - intros r X. unfold entry_next, entry_upd. cbn [n_len n_id n_ts n_hash n_ht]. unfold op_next in X. cbn [p_rx] in X.
      assert (Old : p_rx (l_op L k) = Some r -> p_rxd (next k) <> None /\ 0 <= r_len r <= g_max c /\ n_len e = r_len r /\ n_id e = r_id r /\
        n_ts e = r_ts r /\ n_hash e = r_hash r mod 2 ^ 32 /\ n_ht e = r_ht r mod 2 ^ 4).
      { intros Y. destruct (ag_rx _ _ _ _ _ G r Y) as (Y1 & Y2). rewrite rxd_next by exact Y1. auto. }
      destruct (i_rx i) as [[t r']|] eqn:E; [|exact (Old X)]. destruct (w_rx _ _ E) as (j & d & J1 & -> & J2 & J3 & J4).
      rewrite see by lia. destruct (means c n k (slot c j)) eqn:M; [|exact (Old X)]. injection X as ->. apply same_target in M; [|lia]. subst j.
      destruct (ag_rxd _ _ _ _ _ G d J2) as [_ Rm]. destruct Sane as (S1 & _). rewrite rxd_next by congruence.
      assert (P : 0 <= r_len r <= g_max c) by (clear - J4 Rm; lia). rewrite Z.mod_small by (clear - P S1; lia). rewrite J2. splits; auto; try (clear - P; lia). discriminate.
    - pose proof (ag_q _ _ _ _ _ G) as X. fold e in X.
      assert (Old : match p_queue (l_op L k) with Some q => n_done e = true /\ n_queue e = q /\ p_rx (next k) <> None | None => n_done e = false end).
      { destruct (p_queue (l_op L k)); [|exact X]. destruct X as (X1 & X2 & X3). rewrite rx_next by exact X3. auto. }
      unfold op_next at 1. unfold entry_next, entry_upd. cbn [n_done n_queue p_queue]. rewrite New.
      destruct (i_map i) as [[t q]|] eqn:E; [|exact Old]. destruct (w_map _ _ E) as (j & J1 & -> & J2 & J3).
      rewrite see by lia. destruct (means c n k (slot c j)) eqn:M; [|exact Old]. apply same_target in M; [|lia]. subst j.
      rewrite rx_next by exact J2. auto.
    - unfold entry_next, entry_upd, op_next. cbn [n_inv p_ans]. rewrite New. pose proof (ag_inv _ _ _ _ _ G) as X. fold e in X.
      destruct (i_ans i) as [[[[t a] q] b]|] eqn:E; [|exact X]. destruct (w_ans _ _ _ _ E) as (j & J1 & -> & J2 & _). rewrite see by lia.
      destruct (means c n k (slot c j)) eqn:M; [|exact X]. apply same_target in M; [|lia]. subst j. rewrite J2 in X. destruct b; [reflexivity|exact X].
    - unfold entry_next, entry_upd, op_next. cbn [n_qptr n_cq p_ans]. pose proof (ag_ans _ _ _ _ _ G) as X. fold e in X.
      destruct (i_ans i) as [[[[t a] q] b]|] eqn:E; [|exact X]. destruct (w_ans _ _ _ _ E) as (j & J1 & -> & J2 & _). rewrite see by lia.
      destruct (means c n k (slot c j)) eqn:M; [|exact X]. destruct b; auto.
    - rewrite descs_next. intros X. apply pk_next. destruct (dj k) as [[d l]|] eqn:E; [apply (DF _ _ eq_refl)|]. rewrite app_nil_r in X. exact (ag_desc _ _ _ _ _ G X).
    - rewrite descs_next, whole_next. destruct (dj k) as [[d l]|] eqn:E.
      + intros _ X. apply app_eq_nil in X. destruct X as [_ X]. discriminate.
      + rewrite app_nil_r. exact (ag_wh _ _ _ _ _ G).
    - rewrite descs_next. apply Forall_app. split; [exact (ag_pos _ _ _ _ _ G)|]. destruct (dj k) as [[d l]|] eqn:E; [|constructor].
      constructor; [|constructor]. apply (DF _ _ eq_refl).
    - rewrite writes_next, placed_next, (ag_wr _ _ _ _ _ G) by exact A. reflexivity.
    - intros X. destruct (got_next k A X) as [X1 X2]. assert (E : dj k = None).
      { destruct (dj k) as [[d l]|] eqn:E; [|reflexivity]. destruct (DF _ _ eq_refl) as (_ & _ & _ & Y & _). congruence. }
      rewrite whole_next, E. split; [exact X1|]. pose proof (writes_next k A) as Y. rewrite E, X2, !app_nil_r in Y. destruct (writes_prefix k) as [l Hl].
      rewrite Hl, <- app_assoc in Y. rewrite <- (app_nil_r (p_writes (l_op L k))) in Y at 2. apply app_inv_head in Y. apply app_eq_nil in Y. apply Y.
    - destruct (writes_prefix k) as [l ->]. rewrite app_length. unfold op_next. cbn [p_got]. pose proof (ag_le _ _ _ _ _ G).
      destruct (hit c n k (i_wdone i)) eqn:H0; [apply wdone_got in H0|]; lia.
    - unfold entry_next, entry_upd, op_next. cbn [n_wr p_got]. rewrite New, wdone_hit by exact A. destruct (hit c n k (i_wdone i)); [reflexivity|]. exact (ag_nw _ _ _ _ _ G).
    - unfold entry_next, entry_upd, op_next. cbn [n_cw p_written]. rewrite New, cans_hit by exact A. rewrite <- (ag_cw _ _ _ _ _ G). fold e.
      destruct (hit c n k (i_cans i)); [rewrite orb_true_r; reflexivity|rewrite orb_false_r; reflexivity].
    - unfold op_next. cbn [p_written p_cpl]. intros H. apply orb_true_iff in H. destruct H as [H|H].
      + rewrite (ag_w _ _ _ _ _ G H). reflexivity.
      + unfold hit in H. destruct (i_cans i) as [t|] eqn:E; [|discriminate]. destruct (w_cans _ E) as (j & B & -> & Y).
        apply same_target in H; [|lia]. subst j. rewrite Y. reflexivity.
  Qed.

  Notation st' := (fst (g_step c s i)).
  Notation L' := (keep c L (i, o)).
  Notation D' := (if v_deq c s then S D else D).
  Notation C' := (if moves (v_cpl c s i) then S C else C).
  Notation F' := (if moves (v_fin c s) then S F else F).
  Notation K' := (length (l_cks L')).
  Ltac st f := unfold g_step at 1; rewrite w_rst; cbn [fst f].

  Lemma n_next : l_n L' = match v_req s i with Some _ => S n | None => n end.
  Proof. unfold keep. rewrite req_same. destruct (v_req s i); reflexivity. Qed.
  Lemma op_old k : (k < n)%nat -> l_op L' k = next k.
  Proof.
    intros A. unfold keep. rewrite req_same. destruct (v_req s i); [|reflexivity]. cbn [l_op]. destruct (Nat.eqb_spec k n); [lia|reflexivity].
  Qed.
  Lemma op_new t : v_req s i = Some t -> l_op L' n = blank t.
  Proof. intros E. unfold keep. rewrite req_same, E. cbn [l_op]. rewrite Nat.eqb_refl. reflexivity. Qed.
  Lemma cks_next : l_cks L' = l_cks L ++ olist (csum_in i o).
  Proof. unfold keep. destruct (req_in i o); reflexivity. Qed.
  Lemma K_next : K' = match csum_in i o with Some _ => S K | None => K end.
  Proof. rewrite cks_next, app_length. destruct (csum_in i o); cbn; lia. Qed.

  Definition unread (k : nat) : Prop := forall r, In r (skid_content (x_skid s)) -> means c n k (w_tag r) = false.
  Lemma no_mine k : (F <= k < n)%nat -> filter (mine (slot c k)) (skid_content (x_skid s)) = [] -> unread k.
  Proof.
    intros A E r Hr. rewrite live_sees by exact A. destruct (Nat.eqb_spec (slot c k) (w_tag r)) as [X|]; [|reflexivity]. exfalso.
    assert (In r (filter (mine (slot c k)) (skid_content (x_skid s)))) as Y; [|rewrite E in Y; exact Y].
    apply filter_In. split; [exact Hr|]. unfold mine. apply Nat.eqb_eq. auto.
  Qed.
  Lemma deq_moves : v_deq c s = true -> (D < n)%nat /\ x_dreq s = None /\ p_queue (l_op L D) = Some (n_queue (x_tab s (slot c D))) /\
    p_rx (l_op L D) <> None /\ p_rxd (l_op L D) <> None.
  Proof.
    unfold v_deq. rewrite dp_slot. pose proof cnt as Q. destruct (iv iv_ptr) as (-> & -> & _). intros X.
    apply andb_true_iff in X. destruct X as [X _]. apply andb_true_iff in X. destruct X as [X Xr]. apply andb_true_iff in X. destruct X as [X Xd].
    apply andb_true_iff in X. destruct X as [_ Xp]. rewrite ptr_eqb in Xp by lia. apply negb_true_iff, Nat.eqb_neq in Xp.
    pose proof (iv iv_live D ltac:(lia)) as G. pose proof (ag_q _ _ _ _ _ G) as Gq. destruct (p_queue (l_op L D)) as [q|]; [|congruence].
    destruct Gq as (_ & <- & Gr). splits; auto; try lia; try (destruct (x_dreq s); [discriminate|reflexivity]).
    destruct (p_rx (l_op L D)) as [r|] eqn:Er; [|congruence]. apply (ag_rx _ _ _ _ _ G r Er).
  Qed.
  Lemma cpl_moves : v_cpl c s i <> Wait -> (C < D)%nat /\ (g_csum c = true -> (C < K)%nat) /\ fixedop c C (l_op L C) /\ unread C /\
    (v_cpl c s i = Go -> delivered c C (l_op L C) /\ (x_cpl s = None \/ i_crdy i = true)) /\
    (v_cpl c s i = Skip -> p_ans (l_op L C) = Some None).
  Proof.
    unfold v_cpl. rewrite cp_slot. pose proof cnt as Q.
    destruct (n_act (x_tab s (slot c C)) && negb (x_cp s =? x_sp s)%nat && negb (x_cp s =? x_dp s)%nat && (negb (x_cp s =? x_kp s)%nat || negb (g_csum c))) eqn:B; [|congruence].
    apply andb_true_iff in B. destruct B as [B Bk]. apply andb_true_iff in B. destruct B as [B Bd]. clear B.
    destruct (iv iv_ptr) as (P1 & P2 & P3 & _). rewrite P3 in Bk, Bd. rewrite P2, ptr_eqb in Bd by lia. apply negb_true_iff, Nat.eqb_neq in Bd.
    assert (A : (F <= C < n)%nat) by lia. pose proof (iv iv_live C A) as G.
    assert (Ck : g_csum c = true -> (C < K)%nat).
    { intros Hc. rewrite Hc, orb_false_r in Bk. destruct (iv iv_k Hc) as ((K1 & K2) & Kp). rewrite Kp, ptr_eqb in Bk by lia. apply negb_true_iff, Nat.eqb_neq in Bk. lia. }
    pose proof (ag_inv _ _ _ _ _ G) as Gi. pose proof (ag_wr _ _ _ _ _ G) as Gw. destruct (n_inv (x_tab s (slot c C))).
    - intros _. assert (Pa : p_ans (l_op L C) = Some None) by (destruct (p_ans (l_op L C)) as [[|]|]; congruence).
      assert (Pd : p_descs (l_op L C) = []).
      { destruct (p_descs (l_op L C)) as [|d ds] eqn:E; [reflexivity|]. pose proof (ag_desc _ _ _ _ _ G) as X. rewrite E in X. unfold has_packet in X. rewrite Pa in X. discriminate X. discriminate. }
      assert (Pl : placed c C (l_op L C) = []) by (unfold placed; rewrite Pd; cbn [spread]; destruct (p_rxd (l_op L C)), (p_rx (l_op L C)); reflexivity).
      rewrite Pl in Gw. apply app_eq_nil in Gw. destruct Gw as [Gw1 Gw2].
      assert (Pw : p_whole (l_op L C) = false) by (destruct (p_whole (l_op L C)) eqn:E; [exfalso; exact (ag_wh _ _ _ _ _ G E Pd)|reflexivity]).
      split; [lia|]. split; [exact Ck|]. split; [left; auto|]. split; [apply no_mine; assumption|]. split; [discriminate|auto].
    - rewrite (ag_nw _ _ _ _ _ G). destruct (Nat.ltb_spec 0 (p_got (l_op L C))) as [Hg|]; cbn [andb]; [|congruence].
      destruct (isnone (x_cpl s) || i_crdy i) eqn:B2; [|congruence]. intros _. destruct (ag_got _ _ _ _ _ G Hg) as [Hw Hf]. rewrite Hf, app_nil_r in Gw.
      assert (Dl : delivered c C (l_op L C)).
      { split; [apply (ag_desc _ _ _ _ _ G); exact (ag_wh _ _ _ _ _ G Hw)|]. split; [exact Hw|]. split; [exact Gw|]. split; [exact Hg|exact (ag_le _ _ _ _ _ G)]. }
      split; [lia|]. split; [exact Ck|]. split; [right; exact Dl|]. split; [apply no_mine; assumption|]. split; [|discriminate].
      intros _. split; [exact Dl|]. destruct (x_cpl s); [right; exact B2|auto].
  Qed.
  Lemma fin_moves : v_fin c s <> Wait -> (F < C)%nat /\ (v_fin c s = Go -> delivered c F (l_op L F) /\ p_written (l_op L F) = true /\ p_cpl (l_op L F) = true) /\
    (v_fin c s = Skip -> p_ans (l_op L F) = Some None).
  Proof.
    unfold v_fin. rewrite fp_slot. pose proof cnt as Q. destruct (iv iv_ptr) as (-> & _ & -> & ->). rewrite !ptr_eqb by lia.
    destruct (n_act (x_tab s (slot c F))) eqn:A1; cbn [andb]; [|congruence]. destruct (Nat.eqb_spec F n) as [|A2]; cbn [negb andb]; [congruence|].
    destruct (Nat.eqb_spec F C) as [|A4]; cbn [negb andb]; [congruence|].
    assert (A3 : (F <= F < n)%nat) by lia. pose proof (iv iv_live F A3) as G.
    pose proof (ag_inv _ _ _ _ _ G) as Gi. destruct (n_inv (x_tab s (slot c F))).
    - intros _. splits; [lia|discriminate|]. destruct (p_ans (l_op L F)) as [[|]|]; congruence.
    - rewrite (ag_cw _ _ _ _ _ G). destruct (p_written (l_op L F)) eqn:B1; [|congruence]. intros _. split; [lia|]. split; [|discriminate]. intros _. split; [|split; [reflexivity|exact (ag_w _ _ _ _ _ G B1)]].
      destruct (iv iv_C F ltac:(lia)) as [(X & _)|X]; [rewrite X in Gi; discriminate|exact X].
  Qed.
  Lemma D_ok : (D <= D' /\ D' <= n)%nat.
  Proof. pose proof cnt. destruct (v_deq c s) eqn:E; [|lia]. destruct (deq_moves E). lia. Qed.
  Lemma C_ok : (C <= C' /\ C' <= D)%nat.
  Proof. pose proof cnt. destruct (v_cpl c s i) eqn:E; cbn [moves]; [lia| |]; destruct cpl_moves as (A & _); try congruence; lia. Qed.
  Lemma F_ok : (F <= F' /\ F' <= C)%nat.
  Proof. pose proof cnt. destruct (v_fin c s) eqn:E; cbn [moves]; [lia| |]; destruct fin_moves as (A & _); try congruence; lia. Qed.
  Lemma req_room r : v_req s i = Some r -> (n < F + N)%nat /\ x_rx s = None.
  Proof. unfold v_req. destruct (x_ready s) eqn:X; [|discriminate]. intros _. exact (iv iv_ready X). Qed.

  Lemma frozen k : (k < n)%nat -> fixedop c k (l_op L k) -> unread k -> let p := l_op L k in let q := next k in
    p_ans q = p_ans p /\ p_descs q = p_descs p /\ p_whole q = p_whole p /\ p_writes q = p_writes p.
  Proof.
    intros A X U. assert (Dj : dj k = None).
    { destruct (dj k) as [[d l]|] eqn:E; [|reflexivity]. destruct (dj_facts _ _ _ E) as (_ & _ & Y1 & Y2 & _). rewrite (fixed_whole k _ X Y1) in Y2. discriminate. }
    cbv zeta. rewrite ans_next, descs_next, whole_next, Dj, app_nil_r by exact (fixed_ans k _ X). splits; auto.
    unfold op_next. cbn [p_writes]. destruct (write_out i o) as [r|] eqn:E; [|reflexivity]. rewrite (U r (write_out_in r E)). reflexivity.
  Qed.
  Lemma old_unread k : (k < C)%nat -> unread k.
  Proof.
    intros A r R. destruct (iv iv_tags r R) as (j & B & ->). destruct (means c n k (slot c j)) eqn:M; [|reflexivity].
    pose proof cnt. apply same_target in M; lia.
  Qed.
  Lemma fixed_next k : (k < C')%nat -> fixedop c k (l_op L k) /\ unread k.
  Proof.
    intros A. destruct (Nat.lt_ge_cases k C) as [B|B]; [split; [exact (iv iv_C k B)|exact (old_unread k B)]|].
    destruct (v_cpl c s i) eqn:E; cbn [moves] in A; [lia| |]; (assert (k = C) by lia; subst k; destruct cpl_moves as (_ & _ & X2 & X3 & _); [congruence|auto]).
  Qed.
  Lemma frozen' k : (k < C')%nat -> let p := l_op L k in let q := next k in
    p_ans q = p_ans p /\ p_descs q = p_descs p /\ p_whole q = p_whole p /\ p_writes q = p_writes p /\ p_rx q = p_rx p /\ p_rxd q = p_rxd p /\ p_queue q = p_queue p.
  Proof.
    intros A. pose proof cnt as Q. pose proof C_ok as Q2. destruct (fixed_next k A) as [B1 B2]. cbv zeta. destruct (frozen k ltac:(lia) B1 B2) as (-> & -> & -> & ->).
    destruct (iv iv_D k ltac:(lia)) as (X1 & X2 & X3). rewrite rx_next, rxd_next, q_next by assumption. splits; reflexivity.
  Qed.
  Lemma placed_same k : (k < C')%nat -> placed c k (next k) = placed c k (l_op L k).
  Proof. intros A. destruct (frozen' k A) as (_ & E2 & _ & _ & E5 & E6 & _). unfold placed. rewrite E2, E5, E6. reflexivity. Qed.
  Lemma delivered_next k : (k < C')%nat -> delivered c k (l_op L k) -> delivered c k (next k).
  Proof.
    intros A (X1 & X2 & X3 & X4). destruct (frozen' k A) as (E1 & E2 & E3 & E4 & _). unfold delivered. rewrite (placed_same k A).
    unfold has_packet in *. rewrite E1, E3, E4. split; [exact X1|]. split; [exact X2|]. split; [exact X3|]. unfold op_next. cbn [p_got].
    destruct (hit c n k (i_wdone i)) eqn:H; [destruct (wdone_got k H) as (_ & _ & _ & Y)|]; lia.
  Qed.
  Lemma pk_same k : (k < C')%nat -> pk L' k = pk L k.
  Proof. intros A. pose proof C_ok. pose proof cnt. unfold pk. rewrite op_old by lia. unfold has_packet. destruct (frozen' k A) as (-> & _). reflexivity. Qed.
  Lemma filter_same m : (m <= C')%nat -> filter (pk L') (seq 0 m) = filter (pk L) (seq 0 m).
  Proof. intros A. apply filter_ext_in. intros k H. apply in_seq in H. apply pk_same. lia. Qed.
  Lemma Hn : (n <= l_n L')%nat.
  Proof. rewrite n_next. destruct (v_req s i); lia. Qed.

  Lemma s_cnt : (F' <= C' /\ C' <= D' /\ D' <= l_n L' /\ l_n L' <= F' + N)%nat.
  Proof.
    pose proof cnt. pose proof D_ok. pose proof C_ok. pose proof F_ok. rewrite n_next. destruct (v_req s i) as [r|] eqn:E; [|lia].
    destruct (req_room r E). lia.
  Qed.
  Lemma s_k : g_csum c = true -> (C' <= K' /\ K' <= l_n L')%nat /\ x_kp st' = (K' mod (2 * N))%nat.
  Proof.
    intros Hc. destruct (iv iv_k Hc) as ((K1 & K2) & Kp). pose proof C_ok. pose proof Hn.
    assert (Xk : x_kp st' = if moves (v_ck c s i) then pnext c (x_kp s) else x_kp s) by (st x_kp; reflexivity). rewrite K_next, Xk, Kp, pnext_ok. clear Xk.
    assert (Ck : (C' <= K)%nat).
    { destruct (v_cpl c s i) eqn:E; cbn [moves]; [lia| |]; destruct cpl_moves as (_ & X & _); try congruence; specialize (X Hc); lia. }
    pose proof ck_same as X. destruct (csum_in i o).
    - destruct X as (_ & X1 & X2 & _). rewrite X2. cbn [moves]. split; [split; lia|reflexivity].
    - rewrite X. cbn [moves]. split; [split; lia|reflexivity].
  Qed.
  Lemma s_ptr : x_sp st' = (l_n L' mod (2 * N))%nat /\ x_dp st' = (D' mod (2 * N))%nat /\ x_cp st' = (C' mod (2 * N))%nat /\ x_fp st' = (F' mod (2 * N))%nat.
  Proof.
    destruct (iv iv_ptr) as (P1 & P2 & P3 & P4). rewrite n_next. unfold g_step at 1 2 3 4. rewrite w_rst. cbn [fst x_sp x_dp x_cp x_fp].
    rewrite P1, P2, P3, P4, !pnext_ok. splits.
    - destruct (v_req s i); reflexivity.
    - destruct (v_deq c s); reflexivity.
    - destruct (moves (v_cpl c s i)); reflexivity.
    - destruct (moves (v_fin c s)); reflexivity.
  Qed.
  Lemma s_tab k : x_tab st' k = entry_next c s i k (x_tab s k).
  Proof. st x_tab. reflexivity. Qed.
  Lemma s_on j : (F' <= j < l_n L')%nat -> n_act (x_tab st' (slot c j)) = true.
  Proof.
    intros A. rewrite s_tab. unfold entry_next, entry_upd. cbn [n_act]. rewrite fp_slot, sp_slot. pose proof cnt. pose proof F_ok. rewrite n_next in A.
    assert (Fin : moves (v_fin c s) && (slot c F =? slot c j)%nat = false).
    { destruct (moves (v_fin c s)) eqn:M; [|reflexivity]. cbn [andb]. apply Nat.eqb_neq. intros X.
      assert (J : (j < F + N)%nat) by (destruct (v_req s i) as [r|] eqn:E; [destruct (req_room r E)|]; lia).
      apply slot_inj in X; lia. }
    rewrite Fin. destruct (v_req s i) as [r|] eqn:E.
    - destruct (Nat.eqb_spec (slot c n) (slot c j)) as [X|X]; [reflexivity|]. apply (iv iv_on).
      assert (j <> n) by congruence. lia.
    - apply (iv iv_on). lia.
  Qed.
  Lemma s_off j : (l_n L' <= j < F' + N)%nat -> n_act (x_tab st' (slot c j)) = false.
  Proof.
    intros A. rewrite s_tab. unfold entry_next, entry_upd. cbn [n_act]. rewrite fp_slot, sp_slot. pose proof cnt. pose proof F_ok. rewrite n_next in A.
    destruct (moves (v_fin c s) && (slot c F =? slot c j)%nat) eqn:Fin; [reflexivity|].
    assert (B : (j < F + N)%nat).
    { destruct (moves (v_fin c s)) eqn:M; [|lia]. cbn [andb] in Fin. apply Nat.eqb_neq in Fin. assert (j <> F + N)%nat; [|lia]. intros ->.
      apply Fin. unfold slot. replace (F + N)%nat with (F + 1 * N)%nat by lia. rewrite Nat.mod_add; [reflexivity|]. pose proof (N_pos c). lia. }
    destruct (v_req s i) as [r|] eqn:E.
    - destruct (Nat.eqb_spec (slot c n) (slot c j)) as [X|X]; [apply slot_inj in X; lia|]. apply (iv iv_off). lia.
    - apply (iv iv_off). lia.
  Qed.
  Lemma s_ready : x_ready st' = true -> (l_n L' < F' + N)%nat /\ x_rx st' = None.
  Proof.
    rewrite n_next. unfold g_step at 1 2. rewrite w_rst. cbn [fst x_ready x_rx]. destruct (v_req s i) as [t|] eqn:E; [discriminate|].
    intros X. repeat (apply andb_true_iff in X; destruct X as [X ?]). destruct (iv iv_ptr) as (P1 & _ & _ & P4). pose proof cnt. pose proof F_ok.
    rewrite P1, P4, pdiff_ok in H0 by lia. apply Nat.ltb_lt in H0. split; [lia|].
    destruct (i_rxrdy i); [reflexivity|]. rewrite orb_false_r in H. destruct (x_rx s); [discriminate|reflexivity].
  Qed.
  Lemma s_skid : skid_inv (x_skid st').
  Proof. st x_skid. apply skid_step_inv. exact (iv iv_skid). Qed.
  Lemma s_dready : x_dready st' = true -> k_rdy (x_skid st') = true.
  Proof.
    unfold g_step at 1 2. rewrite w_rst. cbn [fst x_dready x_skid]. intros X. rewrite <- X.
    unfold skid_step. destruct (k_rdy (x_skid s)), (i_wrdy i || isnone (k_out (x_skid s))), (i_wrdy i); reflexivity.
  Qed.
  Lemma loud_late k : (k < n)%nat -> has_packet (l_op L k) = true -> p_whole (l_op L k) = false -> (C' <= k)%nat.
  Proof.
    intros A B E. destruct (Nat.le_gt_cases C' k) as [|X]; [assumption|]. destruct (fixed_next k X) as [Y _]. rewrite (fixed_whole k _ Y B) in E. discriminate.
  Qed.
  Lemma s_tags r : In r (skid_content (x_skid st')) -> exists k, (C' <= k < l_n L')%nat /\ w_tag r = slot c k.
  Proof.
    intros A. assert (B : In r (olist (write_out i o) ++ skid_content (x_skid st'))) by (apply in_or_app; auto).
    rewrite <- content in B. pose proof cnt as Q. pose proof C_ok as Q2. pose proof Hn as Q3.
    apply in_app_or in B. destruct B as [B|B].
    - destruct (iv iv_tags r B) as (k & K1 & K2). exists k. split; [|exact K2]. split; [|lia].
      destruct (Nat.le_gt_cases C' k) as [|X]; [assumption|]. destruct (fixed_next k X) as [_ U]. specialize (U r B).
      rewrite live_sees in U by lia. rewrite K2, Nat.eqb_refl in U. discriminate.
    - destruct (write_tag r B) as (k & K1 & K2 & K3). exists k. split; [|exact K2]. split; [|lia]. destruct (dj k) as [[d l]|] eqn:E; [|congruence].
      destruct (dj_facts _ _ _ E) as (_ & _ & X1 & X2 & _). apply loud_late; [lia|exact X1|exact X2].
  Qed.
  Lemma s_mtu : x_mtu st' <= g_max c.
  Proof. st x_mtu. destruct (Z.ltb_spec (g_max c) (i_mtu i)); lia. Qed.
  Lemma ckon_K : v_ckon c s = true -> g_csum c = true /\ (K < n)%nat.
  Proof.
    unfold v_ckon. intros On. apply andb_true_iff in On. destruct On as [On Hc]. split; [exact Hc|].
    apply andb_true_iff in On. destruct On as [_ On]. destruct (iv iv_k Hc) as ((K1 & K2) & Kp). pose proof cnt.
    destruct (iv iv_ptr) as (Sp & _). rewrite Sp, Kp, ptr_eqb in On by lia. apply negb_true_iff, Nat.eqb_neq in On. lia.
  Qed.
  Lemma s_cready : x_cready st' = true -> g_csum c = true /\ (K' < l_n L')%nat.
  Proof.
    st x_cready. intros X. apply andb_true_iff in X. destruct X as [X1 X2]. destruct (ckon_K X1) as [Y1 Y2]. split; [exact Y1|]. rewrite K_next. pose proof Hn.
    pose proof ck_same as Z. destruct (csum_in i o); [|lia]. destruct Z as (_ & _ & Z & _). rewrite Z in X2. discriminate.
  Qed.
  Lemma s_live k : (F' <= k < l_n L')%nat -> agrees c (skid_content (x_skid st')) k (x_tab st' (slot c k)) (l_op L' k).
  Proof.
    intros A. pose proof cnt as Q. pose proof F_ok as Q2. rewrite s_tab. rewrite n_next in A. destruct (Nat.lt_ge_cases k n) as [B|B].
    - rewrite op_old by exact B. apply agrees_step. lia.
    - destruct (v_req s i) as [t|] eqn:E; [|lia]. assert (k = n) by lia. subst k. rewrite (op_new _ E).
      destruct (req_room _ E) as [Rm _].
      assert (Ot : forall j, (F <= j < n)%nat -> (slot c j =? slot c n)%nat = false).
      { intros j J. apply Nat.eqb_neq. intros X. apply slot_inj in X; lia. }
      assert (Ot' : forall j, (F <= j < n)%nat -> (slot c (slot c j) =? slot c n)%nat = false).
      { intros j J. rewrite (slot_small c (slot c j)) by apply slot_lt. apply Ot. exact J. }
      assert (Em : filter (mine (slot c n)) (skid_content (x_skid st')) = []).
      { destruct (filter (mine (slot c n)) (skid_content (x_skid st'))) as [|r l] eqn:Z; [reflexivity|]. exfalso.
        assert (Hr : In r (filter (mine (slot c n)) (skid_content (x_skid st')))) by (rewrite Z; left; reflexivity).
        apply filter_In in Hr. destruct Hr as [H1 H2]. unfold mine in H2. apply Nat.eqb_eq in H2.
        assert (Hc : In r (olist (write_out i o) ++ skid_content (x_skid st'))) by (apply in_or_app; auto). rewrite <- content in Hc.
        assert (Hk : exists j, (F <= j < n)%nat /\ w_tag r = slot c j).
        { apply in_app_or in Hc. destruct Hc as [Hc|Hc]; [destruct (iv iv_tags r Hc) as (j & J1 & J2)|destruct (write_tag r Hc) as (j & J1 & J2 & _)];
            (exists j; split; [lia|exact J2]). }
        destruct Hk as (j & J1 & J2). specialize (Ot j J1). rewrite <- J2, H2, Nat.eqb_refl in Ot. discriminate. }
      unfold blank. constructor; cbn [p_tag p_rxd p_rx p_queue p_ans p_descs p_whole p_writes p_got p_cpl p_written];
        try discriminate; try (intros; congruence); try lia; try exact Logic.I.
      + unfold entry_next, entry_upd. cbn [n_tag]. rewrite E, sp_slot, Nat.eqb_refl. auto.
      + unfold entry_next, entry_upd. cbn [n_done]. rewrite E, sp_slot, Nat.eqb_refl.
        destruct (i_map i) as [[t' q]|] eqn:Ea; [|reflexivity]. destruct (w_map _ _ Ea) as (j & J & -> & _). rewrite Ot' by lia. reflexivity.
      + unfold entry_next, entry_upd. cbn [n_inv]. rewrite E, sp_slot, Nat.eqb_refl.
        destruct (i_ans i) as [[[[t' a] q'] b]|] eqn:Ea; [|reflexivity]. destruct (w_ans _ _ _ _ Ea) as (j & J & -> & _). rewrite Ot' by lia. reflexivity.
      + constructor.
      + unfold placed. cbn [p_rxd p_rx]. rewrite Em. reflexivity.
      + unfold entry_next, entry_upd. cbn [n_wr]. rewrite E, sp_slot, Nat.eqb_refl. unfold is_tag.
        destruct (i_wdone i) as [t'|] eqn:Ec; [|reflexivity]. destruct (w_wdone _ Ec) as (j & J & -> & _). rewrite Ot' by lia. reflexivity.
      + unfold entry_next, entry_upd. cbn [n_cw]. rewrite E, sp_slot, Nat.eqb_refl. unfold is_tag.
        destruct (i_cans i) as [t'|] eqn:Ec; [|reflexivity]. destruct (w_cans _ Ec) as (j & J & -> & _). rewrite Ot' by lia. reflexivity.
  Qed.
  Lemma mono k : (p_written (l_op L k) = true -> p_written (next k) = true) /\ (p_cpl (l_op L k) = true -> p_cpl (next k) = true).
  Proof. unfold op_next. cbn [p_written p_cpl]. split; intros ->; reflexivity. Qed.
  Lemma s_C k : (k < C')%nat -> fixedop c k (l_op L' k).
  Proof.
    intros A. pose proof C_ok. pose proof cnt. rewrite op_old by lia. destruct (fixed_next k A) as [B _]. destruct (frozen' k A) as (E1 & E2 & E3 & E4 & _).
    destruct B as [B|B]; [left; rewrite E1, E2, E3, E4; exact B|right; apply delivered_next; assumption].
  Qed.
  Lemma s_old k : (k < F')%nat -> settled c k (l_op L' k).
  Proof.
    intros A. pose proof cnt. pose proof F_ok. pose proof C_ok. rewrite op_old by lia. destruct (frozen' k ltac:(lia)) as (E1 & _). destruct (mono k) as (M1 & M2).
    pose proof (delivered_next k ltac:(lia)) as Dn. unfold settled. rewrite E1.
    destruct (Nat.lt_ge_cases k F) as [B|B].
    - destruct (iv iv_old k B) as [X|(X1 & X2 & X3)]; [auto|right; auto].
    - destruct (v_fin c s) eqn:E; cbn [moves] in A; [lia| |]; (assert (k = F) by lia; subst k; destruct fin_moves as (X1 & X3 & X4); [congruence|]).
      + left. auto.
      + destruct (X3 E) as (Y1 & Y2 & Y3). right. auto.
  Qed.
  Lemma s_D k : (k < D')%nat -> p_rxd (l_op L' k) <> None /\ p_rx (l_op L' k) <> None /\ p_queue (l_op L' k) <> None.
  Proof.
    intros A. pose proof D_ok. rewrite op_old by lia.
    assert (X : p_rxd (l_op L k) <> None /\ p_rx (l_op L k) <> None /\ p_queue (l_op L k) <> None).
    { destruct (Nat.lt_ge_cases k D) as [B|B]; [exact (iv iv_D k B)|]. destruct (v_deq c s) eqn:E; [|lia]. assert (k = D) by lia. subst k.
      destruct (deq_moves E) as (_ & _ & X1 & X2 & X3). rewrite X1. splits; auto. discriminate. }
    destruct X as (X1 & X2 & X3). rewrite rxd_next, rx_next, q_next by assumption. auto.
  Qed.
  Lemma dq_live d : x_dreq s = Some d -> exists k, (F <= k < n)%nat /\ S k = D /\ snd d = slot c k /\ p_dreq (l_op L k) = false /\ p_ans (l_op L k) = None.
  Proof.
    intros E. destruct (iv iv_dq d E) as (k & K1 & K2 & K3 & K4). exists k. pose proof cnt. splits; auto; try lia.
    destruct (Nat.le_gt_cases C k) as [|Z]; [lia|]. exfalso. exact (fixed_ans k _ (iv iv_C k Z) K4).
  Qed.
  Lemma s_D' k : (D' <= k < l_n L')%nat -> p_dreq (l_op L' k) = false /\ p_ans (l_op L' k) = None.
  Proof.
    intros A. rewrite n_next in A. pose proof D_ok. pose proof cnt. destruct (Nat.lt_ge_cases k n) as [B|B].
    - rewrite op_old by exact B. destruct (iv iv_D' k ltac:(lia)) as [X1 X2]. unfold op_next. cbn [p_dreq p_ans]. rewrite X1. cbn [orb]. split.
      + unfold hit, dreq_out. cbn. destruct (i_drdy i); [|reflexivity]. destruct (x_dreq s) as [d|] eqn:E; [|reflexivity]. cbn.
        destruct (dq_live d E) as (j & J1 & J2 & -> & _). destruct (means c n k (slot c j)) eqn:M; [|reflexivity]. apply same_target in M; lia.
      + destruct (i_ans i) as [[[[t a] q] b]|] eqn:E; [|exact X2]. destruct (w_ans _ _ _ _ E) as (j & J1 & -> & _).
        destruct (means c n k (slot c j)) eqn:M; [|exact X2]. apply same_target in M; lia.
    - destruct (v_req s i) as [t|] eqn:E; [|lia]. assert (k = n) by lia. subst k. rewrite (op_new _ E). auto.
  Qed.
  Lemma s_K : g_csum c = true -> forall k, (K' <= k < l_n L')%nat -> p_ans (l_op L' k) <> Some None.
  Proof.
    intros Hc k A. rewrite n_next, K_next in A. pose proof cnt. assert (A2 : (K <= k)%nat) by (destruct (csum_in i o); lia).
    destruct (Nat.lt_ge_cases k n) as [B|B].
    - rewrite op_old by exact B. pose proof (iv iv_K Hc k ltac:(lia)) as X. unfold op_next. cbn [p_ans].
      destruct (i_ans i) as [[[[t a] q] b]|] eqn:E; [|exact X]. destruct (w_ans _ _ _ _ E) as (j & J1 & -> & _ & _ & J2).
      destruct (means c n k (slot c j)) eqn:M; [|exact X]. apply same_target in M; [|lia]. subst j. destruct b; [|discriminate]. specialize (J2 eq_refl Hc). lia.
    - destruct (v_req s i) as [t|] eqn:E; [|lia]. assert (k = n) by lia. subst k. rewrite (op_new _ E). discriminate.
  Qed.
  Lemma s_C' k : (C' <= k < l_n L')%nat -> p_cpl (l_op L' k) = false.
  Proof.
    intros A. rewrite n_next in A. pose proof C_ok. pose proof cnt. destruct (Nat.lt_ge_cases k n) as [B|B].
    - rewrite op_old by exact B. unfold op_next. cbn [p_cpl]. rewrite (iv iv_C') by lia. cbn [orb].
      unfold hit, cpl_out. cbn. destruct (i_crdy i); [|reflexivity]. destruct (x_cpl s) as [d|] eqn:E; [|reflexivity]. cbn.
      destruct (iv iv_cplp d E) as (j & J & -> & _). destruct (means c n k (slot c j)) eqn:M; [|reflexivity]. apply same_target in M; lia.
    - destruct (v_req s i) as [t|] eqn:E; [|lia]. assert (k = n) by lia. subst k. rewrite (op_new _ E). reflexivity.
  Qed.
  Lemma s_sent k : (k < l_n L')%nat -> p_cpl (l_op L' k) = true -> pk L' k = true.
  Proof.
    intros A. rewrite n_next in A. pose proof cnt. unfold pk. destruct (Nat.lt_ge_cases k n) as [B|B].
    - rewrite op_old by exact B. intros X. apply pk_next. unfold op_next in X. cbn [p_cpl] in X. apply orb_true_iff in X. destruct X as [X|X]; [exact (iv iv_sent k B X)|].
      unfold hit, cpl_out in X. cbn in X. destruct (i_crdy i); [|discriminate]. destruct (x_cpl s) as [d|] eqn:E; [|discriminate]. cbn in X.
      destruct (iv iv_cplp d E) as (j & J1 & J2 & _ & J3). rewrite J2 in X. apply same_target in X; [|lia]. subst j. exact J3.
    - destruct (v_req s i) as [t|] eqn:E; [|lia]. assert (k = n) by lia. subst k. rewrite (op_new _ E). discriminate.
  Qed.
  Lemma quiet_next j : (j < n)%nat -> dj j = None -> quiet (l_op L j) -> quiet (l_op L' j).
  Proof. intros A B E. rewrite op_old by exact A. unfold quiet. rewrite descs_next, whole_next, B, app_nil_r. exact E. Qed.
  Lemma quiet_new j : (n <= j < l_n L')%nat -> quiet (l_op L' j).
  Proof.
    rewrite n_next. destruct (v_req s i) as [t|] eqn:E; [|lia]. intros A. assert (j = n) by lia. subst j. rewrite (op_new _ E). left. reflexivity.
  Qed.
  Lemma s_cur : (x_done st' = false /\ x_len st' = 0 /\ forall j, (j < l_n L')%nat -> quiet (l_op L' j)) \/
    exists k, (C' <= k < l_n L')%nat /\ p_descs (l_op L' k) <> [] /\ p_whole (l_op L' k) = false /\ amid st' (l_op L' k) /\
      forall j, (j < l_n L')%nat -> j <> k -> quiet (l_op L' j).
  Proof.
    pose proof cnt as Q1. pose proof Hn as Q2.
    assert (Xs : x_done st' = match v_desc c s i with Some (d, t, l) => if l then false else x_done s || negb (v_short c s d t) | None => x_done s end) by (st x_done; reflexivity).
    assert (Xl : x_len st' = match v_desc c s i with Some (d, _, l) => if l then 0 else (x_len s + d_len d) mod 2 ^ g_lw c | None => x_len s end) by (st x_len; reflexivity).
    unfold amid. rewrite Xs, Xl. clear Xs Xl. rewrite desc_same. destruct (desc_in i o) as [[[d t] l]|] eqn:E.
    - destruct (w_desc _ _ _ E) as (k & K1 & -> & _).
      assert (Dk : dj k = Some (d, l)) by (unfold dj; rewrite E, live_sees by lia; rewrite Nat.eqb_refl; reflexivity).
      destruct (dj_facts _ _ _ Dk) as (_ & _ & D3 & D4 & _ & D6 & _).
      assert (Oth : forall j, (j < l_n L')%nat -> j <> k -> quiet (l_op L' j)).
      { intros j J1 J2. destruct (Nat.lt_ge_cases j n) as [B|B]; [|apply quiet_new; lia]. apply quiet_next; [exact B|exact (dj_one _ _ _ _ Dk B J2)|]. apply D6; auto. }
      destruct l.
      + left. split; [reflexivity|]. split; [reflexivity|]. intros j J. destruct (Nat.eq_dec j k) as [->|]; [|apply Oth; auto]. right. rewrite op_old by lia. rewrite whole_next, Dk. reflexivity.
      + right. exists k. assert (C' <= k)%nat by (apply loud_late; [lia|exact D3|exact D4]). rewrite op_old by lia. rewrite descs_next, whole_next, Dk.
        destruct (descs_rx k ltac:(lia)) as (r & a & Hr & Ha); [right; congruence|]. destruct (dj_write k d false r a Dk Hr Ha) as (_ & W1 & W2).
        split; [lia|]. split; [intros X; apply app_eq_nil in X; destruct X as [_ X]; discriminate|]. split; [reflexivity|]. split; [|exact Oth].
        intros r' Hr'. rewrite rx_next in Hr' by congruence. assert (r' = r) by congruence. subst r'. rewrite W1.
        split; [|rewrite <- W1; exact W2]. destruct (p_descs (l_op L k)); reflexivity.
    - assert (Dn : forall j, dj j = None) by (intros j; unfold dj; rewrite E; reflexivity).
      destruct (iv iv_cur) as [(K1 & K2 & K3)|(k & K1 & K2 & K3 & K4 & K5)].
      + left. split; [exact K1|]. split; [exact K2|]. intros j J. destruct (Nat.lt_ge_cases j n) as [B|B]; [|apply quiet_new; lia]. apply quiet_next; auto.
      + right. exists k.
        assert (C' <= k)%nat by (apply loud_late; [lia| |exact K3]; exact (ag_desc _ _ _ _ _ (iv iv_live k ltac:(lia)) K2)).
        rewrite op_old by lia. rewrite descs_next, whole_next, Dn, app_nil_r. split; [lia|]. split; [exact K2|]. split; [exact K3|]. split.
        * intros r Hr. destruct (descs_rx k ltac:(lia)) as (r' & a & Hr' & Ha); [left; exact K2|]. rewrite rx_next in Hr by congruence. exact (K4 r Hr).
        * intros j J1 J2. destruct (Nat.lt_ge_cases j n) as [B|B]; [|apply quiet_new; lia]. apply quiet_next; auto.
  Qed.
  Lemma s_ck : g_csum c = true -> forall k, (F' <= k < l_n L')%nat -> (k < K')%nat -> n_ck (x_tab st' (slot c k)) = nth k (l_cks L') 0.
  Proof.
    intros Hc k A B. pose proof cnt as Q. pose proof F_ok. destruct (iv iv_k Hc) as ((K1 & K2) & _). rewrite s_tab. unfold entry_next, entry_upd. cbn [n_ck].
    rewrite K_next in B. rewrite cks_next. pose proof ck_same as X. destruct (csum_in i o) as [v|]; cbn [olist].
    - destruct X as (_ & X1 & -> & ->). rewrite (kp_slot Hc). destruct (Nat.eq_dec k K) as [->|Ne].
      + rewrite Nat.eqb_refl, app_nth2, Nat.sub_diag by lia. reflexivity.
      + destruct (Nat.eqb_spec (slot c K) (slot c k)) as [Y|Y]; [apply slot_inj in Y; lia|]. rewrite app_nth1 by lia. apply (iv iv_ck Hc); lia.
    - rewrite X, app_nil_r. apply (iv iv_ck Hc); lia.
  Qed.

  Lemma s_rxp d : x_rx st' = Some d -> exists k, S k = l_n L' /\ x_tag d = slot c k /\ p_rxd (l_op L' k) = None /\
    x_addr d = place c (n_buf (x_tab st' (slot c k))) /\ x_room d <= g_max c.
  Proof.
    assert (Xf : x_rx st' = match v_req s i with Some _ => Some (mkRxd ((x_wr s mod 2 ^ g_bl c + g_off c) mod 2 ^ g_raw c) (x_mtu s) (slot c (x_sp s)))
      | None => if i_rxrdy i then None else x_rx s end) by (st x_rx; reflexivity).
    rewrite Xf, n_next. clear Xf. destruct (v_req s i) as [t|] eqn:E.
    - intros X. injection X as <-. exists n. cbn [x_tag x_addr x_room]. rewrite (op_new _ E), s_tab. unfold entry_next, entry_upd. cbn [n_buf].
      rewrite E, sp_slot, Nat.eqb_refl. splits; auto. exact (iv iv_mtu).
    - destruct (i_rxrdy i) eqn:R; [discriminate|]. intros X. destruct (iv iv_rxp d X) as (k & A1 & A2 & A3 & A4). exists k. pose proof cnt as Q.
      assert (B : (D <= k)%nat).
      { destruct (Nat.le_gt_cases D k) as [|Y]; [assumption|]. destruct (iv iv_D k Y) as (Z & _). congruence. }
      rewrite op_old by lia. rewrite s_tab. unfold entry_next, entry_upd. cbn [n_buf]. rewrite E. split; [exact A1|]. split; [exact A2|]. split; [|exact A4].
      unfold op_next. cbn [p_rxd]. unfold rx_out. rewrite R. exact A3.
  Qed.
  Lemma s_rxl : let l := h_rx h ++ olist (rx_out i o) in
    Forall2 (fun k d => p_rxd (l_op L' k) = Some d /\ x_tag d = slot c k) (seq 0 (length l)) l.
  Proof.
    cbv zeta. pose proof (iv iv_rxn) as Ln. rewrite app_length in Ln. pose proof cnt as Q.
    assert (Old : Forall2 (fun k d => p_rxd (l_op L' k) = Some d /\ x_tag d = slot c k) (seq 0 (length (h_rx h))) (h_rx h)).
    { refine (Forall2_impl' _ _ _ _ _ (iv iv_rxl)). intros k d Hk [X1 X2]. apply in_seq in Hk. rewrite op_old by lia. rewrite rxd_next by congruence. auto. }
    destruct (rx_out i o) as [d|] eqn:E; cbn [olist]; [|rewrite app_nil_r; exact Old].
    destruct (rx_pend d E) as (k & K1 & K2 & K3 & K4 & _).
    assert (Kk : length (h_rx h) = k).
    { unfold rx_out in E. cbn in E. destruct (i_rxrdy i); [|discriminate]. rewrite E in Ln. cbn [olist length] in Ln. lia. }
    rewrite app_length. cbn [length]. rewrite Nat.add_1_r, seq_S. cbn [Nat.add]. apply Forall2_app; [exact Old|]. constructor; [|constructor].
    rewrite Kk. rewrite op_old by lia. split; [|exact K3]. unfold op_next. cbn [p_rxd]. rewrite E, K3, live_sees by lia. rewrite Nat.eqb_refl. reflexivity.
  Qed.
  Lemma s_rxn : length ((h_rx h ++ olist (rx_out i o)) ++ olist (x_rx st')) = l_n L'.
  Proof.
    pose proof (iv iv_rxn) as Ln. rewrite !app_length in *. rewrite n_next.
    assert (Xf : x_rx st' = match v_req s i with Some _ => Some (mkRxd ((x_wr s mod 2 ^ g_bl c + g_off c) mod 2 ^ g_raw c) (x_mtu s) (slot c (x_sp s)))
      | None => if i_rxrdy i then None else x_rx s end) by (st x_rx; reflexivity).
    rewrite Xf. clear Xf. assert (Xo : rx_out i o = if i_rxrdy i then x_rx s else None) by reflexivity. rewrite Xo. clear Xo. destruct (v_req s i) as [t|] eqn:E.
    - destruct (req_room _ E) as [_ R]. rewrite R in *. destruct (i_rxrdy i); cbn [olist length] in *; lia.
    - destruct (i_rxrdy i); cbn [olist length] in *; lia.
  Qed.
  Lemma x_dreq_next : x_dreq st' = if v_deq c s then Some (n_queue (x_tab s (slot c D)), slot c D) else if i_drdy i then None else x_dreq s.
  Proof. st x_dreq. rewrite dp_slot. reflexivity. Qed.
  Lemma s_dr : Forall2 (fun k d => exists q, p_queue (l_op L' k) = Some q /\ d = (q, slot c k)) (seq 0 D') ((h_dr h ++ olist (dreq_out i o)) ++ olist (x_dreq st')).
  Proof.
    pose proof cnt as Q. pose proof D_ok as Q2.
    assert (X : dreq_out i o = if i_drdy i then x_dreq s else None) by reflexivity. rewrite X. rewrite <- app_assoc, x_dreq_next. clear X.
    assert (Old : Forall2 (fun k d => exists q, p_queue (l_op L' k) = Some q /\ d = (q, slot c k)) (seq 0 D) (h_dr h ++ olist (x_dreq s))).
    { refine (Forall2_impl' _ _ _ _ _ (iv iv_dr)). intros k d Hk (q & X1 & X2). apply in_seq in Hk. exists q. rewrite op_old by lia. rewrite q_next by congruence. auto. }
    destruct (v_deq c s) eqn:E.
    - destruct (deq_moves E) as (E1 & E2 & E3 & _). rewrite E2 in *. replace (if i_drdy i then None else None) with (@None (Z * nat)) by (destruct (i_drdy i); reflexivity).
      cbn [olist app] in *. rewrite app_nil_r in Old. rewrite seq_S. cbn [Nat.add]. apply Forall2_app; [exact Old|]. constructor; [|constructor].
      rewrite op_old by lia. rewrite q_next by congruence. eauto.
    - destruct (i_drdy i); cbn [olist app]; [rewrite app_nil_r|]; exact Old.
  Qed.
  Lemma s_dq d : x_dreq st' = Some d -> exists k, S k = D' /\ snd d = slot c k /\ p_dreq (l_op L' k) = false /\ p_ans (l_op L' k) = None.
  Proof.
    rewrite x_dreq_next. pose proof cnt as Q. destruct (v_deq c s) eqn:E.
    - intros X. injection X as <-. destruct (deq_moves E) as (E1 & E2 & _). exists D. split; [reflexivity|]. split; [reflexivity|]. rewrite op_old by exact E1.
      destruct (iv iv_D' D ltac:(lia)) as [X1 X2]. unfold op_next. cbn [p_dreq p_ans]. rewrite X1. unfold dreq_out. cbn. rewrite E2. split; [destruct (i_drdy i); reflexivity|].
      destruct (i_ans i) as [[[[t a] q] b]|] eqn:Ea; [|exact X2]. destruct (w_ans _ _ _ _ Ea) as (j & J1 & -> & _).
      destruct (means c n D (slot c j)) eqn:M; [|exact X2]. apply same_target in M; lia.
    - destruct (i_drdy i) eqn:R; [discriminate|]. intros X. destruct (iv iv_dq d X) as (k & K1 & K2 & K3 & K4). exists k. split; [exact K1|]. split; [exact K2|].
      rewrite op_old by lia. unfold op_next. cbn [p_dreq p_ans]. rewrite K3. unfold dreq_out. rewrite R. split; [reflexivity|].
      destruct (i_ans i) as [[[[t a] q] b]|] eqn:Ea; [|exact K4]. destruct (w_ans _ _ _ _ Ea) as (j & J1 & -> & _ & J2 & _).
      destruct (means c n k (slot c j)) eqn:M; [|exact K4]. apply same_target in M; [|lia]. subst j. congruence.
  Qed.
  Lemma s_ask k : (k < D')%nat -> p_dreq (l_op L' k) = true \/ S k = D' /\ x_dreq st' <> None.
  Proof.
    rewrite x_dreq_next. intros A. pose proof cnt as Q. pose proof D_ok as Q2. destruct (Nat.lt_ge_cases k D) as [B|B].
    - rewrite op_old by lia. unfold op_next. cbn [p_dreq]. destruct (iv iv_ask k B) as [->|[X1 X2]]; [left; reflexivity|].
      destruct (v_deq c s) eqn:E; [destruct (deq_moves E) as (_ & Y & _); congruence|].
      destruct (i_drdy i) eqn:R; [|right; auto]. left. unfold dreq_out. cbn. rewrite R. destruct (x_dreq s) as [d|] eqn:Ed; [|congruence].
      destruct (dq_live d Ed) as (j & J1 & J2 & J3 & _). assert (j = k) by lia. subst j. cbn. rewrite J3, live_sees by lia. rewrite Nat.eqb_refl. apply orb_true_r.
    - destruct (v_deq c s); [|lia]. right. split; [lia|discriminate].
  Qed.
  Lemma x_cpl_next : x_cpl st' = match v_cpl c s i with Go => Some (cpl_of c (x_cp s) (x_tab s (slot c C))) | _ => if i_crdy i then None else x_cpl s end.
  Proof. st x_cpl. rewrite cp_slot. reflexivity. Qed.
  Lemma s_cpl : Forall2 (cpl_as c L') (filter (pk L') (seq 0 C')) ((h_cpl h ++ olist (cpl_out i o)) ++ olist (x_cpl st')).
  Proof.
    pose proof cnt as Q1. pose proof C_ok as Q3. rewrite filter_same by lia.
    assert (Old : Forall2 (cpl_as c L') (filter (pk L) (seq 0 C)) (h_cpl h ++ olist (x_cpl s))).
    { refine (Forall2_impl' _ _ _ _ _ (iv iv_cpl)). intros k d Hk X. apply filter_In in Hk. destruct Hk as [Hk _]. apply in_seq in Hk.
      unfold cpl_as in *. rewrite op_old by lia. destruct X as (X0 & a & q & r & u & X1 & X2 & X3 & X4 & X5). split; [apply delivered_next; [lia|exact X0]|].
      exists a, q, r, u. rewrite ans_next, rx_next, q_next by congruence. rewrite cks_next. split; [exact X1|]. split; [exact X2|]. split; [exact X3|].
      split; [intros Hc; specialize (X4 Hc); rewrite app_length; lia|]. rewrite X5. destruct (g_csum c); [|reflexivity]. specialize (X4 eq_refl). rewrite app_nth1 by exact X4. reflexivity. }
    assert (X : cpl_out i o = if i_crdy i then x_cpl s else None) by reflexivity. rewrite X. rewrite <- app_assoc, x_cpl_next. clear X.
    assert (Keep : olist (if i_crdy i then x_cpl s else None) ++ olist (if i_crdy i then None else x_cpl s) = olist (x_cpl s)) by (destruct (i_crdy i); [apply app_nil_r|reflexivity]).
    destruct (v_cpl c s i) eqn:E; cbn [moves] in *.
    - rewrite Keep. exact Old.
    - rewrite Keep, seq_S, filter_app. cbn [filter Nat.add]. destruct cpl_moves as (_ & _ & _ & _ & _ & M); [congruence|].
      assert (Z : pk L C = false) by (unfold pk, has_packet; rewrite (M E); reflexivity). rewrite Z, app_nil_r. exact Old.
    - destruct cpl_moves as (M1 & Mk & _ & _ & M4 & _); [congruence|]. destruct (M4 E) as (M5 & M7). pose proof M5 as (M6 & _).
      assert (Z : (if i_crdy i then x_cpl s else None) = x_cpl s) by (destruct (i_crdy i); [reflexivity|]; destruct M7 as [->|]; [reflexivity|discriminate]).
      rewrite Z, app_assoc. rewrite seq_S, filter_app. cbn [filter Nat.add]. unfold pk at 2. rewrite M6. apply Forall2_app; [exact Old|]. constructor; [|constructor].
      unfold cpl_as. rewrite op_old by lia. split; [apply delivered_next; [rewrite E; cbn; lia|exact M5]|].
      pose proof (iv iv_live C ltac:(lia)) as G. destruct (iv iv_D C M1) as (_ & Hr & Hq).
      pose proof (ag_ans _ _ _ _ _ G) as Ga. pose proof (ag_q _ _ _ _ _ G) as Gq. unfold has_packet in M6.
      destruct (p_ans (l_op L C)) as [[[a q]|]|] eqn:Ea; try discriminate. destruct (p_rx (l_op L C)) as [r|] eqn:Er; [|congruence]. destruct (p_queue (l_op L C)) as [u|] eqn:Eu; [|congruence].
      destruct (ag_rx _ _ _ _ _ G r Er) as (_ & _ & R1 & R2 & R3 & R4 & R5). destruct Ga as [Ga1 Ga2]. destruct Gq as (_ & Gq & _).
      exists a, q, r, u. rewrite ans_next, rx_next, q_next by congruence. split; [exact Ea|]. split; [exact Er|]. split; [exact Eu|]. rewrite cks_next.
      split; [intros Hc; specialize (Mk Hc); rewrite app_length; lia|]. unfold cpl_of. rewrite cp_slot, Ga1, Ga2, Gq, R1, R2, R3, R4, R5.
      assert (Ck : (if g_csum c then n_ck (x_tab s (slot c C)) mod 2 ^ 16 else 0) = (if g_csum c then nth C (l_cks L ++ olist (csum_in i o)) 0 mod 2 ^ 16 else 0)).
      { destruct (g_csum c) eqn:Hc; [|reflexivity]. specialize (Mk eq_refl). rewrite app_nth1 by exact Mk. rewrite (iv iv_ck Hc C) by lia. reflexivity. }
      rewrite Ck. reflexivity.
  Qed.
  Lemma s_cplp d : x_cpl st' = Some d -> exists k, (F' <= k < C')%nat /\ c_tag d = slot c k /\ p_cpl (l_op L' k) = false /\ pk L' k = true.
  Proof.
    rewrite x_cpl_next. pose proof cnt as Q1. pose proof C_ok as Q2. pose proof F_ok as Q4.
    assert (Old : (if i_crdy i then None else x_cpl s) = Some d -> exists k, (F' <= k < C')%nat /\ c_tag d = slot c k /\ p_cpl (l_op L' k) = false /\ pk L' k = true).
    { intros X. destruct (i_crdy i) eqn:Tr; [discriminate|]. destruct (iv iv_cplp d X) as (k & K1 & K2 & K3 & K4). exists k. splits.
      - destruct (Nat.le_gt_cases F' k) as [|B]; [assumption|]. exfalso.
        destruct (v_fin c s) eqn:E; cbn [moves] in B; [lia| |]; (assert (k = F) by lia; subst k; destruct fin_moves as (X1 & X3 & X4); [congruence|]).
        + unfold pk, has_packet in K4. rewrite (X4 E) in K4. discriminate.
        + destruct (X3 E) as (_ & _ & X5). congruence.
      - lia.
      - exact K2.
      - rewrite op_old by lia. unfold op_next. cbn [p_cpl]. unfold cpl_out. rewrite Tr, K3. reflexivity.
      - rewrite pk_same by lia. exact K4. }
    destruct (v_cpl c s i) eqn:E; [exact Old|exact Old|]. intros X. injection X as <-. destruct cpl_moves as (M1 & _ & _ & _ & M4 & _); [congruence|].
    destruct (M4 E) as ((M5 & _) & M6). cbn [moves] in *. exists C. splits; [lia|lia| | |].
    - cbn [c_tag cpl_of]. apply cp_slot.
    - rewrite op_old by lia. unfold op_next. cbn [p_cpl]. rewrite (iv iv_C') by lia. cbn [orb].
      unfold hit, cpl_out. cbn. destruct (i_crdy i); [|reflexivity]. destruct (x_cpl s) as [x|] eqn:Ex; [|reflexivity]. cbn.
      destruct (iv iv_cplp x Ex) as (j & J & -> & _). destruct (means c n C (slot c j)) eqn:M; [|reflexivity]. apply same_target in M; lia.
    - rewrite pk_same by (rewrite E; cbn; lia). exact M5.
  Qed.
  Lemma s_cplq k : (k < C')%nat -> pk L' k = true -> p_cpl (l_op L' k) = true \/ exists d, x_cpl st' = Some d /\ c_tag d = slot c k.
  Proof.
    intros A B. pose proof cnt as Q1. pose proof C_ok as Q3. rewrite pk_same in B by lia. rewrite op_old by lia.
    destruct (mono k) as (_ & M). destruct (Nat.lt_ge_cases k C) as [E0|E0].
    - destruct (iv iv_cplq k E0 B) as [X|(d & X1 & X2)]; [left; auto|].
      destruct (i_crdy i) eqn:Tr.
      + left. unfold op_next. cbn [p_cpl]. unfold hit, cpl_out. cbn. rewrite Tr, X1. cbn. rewrite X2.
        destruct (Nat.lt_ge_cases k F) as [G|G]; [|rewrite live_sees by lia; rewrite Nat.eqb_refl; apply orb_true_r].
        destruct (iv iv_old k G) as [Y|(_ & Y & _)]; [unfold pk, has_packet in B; rewrite Y in B; discriminate|]. rewrite Y. reflexivity.
      + right. exists d. split; [|exact X2]. rewrite x_cpl_next, Tr. destruct (v_cpl c s i) eqn:E; [exact X1|exact X1|]. destruct cpl_moves as (_ & _ & _ & _ & Y & _); [congruence|].
        destruct (Y E) as (_ & [Z|Z]); congruence.
    - destruct (v_cpl c s i) eqn:E; cbn [moves] in A; [lia| |]; (assert (k = C) by lia; subst k).
      + destruct cpl_moves as (_ & _ & _ & _ & _ & Y); [congruence|]. unfold pk, has_packet in B. rewrite (Y E) in B. discriminate.
      + right. eexists. split; [rewrite x_cpl_next, E; reflexivity|]. cbn [c_tag cpl_of]. apply cp_slot.
  Qed.
  Lemma sts_same k : (k < C')%nat -> sts L' k = sts L k.
  Proof.
    intros A. pose proof C_ok. pose proof cnt. unfold sts, status_of. rewrite op_old by lia. destruct (frozen' k A) as (-> & _ & _ & _ & -> & _). reflexivity.
  Qed.
  Lemma s_st : (h_st h ++ olist (o_stat o)) ++ olist (x_stat st') = map (sts L') (seq 0 F').
  Proof.
    pose proof cnt as Q1. pose proof C_ok as Q2. pose proof F_ok as Q3.
    rewrite (map_ext_in (sts L') (sts L)) by (intros k Hk; apply in_seq in Hk; apply sts_same; lia).
    change (o_stat o) with (x_stat s). rewrite (iv iv_st).
    assert (Xf : x_stat st' = match v_fin c s with Wait => None | Skip => Some (0, n_tag (x_tab s (slot c F))) | Go => Some (n_len (x_tab s (slot c F)), n_tag (x_tab s (slot c F))) end).
    { st x_stat. rewrite fp_slot. reflexivity. }
    rewrite Xf. clear Xf. destruct (v_fin c s) eqn:E; cbn [moves olist]; [apply app_nil_r| |]; (rewrite seq_S, map_app; cbn [map Nat.add]; f_equal; f_equal);
      (destruct fin_moves as (M1 & M2 & M3); [congruence|]); pose proof (iv iv_live F ltac:(lia)) as G; unfold sts, status_of; rewrite <- (ag_tag _ _ _ _ _ G).
    - rewrite (M3 E). reflexivity.
    - destruct (M2 E) as ((M4 & _) & _). unfold has_packet in M4. destruct (p_ans (l_op L F)) as [[|]|]; try discriminate.
      destruct (iv iv_D F ltac:(lia)) as (_ & Hr & _). destruct (p_rx (l_op L F)) as [r|] eqn:Er; [|congruence]. destruct (ag_rx _ _ _ _ _ G r Er) as (_ & _ & -> & _). reflexivity.
  Qed.
  Lemma s_w : Permutation (h_w h ++ olist (write_out i o)) (flat_map (wrs L') (seq 0 (l_n L'))).
  Proof.
    pose proof cnt as Q1.
    assert (Nw : flat_map (wrs L') (seq 0 (l_n L')) = flat_map (wrs L') (seq 0 n)).
    { rewrite n_next. destruct (v_req s i) as [t|] eqn:E; [|reflexivity]. rewrite seq_S, flat_map_app. cbn [flat_map Nat.add].
      unfold wrs at 2. rewrite (op_new _ E). apply app_nil_r. }
    rewrite Nw. clear Nw.
    set (ew := fun k => match write_out i o with Some r => if means c n k (w_tag r) then [r] else [] | None => [] end).
    assert (P : Permutation (flat_map (wrs L') (seq 0 n)) (flat_map (wrs L) (seq 0 n) ++ flat_map ew (seq 0 n))).
    { apply flat_map_plus. intros k Hk. apply in_seq in Hk. unfold wrs, ew. rewrite op_old by lia. unfold op_next. cbn [p_writes].
      destruct (write_out i o) as [r|]; [destruct (means c n k (w_tag r))|]; rewrite ?app_nil_r; reflexivity. }
    rewrite P, (iv iv_w). apply Permutation_app_head. apply Permutation_refl'. unfold ew. destruct (write_out i o) as [r|] eqn:E.
    - destruct (iv iv_tags r (write_out_in r E)) as (j & J1 & J2). symmetry. rewrite (flat_map_one _ n j).
      + rewrite J2, live_sees by lia. rewrite Nat.eqb_refl. reflexivity.
      + lia.
      + intros x Hx Ne. rewrite J2. destruct (means c n x (slot c j)) eqn:M; [|reflexivity]. apply same_target in M; lia.
    - symmetry. apply flat_map_none. reflexivity.
  Qed.
  Lemma s_num : x_cnt st' = Z.of_nat (length (flat_map (unf L') (seq 0 D'))).
  Proof.
    pose proof cnt as Q1. pose proof D_ok as Q2.
    assert (Xf : x_cnt st' = x_cnt s + (if v_deq c s then 1 else 0) - match i_ans i with Some (_, _, _, true) => 1 | _ => 0 end
      - match v_desc c s i with Some (_, _, true) => 1 | _ => 0 end) by (st x_cnt; reflexivity).
    rewrite Xf, (iv iv_num), desc_same. clear Xf.
    set (ea := fun k => match i_ans i with Some (t, _, _, true) => if means c n k t then [tt] else [] | _ => [] end).
    set (ed := fun k => match dj k with Some (_, true) => [tt] | _ => [] end).
    assert (P : Permutation (flat_map (unf L) (seq 0 D)) (flat_map (unf L') (seq 0 D) ++ flat_map (fun k => ea k ++ ed k) (seq 0 D))).
    { apply flat_map_plus. intros k Hk. apply in_seq in Hk. unfold unf. rewrite op_old by lia. rewrite whole_next. unfold ed.
      destruct (dj k) as [[d l]|] eqn:Dk.
      - destruct (dj_facts _ _ _ Dk) as (_ & _ & X1 & X2 & _). rewrite ans_next by (unfold has_packet in X1; destruct (p_ans (l_op L k)); congruence). rewrite X2.
        assert (ea k = []) as ->.
        { unfold ea. destruct (i_ans i) as [[[[t a] q] []]|] eqn:Ei; try reflexivity. destruct (means c n k t) eqn:M; [|reflexivity].
          destruct (w_ans _ _ _ _ Ei) as (j & J1 & -> & J2 & _). apply same_target in M; [|lia]. subst j. unfold has_packet in X1. rewrite J2 in X1. discriminate. }
        unfold has_packet in X1. destruct (p_ans (l_op L k)) as [[|]|]; try discriminate. destruct l; reflexivity.
      - unfold op_next. cbn [p_ans]. unfold ea. destruct (i_ans i) as [[[[t a] q] b]|] eqn:Ei; [|rewrite !app_nil_r; reflexivity].
        destruct (means c n k t) eqn:M; [|destruct b; rewrite !app_nil_r; reflexivity].
        destruct (w_ans _ _ _ _ Ei) as (j & J1 & -> & J2 & _). apply same_target in M; [|lia]. subst j. rewrite J2. destruct b; [reflexivity|].
        assert (p_whole (l_op L k) = false) as ->; [|reflexivity].
        pose proof (iv iv_live k ltac:(lia)) as G. destruct (p_whole (l_op L k)) eqn:Ew; [|reflexivity].
        pose proof (ag_desc _ _ _ _ _ G (ag_wh _ _ _ _ _ G Ew)) as Y. unfold has_packet in Y. rewrite J2 in Y. discriminate. }
    apply Permutation_length in P. rewrite app_length in P.
    assert (R : length (flat_map (fun k => ea k ++ ed k) (seq 0 D)) = (length (flat_map ea (seq 0 D)) + length (flat_map ed (seq 0 D)))%nat).
    { rewrite <- app_length. apply Permutation_length. apply flat_map_plus. reflexivity. }
    assert (Ra : Z.of_nat (length (flat_map ea (seq 0 D))) = match i_ans i with Some (_, _, _, true) => 1 | _ => 0 end).
    { destruct (i_ans i) as [[[[t a] q] []]|] eqn:Ei.
      - destruct (w_ans _ _ _ _ Ei) as (j & J1 & -> & J2). rewrite (flat_map_one ea D j).
        + unfold ea. rewrite live_sees by lia. rewrite Nat.eqb_refl. reflexivity.
        + lia.
        + intros x Hx Ne. unfold ea. destruct (means c n x (slot c j)) eqn:M; [|reflexivity]. apply same_target in M; lia.
      - rewrite flat_map_none by (intros; reflexivity). reflexivity.
      - rewrite flat_map_none by (intros; reflexivity). reflexivity. }
    assert (Rd : Z.of_nat (length (flat_map ed (seq 0 D))) = match desc_in i o with Some (_, _, true) => 1 | _ => 0 end).
    { destruct (desc_in i o) as [[[d t] l]|] eqn:Ei.
      - destruct (w_desc _ _ _ Ei) as (j & J1 & -> & _).
        assert (Dj : dj j = Some (d, l)) by (unfold dj; rewrite Ei, live_sees by lia; rewrite Nat.eqb_refl; reflexivity).
        rewrite (flat_map_one ed D j).
        + unfold ed. rewrite Dj. destruct l; reflexivity.
        + lia.
        + intros x Hx Ne. unfold ed. rewrite (dj_one _ _ _ _ Dj) by lia. reflexivity.
      - rewrite flat_map_none; [reflexivity|]. intros x _. unfold ed, dj. rewrite Ei. reflexivity. }
    assert (Rn : Z.of_nat (length (flat_map (unf L') (seq 0 D'))) = Z.of_nat (length (flat_map (unf L') (seq 0 D))) + (if v_deq c s then 1 else 0)).
    { destruct (v_deq c s) eqn:E; [|lia]. rewrite seq_S, flat_map_app, app_length. cbn [flat_map Nat.add]. unfold unf at 2. rewrite op_old by lia.
      assert (p_ans (next D) = None) as ->; [|cbn [length app]; lia]. destruct (iv iv_D' D ltac:(lia)) as [_ X2]. unfold op_next. cbn [p_ans].
      destruct (i_ans i) as [[[[t a] q] b]|] eqn:Ea; [|exact X2]. destruct (w_ans _ _ _ _ Ea) as (j & J1 & -> & _).
      destruct (means c n D (slot c j)) eqn:M; [|exact X2]. apply same_target in M; lia. }
    rewrite Rn, <- Ra, <- Rd, P, R. lia.
  Qed.

  Lemma step_inv : inv c st' L' D' C' F'
    (mkH (h_rx h ++ olist (rx_out i o)) (h_dr h ++ olist (dreq_out i o)) (h_w h ++ olist (write_out i o)) (h_cpl h ++ olist (cpl_out i o)) (h_st h ++ olist (o_stat o))).
  Proof.
    constructor; cbn [h_rx h_dr h_w h_cpl h_st].
    - exact s_cnt.
    - exact s_k.
    - exact s_ptr.
    - exact s_on.
    - exact s_off.
    - exact s_ready.
    - exact s_skid.
    - exact s_dready.
    - exact s_tags.
    - exact s_mtu.
    - exact s_cready.
    - exact s_live.
    - exact s_old.
    - exact s_D.
    - exact s_D'.
    - exact s_K.
    - exact s_C.
    - exact s_C'.
    - exact s_sent.
    - exact s_cur.
    - exact s_ck.
    - exact s_rxp.
    - exact s_rxl.
    - exact s_rxn.
    - exact s_dr.
    - exact s_dq.
    - exact s_ask.
    - exact s_cpl.
    - exact s_cplp.
    - exact s_cplq.
    - exact s_st.
    - exact s_w.
    - exact s_num.
  Qed.
End Step.

(** Every run. *)
Lemma keep_somes {A} (f : gin -> gout -> option A) i is o os : over f (i :: is) (o :: os) = olist (f i o) ++ over f is os.
Proof. unfold over. cbn [combine map fst snd]. rewrite somes_cons. reflexivity. Qed.
Lemma run_inv c : sane c -> forall is s L D C F h, inv c s L D C F h ->
  let os := snd (trace (g_step c) s is) in lawful_from c L is os ->
  exists D' C' F', inv c (fst (trace (g_step c) s is)) (fold_left (keep c) (combine is os) L) D' C' F'
    (mkH (h_rx h ++ over rx_out is os) (h_dr h ++ over dreq_out is os) (h_w h ++ over write_out is os) (h_cpl h ++ over cpl_out is os) (h_st h ++ statuses os)).
Proof.
  intros S is. induction is as [|i is IH]; intros s L D C F h I os W.
  - exists D, C, F. unfold os, over, statuses. cbn. rewrite !app_nil_r. destruct h. exact I.
  - unfold os in *. clear os. cbn [trace]. cbn [trace] in W. destruct (g_step c s i) as [s' o] eqn:E. destruct (trace (g_step c) s' is) as [s'' os] eqn:Er.
    cbn [fst snd combine fold_left lawful_from] in *. destruct W as [W1 W2].
    pose proof (step_inv c s L D C F h i S I) as St. rewrite E in St. cbn [fst snd] in St. specialize (St W1).
    specialize (IH _ _ _ _ _ _ St). rewrite Er in IH. cbn [fst snd] in IH. specialize (IH W2). destruct IH as (D' & C' & F' & IH).
    cbn [h_rx h_dr h_w h_cpl h_st] in IH. exists D', C', F'. rewrite !keep_somes. unfold statuses. cbn [map]. rewrite somes_cons, !app_assoc.
    exact IH.
Qed.
Lemma mtu_bound c is : 0 < g_max c -> forall s, x_mtu s <= g_max c -> x_mtu (fst (trace (g_step c) s is)) <= g_max c.
Proof.
  intros P. induction is as [|i is IH]; intros s R; [exact R|]. cbn [trace].
  assert (R' : x_mtu (fst (g_step c s i)) <= g_max c).
  { unfold g_step. destruct (i_rst i); cbn [fst x_mtu]; destruct (Z.ltb_spec (g_max c) (i_mtu i)); lia. }
  destruct (g_step c s i) as [s' o]. specialize (IH s' R'). destruct (trace (g_step c) s' is) as [s'' os]. exact IH.
Qed.
Lemma fresh c s : sane c -> started c s -> exists m tab, m <= g_max c /\
  s = mkGst false None None None false false None m 0 0 false 0 0 tab 0 0 0 0 0 skid0 /\ forall k, n_act (tab k) = false.
Proof.
  intros S St. assert (P : 0 < g_max c) by apply S. destruct St as [->|(js & j & Hj & ->)].
  - exists 0. eexists. split; [lia|]. split; [reflexivity|reflexivity].
  - pose proof (mtu_bound c (js ++ [j]) P g_init) as M. rewrite trace_app in *. destruct (trace (g_step c) g_init js) as [s1 o1]. cbn [trace fst] in *.
    unfold g_step in *. rewrite Hj in *. cbn [fst x_mtu] in *. eexists. eexists. split; [|split; [reflexivity|reflexivity]]. apply M. cbn. lia.
Qed.
Lemma fresh_inv c s : sane c -> started c s -> inv c s l0 0 0 0 (mkH [] [] [] [] []).
Proof.
  intros S St. pose proof (N_pos c) as P. destruct (fresh c s S St) as (m & tab & Hm & -> & A).
  constructor; cbn [l0 l_n l_cks length x_sp x_dp x_kp x_cp x_fp x_tab x_ready x_skid x_dready x_cready x_done x_len x_cpl x_stat x_rx x_dreq x_mtu x_cnt h_rx h_dr h_w h_cpl h_st skid_content skid0 k_out k_tmp olist app seq filter flat_map map];
    try discriminate; try (intros; lia); try (intros; contradiction); auto.
  - intros _. rewrite Nat.mod_0_l by lia. auto.
  - rewrite Nat.mod_0_l by lia. auto.
  - apply skid0_inv.
  - left. split; [reflexivity|]. split; [reflexivity|]. intros; lia.
Qed.

Lemma Forall2_len {A B} (R : A -> B -> Prop) l l' : Forall2 R l l' -> length l = length l'.
Proof. induction 1; cbn; congruence. Qed.

Section Results.
  Variables (c : gcfg) (s : gst) (is : list gin).
  Hypothesis Sane : sane c.
  Hypothesis St : started c s.
  Notation os := (snd (trace (g_step c) s is)).
  Notation L := (ledger_of c is os).
  Hypothesis W : lawful c is os.
  Notation s' := (fst (trace (g_step c) s is)).

  Lemma final : exists D C F, inv c s' L D C F
    (mkH (over rx_out is os) (over dreq_out is os) (over write_out is os) (over cpl_out is os) (statuses os)).
  Proof. exact (run_inv c Sane is s l0 0 0 0 _ (fresh_inv c s Sane St) W). Qed.

  Lemma prefix_of {A B} (R : A -> B -> Prop) l : forall x y, Forall2 R l (x ++ y) -> exists l1 l2, l = l1 ++ l2 /\ Forall2 R l1 x.
  Proof. intros x y H. apply Forall2_app_inv_r in H. destruct H as (l1 & l2 & H1 & _ & ->). eauto. Qed.
  Lemma packets_split m : (m <= l_n L)%nat -> exists r, packets L = filter (pk L) (seq 0 m) ++ r.
  Proof.
    intros A. exists (filter (pk L) (seq m (l_n L - m))). unfold packets. change (fun k => has_packet (l_op L k)) with (pk L).
    replace (l_n L) with (m + (l_n L - m))%nat at 1 by lia. rewrite seq_app, filter_app. reflexivity.
  Qed.
  Lemma rx_result : let rx := over rx_out is os in (length rx <= l_n L <= S (length rx))%nat /\
    forall k d, nth_error rx k = Some d -> p_rxd (l_op L k) = Some d /\ x_tag d = (k mod g_n c)%nat.
  Proof.
    destruct final as (D & C & F & I). pose proof (iv_rxn _ _ _ _ _ _ _ I) as X. cbn [h_rx] in X. rewrite app_length in X. cbv zeta. split.
    - destruct (x_rx s'); cbn [olist length] in X; lia.
    - intros k d Hk. pose proof (iv_rxl _ _ _ _ _ _ _ I) as Y. cbn [h_rx] in Y.
      assert (G : forall l m, Forall2 (fun k d => p_rxd (l_op L k) = Some d /\ x_tag d = slot c k) (seq m (length l)) l ->
        forall k d, nth_error l k = Some d -> p_rxd (l_op L (m + k)) = Some d /\ x_tag d = slot c (m + k)).
      { induction l as [|a l IH]; intros m H k' d' E; [destruct k'; discriminate|]. cbn [length seq] in H. inversion H as [|? ? ? ? H1 H2]. subst.
        destruct k' as [|k']; cbn [nth_error] in E; [injection E as <-; rewrite Nat.add_0_r; exact H1|]. rewrite <- plus_n_Sm. exact (IH (S m) H2 k' d' E). }
      exact (G _ _ Y k d Hk).
  Qed.
  Lemma dreq_result : exists m rest, (m <= l_n L)%nat /\ seq 0 (l_n L) = seq 0 m ++ rest /\
    Forall2 (fun k d => p_rx (l_op L k) <> None /\ p_queue (l_op L k) = Some (fst d) /\ snd d = (k mod g_n c)%nat) (seq 0 m) (over dreq_out is os).
  Proof.
    destruct final as (D & C & F & I). pose proof (iv_cnt _ _ _ _ _ _ _ I) as Q. pose proof (iv_dr _ _ _ _ _ _ _ I) as X. cbn [h_dr] in X.
    pose proof (Forall2_len _ _ _ X) as Ln. rewrite seq_length, app_length in Ln.
    set (m := length (over dreq_out is os)) in *. exists m, (seq m (l_n L - m)). assert (Hm : (m <= D)%nat) by lia. split; [lia|]. split.
    - replace (l_n L) with (m + (l_n L - m))%nat at 1 by lia. rewrite seq_app. reflexivity.
    - replace D with (m + (D - m))%nat in X by lia. rewrite seq_app in X. apply Forall2_app_inv_l in X. destruct X as (l1 & l2 & X1 & _ & E).
      assert (l1 = over dreq_out is os).
      { apply Forall2_len in X1. rewrite seq_length in X1. clear - X1 E m. assert (G : forall (a b l r : list (Z * nat)), length a = length l -> l ++ r = a ++ b -> a = l).
        { induction a as [|x a IH]; intros b l r H1 H2; destruct l; try discriminate; [reflexivity|]. cbn in *. injection H2 as -> H2. f_equal. eapply IH; [|exact H2]. lia. }
        eapply G; [symmetry; exact X1|exact E]. }
      subst l1. refine (Forall2_impl' _ _ _ _ _ X1). intros k d Hk (q & Y1 & ->). apply in_seq in Hk. cbn [fst snd]. split; [|auto].
      apply (iv_D _ _ _ _ _ _ _ I). lia.
  Qed.
  Lemma writes_result : Permutation (over write_out is os) (flat_map (fun k => p_writes (l_op L k)) (seq 0 (l_n L))) /\
    forall k, (k < l_n L)%nat -> exists rest, placed c k (l_op L k) = p_writes (l_op L k) ++ rest.
  Proof.
    destruct final as (D & C & F & I). split; [exact (iv_w _ _ _ _ _ _ _ I)|]. intros k Hk. destruct (Nat.lt_ge_cases k F) as [A|A].
    - pose proof (iv_cnt _ _ _ _ _ _ _ I) as Q. exists []. rewrite app_nil_r. destruct (iv_C _ _ _ _ _ _ _ I k ltac:(lia)) as [(_ & X1 & _ & X2)|(_ & _ & X & _)]; [|auto].
      rewrite X2. unfold placed. rewrite X1. cbn [spread]. destruct (p_rxd (l_op L k)), (p_rx (l_op L k)); reflexivity.
    - pose proof (ag_wr _ _ _ _ _ (iv_live _ _ _ _ _ _ _ I k ltac:(lia))) as X. rewrite <- X. eauto.
  Qed.
  Lemma cpl_result : exists ks rest, packets L = ks ++ rest /\ Forall2 (cpl_as c L) ks (over cpl_out is os).
  Proof.
    destruct final as (D & C & F & I). pose proof (iv_cnt _ _ _ _ _ _ _ I) as Q. destruct (packets_split C ltac:(lia)) as [r E].
    pose proof (iv_cpl _ _ _ _ _ _ _ I) as X. cbn [h_cpl] in X. destruct (prefix_of _ _ _ _ X) as (l1 & l2 & E2 & H). exists l1, (l2 ++ r).
    rewrite E, E2, app_assoc. auto.
  Qed.
  Lemma status_result : let m := length (statuses os) in (m <= l_n L)%nat /\ statuses os = map (fun k => status_of (l_op L k)) (seq 0 m) /\
    forall k, (k < m)%nat -> settled c k (l_op L k).
  Proof.
    destruct final as (D & C & F & I). pose proof (iv_cnt _ _ _ _ _ _ _ I) as Q. pose proof (iv_st _ _ _ _ _ _ _ I) as X. cbn [h_st] in X. cbv zeta.
    pose proof (f_equal (@length _) X) as Ln. rewrite app_length, map_length, seq_length in Ln. set (m := length (statuses os)) in *.
    split; [lia|]. split; [|intros k Hk; apply (iv_old _ _ _ _ _ _ _ I); lia].
    replace F with (m + (F - m))%nat in X by lia. rewrite seq_app, map_app in X.
    apply (f_equal (firstn m)) in X. rewrite !firstn_app in X. replace (m - length (statuses os))%nat with 0%nat in X by (unfold m; lia).
    rewrite map_length, seq_length, Nat.sub_diag, !firstn_O, !app_nil_r in X. unfold m in X at 1. rewrite firstn_all in X.
    rewrite (firstn_all2 (map (sts L) (seq 0 m))) in X by (rewrite map_length, seq_length; lia). exact X.
  Qed.
  Lemma reuse_result i : let o := snd (g_step c s' i) in
    o_ready o = true -> forall k, (k + g_n c <= l_n L)%nat -> settled c k (l_op L k).
  Proof.
    intros o R k A. destruct final as (D & C & F & I). destruct (iv_ready _ _ _ _ _ _ _ I R) as [B _]. apply (iv_old _ _ _ _ _ _ _ I). lia.
  Qed.
End Results.
