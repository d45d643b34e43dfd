From Coq Require Import Permutation.
From Verif Require Import Base.Prelude Base.Bits Rtl.Handshake_spec Rtl.Handshake_proof Stream.Axis_model Stream.Axis_proof
  Nic.TxEngine_model Nic.TxEngine_spec.
From Coq Require Import Lia Arith ZArith.
Local Open Scope Z_scope.
#[local] Unset Implicit Arguments.

(* ----- pointers ----- *)
Section Ptr.
  Variable c : ecfg.
  Notation N := (e_n c).
  Lemma N_pos : (0 < N)%nat.
  Proof. unfold e_n. pose proof (Nat.pow_nonzero 2 (e_cl c)). lia. Qed.
  Lemma slot_lt p : (slot c p < N)%nat.
  Proof. apply Nat.mod_upper_bound. pose proof N_pos. lia. Qed.
  Lemma slot_small p : (p < N)%nat -> slot c p = p.
  Proof. apply Nat.mod_small. Qed.
  Lemma slot_ptr p : slot c (p mod (2 * N)) = slot c p.
  Proof.
    unfold slot. pose proof N_pos. pose proof (Nat.div_mod p (2 * N) ltac:(lia)) as E.
    rewrite E at 2. replace (2 * N * (p / (2 * N)) + p mod (2 * N))%nat with (p mod (2 * N) + (2 * (p / (2 * N))) * N)%nat by lia.
    rewrite Nat.mod_add by lia. reflexivity.
  Qed.
  Lemma mod_inj m a b : (0 < m -> a <= b < a + m -> a mod m = b mod m -> a = b)%nat.
  Proof.
    intros H A E. pose proof (Nat.div_mod a m ltac:(lia)). pose proof (Nat.div_mod b m ltac:(lia)).
    assert (a / m = b / m)%nat; [|nia].
    assert (~ (b / m < a / m)%nat) by (intros X; nia). assert (~ (a / m < b / m)%nat) by (intros X; nia). lia.
  Qed.
  Lemma slot_inj a b : (a < b + N -> b < a + N -> slot c a = slot c b -> a = b)%nat.
  Proof.
    unfold slot. intros A B E. pose proof N_pos. destruct (Nat.le_ge_cases a b) as [X|X].
    - apply (mod_inj N); [lia|lia|exact E].
    - symmetry. apply (mod_inj N); [lia|lia|symmetry; exact E].
  Qed.
  Lemma ptr_eqb a b : (a <= b <= a + N)%nat -> ((a mod (2 * N) =? b mod (2 * N)) = (a =? b))%nat.
  Proof.
    intros A. pose proof N_pos. destruct (Nat.eqb_spec a b) as [->|E]; [apply Nat.eqb_refl|]. apply Nat.eqb_neq. intros X. apply E.
    apply (mod_inj (2 * N)); [lia|lia|exact X].
  Qed.
  Lemma pdiff_ok a b : (b <= a <= b + N)%nat -> pdiff c (a mod (2 * N)) (b mod (2 * N)) = (a - b)%nat.
  Proof.
    intros A. unfold pdiff. pose proof N_pos as P. set (m := (2 * N)%nat) in *. assert (Hm : (m <> 0)%nat) by (unfold m; lia).
    assert (Hb : (a - b < m)%nat) by (unfold m; lia). clearbody m. clear P.
    pose proof (Nat.div_mod a m Hm). pose proof (Nat.div_mod b m Hm). pose proof (Nat.mod_upper_bound a m Hm). pose proof (Nat.mod_upper_bound b m Hm).
    set (qa := (a / m)%nat) in *. set (qb := (b / m)%nat) in *. set (ra := (a mod m)%nat) in *. set (rb := (b mod m)%nat) in *.
    clearbody qa qb ra rb.
    destruct (Nat.le_gt_cases rb ra) as [X|X].
    - assert (qa = qb) by nia. replace (ra + m - rb)%nat with ((ra - rb) + 1 * m)%nat by lia. rewrite Nat.mod_add by lia.
      rewrite Nat.mod_small by lia. nia.
    - assert (qa = S qb) by nia. rewrite Nat.mod_small by lia. nia.
  Qed.
  Lemma pnext_ok a : pnext c (a mod (2 * N)) = (S a mod (2 * N))%nat.
  Proof.
    unfold pnext. pose proof N_pos. rewrite <- (Nat.add_1_r (a mod _)), <- (Nat.add_1_r a).
    rewrite Nat.add_mod_idemp_l by lia. reflexivity.
  Qed.

  Lemma means_iff n k t : means c n k t = true <-> (k < n /\ slot c k = t /\ n <= k + N)%nat.
  Proof. unfold means, slot. rewrite !andb_true_iff, Nat.ltb_lt, Nat.eqb_eq, Nat.leb_le. tauto. Qed.
  Lemma means_one n j k t : means c n j t = true -> means c n k t = true -> j = k.
  Proof. rewrite !means_iff. intros (A & B & C) (D & E & G). apply slot_inj; [lia|lia|congruence]. Qed.
  Lemma means_live n k t : (k < n <= k + N)%nat -> means c n k t = (slot c k =? t)%nat.
  Proof.
    intros A. unfold means, slot. destruct (Nat.ltb_spec k n); [|lia]. destruct (Nat.leb_spec n (k + N)); [|lia].
    cbn [andb]. rewrite andb_true_r. reflexivity.
  Qed.
End Ptr.

(* ----- placed reads ----- *)
Definition issued (ds : list desc) : nat := length (filter (fun d => negb (d_len d =? 0)) ds).
Lemma places_length c t ds : forall a, length (places c t a ds) = issued ds.
Proof.
  induction ds as [|d ds IH]; intros a; cbn; [reflexivity|]. rewrite app_length, IH. unfold issued. cbn [filter].
  destruct (d_len d =? 0); reflexivity.
Qed.
Lemma places_app c t ds : forall a d, places c t a (ds ++ [d]) = places c t a ds ++ places c t (a + total ds) [d].
Proof.
  induction ds as [|x ds IH]; intros a d; cbn [places app].
  - unfold total. cbn. rewrite Z.add_0_r. reflexivity.
  - rewrite IH. cbn [places]. rewrite <- app_assoc. unfold total. cbn [map fold_right]. rewrite Z.add_assoc. reflexivity.
Qed.
Lemma total_app ds d : total (ds ++ [d]) = total ds + d_len d.
Proof. unfold total. rewrite map_app, fold_right_app. cbn. rewrite Z.add_0_r. induction (map d_len ds); cbn; lia. Qed.
Lemma places_mod c t ds : 0 <= e_raw c -> forall a, places c t (a mod 2 ^ e_raw c) ds = places c t a ds.
Proof.
  intros R. pose proof (Z.pow_pos_nonneg 2 _ ltac:(lia) R). 
  assert (G : forall a b, a mod 2 ^ e_raw c = b mod 2 ^ e_raw c -> places c t a ds = places c t b ds).
  { induction ds as [|d ds IH]; intros a b E; cbn; [reflexivity|]. rewrite E.
    rewrite (IH (a + d_len d) (b + d_len d)); [reflexivity|]. rewrite (Z.add_mod a), (Z.add_mod b), E by lia. reflexivity. }
  intros a. apply G. apply Z.mod_mod. lia.
Qed.
Lemma issued_le ds : (issued ds <= length ds)%nat.
Proof. unfold issued. induction ds as [|d ds IH]; cbn; [lia|]. destruct (d_len d =? 0); cbn; lia. Qed.
Lemma issued_app ds d : issued (ds ++ [d]) = (issued ds + if (d_len d =? 0)%Z then 0 else 1)%nat.
Proof. unfold issued. rewrite filter_app, app_length. cbn. destruct (d_len d =? 0); reflexivity. Qed.

Lemma counters cw rs rf a b : 0 < cw -> 0 <= rs < 2 ^ cw -> 0 <= rf < 2 ^ cw -> (rs - rf) mod 2 ^ cw = (a - b) mod 2 ^ cw ->
  0 <= b <= a -> a < 2 ^ cw -> (rs =? rf) = (a =? b).
Proof.
  intros. assert (H5 : 0 < 2 ^ cw) by lia. rewrite (Z.mod_small (a - b)) in H2 by lia. destruct (Z.eqb_spec rs rf) as [->|X].
  - rewrite Z.sub_diag, Z.mod_0_l in H2 by lia. symmetry. apply Z.eqb_eq. lia.
  - symmetry. apply Z.eqb_neq. intros ->. rewrite Z.sub_diag in H2. apply X.
    assert (Y : rs mod 2 ^ cw = rf mod 2 ^ cw).
    { replace rs with ((rs - rf) + rf) by ring. rewrite Z.add_mod, H2 by lia. cbn. rewrite Z.mod_mod by lia. reflexivity. }
    rewrite !Z.mod_small in Y by lia. exact Y.
Qed.

Lemma modstep m a b u g x : 0 < m -> (a - b) mod m = (u - g) mod m -> ((a - b) + x) mod m = ((u - g) + x) mod m.
Proof. intros P E. rewrite Z.add_mod, E, <- Z.add_mod by lia. reflexivity. Qed.

(* ----- an entry and its request ----- *)
Definition mine (k : nat) (r : rd) : bool := (r_tag r =? k)%nat.
Record agrees (c : ecfg) (sk : list rd) (k : nat) (e : entry) (p : op) : Prop := mkAg {
  ag_id : n_queue e = p_queue p /\ n_tag e = p_tag p /\ n_dest e = p_dest p;
  ag_inv : n_inv e = match p_ans p with Some None => true | _ => false end;
  ag_ans : match p_ans p with Some (Some (a, q)) => n_qptr e = a /\ n_cq e = q | _ => True end;
  ag_fet : n_fet e = p_whole p;
  ag_none : p_descs p = [] -> p_whole p = false /\ p_reads p = [] /\ p_got p = 0%nat /\ filter (mine (slot c k)) sk = [];
  ag_desc : forall d ds, p_descs p = d :: ds -> has_packet p = true /\
    n_cs e = (if e_csum c then d_start d mod 2 ^ 7 else 0) /\ n_co e = (if e_csum c then d_coff d else 0) /\ n_ce e = e_csum c && d_cen d /\
    n_com e = p_whole p /\ (n_rs e - n_rf e) mod 2 ^ e_cw c = (Z.of_nat (issued (p_descs p)) - Z.of_nat (p_got p)) mod 2 ^ e_cw c /\
    p_reads p ++ filter (mine (slot c k)) sk = places c (slot c k) (n_buf e mod 2 ^ e_bl c) (p_descs p) /\
    (0 <= d_start d < 256 /\ 0 <= d_coff d < 128);
  ag_len : p_whole p = true -> n_len e = total (p_descs p);
  ag_pos : 0 <= total (p_descs p);
  ag_few : Z.of_nat (length (p_descs p)) < 2 ^ e_cw c;
  ag_got : (p_got p <= length (p_reads p))%nat;
  ag_done : xorb (n_da e) (n_db e) = negb (isnone (p_ts p));
  ag_ts : forall ts, p_ts p = Some ts -> p_tx p = true /\ (e_ptp c = true -> n_ts e = ts);
  ag_cw : n_cw e = p_written p;
  ag_wr : p_written p = true -> p_cpl p = true }.

(** A request whose packet is in the buffer, or that has none. *)
Definition fixedop (p : op) : Prop :=
  p_ans p = Some None /\ p_descs p = [] /\ p_whole p = false /\ p_reads p = [] /\ p_got p = 0%nat \/
  has_packet p = true /\ p_whole p = true /\ p_descs p <> [] /\ p_got p = length (p_reads p).

(** What has been handed over so far. *)
Record logs := mkH { h_dr : list (Z * nat); h_tx : list txd; h_ck : list ck; h_cpl : list cpl; h_st : list (Z * Z) }.
Definition duef (F : nat) (L : ledger) (k : nat) : list (Z * Z) :=
  match p_ans (l_op L k) with
  | Some None => [(0, p_tag (l_op L k))]
  | _ => if (k <? F)%nat then [(total (p_descs (l_op L k)), p_tag (l_op L k))] else []
  end.
Definition pk (L : ledger) (k : nat) : bool := has_packet (l_op L k).
Definition quiet (p : op) : Prop := p_descs p = [] \/ p_whole p = true.
Definition ranged (c : ecfg) (s : est) : Prop :=
  forall k, 0 <= n_rs (x_tab s k) < 2 ^ e_cw c /\ 0 <= n_rf (x_tab s k) < 2 ^ e_cw c.

(** Requests whose descriptors are still to come. *)
Definition unf (L : ledger) (k : nat) : list unit :=
  match p_ans (l_op L k) with
  | None => [tt]
  | Some None => []
  | Some (Some _) => if p_whole (l_op L k) then [] else [tt]
  end.

Record inv (c : ecfg) (s : est) (L : ledger) (T C F : nat) (h : logs) : Prop := mkI {
  iv_cnt : (F <= C /\ C <= T /\ T <= l_n L /\ l_n L <= F + e_n c)%nat;
  iv_ptr : x_sp s = (l_n L mod (2 * e_n c))%nat /\ x_tp s = (T mod (2 * e_n c))%nat /\ x_cp s = (C mod (2 * e_n c))%nat /\
           x_fp s = (F mod (2 * e_n c))%nat;
  iv_on : forall j, (F <= j < l_n L)%nat -> n_act (x_tab s (slot c j)) = true;
  iv_off : forall j, (l_n L <= j < F + e_n c)%nat -> n_act (x_tab s (slot c j)) = false;
  iv_ready : x_ready s = true -> (l_n L < F + e_n c)%nat /\ x_dreq s = None;
  iv_skid : skid_inv (x_skid s);
  iv_dready : x_dready s = true -> k_rdy (x_skid s) = true;
  iv_tags : forall r, In r (skid_content (x_skid s)) -> exists k, (T <= k < l_n L)%nat /\ r_tag r = slot c k;
  iv_range : ranged c s;
  iv_live : forall k, (F <= k < l_n L)%nat -> agrees c (skid_content (x_skid s)) k (x_tab s (slot c k)) (l_op L k);
  iv_old : forall k, (k < F)%nat -> settled (l_op L k);
  iv_T : forall k, (k < T)%nat -> fixedop (l_op L k);
  iv_T' : forall k, (T <= k < l_n L)%nat -> p_tx (l_op L k) = false;
  iv_C : forall k, (k < C)%nat -> pk L k = true -> p_ts (l_op L k) <> None;
  iv_C' : forall k, (C <= k < l_n L)%nat -> p_cpl (l_op L k) = false;
  iv_sent : forall k, (k < l_n L)%nat -> p_tx (l_op L k) = true \/ p_cpl (l_op L k) = true -> pk L k = true;
  iv_cur : if x_start s then x_len s = 0 /\ forall j, (j < l_n L)%nat -> quiet (l_op L j)
           else exists k, (T <= k < l_n L)%nat /\ p_descs (l_op L k) <> [] /\ p_whole (l_op L k) = false /\
             x_len s = total (p_descs (l_op L k)) /\ n_buf (x_tab s (slot c k)) = x_wr s /\
             forall j, (j < l_n L)%nat -> j <> k -> quiet (l_op L j);
  iv_tx : Forall2 (fun k d => tx_as c k (l_op L k) d) (filter (pk L) (seq 0 T)) (h_tx h ++ olist (x_tx s));
  iv_ck : if e_csum c then Forall2 (fun k d => ck_as (l_op L k) d) (filter (pk L) (seq 0 T)) (h_ck h ++ olist (x_ck s))
          else h_ck h ++ olist (x_ck s) = [];
  iv_cpl : Forall2 (fun k d => cpl_as c k (l_op L k) d) (filter (pk L) (seq 0 C)) (h_cpl h ++ olist (x_cpl s));
  iv_st : Permutation (h_st h ++ olist (x_stat s) ++ olist (x_fin s)) (flat_map (duef F L) (seq 0 (l_n L)));
  iv_dr : h_dr h ++ olist (x_dreq s) = map (fun k => (p_queue (l_op L k), slot c k)) (seq 0 (l_n L));
  iv_txp : forall d, x_tx s = Some d -> exists k, (C <= k < T)%nat /\ t_tag d = slot c k /\ p_tx (l_op L k) = false /\ pk L k = true;
  iv_cplp : forall x, x_cpl s = Some x -> exists k, (F <= k < C)%nat /\ c_tag x = slot c k /\ p_cpl (l_op L k) = false /\ pk L k = true;
  iv_oldc : forall k, (k < F)%nat -> pk L k = true -> p_cpl (l_op L k) = true;
  iv_txq : forall k, (k < T)%nat -> pk L k = true -> p_tx (l_op L k) = true \/ exists d, x_tx s = Some d /\ t_tag d = slot c k;
  iv_cplq : forall k, (k < C)%nat -> pk L k = true -> p_cpl (l_op L k) = true \/ exists d, x_cpl s = Some d /\ c_tag d = slot c k;
  iv_ask : forall k, (k < l_n L)%nat -> p_asked (l_op L k) = true \/ S k = l_n L /\ x_dreq s <> None;
  iv_num : x_cnt s = Z.of_nat (length (flat_map (unf L) (seq 0 (l_n L)))) }.

Ltac nb := repeat match goal with
  | H : (_ =? _)%nat = true |- _ => apply Nat.eqb_eq in H
  | H : (_ =? _)%nat = false |- _ => apply Nat.eqb_neq in H
  | H : (_ && _)%bool = true |- _ => apply andb_true_iff in H; destruct H
  | H : negb _ = true |- _ => apply negb_true_iff in H
  end.

Lemma Forall2_impl' {A B} (P Q : A -> B -> Prop) l m : (forall x y, In x l -> P x y -> Q x y) -> Forall2 P l m -> Forall2 Q l m.
Proof. intros H F. induction F; constructor; [apply H; [left; reflexivity|assumption]|apply IHF; intros; apply H; [right; assumption|assumption]]. Qed.
Lemma Permutation_refl' {A} (l m : list A) : l = m -> Permutation l m.
Proof. intros ->. apply Permutation_refl. Qed.
Lemma flat_map_plus {A B} (f g e : A -> list B) l : (forall x, In x l -> g x = f x ++ e x) ->
  Permutation (flat_map g l) (flat_map f l ++ flat_map e l).
Proof.
  induction l as [|x l IH]; intros H; cbn [flat_map]; [constructor|]. rewrite (H x) by (left; reflexivity).
  rewrite <- !app_assoc. apply Permutation_app_head. rewrite IH by (intros; apply H; right; assumption).
  rewrite !app_assoc. apply Permutation_app_tail. apply Permutation_app_comm.
Qed.
Lemma flat_map_one {B} (e : nat -> list B) m a : (a < m)%nat -> (forall x, (x < m)%nat -> x <> a -> e x = []) -> flat_map e (seq 0 m) = e a.
Proof.
  induction m as [|m IH]; intros A H; [lia|]. rewrite seq_S, flat_map_app. cbn [flat_map Nat.add]. rewrite app_nil_r.
  destruct (Nat.eq_dec a m) as [->|X].
  - assert (Z : flat_map e (seq 0 m) = []); [|rewrite Z; reflexivity].
    assert (G : forall l, (forall x, In x l -> e x = []) -> flat_map e l = []).
    { induction l as [|x l IHl]; intros K; cbn; [reflexivity|]. rewrite K by (left; reflexivity). apply IHl. intros; apply K; right; assumption. }
    apply G. intros x Hx. apply in_seq in Hx. apply H; lia.
  - rewrite IH by (try lia; intros; apply H; lia). rewrite (H m) by lia. apply app_nil_r.
Qed.
Lemma flat_map_none {B} (e : nat -> list B) m : (forall x, (x < m)%nat -> e x = []) -> flat_map e (seq 0 m) = [].
Proof.
  induction m as [|m IH]; intros H; [reflexivity|]. rewrite seq_S, flat_map_app. cbn [flat_map Nat.add]. rewrite (H m) by lia. rewrite IH by (intros; apply H; lia). reflexivity.
Qed.

Section Step.
  Variables (c : ecfg) (s : est) (L : ledger) (T C F : nat) (h : logs) (i : ein).
  Hypothesis Sane : sane c.
  Hypothesis I : inv c s L T C F h.
  Notation n := (l_n L).
  Notation N := (e_n c).
  Notation o := (snd (e_step c s i)).
  Hypothesis W : owed c L i o.

  Lemma w_rst : i_rst i = false.
  Proof. apply W. Qed.

  Lemma fixed_ans p : fixedop p -> p_ans p <> None.
  Proof. intros [(E & _)|(E & _)]; [congruence|]. unfold has_packet in E. destruct (p_ans p); congruence. Qed.

  Lemma live_sees k t : (F <= k < n)%nat -> means c n k t = (slot c k =? t)%nat.
  Proof. intros A. apply means_live. pose proof (iv_cnt _ _ _ _ _ _ _ I). lia. Qed.
  (** The new entry is not one of the live ones. *)
  Lemma new_slot k r : v_req s i = Some r -> (F <= k < n)%nat -> slot c n <> slot c k.
  Proof.
    intros R A E. unfold v_req in R. destruct (x_ready s) eqn:X; [|discriminate].
    destruct (iv_ready _ _ _ _ _ _ _ I X) as [B _]. apply slot_inj in E; lia.
  Qed.
  Lemma sp_slot : slot c (x_sp s) = slot c n.
  Proof. destruct (iv_ptr _ _ _ _ _ _ _ I) as (-> & _). apply slot_ptr. Qed.
  Lemma tp_slot : slot c (x_tp s) = slot c T.
  Proof. destruct (iv_ptr _ _ _ _ _ _ _ I) as (_ & -> & _). apply slot_ptr. Qed.
  Lemma cp_slot : slot c (x_cp s) = slot c C.
  Proof. destruct (iv_ptr _ _ _ _ _ _ _ I) as (_ & _ & -> & _). apply slot_ptr. Qed.
  Lemma fp_slot : slot c (x_fp s) = slot c F.
  Proof. destruct (iv_ptr _ _ _ _ _ _ _ I) as (_ & _ & _ & ->). apply slot_ptr. Qed.

  (* targets of what comes in *)
  Lemma w_ans t a q b : i_ans i = Some (t, a, q, b) -> exists k, (T <= k < n)%nat /\ t = slot c k /\ p_ans (l_op L k) = None.
  Proof.
    intros E. destruct W as (_ & X & _). destruct (X _ _ _ _ E) as (k & M & _ & A). apply means_iff in M.
    exists k. split; [|split; [symmetry; tauto|exact A]]. split; [|tauto].
    destruct (Nat.le_gt_cases T k) as [|Y]; [assumption|]. exfalso. apply (fixed_ans _ (iv_T _ _ _ _ _ _ _ I k Y)). exact A.
  Qed.
  Lemma w_desc d t l : desc_in i o = Some (d, t, l) -> exists k, (T <= k < n)%nat /\ t = slot c k /\ has_packet (l_op L k) = true /\
    p_whole (l_op L k) = false /\ desc_ok c (l_op L k) d /\ forall j, (j < n)%nat -> j <> k -> quiet (l_op L j).
  Proof.
    intros E. destruct W as (_ & _ & X & _). destruct (X _ _ _ E) as (k & M & (a & A) & B & D & J). apply means_iff in M.
    destruct M as (M1 & M2 & M3). exists k. split; [split; [|exact M1]|split; [symmetry; exact M2|split; [|split; [exact B|split; [exact D|exact J]]]]].
    - destruct (Nat.le_gt_cases T k) as [|Y]; [assumption|]. exfalso. destruct (iv_T _ _ _ _ _ _ _ I k Y) as [G|G]; destruct G as (G1 & G2 & _); congruence.
    - unfold has_packet. rewrite A. reflexivity.
  Qed.
  Lemma w_rdone t : i_rdone i = Some t -> exists k, (T <= k < n)%nat /\ t = slot c k /\ (p_got (l_op L k) < length (p_reads (l_op L k)))%nat.
  Proof.
    intros E. destruct W as (_ & _ & _ & X & _). destruct (X _ E) as (k & M & A). apply means_iff in M.
    exists k. split; [|split; [symmetry; tauto|exact A]]. split; [|tauto].
    destruct (Nat.le_gt_cases T k) as [|Y]; [assumption|]. exfalso. destruct (iv_T _ _ _ _ _ _ _ I k Y) as [(_ & _ & _ & G1 & G2)|(_ & _ & _ & G)].
    - rewrite G1, G2 in A. cbn in A. lia.
    - lia.
  Qed.
  Lemma w_tcpl t ts : v_tcpl c i = Some (t, ts) -> exists k z, i_tcpl i = Some (z, ts) /\ (C <= k < T)%nat /\ t = slot c k /\
    z = cpl_tag c (slot c k) /\ p_tx (l_op L k) = true /\ p_ts (l_op L k) = None.
  Proof.
    unfold v_tcpl. destruct (i_tcpl i) as [[z y]|] eqn:E; [|discriminate]. destruct (Z.testbit z (e_ttw c - 1)) eqn:B; [|discriminate].
    intros Q. destruct W as (_ & _ & _ & _ & _ & X & _). destruct (X _ _ E) as [Y|(k & M & Z & A & G)]; [congruence|].
    assert (y = ts) by congruence. subst y. assert (Ht : t = Z.to_nat (z mod Z.of_nat N)) by congruence. clear Q.
    exists k, z. splits; auto.
    - destruct (Nat.le_gt_cases C k) as [|Y]; [assumption|]. exfalso. apply (iv_C _ _ _ _ _ _ _ I k Y); [|exact G].
      apply (iv_sent _ _ _ _ _ _ _ I); [pose proof (iv_cnt _ _ _ _ _ _ _ I); lia|auto].
    - destruct (Nat.lt_ge_cases k T) as [|Y]; [assumption|]. exfalso. apply means_iff in M.
      rewrite (iv_T' _ _ _ _ _ _ _ I k) in A by lia. discriminate.
    - subst z t. unfold cpl_tag. fold (slot c k). destruct Sane as (_ & _ & _ & G1 & _).
      assert (HN : Z.of_nat N = 2 ^ Z.of_nat (e_cl c)) by (unfold e_n; rewrite Nat2Z.inj_pow; reflexivity).
      replace (2 ^ (e_ttw c - 1)) with (2 ^ (e_ttw c - 1 - Z.of_nat (e_cl c)) * Z.of_nat N)
        by (rewrite HN, <- Z.pow_add_r by lia; f_equal; lia).
      rewrite Z.add_comm, Z.mod_add by (pose proof (N_pos c); lia). rewrite Z.mod_small by (pose proof (slot_lt c k); lia). lia.
  Qed.
  Lemma tcpl_hit k : (F <= k < n)%nat ->
    match i_tcpl i with Some (t, ts) => if means c n k (k mod N) && (t =? cpl_tag c (k mod N)) then Some ts else None | None => None end
    = match v_tcpl c i with Some (t, ts) => if (t =? slot c k)%nat then Some ts else None | None => None end.
  Proof.
    intros A. assert (M : means c n k (slot c k) = true).
    { rewrite live_sees by exact A. apply Nat.eqb_refl. }
    fold (slot c k). rewrite M. cbn [andb]. destruct (v_tcpl c i) as [[t ts]|] eqn:E.
    - destruct (w_tcpl _ _ E) as (j & z & -> & B & -> & -> & _).
      destruct (Nat.eqb_spec (slot c j) (slot c k)) as [->|X]; [rewrite Z.eqb_refl; reflexivity|].
      destruct (Z.eqb_spec (cpl_tag c (slot c j)) (cpl_tag c (slot c k))) as [Y|Y]; [|reflexivity].
      unfold cpl_tag in Y. lia.
    - unfold v_tcpl in E. destruct (i_tcpl i) as [[z y]|]; [|reflexivity].
      destruct (Z.testbit z (e_ttw c - 1)) eqn:B; [discriminate|].
      destruct (Z.eqb_spec z (cpl_tag c (slot c k))) as [Y|Y]; [|reflexivity]. exfalso. subst z. unfold cpl_tag in B.
      destruct Sane as (_ & _ & _ & G1 & _). pose proof (slot_lt c k) as Sl.
      assert (HN : Z.of_nat N = 2 ^ Z.of_nat (e_cl c)) by (unfold e_n; rewrite Nat2Z.inj_pow; reflexivity).
      assert (2 ^ Z.of_nat (e_cl c) <= 2 ^ (e_ttw c - 1)) by (apply Z.pow_le_mono_r; lia).
      assert (0 <= e_ttw c - 1) by lia.
      rewrite Z.testbit_odd, Z.shiftr_div_pow2 in B by lia.
      replace (2 ^ (e_ttw c - 1) + Z.of_nat (slot c k)) with (Z.of_nat (slot c k) + 1 * 2 ^ (e_ttw c - 1)) in B by ring.
      rewrite Z.div_add in B by (apply Z.pow_nonzero; lia). rewrite Z.div_small in B by lia. discriminate.
  Qed.
  Lemma w_cans t : i_cans i = Some t -> exists k, (F <= k < C)%nat /\ t = slot c k /\ p_cpl (l_op L k) = true.
  Proof.
    intros E. destruct W as (_ & _ & _ & _ & _ & _ & X). destruct (X _ E) as (k & M & A & B). apply means_iff in M.
    exists k. split; [|split; [symmetry; tauto|exact A]]. split.
    - destruct (Nat.le_gt_cases F k) as [|Y]; [assumption|]. exfalso. destruct (iv_old _ _ _ _ _ _ _ I k Y) as [G|G].
      + assert (P : pk L k = true) by (apply (iv_sent _ _ _ _ _ _ _ I); [tauto|auto]). unfold pk, has_packet in P. rewrite G in P. discriminate.
      + destruct G as (_ & _ & _ & _ & G). congruence.
    - destruct (Nat.lt_ge_cases k C) as [|Y]; [assumption|]. exfalso.
      rewrite (iv_C' _ _ _ _ _ _ _ I k) in A by lia. discriminate.
  Qed.

  (* what is accepted *)
  Lemma req_same : req_in i o = v_req s i.
  Proof. reflexivity. Qed.
  Lemma desc_same : v_desc c s i = desc_in i o.
  Proof.
    unfold v_desc. destruct (desc_in i o) as [[[d t] l]|] eqn:E.
    - destruct (w_desc _ _ _ E) as (k & A & -> & _). unfold desc_in in E. cbn in E. destruct (x_dready s); [|discriminate]. rewrite E.
      rewrite slot_small by apply slot_lt.
      rewrite (iv_on _ _ _ _ _ _ _ I) by (pose proof (iv_cnt _ _ _ _ _ _ _ I); lia). reflexivity.
    - unfold desc_in in E. cbn in E. destruct (x_dready s); [rewrite E|]; reflexivity.
  Qed.
  Lemma read_same : v_read c s i = match desc_in i o with
    | Some (d, t, _) => if d_len d =? 0 then None else Some (mkRd (d_addr d) ((x_wr s mod 2 ^ e_bl c + x_len s) mod 2 ^ e_raw c) (d_len d) t)
    | None => None end.
  Proof.
    unfold v_read. rewrite desc_same. destruct (desc_in i o) as [[[d t] l]|] eqn:E; [|reflexivity].
    destruct (w_desc _ _ _ E) as (k & A & -> & _ & _ & D & _). destruct D as (_ & _ & D1 & D2 & _).
    pose proof (ag_pos _ _ _ _ _ (iv_live _ _ _ _ _ _ _ I k ltac:(pose proof (iv_cnt _ _ _ _ _ _ _ I); lia))) as D3.
    destruct Sane as (S1 & S2 & _ & _ & _ & _ & _ & _ & S9). unfold v_rlen. rewrite Z.mod_small by lia.
    rewrite (slot_small c (slot c k)) by apply slot_lt. rewrite S9, Z.add_0_r. reflexivity.
  Qed.
  Lemma content : skid_content (x_skid s) ++ olist (v_read c s i) = olist (read_out i o) ++ skid_content (x_skid (fst (e_step c s i))).
  Proof.
    pose proof (@skid_step_content rd (x_skid s) (v_read c s i) (i_rrdy i) (iv_skid _ _ _ _ _ _ _ I)) as X.
    assert (Y : (if k_rdy (x_skid s) then v_read c s i else None) = v_read c s i).
    { destruct (v_read c s i) as [r|] eqn:E; [|destruct (k_rdy (x_skid s)); reflexivity].
      unfold v_read, v_desc in E. destruct (x_dready s) eqn:Z; [|discriminate]. rewrite (iv_dready _ _ _ _ _ _ _ I Z). reflexivity. }
    rewrite Y in X. unfold e_step. rewrite w_rst. exact X.
  Qed.
  Lemma read_out_in r : read_out i o = Some r -> In r (skid_content (x_skid s)).
  Proof.
    unfold read_out. cbn. destruct (i_rrdy i); [|discriminate]. unfold skid_content. intros ->. left. reflexivity.
  Qed.
  Notation next k := (op_next c n i o k (l_op L k)).
  Lemma cnt : (F <= C /\ C <= T /\ T <= n /\ n <= F + N)%nat.
  Proof. exact (iv_cnt _ _ _ _ _ _ _ I). Qed.
  Lemma same_target j k : (F <= j < n)%nat -> means c n k (slot c j) = true -> k = j.
  Proof. intros A M. apply (means_one c n k j (slot c j)); [exact M|]. rewrite live_sees by exact A. apply Nat.eqb_refl. Qed.

  Definition unread (k : nat) : Prop := forall r, In r (skid_content (x_skid s)) -> means c n k (r_tag r) = false.
  Lemma frozen k : fixedop (l_op L k) -> unread k ->
    p_ans (next k) = p_ans (l_op L k) /\ p_descs (next k) = p_descs (l_op L k) /\ p_whole (next k) = p_whole (l_op L k) /\
    p_reads (next k) = p_reads (l_op L k) /\ p_got (next k) = p_got (l_op L k).
  Proof.
    intros X U. pose proof cnt as Q.
    assert (D : forall d t l, desc_in i o = Some (d, t, l) -> means c n k t = false).
    { intros d t l E. destruct (w_desc _ _ _ E) as (j & A & -> & B & B' & _). destruct (means c n k (slot c j)) eqn:M; [|reflexivity].
      apply same_target in M; [|lia]. subst j. destruct X as [(G & G1 & G2 & _)|(_ & G & _)]; [|congruence].
      unfold has_packet in B. rewrite G in B. discriminate. }
    unfold op_next. cbn [p_ans p_descs p_whole p_reads p_got]. splits.
    - destruct (i_ans i) as [[[[t a] q] b]|] eqn:E; [|reflexivity]. destruct (means c n k t) eqn:M; [|reflexivity].
      destruct (w_ans _ _ _ _ E) as (j & A & -> & B). apply same_target in M; [|lia]. subst j. exfalso. exact (fixed_ans _ X B).
    - destruct (desc_in i o) as [[[d t] l]|]; [|reflexivity]. rewrite (D _ _ _ eq_refl). reflexivity.
    - destruct (desc_in i o) as [[[d t] l]|]; [|reflexivity]. rewrite (D _ _ _ eq_refl). reflexivity.
    - destruct (read_out i o) as [r|] eqn:E; [|reflexivity]. rewrite (U r (read_out_in r E)). reflexivity.
    - unfold hit. destruct (i_rdone i) as [t|] eqn:E; [|reflexivity]. destruct (means c n k t) eqn:M; [|reflexivity].
      destruct (w_rdone _ E) as (j & A & -> & B). apply same_target in M; [|lia]. subst j. exfalso.
      destruct X as [(_ & _ & _ & G1 & G2)|(_ & _ & _ & G)]; [rewrite G1, G2 in B; cbn in B; lia|lia].
  Qed.
  Lemma old_unread k : (k < T)%nat -> unread k.
  Proof.
    intros A r R. destruct (iv_tags _ _ _ _ _ _ _ I r R) as (j & B & ->). destruct (means c n k (slot c j)) eqn:M; [|reflexivity].
    pose proof cnt. apply same_target in M; lia.
  Qed.

  (** What happens to request [k]. *)
  Definition dj (k : nat) : option (desc * bool) :=
    match desc_in i o with Some (d, t, l) => if means c n k t then Some (d, l) else None | None => None end.
  Lemma dj_facts k d l : dj k = Some (d, l) -> (T <= k < n)%nat /\ desc_in i o = Some (d, slot c k, l) /\ has_packet (l_op L k) = true /\
    p_whole (l_op L k) = false /\ desc_ok c (l_op L k) d /\ (forall j, (j < n)%nat -> j <> k -> quiet (l_op L j)) /\
    x_start s = match p_descs (l_op L k) with [] => true | _ => false end /\ x_len s = total (p_descs (l_op L k)) /\
    (p_descs (l_op L k) <> [] -> n_buf (x_tab s (slot c k)) = x_wr s) /\ v_len c s d = total (p_descs (l_op L k)) + d_len d /\ v_rlen c d = d_len d.
  Proof.
    unfold dj. destruct (desc_in i o) as [[[d' t] l']|] eqn:E; [|discriminate]. destruct (means c n k t) eqn:M; [|discriminate].
    intros X. injection X as -> ->. destruct (w_desc _ _ _ E) as (j & A & -> & B & B1 & B2 & B3). pose proof cnt.
    apply same_target in M; [|lia]. subst j.
    assert (P : 0 <= total (p_descs (l_op L k))) by (apply (ag_pos _ _ _ _ _ (iv_live _ _ _ _ _ _ _ I k ltac:(lia)))).
    assert (V : x_start s = match p_descs (l_op L k) with [] => true | _ => false end /\ x_len s = total (p_descs (l_op L k)) /\
      (p_descs (l_op L k) <> [] -> n_buf (x_tab s (slot c k)) = x_wr s)).
    { pose proof (iv_cur _ _ _ _ _ _ _ I) as K. destruct (x_start s).
      - destruct K as (K1 & K2). destruct (K2 k ltac:(lia)) as [Y|Y]; [|congruence]. rewrite Y. splits; [reflexivity|exact K1|congruence].
      - destruct K as (m & K1 & K2 & K3 & K4 & K5 & K6). destruct (Nat.eq_dec k m) as [->|Ne].
        + destruct (p_descs (l_op L m)); [congruence|]. splits; auto.
        + exfalso. destruct (B3 m ltac:(lia) ltac:(auto)) as [Y|Y]; congruence. }
    destruct V as (V1 & V2 & V3). destruct B2 as (O1 & O2 & O3 & O4 & O5). destruct Sane as (S1 & S2 & _).
    splits; auto; try lia.
    - unfold desc_ok. splits; auto; lia.
    - unfold v_len. rewrite V2, Z.mod_small by lia. destruct (Z.ltb_spec (e_max c) (total (p_descs (l_op L k)) + d_len d)); lia.
    - unfold v_rlen. apply Z.mod_small. lia.
  Qed.
  Lemma dv_dj k : (F <= k < n)%nat ->
    match v_desc c s i with Some (d, t, l) => if (slot c t =? slot c k)%nat then Some (d, l) else None | None => None end = dj k.
  Proof.
    intros A. unfold dj. rewrite desc_same. destruct (desc_in i o) as [[[d t] l]|] eqn:E; [|reflexivity].
    destruct (w_desc _ _ _ E) as (j & B & -> & _). rewrite live_sees by exact A. rewrite (slot_small c (slot c j)) by apply slot_lt.
    rewrite Nat.eqb_sym. reflexivity.
  Qed.
  Lemma descs_next k : p_descs (next k) = p_descs (l_op L k) ++ match dj k with Some (d, _) => [d] | None => [] end.
  Proof.
    unfold op_next, dj. cbn [p_descs]. destruct (desc_in i o) as [[[d t] l]|]; [|rewrite app_nil_r; reflexivity].
    destruct (means c n k t); [reflexivity|rewrite app_nil_r; reflexivity].
  Qed.
  Lemma whole_next k : p_whole (next k) = match dj k with Some (_, l) => l | None => p_whole (l_op L k) end.
  Proof. unfold op_next, dj. cbn [p_whole]. destruct (desc_in i o) as [[[d t] l]|]; [destruct (means c n k t)|]; reflexivity. Qed.
  Lemma ans_next k : has_packet (l_op L k) = true -> p_ans (next k) = p_ans (l_op L k).
  Proof.
    intros X. unfold op_next. cbn [p_ans]. destruct (i_ans i) as [[[[t a] q] b]|] eqn:E; [|reflexivity]. destruct (means c n k t) eqn:M; [|reflexivity].
    destruct (w_ans _ _ _ _ E) as (j & A & -> & B). pose proof cnt. apply same_target in M; [|lia]. subst j. unfold has_packet in X. rewrite B in X. discriminate.
  Qed.
  Lemma pk_next k : has_packet (l_op L k) = true -> has_packet (next k) = true.
  Proof. intros X. unfold has_packet. rewrite ans_next by exact X. exact X. Qed.
  Lemma reads_next k : (F <= k < n)%nat ->
    p_reads (next k) ++ filter (mine (slot c k)) (skid_content (x_skid (fst (e_step c s i)))) =
    p_reads (l_op L k) ++ filter (mine (slot c k)) (skid_content (x_skid s)) ++
      match dj k with Some (d, _) => places c (slot c k) (x_wr s mod 2 ^ e_bl c + x_len s) [d] | None => [] end.
  Proof.
    intros A.
    assert (E1 : p_reads (next k) = p_reads (l_op L k) ++ filter (mine (slot c k)) (olist (read_out i o))).
    { unfold op_next. cbn [p_reads]. destruct (read_out i o) as [r|]; [|cbn; rewrite app_nil_r; reflexivity].
      rewrite live_sees by exact A. cbn [olist filter]. unfold mine. rewrite Nat.eqb_sym. destruct (r_tag r =? slot c k)%nat; [reflexivity|rewrite app_nil_r; reflexivity]. }
    rewrite E1, <- app_assoc, <- filter_app, <- content, filter_app. f_equal. f_equal. rewrite read_same. unfold dj.
    destruct (desc_in i o) as [[[d t] l]|]; [|reflexivity]. rewrite live_sees by exact A. unfold mine.
    destruct (Nat.eqb_spec (slot c k) t) as [<-|X]; cbn [places]; destruct (d_len d =? 0); cbn [olist filter app r_tag]; try reflexivity.
    - rewrite Nat.eqb_refl. reflexivity.
    - destruct (Nat.eqb_spec t (slot c k)); [congruence|reflexivity].
  Qed.
  Lemma reads_prefix k : exists l, p_reads (next k) = p_reads (l_op L k) ++ l.
  Proof.
    unfold op_next. cbn [p_reads]. destruct (read_out i o) as [r|]; [destruct (means _ _ _ _); [eauto|]|]; exists []; rewrite app_nil_r; reflexivity.
  Qed.
  Lemma rdone_hit k : (F <= k < n)%nat -> is_tag (option_map (slot c) (i_rdone i)) (slot c k) = hit c n k (i_rdone i).
  Proof.
    intros A. unfold is_tag, hit. destruct (i_rdone i) as [t|] eqn:E; [|reflexivity]. cbn [option_map]. rewrite live_sees by exact A.
    destruct (w_rdone _ E) as (j & B & -> & _). rewrite (slot_small c (slot c j)) by apply slot_lt. apply Nat.eqb_sym.
  Qed.
  Lemma rdone_got k : hit c n k (i_rdone i) = true -> (p_got (l_op L k) < length (p_reads (l_op L k)))%nat.
  Proof.
    unfold hit. destruct (i_rdone i) as [t|] eqn:E; [|discriminate]. intros M. destruct (w_rdone _ E) as (j & B & -> & Q).
    pose proof cnt. apply same_target in M; [|lia]. subst j. exact Q.
  Qed.
  Lemma cans_hit k : (F <= k < n)%nat -> is_tag (option_map (slot c) (i_cans i)) (slot c k) = hit c n k (i_cans i).
  Proof.
    intros A. unfold is_tag, hit. destruct (i_cans i) as [t|] eqn:E; [|reflexivity]. cbn [option_map]. rewrite live_sees by exact A.
    destruct (w_cans _ E) as (j & B & -> & _). rewrite (slot_small c (slot c j)) by apply slot_lt. apply Nat.eqb_sym.
  Qed.

  Lemma agrees_step k : (F <= k < n)%nat ->
    agrees c (skid_content (x_skid (fst (e_step c s i)))) k (entry_next c s i (slot c k) (x_tab s (slot c k))) (next k).
  Proof.
    intros A. pose proof cnt as Q. pose proof (iv_live _ _ _ _ _ _ _ I k A) as G. pose proof (iv_range _ _ _ _ _ _ _ I (slot c k)) as [R1 R2].
    set (e := x_tab s (slot c k)) in *.
    assert (New : match v_req s i with Some _ => (slot c (x_sp s) =? slot c k)%nat | None => false end = false).
    { destruct (v_req s i) as [r|] eqn:E; [|reflexivity]. apply Nat.eqb_neq. rewrite sp_slot. exact (new_slot k r E A). }
    assert (Ans : forall t a q b, i_ans i = Some (t, a, q, b) -> (slot c t =? slot c k)%nat = means c n k t).
    { intros t a q b E. destruct (w_ans _ _ _ _ E) as (j & B & -> & _). rewrite live_sees by exact A. rewrite slot_small by apply slot_lt. apply Nat.eqb_sym. }
    assert (Ans0 : forall t a q b, i_ans i = Some (t, a, q, b) -> means c n k t = true -> p_ans (l_op L k) = None).
    { intros t a q b E M. destruct (w_ans _ _ _ _ E) as (j & B & -> & Y). apply same_target in M; [|lia]. subst j. exact Y. }
    pose proof (dv_dj k A) as DV. pose proof (tcpl_hit k A) as TC.
    assert (Cs : forall P : Prop, P -> P) by auto.
    assert (DF := dj_facts k).
    constructor.
    - destruct (ag_id _ _ _ _ _ G) as (X1 & X2 & X3). unfold entry_next, entry_upd, op_next. cbn [n_queue n_tag n_dest p_queue p_tag p_dest].
      destruct (v_req s i) as [[[q t] d]|]; [rewrite New|]; auto.
    - unfold entry_next, entry_upd, op_next. cbn [n_inv p_ans]. rewrite New. pose proof (ag_inv _ _ _ _ _ G) as X. fold e in X.
      destruct (i_ans i) as [[[[t a] q] b]|] eqn:E; [|exact X]. rewrite (Ans _ _ _ _ eq_refl).
      destruct (means c n k t) eqn:M; [|exact X]. rewrite (Ans0 _ _ _ _ eq_refl M) in X. destruct b; [reflexivity|exact X].
    - unfold entry_next, entry_upd, op_next. cbn [n_qptr n_cq p_ans]. pose proof (ag_ans _ _ _ _ _ G) as X. fold e in X.
      destruct (i_ans i) as [[[[t a] q] b]|] eqn:E; [|exact X]. rewrite (Ans _ _ _ _ eq_refl).
      destruct (means c n k t) eqn:M; [|exact X]. destruct b; auto.
    - rewrite whole_next. unfold entry_next, entry_upd. cbn [n_fet]. rewrite DV, New. pose proof (ag_fet _ _ _ _ _ G) as X. fold e in X.
      destruct (dj k) as [[d []]|] eqn:E; [reflexivity| |exact X]. destruct (DF _ _ eq_refl) as (_ & _ & _ & Y & _). congruence.
    - intros Z. rewrite descs_next in Z. apply app_eq_nil in Z. destruct Z as [Z1 Z2]. destruct (dj k) as [[d l]|] eqn:E; [discriminate|].
      destruct (ag_none _ _ _ _ _ G Z1) as (X1 & X2 & X3 & X4). rewrite whole_next, E. pose proof (reads_next k A) as Y.
      rewrite E, X2, X4 in Y. cbn [app] in Y. apply app_eq_nil in Y. destruct Y as [Y1 Y2]. splits; auto.
      unfold op_next. cbn [p_got]. destruct (hit c n k (i_rdone i)) eqn:H; [|exact X3]. apply rdone_got in H. rewrite X2 in H. cbn in H. lia.
    - intros d ds Z.
      assert (Gn : forall (Hd : p_descs (l_op L k) <> [] \/ dj k <> None), has_packet (l_op L k) = true).
      { intros [Hd|Hd]; [destruct (p_descs (l_op L k)) as [|x y] eqn:E; [congruence|]; apply (ag_desc _ _ _ _ _ G _ _ E)|].
        destruct (dj k) as [[x l]|]; [|congruence]. apply (DF _ _ eq_refl). }
      pose proof Z as Z0. rewrite descs_next in Z.
      assert (Hp : has_packet (l_op L k) = true).
      { apply Gn. destruct (p_descs (l_op L k)); [|left; discriminate]. right. destruct (dj k); [discriminate|]. discriminate. }
      split; [apply pk_next; exact Hp|]. rewrite Z0.
      assert (Rf : n_rf (entry_next c s i (slot c k) e) = (n_rf e + if hit c n k (i_rdone i) then 1 else 0) mod 2 ^ e_cw c).
      { unfold entry_next, entry_upd. cbn [n_rf]. rewrite rdone_hit by exact A. destruct (hit c n k (i_rdone i)); [reflexivity|].
        rewrite Z.add_0_r, Z.mod_small by exact R2. reflexivity. }
      assert (Gt : p_got (next k) = (p_got (l_op L k) + if hit c n k (i_rdone i) then 1 else 0)%nat).
      { unfold op_next. cbn [p_got]. destruct (hit c n k (i_rdone i)); lia. }
      assert (P2 : 0 < 2 ^ e_cw c) by lia.
      destruct (dj k) as [[x l]|] eqn:E.
      + destruct (DF _ _ eq_refl) as (_ & Hin & _ & Hw & Hok & _ & Hs & Hl & Hb & Hv & Hr).
        destruct Hok as (O1 & O2 & O3 & O4 & O5).
        assert (Rs : n_rs (entry_next c s i (slot c k) e) = ((if x_start s then n_rf e else n_rs e) + if d_len x =? 0 then 0 else 1) mod 2 ^ e_cw c).
        { unfold entry_next, entry_upd. cbn [n_rs]. rewrite DV, Hr. destruct (d_len x =? 0); cbn [negb]; [|reflexivity].
          rewrite Z.add_0_r. destruct (x_start s); rewrite Z.mod_small; auto. }
        destruct (p_descs (l_op L k)) as [|y ys] eqn:Ed.
        * cbn [app] in Z. injection Z as <- <-. destruct (ag_none _ _ _ _ _ G Ed) as (X1 & X2 & X3 & X4).
          assert (Hh : hit c n k (i_rdone i) = false).
          { destruct (hit c n k (i_rdone i)) eqn:H; [|reflexivity]. apply rdone_got in H. rewrite X2 in H. cbn in H. lia. }
          rewrite Hh in Rf, Gt. rewrite Rs, Rf, Gt, X3, Hs.
          splits; try (unfold entry_next, entry_upd; cbn [n_cs n_co n_ce n_com]; rewrite DV, Hs; try rewrite whole_next, E; rewrite ?orb_true_r; reflexivity).
          -- rewrite Z.add_0_r, <- Zminus_mod. f_equal. unfold issued. cbn [filter]. destruct (d_len x =? 0); cbn [negb length]; lia.
          -- rewrite reads_next by exact A. rewrite X2, X4, E. cbn [app].
             assert (Eb : n_buf (entry_next c s i (slot c k) e) = x_wr s) by (unfold entry_next, entry_upd; cbn [n_buf]; rewrite DV, Hs; reflexivity).
             rewrite Eb, Hl. unfold total. cbn. rewrite Z.add_0_r. reflexivity.
          -- apply O1. -- apply O1. -- apply O2. -- apply O2.
        * cbn [app] in Z. injection Z as <- <-. destruct (ag_desc _ _ _ _ _ G _ _ Ed) as (_ & X1 & X2 & X3 & X4 & X5 & X6 & X7).
          fold e in X1, X2, X3, X4, X5, X6.
          assert (Eb : n_buf (entry_next c s i (slot c k) e) = n_buf e) by (unfold entry_next, entry_upd; cbn [n_buf]; rewrite DV, Hs; reflexivity).
          rewrite Rs, Rf, Gt, Hs, Eb. rewrite Ed in X5, X6.
          splits.
          -- unfold entry_next, entry_upd; cbn [n_cs]; rewrite DV, Hs; exact X1.
          -- unfold entry_next, entry_upd; cbn [n_co]; rewrite DV, Hs; exact X2.
          -- unfold entry_next, entry_upd; cbn [n_ce]; rewrite DV, Hs; exact X3.
          -- unfold entry_next, entry_upd; cbn [n_com]; rewrite DV, Hs, Hr, whole_next, E. destruct (d_len x =? 0), l; cbn [negb orb]; auto. rewrite X4. exact Hw.
          -- change (y :: ys ++ [x]) with ((y :: ys) ++ [x]). rewrite issued_app, Nat2Z.inj_add, <- Zminus_mod.
             set (u := Z.of_nat (issued (y :: ys))) in *. set (g := Z.of_nat (p_got (l_op L k))) in *.
             rewrite Nat2Z.inj_add. fold g.
             replace (n_rs e + (if d_len x =? 0 then 0 else 1) - (n_rf e + (if hit c n k (i_rdone i) then 1 else 0)))
               with ((n_rs e - n_rf e) + ((if d_len x =? 0 then 0 else 1) - (if hit c n k (i_rdone i) then 1 else 0))) by ring.
             rewrite modstep with (u := u) (g := g) by assumption. f_equal. clear. destruct (d_len x =? 0), (hit c n k (i_rdone i)); lia.
          -- rewrite reads_next by exact A. rewrite E, app_assoc, X6. change (y :: ys ++ [x]) with ((y :: ys) ++ [x]). rewrite places_app. f_equal.
             rewrite Hl, <- Hb by congruence. reflexivity.
          -- apply X7. -- apply X7. -- apply X7. -- apply X7.
      + rewrite app_nil_r in Z. destruct (ag_desc _ _ _ _ _ G _ _ Z) as (_ & X1 & X2 & X3 & X4 & X5 & X6 & X7). fold e in X1, X2, X3, X4, X5, X6. rewrite Z in X5, X6.
        assert (Eb : n_buf (entry_next c s i (slot c k) e) = n_buf e) by (unfold entry_next, entry_upd; cbn [n_buf]; rewrite DV; reflexivity).
        rewrite Rf, Gt, Eb. splits.
        -- unfold entry_next, entry_upd; cbn [n_cs]; rewrite DV; exact X1.
        -- unfold entry_next, entry_upd; cbn [n_co]; rewrite DV; exact X2.
        -- unfold entry_next, entry_upd; cbn [n_ce]; rewrite DV; exact X3.
        -- unfold entry_next, entry_upd; cbn [n_com]; rewrite DV, whole_next, E; exact X4.
        -- assert (Rs : n_rs (entry_next c s i (slot c k) e) = n_rs e) by (unfold entry_next, entry_upd; cbn [n_rs]; rewrite DV; reflexivity).
           rewrite Rs, Zminus_mod_idemp_r, Nat2Z.inj_add.
           replace (n_rs e - (n_rf e + (if hit c n k (i_rdone i) then 1 else 0))) with ((n_rs e - n_rf e) + - (if hit c n k (i_rdone i) then 1 else 0)) by ring.
           rewrite (modstep _ _ _ _ _ _ P2 X5). f_equal. clear. destruct (hit c n k (i_rdone i)); lia.
        -- rewrite reads_next by exact A. rewrite E, app_nil_r. exact X6.
        -- apply X7. -- apply X7. -- apply X7. -- apply X7.
    - rewrite whole_next, descs_next. unfold entry_next, entry_upd. cbn [n_len]. rewrite DV. destruct (dj k) as [[x l]|] eqn:E.
      + intros ->. destruct (DF _ _ eq_refl) as (_ & _ & _ & _ & _ & _ & _ & _ & _ & Hv & _). rewrite Hv, total_app. reflexivity.
      + rewrite app_nil_r. exact (ag_len _ _ _ _ _ G).
    - rewrite descs_next. destruct (dj k) as [[x l]|] eqn:E; [|rewrite app_nil_r; exact (ag_pos _ _ _ _ _ G)].
      destruct (DF _ _ eq_refl) as (_ & _ & _ & _ & Hok & _). destruct Hok as (_ & _ & O3 & _). rewrite total_app. pose proof (ag_pos _ _ _ _ _ G). lia.
    - rewrite descs_next. destruct (dj k) as [[x l]|] eqn:E; [|rewrite app_nil_r; exact (ag_few _ _ _ _ _ G)].
      destruct (DF _ _ eq_refl) as (_ & _ & _ & _ & Hok & _). destruct Hok as (_ & _ & _ & _ & O5). rewrite app_length. cbn [length]. lia.
    - destruct (reads_prefix k) as [l ->]. rewrite app_length. unfold op_next. cbn [p_got]. pose proof (ag_got _ _ _ _ _ G).
      destruct (hit c n k (i_rdone i)) eqn:H0; [apply rdone_got in H0|]; lia.
    - unfold entry_next, entry_upd, op_next. cbn [n_da n_db p_ts]. rewrite New. pose proof (ag_done _ _ _ _ _ G) as X. fold e in X.
      destruct (v_tcpl c i) as [[t ts]|] eqn:E.
      + destruct (t =? slot c k)%nat eqn:Et.
        * destruct (i_tcpl i) as [[z y]|]; [|discriminate]. destruct (means _ _ _ _ && _); [|discriminate]. cbn. destruct (n_da e); reflexivity.
        * destruct (i_tcpl i) as [[z y]|]; [|exact X]. destruct (means _ _ _ _ && _); [discriminate|exact X].
      + destruct (i_tcpl i) as [[z y]|]; [|exact X]. destruct (means _ _ _ _ && _); [discriminate|exact X].
    - intros ts. unfold entry_next, entry_upd, op_next. cbn [n_ts p_ts p_tx]. pose proof (ag_ts _ _ _ _ _ G) as X. fold e in X.
      assert (Y : p_ts (l_op L k) = Some ts -> p_tx (l_op L k) || hit c n k (option_map t_tag (tx_out i o)) = true /\ (e_ptp c = true -> n_ts e = ts)).
      { intros H. destruct (X ts H) as [X1 X2]. rewrite X1. auto. }
      destruct (v_tcpl c i) as [[t ts']|] eqn:E.
      + destruct (Nat.eqb_spec t (slot c k)) as [Et|Et].
        * destruct (i_tcpl i) as [[z y]|] eqn:Ei; [|discriminate]. destruct (means _ _ _ _ && _); [|discriminate]. intros H. injection H as <-.
          injection TC as ->. destruct (w_tcpl _ _ E) as (j & z' & _ & B & B1 & _ & B2 & _).
          assert (j = k) by (apply slot_inj with c; [lia|lia|congruence]). subst j. rewrite B2. split; [reflexivity|]. intros ->. reflexivity.
        * destruct (i_tcpl i) as [[z y]|]; [|exact Y]. destruct (means _ _ _ _ && _); [discriminate|exact Y].
      + destruct (i_tcpl i) as [[z y]|]; [|exact Y]. destruct (means _ _ _ _ && _); [discriminate|exact Y].
    - unfold entry_next, entry_upd, op_next. cbn [n_cw p_written]. rewrite New, cans_hit by exact A. rewrite <- (ag_cw _ _ _ _ _ G). fold e.
      destruct (hit c n k (i_cans i)); [rewrite orb_true_r; reflexivity|rewrite orb_false_r; reflexivity].
    - unfold op_next. cbn [p_written p_cpl]. intros H. apply orb_true_iff in H. destruct H as [H|H].
      + rewrite (ag_wr _ _ _ _ _ G H). reflexivity.
      + unfold hit in H. destruct (i_cans i) as [t|] eqn:E; [|discriminate]. destruct (w_cans _ E) as (j & B & -> & Y).
        apply same_target in H; [|lia]. subst j. rewrite Y. reflexivity.
  Qed.

  Notation st' := (fst (e_step c s i)).
  Notation L' := (keep c L (i, o)).
  Notation T' := (if moves (v_tx c s) then S T else T).
  Notation C' := (if moves (v_cpl c s i) then S C else C).
  Notation F' := (if moves (v_fin c s) then S F else F).
  Ltac st f := unfold e_step at 1; rewrite w_rst; cbn [fst f].

  Lemma n_next : l_n L' = match v_req s i with Some _ => S n | None => n end.
  Proof. unfold keep. rewrite req_same. destruct (v_req s i) as [[[q t] d]|]; reflexivity. Qed.
  Lemma op_old k : (k < n)%nat -> l_op L' k = next k.
  Proof.
    intros A. unfold keep. rewrite req_same. destruct (v_req s i) as [[[q t] d]|]; [|reflexivity]. cbn [l_op].
    destruct (Nat.eqb_spec k n); [lia|reflexivity].
  Qed.
  Lemma op_new q t d : v_req s i = Some (q, t, d) -> l_op L' n = blank q t d.
  Proof. intros E. unfold keep. rewrite req_same, E. cbn [l_op]. rewrite Nat.eqb_refl. reflexivity. Qed.

  Lemma tx_moves : v_tx c s <> Wait -> (T < n)%nat /\ fixedop (l_op L T) /\ unread T /\
    (v_tx c s = Go -> has_packet (l_op L T) = true /\ x_tx s = None /\ (e_csum c = true -> x_ck s = None)) /\
    (v_tx c s = Skip -> p_ans (l_op L T) = Some None).
  Proof.
    unfold v_tx. rewrite tp_slot. pose proof cnt as Q. destruct (iv_ptr _ _ _ _ _ _ _ I) as (-> & -> & _). rewrite ptr_eqb by lia.
    destruct (n_act (x_tab s (slot c T))) eqn:A1; cbn [andb]; [|congruence]. destruct (Nat.eqb_spec T n) as [|A2]; cbn [negb]; [congruence|].
    assert (A3 : (F <= T < n)%nat) by lia. pose proof (iv_live _ _ _ _ _ _ _ I T A3) as G. pose proof (iv_range _ _ _ _ _ _ _ I (slot c T)) as [R1 R2].
    assert (U : filter (mine (slot c T)) (skid_content (x_skid s)) = [] -> unread T).
    { intros E r Hr. rewrite live_sees by exact A3. destruct (Nat.eqb_spec (slot c T) (r_tag r)) as [X|]; [|reflexivity]. exfalso.
      assert (In r (filter (mine (slot c T)) (skid_content (x_skid s)))) as Y; [|rewrite E in Y; exact Y].
      apply filter_In. split; [exact Hr|]. unfold mine. apply Nat.eqb_eq. auto. }
    pose proof (ag_inv _ _ _ _ _ G) as Gi. destruct (n_inv (x_tab s (slot c T))).
    - intros _. split; [lia|]. assert (Pa : p_ans (l_op L T) = Some None) by (destruct (p_ans (l_op L T)) as [[|]|]; congruence).
      assert (Pd : p_descs (l_op L T) = []).
      { destruct (p_descs (l_op L T)) as [|d ds] eqn:E; [reflexivity|]. destruct (ag_desc _ _ _ _ _ G _ _ E) as (X & _). unfold has_packet in X. rewrite Pa in X. discriminate. }
      destruct (ag_none _ _ _ _ _ G Pd) as (X1 & X2 & X3 & X4). splits.
      + left. splits; auto.
      + apply U. exact X4.
      + discriminate.
      + auto.
    - destruct (n_fet (x_tab s (slot c T))) eqn:B1; cbn [andb]; [|congruence].
      destruct (n_com (x_tab s (slot c T))) eqn:B2; cbn [andb]; [|congruence].
      destruct (n_rs (x_tab s (slot c T)) =? n_rf (x_tab s (slot c T))) eqn:B3; cbn [andb]; [|congruence].
      destruct (x_tx s) eqn:B4; cbn [isnone andb]; [congruence|].
      destruct (isnone (x_ck s) || negb (e_csum c)) eqn:B5; [|congruence]. intros _.
      rewrite (ag_fet _ _ _ _ _ G) in B1. destruct (p_descs (l_op L T)) as [|d ds] eqn:E.
      { destruct (ag_none _ _ _ _ _ G E) as (X & _). congruence. }
      destruct (ag_desc _ _ _ _ _ G _ _ E) as (X0 & _ & _ & _ & _ & X5 & X6 & _).
      assert (Y1 : length (p_reads (l_op L T) ++ filter (mine (slot c T)) (skid_content (x_skid s))) = issued (p_descs (l_op L T))).
      { rewrite X6. apply places_length. }
      rewrite app_length in Y1. pose proof (ag_got _ _ _ _ _ G) as Y2. pose proof (issued_le (p_descs (l_op L T))) as Y3. pose proof (ag_few _ _ _ _ _ G) as Y4.
      assert (Y5 : issued (p_descs (l_op L T)) = p_got (l_op L T)).
      { assert (Z1 : 0 <= Z.of_nat (p_got (l_op L T)) <= Z.of_nat (issued (p_descs (l_op L T)))) by (clear - Y1 Y2; lia).
        assert (Z2 : Z.of_nat (issued (p_descs (l_op L T))) < 2 ^ e_cw c) by (clear - Y3 Y4; lia).
        pose proof (counters _ _ _ _ _ (proj1 (proj2 (proj2 Sane))) R1 R2 X5 Z1 Z2) as Y.
        rewrite B3 in Y. symmetry in Y. apply Z.eqb_eq in Y. clear - Y. lia. }
      split; [clear - A3; lia|]. split; [right; splits; auto; [congruence|clear - Y1 Y2 Y5; lia]|]. split; [apply U; apply length_zero_iff_nil; clear - Y1 Y2 Y5; lia|]. split; [|discriminate].
      intros _. splits; auto. intros Hc. rewrite Hc, orb_false_r in B5. destruct (x_ck s); [discriminate|reflexivity].
  Qed.
  Lemma go_reads : v_tx c s = Go -> p_reads (l_op L T) = places c (slot c T) (n_buf (x_tab s (slot c T)) mod 2 ^ e_bl c) (p_descs (l_op L T)).
  Proof.
    intros E. destruct tx_moves as (A & B & U & G & _); [congruence|]. destruct (G E) as (G1 & _). pose proof cnt as Q.
    destruct B as [(B & _)|(_ & _ & B & _)]; [unfold has_packet in G1; rewrite B in G1; discriminate|].
    pose proof (iv_live _ _ _ _ _ _ _ I T ltac:(lia)) as H. destruct (p_descs (l_op L T)) as [|d ds] eqn:Ed; [congruence|].
    destruct (ag_desc _ _ _ _ _ H _ _ Ed) as (_ & _ & _ & _ & _ & _ & X6 & _). rewrite <- Ed, <- X6.
    assert (Ef : filter (mine (slot c T)) (skid_content (x_skid s)) = []); [|rewrite Ef, app_nil_r; reflexivity].
    destruct (filter (mine (slot c T)) (skid_content (x_skid s))) as [|r l] eqn:Z; [reflexivity|]. exfalso.
    assert (Hr : In r (filter (mine (slot c T)) (skid_content (x_skid s)))) by (rewrite Z; left; reflexivity).
    apply filter_In in Hr. destruct Hr as [H1 H2]. specialize (U r H1). rewrite live_sees in U by lia. unfold mine in H2. rewrite Nat.eqb_sym in H2. congruence.
  Qed.
  Lemma cpl_moves : v_cpl c s i <> Wait -> (C < T)%nat /\
    (v_cpl c s i = Go -> has_packet (l_op L C) = true /\ p_ts (l_op L C) <> None /\ (x_cpl s = None \/ i_crdy i = true)) /\
    (v_cpl c s i = Skip -> p_ans (l_op L C) = Some None).
  Proof.
    unfold v_cpl. rewrite cp_slot. pose proof cnt as Q. destruct (iv_ptr _ _ _ _ _ _ _ I) as (-> & -> & -> & _). rewrite !ptr_eqb by lia.
    destruct (n_act (x_tab s (slot c C))) eqn:A1; cbn [andb]; [|congruence]. destruct (Nat.eqb_spec C n) as [|A2]; cbn [negb andb]; [congruence|].
    destruct (Nat.eqb_spec C T) as [|A4]; cbn [negb andb]; [congruence|].
    assert (A3 : (F <= C < n)%nat) by lia. pose proof (iv_live _ _ _ _ _ _ _ I C A3) as G.
    pose proof (ag_inv _ _ _ _ _ G) as Gi. destruct (n_inv (x_tab s (slot c C))).
    - intros _. splits; [lia|discriminate|]. destruct (p_ans (l_op L C)) as [[|]|]; congruence.
    - rewrite (ag_done _ _ _ _ _ G). destruct (p_ts (l_op L C)) eqn:B1; cbn [isnone negb andb]; [|congruence].
      destruct (isnone (x_cpl s) || i_crdy i) eqn:B2; [|congruence]. intros _. splits; [lia| |discriminate]. intros _. splits.
      + destruct (iv_T _ _ _ _ _ _ _ I C ltac:(lia)) as [(X & _)|X]; [rewrite X in Gi; discriminate|tauto].
      + discriminate.
      + destruct (x_cpl s); [right; exact B2|auto].
  Qed.
  Lemma fin_moves : v_fin c s <> Wait -> (F < C)%nat /\ x_fin s = None /\
    (v_fin c s = Go -> has_packet (l_op L F) = true /\ p_written (l_op L F) = true) /\
    (v_fin c s = Skip -> p_ans (l_op L F) = Some None).
  Proof.
    unfold v_fin. rewrite fp_slot. pose proof cnt as Q. destruct (iv_ptr _ _ _ _ _ _ _ I) as (-> & _ & -> & ->). rewrite !ptr_eqb by lia.
    destruct (n_act (x_tab s (slot c F))) eqn:A1; cbn [andb]; [|congruence]. destruct (Nat.eqb_spec F n) as [|A2]; cbn [negb andb]; [congruence|].
    destruct (Nat.eqb_spec F C) as [|A4]; cbn [negb andb]; [congruence|]. destruct (x_fin s); cbn [isnone]; [congruence|].
    assert (A3 : (F <= F < n)%nat) by lia. pose proof (iv_live _ _ _ _ _ _ _ I F A3) as G.
    pose proof (ag_inv _ _ _ _ _ G) as Gi. destruct (n_inv (x_tab s (slot c F))).
    - intros _. splits; [lia|reflexivity|discriminate|]. destruct (p_ans (l_op L F)) as [[|]|]; congruence.
    - rewrite (ag_cw _ _ _ _ _ G). destruct (p_written (l_op L F)) eqn:B1; [|congruence]. intros _. splits; [lia|reflexivity| |discriminate]. intros _. splits.
      + destruct (iv_T _ _ _ _ _ _ _ I F ltac:(lia)) as [(X & _)|X]; [rewrite X in Gi; discriminate|tauto].
      + reflexivity.
  Qed.
  Lemma T_ok : (T <= T' /\ T' <= n)%nat.
  Proof. pose proof cnt. destruct (v_tx c s) eqn:E; cbn [moves]; [lia| |]; destruct tx_moves as (A & _); try congruence; lia. Qed.
  Lemma C_ok : (C <= C' /\ C' <= T)%nat.
  Proof. pose proof cnt. destruct (v_cpl c s i) eqn:E; cbn [moves]; [lia| |]; destruct cpl_moves as (A & _); try congruence; lia. Qed.
  Lemma F_ok : (F <= F' /\ F' <= C)%nat.
  Proof. pose proof cnt. destruct (v_fin c s) eqn:E; cbn [moves]; [lia| |]; destruct fin_moves as (A & _); try congruence; lia. Qed.
  Lemma req_room r : v_req s i = Some r -> (n < F + N)%nat /\ x_dreq s = None.
  Proof. unfold v_req. destruct (x_ready s) eqn:X; [|discriminate]. intros _. exact (iv_ready _ _ _ _ _ _ _ I X). Qed.

  Lemma fixed_next k : (k < T')%nat -> fixedop (l_op L k) /\ unread k.
  Proof.
    intros A. destruct (Nat.lt_ge_cases k T) as [B|B]; [split; [exact (iv_T _ _ _ _ _ _ _ I k B)|exact (old_unread k B)]|].
    destruct (v_tx c s) eqn:E; cbn [moves] in A; [lia| |]; (assert (k = T) by lia; subst k; destruct tx_moves as (X1 & X2 & X3 & _); [congruence|auto]).
  Qed.
  Lemma frozen' k : (k < T')%nat -> let p := l_op L k in let q := next k in
    p_ans q = p_ans p /\ p_descs q = p_descs p /\ p_whole q = p_whole p /\ p_reads q = p_reads p /\ p_got q = p_got p.
  Proof. intros A. destruct (fixed_next k A) as [B1 B2]. exact (frozen k B1 B2). Qed.
  Lemma pk_same k : (k < T')%nat -> pk L' k = pk L k.
  Proof. intros A. pose proof T_ok. unfold pk. rewrite op_old by lia. unfold has_packet. destruct (frozen' k A) as (-> & _). reflexivity. Qed.
  Lemma filter_same m : (m <= T')%nat -> filter (pk L') (seq 0 m) = filter (pk L) (seq 0 m).
  Proof. intros A. apply filter_ext_in. intros k H. apply in_seq in H. apply pk_same. lia. Qed.

  Lemma s_cnt : (F' <= C' /\ C' <= T' /\ T' <= l_n L' /\ l_n L' <= F' + N)%nat.
  Proof.
    pose proof cnt. pose proof T_ok. pose proof C_ok. pose proof F_ok. rewrite n_next. destruct (v_req s i) as [r|] eqn:E; [|lia].
    destruct (req_room r E). lia.
  Qed.
  Lemma s_ptr : x_sp st' = (l_n L' mod (2 * N))%nat /\ x_tp st' = (T' mod (2 * N))%nat /\ x_cp st' = (C' mod (2 * N))%nat /\ x_fp st' = (F' mod (2 * N))%nat.
  Proof.
    destruct (iv_ptr _ _ _ _ _ _ _ I) as (P1 & P2 & P3 & P4). rewrite n_next. unfold e_step at 1 2 3 4. rewrite w_rst. cbn [fst x_sp x_tp x_cp x_fp].
    rewrite P1, P2, P3, P4, !pnext_ok. splits.
    - destruct (v_req s i); reflexivity.
    - destruct (moves (v_tx c s)); reflexivity.
    - destruct (moves (v_cpl c s i)); reflexivity.
    - destruct (moves (v_fin c s)); reflexivity.
  Qed.
  Lemma s_tab k : x_tab st' k = entry_next c s i k (x_tab s k).
  Proof. st x_tab. reflexivity. Qed.
  Lemma s_on j : (F' <= j < l_n L')%nat -> n_act (x_tab st' (slot c j)) = true.
  Proof.
    intros A. rewrite s_tab. unfold entry_next, entry_upd. cbn [n_act]. rewrite fp_slot, sp_slot. pose proof cnt. pose proof F_ok. rewrite n_next in A.
    assert (Fin : moves (v_fin c s) && (slot c F =? slot c j)%nat = false).
    { destruct (moves (v_fin c s)) eqn:M; [|reflexivity]. cbn [andb]. apply Nat.eqb_neq. intros X.
      assert (J : (j < F + N)%nat) by (destruct (v_req s i) as [r|] eqn:E; [destruct (req_room r E)|]; lia).
      apply slot_inj in X; lia. }
    rewrite Fin. destruct (v_req s i) as [r|] eqn:E.
    - destruct (Nat.eqb_spec (slot c n) (slot c j)) as [X|X]; [reflexivity|]. apply (iv_on _ _ _ _ _ _ _ I).
      assert (j <> n) by congruence. lia.
    - apply (iv_on _ _ _ _ _ _ _ I). lia.
  Qed.
  Lemma s_off j : (l_n L' <= j < F' + N)%nat -> n_act (x_tab st' (slot c j)) = false.
  Proof.
    intros A. rewrite s_tab. unfold entry_next, entry_upd. cbn [n_act]. rewrite fp_slot, sp_slot. pose proof cnt. pose proof F_ok. rewrite n_next in A.
    destruct (moves (v_fin c s) && (slot c F =? slot c j)%nat) eqn:Fin; [reflexivity|].
    assert (B : (j < F + N)%nat).
    { destruct (moves (v_fin c s)) eqn:M; [|lia]. cbn [andb] in Fin. apply Nat.eqb_neq in Fin. assert (j <> F + N)%nat; [|lia]. intros ->.
      apply Fin. unfold slot. replace (F + N)%nat with (F + 1 * N)%nat by lia. rewrite Nat.mod_add; [reflexivity|]. pose proof (N_pos c). lia. }
    destruct (v_req s i) as [r|] eqn:E.
    - destruct (Nat.eqb_spec (slot c n) (slot c j)) as [X|X]; [apply slot_inj in X; lia|]. apply (iv_off _ _ _ _ _ _ _ I). lia.
    - apply (iv_off _ _ _ _ _ _ _ I). lia.
  Qed.
  Lemma s_ready : x_ready st' = true -> (l_n L' < F' + N)%nat /\ x_dreq st' = None.
  Proof.
    rewrite n_next. unfold e_step at 1 2. rewrite w_rst. cbn [fst x_ready x_dreq]. destruct (v_req s i) as [[[q t] d]|] eqn:E; [discriminate|].
    intros X. repeat (apply andb_true_iff in X; destruct X as [X ?]). destruct (iv_ptr _ _ _ _ _ _ _ I) as (P1 & _ & _ & P4). pose proof cnt. pose proof F_ok.
    rewrite P1, P4, pdiff_ok in H0 by lia. apply Nat.ltb_lt in H0. split; [lia|].
    destruct (i_drdy i); [reflexivity|]. rewrite orb_false_r in H. destruct (x_dreq s); [discriminate|reflexivity].
  Qed.
  Lemma s_skid : skid_inv (x_skid st').
  Proof. st x_skid. apply skid_step_inv. exact (iv_skid _ _ _ _ _ _ _ I). Qed.
  Lemma s_dready : x_dready st' = true -> k_rdy (x_skid st') = true.
  Proof.
    unfold e_step at 1 2. rewrite w_rst. cbn [fst x_dready x_skid]. intros X. apply andb_true_iff in X. destruct X as [X _]. rewrite <- X.
    unfold skid_step. destruct (k_rdy (x_skid s)), (i_rrdy i || isnone (k_out (x_skid s))), (i_rrdy i); reflexivity.
  Qed.
  Lemma s_tags r : In r (skid_content (x_skid st')) -> exists k, (T' <= k < l_n L')%nat /\ r_tag r = slot c k.
  Proof.
    intros A. assert (B : In r (olist (read_out i o) ++ skid_content (x_skid st'))) by (apply in_or_app; auto).
    rewrite <- content in B. pose proof cnt as Q. pose proof T_ok as Q2.
    assert (Hn : (n <= l_n L')%nat) by (rewrite n_next; destruct (v_req s i); lia).
    apply in_app_or in B. destruct B as [B|B].
    - destruct (iv_tags _ _ _ _ _ _ _ I r B) as (k & K1 & K2). exists k. split; [|exact K2]. split; [|lia].
      destruct (Nat.le_gt_cases T' k) as [|X]; [assumption|]. destruct (fixed_next k X) as [_ U]. specialize (U r B).
      rewrite live_sees in U by lia. rewrite K2, Nat.eqb_refl in U. discriminate.
    - rewrite read_same in B. destruct (desc_in i o) as [[[d t] l]|] eqn:E; [|contradiction]. destruct (d_len d =? 0); [contradiction|].
      destruct B as [<-|[]]. cbn [r_tag]. destruct (w_desc _ _ _ E) as (k & K1 & -> & K2 & K3 & _). exists k. split; [|reflexivity]. split; [|lia].
      destruct (Nat.le_gt_cases T' k) as [|X]; [assumption|]. destruct (fixed_next k X) as [[(Y & _)|(_ & Y & _)] _]; [unfold has_packet in K2; rewrite Y in K2; discriminate|congruence].
  Qed.
  Lemma ranged_step s0 i0 : 0 < e_cw c -> ranged c s0 -> ranged c (fst (e_step c s0 i0)).
  Proof.
    intros P R k. specialize (R k). assert (B : 0 < 2 ^ e_cw c) by lia.
    assert (G : 0 <= n_rs (entry_next c s0 i0 k (x_tab s0 k)) < 2 ^ e_cw c /\ 0 <= n_rf (entry_next c s0 i0 k (x_tab s0 k)) < 2 ^ e_cw c).
    { pose proof (fun x => Z.mod_pos_bound x _ B) as M. unfold entry_next, entry_upd. cbn [n_rs n_rf]. destruct R as [R1 R2]. split.
      - repeat match goal with |- context [match ?x with _ => _ end] => destruct x end; auto.
      - destruct (is_tag _ _); auto. }
    unfold e_step. destruct (i_rst i0); exact G.
  Qed.
  Lemma s_live k : (F' <= k < l_n L')%nat -> agrees c (skid_content (x_skid st')) k (x_tab st' (slot c k)) (l_op L' k).
  Proof.
    intros A. pose proof cnt as Q. pose proof F_ok as Q2. rewrite s_tab. rewrite n_next in A. destruct (Nat.lt_ge_cases k n) as [B|B].
    - rewrite op_old by exact B. apply agrees_step. lia.
    - destruct (v_req s i) as [[[q t] d]|] eqn:E; [|lia]. assert (k = n) by lia. subst k. rewrite (op_new _ _ _ E).
      destruct (req_room _ E) as [Rm _].
      assert (Ot : forall j, (F <= j < n)%nat -> (slot c j =? slot c n)%nat = false).
      { intros j J. apply Nat.eqb_neq. intros X. apply slot_inj in X; lia. }
      assert (Ot' : forall j, (F <= j < n)%nat -> (slot c (slot c j) =? slot c n)%nat = false).
      { intros j J. rewrite (slot_small c (slot c j)) by apply slot_lt. apply Ot. exact J. }
      assert (Ans : match i_ans i with Some (t, _, _, _) => (slot c t =? slot c n)%nat | None => false end = false).
      { destruct (i_ans i) as [[[[t' a] q'] b]|] eqn:Ea; [|reflexivity]. destruct (w_ans _ _ _ _ Ea) as (j & J & -> & _). apply Ot'. lia. }
      assert (Dv : match v_desc c s i with Some (d, t, l) => if (slot c t =? slot c n)%nat then Some (d, l) else None | None => None end = None).
      { rewrite desc_same. destruct (desc_in i o) as [[[d' t'] l]|] eqn:Ed; [|reflexivity]. destruct (w_desc _ _ _ Ed) as (j & J & -> & _). rewrite Ot' by lia. reflexivity. }
      assert (Tc : match v_tcpl c i with Some (t, ts) => if (t =? slot c n)%nat then Some ts else None | None => None end = None).
      { destruct (v_tcpl c i) as [[t' ts]|] eqn:Et; [|reflexivity]. destruct (w_tcpl _ _ Et) as (j & z & _ & J & -> & _). rewrite Ot by lia. reflexivity. }
      assert (Ca : is_tag (option_map (slot c) (i_cans i)) (slot c n) = false).
      { destruct (i_cans i) as [t'|] eqn:Ec; [|reflexivity]. destruct (w_cans _ Ec) as (j & J & -> & _). cbn [option_map is_tag]. apply Ot'. lia. }
      unfold blank. constructor; cbn [p_queue p_tag p_dest p_ans p_descs p_whole p_reads p_got p_tx p_ts p_cpl p_written].
      + unfold entry_next, entry_upd. cbn [n_queue n_tag n_dest]. rewrite E, sp_slot, Nat.eqb_refl. auto.
      + unfold entry_next, entry_upd. cbn [n_inv]. rewrite Ans, E, sp_slot, Nat.eqb_refl. reflexivity.
      + exact Logic.I.
      + unfold entry_next, entry_upd. cbn [n_fet]. rewrite Dv, E, sp_slot, Nat.eqb_refl. reflexivity.
      + intros _. splits; auto. destruct (filter (mine (slot c n)) (skid_content (x_skid st'))) as [|r l] eqn:Z; [reflexivity|]. exfalso.
        assert (Hr : In r (filter (mine (slot c n)) (skid_content (x_skid st')))) by (rewrite Z; left; reflexivity).
        apply filter_In in Hr. destruct Hr as [H1 H2]. unfold mine in H2. apply Nat.eqb_eq in H2.
        assert (Hc : In r (olist (read_out i o) ++ skid_content (x_skid st'))) by (apply in_or_app; auto). rewrite <- content in Hc.
        assert (Hk : exists j, (F <= j < n)%nat /\ r_tag r = slot c j).
        { apply in_app_or in Hc. destruct Hc as [Hc|Hc]; [destruct (iv_tags _ _ _ _ _ _ _ I r Hc) as (j & J1 & J2); exists j; split; [lia|exact J2]|].
          rewrite read_same in Hc. destruct (desc_in i o) as [[[d' t'] l']|] eqn:Ed; [|contradiction]. destruct (d_len d' =? 0); [contradiction|].
          destruct Hc as [<-|[]]. destruct (w_desc _ _ _ Ed) as (j & J & -> & _). exists j. split; [lia|reflexivity]. }
        destruct Hk as (j & J1 & J2). specialize (Ot j J1). rewrite <- J2, H2, Nat.eqb_refl in Ot. discriminate.
      + discriminate.
      + discriminate.
      + unfold total. cbn. lia.
      + cbn. destruct Sane as (_ & _ & S3 & _). apply Z.pow_pos_nonneg; lia.
      + cbn. lia.
      + unfold entry_next, entry_upd. cbn [n_da n_db]. rewrite Tc, E, sp_slot, Nat.eqb_refl. cbn. destruct (n_db _); reflexivity.
      + discriminate.
      + unfold entry_next, entry_upd. cbn [n_cw]. rewrite Ca, E, sp_slot, Nat.eqb_refl. reflexivity.
      + discriminate.
  Qed.

  Lemma mono k : (p_tx (l_op L k) = true -> p_tx (next k) = true) /\ (p_ts (l_op L k) <> None -> p_ts (next k) <> None) /\
    (p_written (l_op L k) = true -> p_written (next k) = true) /\ (p_cpl (l_op L k) = true -> p_cpl (next k) = true).
  Proof.
    unfold op_next. cbn [p_tx p_ts p_written p_cpl]. splits; try (intros ->; reflexivity).
    destruct (i_tcpl i) as [[t ts]|]; [|auto]. destruct (means _ _ _ _ && _); [discriminate|auto].
  Qed.
  Lemma s_T k : (k < T')%nat -> fixedop (l_op L' k).
  Proof.
    intros A. pose proof T_ok. rewrite op_old by lia. destruct (fixed_next k A) as [B _]. destruct (frozen' k A) as (E1 & E2 & E3 & E4 & E5).
    unfold fixedop, has_packet in *. rewrite E1, E2, E3, E4, E5. exact B.
  Qed.
  Lemma s_old k : (k < F')%nat -> settled (l_op L' k).
  Proof.
    intros A. pose proof cnt. pose proof F_ok. pose proof T_ok. rewrite op_old by lia. destruct (frozen' k) as (E1 & E2 & E3 & E4 & E5); [lia|].
    destruct (mono k) as (M1 & M2 & M3 & _). unfold settled. rewrite E1, E3, E4, E5.
    destruct (Nat.lt_ge_cases k F) as [B|B].
    - destruct (iv_old _ _ _ _ _ _ _ I k B) as [X|(X1 & X2 & X3 & X4 & X5)]; [auto|right; splits; auto].
    - destruct (v_fin c s) eqn:E; cbn [moves] in A; [lia| |]; (assert (k = F) by lia; subst k; destruct fin_moves as (X1 & X2 & X3 & X4); [congruence|]).
      + left. auto.
      + destruct (X3 E) as [Y1 Y2]. right. assert (Yt : p_ts (l_op L F) <> None) by (apply (iv_C _ _ _ _ _ _ _ I); [lia|exact Y1]).
        destruct (iv_T _ _ _ _ _ _ _ I F ltac:(lia)) as [(Z & _)|(_ & Z1 & _ & Z2)]; [unfold has_packet in Y1; rewrite Z in Y1; discriminate|].
        splits; auto. destruct (p_ts (l_op L F)) as [ts|] eqn:Et; [|congruence].
        apply M1. apply (ag_ts _ _ _ _ _ (iv_live _ _ _ _ _ _ _ I F ltac:(lia)) ts Et).
  Qed.
  Lemma s_T' k : (T' <= k < l_n L')%nat -> p_tx (l_op L' k) = false.
  Proof.
    intros A. rewrite n_next in A. pose proof T_ok. pose proof cnt. destruct (Nat.lt_ge_cases k n) as [B|B].
    - rewrite op_old by exact B. unfold op_next. cbn [p_tx]. rewrite (iv_T' _ _ _ _ _ _ _ I) by lia. cbn [orb].
      unfold hit, tx_out. cbn. destruct (i_trdy i); [|reflexivity]. destruct (x_tx s) as [d|] eqn:E; [|reflexivity]. cbn.
      destruct (iv_txp _ _ _ _ _ _ _ I d E) as (j & J & -> & _). destruct (means c n k (slot c j)) eqn:M; [|reflexivity]. apply same_target in M; lia.
    - destruct (v_req s i) as [[[q t] d]|] eqn:E; [|lia]. assert (k = n) by lia. subst k. rewrite (op_new _ _ _ E). reflexivity.
  Qed.
  Lemma s_C' k : (C' <= k < l_n L')%nat -> p_cpl (l_op L' k) = false.
  Proof.
    intros A. rewrite n_next in A. pose proof C_ok. pose proof cnt. destruct (Nat.lt_ge_cases k n) as [B|B].
    - rewrite op_old by exact B. unfold op_next. cbn [p_cpl]. rewrite (iv_C' _ _ _ _ _ _ _ I) by lia. cbn [orb].
      unfold hit, cpl_out. cbn. destruct (i_crdy i); [|reflexivity]. destruct (x_cpl s) as [d|] eqn:E; [|reflexivity]. cbn.
      destruct (iv_cplp _ _ _ _ _ _ _ I d E) as (j & J & -> & _). destruct (means c n k (slot c j)) eqn:M; [|reflexivity]. apply same_target in M; lia.
    - destruct (v_req s i) as [[[q t] d]|] eqn:E; [|lia]. assert (k = n) by lia. subst k. rewrite (op_new _ _ _ E). reflexivity.
  Qed.
  Lemma s_C k : (k < C')%nat -> pk L' k = true -> p_ts (l_op L' k) <> None.
  Proof.
    intros A B. pose proof cnt. pose proof C_ok. pose proof T_ok. rewrite pk_same in B by lia. rewrite op_old by lia. destruct (mono k) as (_ & M2 & _).
    apply M2. destruct (Nat.lt_ge_cases k C) as [X|X]; [exact (iv_C _ _ _ _ _ _ _ I k X B)|].
    destruct (v_cpl c s i) eqn:E; cbn [moves] in A; [lia| |]; (assert (k = C) by lia; subst k; destruct cpl_moves as (X1 & X2 & X3); [congruence|]).
    - unfold pk, has_packet in B. rewrite (X3 E) in B. discriminate.
    - apply (X2 E).
  Qed.
  Lemma s_txp d : x_tx st' = Some d -> exists k, (C' <= k < T')%nat /\ t_tag d = slot c k /\ p_tx (l_op L' k) = false /\ pk L' k = true.
  Proof.
    st x_tx. pose proof cnt as Q1. pose proof C_ok as Q2. pose proof T_ok as Q3.
    assert (Old : (if i_trdy i then None else x_tx s) = Some d -> exists k, (C' <= k < T')%nat /\ t_tag d = slot c k /\ p_tx (l_op L' k) = false /\ pk L' k = true).
    { intros X. destruct (i_trdy i) eqn:Tr; [discriminate|]. destruct (iv_txp _ _ _ _ _ _ _ I d X) as (k & K1 & K2 & K3 & K4). exists k. splits.
      - destruct (Nat.le_gt_cases C' k) as [|B]; [assumption|]. exfalso.
        destruct (v_cpl c s i) eqn:E; cbn [moves] in B; [lia| |]; (assert (k = C) by lia; subst k; destruct cpl_moves as (X1 & X2 & X3); [congruence|]).
        + unfold pk, has_packet in K4. rewrite (X3 E) in K4. discriminate.
        + destruct (X2 E) as (_ & X5 & _). destruct (p_ts (l_op L C)) as [ts|] eqn:Et; [|congruence].
          destruct (ag_ts _ _ _ _ _ (iv_live _ _ _ _ _ _ _ I C ltac:(lia)) ts Et) as [Y _]. congruence.
      - lia.
      - exact K2.
      - rewrite op_old by lia. unfold op_next. cbn [p_tx]. unfold tx_out. rewrite Tr, K3. reflexivity.
      - rewrite pk_same by lia. exact K4. }
    destruct (v_tx c s) eqn:E; [exact Old|exact Old|]. intros X. injection X as <-. destruct tx_moves as (M1 & M2 & M3 & M4 & _); [congruence|].
    destruct (M4 E) as (M5 & M6 & _). cbn [moves] in *. exists T. splits; [lia|lia| | |].
    - cbn [t_tag tx_of]. apply tp_slot.
    - rewrite op_old by lia. unfold op_next. cbn [p_tx]. unfold tx_out. cbn. rewrite M6, (iv_T' _ _ _ _ _ _ _ I) by lia. destruct (i_trdy i); reflexivity.
    - rewrite pk_same by (rewrite E; cbn; lia). exact M5.
  Qed.
  Lemma s_cplp d : x_cpl st' = Some d -> exists k, (F' <= k < C')%nat /\ c_tag d = slot c k /\ p_cpl (l_op L' k) = false /\ pk L' k = true.
  Proof.
    st x_cpl. pose proof cnt as Q1. pose proof C_ok as Q2. pose proof T_ok as Q3. pose proof F_ok as Q4.
    assert (Old : (if i_crdy i then None else x_cpl s) = Some d -> exists k, (F' <= k < C')%nat /\ c_tag d = slot c k /\ p_cpl (l_op L' k) = false /\ pk L' k = true).
    { intros X. destruct (i_crdy i) eqn:Tr; [discriminate|]. destruct (iv_cplp _ _ _ _ _ _ _ I d X) as (k & K1 & K2 & K3 & K4). exists k. splits.
      - destruct (Nat.le_gt_cases F' k) as [|B]; [assumption|]. exfalso.
        destruct (v_fin c s) eqn:E; cbn [moves] in B; [lia| |]; (assert (k = F) by lia; subst k; destruct fin_moves as (X1 & X2 & X3 & X4); [congruence|]).
        + unfold pk, has_packet in K4. rewrite (X4 E) in K4. discriminate.
        + destruct (X3 E) as (_ & X5). rewrite (ag_wr _ _ _ _ _ (iv_live _ _ _ _ _ _ _ I F ltac:(lia)) X5) in K3. discriminate.
      - lia.
      - exact K2.
      - rewrite op_old by lia. unfold op_next. cbn [p_cpl]. unfold cpl_out. rewrite Tr, K3. reflexivity.
      - rewrite pk_same by lia. exact K4. }
    destruct (v_cpl c s i) eqn:E; [exact Old|exact Old|]. intros X. injection X as <-. destruct cpl_moves as (M1 & M4 & _); [congruence|].
    destruct (M4 E) as (M5 & _ & M6). cbn [moves] in *. exists C. splits; [lia|lia| | |].
    - cbn [c_tag cpl_of]. apply cp_slot.
    - rewrite op_old by lia. unfold op_next. cbn [p_cpl]. rewrite (iv_C' _ _ _ _ _ _ _ I) by lia. cbn [orb].
      unfold hit, cpl_out. cbn. destruct (i_crdy i); [|reflexivity]. destruct (x_cpl s) as [x|] eqn:Ex; [|reflexivity]. cbn.
      destruct (iv_cplp _ _ _ _ _ _ _ I x Ex) as (j & J & -> & _). destruct (means c n C (slot c j)) eqn:M; [|reflexivity]. apply same_target in M; lia.
    - rewrite pk_same by lia. exact M5.
  Qed.
  Lemma s_sent k : (k < l_n L')%nat -> p_tx (l_op L' k) = true \/ p_cpl (l_op L' k) = true -> pk L' k = true.
  Proof.
    intros A. rewrite n_next in A. pose proof cnt as Q1. destruct (Nat.lt_ge_cases k n) as [B|B].
    - unfold pk. rewrite op_old by exact B. intros X. apply pk_next. unfold op_next in X. cbn [p_tx p_cpl] in X. rewrite !orb_true_iff in X.
      destruct X as [[X|X]|[X|X]]; [apply (iv_sent _ _ _ _ _ _ _ I); auto| |apply (iv_sent _ _ _ _ _ _ _ I); auto|].
      + unfold hit, tx_out in X. cbn in X. destruct (i_trdy i); [|discriminate]. destruct (x_tx s) as [d|] eqn:E; [|discriminate]. cbn in X.
        destruct (iv_txp _ _ _ _ _ _ _ I d E) as (j & J1 & J2 & _ & J3). rewrite J2 in X. apply same_target in X; [|lia]. subst j. exact J3.
      + unfold hit, cpl_out in X. cbn in X. destruct (i_crdy i); [|discriminate]. destruct (x_cpl s) as [d|] eqn:E; [|discriminate]. cbn in X.
        destruct (iv_cplp _ _ _ _ _ _ _ I d E) as (j & J1 & J2 & _ & J3). rewrite J2 in X. apply same_target in X; [|lia]. subst j. exact J3.
    - destruct (v_req s i) as [[[q t] d]|] eqn:E; [|lia]. assert (k = n) by lia. subst k. rewrite (op_new _ _ _ E). intros [X|X]; discriminate.
  Qed.

  Lemma dj_one j k d l : dj k = Some (d, l) -> (j < n)%nat -> j <> k -> dj j = None.
  Proof.
    intros A B D. destruct (dj j) as [[d' l']|] eqn:E; [|reflexivity]. exfalso. apply D. pose proof cnt.
    destruct (dj_facts _ _ _ A) as (A1 & A2 & _). destruct (dj_facts _ _ _ E) as (B1 & B2 & _).
    apply (slot_inj c); [lia|lia|congruence].
  Qed.
  Lemma quiet_next j : (j < n)%nat -> dj j = None -> quiet (l_op L j) -> quiet (l_op L' j).
  Proof. intros A B D. rewrite op_old by exact A. unfold quiet. rewrite descs_next, whole_next, B, app_nil_r. exact D. Qed.
  Lemma quiet_new j : (n <= j < l_n L')%nat -> quiet (l_op L' j).
  Proof.
    rewrite n_next. destruct (v_req s i) as [[[q t] d]|] eqn:E; [|lia]. intros A. assert (j = n) by lia. subst j. rewrite (op_new _ _ _ E). left. reflexivity.
  Qed.
  Lemma loud_late k : (k < n)%nat -> has_packet (l_op L k) = true -> p_whole (l_op L k) = false -> (T' <= k)%nat.
  Proof.
    intros A B D. destruct (Nat.le_gt_cases T' k) as [|X]; [assumption|]. destruct (fixed_next k X) as [[(Y & _)|(_ & Y & _)] _]; [|congruence].
    unfold has_packet in B. rewrite Y in B. discriminate.
  Qed.
  Lemma s_cur : if x_start st' then x_len st' = 0 /\ forall j, (j < l_n L')%nat -> quiet (l_op L' j)
    else exists k, (T' <= k < l_n L')%nat /\ p_descs (l_op L' k) <> [] /\ p_whole (l_op L' k) = false /\
      x_len st' = total (p_descs (l_op L' k)) /\ n_buf (x_tab st' (slot c k)) = x_wr st' /\
      forall j, (j < l_n L')%nat -> j <> k -> quiet (l_op L' j).
  Proof.
    pose proof cnt as Q1. assert (Hn : (n <= l_n L')%nat) by (rewrite n_next; destruct (v_req s i); lia).
    assert (Xs : x_start st' = match v_desc c s i with Some (_, _, l) => l | None => x_start s end) by (st x_start; reflexivity).
    assert (Xl : x_len st' = match v_desc c s i with Some (d, _, l) => if l then 0 else v_len c s d | None => x_len s end) by (st x_len; reflexivity).
    assert (Xw : x_wr st' = match v_desc c s i with Some (d, _, true) => buf_after c (x_wr s) (v_len c s d) | _ => x_wr s end) by (st x_wr; reflexivity).
    rewrite Xs, Xl, Xw. rewrite desc_same. destruct (desc_in i o) as [[[d t] l]|] eqn:E.
    - destruct (w_desc _ _ _ E) as (k & K1 & -> & _).
      assert (Dk : dj k = Some (d, l)) by (unfold dj; rewrite E, live_sees by lia; rewrite Nat.eqb_refl; reflexivity).
      destruct (dj_facts _ _ _ Dk) as (_ & _ & D3 & D4 & _ & D6 & D7 & D8 & D9 & D10 & _).
      assert (Oth : forall j, (j < l_n L')%nat -> j <> k -> quiet (l_op L' j)).
      { intros j J1 J2. destruct (Nat.lt_ge_cases j n) as [B|B]; [|apply quiet_new; lia]. apply quiet_next; [exact B|exact (dj_one _ _ _ _ Dk B J2)|]. apply D6; auto. }
      destruct l.
      + split; [reflexivity|]. intros j J. destruct (Nat.eq_dec j k) as [->|]; [|apply Oth; auto]. right. rewrite op_old by lia. rewrite whole_next, Dk. reflexivity.
      + exists k. assert (T' <= k)%nat by (apply loud_late; [lia|exact D3|exact D4]). rewrite op_old by lia. rewrite descs_next, whole_next, Dk. splits; auto; try lia.
        * intros X. apply app_eq_nil in X. destruct X as [_ X]. discriminate.
        * rewrite total_app. exact D10.
        * rewrite s_tab. unfold entry_next, entry_upd. cbn [n_buf]. rewrite dv_dj by lia. rewrite Dk, D7. destruct (p_descs (l_op L k)); [reflexivity|]. apply D9. discriminate.
    - assert (Dn : forall j, dj j = None) by (intros j; unfold dj; rewrite E; reflexivity).
      pose proof (iv_cur _ _ _ _ _ _ _ I) as K. destruct (x_start s).
      + destruct K as [K1 K2]. split; [exact K1|]. intros j J. destruct (Nat.lt_ge_cases j n) as [B|B]; [|apply quiet_new; lia]. apply quiet_next; auto.
      + destruct K as (k & K1 & K2 & K3 & K4 & K5 & K6). exists k.
        assert (T' <= k)%nat.
        { apply loud_late; [lia| |exact K3]. destruct (p_descs (l_op L k)) as [|x y] eqn:Z; [congruence|].
          apply (ag_desc _ _ _ _ _ (iv_live _ _ _ _ _ _ _ I k ltac:(lia)) _ _ Z). }
        rewrite op_old by lia. rewrite descs_next, whole_next, Dn, app_nil_r. splits; auto; try lia.
        * rewrite s_tab. unfold entry_next, entry_upd. cbn [n_buf]. rewrite dv_dj by lia. rewrite Dn. exact K5.
        * intros j J1 J2. destruct (Nat.lt_ge_cases j n) as [B|B]; [|apply quiet_new; lia]. apply quiet_next; auto.
  Qed.

  Lemma s_tx : Forall2 (fun k d => tx_as c k (l_op L' k) d) (filter (pk L') (seq 0 T')) ((h_tx h ++ olist (tx_out i o)) ++ olist (x_tx st')).
  Proof.
    pose proof cnt as Q1. pose proof T_ok as Q2. rewrite filter_same by lia.
    assert (Old : Forall2 (fun k d => tx_as c k (l_op L' k) d) (filter (pk L) (seq 0 T)) (h_tx h ++ olist (x_tx s))).
    { refine (Forall2_impl' _ _ _ _ _ (iv_tx _ _ _ _ _ _ _ I)). intros k d Hk X. apply filter_In in Hk. destruct Hk as [Hk _]. apply in_seq in Hk.
      rewrite op_old by lia. destruct (frozen' k) as (E1 & E2 & E3 & E4 & E5); [lia|]. unfold tx_as in *. rewrite E2, E3, E4, E5. exact X. }
    assert (X : tx_out i o = if i_trdy i then x_tx s else None) by reflexivity. rewrite X. rewrite <- app_assoc. assert (Xf : x_tx st' = match v_tx c s with Go => Some (tx_of c (x_tp s) (x_tab s (slot c (x_tp s)))) | _ => if i_trdy i then None else x_tx s end) by (st x_tx; reflexivity). rewrite Xf. clear X Xf.
    assert (Keep : olist (if i_trdy i then x_tx s else None) ++ olist (if i_trdy i then None else x_tx s) = olist (x_tx s)) by (destruct (i_trdy i); [apply app_nil_r|reflexivity]).
    destruct (v_tx c s) eqn:E; cbn [moves] in *.
    - rewrite Keep. exact Old.
    - rewrite Keep, seq_S, filter_app. cbn [filter Nat.add]. destruct tx_moves as (_ & _ & _ & _ & M); [congruence|].
      assert (Z : pk L T = false) by (unfold pk, has_packet; rewrite (M E); reflexivity). rewrite Z, app_nil_r. exact Old.
    - destruct tx_moves as (M1 & M2 & M3 & M4 & _); [congruence|]. destruct (M4 E) as (M5 & M6 & _).
      rewrite M6 in *. replace (if i_trdy i then None else None) with (@None txd) by (destruct (i_trdy i); reflexivity). cbn [olist app] in *. rewrite app_nil_r in Old.
      rewrite seq_S, filter_app. cbn [filter Nat.add]. unfold pk at 2. rewrite M5. apply Forall2_app; [exact Old|]. constructor; [|constructor].
      rewrite op_old by lia. destruct (frozen' T) as (E1 & E2 & E3 & E4 & E5); [rewrite E; cbn; lia|]. unfold tx_as, tx_of. cbn [t_len t_addr t_tag t_id t_dest t_user].
      rewrite E2, E3, E4, E5. pose proof (iv_live _ _ _ _ _ _ _ I T ltac:(lia)) as G. destruct M2 as [(Z & _)|(_ & Z1 & Z2 & Z3)]; [unfold has_packet in M5; rewrite Z in M5; discriminate|].
      destruct (ag_id _ _ _ _ _ G) as (G1 & G2 & G3). rewrite tp_slot. destruct Sane as (_ & _ & _ & S4 & S5 & _ & S7 & _ & S9).
      splits; auto.
      + apply (ag_len _ _ _ _ _ G Z1).
      + rewrite places_mod by exact S5. rewrite S9, Z.add_0_r. replace (2 ^ e_bl c - 1) with (Z.ones (e_bl c)) by (rewrite Z.ones_equiv; lia).
        rewrite Z.land_ones by (apply Z.log2_up_nonneg). apply go_reads. exact E.
      + unfold cpl_tag. fold (slot c T). replace (e_ttw c) with (Z.succ (e_ttw c - 1)) at 1 by lia. rewrite Z.pow_succ_r by lia. ring.
  Qed.
  Lemma s_ck : if e_csum c then Forall2 (fun k d => ck_as (l_op L' k) d) (filter (pk L') (seq 0 T')) ((h_ck h ++ olist (ck_out i o)) ++ olist (x_ck st'))
    else (h_ck h ++ olist (ck_out i o)) ++ olist (x_ck st') = [].
  Proof.
    pose proof cnt as Q1. pose proof T_ok as Q2. rewrite filter_same by lia. pose proof (iv_ck _ _ _ _ _ _ _ I) as Ck.
    assert (X : ck_out i o = if i_krdy i then x_ck s else None) by reflexivity. rewrite X. rewrite <- app_assoc. assert (Xf : x_ck st' = match v_tx c s with Go => if e_csum c then Some (ck_of (x_tab s (slot c (x_tp s)))) else if i_krdy i then None else x_ck s | _ => if i_krdy i then None else x_ck s end) by (st x_ck; reflexivity). rewrite Xf. clear X Xf.
    assert (Keep : olist (if i_krdy i then x_ck s else None) ++ olist (if i_krdy i then None else x_ck s) = olist (x_ck s)) by (destruct (i_krdy i); [apply app_nil_r|reflexivity]).
    destruct (e_csum c) eqn:Hc; [|destruct (v_tx c s); rewrite Keep; exact Ck].
    assert (Old : Forall2 (fun k d => ck_as (l_op L' k) d) (filter (pk L) (seq 0 T)) (h_ck h ++ olist (x_ck s))).
    { refine (Forall2_impl' _ _ _ _ _ Ck). intros k d Hk X. apply filter_In in Hk. destruct Hk as [Hk _]. apply in_seq in Hk.
      rewrite op_old by lia. destruct (frozen' k) as (E1 & E2 & _); [lia|]. unfold ck_as in *. rewrite E2. exact X. }
    destruct (v_tx c s) eqn:E; cbn [moves] in *.
    - rewrite Keep. exact Old.
    - rewrite Keep, seq_S, filter_app. cbn [filter Nat.add]. destruct tx_moves as (_ & _ & _ & _ & M); [congruence|].
      assert (Z : pk L T = false) by (unfold pk, has_packet; rewrite (M E); reflexivity). rewrite Z, app_nil_r. exact Old.
    - destruct tx_moves as (M1 & M2 & M3 & M4 & _); [congruence|]. destruct (M4 E) as (M5 & _ & M6). specialize (M6 Hc).
      rewrite M6 in *. replace (if i_krdy i then None else None) with (@None ck) by (destruct (i_krdy i); reflexivity). cbn [olist app] in *. rewrite app_nil_r in Old.
      rewrite seq_S, filter_app. cbn [filter Nat.add]. unfold pk at 2. rewrite M5. apply Forall2_app; [exact Old|]. constructor; [|constructor].
      rewrite op_old by lia. destruct (frozen' T) as (E1 & E2 & _); [rewrite E; cbn; lia|]. unfold ck_as, ck_of. cbn [k_en k_start k_coff]. rewrite E2.
      pose proof (iv_live _ _ _ _ _ _ _ I T ltac:(lia)) as G. destruct M2 as [(Z & _)|(_ & Z1 & Z2 & Z3)]; [unfold has_packet in M5; rewrite Z in M5; discriminate|].
      destruct (p_descs (l_op L T)) as [|d ds] eqn:Ed; [congruence|]. destruct (ag_desc _ _ _ _ _ G _ _ Ed) as (_ & X1 & X2 & X3 & _ & _ & _ & X7 & X8).
      rewrite tp_slot. rewrite Hc in *. exists d, ds. splits; [reflexivity|exact X3|]. intros Hd. rewrite X1, X2. rewrite (Z.mod_small (d_start d)) by (cbn; lia). split; [reflexivity|].
      apply Z.mod_small. cbn. lia.
  Qed.
  Lemma s_cpl : Forall2 (fun k d => cpl_as c k (l_op L' k) d) (filter (pk L') (seq 0 C')) ((h_cpl h ++ olist (cpl_out i o)) ++ olist (x_cpl st')).
  Proof.
    pose proof cnt as Q1. pose proof T_ok as Q2. pose proof C_ok as Q3. rewrite filter_same by lia.
    assert (Ts : forall k ts, p_ts (l_op L k) = Some ts -> p_ts (next k) = Some ts).
    { intros k ts X. unfold op_next. cbn [p_ts]. destruct (i_tcpl i) as [[t ts']|] eqn:Et; [|exact X]. destruct (means _ _ _ _ && _) eqn:M; [|exact X]. exfalso.
      apply andb_true_iff in M. destruct M as [M1 M2]. apply Z.eqb_eq in M2. destruct W as (_ & _ & _ & _ & _ & Y & _). destruct (Y _ _ Et) as [Z|(j & Z1 & Z2 & Z3 & Z4)].
      - destruct Sane as (_ & _ & _ & G1 & _). pose proof (slot_lt c k) as Sl.
        assert (HN : Z.of_nat N = 2 ^ Z.of_nat (e_cl c)) by (unfold e_n; rewrite Nat2Z.inj_pow; reflexivity).
        assert (2 ^ Z.of_nat (e_cl c) <= 2 ^ (e_ttw c - 1)) by (apply Z.pow_le_mono_r; lia).
        subst t. unfold cpl_tag in Z. fold (slot c k) in Z. rewrite Z.testbit_odd, Z.shiftr_div_pow2 in Z by lia.
        replace (2 ^ (e_ttw c - 1) + Z.of_nat (slot c k)) with (Z.of_nat (slot c k) + 1 * 2 ^ (e_ttw c - 1)) in Z by ring.
        rewrite Z.div_add in Z by (apply Z.pow_nonzero; lia). rewrite Z.div_small in Z by lia. discriminate.
      - assert (j = k); [|subst j; congruence]. apply (means_one c n j k (j mod N)); [exact Z1|]. assert (j mod N = k mod N)%nat as ->; [|exact M1].
        unfold cpl_tag in *. lia. }
    assert (Old : Forall2 (fun k d => cpl_as c k (l_op L' k) d) (filter (pk L) (seq 0 C)) (h_cpl h ++ olist (x_cpl s))).
    { refine (Forall2_impl' _ _ _ _ _ (iv_cpl _ _ _ _ _ _ _ I)). intros k d Hk X. apply filter_In in Hk. destruct Hk as [Hk _]. apply in_seq in Hk.
      rewrite op_old by lia. destruct (frozen' k) as (E1 & E2 & _); [lia|]. unfold cpl_as in *. destruct X as (a & q & ts & X1 & X2 & X3). exists a, q, ts. rewrite E1, E2. splits; auto. }
    assert (X : cpl_out i o = if i_crdy i then x_cpl s else None) by reflexivity. rewrite X. rewrite <- app_assoc. assert (Xf : x_cpl st' = match v_cpl c s i with Go => Some (cpl_of c (x_cp s) (x_tab s (slot c (x_cp s)))) | _ => if i_crdy i then None else x_cpl s end) by (st x_cpl; reflexivity). rewrite Xf. clear X Xf.
    assert (Keep : olist (if i_crdy i then x_cpl s else None) ++ olist (if i_crdy i then None else x_cpl s) = olist (x_cpl s)) by (destruct (i_crdy i); [apply app_nil_r|reflexivity]).
    destruct (v_cpl c s i) eqn:E; cbn [moves] in *.
    - rewrite Keep. exact Old.
    - rewrite Keep, seq_S, filter_app. cbn [filter Nat.add]. destruct cpl_moves as (_ & _ & M); [congruence|].
      assert (Z : pk L C = false) by (unfold pk, has_packet; rewrite (M E); reflexivity). rewrite Z, app_nil_r. exact Old.
    - destruct cpl_moves as (M1 & M4 & _); [congruence|]. destruct (M4 E) as (M5 & M6 & M7).
      assert (Z : (if i_crdy i then x_cpl s else None) = x_cpl s) by (destruct (i_crdy i); [reflexivity|]; destruct M7 as [->|]; [reflexivity|discriminate]).
      rewrite Z, app_assoc. rewrite seq_S, filter_app. cbn [filter Nat.add]. unfold pk at 2. rewrite M5. apply Forall2_app; [exact Old|]. constructor; [|constructor].
      rewrite op_old by lia. destruct (frozen' C) as (E1 & E2 & _); [lia|]. unfold cpl_as, cpl_of. rewrite E1, E2.
      pose proof (iv_live _ _ _ _ _ _ _ I C ltac:(lia)) as G. destruct (p_ts (l_op L C)) as [ts|] eqn:Et; [|congruence].
      destruct (iv_T _ _ _ _ _ _ _ I C M1) as [(Y & _)|(_ & Y1 & _)]; [unfold has_packet in M5; rewrite Y in M5; discriminate|].
      pose proof (ag_ans _ _ _ _ _ G) as Ga. unfold has_packet in M5. destruct (p_ans (l_op L C)) as [[[a q]|]|]; try discriminate.
      destruct (ag_id _ _ _ _ _ G) as (G1 & G2 & G3). rewrite !cp_slot. destruct Ga as [Ga1 Ga2]. exists a, q, ts. splits; auto.
      rewrite Ga1, Ga2, G1, G3, (ag_len _ _ _ _ _ G Y1). f_equal. destruct (e_ptp c) eqn:Ep; [|reflexivity]. destruct (ag_ts _ _ _ _ _ G ts Et) as [_ Y]. rewrite (Y Ep). reflexivity.
  Qed.
  Lemma s_dr : (h_dr h ++ olist (dreq_out i o)) ++ olist (x_dreq st') = map (fun k => (p_queue (l_op L' k), slot c k)) (seq 0 (l_n L')).
  Proof.
    assert (X : dreq_out i o = if i_drdy i then x_dreq s else None) by reflexivity. rewrite X. rewrite <- app_assoc. assert (Xf : x_dreq st' = match v_req s i with Some (q, _, _) => Some (q, slot c (x_sp s)) | None => if i_drdy i then None else x_dreq s end) by (st x_dreq; reflexivity). rewrite Xf. clear X Xf. rewrite n_next.
    assert (Old : map (fun k => (p_queue (l_op L' k), slot c k)) (seq 0 n) = h_dr h ++ olist (x_dreq s)).
    { rewrite (iv_dr _ _ _ _ _ _ _ I). apply map_ext_in. intros k Hk. apply in_seq in Hk. rewrite op_old by lia. reflexivity. }
    destruct (v_req s i) as [[[q t] d]|] eqn:E.
    - destruct (req_room _ E) as [_ R]. rewrite R in *. replace (if i_drdy i then None else None) with (@None (Z * nat)) by (destruct (i_drdy i); reflexivity).
      cbn [olist app] in *. rewrite app_nil_r in Old. rewrite seq_S, map_app, Old. cbn [map Nat.add]. rewrite (op_new _ _ _ E), sp_slot. reflexivity.
    - rewrite Old. destruct (i_drdy i); cbn [olist app]; [rewrite app_nil_r|]; reflexivity.
  Qed.
  Lemma s_st : Permutation ((h_st h ++ olist (o_stat o)) ++ olist (x_stat st') ++ olist (x_fin st')) (flat_map (duef F' L') (seq 0 (l_n L'))).
  Proof.
    pose proof cnt as Q1. pose proof T_ok as Q2. pose proof F_ok as Q3.
    set (estat := match i_ans i with Some (t, _, _, true) => Some (0, n_tag (x_tab s (slot c t))) | _ => None end).
    set (fgo := match v_fin c s with Go => [(n_len (x_tab s (slot c F)), n_tag (x_tab s (slot c F)))] | _ => [] end).
    assert (Lhs : olist (x_stat st') ++ olist (x_fin st') = olist estat ++ fgo ++ olist (x_fin s)).
    { unfold e_step at 1 2. rewrite w_rst. cbn [fst x_stat x_fin]. rewrite fp_slot. fold estat.
      assert (Y : olist (match v_fin c s with Go => Some (n_len (x_tab s (slot c F)), n_tag (x_tab s (slot c F))) | _ => x_fin s end) = fgo ++ olist (x_fin s)).
      { unfold fgo. destruct (v_fin c s) eqn:E; try reflexivity. destruct fin_moves as (_ & X & _); [congruence|]. rewrite X. reflexivity. }
      rewrite <- Y. destruct estat; [reflexivity|]. cbn [olist app]. rewrite app_nil_r. reflexivity. }
    rewrite Lhs. change (o_stat o) with (x_stat s).
    set (ea := fun k => match i_ans i with Some (t, _, _, true) => if means c n k t then [(0, p_tag (l_op L k))] else [] | _ => [] end).
    set (ef := fun k => if (k =? F)%nat then fgo else []).
    assert (Nw : flat_map (duef F' L') (seq 0 (l_n L')) = flat_map (duef F' L') (seq 0 n)).
    { rewrite n_next. destruct (v_req s i) as [[[q t] d]|] eqn:E; [|reflexivity]. rewrite seq_S, flat_map_app. cbn [flat_map Nat.add].
      unfold duef at 2. rewrite (op_new _ _ _ E). cbn [blank p_ans]. destruct (Nat.ltb_spec n F'); [lia|]. apply app_nil_r. }
    rewrite Nw.
    assert (P : Permutation (flat_map (duef F' L') (seq 0 n)) (flat_map (duef F L) (seq 0 n) ++ flat_map (fun k => ea k ++ ef k) (seq 0 n))).
    { apply flat_map_plus. intros k Hk. apply in_seq in Hk. unfold duef. rewrite op_old by lia. change (p_tag (next k)) with (p_tag (l_op L k)).
      destruct (Nat.lt_ge_cases k T) as [B|B].
      - destruct (frozen' k) as (E1 & E2 & _); [lia|]. rewrite E1, E2.
        assert (Ea : ea k = []).
        { unfold ea. destruct (i_ans i) as [[[[t a] q] []]|] eqn:Ei; try reflexivity. destruct (means c n k t) eqn:M; [|reflexivity].
          destruct (w_ans _ _ _ _ Ei) as (j & J1 & -> & J2). apply same_target in M; lia. }
        rewrite Ea. cbn [app]. unfold ef. destruct (Nat.eqb_spec k F) as [->|X].
        + destruct (Nat.ltb_spec F F) as [|_]; [lia|]. unfold fgo. destruct (v_fin c s) eqn:Ev; cbn [moves].
          * destruct (Nat.ltb_spec F F) as [|_]; [lia|]. destruct (p_ans (l_op L F)) as [[|]|]; reflexivity.
          * destruct fin_moves as (_ & _ & _ & Y); [congruence|]. rewrite (Y Ev). reflexivity.
          * destruct fin_moves as (Y0 & _ & Y & _); [congruence|]. destruct (Y Ev) as [Y1 Y2]. destruct (Nat.ltb_spec F (S F)) as [_|]; [|lia].
            pose proof (iv_live _ _ _ _ _ _ _ I F ltac:(lia)) as G. destruct (ag_id _ _ _ _ _ G) as (_ & G2 & _). rewrite G2.
            destruct (iv_T _ _ _ _ _ _ _ I F ltac:(lia)) as [(Z & _)|(_ & Z1 & _)]; [unfold has_packet in Y1; rewrite Z in Y1; discriminate|].
            rewrite (ag_len _ _ _ _ _ G Z1). unfold has_packet in Y1. destruct (p_ans (l_op L F)) as [[|]|]; try discriminate. reflexivity.
        + rewrite app_nil_r. assert ((k <? F')%nat = (k <? F)%nat) as ->; [|reflexivity].
          destruct (v_fin c s); cbn [moves]; try reflexivity; destruct (Nat.ltb_spec k (S F)), (Nat.ltb_spec k F); lia || reflexivity.
      - assert ((k <? F')%nat = false) as -> by (apply Nat.ltb_ge; lia). assert ((k <? F)%nat = false) as -> by (apply Nat.ltb_ge; lia).
        assert (Ef : ef k = []).
        { unfold ef, fgo. destruct (Nat.eqb_spec k F) as [->|]; [|reflexivity]. destruct (v_fin c s) eqn:Ev; try reflexivity. destruct fin_moves as (Y0 & _); [congruence|lia]. }
        rewrite Ef, app_nil_r. unfold op_next. cbn [p_ans]. unfold ea. destruct (i_ans i) as [[[[t a] q] b]|] eqn:Ei; [|rewrite app_nil_r; reflexivity].
        destruct (means c n k t) eqn:M; [|destruct b; rewrite app_nil_r; reflexivity].
        destruct (w_ans _ _ _ _ Ei) as (j & J1 & -> & J2). apply same_target in M; [|lia]. subst j. rewrite J2. destruct b; reflexivity. }
    rewrite P. clear P Nw.
    assert (R : Permutation (flat_map (fun k => ea k ++ ef k) (seq 0 n)) (olist estat ++ fgo)).
    { rewrite (flat_map_plus ea (fun k => ea k ++ ef k) ef) by reflexivity. apply Permutation_app; apply Permutation_refl'.
      - unfold estat. destruct (i_ans i) as [[[[t a] q] []]|] eqn:Ei.
        + destruct (w_ans _ _ _ _ Ei) as (j & J1 & -> & J2). rewrite (flat_map_one ea n j).
          * unfold ea. rewrite live_sees by lia. rewrite Nat.eqb_refl. rewrite (slot_small c (slot c j)) by apply slot_lt.
            destruct (ag_id _ _ _ _ _ (iv_live _ _ _ _ _ _ _ I j ltac:(lia))) as (_ & -> & _). reflexivity.
          * lia.
          * intros x Hx Ne. unfold ea. destruct (means c n x (slot c j)) eqn:M; [|reflexivity]. apply same_target in M; lia.
        + apply flat_map_none. intros x _. unfold ea. reflexivity.
        + apply flat_map_none. intros x _. unfold ea. reflexivity.
      - destruct (Nat.eq_dec F n) as [X|X].
        + assert (fgo = []) as -> by (unfold fgo; destruct (v_fin c s) eqn:Ev; try reflexivity; destruct fin_moves as (Y0 & _); [congruence|lia]).
          apply flat_map_none. intros x Hx. unfold ef. destruct (Nat.eqb_spec x F); [lia|reflexivity].
        + rewrite (flat_map_one ef n F); [|lia|intros x Hx Ne; unfold ef; destruct (Nat.eqb_spec x F); [lia|reflexivity]]. unfold ef. rewrite Nat.eqb_refl. reflexivity. }
    rewrite R, <- (iv_st _ _ _ _ _ _ _ I), <- !app_assoc. apply Permutation_app_head. apply Permutation_app_head.
    rewrite app_assoc. apply Permutation_app_comm.
  Qed.

  Lemma s_txq k : (k < T')%nat -> pk L' k = true -> p_tx (l_op L' k) = true \/ exists d, x_tx st' = Some d /\ t_tag d = slot c k.
  Proof.
    intros A B. pose proof cnt as Q1. pose proof T_ok as Q2. rewrite pk_same in B by lia. rewrite op_old by lia.
    assert (Xf : x_tx st' = match v_tx c s with Go => Some (tx_of c (x_tp s) (x_tab s (slot c (x_tp s)))) | _ => if i_trdy i then None else x_tx s end) by (st x_tx; reflexivity).
    destruct (mono k) as (M & _). destruct (Nat.lt_ge_cases k T) as [D|D].
    - destruct (iv_txq _ _ _ _ _ _ _ I k D B) as [X|(d & X1 & X2)]; [left; auto|].
      destruct (Nat.lt_ge_cases k F) as [G|G].
      { destruct (iv_old _ _ _ _ _ _ _ I k G) as [Y|Y]; [unfold pk, has_packet in B; rewrite Y in B; discriminate|left; apply M; tauto]. }
      destruct (i_trdy i) eqn:Tr.
      + left. unfold op_next. cbn [p_tx]. unfold hit, tx_out. cbn. rewrite Tr, X1. cbn. rewrite X2, live_sees by lia. rewrite Nat.eqb_refl. apply orb_true_r.
      + right. exists d. split; [|exact X2]. rewrite Xf. destruct (v_tx c s) eqn:E; [exact X1|exact X1|]. destruct tx_moves as (_ & _ & _ & Y & _); [congruence|].
        destruct (Y E) as (_ & Z & _). congruence.
    - destruct (v_tx c s) eqn:E; cbn [moves] in A; [lia| |]; (assert (k = T) by lia; subst k).
      + destruct tx_moves as (_ & _ & _ & _ & Y); [congruence|]. unfold pk, has_packet in B. rewrite (Y E) in B. discriminate.
      + right. eexists. split; [exact Xf|]. cbn [t_tag tx_of]. apply tp_slot.
  Qed.
  Lemma s_cplq k : (k < C')%nat -> pk L' k = true -> p_cpl (l_op L' k) = true \/ exists d, x_cpl st' = Some d /\ c_tag d = slot c k.
  Proof.
    intros A B. pose proof cnt as Q1. pose proof T_ok as Q2. pose proof C_ok as Q3. rewrite pk_same in B by lia. rewrite op_old by lia.
    assert (Xf : x_cpl st' = match v_cpl c s i with Go => Some (cpl_of c (x_cp s) (x_tab s (slot c (x_cp s)))) | _ => if i_crdy i then None else x_cpl s end) by (st x_cpl; reflexivity).
    destruct (mono k) as (_ & _ & _ & M). destruct (Nat.lt_ge_cases k C) as [D|D].
    - destruct (iv_cplq _ _ _ _ _ _ _ I k D B) as [X|(d & X1 & X2)]; [left; auto|].
      destruct (i_crdy i) eqn:Tr.
      + left. unfold op_next. cbn [p_cpl]. unfold hit, cpl_out. cbn. rewrite Tr, X1. cbn. rewrite X2.
        destruct (iv_cplp _ _ _ _ _ _ _ I d X1) as (j & J1 & J2 & _).
        destruct (Nat.lt_ge_cases k F) as [G|G]; [|rewrite live_sees by lia; rewrite Nat.eqb_refl; apply orb_true_r].
        assert (P : p_cpl (l_op L k) = true); [|rewrite P; reflexivity]. apply (iv_oldc _ _ _ _ _ _ _ I); assumption.
      + right. exists d. split; [|exact X2]. rewrite Xf. destruct (v_cpl c s i) eqn:E; [exact X1|exact X1|]. destruct cpl_moves as (_ & Y & _); [congruence|].
        destruct (Y E) as (_ & _ & [Z|Z]); congruence.
    - destruct (v_cpl c s i) eqn:E; cbn [moves] in A; [lia| |]; (assert (k = C) by lia; subst k).
      + destruct cpl_moves as (_ & _ & Y); [congruence|]. unfold pk, has_packet in B. rewrite (Y E) in B. discriminate.
      + right. eexists. split; [exact Xf|]. cbn [c_tag cpl_of]. apply cp_slot.
  Qed.
  Lemma s_oldc k : (k < F')%nat -> pk L' k = true -> p_cpl (l_op L' k) = true.
  Proof.
    intros A B. pose proof cnt as Q1. pose proof T_ok as Q2. pose proof F_ok as Q3. rewrite pk_same in B by lia. rewrite op_old by lia.
    destruct (mono k) as (_ & _ & _ & M). apply M. destruct (Nat.lt_ge_cases k F) as [G|G]; [apply (iv_oldc _ _ _ _ _ _ _ I); assumption|].
    destruct (v_fin c s) eqn:E; cbn [moves] in A; [lia| |]; (assert (k = F) by lia; subst k; destruct fin_moves as (X1 & X2 & X3 & X4); [congruence|]).
    - unfold pk, has_packet in B. rewrite (X4 E) in B. discriminate.
    - apply (ag_wr _ _ _ _ _ (iv_live _ _ _ _ _ _ _ I F ltac:(lia))). apply X3. exact E.
  Qed.
  Lemma s_ask k : (k < l_n L')%nat -> p_asked (l_op L' k) = true \/ S k = l_n L' /\ x_dreq st' <> None.
  Proof.
    assert (Xf : x_dreq st' = match v_req s i with Some (q, _, _) => Some (q, slot c (x_sp s)) | None => if i_drdy i then None else x_dreq s end) by (st x_dreq; reflexivity).
    rewrite n_next, Xf. clear Xf. intros A. destruct (Nat.lt_ge_cases k n) as [B|B].
    - rewrite op_old by exact B. unfold op_next. cbn [p_asked]. destruct (iv_ask _ _ _ _ _ _ _ I k B) as [->|[X1 X2]]; [left; reflexivity|].
      destruct (v_req s i) as [r|] eqn:E; [destruct (req_room _ E); congruence|].
      destruct (i_drdy i) eqn:D; [|right; auto]. left.
      unfold dreq_out. cbn. rewrite D. pose proof (iv_dr _ _ _ _ _ _ _ I) as Y. destruct (x_dreq s) as [[q t]|]; [|congruence]. cbn [olist] in Y.
      rewrite <- X1, seq_S, map_app in Y. cbn [map Nat.add] in Y. apply app_inj_tail in Y. destruct Y as [_ Y]. injection Y as -> ->. cbn.
      rewrite means_live by (pose proof (N_pos c); lia). rewrite Nat.eqb_refl. apply orb_true_r.
    - destruct (v_req s i) as [[[q t] d]|] eqn:E; [|lia]. right. split; [lia|discriminate].
  Qed.
  Lemma s_num : x_cnt st' = Z.of_nat (length (flat_map (unf L') (seq 0 (l_n L')))).
  Proof.
    pose proof cnt as Q1.
    assert (Xf : x_cnt st' = x_cnt s + match v_req s i with Some _ => 1 | None => 0 end - match i_ans i with Some (_, _, _, true) => 1 | _ => 0 end
      - match v_desc c s i with Some (_, _, true) => 1 | _ => 0 end).
    { st x_cnt. destruct (i_ans i) as [[[[t a] q] []]|]; reflexivity. }
    rewrite Xf, n_next, (iv_num _ _ _ _ _ _ _ I), desc_same. clear Xf.
    set (ea := fun k => match i_ans i with Some (t, _, _, true) => if means c n k t then [tt] else [] | _ => [] end).
    set (ed := fun k => match dj k with Some (_, true) => [tt] | _ => [] end).
    assert (P : Permutation (flat_map (unf L) (seq 0 n)) (flat_map (unf L') (seq 0 n) ++ flat_map (fun k => ea k ++ ed k) (seq 0 n))).
    { apply flat_map_plus. intros k Hk. apply in_seq in Hk. unfold unf. rewrite op_old by lia. rewrite whole_next. unfold ed.
      destruct (dj k) as [[d l]|] eqn:D.
      - destruct (dj_facts _ _ _ D) as (_ & _ & X1 & X2 & _). rewrite ans_next by exact X1. rewrite X2.
        assert (ea k = []) as ->.
        { unfold ea. destruct (i_ans i) as [[[[t a] q] []]|] eqn:Ei; try reflexivity. destruct (means c n k t) eqn:M; [|reflexivity].
          destruct (w_ans _ _ _ _ Ei) as (j & J1 & -> & J2). apply same_target in M; [|lia]. subst j. unfold has_packet in X1. rewrite J2 in X1. discriminate. }
        unfold has_packet in X1. destruct (p_ans (l_op L k)) as [[|]|]; try discriminate. destruct l; reflexivity.
      - unfold op_next. cbn [p_ans]. unfold ea. destruct (i_ans i) as [[[[t a] q] b]|] eqn:Ei; [|rewrite !app_nil_r; reflexivity].
        destruct (means c n k t) eqn:M; [|destruct b; rewrite !app_nil_r; reflexivity].
        destruct (w_ans _ _ _ _ Ei) as (j & J1 & -> & J2). apply same_target in M; [|lia]. subst j. rewrite J2. destruct b; [reflexivity|].
        assert (p_whole (l_op L k) = false) as ->; [|reflexivity].
        pose proof (iv_live _ _ _ _ _ _ _ I k ltac:(lia)) as G. destruct (p_descs (l_op L k)) as [|d0 ds0] eqn:Ed.
        + apply (ag_none _ _ _ _ _ G Ed).
        + destruct (ag_desc _ _ _ _ _ G _ _ Ed) as (Y & _). unfold has_packet in Y. rewrite J2 in Y. discriminate. }
    apply Permutation_length in P. rewrite app_length in P.
    assert (R : length (flat_map (fun k => ea k ++ ed k) (seq 0 n)) = (length (flat_map ea (seq 0 n)) + length (flat_map ed (seq 0 n)))%nat).
    { rewrite <- app_length. apply Permutation_length. apply flat_map_plus. reflexivity. }
    assert (Ra : Z.of_nat (length (flat_map ea (seq 0 n))) = match i_ans i with Some (_, _, _, true) => 1 | _ => 0 end).
    { destruct (i_ans i) as [[[[t a] q] []]|] eqn:Ei.
      - destruct (w_ans _ _ _ _ Ei) as (j & J1 & -> & J2). rewrite (flat_map_one ea n j).
        + unfold ea. rewrite live_sees by lia. rewrite Nat.eqb_refl. reflexivity.
        + lia.
        + intros x Hx Ne. unfold ea. destruct (means c n x (slot c j)) eqn:M; [|reflexivity]. apply same_target in M; lia.
      - rewrite flat_map_none by (intros; reflexivity). reflexivity.
      - rewrite flat_map_none by (intros; reflexivity). reflexivity. }
    assert (Rd : Z.of_nat (length (flat_map ed (seq 0 n))) = match desc_in i o with Some (_, _, true) => 1 | _ => 0 end).
    { destruct (desc_in i o) as [[[d t] l]|] eqn:Ei.
      - destruct (w_desc _ _ _ Ei) as (j & J1 & -> & _).
        assert (Dj : dj j = Some (d, l)) by (unfold dj; rewrite Ei, live_sees by lia; rewrite Nat.eqb_refl; reflexivity).
        rewrite (flat_map_one ed n j).
        + unfold ed. rewrite Dj. destruct l; reflexivity.
        + lia.
        + intros x Hx Ne. unfold ed. rewrite (dj_one _ _ _ _ Dj Hx Ne). reflexivity.
      - rewrite flat_map_none; [reflexivity|]. intros x _. unfold ed, dj. rewrite Ei. reflexivity. }
    assert (Rn : Z.of_nat (length (flat_map (unf L') (seq 0 match v_req s i with Some _ => S n | None => n end))) =
      Z.of_nat (length (flat_map (unf L') (seq 0 n))) + match v_req s i with Some _ => 1 | None => 0 end).
    { destruct (v_req s i) as [[[q t] d]|] eqn:E; [|lia]. rewrite seq_S, flat_map_app, app_length. cbn [flat_map Nat.add]. unfold unf at 2. rewrite (op_new _ _ _ E). cbn [blank p_ans length app]. lia. }
    rewrite Rn, <- Ra, <- Rd, P, R. lia.
  Qed.

  Lemma step_inv : inv c st' L' T' C' F'
    (mkH (h_dr h ++ olist (dreq_out i o)) (h_tx h ++ olist (tx_out i o)) (h_ck h ++ olist (ck_out i o)) (h_cpl h ++ olist (cpl_out i o)) (h_st h ++ olist (o_stat o))).
  Proof.
    constructor; cbn [h_dr h_tx h_ck h_cpl h_st].
    - exact s_cnt.
    - exact s_ptr.
    - exact s_on.
    - exact s_off.
    - exact s_ready.
    - exact s_skid.
    - exact s_dready.
    - exact s_tags.
    - apply ranged_step; [apply Sane|exact (iv_range _ _ _ _ _ _ _ I)].
    - exact s_live.
    - exact s_old.
    - exact s_T.
    - exact s_T'.
    - exact s_C.
    - exact s_C'.
    - exact s_sent.
    - exact s_cur.
    - exact s_tx.
    - exact s_ck.
    - exact s_cpl.
    - exact s_st.
    - exact s_dr.
    - exact s_txp.
    - exact s_cplp.
    - exact s_oldc.
    - exact s_txq.
    - exact s_cplq.
    - exact s_ask.
    - exact s_num.
  Qed.
End Step.

(** Every run. *)
Lemma keep_somes {A} (f : ein -> eout -> option A) i is o os : over f (i :: is) (o :: os) = olist (f i o) ++ over f is os.
Proof. unfold over. cbn [combine map fst snd]. rewrite somes_cons. reflexivity. Qed.
Lemma run_inv c : sane c -> forall is s L T C F h, inv c s L T C F h ->
  let os := snd (trace (e_step c) s is) in lawful_from c L is os ->
  exists T' C' F', inv c (fst (trace (e_step c) s is)) (fold_left (keep c) (combine is os) L) T' C' F'
    (mkH (h_dr h ++ over dreq_out is os) (h_tx h ++ over tx_out is os) (h_ck h ++ over ck_out is os) (h_cpl h ++ over cpl_out is os) (h_st h ++ statuses os)).
Proof.
  intros S is. induction is as [|i is IH]; intros s L T C F h I os W.
  - exists T, C, F. unfold os, over, statuses. cbn. rewrite !app_nil_r. destruct h. exact I.
  - unfold os in *. clear os. cbn [trace]. cbn [trace] in W. destruct (e_step c s i) as [s' o] eqn:E. destruct (trace (e_step c) s' is) as [s'' os] eqn:Er.
    cbn [fst snd combine fold_left lawful_from] in *. destruct W as [W1 W2].
    pose proof (step_inv c s L T C F h i S I) as St. rewrite E in St. cbn [fst snd] in St. specialize (St W1).
    specialize (IH _ _ _ _ _ _ St). rewrite Er in IH. cbn [fst snd] in IH. specialize (IH W2). destruct IH as (T' & C' & F' & IH).
    cbn [h_dr h_tx h_ck h_cpl h_st] in IH. exists T', C', F'. rewrite !keep_somes. unfold statuses. cbn [map]. rewrite somes_cons, !app_assoc.
    exact IH.
Qed.
Lemma ranged_run c is : 0 < e_cw c -> forall s, ranged c s -> ranged c (fst (trace (e_step c) s is)).
Proof.
  intros P. induction is as [|i is IH]; intros s R; [exact R|]. cbn [trace]. pose proof (ranged_step c s i P R) as R'.
  destruct (e_step c s i) as [s' o]. specialize (IH s' R'). destruct (trace (e_step c) s' is) as [s'' os]. exact IH.
Qed.
Lemma fresh_inv c s : sane c -> started c s -> inv c s l0 0 0 0 (mkH [] [] [] [] []).
Proof.
  intros S St. pose proof (N_pos c) as P.
  assert (G : ranged c s /\ exists tab, s = mkEst false None None false None None None 0 0 true 0 None 0 tab 0 0 0 0 skid0 /\ forall k, n_act (tab k) = false).
  { assert (R0 : ranged c e_init).
    { intros k. cbn. assert (0 < 2 ^ e_cw c); [|lia]. apply Z.pow_pos_nonneg; [lia|]. destruct S as (_ & _ & S3 & _). lia. }
    destruct St as [->|(js & j & Hj & ->)]; [split; [exact R0|eexists; split; [reflexivity|reflexivity]]|].
    assert (Hc : 0 < e_cw c) by apply S. split; [apply ranged_run; assumption|].
    rewrite trace_app. destruct (trace (e_step c) e_init js) as [s1 o1]. cbn [trace fst]. unfold e_step. rewrite Hj. cbn [fst].
    eexists. split; [reflexivity|]. reflexivity. }
  destruct G as (R & tab & -> & A).
  constructor; cbn [l0 l_n x_sp x_tp x_cp x_fp x_tab x_ready x_skid x_dready x_start x_tx x_ck x_cpl x_stat x_fin x_dreq h_dr h_tx h_ck h_cpl h_st skid_content skid0 k_out k_tmp olist app seq filter flat_map map];
    try discriminate; try (intros; lia); try (intros; contradiction); auto.
  - rewrite Nat.mod_0_l by lia. auto.
  - apply skid0_inv.
  - split; [reflexivity|]. intros; lia.
  - destruct (e_csum c); [constructor|reflexivity].
Qed.

Section Results.
  Variables (c : ecfg) (s : est) (is : list ein).
  Hypothesis Sane : sane c.
  Hypothesis St : started c s.
  Notation os := (snd (trace (e_step c) s is)).
  Notation L := (ledger_of c is os).
  Hypothesis W : lawful c is os.

  Lemma final : exists T C F, inv c (fst (trace (e_step c) s is)) L T C F
    (mkH (over dreq_out is os) (over tx_out is os) (over ck_out is os) (over cpl_out is os) (statuses os)).
  Proof. exact (run_inv c Sane is s l0 0 0 0 _ (fresh_inv c s Sane St) W). Qed.

  Lemma prefix_of {A B} (R : A -> B -> Prop) l : forall x y, Forall2 R l (x ++ y) -> exists l1 l2, l = l1 ++ l2 /\ Forall2 R l1 x.
  Proof. intros x y H. apply Forall2_app_inv_r in H. destruct H as (l1 & l2 & H1 & _ & ->). eauto. Qed.
  Lemma packets_split T : (T <= l_n L)%nat -> exists r, packets L = filter (pk L) (seq 0 T) ++ r.
  Proof.
    intros A. exists (filter (pk L) (seq T (l_n L - T))). unfold packets. change (fun k => has_packet (l_op L k)) with (pk L).
    replace (l_n L) with (T + (l_n L - T))%nat at 1 by lia. rewrite seq_app, filter_app. reflexivity.
  Qed.

  Lemma tx_result : exists ks rest, packets L = ks ++ rest /\ Forall2 (fun k d => tx_as c k (l_op L k) d) ks (over tx_out is os).
  Proof.
    destruct final as (T & C & F & I). pose proof (iv_cnt _ _ _ _ _ _ _ I) as Q. destruct (packets_split T ltac:(lia)) as [r E].
    pose proof (iv_tx _ _ _ _ _ _ _ I) as X. cbn [h_tx] in X. destruct (prefix_of _ _ _ _ X) as (l1 & l2 & E2 & H). exists l1, (l2 ++ r).
    rewrite E, E2, app_assoc. auto.
  Qed.
  Lemma ck_result : if e_csum c then exists ks rest, packets L = ks ++ rest /\ Forall2 (fun k d => ck_as (l_op L k) d) ks (over ck_out is os)
    else over ck_out is os = [].
  Proof.
    destruct final as (T & C & F & I). pose proof (iv_cnt _ _ _ _ _ _ _ I) as Q. destruct (packets_split T ltac:(lia)) as [r E].
    pose proof (iv_ck _ _ _ _ _ _ _ I) as X. cbn [h_ck] in X. destruct (e_csum c).
    - destruct (prefix_of _ _ _ _ X) as (l1 & l2 & E2 & H). exists l1, (l2 ++ r). rewrite E, E2, app_assoc. auto.
    - apply app_eq_nil in X. apply X.
  Qed.
  Lemma cpl_result : exists ks rest, packets L = ks ++ rest /\ Forall2 (fun k d => cpl_as c k (l_op L k) d) ks (over cpl_out is os).
  Proof.
    destruct final as (T & C & F & I). pose proof (iv_cnt _ _ _ _ _ _ _ I) as Q. destruct (packets_split C ltac:(lia)) as [r E].
    pose proof (iv_cpl _ _ _ _ _ _ _ I) as X. cbn [h_cpl] in X. destruct (prefix_of _ _ _ _ X) as (l1 & l2 & E2 & H). exists l1, (l2 ++ r).
    rewrite E, E2, app_assoc. auto.
  Qed.
  Lemma status_result : exists rest, Permutation (statuses os ++ rest) (flat_map (fun k => due (l_op L k)) (seq 0 (l_n L))).
  Proof.
    destruct final as (T & C & F & I). pose proof (iv_cnt _ _ _ _ _ _ _ I) as Q. pose proof (iv_st _ _ _ _ _ _ _ I) as X. cbn [h_st] in X.
    set (e := fun k => if (k <? F)%nat then [] else match p_ans (l_op L k) with Some None => [] | _ => due (l_op L k) end).
    assert (P : Permutation (flat_map (fun k => due (l_op L k)) (seq 0 (l_n L))) (flat_map (duef F L) (seq 0 (l_n L)) ++ flat_map e (seq 0 (l_n L)))).
    { apply flat_map_plus. intros k Hk. unfold e, duef, due. destruct (Nat.ltb_spec k F) as [A|A].
      - destruct (iv_old _ _ _ _ _ _ _ I k A) as [Y|(_ & _ & _ & _ & Y)]; [rewrite Y; reflexivity|]. rewrite Y. destruct (p_ans (l_op L k)) as [[|]|]; reflexivity.
      - destruct (p_ans (l_op L k)) as [[|]|]; reflexivity. }
    eexists. rewrite P, <- X. rewrite <- !app_assoc. apply Permutation_refl.
  Qed.
  Lemma req_result : exists w, (length w <= 1)%nat /\ over dreq_out is os ++ w = map (fun k => (p_queue (l_op L k), (k mod e_n c)%nat)) (seq 0 (l_n L)).
  Proof.
    destruct final as (T & C & F & I). pose proof (iv_dr _ _ _ _ _ _ _ I) as X. cbn [h_dr] in X. exists (olist (x_dreq (fst (trace (e_step c) s is)))).
    split; [destruct (x_dreq _); cbn; lia|exact X].
  Qed.
  Lemma reuse_result i : let o := snd (e_step c (fst (trace (e_step c) s is)) i) in
    o_ready o = true -> forall k, (k + e_n c <= l_n L)%nat -> settled (l_op L k).
  Proof.
    intros o R k A. destruct final as (T & C & F & I). destruct (iv_ready _ _ _ _ _ _ _ I R) as [B _]. apply (iv_old _ _ _ _ _ _ _ I). lia.
  Qed.
End Results.
