(** The transmit checksum unit: order, content and delivery. *)
From Verif Require Import Base.Prelude Base.Bits Rtl.Handshake_spec Rtl.Handshake_proof Stream.Axis_model Stream.Fifo_model
  Stream.Axis_proof Stream.Plain_proof Net.Codec_spec
  Nic.RxCsum_model Nic.RxCsum_spec Nic.RxCsum_proof Nic.TxCsum_model Nic.TxCsum_spec Nic.TxCsumSum_proof.
Local Open Scope Z_scope.
#[local] Unset Implicit Arguments.

(* ----- the output stage ----- *)
Definition oskid_ok (s : skid beat) : Prop := (k_rdy s = true -> k_tmp s = None) /\ (k_out s = None -> k_tmp s = None).
Lemma oskid_step_ok (s : skid beat) (x : option beat) (m : bool) : oskid_ok s -> oskid_ok (oskid_step s x m).
Proof.
  destruct s as [r o t]. unfold oskid_ok, oskid_step. cbn [k_rdy k_out k_tmp]. intros [H1 H2].
  destruct x, r, m, o, t; cbn; split; intros; auto; try discriminate; try (specialize (H1 eq_refl); discriminate); try (specialize (H2 eq_refl); discriminate).
Qed.
Lemma oskid_content (s : skid beat) (x : option beat) (m : bool) : oskid_ok s -> (k_rdy s = false -> x = None) ->
  skid_content s ++ olist x = olist (if m then k_out s else None) ++ skid_content (oskid_step s x m).
Proof.
  destruct s as [r o t]. unfold oskid_ok, oskid_step, skid_content. cbn [k_rdy k_out k_tmp]. intros [H1 H2] HX.
  destruct r.
  - rewrite (H1 eq_refl) in *. destruct m, o; cbn; rewrite ?app_nil_r; reflexivity.
  - rewrite (HX eq_refl). destruct m, o, t; cbn; rewrite ?app_nil_r; try reflexivity; discriminate (H2 eq_refl).
Qed.
Lemma oskid_early (s : skid beat) (x : option beat) : k_rdy (oskid_step s x true) = true.
Proof. unfold oskid_step. destruct (k_rdy s); reflexivity. Qed.
Lemma oskid_head s : oskid_ok s -> skid_content s <> [] -> k_out s <> None.
Proof. intros [_ H] N E. apply N. unfold skid_content. rewrite E, (H E). reflexivity. Qed.

(* ----- the adder tree ----- *)
Definition stok (st : tstage) : tok :=
  mkTk (sum (ts_sums st)) (ts_last st) (ts_iv st) (ts_odd st) (ts_en st) (ts_off st) (ts_init st).
Definition vt (st : tstage) : list tok := if ts_valid st then [stok st] else [].
Fixpoint pt (l : list tstage) : list tok := match l with [] => [] | s :: l => pt l ++ vt s end.
Definition lf (st : tstage) : bool := ts_valid st && ts_last st.

Definition sok (c : tccfg) (idx : nat) (st : tstage) : Prop :=
  ts_valid st = true -> rng idx (ts_sums st) /\ length (ts_sums st) = (2 ^ (tc_l c - 2 - idx))%nat.
Fixpoint soks (c : tccfg) (idx : nat) (l : list tstage) : Prop :=
  match l with [] => True | s :: l => sok c idx s /\ soks c (S idx) l end.

Lemma next_ok c idx h s : goodl c -> (S idx <= tc_l c - 2)%nat -> sok c idx h ->
  sok c (S idx) (stage_next c false true (S idx) h s) /\ vt (stage_next c false true (S idx) h s) = vt h /\
  lf (stage_next c false true (S idx) h s) = lf h.
Proof.
  intros HL HI H. unfold stage_next, vt, lf, sok in *. destruct (ts_valid h) eqn:E; cbn [andb negb].
  - destruct (H eq_refl) as [R L]. cbn [ts_valid ts_sums ts_last stok].
    destruct (@level_ok (tc_rc c) idx (ts_sums h) (2 ^ (tc_l c - 2 - S idx)) R) as (R' & L' & S').
    + rewrite L. replace (tc_l c - 2 - idx)%nat with (S (tc_l c - 2 - S idx)) by lia. reflexivity.
    + apply (k4 (tc_rc c)); unfold goodl in HL; cbn; lia.
    + splits; auto. f_equal. unfold stok. cbn [ts_sums ts_last ts_iv ts_odd ts_en ts_off ts_init]. rewrite S'. reflexivity.
  - cbn [ts_valid]. rewrite andb_false_r. splits; auto. discriminate.
Qed.

Lemma shift_ok c : goodl c -> forall t h idx, (idx + length t <= tc_l c - 2)%nat -> soks c idx (h :: t) -> forall d,
  soks c (S idx) (stages_next c false true (S idx) h t) /\
  vt (last (h :: t) d) ++ pt (stages_next c false true (S idx) h t) = pt (h :: t) /\
  map lf (stages_next c false true (S idx) h t) ++ [lf (last (h :: t) d)] = map lf (h :: t).
Proof.
  intros HL. induction t as [|s t IH]; intros h idx HI (H1 & H2) d.
  - cbn. rewrite app_nil_r. auto.
  - cbn [length] in HI. destruct (next_ok c idx h s HL ltac:(lia) H1) as (N1 & N2 & N3).
    destruct (IH s (S idx) ltac:(lia) H2 d) as (I1 & I2 & I3).
    cbn [stages_next]. change (last (h :: s :: t) d) with (last (s :: t) d). splits.
    + split; [exact N1|exact I1].
    + change (pt (?a :: ?b)) with (pt b ++ vt a). rewrite N2, app_assoc, I2. reflexivity.
    + cbn [map app]. rewrite N3. f_equal. exact I3.
Qed.

Lemma freeze c : forall t h l, stages_next c false false l h t = t.
Proof.
  induction t as [|s t IH]; intros h l; [reflexivity|]. cbn [stages_next]. rewrite IH. f_equal. unfold stage_next.
  rewrite andb_false_r. cbn [negb andb]. rewrite andb_true_r. destruct s; reflexivity.
Qed.
Lemma next_length c r q : forall t h l, length (stages_next c r q l h t) = length t.
Proof. induction t as [|s t IH]; intros h l; cbn [stages_next length]; auto. Qed.

Lemma soks_last c : forall t h idx d, soks c idx (h :: t) -> sok c (idx + length t) (last (h :: t) d).
Proof.
  induction t as [|s t IH]; intros h idx d (H1 & H2).
  - cbn. rewrite Nat.add_0_r. exact H1.
  - change (last (h :: s :: t) d) with (last (s :: t) d). cbn [length]. replace (idx + S (length t))%nat with (S idx + length t)%nat by lia.
    apply IH. exact H2.
Qed.
Lemma top_sum c st acc : goodl c -> sok c (tc_l c - 2) st -> ts_valid st = true -> acc_temp c st acc = tsum c acc (stok st).
Proof.
  intros HL H V. destruct (H V) as [R L]. rewrite Nat.sub_diag in L. unfold acc_temp, tsum. cbn [stok k_sum k_iv k_init].
  destruct (ts_sums st) as [|x [|y t]]; try discriminate. cbn [nth sum fold_right]. rewrite Z.add_0_r.
  inversion R as [|? ? B _]; subst. unfold goodl in HL. replace (17 + Z.of_nat (tc_l c - 2)) with (15 + Z.of_nat (tc_l c)) in B by lia.
  rewrite (Z.mod_small x) by exact B. reflexivity.
Qed.

Fixpoint sepl (l : list bool) : Prop :=
  match l with a :: (b :: _) as t => (a = true -> b = false) /\ sepl t | _ => True end.
Lemma sepl_cons a b t : sepl (a :: b :: t) <-> (a = true -> b = false) /\ sepl (b :: t).
Proof. destruct a; reflexivity. Qed.
Lemma sepl_app_l : forall a b, sepl (a ++ b) -> sepl a.
Proof.
  induction a as [|x a IH]; intros b H; [exact I|]. destruct a as [|y a]; [exact I|].
  cbn [app] in H. rewrite sepl_cons in H. apply sepl_cons. split; [apply H|]. apply (IH b). apply H.
Qed.
Lemma sepl_last : forall a x y, sepl (a ++ [x; y]) -> x = true -> y = false.
Proof.
  induction a as [|z a IH]; intros x y H E; [apply H; exact E|]. destruct a as [|w a].
  - cbn [app] in H. rewrite sepl_cons in H. apply (IH x y); [apply H|exact E].
  - cbn [app] in H. rewrite sepl_cons in H. apply (IH x y); [apply H|exact E].
Qed.

(* ----- the cycle ----- *)
Definition ib (c : tccfg) (s : tcst) (i : tin) : option beat := if t_sready c s then ti_s i else None.
Definition im (c : tccfg) (s : tcst) (i : tin) : option tcmd := if t_cmdready c s then ti_cmd i else None.
Definition topst (s : tcst) : tstage := last (x_stages s) (mkTs false false false false false 0 0 []).
Definition dpop (c : tccfg) (s : tcst) : option beat :=
  if k_rdy (x_skid s) && x_frame s then m_vis (data_cfg c) (x_data s) else None.
Definition wpop (c : tccfg) (s : tcst) : option beat :=
  if negb (x_frame s) then m_vis (csum_cfg c) (x_csum s) else None.
Definition xout (c : tccfg) (s : tcst) : option beat * bool * (Z * (Z * bool * bool)) :=
  if x_frame s then
    match dpop c s with
    | Some d => (Some (set_data d (fst (insert c (x_val s) (x_off s) (x_en s) (x_split s) (tdata d)))), negb (tlast d),
                 (x_val s, snd (insert c (x_val s) (x_off s) (x_en s) (x_split s) (tdata d))))
    | None => (None, true, (x_val s, (x_off s, x_en s, x_split s)))
    end
  else
    match wpop c s with
    | Some w => (None, true, (wd_csum (tdata w), (wd_off (tdata w), wd_en (tdata w), false)))
    | None => (None, false, (0, (0, false, false)))
    end.
Definition go (c : tccfg) (s : tcst) : bool := ts_valid (topst s) && ci_ready c s.
Definition nmask (c : tccfg) (s : tcst) (i : tin) : Z * Z :=
  match im c s i with
  | Some m => mask_cmd c (cm_start m)
  | None => match ib c s i with Some _ => mask_beat c (x_mask s) (x_ioff s) | None => (x_mask s, x_ioff s) end
  end.
Definition nxfer (c : tccfg) (s : tcst) (i : tin) : bool :=
  match im c s i with
  | Some _ => true
  | None => match ib c s i with Some b => x_xfer s && negb (tlast b) | None => x_xfer s end end.
Definition nstages (c : tccfg) (s : tcst) (i : tin) : list tstage :=
  match x_stages s with
  | [] => []
  | h :: t => stage0 c (ti_rst i) (ci_ready c s) (x_mask s) (x_first s) (ib c s i) (im c s i) h
              :: stages_next c (ti_rst i) (ci_ready c s) 1 h t
  end.
Definition dfin (c : tccfg) (s : tcst) (i : tin) : fin :=
  mkFin (ti_rst i) (negb (isnone (ti_s i)) && ci_ready c s && x_xfer s)
        (match ti_s i with Some b => b | None => wbeat 0 end) (k_rdy (x_skid s) && x_frame s) false.
Definition cfin (s : tcst) (i : tin) : fin := mkFin (ti_rst i) (x_civ s) (wbeat (x_ci s)) (negb (x_frame s)) false.

Lemma step_eq c s i : tc_step c s i =
  (mkTcst (negb (ti_rst i) && nxfer c s i) (fst (nmask c s i)) (snd (nmask c s i))
     (match im c s i with Some _ => true | None => match ib c s i with Some _ => false | None => x_first s end end)
     (nstages c s i)
     (if go c s then if ts_last (topst s) then 0 else acc_temp c (topst s) (x_acc s) else x_acc s)
     (if go c s && ts_last (topst s) then ci_of (topst s) (acc_temp c (topst s) (x_acc s)) else x_ci s)
     (negb (ti_rst i) && go c s && ts_last (topst s))
     (fst (f_step (data_cfg c) (x_data s) (dfin c s i)))
     (fst (f_step (csum_cfg c) (x_csum s) (cfin s i)))
     (negb (ti_rst i) && snd (fst (xout c s)))
     (fst (snd (xout c s))) (fst (fst (snd (snd (xout c s))))) (negb (ti_rst i) && snd (fst (snd (snd (xout c s))))) (snd (snd (snd (xout c s))))
     (if ti_rst i then skid0 else oskid_step (x_skid s) (fst (fst (xout c s))) (ti_mready i)),
   mkTout (t_cmdready c s) (t_sready c s) (k_out (x_skid s))).
Proof.
  unfold tc_step. fold (ib c s i) (im c s i). fold (topst s). fold (go c s). fold (nstages c s i). fold (nxfer c s i). fold (dfin c s i) (cfin s i). fold (nmask c s i).
  destruct (nmask c s i) as [mask ioff].
  change (if k_rdy (x_skid s) && x_frame s then m_vis (data_cfg c) (x_data s) else None) with (dpop c s).
  assert (E : (if x_frame s
     then match dpop c s with
          | Some d => let '(dd, n) := insert c (x_val s) (x_off s) (x_en s) (x_split s) (tdata d) in (Some (set_data d dd), negb (tlast d), (x_val s, n))
          | None => (None, true, (x_val s, (x_off s, x_en s, x_split s)))
          end
     else match option_map tdata (m_vis (csum_cfg c) (x_csum s)) with
          | Some w => (None, true, (wd_csum w, (wd_off w, wd_en w, false)))
          | None => (None, false, (0, (0, false, false)))
          end) = xout c s).
  { unfold xout, wpop. destruct (x_frame s); cbn [negb].
    - destruct (dpop c s) as [d|]; [|reflexivity]. destruct (insert c (x_val s) (x_off s) (x_en s) (x_split s) (tdata d)); reflexivity.
    - destruct (m_vis (csum_cfg c) (x_csum s)); reflexivity. }
  rewrite E. destruct (xout c s) as [[int fr] [v [[off en] sp]]]. reflexivity.
Qed.

(* ----- the invariant ----- *)
Definition dax (c : tccfg) : axcfg := mkAx true (Z.ones (Z.of_nat (tc_k c))) true (tc_id c) (tc_dest c) (tc_user c).
Definition cax : axcfg := mkAx false 1 false false false false.
Definition allbeats (D : list frame) (C : option frame) : list beat :=
  concat (map fr_beats D) ++ match C with Some f => fr_beats f | None => [] end.

Definition curok (C : option frame) : Prop := forall f, C = Some f -> cmd_ok (fr_cmd f) /\ notlast (fr_beats f).
Definition cinv (c : tccfg) (s : tcst) (C : option frame) : Prop :=
  match C with
  | None => x_xfer s = false
  | Some f =>
      x_xfer s = true /\ x_mask s = mk (scfg c (fr_cmd f)) (length (fr_beats f)) /\ x_ioff s = ioff_at c (fr_cmd f) (length (fr_beats f)) /\
      x_first s = (length (fr_beats f) =? 0)%nat /\
      let h := hd tc_blank (x_stages s) in
      ts_odd h = Z.odd (cm_start (fr_cmd f)) /\ ts_en h = cm_en (fr_cmd f) /\ ts_off h = cm_off (fr_cmd f) /\ ts_init h = cm_init (fr_cmd f)
  end.
Definition flags (s : tcst) : list bool := map lf (x_stages s) ++ [x_civ s].

Record finv (c : tccfg) (s : tcst) (a0 : Z) (D : list frame) (C : option frame) (Tk : list Z) (CL : list beat) : Prop := mkFinv {
  v_len : length (x_stages s) = (tc_l c - 1)%nat;
  v_sok : soks c 0 (x_stages s);
  v_D : Forall complete D;
  v_C : curok C;
  v_cur : cinv c s C;
  v_pipe : exists X W, alltoks c D C = X ++ pt (x_stages s) /\ trun c a0 X = (x_acc s, W) /\
             W = Tk ++ map tdata CL ++ (if x_civ s then [x_ci s] else []);
  v_sep : sepl (flags s);
  v_first : lf (hd tc_blank (x_stages s)) = true -> x_xfer s = false;
  v_csum : holdsp (tc_caw c) cax (x_csum s) CL;
  v_civ : x_civ s = true -> ci_ready c s = true }.

Definition as_list (c : tccfg) (f : frame) (l P : list beat) : Prop :=
  length P = length l /\ forall n b b', nth_error l n = Some b -> nth_error P n = Some b' -> beat_as c f n b b'.

Definition oinv (c : tccfg) (s : tcst) (D : list frame) (C : option frame) (Tk : list Z) (DL out : list beat) : Prop :=
  holdsp (tc_daw c) (dax c) (x_data s) DL /\ oskid_ok (x_skid s) /\
  exists D1 Fs pre P, Forall2 (sent_as c) D1 Fs /\ out ++ skid_content (x_skid s) = concat Fs ++ P /\
    map (present (dax c)) (allbeats D C) = map (present (dax c)) (concat (map fr_beats D1) ++ pre) ++ DL /\
    if x_frame s then
      exists f D2 suf, D = D1 ++ f :: D2 /\ fr_beats f = pre ++ suf /\ suf <> [] /\ as_list c f pre P /\
        x_val s = checksum c f /\ ost c (fr_cmd f) (length pre) (x_off s, x_en s, x_split s) /\ Tk = map (fword c) (D1 ++ [f])
    else exists D2, D = D1 ++ D2 /\ pre = [] /\ P = [] /\ Tk = map (fword c) D1.

Definition feed1 (D : list frame) (C : option frame) (m : option tcmd) (b : option beat) : list frame * option frame :=
  match m with
  | Some m => (D, Some (mkFr m []))
  | None => match b, C with
            | Some b, Some f => let f' := mkFr (fr_cmd f) (fr_beats f ++ [b]) in
                                if tlast b then (D ++ [f'], None) else (D, Some f')
            | _, _ => (D, C)
            end
  end.

(* tokens and beats brought in by a cycle *)
Definition newtok (c : tccfg) (C : option frame) (b : option beat) : list tok :=
  match b, C with Some b, Some f => [btok c (fr_cmd f) (length (fr_beats f)) b] | _, _ => [] end.

Lemma feed_toks c D C m b : (m <> None -> b = None /\ C = None) ->
  alltoks c (fst (feed1 D C m b)) (snd (feed1 D C m b)) = alltoks c D C ++ newtok c C b.
Proof.
  intros H. unfold feed1, alltoks, newtok. destruct m as [m|].
  - destruct (H ltac:(discriminate)) as [-> ->]. cbn [fst snd ctoks ftoks btoks fr_beats]. rewrite !app_nil_r. reflexivity.
  - destruct b as [b|]; [|cbn [fst snd]; rewrite ?app_nil_r; reflexivity]. destruct C as [f|]; [|cbn [fst snd]; rewrite ?app_nil_r; reflexivity].
    assert (E : ftoks c (mkFr (fr_cmd f) (fr_beats f ++ [b])) = ftoks c f ++ [btok c (fr_cmd f) (length (fr_beats f)) b]).
    { unfold ftoks. cbn [fr_cmd fr_beats]. rewrite btoks_app. reflexivity. }
    destruct (tlast b); cbn [fst snd ctoks].
    + rewrite map_app, concat_app. cbn [map concat]. rewrite !app_nil_r, E, app_assoc. reflexivity.
    + rewrite E, app_assoc. reflexivity.
Qed.
Lemma feed_beats D C m b : (m <> None -> b = None /\ C = None) -> (C = None -> b = None) ->
  allbeats (fst (feed1 D C m b)) (snd (feed1 D C m b)) = allbeats D C ++ olist b.
Proof.
  intros H H2. unfold feed1, allbeats. destruct m as [m|].
  - destruct (H ltac:(discriminate)) as [-> ->]. cbn [fst snd fr_beats olist]. rewrite !app_nil_r. reflexivity.
  - destruct b as [b|]; [|cbn [fst snd olist]; rewrite ?app_nil_r; reflexivity]. destruct C as [f|]; [|discriminate (H2 eq_refl)].
    destruct (tlast b); cbn [fst snd fr_beats olist].
    + rewrite map_app, concat_app. cbn [map concat fr_beats]. rewrite !app_nil_r, app_assoc. reflexivity.
    + rewrite app_assoc. reflexivity.
Qed.
Lemma feed_grows D C m b : exists E, fst (feed1 D C m b) = D ++ E.
Proof.
  unfold feed1. destruct m; [exists []; rewrite ?app_nil_r; reflexivity|]. destruct b as [b|], C as [f|]; try (exists []; rewrite ?app_nil_r; reflexivity).
  destruct (tlast b); [eexists; reflexivity|exists []; rewrite ?app_nil_r; reflexivity].
Qed.

(* ----- the input side ----- *)
Definition a0_ok (c : tccfg) (a0 : Z) : Prop := tc_init c = true \/ a0 = 0.
Lemma run_all' c a0 D C : goodl c -> a0_ok c a0 -> Forall complete D -> curok C ->
  snd (trun c a0 (alltoks c D C)) = map (fword c) D.
Proof.
  intros HL [HA| ->] HD HC; [|apply run_all; auto].
  rewrite <- (run_all c D C HL HD HC).
  assert (G : alltoks c D C = [] \/ exists k l, alltoks c D C = k :: l /\ k_iv k = true).
  { unfold alltoks. destruct D as [|f D].
    - cbn [map concat app]. destruct C as [f|]; [|auto]. cbn [ctoks]. unfold ftoks. destruct (fr_beats f); [auto|right; do 2 eexists; split; reflexivity].
    - right. inversion HD as [|? ? (_ & pre & b & E & _) _]; subst. cbn [map concat]. unfold ftoks at 1. rewrite E.
      destruct pre; cbn [app btoks]; do 2 eexists; split; reflexivity. }
  destruct G as [->|(k & l & -> & K)]; [reflexivity|]. cbn [trun].
  assert (tsum c a0 k = tsum c 0 k) as -> by (unfold tsum; rewrite K, HA; reflexivity). reflexivity.
Qed.

Lemma ib_some c s i b : ib c s i = Some b -> x_xfer s = true /\ ci_ready c s = true.
Proof. unfold ib, t_sready. destruct (x_xfer s), (ci_ready c s); rewrite ?andb_false_r; auto; discriminate. Qed.
Lemma im_some c s i m : im c s i = Some m -> x_xfer s = false /\ ci_ready c s = true /\ ti_cmd i = Some m.
Proof. unfold im, t_cmdready. destruct (x_xfer s), (ci_ready c s); cbn; auto; discriminate. Qed.
Lemma im_ib c s i : im c s i <> None -> ib c s i = None.
Proof.
  destruct (im c s i) eqn:E; [|congruence]. intros _. apply im_some in E. destruct (ib c s i) eqn:E2; auto. apply ib_some in E2. destruct E as [E _], E2 as [E2 _]. congruence.
Qed.

Lemma finv_step c s i a0 D C Tk CL : goodl c -> ti_rst i = false -> (forall m, ti_cmd i = Some m -> cmd_ok m) ->
  finv c s a0 D C Tk CL ->
  let s' := fst (tc_step c s i) in
  let g := feed1 D C (im c s i) (ib c s i) in
  finv c s' a0 (fst g) (snd g)
    (Tk ++ match wpop c s with Some w => [tdata w] | None => [] end)
    ((match wpop c s with Some _ => tl CL | None => CL end) ++ (if x_civ s then [present cax (wbeat (x_ci s))] else [])).
Proof.
  intros HL HR HM [V1 V2 V3 V4 V5 (X & W & P1 & P2 & P3) V7 V8 V9 V10] s' g.
  assert (HF : im c s i <> None -> ib c s i = None /\ C = None).
  { intros N. split; [apply im_ib; exact N|]. destruct (im c s i) eqn:E; [|congruence]. apply im_some in E. unfold cinv in V5. destruct C as [f|]; auto. destruct V5, E. congruence. }
  assert (HB : forall b, ib c s i = Some b -> exists f, C = Some f).
  { intros b E. apply ib_some in E. destruct C as [f|]; [eauto|]. unfold cinv in V5. destruct E. congruence. }
  destruct (x_stages s) as [|h t] eqn:ES; [cbn in V1; unfold goodl in HL; lia|]. cbn [length hd] in *.
  (* the csum FIFO *)
  assert (CS : holdsp (tc_caw c) cax (x_csum s') ((match wpop c s with Some _ => tl CL | None => CL end) ++ (if x_civ s then [present cax (wbeat (x_ci s))] else []))).
  { unfold s'. rewrite step_eq. cbn [fst x_csum].
    pose proof (holdsp_step (tc_caw c) cax (x_csum s) CL (cfin s i) V9 HR) as Q.
    cbn [cfin x_mready] in Q. unfold wpop. unfold phead in Q. fold (csum_cfg c) in Q.
    replace (map (present cax) (olist (taken_in (tc_caw c) cax (x_csum s) (cfin s i)))) with (if x_civ s then [present cax (wbeat (x_ci s))] else []) in Q; [exact Q|].
    unfold taken_in. cbn [cfin x_v x_b]. destruct (x_civ s) eqn:EC; [|rewrite andb_false_r; reflexivity].
    change (pready (tc_caw c) cax (x_csum s)) with (ci_ready c s). rewrite (V10 eq_refl). reflexivity. }
  (* words taken *)
  assert (WT : (Tk ++ match wpop c s with Some w => [tdata w] | None => [] end) ++
               map tdata ((match wpop c s with Some _ => tl CL | None => CL end) ++ (if x_civ s then [present cax (wbeat (x_ci s))] else [])) = W).
  { rewrite P3, map_app, <- !app_assoc. f_equal.
    assert (map tdata (if x_civ s then [present cax (wbeat (x_ci s))] else []) = if x_civ s then [x_ci s] else []) as -> by (destruct (x_civ s); reflexivity).
    unfold wpop. destruct (negb (x_frame s)); [|reflexivity]. destruct (m_vis (csum_cfg c) (x_csum s)) as [w|] eqn:E; [|reflexivity].
    destruct (phead_holds (tc_caw c) cax (x_csum s) CL w V9 E) as [CL' ->]. reflexivity. }
  (* civ *)
  assert (TL : forall d, last (h :: t) d = topst s) by (intros d; unfold topst; rewrite ES; generalize h; clear; induction t as [|a t IH]; intros h0; [reflexivity|apply (IH a)]).
  assert (CK : x_civ s' = true -> ci_ready c s' = true).
  { unfold s'. rewrite step_eq. cbn [fst x_civ]. rewrite HR. cbn [negb andb]. intros G. apply andb_prop in G. destruct G as [G L].
    unfold go in G. apply andb_prop in G. destruct G as [G R]. 
    assert (EC : x_civ s = false).
    { apply (sepl_last (map lf (removelast (h :: t))) (lf (topst s)) (x_civ s)).
      - unfold flags in V7. rewrite ES in V7. rewrite (app_removelast_last tc_blank (l := h :: t)) in V7 by discriminate. rewrite (TL tc_blank) in V7.
        rewrite map_app, <- app_assoc in V7. exact V7.
      - unfold lf. rewrite G, L. reflexivity. }
    unfold ci_ready. cbn [x_csum].
    apply (pready_keep (tc_caw c) cax (x_csum s) CL (cfin s i) V9); [exact HR|exact EC|exact R]. }
  destruct (ci_ready c s) eqn:RDY.
  - (* advance *)
    destruct (shift_ok c HL t h 0 ltac:(lia) V2 tc_blank) as (S1 & S2 & S3). rewrite TL in S2, S3.
    assert (TOP : sok c (tc_l c - 2) (topst s)).
    { rewrite <- (TL tc_blank). replace (tc_l c - 2)%nat with (0 + length t)%nat by lia. apply soks_last. exact V2. }
    set (h' := stage0 c false true (x_mask s) (x_first s) (ib c s i) (im c s i) h).
    assert (EST : x_stages s' = h' :: stages_next c false true 1 h t).
    { unfold s'. rewrite step_eq. cbn [fst x_stages]. unfold nstages. rewrite ES, HR, RDY. reflexivity. }
    assert (EH : sok c 0 h' /\ vt h' = newtok c C (ib c s i) /\ lf h' = match ib c s i with Some b => tlast b | None => false end).
    { unfold h', stage0, newtok. destruct (ib c s i) as [b|] eqn:EB.
      - destruct (HB b eq_refl) as [f ->]. destruct (im c s i) eqn:EM; [discriminate (proj1 (HF ltac:(discriminate)))|].
        unfold cinv in V5. destruct V5 as (_ & M1 & _ & M3 & M4). rewrite ES in M4. cbn [hd] in M4. destruct M4 as (O1 & O2 & O3 & O4).
        unfold vt, lf. cbn [ts_valid ts_last negb andb]. splits; auto.
        + intros _. cbn [ts_sums]. split; [apply level0_rng|]. rewrite level0_length. rewrite Nat.sub_0_r. 
          pose proof (@k4 (tc_rc c) 0 ltac:(unfold goodl in HL; cbn; lia) ltac:(lia)) as K. rewrite Nat.pow_0_r, Nat.div_1_r, Nat.sub_0_r in K. exact K.
        + unfold stok. cbn [ts_sums ts_last ts_iv ts_odd ts_en ts_off ts_init]. rewrite M1, level0_tok, M3, O1, O2, O3, O4 by exact HL. reflexivity.
      - unfold sok, vt, lf. cbn [ts_valid]. rewrite andb_false_r. splits; auto. discriminate. }
    destruct EH as (H1 & H2 & H3).
    (* the accumulator *)
    assert (ACC : trun c (x_acc s) (vt (topst s)) = (x_acc s', if x_civ s' then [x_ci s'] else [])).
    { unfold s'. rewrite step_eq. cbn [fst x_acc x_civ x_ci]. rewrite HR. unfold go, vt. rewrite RDY, andb_true_r. cbn [negb andb].
      destruct (ts_valid (topst s)) eqn:EV; cbn [andb trun]; [|reflexivity].
      rewrite (top_sum c (topst s) (x_acc s) HL TOP EV). cbn [stok k_last k_odd k_en k_off fst snd]. rewrite app_nil_r.
      destruct (ts_last (topst s)); reflexivity. }
    assert (CIV : x_civ s' = lf (topst s)).
    { unfold s'. rewrite step_eq. cbn [fst x_civ]. rewrite HR. unfold go, lf. rewrite RDY, andb_true_r. reflexivity. }
    constructor.
    + rewrite EST. cbn [length]. rewrite next_length. exact V1.
    + rewrite EST. split; [exact H1|exact S1].
    + unfold g, feed1. destruct (im c s i); [exact V3|]. destruct (ib c s i) as [b|] eqn:EB; [|exact V3]. destruct (HB b eq_refl) as [f ->].
      destruct (tlast b) eqn:LB; [|exact V3]. cbn [fst]. apply Forall_app. split; [exact V3|]. constructor; [|constructor].
      destruct (V4 f eq_refl) as [Q1 Q2]. split; [exact Q1|]. exists (fr_beats f), b. auto.
    + unfold g, feed1. destruct (im c s i) as [m|] eqn:EM.
      * intros f0 E0. cbn [snd] in E0. injection E0 as <-. split; [|constructor]. apply HM. apply im_some in EM. apply EM.
      * destruct (ib c s i) as [b|] eqn:EB; [|exact V4]. destruct (HB b eq_refl) as [f ->].
        destruct (tlast b) eqn:LB; intros f0 E0; cbn [snd] in E0; [discriminate|]. injection E0 as <-. destruct (V4 f eq_refl) as [Q1 Q2].
        split; [exact Q1|]. cbn [fr_beats]. apply Forall_app. split; [exact Q2|constructor; auto].
    + unfold g, feed1, cinv. rewrite EST. cbn [hd]. unfold s'. rewrite step_eq. cbn [fst x_xfer x_mask x_ioff x_first]. rewrite HR. cbn [negb andb].
      unfold nxfer, nmask, h', stage0. destruct (im c s i) as [m|] eqn:EM.
      * rewrite (proj1 (HF ltac:(discriminate))). cbn [snd fr_cmd fr_beats length]. rewrite mask_cmd_ok by (apply HM; apply im_some in EM; apply EM).
        cbn [fst snd ts_odd ts_en ts_off ts_init]. splits; reflexivity.
      * destruct (ib c s i) as [b|] eqn:EB.
        -- destruct (HB b eq_refl) as [f EC]. subst C. unfold cinv in V5. destruct V5 as (M0 & M1 & M2 & M3 & M4). rewrite ES in M4. cbn [hd] in M4. destruct M4 as (O1 & O2 & O3 & O4).
           rewrite M0. destruct (tlast b); cbn [snd fr_cmd fr_beats negb andb]; [reflexivity|].
           rewrite M2, mask_beat_ok by (apply (V4 f eq_refl)). rewrite app_length. cbn [length fst snd ts_odd ts_en ts_off ts_init]. rewrite Nat.add_1_r.
           splits; auto.
        -- cbn [snd fst]. unfold cinv in V5. destruct C as [f|]; [|exact V5]. destruct V5 as (M0 & M1 & M2 & M3 & M4). rewrite ES in M4. cbn [hd] in M4. destruct M4 as (O1 & O2 & O3 & O4).
           cbn [ts_odd ts_en ts_off ts_init]. splits; auto.
    + exists (X ++ vt (topst s)), (W ++ if x_civ s' then [x_ci s'] else []). splits.
      * unfold g. rewrite feed_toks by exact HF. rewrite P1, EST. change (pt (h' :: ?x)) with (pt x ++ vt h'). rewrite H2, <- S2, <- !app_assoc. reflexivity.
      * rewrite trun_app, P2. cbn [fst snd]. rewrite ACC. reflexivity.
      * rewrite <- WT, <- app_assoc. reflexivity.
    + unfold flags. rewrite EST, CIV. cbn [map app]. rewrite S3. cbn [map]. apply sepl_cons. split.
      * rewrite H3. intros LB. destruct (ib c s i) as [b|] eqn:EB; [|discriminate]. destruct (lf h) eqn:EL; auto. specialize (V8 eq_refl). apply ib_some in EB. destruct EB. congruence.
      * unfold flags in V7. rewrite ES in V7. apply (sepl_app_l (map lf (h :: t)) [x_civ s]). exact V7.
    + rewrite EST. cbn [hd]. rewrite H3. unfold s'. rewrite step_eq. cbn [fst x_xfer]. rewrite HR. cbn [negb andb]. unfold nxfer.
      destruct (ib c s i) as [b|] eqn:EB; [|discriminate]. intros LB. destruct (im c s i); [discriminate (proj1 (HF ltac:(discriminate)))|]. rewrite LB, andb_false_r. reflexivity.
    + exact CS.
    + exact CK.
  - (* frozen *)
    assert (EB : ib c s i = None) by (destruct (ib c s i) eqn:E; auto; apply ib_some in E; destruct E; congruence).
    assert (EM : im c s i = None) by (destruct (im c s i) eqn:E; auto; apply im_some in E; destruct E as (_ & ? & _); congruence).
    assert (EC : x_civ s = false) by (destruct (x_civ s); auto; specialize (V10 eq_refl); discriminate).
    assert (EST : x_stages s' = x_stages s).
    { unfold s'. rewrite step_eq. cbn [fst x_stages]. unfold nstages. rewrite ES, HR, RDY, freeze, EB, EM. unfold stage0. cbn [negb andb]. rewrite andb_true_r. destruct h; reflexivity. }
    assert (ECV : x_civ s' = false) by (unfold s'; rewrite step_eq; cbn [fst x_civ]; unfold go; rewrite RDY, andb_false_r, andb_false_r; reflexivity).
    assert (EA : x_acc s' = x_acc s) by (unfold s'; rewrite step_eq; cbn [fst x_acc]; unfold go; rewrite RDY, andb_false_r; reflexivity).
    assert (EX : x_xfer s' = x_xfer s) by (unfold s'; rewrite step_eq; cbn [fst x_xfer]; unfold nxfer; rewrite HR, EM, EB; reflexivity).
    assert (EG : g = (D, C)) by (unfold g, feed1; rewrite EM, EB; reflexivity). rewrite EG. cbn [fst snd].
    constructor; auto.
    + rewrite EST, ES. exact V1.
    + rewrite EST, ES. exact V2.
    + unfold cinv in *. destruct C as [f|]; [|rewrite EX; exact V5]. rewrite EX, EST. unfold s'. rewrite step_eq. cbn [fst x_mask x_ioff x_first]. unfold nmask. rewrite EM, EB. exact V5.
    + exists X, W. rewrite EST, ES, EA. splits; auto. rewrite ECV. rewrite <- WT, EC, !app_nil_r. reflexivity.
    + unfold flags in *. rewrite EST, ECV. rewrite EC in V7. exact V7.
    + rewrite EST, ES, EX. exact V8.
Qed.

Lemma words_prefix c s a0 D C Tk CL : goodl c -> a0_ok c a0 -> finv c s a0 D C Tk CL ->
  exists R, map (fword c) D = Tk ++ map tdata CL ++ (if x_civ s then [x_ci s] else []) ++ R.
Proof.
  intros HL HA H. destruct H as [_ _ V3 V4 _ (X & W & P1 & P2 & P3) _ _ _ _].
  pose proof (run_all' c a0 D C HL HA V3 V4) as E. rewrite P1, trun_app, P2 in E. cbn [fst snd] in E.
  eexists. rewrite <- E, P3, <- !app_assoc. reflexivity.
Qed.

(* ----- the output side ----- *)
Lemma nth_snoc {A} (l : list A) x n y : nth_error (l ++ [x]) n = Some y -> (nth_error l n = Some y) \/ (n = length l /\ y = x).
Proof.
  intros H. destruct (Nat.lt_ge_cases n (length l)).
  - rewrite nth_error_app1 in H by auto. auto.
  - rewrite nth_error_app2 in H by auto. destruct (n - length l)%nat as [|k] eqn:E; cbn in H.
    + injection H as <-. right. split; [lia|reflexivity].
    + destruct k; discriminate.
Qed.
Lemma as_snoc c f l P b b' : as_list c f l P -> beat_as c f (length l) b b' -> as_list c f (l ++ [b]) (P ++ [b']).
Proof.
  intros [E H] HB. split; [rewrite !app_length; cbn; lia|]. intros n x x' H1 H2.
  apply nth_snoc in H1. apply nth_snoc in H2. destruct H1 as [H1|[-> ->]], H2 as [H2|[-> ->]]; auto.
  - exfalso. assert (length P < length l)%nat by (apply nth_error_Some; congruence). lia.
  - exfalso. assert (length l < length P)%nat by (apply nth_error_Some; congruence). lia.
  - rewrite E. auto.
Qed.

Lemma ones_sum_range l : octets l -> 0 <= ones_sum l <= 65535.
Proof. intros H. destruct (ones_sum_oc H) as (A & _). exact A. Qed.
Lemma checksum_range c f : cmd_ok (fr_cmd f) -> 0 <= checksum c f < 65536.
Proof.
  intros (HS & _ & HI). unfold checksum. 
  assert (octets (initial c (fr_cmd f) ++ skipn (Z.to_nat (cm_start (fr_cmd f))) (frame_bytes (tc_k c) (map to_cb (fr_beats f))))).
  { pose proof (fb_octets (tc_k c) (map to_cb (fr_beats f))) as O. unfold octets in *. apply Forall_app. split.
    - unfold initial. pose proof (Z.mod_pos_bound (cm_init (fr_cmd f)) 256 ltac:(lia)). pose proof (Z.div_mod (cm_init (fr_cmd f)) 256 ltac:(lia)).
      destruct (tc_init c); [|constructor]. destruct (Z.odd _); repeat constructor; unfold octet; lia.
    - rewrite <- (firstn_skipn (Z.to_nat (cm_start (fr_cmd f))) (frame_bytes _ _)) in O. apply Forall_app in O. apply O. }
  pose proof (ones_sum_range _ H). lia.
Qed.

Lemma dtaken c s i : map (present (dax c)) (olist (taken_in (tc_daw c) (dax c) (x_data s) (dfin c s i))) = map (present (dax c)) (olist (ib c s i)).
Proof.
  unfold taken_in, ib, t_sready. cbn [dfin x_v x_b]. change (pready (tc_daw c) (dax c) (x_data s)) with (sready (data_cfg c) (z_w (x_data s)) (z_rd (x_data s))).
  destruct (sready (data_cfg c) (z_w (x_data s)) (z_rd (x_data s))), (ci_ready c s), (x_xfer s), (ti_s i); reflexivity.
Qed.

Lemma last_suf pre suf : notlast pre -> forall p b q l x, pre ++ [b] = p ++ q :: l -> tlast b = true -> suf = l -> x = q ->
  (tlast x = true -> suf = []) /\ (tlast x = false -> suf <> []).
Proof.
  intros NL p b q l x E LB -> ->. destruct (@exists_last _ (q :: l) ltac:(discriminate)) as (l' & z & EL).
  rewrite EL, app_assoc in E. apply app_inj_tail in E. destruct E as [E ->]. subst pre. apply Forall_app in NL. destruct NL as [_ NL].
  destruct l' as [|y l'].
  - cbn in EL. injection EL as -> ->. split; [auto|congruence].
  - cbn in EL. injection EL as -> ->. inversion NL; subst. split; [congruence|]. intros _. destruct l'; discriminate.
Qed.

Lemma present_beat c f n b v off en sp : goodl c -> cmd_ok (fr_cmd f) -> v = checksum c f -> ost c (fr_cmd f) n (off, en, sp) ->
  beat_as c f n b (set_data (present (dax c) b) (fst (insert c v off en sp (tdata (present (dax c) b))))).
Proof.
  intros HL HM -> HO. unfold beat_as. cbn [set_data tkeep tlast tid tdest tuser tdata present dax keep_en last_en id_en dest_en user_en].
  splits; auto. apply (insert_ok c (fr_cmd f) n (checksum c f) off en sp (tdata b)); auto.
  - apply HL.
  - destruct HM as (_ & HM & _). lia.
  - apply checksum_range. exact HM.
Qed.

Lemma oinv_step c s i a0 D C Tk CL DL out : goodl c -> a0_ok c a0 -> ti_rst i = false ->
  finv c s a0 D C Tk CL -> oinv c s D C Tk DL out ->
  let s' := fst (tc_step c s i) in
  let g := feed1 D C (im c s i) (ib c s i) in
  oinv c s' (fst g) (snd g) (Tk ++ match wpop c s with Some w => [tdata w] | None => [] end)
    ((match dpop c s with Some _ => tl DL | None => DL end) ++ map (present (dax c)) (olist (ib c s i)))
    (out ++ olist (if ti_mready i then k_out (x_skid s) else None)).
Proof.
  intros HL HA HR HF (V1 & V2 & D1 & Fs & pre & P & O1 & O2 & O3 & O4) s' g.
  assert (HC : im c s i <> None -> ib c s i = None /\ C = None).
  { intros N. split; [apply im_ib; exact N|]. destruct (im c s i) eqn:E; [|congruence]. apply im_some in E. pose proof (v_cur _ _ _ _ _ _ _ HF) as V5. unfold cinv in V5. destruct C as [f|]; auto. destruct V5, E. congruence. }
  assert (HB : C = None -> ib c s i = None).
  { intros ->. pose proof (v_cur _ _ _ _ _ _ _ HF) as V5. destruct (ib c s i) eqn:E; auto. apply ib_some in E. unfold cinv in V5. destruct E. congruence. }
  assert (OUT : (out ++ olist (if ti_mready i then k_out (x_skid s) else None)) ++ skid_content (x_skid s') = concat Fs ++ P ++ olist (fst (fst (xout c s)))).
  { unfold s'. rewrite step_eq, HR. cbn [fst x_skid]. rewrite <- app_assoc, <- oskid_content; [rewrite !app_assoc, O2; reflexivity|exact V2|].
    intros K. unfold xout, dpop. rewrite K. destruct (x_frame s); [reflexivity|]. destruct (wpop c s); reflexivity. }
  destruct (feed_grows D C (im c s i) (ib c s i)) as [E0 EG]. fold g in EG.
  pose proof (feed_beats D C (im c s i) (ib c s i) HC HB) as EBT. fold g in EBT.
  split; [|split].
  - unfold s'. rewrite step_eq. cbn [fst x_data].
    pose proof (holdsp_step (tc_daw c) (dax c) (x_data s) DL (dfin c s i) V1 HR) as Q. rewrite dtaken in Q.
    cbn [dfin x_mready] in Q. exact Q.
  - unfold s'. rewrite step_eq, HR. cbn [fst x_skid]. apply oskid_step_ok. exact V2.
  - destruct (x_frame s) eqn:EF.
    + assert (EW : wpop c s = None) by (unfold wpop; rewrite EF; reflexivity). rewrite EW, app_nil_r.
      destruct O4 as (f & D2 & suf & Q1 & Q2 & Q3 & Q4 & Q5 & Q6 & Q7).
      destruct (dpop c s) as [d|] eqn:ED.
      * assert (EX : xout c s = (Some (set_data d (fst (insert c (x_val s) (x_off s) (x_en s) (x_split s) (tdata d)))), negb (tlast d),
                 (x_val s, snd (insert c (x_val s) (x_off s) (x_en s) (x_split s) (tdata d))))) by (unfold xout; rewrite EF, ED; reflexivity).
        assert (HD : exists DL', DL = d :: DL').
        { apply (phead_holds (tc_daw c) (dax c) (x_data s) DL d V1). unfold dpop in ED. destruct (k_rdy (x_skid s) && x_frame s); [exact ED|discriminate]. }
        destruct HD as [DL' ->]. destruct suf as [|q suf]; [congruence|].
        assert (EQ : d = present (dax c) q /\ map (present (dax c)) (suf ++ concat (map fr_beats D2) ++ match C with Some f => fr_beats f | None => [] end) = DL').
        { unfold allbeats in O3. rewrite Q1, (map_app fr_beats), concat_app in O3. cbn [map concat] in O3. rewrite Q2 in O3.
          rewrite <- !app_assoc in O3. rewrite (app_assoc (concat (map fr_beats D1)) pre) in O3. rewrite map_app in O3. apply app_inv_head in O3.
          cbn [app map] in O3. injection O3 as A B. split; [symmetry; exact A|exact B]. }
        destruct EQ as [Ed EDL].
        assert (CF : complete f).
        { pose proof (v_D _ _ _ _ _ _ _ HF) as VD. rewrite Q1 in VD. apply Forall_app in VD. destruct VD as [_ VD]. inversion VD; auto. }
        assert (BA : beat_as c f (length pre) q (set_data d (fst (insert c (x_val s) (x_off s) (x_en s) (x_split s) (tdata d))))).
        { rewrite Ed. apply present_beat; auto. apply CF. }
        assert (TLD : tlast d = tlast q) by (rewrite Ed; reflexivity).
        destruct CF as (CM & pre0 & b0 & CE & CN & CL0). rewrite Q2 in CE.
        destruct (last_suf pre0 suf CN pre b0 q suf q (eq_sym CE) CL0 eq_refl eq_refl) as [LS1 LS2].
        assert (BEATS : map (present (dax c)) (allbeats (fst g) (snd g)) = map (present (dax c)) (concat (map fr_beats D1) ++ pre ++ [q]) ++ DL' ++ map (present (dax c)) (olist (ib c s i))).
        { rewrite EBT, map_app, O3. rewrite (app_assoc _ pre), (map_app _ _ [q]), <- !app_assoc. cbn [map app]. rewrite Ed. reflexivity. }
        rewrite EX in OUT. cbn [fst snd olist] in OUT.
        assert (EF' : x_frame s' = negb (tlast q)) by (unfold s'; rewrite step_eq, HR, EX; cbn [fst snd x_frame negb andb]; rewrite TLD; reflexivity).
        rewrite EF'. destruct (tlast q) eqn:LQ; cbn [negb].
        -- specialize (LS1 eq_refl). subst suf.
           exists (D1 ++ [f]), (Fs ++ [P ++ [set_data d (fst (insert c (x_val s) (x_off s) (x_en s) (x_split s) (tdata d)))]]), [], [].
           splits.
           ++ apply Forall2_app; [exact O1|]. constructor; [|constructor]. red. rewrite Q2. apply as_snoc; auto.
           ++ rewrite OUT, concat_app. cbn [concat]. rewrite !app_nil_r. reflexivity.
           ++ cbn [tl]. rewrite BEATS, (map_app fr_beats), concat_app. cbn [map concat]. rewrite Q2, !app_nil_r. reflexivity.
           ++ exists (D2 ++ E0). splits; auto. rewrite EG, Q1, <- !app_assoc. reflexivity.
        -- exists D1, Fs, (pre ++ [q]), (P ++ [set_data d (fst (insert c (x_val s) (x_off s) (x_en s) (x_split s) (tdata d)))]).
           splits; auto.
           exists f, (D2 ++ E0), suf. splits.
           ++ rewrite EG, Q1, <- !app_assoc. reflexivity.
           ++ rewrite Q2, <- app_assoc. reflexivity.
           ++ auto.
           ++ apply as_snoc; auto.
           ++ unfold s'. rewrite step_eq, EX. cbn [fst snd x_val]. exact Q5.
           ++ rewrite app_length, Nat.add_1_r. unfold s'. rewrite step_eq, EX, HR. cbn [fst snd x_off x_en x_split negb andb].
              rewrite <- !surjective_pairing.
              apply (insert_ok c (fr_cmd f) (length pre) (x_val s) (x_off s) (x_en s) (x_split s) (tdata d)); auto.
              ** apply HL.
              ** destruct CM as (_ & CM & _). lia.
              ** rewrite Q5. apply checksum_range. exact CM.
           ++ exact Q7.
      * assert (EX : xout c s = (None, true, (x_val s, (x_off s, x_en s, x_split s)))) by (unfold xout; rewrite EF, ED; reflexivity).
        rewrite EX in OUT. cbn [fst snd olist] in OUT. rewrite app_nil_r in OUT.
        assert (EF' : x_frame s' = true) by (unfold s'; rewrite step_eq, HR, EX; reflexivity). rewrite EF'.
        exists D1, Fs, pre, P. splits; auto.
        -- rewrite EBT, map_app, O3, <- app_assoc. reflexivity.
        -- exists f, (D2 ++ E0), suf. splits; auto.
           ++ rewrite EG, Q1, <- !app_assoc. reflexivity.
           ++ unfold s'. rewrite step_eq, EX. cbn [fst snd x_val]. exact Q5.
           ++ unfold s'. rewrite step_eq, EX, HR. cbn [fst snd x_off x_en x_split negb andb]. exact Q6.
    + assert (ED : dpop c s = None) by (unfold dpop; rewrite EF, andb_false_r; reflexivity). rewrite ED.
      destruct O4 as (D2 & Q1 & -> & -> & Q4). rewrite app_nil_r in *.
      destruct (wpop c s) as [w|] eqn:EW.
      * assert (EX : xout c s = (None, true, (wd_csum (tdata w), (wd_off (tdata w), wd_en (tdata w), false)))) by (unfold xout; rewrite EF, EW; reflexivity).
        assert (HD : exists CL', CL = w :: CL').
        { apply (phead_holds (tc_caw c) cax (x_csum s) CL w (v_csum _ _ _ _ _ _ _ HF)). unfold wpop in EW. rewrite EF in EW. exact EW. }
        destruct HD as [CL' ->]. destruct (words_prefix c s a0 D C Tk (w :: CL') HL HA HF) as [R ER]. cbn [map app] in ER.
        rewrite Q1, map_app, Q4 in ER. apply app_inv_head in ER. destruct D2 as [|f D2]; [discriminate|]. cbn [map] in ER. apply (f_equal (hd 0)) in ER. cbn [hd] in ER.
        assert (CF : complete f).
        { pose proof (v_D _ _ _ _ _ _ _ HF) as VD. rewrite Q1 in VD. apply Forall_app in VD. destruct VD as [_ VD]. inversion VD; auto. }
        rewrite <- ER in *. unfold fword in EX.
        destruct (word_parts (checksum c f) (cm_off (fr_cmd f)) (cm_en (fr_cmd f)) ltac:(destruct CF as ((_ & ? & _) & _); lia)) as (W1 & W2 & W3).
        rewrite W1, W2, W3 in EX. rewrite EX in OUT. cbn [fst snd olist] in OUT.
        assert (EF' : x_frame s' = true) by (unfold s'; rewrite step_eq, HR, EX; reflexivity). rewrite EF'.
        exists D1, Fs, [], []. splits; auto.
        -- rewrite app_nil_r. rewrite EBT, map_app, O3, <- app_assoc. reflexivity.
        -- exists f, (D2 ++ E0), (fr_beats f). splits; auto.
           ++ rewrite EG, Q1, <- !app_assoc. reflexivity.
           ++ destruct CF as (_ & pre0 & b0 & -> & _). destruct pre0; discriminate.
           ++ split; [reflexivity|]. intros n b b' N. destruct n; discriminate.
           ++ unfold s'. rewrite step_eq, EX. reflexivity.
           ++ unfold s'. rewrite step_eq, EX, HR. cbn [fst snd x_off x_en x_split negb andb length]. unfold ost. cbn [Nat.mul].
              destruct CF as ((_ & ? & _) & _). destruct (cm_en (fr_cmd f)); [left|reflexivity]. splits; auto; lia.
           ++ rewrite map_app, Q4. reflexivity.
      * assert (EX : xout c s = (None, false, (0, (0, false, false)))) by (unfold xout; rewrite EF, EW; reflexivity).
        rewrite EX in OUT. cbn [fst snd olist] in OUT.
        assert (EF' : x_frame s' = false) by (unfold s'; rewrite step_eq, HR, EX; reflexivity). rewrite EF'.
        exists D1, Fs, [], []. rewrite !app_nil_r in *. splits; auto.
        -- rewrite EBT, map_app, O3, <- app_assoc. reflexivity.
        -- exists (D2 ++ E0). splits; auto. rewrite EG, Q1, <- !app_assoc. reflexivity.
Qed.
