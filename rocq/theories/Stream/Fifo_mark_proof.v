(** MARK_WHEN_FULL: frames that meet a full FIFO come out cut and marked, or not at all. *)
From Verif Require Import Base.Prelude Base.Bits Rtl.Handshake_spec Rtl.Handshake_proof
  Stream.Axis_model Stream.Axis_spec Stream.Axis_proof Stream.Fifo_model Stream.Fifo_spec Stream.Fifo_ring
  Stream.Fifo_proof Stream.Fifo_hist_proof Stream.Fifo_live_proof Stream.Fifo_frame_proof.
Local Open Scope nat_scope.

Lemma depth_shows c s i Q U O : x_rst i = false -> inv c s Q U O ->
  y_depth (view c (fst (f_step c s i))) = Z.of_nat (length Q + length U).
Proof.
  intros Hr HI. rewrite f_step_next by auto. unfold view. cbn [z_depth y_depth].
  destruct (ring_diff (iv_ring HI)) as [-> _]. lia.
Qed.

Section Mark.
  Variable c : fcfg.
  Hypothesis Hok : fcfg_ok c = true.
  Hypothesis Hm : f_mark c = true.
  Notation P := (present (f_ax c)).
  Notation M := (2 ^ f_aw c).

  Lemma mark_cfg : f_frame c = false /\ last_en (f_ax c) = true.
  Proof.
    unfold fcfg_ok in Hok. rewrite Hm in Hok.
    destruct (f_frame c), (last_en (f_ax c)); cbn in Hok; rewrite ?andb_false_r in Hok; auto; discriminate.
  Qed.

  Definition isnil (l : list beat) : bool := match l with [] => true | _ => false end.

  (** How the frames so far and the current one stand, against the drop and mark flags. *)
  Inductive mst (fs : list (list beat * mfate)) (part cur : list beat) : bool -> bool -> Prop :=
  | m_flow : closed fs -> cur = part -> mst fs part cur false false
  | m_drop : closed fs -> cur = [] -> part <> [] -> mst fs part cur true false
  | m_cut n : closed fs -> cur = firstn n part -> 0 < n < length part -> mst fs part cur true true
  | m_wait : open_tail fs -> cur = [] -> part <> [] -> mst fs part cur true true
  | m_term : open_tail fs -> cur = [] -> part = [] -> mst fs part cur false true.

  Definition seen_full (F : list fout) : Prop := exists o, In o F /\ y_depth o = Z.of_nat M.

  Definition Imark (A D : list beat) (F : list fout) (s : fifo) : Prop :=
    exists Q O fs part cur,
      inv c s Q [] O /\
      A = concat (map fst fs) ++ part /\
      Forall (fun p => is_frame (fst p)) fs /\ Forall (fun b => tlast b = false) part /\
      w_sframe (z_w s) = negb (isnil part) /\
      D ++ content c s Q O = map P (concat (map mout fs) ++ cur) /\
      pulses (F ++ [view c s]) = map (fun _ => Over) (filter (fun p => negb (is_kept p)) fs) /\
      Forall (mok c) fs /\
      mst fs part cur (w_drop (z_w s)) (w_mark (z_w s)) /\
      ((forallb is_kept fs = true /\ w_drop (z_w s) = false /\ w_mark (z_w s) = false) \/ seen_full (F ++ [view c s])).

  Lemma mark_ready s : y_sready (view c s) = true.
  Proof. destruct mark_cfg as [Hf _]. unfold view, sready. cbn. rewrite Hf, Hm, orb_true_r. reflexivity. Qed.

  (** One cycle on the write side. *)
  Lemma mark_case s i (full : bool) : x_rst i = false -> full = pfull (f_aw c) (w_wr (z_w s)) (z_rd s) ->
    let w := z_w s in let s' := fst (f_step c s i) in let l := tlast (x_b i) in
    (act c s i, (w_sframe (z_w s'), w_drop (z_w s'), w_mark (z_w s'), pulse (view c s'))) =
    if x_v i then
      if w_drop w then
        if l then if negb full && w_mark w then (PushCommit, (false, false, false, Some Over))
                  else (Keep, (false, false, w_mark w, Some Over))
        else (Keep, (true, true, w_mark w, None))
      else if full || w_mark w then
        (Keep, (negb l, negb l, w_mark w || w_sframe w, if l then Some Over else None))
      else (PushCommit, (negb l, false, w_mark w, None))
    else if negb full && negb (w_drop w) && w_mark w then (PushCommit, (w_sframe w, w_drop w, false, None))
    else (Keep, (w_sframe w, w_drop w, w_mark w, None)).
  Proof.
    intros Hr Efull w s' l. destruct mark_cfg as [Hf Hl]. unfold s', w, l. rewrite f_step_next by auto.
    unfold view, pulse. cbn [z_w y_ovf y_bad y_good].
    unfold act, wact, act_of, w_step. rewrite <- Efull, Hf, Hm, Hl.
    assert (Hs : sready c (z_w s) (z_rd s) = true) by (unfold sready; rewrite Hf, Hm, orb_true_r; reflexivity).
    rewrite Hs, !andb_true_r. cbn [andb].
    destruct (x_v i), full, (w_drop (z_w s)) eqn:Ed, (w_mark (z_w s)) eqn:Em, (tlast (x_b i));
      cbn [negb andb orb w_sframe w_drop w_mark w_ovf w_bad w_good]; rewrite ?Ed, ?Em; reflexivity.
  Qed.

  Lemma closed_snoc fs f t : closed fs -> (forall n, t <> CutOpen n) -> closed (fs ++ [(f, t)]).
  Proof.
    intros H Ht. apply Forall_app. split; auto. constructor; auto. cbn. destruct t; auto. eapply Ht; eauto.
  Qed.
  Lemma open_snoc fs f : open_tail fs -> open_tail (fs ++ [(f, Lost)]).
  Proof.
    intros (a & g & n & b & -> & H1 & H2). exists a, g, n, (b ++ [(f, Lost)]). splits; auto.
    - rewrite <- app_assoc. reflexivity.
    - apply Forall_app. auto.
  Qed.
  Lemma open_new fs f n : closed fs -> open_tail (fs ++ [(f, CutOpen n)]).
  Proof. intros H. exists fs, f, n, []. splits; auto. Qed.

  Lemma mout_snoc fs p : concat (map mout (fs ++ [p])) = concat (map mout fs) ++ mout p.
  Proof. rewrite map_app, concat_app. cbn. rewrite app_nil_r. reflexivity. Qed.
  Lemma fst_snoc (fs : list (list beat * mfate)) p : concat (map fst (fs ++ [p])) = concat (map fst fs) ++ fst p.
  Proof. rewrite map_app, concat_app. cbn. rewrite app_nil_r. reflexivity. Qed.
  Lemma kept_snoc fs p : filter (fun p => negb (is_kept p)) (fs ++ [p]) =
    filter (fun p => negb (is_kept p)) fs ++ (if is_kept p then [] else [p]).
  Proof. rewrite filter_app. cbn. destruct (is_kept p); reflexivity. Qed.

  (** Writing the terminator of the open frame. *)
  Lemma close_open fs z : open_tail fs -> tlast z = true -> tuser z = f_badv c -> Forall (mok c) fs ->
    exists fs', map fst fs' = map fst fs /\ closed fs' /\ Forall (mok c) fs' /\
      concat (map mout fs') = concat (map mout fs) ++ [z] /\
      map (fun _ => Over) (filter (fun p => negb (is_kept p)) fs') = map (fun _ => Over) (filter (fun p => negb (is_kept p)) fs) /\
      forallb is_kept fs' = forallb is_kept fs.
  Proof.
    intros (a & f & n & b & -> & H1 & H2) Hz Hu Hmk. exists (a ++ (f, Cut n z) :: b).
    apply Forall_app in Hmk. destruct Hmk as [M1 M2]. inversion M2 as [|? ? M3 M4]; subst.
    assert (Eb : concat (map mout b) = []).
    { clear - H2. induction H2 as [|p b E _ IH]; auto. cbn. rewrite IH, app_nil_r. unfold mout. rewrite E. reflexivity. }
    splits.
    - rewrite !map_app. reflexivity.
    - apply Forall_app. split; auto. constructor; [exact Logic.I|]. eapply Forall_impl; [|exact H2]. cbn. intros p ->. exact Logic.I.
    - apply Forall_app. split; auto. constructor; auto. unfold mok in *. cbn in *. auto.
    - rewrite !map_app, !concat_app. cbn [map concat]. rewrite Eb, !app_nil_r, <- app_assoc. reflexivity.
    - rewrite !filter_app, !map_app. reflexivity.
    - rewrite !forallb_app. reflexivity.
  Qed.

  Lemma seen_mono F v : seen_full F -> seen_full (F ++ [v]).
  Proof. intros (o & H & E). exists o. split; auto. apply in_or_app. auto. Qed.

  Lemma mark_step A D F s i : x_rst i = false -> Imark A D F s ->
    Imark (A ++ olist (taken (sin_of i) (sout_of (snd (f_step c s i)))))
      (D ++ olist (given (sin_of i) (sout_of (snd (f_step c s i)))))
      (F ++ [snd (f_step c s i)]) (fst (f_step c s i)).
  Proof.
    intros Hr (Q & O & fs & part & cur & HI & HA & HF & HP & HSf & HD & HS & HK & HM & HW).
    pose proof (@inv_step c s i Q [] O Hr HI) as HI'. pose proof (@content_step c s i Q [] O Hr HI) as HC.
    pose proof (@depth_shows c s i Q [] O Hr HI) as HV.
    set (full := pfull (f_aw c) (w_wr (z_w s)) (z_rd s)).
    pose proof (@mark_case s i full Hr eq_refl) as HE. cbv zeta in HE.
    assert (Hfull : full = true -> y_depth (view c (fst (f_step c s i))) = Z.of_nat M).
    { intros E. rewrite HV. unfold full in E. rewrite (ring_full (iv_ring HI)), depth_nat in E.
      apply Z.eqb_eq in E. cbn [length] in *. lia. }
    pose proof (mark_ready s) as Hsr. unfold view in Hsr. cbn [y_sready] in Hsr.
    rewrite taken_eq, step_view in *. rewrite Hsr. cbn [andb].
    set (s' := fst (f_step c s i)) in *.
    assert (HU : nU c s i [] = []).
    { destruct mark_cfg as [Hf _]. unfold nU, act, wact, act_of. rewrite Hf.
      repeat match goal with |- context [if ?b then _ else _] => destruct b end; reflexivity. }
    rewrite HU in HI'. clear HU.
    unfold sb in HC.
    assert (HD' : forall dq, dQ (act c s i) [] (stored c (z_w s) (x_b i)) = dq ->
      (D ++ olist (given (sin_of i) (sout_of (view c s)))) ++ content c s' (nQ c s i Q []) (nO c s i O)
                  = map P ((concat (map mout fs) ++ cur) ++ dq)).
    { intros dq <-. rewrite <- app_assoc, <- HC, app_assoc, HD, (map_app P (_ ++ cur)). reflexivity. }
    assert (HS' : pulses ((F ++ [view c s]) ++ [view c s']) =
      map (fun _ => Over) (filter (fun p => negb (is_kept p)) fs) ++ olist (pulse (view c s')))
      by (rewrite pulses_snoc, HS; reflexivity).
    assert (HW' : seen_full (F ++ [view c s]) -> seen_full ((F ++ [view c s]) ++ [view c s'])) by apply seen_mono.
    assert (HW2 : full = true -> seen_full ((F ++ [view c s]) ++ [view c s'])).
    { intros E. exists (view c s'). split; [apply in_or_app; right; left; auto|]. auto. }
    set (F' := (F ++ [view c s]) ++ [view c s']) in *.
    assert (HN : w_drop (z_w s) = true \/ w_mark (z_w s) = true -> seen_full F').
    { intros Hx. destruct HW as [(_ & H1 & H2)|HW]; auto. rewrite H1, H2 in Hx. destruct Hx; discriminate. }
    unfold Imark. fold F'.
    set (Q' := nQ c s i Q []) in *. set (O' := nO c s i O) in *.
    assert (Hst : w_mark (z_w s) = true -> tlast (stored c (z_w s) (x_b i)) = true /\ tuser (stored c (z_w s) (x_b i)) = f_badv c).
    { intros E. unfold stored. rewrite E. cbn. rewrite orb_true_r. auto. }
    assert (Hst0 : w_mark (z_w s) = false -> stored c (z_w s) (x_b i) = x_b i) by (intros; apply stored_plain; auto).
    set (z := stored c (z_w s) (x_b i)) in *.
    assert (Hlen : forall b : beat, length (part ++ [b]) = S (length part)) by (intros; rewrite app_length; apply Nat.add_1_r).
    assert (Hnn : forall b : beat, part ++ [b] <> []) by (intros ? E; apply app_eq_nil in E; destruct E; discriminate).
    assert (Hni : forall b : beat, negb (isnil (part ++ [b])) = true) by (clear; intros; destruct part; reflexivity).
    assert (HFr : tlast (x_b i) = true -> is_frame (part ++ [x_b i])) by (intros; apply frame_close; auto).
    assert (HPr : tlast (x_b i) = false -> Forall (fun b => tlast b = false) (part ++ [x_b i])) by (intros; apply Forall_app; auto).
    destruct (x_v i) eqn:Ev; cbn [olist].
    - (* a beat is taken *)
      assert (HA' : A ++ [x_b i] = concat (map fst fs) ++ (part ++ [x_b i])) by (rewrite HA, <- app_assoc; reflexivity).
      destruct (w_drop (z_w s)) eqn:Edr.
      + destruct (tlast (x_b i)) eqn:El.
        * (* end of a frame being dropped *)
          destruct (negb full && w_mark (z_w s)) eqn:Ew.
          -- (* with room for the terminator *)
             apply andb_true_iff in Ew. destruct Ew as [_ Emk]. rewrite Emk in HM, HN.
             destruct (Hst Emk) as [Z1 Z2]. injection HE as E0 E1 E2 E3 E4. rewrite E1, E2, E3. rewrite E0 in HD'. rewrite E4 in HS'.
             specialize (HD' [z] eq_refl).
             inversion HM as [| |n C1 C2 C3|C1 C2 C3|]; subst cur.
             ++ exists Q', O', (fs ++ [(part ++ [x_b i], Cut n z)]), [], []. splits; auto.
                ** rewrite fst_snoc, app_nil_r. exact HA'.
                ** apply Forall_app. split; auto.
                ** rewrite HD', mout_snoc, app_nil_r. unfold mout at 3. cbn [fst snd].
                   rewrite firstn_app, <- !app_assoc. replace (n - length part) with 0 by (clear - C3; lia). reflexivity.
                ** rewrite HS', kept_snoc, map_app. reflexivity.
                ** apply Forall_app. split; auto. constructor; auto. unfold mok. cbn [fst snd]. rewrite Hlen. splits; auto; clear - C3; lia.
                ** apply m_flow; auto. apply closed_snoc; [auto|discriminate].
             ++ destruct (@close_open fs z C1 Z1 Z2 HK) as (fs' & F1 & F2 & F3 & F4 & F5 & F6).
                exists Q', O', (fs' ++ [(part ++ [x_b i], Lost)]), [], []. splits; auto.
                ** rewrite fst_snoc, app_nil_r, F1. exact HA'.
                ** apply Forall_app. split; auto. clear - F1 HF. apply Forall_map. rewrite F1. apply Forall_map. auto.
                ** rewrite HD', mout_snoc, F4. unfold mout at 3. cbn [fst snd]. rewrite !app_nil_r. reflexivity.
                ** rewrite HS', kept_snoc, map_app, F5. reflexivity.
                ** apply Forall_app. split; auto. constructor; auto. exact Logic.I.
                ** apply m_flow; auto. apply closed_snoc; [auto|discriminate].
          -- injection HE as E0 E1 E2 E3 E4. rewrite E1, E2, E3. rewrite E0 in HD'. rewrite E4 in HS'. specialize (HD' [] eq_refl).
             rewrite app_nil_r in HD'.
             inversion HM as [|C1 C2 C3 D1 D2|n C1 C2 C3 D1 D2|C1 C2 C3 D1 D2|]; subst cur.
             ++ exists Q', O', (fs ++ [(part ++ [x_b i], Lost)]), [], []. splits; auto.
                ** rewrite fst_snoc, app_nil_r. exact HA'.
                ** apply Forall_app. split; auto.
                ** rewrite HD', mout_snoc. unfold mout at 3. cbn [fst snd]. rewrite !app_nil_r. reflexivity.
                ** rewrite HS', kept_snoc, map_app. reflexivity.
                ** apply Forall_app. split; auto. constructor; auto. exact Logic.I.
                ** apply m_flow; auto. apply closed_snoc; [auto|discriminate].
             ++ exists Q', O', (fs ++ [(part ++ [x_b i], CutOpen n)]), [], []. splits; auto.
                ** rewrite fst_snoc, app_nil_r. exact HA'.
                ** apply Forall_app. split; auto.
                ** rewrite HD', mout_snoc, app_nil_r. unfold mout at 3. cbn [fst snd].
                   rewrite firstn_app. replace (n - length part) with 0 by (clear - C3; lia). cbn [firstn]. rewrite app_nil_r. reflexivity.
                ** rewrite HS', kept_snoc, map_app. reflexivity.
                ** apply Forall_app. split; auto. constructor; auto. unfold mok. cbn [fst snd]. rewrite Hlen. clear - C3; lia.
                ** apply m_term; auto. apply open_new. auto.
             ++ exists Q', O', (fs ++ [(part ++ [x_b i], Lost)]), [], []. splits; auto.
                ** rewrite fst_snoc, app_nil_r. exact HA'.
                ** apply Forall_app. split; auto.
                ** rewrite HD', mout_snoc. unfold mout at 3. cbn [fst snd]. rewrite !app_nil_r. reflexivity.
                ** rewrite HS', kept_snoc, map_app. reflexivity.
                ** apply Forall_app. split; auto. constructor; auto. exact Logic.I.
                ** apply m_term; auto. apply open_snoc. auto.
        * (* one more beat of a frame being dropped *)
          injection HE as E0 E1 E2 E3 E4. rewrite E1, E2, E3. rewrite E0 in HD'. rewrite E4 in HS'. specialize (HD' [] eq_refl).
          rewrite app_nil_r in HD'. cbn [olist] in HS'. rewrite app_nil_r in HS'.
          exists Q', O', fs, (part ++ [x_b i]), cur. splits; auto.
          inversion HM as [|C1 C2 C3 D1 D2|n C1 C2 C3 D1 D2|C1 C2 C3 D1 D2|]; subst cur.
          -- apply m_drop; auto.
          -- apply m_cut with n; auto; [|rewrite Hlen; clear - C3; lia]. rewrite firstn_app. replace (n - length part) with 0 by (clear - C3; lia).
             cbn [firstn]. rewrite app_nil_r. reflexivity.
          -- apply m_wait; auto.
      + destruct (full || w_mark (z_w s)) eqn:Efm.
        * (* no room, or a terminator pending *)
          assert (Hseen : seen_full F') by (apply orb_true_iff in Efm; destruct Efm; auto).
          injection HE as E0 E1 E2 E3 E4. rewrite E1, E2, E3. rewrite E0 in HD'. rewrite E4 in HS'. specialize (HD' [] eq_refl).
          rewrite app_nil_r in HD'.
          inversion HM as [C1 C2 D1 D2| | | |C1 C2 C3 D1 D2]; subst cur; cbn [orb].
          -- destruct part as [|b0 part'] eqn:Epart.
             ++ rewrite HSf. cbn [negb isnil]. cbn [app] in HA', HD'. destruct (tlast (x_b i)) eqn:El; cbn [negb olist] in *.
                ** exists Q', O', (fs ++ [([x_b i], Lost)]), [], []. splits; auto.
                   --- rewrite fst_snoc, app_nil_r. exact HA'.
                   --- apply Forall_app. split; auto.
                   --- rewrite HD', mout_snoc. unfold mout at 3. cbn [fst snd]. rewrite !app_nil_r. reflexivity.
                   --- rewrite HS', kept_snoc, map_app. reflexivity.
                   --- apply Forall_app. split; auto. constructor; auto. exact Logic.I.
                   --- apply m_flow; auto. apply closed_snoc; [auto|discriminate].
                ** exists Q', O', fs, [x_b i], []. splits; auto.
                   --- rewrite HS', app_nil_r. reflexivity.
                   --- apply m_drop; auto. discriminate.
             ++ rewrite <- Epart in *. assert (Hpl : 0 < length part) by (rewrite Epart; apply Nat.lt_0_succ).
                assert (Hsf : w_sframe (z_w s) = true) by (rewrite HSf, Epart; reflexivity).
                rewrite Hsf. destruct (tlast (x_b i)) eqn:El; cbn [negb olist] in *.
                ** exists Q', O', (fs ++ [(part ++ [x_b i], CutOpen (length part))]), [], []. splits; auto.
                   --- rewrite fst_snoc, app_nil_r. exact HA'.
                   --- apply Forall_app. split; auto.
                   --- rewrite HD', mout_snoc, app_nil_r. unfold mout at 3. cbn [fst snd].
                       rewrite firstn_app, firstn_all, Nat.sub_diag. cbn [firstn]. rewrite app_nil_r. reflexivity.
                   --- rewrite HS', kept_snoc, map_app. reflexivity.
                   --- apply Forall_app. split; auto. constructor; auto. unfold mok. cbn [fst snd]. rewrite Hlen. clear - Hpl; lia.
                   --- apply m_term; auto. apply open_new. auto.
                ** exists Q', O', fs, (part ++ [x_b i]), part. splits; auto.
                   --- rewrite HS', app_nil_r. reflexivity.
                   --- apply m_cut with (length part); auto; [|rewrite Hlen; clear - Hpl; lia].
                       rewrite firstn_app, firstn_all, Nat.sub_diag. cbn [firstn]. rewrite app_nil_r. reflexivity.
          -- subst part. cbn [app] in *. destruct (tlast (x_b i)) eqn:El; cbn [negb olist] in *.
             ++ exists Q', O', (fs ++ [([x_b i], Lost)]), [], []. splits; auto.
                ** rewrite fst_snoc, app_nil_r. exact HA'.
                ** apply Forall_app. split; auto.
                ** rewrite HD', mout_snoc. unfold mout at 3. cbn [fst snd]. rewrite !app_nil_r. reflexivity.
                ** rewrite HS', kept_snoc, map_app. reflexivity.
                ** apply Forall_app. split; auto. constructor; auto. exact Logic.I.
                ** apply m_term; auto. apply open_snoc. auto.
             ++ exists Q', O', fs, [x_b i], []. splits; auto.
                ** rewrite HS', app_nil_r. reflexivity.
                ** apply m_wait; auto.
        * (* stored *)
          apply orb_false_iff in Efm. destruct Efm as [_ Emk]. rewrite Emk in *.
          injection HE as E0 E1 E2 E3 E4. rewrite E1, E2, E3. rewrite E0 in HD'. rewrite E4 in HS'. cbn [olist] in HS'. rewrite app_nil_r in HS'.
          specialize (HD' [x_b i]). cbn [dQ app] in HD'. rewrite (Hst0 eq_refl) in HD'. specialize (HD' eq_refl).
          assert (Hcur : closed fs /\ cur = part) by (inversion HM; auto). destruct Hcur as [Hcl ->].
          destruct (tlast (x_b i)) eqn:El; cbn [negb].
          -- exists Q', O', (fs ++ [(part ++ [x_b i], Kept)]), [], []. splits; auto.
             ++ rewrite fst_snoc, app_nil_r. exact HA'.
             ++ apply Forall_app. split; auto.
             ++ rewrite HD', mout_snoc. unfold mout at 3. cbn [fst snd]. rewrite app_nil_r, <- !app_assoc. reflexivity.
             ++ rewrite HS', kept_snoc, map_app. cbn. rewrite app_nil_r. reflexivity.
             ++ apply Forall_app. split; auto. constructor; auto. exact Logic.I.
             ++ apply m_flow; auto. apply closed_snoc; [auto|discriminate].
             ++ destruct HW as [(W1 & _)|HW]; auto. left. splits; auto. rewrite forallb_app, W1. reflexivity.
          -- exists Q', O', fs, (part ++ [x_b i]), (part ++ [x_b i]). splits; auto.
             ++ rewrite HD', <- app_assoc. reflexivity.
             ++ apply m_flow; auto.
             ++ destruct HW as [(W1 & _)|HW]; auto.
    - (* nothing offered *)
      rewrite app_nil_r.
      destruct (negb full && negb (w_drop (z_w s)) && w_mark (z_w s)) eqn:Ew.
      + apply andb_true_iff in Ew. destruct Ew as [Ew Emk]. apply andb_true_iff in Ew. destruct Ew as [_ Edr].
        apply negb_true_iff in Edr. rewrite Edr, Emk in *.
        destruct (Hst eq_refl) as [Z1 Z2]. injection HE as E0 E1 E2 E3 E4. rewrite E1, E2, E3. rewrite E0 in HD'. rewrite E4 in HS'.
        specialize (HD' [z] eq_refl). cbn [olist] in HS'. rewrite app_nil_r in HS'.
        assert (Hc : open_tail fs /\ cur = [] /\ part = []) by (inversion HM; auto). destruct Hc as (C1 & -> & ->).
        destruct (@close_open fs z C1 Z1 Z2 HK) as (fs' & F1 & F2 & F3 & F4 & F5 & F6).
        exists Q', O', fs', [], []. splits; auto.
        * rewrite F1. exact HA.
        * clear - F1 HF. apply Forall_map. rewrite F1. apply Forall_map. auto.
        * rewrite HD', F4, !app_nil_r. reflexivity.
        * rewrite HS', F5. reflexivity.
        * apply m_flow; auto.
      + injection HE as E0 E1 E2 E3 E4. rewrite E1, E2, E3. rewrite E0 in HD'. rewrite E4 in HS'. specialize (HD' [] eq_refl).
        rewrite app_nil_r in HD'. cbn [olist] in HS'. rewrite app_nil_r in HS'.
        exists Q', O', fs, part, cur. splits; auto.
        destruct HW as [HW|HW]; auto.
  Qed.

  Lemma mark_run s is : started c s -> no_reset is ->
    Imark (got is (outs c s is)) (sent is (outs c s is)) (outs c s is) (after c s is).
  Proof.
    intros Hs Hr. apply (@hist c Imark mark_step is [] [] [] s Hr). apply started_fresh in Hs.
    exists [], [], [], [], []. splits; auto.
    - apply (fr_inv Hs).
    - apply (fr_sframe Hs).
    - rewrite (fresh_content Hs). reflexivity.
    - cbn [app]. unfold pulses. cbn [map]. rewrite (fresh_view Hs). reflexivity.
    - rewrite (fr_drop Hs), (fr_mark Hs). apply m_flow; auto. constructor.
    - left. rewrite (fr_drop Hs), (fr_mark Hs). auto.
  Qed.

  Lemma mark_top s is j : started c s -> no_reset is ->
    let os := outs c s (is ++ [j]) in
    exists fs part cur rest,
      got is os = concat (map fst fs) ++ part /\
      Forall (fun p => is_frame (fst p)) fs /\ Forall (fun b => tlast b = false) part /\
      Forall (mok c) fs /\ (closed fs \/ (open_tail fs /\ cur = [])) /\ (exists n, cur = firstn n part) /\
      pulses os = map (fun _ => Over) (filter (fun p => negb (is_kept p)) fs) /\
      map P (concat (map mout fs) ++ cur) = sent is os ++ rest /\ length rest <= room c /\
      ((forallb is_kept fs = true /\ cur = part) \/ exists o, In o os /\ y_depth o = Z.of_nat M).
  Proof.
    intros Hs Hr os. unfold os. rewrite outs_snoc.
    rewrite got_more, sent_more by (symmetry; apply outs_length).
    destruct (mark_run Hs Hr) as (Q & O & fs & part & cur & HI & HA & HF & HP & HSf & HD & HS & HK & HM & HW).
    exists fs, part, cur, (content c (after c s is) Q O). splits; auto.
    - inversion HM; auto.
    - inversion HM; subst.
      + exists (length part). rewrite firstn_all. auto.
      + exists 0. auto.
      + eauto.
      + exists 0. auto.
      + exists 0. auto.
    - pose proof (content_bound HI). lia.
    - destruct HW as [(W1 & W2 & W3)|HW]; auto. left. split; auto. rewrite W2, W3 in HM. inversion HM; auto.
  Qed.

  Lemma mark_accepts s is : started c s -> no_reset is -> Forall (fun o => y_sready o = true) (outs c s is).
  Proof.
    intros _ Hr. revert s. induction is as [|i is IH]; intros s; [constructor|].
    inversion Hr; subst. rewrite outs_cons, step_view. constructor; auto using mark_ready.
  Qed.

  (** With the source silent and no frame open, the pending terminator gets written. *)
  Lemma mark_settles tail : forall s Q O, inv c s Q [] O -> pinv c s -> paused c s = false ->
    w_drop (z_w s) = false -> no_reset tail -> sinking tail -> silent tail -> wt c s Q [] O < length tail ->
    exists t, t <= S (wt c s Q [] O) /\ w_mark (z_w (after c s (firstn t tail))) = false.
  Proof.
    induction tail as [|i tail IH]; intros s Q O HI HP Hp Hd Hr Hk Hsi Hw; [cbn in Hw; lia|].
    destruct (w_mark (z_w s)) eqn:Emk; [|exists 0; split; [lia|exact Emk]].
    inversion Hr as [|? ? R1 Hr1]; subst. inversion Hk as [|? ? [K1 K2] Hk1]; subst. inversion Hsi as [|? ? S1 Hs1]; subst.
    pose proof (@mark_case s i _ R1 eq_refl) as HE. cbv zeta in HE. rewrite S1, Hd, Emk in HE. cbn [negb] in HE.
    rewrite !andb_true_r in HE.
    destruct (pfull (f_aw c) (w_wr (z_w s)) (z_rd s)) eqn:Ef; cbn [negb] in HE; injection HE as E0 E1 E2 E3 E4.
    - assert (Hrdy : rdyo c s i = true) by (unfold rdyo; rewrite K1, Hp; reflexivity).
      destruct (@wt_step c s i Q [] O R1 HI Hrdy (or_introl E0)) as [_ W2].
      pose proof (@inv_step c s i Q [] O R1 HI) as HI'.
      assert (HU : nU c s i [] = []) by (unfold nU; rewrite E0; reflexivity).
      assert (Hne : content c s Q O <> []).
      { rewrite (ring_full (iv_ring HI)) in Ef. destruct Q as [|q Q].
        - rewrite depth_nat in Ef. apply Z.eqb_eq in Ef. cbn [length] in Ef.
          pose proof (Nat.pow_nonzero 2 (f_aw c)). clear - Ef H. lia.
        - unfold content. intros E. apply (f_equal (@length _)) in E.
          repeat rewrite ?app_length, ?map_length in E. cbn [length] in E. clear - E. lia. }
      specialize (W2 (or_introl Hne)). rewrite HU in *.
      destruct (IH (fst (f_step c s i)) _ _ HI') as (t & Ht & Hmk); eauto using pinv_step, unpause.
      { cbn [length] in Hw. clear - Hw W2. lia. }
      exists (S t). cbn [firstn]. rewrite after_cons. split; auto. clear - Ht W2. lia.
    - exists 1. split; [clear; lia|]. cbn [firstn]. rewrite after_cons. exact E3.
  Qed.

  Lemma frames_no_part (gs : list (list beat)) (fs : list (list beat * mfate)) part :
    Forall is_frame gs -> Forall (fun b => tlast b = false) part ->
    concat gs = concat (map fst fs) ++ part -> part = [].
  Proof.
    intros Hg Hp E. destruct part as [|b part _] using rev_ind; auto. exfalso.
    apply Forall_app in Hp. destruct Hp as [_ Hb]. inversion Hb as [|? ? Hb1 _]; subst.
    destruct gs as [|g gs _] using rev_ind.
    - apply (f_equal (@length _)) in E. rewrite !app_length in E. cbn in E. lia.
    - apply Forall_app in Hg. destruct Hg as [_ Hg]. inversion Hg as [|? ? (a & z & -> & Hz & _) _]; subst.
      rewrite concat_app in E. cbn [concat] in E. rewrite app_nil_r, !app_assoc in E.
      apply app_inj_tail in E. destruct E as [_ ->]. congruence.
  Qed.

  Lemma mst_no_part fs cur d m : mst fs [] cur d m -> d = false /\ cur = [] /\ (m = false -> closed fs).
  Proof.
    intros H. inversion H as [| |n C1 C2 C3| |]; subst; auto; try congruence; try (cbn in C3; lia).
    splits; auto. discriminate.
  Qed.

  Lemma got_silent is : forall s, silent is -> got is (outs c s is) = [].
  Proof.
    induction is as [|i is IH]; intros s H; [reflexivity|]. inversion H as [|? ? H1 H2]; subst.
    rewrite outs_cons, got_cons, IH, app_nil_r by auto. unfold taken, sin_of. cbn. rewrite H1. destruct (y_sready _); reflexivity.
  Qed.

  Lemma Forall_firstn_skipn A (Pr : A -> Prop) n l : Forall Pr l -> Forall Pr (firstn n l) /\ Forall Pr (skipn n l).
  Proof. intros H. rewrite <- (firstn_skipn n l) in H. apply Forall_app in H. exact H. Qed.

  Lemma mark_drain s is gs tail : started c s -> no_reset is -> Forall is_frame gs ->
    got is (outs c s is) = concat gs ->
    no_reset tail -> sinking tail -> silent tail -> 2 * drain_time c + 3 <= length tail ->
    exists fs, concat (map fst fs) = concat gs /\ Forall (fun p => is_frame (fst p)) fs /\
      Forall (mok c) fs /\ closed fs /\
      sent (is ++ tail) (outs c s (is ++ tail)) = map P (concat (map mout fs)).
  Proof.
    intros Hs Hr Hg HG Hrt Hk Hsi Hl.
    destruct tail as [|i0 tl0]; [cbn in Hl; lia|].
    assert (Hpre : exists t, t <= drain_time c + 2 /\ w_mark (z_w (after c s (is ++ firstn t (i0 :: tl0)))) = false).
    { destruct (mark_run Hs Hr) as (Q & O & fs & part & cur & HI & HA & HF & HP & HSf & HD & HS & HK & HM & HW).
      rewrite HG in HA. pose proof (@frames_no_part gs fs part Hg HP HA) as ->.
      assert (Hd : w_drop (z_w (after c s is)) = false) by (destruct (mst_no_part HM); auto).
      destruct (w_mark (z_w (after c s is))) eqn:Emk;
        [|exists 0; split; [lia|]; cbn [firstn]; rewrite app_nil_r; exact Emk].
      inversion Hrt as [|? ? R1 Hr1]; subst. inversion Hk as [|? ? [K1 K2] Hk1]; subst. inversion Hsi as [|? ? S1 Hs1]; subst.
      set (s1 := after c s is) in *.
      assert (Hp1 : pinv c s1) by (apply run_pinv; auto).
      pose proof (@inv_step c s1 i0 Q [] O R1 HI) as HI'.
      pose proof (@mark_case s1 i0 _ R1 eq_refl) as HE. cbv zeta in HE. rewrite S1, Hd, Emk in HE. cbn [negb] in HE.
      rewrite !andb_true_r in HE.
      destruct (pfull (f_aw c) (w_wr (z_w s1)) (z_rd s1)) eqn:Ef; cbn [negb] in HE; injection HE as E0 E1 E2 E3 E4.
      - assert (HU : nU c s1 i0 [] = []) by (unfold nU; rewrite E0; reflexivity). rewrite HU in HI'.
        pose proof (wt_bound HI') as Hwb.
        destruct (@mark_settles tl0 (fst (f_step c s1 i0)) _ _ HI') as (t & Ht & Hmk); eauto using pinv_step, unpause.
        { cbn [length] in Hl. clear - Hl Hwb. lia. }
        exists (S t). split; [clear - Ht Hwb; lia|]. cbn [firstn]. rewrite after_app, after_cons. exact Hmk.
      - exists 1. split; [clear; lia|]. cbn [firstn]. rewrite after_app, after_cons. exact E3. }
    destruct Hpre as (t & Ht & Hmk). set (tail := i0 :: tl0) in *. clearbody tail.
    destruct (@Forall_firstn_skipn _ _ t _ Hrt) as [R1 R2]. destruct (@Forall_firstn_skipn _ _ t _ Hk) as [K1 K2].
    destruct (@Forall_firstn_skipn _ _ t _ Hsi) as [S1 S2].
    assert (Hr2 : no_reset (is ++ firstn t tail)) by (apply Forall_app; auto).
    destruct (mark_run Hs Hr2) as (Q & O & fs & part & cur & HI & HA & HF & HP & HSf & HD & HS & HK & HM & HW).
    rewrite outs_app, got_app, (@got_silent (firstn t tail)), app_nil_r, HG in HA
      by (try exact S1; rewrite outs_length; reflexivity).
    pose proof (@frames_no_part gs fs part Hg HP HA) as ->.
    rewrite Hmk in HM. destruct (mst_no_part HM) as (_ & -> & Hc). specialize (Hc eq_refl).
    exists fs. splits; auto.
    - rewrite HA, app_nil_r. reflexivity.
    - rewrite <- (firstn_skipn t tail) at 1 2. rewrite app_assoc, outs_app, sent_app by (rewrite outs_length; auto).
      rewrite (@drain_all c (skipn t tail) _ Q [] O); auto using run_pinv.
      + rewrite HD, app_nil_r. reflexivity.
      + right; auto.
      + rewrite skipn_length. clear - Hl Ht. lia.
  Qed.
End Mark.

(** * The fill level shown *)
Lemma norm_depth c s is i j : f_frame c = false -> f_mark c = false -> started c s -> no_reset is -> x_rst i = false ->
  exists d, y_depth (snd (f_step c (after c s (is ++ [i])) j)) = Z.of_nat d /\
    length (sent is (outs c s is)) + d <= length (got is (outs c s is)) /\
    length (got is (outs c s is)) + 2 ^ f_aw c <= length (sent is (outs c s is)) + d + room c.
Proof.
  intros Hf Hm Hs Hr Hi. destruct (norm_run Hf Hm Hs Hr) as (Q & O & HI & _ & HE).
  exists (length Q). rewrite after_app, step_view, after_cons.
  change (after c (fst (f_step c (after c s is) i)) []) with (fst (f_step c (after c s is) i)).
  rewrite (@depth_shows c _ i Q [] O Hi HI). cbn [length]. rewrite Nat.add_0_r. split; auto.
  apply (f_equal (@length beat)) in HE. rewrite map_length, app_length in HE. rewrite HE. clear HE.
  pose proof (iv_len HI) as HL. pose proof (somes_len (z_pipe (after c s is))) as HS. pose proof (iv_o HI) as HO.
  unfold content, room. rewrite map_length, !app_length.
  destruct (f_ofifo c) eqn:E.
  - destruct HO as (HR & _). apply ring_bound in HR. rewrite depth_nat in HR. cbn [length] in HR.
    rewrite app_length. assert (Hq : length (olist (q_out (z_q (after c s is)))) <= 1) by (destruct (q_out _); cbn; auto).
    generalize dependent (2 ^ f_aw c). generalize dependent (2 ^ ofaw c). clear - HL HS Hq. intros. lia.
  - cbn [length]. generalize (2 ^ f_aw c). clear - HL HS. intros. lia.
Qed.
