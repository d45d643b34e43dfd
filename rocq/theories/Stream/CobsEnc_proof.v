(** The encoder: one byte at a time, then cycle by cycle. *)
From Verif Require Import Base.Prelude Rtl.Handshake_spec Rtl.Handshake_proof Stream.Axis_model Stream.Axis_proof
  Stream.Fifo_model Stream.Cobs_model Stream.Cobs_spec Stream.CobsFifo_proof.
From Coq Require Import Lia.
Local Open Scope Z_scope.
#[local] Unset Implicit Arguments.

Definition segb (s : ist) : bool := match s with I_seg => true | _ => false end.

(* a block: a word of the code FIFO and the words of the data FIFO that go with it *)
Definition block := (cb * list cb)%type.
Definition nodata (k : cb) : bool := (c_d k =? 0) || (c_d k =? 1) || c_u k.
Definition emit (b : block) : list cb := mkCb (c_d (fst b)) (c_l (fst b)) (c_u (fst b) && c_l (fst b)) :: snd b.
Definition bok (b : block) : Prop :=
  (if nodata (fst b) then snd b = [] else c_d (fst b) = Z.of_nat (length (snd b)) + 1 /\ snd b <> []) /\
  (length (snd b) <= 254)%nat /\ Forall (fun d => c_u d = false) (snd b).

(* what the input side still has to write after the last byte of a frame *)
Definition owed (app : bool) (st : ist) (fail : bool) : list cb :=
  let d := if fail then 2 else 1 in
  match st with
  | I_final => if app then [plain d; mkCb 0 true fail] else [mkCb d true fail]
  | I_append => [mkCb 0 true fail]
  | _ => []
  end.

Definition est := (bool * list Z)%type.
Definition bstep (app : bool) (s : est) (b : cb) : est * list cb :=
  let a := in_step app (if fst s then I_seg else I_idle) (Z.of_nat (length (snd s)) + 1) false true (Some b) in
  match p_code a with
  | Some k => ((segb (n_st a), []), emit (k, map plain (snd s) ++ olist (p_data a)) ++ owed app (n_st a) (n_fail a))
  | None => ((segb (n_st a), snd s ++ map c_d (olist (p_data a))), [])
  end.
Fixpoint bsteps (app : bool) (s : est) (l : list cb) : est * list cb :=
  match l with
  | [] => (s, [])
  | b :: l => let '(s1, o1) := bstep app s b in let '(s2, o2) := bsteps app s1 l in (s2, o1 ++ o2)
  end.
Lemma bsteps_app app s a b : bsteps app s (a ++ b) = let '(s1, o1) := bsteps app s a in let '(s2, o2) := bsteps app s1 b in (s2, o1 ++ o2).
Proof.
  revert s. induction a as [|x a IH]; intros s; cbn [List.app bsteps].
  - destruct (bsteps app s b). reflexivity.
  - destruct (bstep app s x) as [s1 o1]. rewrite IH. destruct (bsteps app s1 a) as [s2 o2]. destruct (bsteps app s2 b) as [s3 o3].
    rewrite app_assoc. reflexivity.
Qed.

Definition eok (s : est) : Prop := (length (snd s) <= 253)%nat /\ Forall nonzero (snd s) /\ (fst s = false -> snd s = []).

Ltac zb := repeat match goal with
  | H : (_ =? _) = true |- _ => apply Z.eqb_eq in H
  | H : (_ =? _) = false |- _ => apply Z.eqb_neq in H
  end.

(* a byte that is not the last *)
Lemma bstep_zero app s b : eok s -> c_l b = false -> c_d b = 0 ->
  bstep app s b = ((false, []), map plain (Z.of_nat (length (snd s)) + 1 :: snd s)).
Proof.
  intros (L & F & Z) Hl Hz. destruct s as [sg t]. cbn [fst snd] in *. unfold bstep, in_step. cbn [fst snd]. rewrite Hl, Hz. destruct sg; cbn.
  - rewrite !app_nil_r. reflexivity.
  - rewrite (Z eq_refl). reflexivity.
Qed.
Lemma bstep_byte app s b : eok s -> c_l b = false -> nonzero (c_d b) ->
  bstep app s b = if (length (snd s) =? 253)%nat then ((true, []), map plain (255 :: snd s ++ [c_d b])) else ((true, snd s ++ [c_d b]), []).
Proof.
  intros (L & F & Z) Hl Hz. destruct s as [sg t]. cbn [fst snd] in *. unfold bstep, in_step. cbn [fst snd]. rewrite Hl.
  assert (c_d b =? 0 = false) as -> by (apply Z.eqb_neq; unfold nonzero in Hz; lia). destruct sg; cbn [orb andb].
  - destruct (Nat.eqb_spec (length t) 253) as [E|E].
    + rewrite E. cbn. rewrite app_nil_r, map_app. reflexivity.
    + assert (Z.of_nat (length t) + 1 =? 254 = false) as -> by (apply Z.eqb_neq; lia). cbn. reflexivity.
  - rewrite (Z eq_refl). cbn. reflexivity.
Qed.
(* the last byte of a good frame *)
Lemma bstep_last_zero app s b : eok s -> c_l b = true -> c_u b = false -> c_d b = 0 ->
  bstep app s b = ((false, []), map plain (Z.of_nat (length (snd s)) + 1 :: snd s) ++ (if app then [plain 1; lastb 0] else [lastb 1])).
Proof.
  intros (L & F & Z) Hl Hu Hz. destruct s as [sg t]. cbn [fst snd] in *. unfold bstep, in_step. cbn [fst snd]. rewrite Hl, Hz, Hu. destruct sg; cbn.
  - rewrite !app_nil_r. destruct app; reflexivity.
  - rewrite (Z eq_refl). destruct app; reflexivity.
Qed.
Lemma bstep_last_byte app s b : eok s -> c_l b = true -> c_u b = false -> nonzero (c_d b) ->
  bstep app s b = ((false, []), map plain (Z.of_nat (length (snd s)) + 2 :: snd s) ++ (if app then [plain (c_d b); lastb 0] else [lastb (c_d b)])).
Proof.
  intros (L & F & Z) Hl Hu Hz. destruct s as [sg t]. cbn [fst snd] in *. unfold bstep, in_step. cbn [fst snd]. rewrite Hl, Hu.
  assert (c_d b =? 0 = false) as -> by (apply Z.eqb_neq; unfold nonzero in Hz; lia). destruct sg; cbn [orb andb].
  - assert ((Z.of_nat (length t) + 1 + 1) mod 256 = Z.of_nat (length t) + 2) as -> by (rewrite Z.mod_small; lia).
    unfold emit. destruct app; cbn [p_code p_data n_st n_fail segb owed fst snd olist c_d c_l c_u map andb]; rewrite ?app_nil_r; cbn [List.app]; rewrite <- ?app_assoc; reflexivity.
  - rewrite (Z eq_refl). destruct app; reflexivity.
Qed.
(* the last byte of a bad frame *)
Lemma bstep_bad app s b : eok s -> c_l b = true -> c_u b = true ->
  bstep app s b = ((false, []), map plain (Z.of_nat (length (snd s)) + 1 :: snd s) ++ (if app then [plain 2; mkCb 0 true true] else [mkCb 2 true true])).
Proof.
  intros (L & F & Z) Hl Hu. destruct s as [sg t]. cbn [fst snd] in *. unfold bstep, in_step. cbn [fst snd]. rewrite Hl, Hu.
  cbn [andb]. rewrite orb_true_r. destruct sg; cbn.
  - rewrite !app_nil_r. destruct app; reflexivity.
  - rewrite (Z eq_refl). destruct app; reflexivity.
Qed.

Lemma byte_cases b : byte b -> b = 0 \/ nonzero b.
Proof. unfold byte, nonzero. lia. Qed.

(* a good frame *)
Lemma good_frame app pre : forall s l, eok s -> Forall (fun b => c_l b = false) pre -> c_l l = true -> c_u l = false ->
  Forall byte (map c_d (pre ++ [l])) ->
  exists o, bsteps app s (pre ++ [l]) = ((false, []), o) /\ coded_good app (snd s ++ map c_d (pre ++ [l])) o.
Proof.
  induction pre as [|b pre IH]; intros s l K Fl Ll Lu Fb.
  - cbn [List.app bsteps map] in *. inversion Fb as [|? ? Bl _]; subst. destruct K as (KL & KF & KZ).
    destruct (byte_cases _ Bl) as [Z|N].
    + rewrite (bstep_last_zero app s l) by (repeat split; assumption). eexists. split; [reflexivity|]. rewrite app_nil_r.
      rewrite Z. exists (Z.of_nat (length (snd s)) + 1 :: snd s ++ [1]).
      split; [apply cobs_zero; auto; apply (@cobs_last []); [constructor|cbn; lia]|].
      destruct app.
      * cbn [map]. rewrite map_app. cbn [map List.app]. rewrite <- app_assoc. reflexivity.
      * exists (Z.of_nat (length (snd s)) + 1 :: snd s), 1. split; reflexivity.
    + rewrite (bstep_last_byte app s l) by (try (repeat split; assumption); assumption). eexists. split; [reflexivity|]. rewrite app_nil_r.
      exists (Z.of_nat (length (snd s)) + 2 :: snd s ++ [c_d l]). split.
      * replace (Z.of_nat (length (snd s)) + 2) with (Z.of_nat (length (snd s ++ [c_d l])) + 1) by (rewrite app_length; cbn [length]; lia).
        apply cobs_last; [apply Forall_app; auto|rewrite app_length; cbn [length]; lia].
      * destruct app.
        -- cbn [map]. rewrite map_app. cbn [map List.app]. rewrite <- app_assoc. reflexivity.
        -- exists (Z.of_nat (length (snd s)) + 2 :: snd s), (c_d l). split; reflexivity.
  - cbn [List.app bsteps map] in *. inversion Fb as [|? ? Bb Fb']; subst. inversion Fl as [|? ? Lb Fl']; subst.
    pose proof K as (KL & KF & KZ).
    destruct (byte_cases _ Bb) as [Z|N].
    + rewrite (bstep_zero app s b K Lb Z). destruct (IH (false, []) l) as (o & E & e & C & O); auto; [repeat split; cbn; auto; lia|].
      rewrite E. eexists. split; [reflexivity|]. exists (Z.of_nat (length (snd s)) + 1 :: snd s ++ e). cbn [snd List.app] in C. rewrite Z. split.
      * apply cobs_zero; auto.
      * destruct app.
        -- rewrite O. cbn [map List.app]. rewrite map_app, <- app_assoc. reflexivity.
        -- destruct O as (p & x & -> & ->). exists (Z.of_nat (length (snd s)) + 1 :: snd s ++ p), x. split.
           ++ rewrite !app_comm_cons, app_assoc. reflexivity.
           ++ cbn [map List.app]. rewrite map_app, <- app_assoc. reflexivity.
    + rewrite (bstep_byte app s b K Lb N). destruct (Nat.eqb_spec (length (snd s)) 253) as [E253|E253].
      * destruct (IH (true, []) l) as (o & E & e & C & O); auto; [repeat split; cbn; auto; try lia; discriminate|].
        rewrite E. eexists. split; [reflexivity|]. exists (255 :: (snd s ++ [c_d b]) ++ e). cbn [snd List.app] in C. split.
        -- change (c_d b :: map c_d (pre ++ [l])) with ([c_d b] ++ map c_d (pre ++ [l])). rewrite app_assoc. apply cobs_full; auto.
           ++ apply Forall_app; auto.
           ++ rewrite app_length. cbn [length]. lia.
           ++ rewrite map_app. destruct (map c_d pre); discriminate.
        -- destruct app.
           ++ rewrite O. cbn [map List.app]. rewrite (map_app plain (snd s ++ [c_d b]) e), <- (app_assoc _ _ [lastb 0]). reflexivity.
           ++ destruct O as (p & x & -> & ->). exists (255 :: (snd s ++ [c_d b]) ++ p), x. split.
              ** rewrite !app_comm_cons, (app_assoc _ p). reflexivity.
              ** cbn [map List.app]. rewrite (map_app plain (snd s ++ [c_d b]) p), <- (app_assoc _ _ [lastb x]). reflexivity.
      * destruct (IH (true, snd s ++ [c_d b]) l) as (o & E & C); auto.
        { repeat split; cbn [fst snd]; [rewrite app_length; cbn [length]; lia|apply Forall_app; auto|discriminate]. }
        rewrite E. exists o. split; [reflexivity|]. cbn [snd] in C. rewrite <- app_assoc in C. exact C.
Qed.

(* a bad one *)
Lemma bad_frame app pre : forall s l, eok s -> Forall (fun b => c_l b = false) pre -> c_l l = true -> c_u l = true ->
  Forall byte (map c_d pre) ->
  exists e, bsteps app s (pre ++ [l]) = ((false, []), map plain e ++ (if app then [plain 2; mkCb 0 true true] else [mkCb 2 true true])) /\
    is_cobs (snd s ++ map c_d pre ++ [0]) (e ++ [1]).
Proof.
  induction pre as [|b pre IH]; intros s l K Fl Ll Lu Fb.
  - cbn [List.app bsteps map] in *. pose proof K as (KL & KF & KZ).
    rewrite (bstep_bad app s l K Ll Lu). eexists. split; [rewrite app_nil_r; reflexivity|]. apply (@cobs_zero (snd s) [] [1]); auto.
    apply (@cobs_last []); [constructor|cbn; lia].
  - cbn [List.app bsteps map] in *. inversion Fb as [|? ? Bb Fb']; subst. inversion Fl as [|? ? Lb Fl']; subst.
    pose proof K as (KL & KF & KZ).
    destruct (byte_cases _ Bb) as [Z|N].
    + rewrite (bstep_zero app s b K Lb Z). destruct (IH (false, []) l) as (e & E & C); auto; [repeat split; cbn; auto; lia|].
      rewrite E. exists ((Z.of_nat (length (snd s)) + 1 :: snd s) ++ e). split.
      * rewrite map_app, <- app_assoc. reflexivity.
      * cbn [snd List.app] in *. rewrite Z, <- app_assoc. apply cobs_zero; auto.
    + rewrite (bstep_byte app s b K Lb N). destruct (Nat.eqb_spec (length (snd s)) 253) as [E253|E253].
      * destruct (IH (true, []) l) as (e & E & C); auto; [repeat split; cbn; auto; try lia; discriminate|].
        rewrite E. exists ((255 :: snd s ++ [c_d b]) ++ e). split.
        -- rewrite map_app, <- app_assoc. reflexivity.
        -- cbn [snd] in C. cbn [List.app]. change (c_d b :: map c_d pre ++ [0]) with ([c_d b] ++ map c_d pre ++ [0]). rewrite app_assoc, <- (app_assoc _ e). apply cobs_full; auto.
           ++ apply Forall_app; auto.
           ++ rewrite app_length. cbn [length]. lia.
           ++ destruct (map c_d pre); discriminate.
      * destruct (IH (true, snd s ++ [c_d b]) l) as (e & E & C); auto.
        { repeat split; cbn [fst snd]; [rewrite app_length; cbn [length]; lia|apply Forall_app; auto|discriminate]. }
        rewrite E. exists e. split; [reflexivity|]. cbn [snd] in C. rewrite <- app_assoc in C. exact C.
Qed.

Definition st0 : est := (false, []).
Lemma eok0 : eok st0.
Proof. repeat split; cbn; auto; lia. Qed.

Lemma enc_frame app f bs : frame_ok f -> frame_on f bs -> exists o, bsteps app st0 bs = (st0, o) /\ coded app f o.
Proof.
  intros [_ B] (pre & l & -> & D & Fl & Ll & Lu). rewrite <- D in B. unfold coded. destruct (f_bad f).
  - destruct (bad_frame app pre st0 l eok0 Fl Ll Lu) as (e & E & C).
    { rewrite map_app in B. apply Forall_app in B. apply B. }
    rewrite E. eexists. split; [reflexivity|]. exists (map c_d pre), (c_d l), e. splits; auto.
    + rewrite <- D, map_app. reflexivity.
    + destruct app; reflexivity.
  - destruct (good_frame app pre st0 l eok0 Fl Ll Lu B) as (o & E & C). rewrite E. exists o. split; [reflexivity|]. rewrite <- D. exact C.
Qed.

Lemma enc_frames app fs bss : Forall2 frame_on fs bss -> Forall frame_ok fs ->
  exists oss, bsteps app st0 (concat bss) = (st0, concat oss) /\ Forall2 (coded app) fs oss.
Proof.
  induction 1 as [|f bs fs bss H HH IH]; intros Ok.
  - exists []. split; [reflexivity|constructor].
  - inversion Ok as [|? ? Of Ok']; subst. destruct (enc_frame app f bs Of H) as (o1 & E1 & C1).
    destruct (IH Ok') as (oss & E2 & C2). exists (o1 :: oss). cbn [concat]. rewrite bsteps_app, E1, E2. split; [reflexivity|constructor; auto].
Qed.

Lemma bsteps_prefix app s a b : exists c, snd (bsteps app s (a ++ b)) = snd (bsteps app s a) ++ c.
Proof. rewrite bsteps_app. destruct (bsteps app s a) as [s1 o1]. destruct (bsteps app s1 b) as [s2 o2]. exists o2. reflexivity. Qed.

(* any byte keeps the counters in range *)
Lemma bstep_ok app s b : eok s -> byte (c_d b) -> eok (fst (bstep app s b)).
Proof.
  intros K B. pose proof K as (KL & KF & KZ). destruct (c_l b) eqn:L.
  - destruct (c_u b) eqn:U; [rewrite bstep_bad by auto; apply eok0|].
    destruct (byte_cases _ B) as [Z|N]; [rewrite bstep_last_zero by auto|rewrite bstep_last_byte by auto]; apply eok0.
  - destruct (byte_cases _ B) as [Z|N]; [rewrite bstep_zero by auto; apply eok0|]. rewrite bstep_byte by auto.
    destruct (Nat.eqb_spec (length (snd s)) 253); cbn [fst].
    + repeat split; cbn; auto; try lia; discriminate.
    + repeat split; cbn [fst snd]; [rewrite app_length; cbn [length]; lia|apply Forall_app; auto|discriminate].
Qed.

(* ----- the input side in one cycle ----- *)
Definition running_st (st : ist) : bool := match st with I_idle | I_seg => true | _ => false end.

Lemma in_half app st cnt fail cr x t :
  eok (segb st, t) -> (st = I_seg -> cnt = Z.of_nat (length t) + 1) ->
  (forall b, x = Some b -> running_st st = true /\ cr = true /\ byte (c_d b)) ->
  let a := in_step app st cnt fail cr x in
  exists (B : option block) t' o,
    bsteps app (segb st, t) (olist x) = ((segb (n_st a), t'), o) /\ eok (segb (n_st a), t') /\
    p_code a = option_map fst B /\
    map plain t ++ olist (p_data a) = concat (map snd (olist B)) ++ map plain t' /\
    owed app st fail ++ o = concat (map emit (olist B)) ++ owed app (n_st a) (n_fail a) /\
    Forall bok (olist B) /\ (n_st a = I_seg -> n_cnt a = Z.of_nat (length t') + 1) /\
    (forall w, p_data a = Some w -> c_u w = false) /\ (p_code a <> None -> cr = true) /\
    (p_data a <> None -> x <> None) /\
    (x = None -> length (owed app st fail) = (length (owed app (n_st a) (n_fail a)) + length (olist B))%nat /\ (cr = true -> owed app st fail <> [] -> B <> None)).
Proof.
  intros K C X a. destruct x as [b|].
  - destruct (X b eq_refl) as (Rn & -> & Bb). cbn [olist bsteps].
    assert (E : let a' := in_step app (if segb st then I_seg else I_idle) (Z.of_nat (length t) + 1) false true (Some b) in
      p_code a = p_code a' /\ p_data a = p_data a' /\ n_st a = n_st a' /\ n_fail a = n_fail a' /\ (n_st a = I_seg -> n_cnt a = n_cnt a')).
    { unfold a. destruct st; try discriminate Rn; cbn [segb].
      - unfold in_step. destruct ((c_d b =? 0) || (c_l b && c_u b)), (c_l b), app; cbn; splits; auto; discriminate.
      - rewrite <- C by reflexivity. unfold in_step. splits; auto. }
    cbn zeta in E. destruct E as (Ec & Ed & Es & Ef & En). clearbody a.
    pose proof (bstep_ok app (segb st, t) b K Bb) as K'.
    unfold bstep in *. cbn [fst snd] in *. set (a' := in_step app _ _ false true (Some b)) in *.
    rewrite Ec, Ed, Es, Ef in *. destruct K as (KL & KF & KZ). cbn [fst snd] in KL, KF, KZ.
    assert (Ow : owed app st fail = []) by (destruct st; try discriminate Rn; reflexivity). rewrite Ow.
    destruct (p_code a') as [k|] eqn:Ek.
    + exists (Some (k, map plain t ++ olist (p_data a'))), []. eexists. cbn [fst] in K'. splits; [rewrite app_nil_r; reflexivity|exact K'|reflexivity| | | | | | | | ].
      * cbn [olist map concat snd]. rewrite !app_nil_r. reflexivity.
      * cbn [olist map concat List.app]. rewrite app_nil_r. reflexivity.
      * cbn [olist]. constructor; [|constructor]. subst a'. unfold bok, in_step in *. cbn [fst snd].
        assert (Fp : Forall (fun d => c_u d = false) (map plain t)) by (apply Forall_forall; intros d Hd; apply in_map_iff in Hd; destruct Hd as (z & <- & _); reflexivity).
        destruct (segb st) eqn:Sg; [|rewrite (KZ eq_refl) in *].
        -- destruct ((c_d b =? 0) || (c_l b && c_u b)).
           ++ assert (Kk : k = mkCb (Z.of_nat (length t) + 1) false false /\ olist (p_data (if c_l b then mkI I_final (Z.of_nat (length t) + 1) (c_u b) (Some (mkCb (Z.of_nat (length t) + 1) false false)) None else mkI I_idle (Z.of_nat (length t) + 1) false (Some (mkCb (Z.of_nat (length t) + 1) false false)) None)) = []).
              { destruct (c_l b); cbn in Ek |- *; split; congruence. }
              destruct Kk as [-> ->]. rewrite app_nil_r, map_length. splits; [|lia|exact Fp]. unfold nodata. cbn [c_d c_u fst snd].
              destruct t as [|z t]; [reflexivity|]. cbn [map].
              assert ((Z.of_nat (length (z :: t)) + 1 =? 0) = false) as -> by (apply Z.eqb_neq; lia).
              assert ((Z.of_nat (length (z :: t)) + 1 =? 1) = false) as -> by (apply Z.eqb_neq; cbn [length]; lia).
              cbn [orb]. split; [reflexivity|discriminate].
           ++ assert (Kk : c_d k = Z.of_nat (length t) + 2 /\ c_u k = false /\ exists w, c_u w = false /\
                olist (p_data (if c_l b then if app then mkI I_append (if Z.of_nat (length t) + 1 =? 254 then 1 else (Z.of_nat (length t) + 1 + 1) mod 256) false (Some (mkCb ((Z.of_nat (length t) + 1 + 1) mod 256) false false)) (Some (mkCb (c_d b) false false)) else mkI I_idle (if Z.of_nat (length t) + 1 =? 254 then 1 else (Z.of_nat (length t) + 1 + 1) mod 256) false (Some (mkCb ((Z.of_nat (length t) + 1 + 1) mod 256) false false)) (Some (mkCb (c_d b) true false)) else mkI I_seg (if Z.of_nat (length t) + 1 =? 254 then 1 else (Z.of_nat (length t) + 1 + 1) mod 256) false (if Z.of_nat (length t) + 1 =? 254 then Some (mkCb ((Z.of_nat (length t) + 1 + 1) mod 256) false false) else None) (Some (mkCb (c_d b) false false)))) = [w]).
              { assert ((Z.of_nat (length t) + 1 + 1) mod 256 = Z.of_nat (length t) + 2) as M by (rewrite Z.mod_small; lia). rewrite M in *.
                destruct (c_l b), app; cbn in Ek |- *; try (injection Ek as <-; splits; auto; (eexists; split; [|reflexivity]; reflexivity));
                destruct (Z.of_nat (length t) + 1 =? 254); try discriminate Ek; injection Ek as <-; splits; auto; (eexists; split; [|reflexivity]; reflexivity). }
              destruct Kk as (Kd & Ku & w & Wu & ->). unfold nodata. rewrite Kd, Ku, app_length, map_length. cbn [length].
              assert ((Z.of_nat (length t) + 2 =? 0) = false) as -> by (apply Z.eqb_neq; lia).
              assert ((Z.of_nat (length t) + 2 =? 1) = false) as -> by (apply Z.eqb_neq; lia).
              cbn [orb]. splits; [lia|destruct (map plain t); discriminate|lia|apply Forall_app; auto].
        -- cbn [map List.app length] in *. destruct ((c_d b =? 0) || (c_l b && c_u b)), (c_l b), app; cbn in Ek |- *; try discriminate Ek; injection Ek as <-; cbn; splits; auto; try lia; try discriminate; repeat constructor.
      * intros Hs. rewrite (En Hs). subst a'. unfold in_step in *. clear - Hs Ek KZ KL. destruct (segb st); [|rewrite (KZ eq_refl) in *];
          destruct ((c_d b =? 0) || (c_l b && c_u b)), (c_l b), app; cbn in *; try discriminate Hs; try discriminate Ek;
          destruct (Z.of_nat (length t) + 1 =? 254); try discriminate Ek; reflexivity.
      * intros w Hw. subst a'. unfold in_step in Hw. clear - Hw. destruct (segb st); destruct ((c_d b =? 0) || (c_l b && c_u b)), (c_l b), app; cbn in Hw; try discriminate Hw; injection Hw as <-; reflexivity.
      * reflexivity.
      * discriminate.
      * discriminate.
    + exists None. eexists. exists []. cbn [fst] in K'. splits; [reflexivity|exact K'|reflexivity| | | | | | | | ].
      * cbn [olist map concat List.app]. rewrite map_app. f_equal. subst a'. unfold in_step in *. clear - Ek.
        destruct (segb st); destruct ((c_d b =? 0) || (c_l b && c_u b)), (c_l b), app; cbn in *; try discriminate Ek; reflexivity.
      * cbn [olist map concat List.app]. subst a'. unfold in_step in *. clear - Ek.
        destruct (segb st); destruct ((c_d b =? 0) || (c_l b && c_u b)), (c_l b), app; cbn in *; try discriminate Ek; reflexivity.
      * constructor.
      * intros Hs. rewrite (En Hs). subst a'. unfold in_step in *. clear - Hs Ek KZ KL. destruct (segb st); [|rewrite (KZ eq_refl) in *];
          destruct ((c_d b =? 0) || (c_l b && c_u b)), (c_l b), app; cbn in *; try discriminate Hs; try discriminate Ek; try reflexivity;
          destruct (Z.of_nat (length t) + 1 =? 254) eqn:E254; try discriminate Ek; rewrite app_length; cbn [length]; apply Z.eqb_neq in E254;
          rewrite Z.mod_small by lia; lia.
      * intros w Hw. subst a'. unfold in_step in Hw. clear - Hw. destruct (segb st); destruct ((c_d b =? 0) || (c_l b && c_u b)), (c_l b), app; cbn in Hw; try discriminate Hw; injection Hw as <-; reflexivity.
      * congruence.
      * discriminate.
      * discriminate.
  - cbn [olist bsteps]. clear X. unfold a, in_step. destruct st; cbn [segb] in *.
    + exists None, t, []. cbn. splits; auto; try discriminate; try congruence; rewrite ?app_nil_r; auto; try (intros _; split; [reflexivity|congruence]).
    + exists None, t, []. cbn. splits; auto; try discriminate; try congruence; rewrite ?app_nil_r; auto; try (intros _; split; [reflexivity|congruence]).
    + destruct cr.
      * exists (Some (mkCb (if fail then 2 else 1) (negb app) fail, [])), t, []. destruct K as (KL & KF & KZ). cbn [fst snd] in KZ. rewrite (KZ eq_refl) in *.
        destruct app, fail; cbn; splits; auto; try discriminate; try congruence; try (repeat constructor; cbn; try lia; auto; fail); try apply eok0;
          try (intros _; split; auto; discriminate).
      * exists None, t, []. cbn. splits; auto; try discriminate; try congruence; rewrite ?app_nil_r; auto; try (intros _; split; [lia|discriminate]).
    + destruct cr.
      * exists (Some (mkCb 0 true fail, [])), t, []. destruct K as (KL & KF & KZ). cbn [fst snd] in KZ. rewrite (KZ eq_refl) in *.
        destruct fail; cbn; splits; auto; try discriminate; try congruence; try (repeat constructor; cbn; try lia; auto; fail); try apply eok0;
          try (intros _; split; auto; discriminate).
      * exists None, t, []. cbn. splits; auto; try discriminate; try congruence; rewrite ?app_nil_r; auto; try (intros _; split; [lia|discriminate]).
Qed.

(* ----- the output side in one cycle ----- *)
Definition ne {A} (l : list A) : bool := match l with [] => false | _ => true end.
Definition emits (Bs : list block) : list cb := concat (map emit Bs).
Definition datas (Bs : list block) : list cb := concat (map snd Bs).

Lemma out_half cur Bs t ocnt kr ch dh :
  (cur <> [] -> ocnt = Z.of_nat (length cur)) -> (length cur <= 254)%nat -> Forall (fun d => c_u d = false) cur -> Forall bok Bs ->
  (forall k, ch = Some k -> exists r, map fst Bs = k :: r) ->
  (forall d, dh = Some d -> exists r, cur ++ datas Bs ++ t = d :: r) ->
  let o := out_step (ne cur) ocnt kr ch dh in
  exists cur' Bs',
    cur ++ emits Bs = olist (n_int o) ++ cur' ++ emits Bs' /\
    n_seg o = ne cur' /\ (cur' <> [] -> n_ocnt o = Z.of_nat (length cur')) /\ (length cur' <= 254)%nat /\
    Forall (fun d => c_u d = false) cur' /\ Forall bok Bs' /\
    map fst Bs' = (match (if t_code o then ch else None) with Some _ => tl (map fst Bs) | None => map fst Bs end) /\
    cur' ++ datas Bs' ++ t = (match (if t_data o then dh else None) with Some _ => tl (cur ++ datas Bs ++ t) | None => cur ++ datas Bs ++ t end) /\
    (n_int o <> None -> kr = true) /\
    (kr = true -> (if ne cur then dh else ch) <> None -> n_int o <> None) /\
    (n_int o = None -> cur' = cur /\ Bs' = Bs /\ t_code o = false /\ t_data o = false).
Proof.
  intros Oc Lc Fu Fb Hc Hd o. unfold o, out_step. clear o. destruct cur as [|d cur]; cbn [ne].
  - destruct ch as [k|]; [|exists [], Bs; cbn; splits; auto; congruence].
    destruct kr; [|exists [], Bs; cbn; splits; auto; congruence || discriminate].
    destruct (Hc k eq_refl) as (r & Er). destruct Bs as [|[k' ds] Bs]; [discriminate Er|]. cbn [map fst] in Er. injection Er as -> Er.
    inversion Fb as [|? ? Bk Fb']; subst. destruct Bk as (Bd & Bl & Bu). cbn [fst snd] in *. fold (nodata k).
    exists ds, Bs. cbn [n_int olist n_seg n_ocnt t_code t_data map fst tl]. splits; auto; try discriminate.
    + destruct (nodata k); [rewrite Bd; reflexivity|]. destruct Bd as [_ Bd]. destruct ds; [congruence|reflexivity].
    + intros N. destruct (nodata k); [congruence|]. destruct Bd as [-> _]. rewrite Z.mod_small; lia.
    + unfold datas. cbn [map concat snd List.app]. rewrite <- app_assoc. reflexivity.
  - destruct dh as [d'|]; [|exists (d :: cur), Bs; cbn; splits; auto; try congruence; intros; apply Oc; discriminate].
    destruct kr; [|exists (d :: cur), Bs; cbn; splits; auto; try congruence; try discriminate; intros; apply Oc; discriminate].
    destruct (Hd d' eq_refl) as (r & Er). cbn [List.app] in Er. injection Er as <- Er. inversion Fu as [|? ? Du Fu']; subst.
    exists cur, Bs. cbn [n_int olist n_seg n_ocnt t_code t_data]. specialize (Oc ltac:(discriminate)). splits; auto; try discriminate.
    + cbn [List.app]. f_equal. destruct d; cbn in Du |- *. rewrite Du. reflexivity.
    + rewrite Oc. destruct cur; [reflexivity|]. cbn [ne]. apply negb_true_iff, Z.eqb_neq. cbn [length]. lia.
    + intros N. rewrite Oc. cbn [length] in *. rewrite Z.mod_small; lia.
    + cbn [length] in Lc. lia.
Qed.

(* ----- cycles ----- *)
Record EI (app : bool) (s : enc) (st : est) (cur : list cb) (Bs : list block) : Prop := mkEI {
  ei_skid : skid_inv (e_skid s);
  ei_code : holdsc true (e_code s) (map fst Bs);
  ei_data : holdsc false (e_data s) (cur ++ datas Bs ++ map plain (snd st));
  ei_bok : Forall bok Bs;
  ei_u : Forall (fun d => c_u d = false) cur;
  ei_seg : e_seg s = ne cur;
  ei_ocnt : cur <> [] -> e_ocnt s = Z.of_nat (length cur);
  ei_len : (length cur <= 254)%nat;
  ei_st : fst st = segb (e_st s);
  ei_ok : eok st;
  ei_cnt : e_st s = I_seg -> e_cnt s = Z.of_nat (length (snd st)) + 1 }.
Definition ew (app : bool) (s : enc) (cur : list cb) (Bs : list block) : list cb :=
  skid_content (e_skid s) ++ cur ++ emits Bs ++ owed app (e_st s) (e_fail s).
Definition e_in (s : enc) (i : cin) : list cb := if e_sready s then olist (ci_s i) else [].
Definition e_out (s : enc) (i : cin) : list cb := if ci_mready i then olist (k_out (e_skid s)) else [].

Definition mu (app : bool) (s : enc) (cur : list cb) (Bs : list block) : nat :=
  (6 * length (owed app (e_st s) (e_fail s)) + 3 * (length cur + length (emits Bs)) +
   (if (length cur + length (emits Bs) =? 0)%nat then 0 else fdist (if ne cur then e_data s else e_code s)))%nat.

Lemma emits_app a b : emits (a ++ b) = emits a ++ emits b.
Proof. unfold emits. rewrite map_app, concat_app. reflexivity. Qed.
Lemma datas_app a b : datas (a ++ b) = datas a ++ datas b.
Proof. unfold datas. rewrite map_app, concat_app. reflexivity. Qed.
Lemma emits_ne Bs : emits Bs = [] -> Bs = [].
Proof. destruct Bs as [|[k d] Bs]; [reflexivity|discriminate]. Qed.

Lemma e_step_inv app s i st cur Bs : ci_rst i = false -> all_bytes (e_in s i) -> EI app s st cur Bs ->
  exists st' cur' Bs' o, EI app (fst (e_step app s i)) st' cur' Bs' /\
    bsteps app st (e_in s i) = (st', o) /\
    ew app s cur Bs ++ o = e_out s i ++ ew app (fst (e_step app s i)) cur' Bs' /\
    (e_in s i = [] -> k_rdy (e_skid s) = true -> mu app s cur Bs <> 0%nat -> (mu app (fst (e_step app s i)) cur' Bs' < mu app s cur Bs)%nat) /\
    (e_in s i = [] -> mu app s cur Bs = 0%nat -> mu app (fst (e_step app s i)) cur' Bs' = 0%nat /\ (k_rdy (e_skid s) = true -> ci_mready i = true -> skid_content (e_skid (fst (e_step app s i))) = [])).
Proof.
  intros R By [H1 H2 H3 H4 H5 H6 H7 H8 H9 H10 H11]. destruct st as [sg t]. cbn [fst snd] in *. subst sg.
  set (x := if e_sready s then ci_s i else None).
  assert (Ein : e_in s i = olist x) by (unfold e_in, x; destruct (e_sready s); reflexivity).
  assert (Xok : forall b, x = Some b -> running_st (e_st s) = true /\ crdy s = true /\ byte (c_d b)).
  { intros b E. assert (byte (c_d b)) as Bb by (rewrite Ein, E in By; inversion By; assumption). unfold x, e_sready in E. destruct (crdy s), (drdy s), (e_st s); cbn in E; try discriminate E; splits; auto. }
  assert (Xd : x <> None -> drdy s = true) by (unfold x, e_sready; destruct (crdy s), (drdy s), (e_st s); cbn; congruence).
  pose proof (in_half app (e_st s) (e_cnt s) (e_fail s) (crdy s) x t H10 H11 Xok) as IH. cbn zeta in IH.
  set (a := in_step app (e_st s) (e_cnt s) (e_fail s) (crdy s) x) in *.
  destruct IH as (B & t' & o & I1 & I2 & I3 & I4 & I5 & I6 & I7 & I8 & I9 & I9' & I10).
  pose proof (out_half cur Bs (map plain t) (e_ocnt s) (k_rdy (e_skid s)) (code_out s) (data_out s) H7 H8 H5 H4) as OH.
  cbn zeta in OH. rewrite <- H6 in OH. set (oo := out_step (e_seg s) (e_ocnt s) (k_rdy (e_skid s)) (code_out s) (data_out s)) in *.
  destruct OH as (cur' & Bs' & O1 & O2 & O3 & O4 & O5 & O6 & O7 & O8 & O9 & O10 & O11).
  { intros k Hk. apply (chead_holds true (e_code s) _ k H2 Hk). }
  { intros d Hd. apply (chead_holds false (e_data s) _ d H3 Hd). }
  assert (Es : fst (e_step app s i) = mkEnc (n_st a) (n_cnt a) (n_fail a) (fst (f_step code_cfg (e_code s) (cin_of (p_code a) (t_code oo))))
    (fst (f_step data_cfg (e_data s) (cin_of (p_data a) (t_data oo)))) (n_seg oo) (n_ocnt oo) (skid_step (e_skid s) (n_int oo) (ci_mready i))).
  { unfold e_step. fold x. fold a. fold oo. rewrite R. reflexivity. }
  pose proof (holdsc_step true (e_code s) _ (p_code a) (t_code oo) H2 I9 ltac:(discriminate)) as HC.
  pose proof (holdsc_step false (e_data s) _ (p_data a) (t_data oo) H3) as HD.
  specialize (HD (fun N => Xd (I9' N)) (fun _ => I8)).
  fold (code_out s) in HC. fold (data_out s) in HD.
  change (chead true (e_code s)) with (code_out s) in HC. change (chead false (e_data s)) with (data_out s) in HD.
  rewrite <- O7 in HC. rewrite <- O8 in HD.
  exists (segb (n_st a), t'), cur', (Bs' ++ olist B), o.
  assert (NEW : EI app (fst (e_step app s i)) (segb (n_st a), t') cur' (Bs' ++ olist B)).
  { rewrite Es. constructor; cbn [e_skid e_code e_data e_seg e_ocnt e_st e_cnt fst snd]; auto.
    - apply skid_step_inv. exact H1.
    - rewrite map_app. assert (olist (p_code a) = map fst (olist B)) as Ep by (rewrite I3; destruct B; reflexivity). rewrite Ep in HC. exact HC.
    - rewrite datas_app, <- !app_assoc. rewrite <- app_assoc in HD. rewrite <- app_assoc in HD. unfold datas at 2. rewrite <- I4. exact HD.
    - apply Forall_app; auto. }
  splits.
  - exact NEW.
  - rewrite Ein. exact I1.
  - rewrite Es. unfold ew, e_out. cbn [e_skid e_st e_fail].
    pose proof (@skid_step_content cb (e_skid s) (n_int oo) (ci_mready i) H1) as SC.
    assert (Ei : olist (if k_rdy (e_skid s) then n_int oo else None) = olist (n_int oo)).
    { destruct (n_int oo) eqn:E; [rewrite O9 by discriminate; reflexivity|destruct (k_rdy (e_skid s)); reflexivity]. }
    rewrite Ei in SC.
    assert (D : (if ci_mready i then olist (k_out (e_skid s)) else []) = olist (if ci_mready i then k_out (e_skid s) else None)) by (destruct (ci_mready i); reflexivity).
    rewrite D, emits_app. clear D. rewrite !app_assoc. rewrite <- SC. rewrite <- !app_assoc.
    rewrite (app_assoc cur). rewrite O1. rewrite <- !app_assoc. rewrite I5. reflexivity.
  - intros E0 Kr M. rewrite E0 in Ein. assert (x = None) as Xn by (destruct x; [discriminate Ein|reflexivity]).
    specialize (I10 Xn). destruct I10 as (J1 & J2). rewrite Xn in I1. cbn [olist bsteps] in I1. injection I1 as _ _ Eo. subst o. rewrite app_nil_r in I5.
    assert (LB : length (emits (olist B)) = length (olist B)).
    { apply (f_equal (@length cb)) in I5. rewrite app_length in I5. fold (emits (olist B)) in I5. clear - I5 J1. lia. }
    assert (LR : (length cur + length (emits Bs) = length (olist (n_int oo)) + (length cur' + length (emits Bs')))%nat).
    { apply (f_equal (@length cb)) in O1. rewrite !app_length in O1. clear - O1. lia. }
    rewrite Es. unfold mu. cbn [e_st e_fail e_data e_code]. rewrite emits_app, app_length, LB.
    assert (D2 : forall q, (fdist q <= 2)%nat) by (intros; apply fdist2).
    destruct B as [B|].
    + cbn [olist length] in *. rewrite J1.
      pose proof (D2 (if ne cur' then fst (f_step data_cfg (e_data s) (cin_of (p_data a) (t_data oo))) else fst (f_step code_cfg (e_code s) (cin_of (p_code a) (t_code oo))))) as D3.
      destruct (Nat.eqb_spec (length cur' + (length (emits Bs') + 1)) 0) as [Z|Z]; [clear - Z; lia|].
      revert D3. generalize (fdist (if ne cur' then fst (f_step data_cfg (e_data s) (cin_of (p_data a) (t_data oo))) else fst (f_step code_cfg (e_code s) (cin_of (p_code a) (t_code oo))))).
      intros d D3. clear - D3 LR. destruct (length cur + length (emits Bs) =? 0)%nat; lia.
    + cbn [olist length] in *. rewrite J1, !Nat.add_0_r.
      assert (Rem : (length cur + length (emits Bs) <> 0)%nat).
      { intros Z. assert (cur = []) as -> by (destruct cur; [reflexivity|clear - Z; cbn in Z; lia]).
        assert (Bs = []) as -> by (apply emits_ne; destruct (emits Bs); [reflexivity|clear - Z; cbn in Z; lia]).
        unfold mu in M. cbn [length emits map concat Nat.add Nat.eqb] in M. rewrite !Nat.mul_0_r, !Nat.add_0_r in M.
        assert (owed app (e_st s) (e_fail s) <> []) as Ow by (intros E; rewrite E in M; clear - M; cbn in M; lia).
        assert (crdy s = true) as Cr by (apply (holdsc_ready true (e_code s) [] H2); cbn; lia).
        apply (J2 Cr Ow). reflexivity. }
      destruct (Nat.eqb_spec (length cur + length (emits Bs)) 0) as [Z|_]; [congruence|].
      destruct (n_int oo) as [y|] eqn:Ey.
      * cbn [olist length] in LR.
        pose proof (D2 (if ne cur' then fst (f_step data_cfg (e_data s) (cin_of (p_data a) (t_data oo))) else fst (f_step code_cfg (e_code s) (cin_of (p_code a) (t_code oo))))) as D3.
        revert D3. generalize (fdist (if ne cur' then fst (f_step data_cfg (e_data s) (cin_of (p_data a) (t_data oo))) else fst (f_step code_cfg (e_code s) (cin_of (p_code a) (t_code oo))))).
        intros d D3. clear - D3 LR. destruct (length cur' + length (emits Bs') =? 0)%nat; lia.
      * destruct (O11 eq_refl) as (-> & -> & Tc & Td). clear O11.
        assert (Hn : (if ne cur then data_out s else code_out s) = None).
        { destruct (if ne cur then data_out s else code_out s) eqn:E; [|reflexivity]. rewrite H6 in O10.
          exfalso. apply (O10 Kr); [rewrite E; discriminate|reflexivity]. }
        destruct (Nat.eqb_spec (length cur + length (emits Bs)) 0) as [Z|_]; [congruence|].
        apply Nat.add_lt_mono_l. destruct (ne cur) eqn:N.
        -- apply (fdist_step false (e_data s) _ _ _ H3); [destruct cur; discriminate|].
           intros Z. apply (fdist0 false) in Z. apply Z. exact Hn.
        -- apply (fdist_step true (e_code s) _ _ _ H2).
           ++ destruct cur; [|discriminate N]. destruct Bs; [clear - Rem; cbn in Rem; lia|discriminate].
           ++ intros Z. apply (fdist0 true) in Z. apply Z. exact Hn.
  - intros E0 M. rewrite E0 in Ein. assert (x = None) as Xn by (destruct x; [discriminate Ein|reflexivity]).
    specialize (I10 Xn). destruct I10 as (J1 & J2). unfold mu in M.
    assert (owed app (e_st s) (e_fail s) = []) as Ow by (destruct (owed app (e_st s) (e_fail s)); [reflexivity|clear - M; cbn [length] in M; lia]).
    assert (length cur + length (emits Bs) = 0)%nat as Z by (clear - M; lia).
    assert (cur = []) as Ec by (destruct cur; [reflexivity|clear - Z; cbn in Z; lia]).
    assert (emits Bs = []) as Eb by (destruct (emits Bs); [reflexivity|clear - Z; cbn in Z; lia]).
    rewrite Ow in J1. cbn [length] in J1. rewrite Ec, Eb in O1. cbn [List.app] in O1. symmetry in O1. apply app_eq_nil in O1. destruct O1 as [On O1].
    apply app_eq_nil in O1. destruct O1 as [Oc Ob]. assert (B = None) as -> by (destruct B; [cbn in J1; lia|reflexivity]).
    assert (owed app (n_st a) (n_fail a) = []) as Ow' by (destruct (owed app (n_st a) (n_fail a)); [reflexivity|clear - J1; cbn [length] in J1; lia]).
    rewrite Es. unfold mu. cbn [e_st e_fail e_skid olist]. rewrite app_nil_r, Ow', Oc, Ob. split; [reflexivity|].
    intros Kr Mr. assert (n_int oo = None) as -> by (destruct (n_int oo); [discriminate On|reflexivity]).
    unfold skid_step, skid_content. rewrite Kr, Mr. cbn. rewrite (proj1 H1 Kr). reflexivity.
Qed.

Definition e_fin (app : bool) (s : enc) (is : list cin) : enc := fst (trace (e_step app) s is).

Lemma went_cons_e app s i is :
  went_in (i :: is) (e_outs app s (i :: is)) = e_in s i ++ went_in is (e_outs app (fst (e_step app s i)) is) /\
  went_out (i :: is) (e_outs app s (i :: is)) = e_out s i ++ went_out is (e_outs app (fst (e_step app s i)) is) /\
  e_fin app s (i :: is) = e_fin app (fst (e_step app s i)) is.
Proof.
  unfold went_in, went_out, e_outs, e_fin, e_in, e_out. cbn [trace].
  assert (snd (e_step app s i) = mkCout (e_sready s) (k_out (e_skid s))) as E by reflexivity.
  destruct (e_step app s i) as [s1 o]. cbn [fst snd] in *. subst o. destruct (trace (e_step app) s1 is) as [s2 os]. cbn [fst snd combine map].
  rewrite !somes_cons. cbn [co_sready co_m fst snd].
  splits; [destruct (e_sready s); reflexivity|destruct (ci_mready i); reflexivity|reflexivity].
Qed.

Lemma e_run app is : forall s st cur Bs, no_reset is -> all_bytes (went_in is (e_outs app s is)) -> EI app s st cur Bs ->
  exists st' cur' Bs' o, EI app (e_fin app s is) st' cur' Bs' /\ bsteps app st (went_in is (e_outs app s is)) = (st', o) /\
    ew app s cur Bs ++ o = went_out is (e_outs app s is) ++ ew app (e_fin app s is) cur' Bs'.
Proof.
  induction is as [|i is IH]; intros s st cur Bs N Ab I.
  - exists st, cur, Bs, []. cbn. rewrite app_nil_r. auto.
  - inversion N as [|? ? R N']; subst. destruct (went_cons_e app s i is) as (E1 & E2 & E3). rewrite E1, E2, E3 in *.
    apply Forall_app in Ab. destruct Ab as [Ab1 Ab2].
    destruct (e_step_inv app s i st cur Bs R Ab1 I) as (st1 & cur1 & Bs1 & o1 & I1 & B1 & W1 & _ & _).
    destruct (IH _ _ _ _ N' Ab2 I1) as (st2 & cur2 & Bs2 & o2 & I2 & B2 & W2).
    exists st2, cur2, Bs2, (o1 ++ o2). splits; auto.
    + rewrite bsteps_app, B1, B2. reflexivity.
    + rewrite app_assoc, W1, <- !app_assoc. f_equal. exact W2.
Qed.

(* ----- where a run starts ----- *)
Definition fok (s : enc) : Prop := (exists L, holdsc true (e_code s) L) /\ (exists L, holdsc false (e_data s) L).
Lemma fok_step app s i : fok s -> fok (fst (e_step app s i)).
Proof.
  intros [(L1 & H1) (L2 & H2)]. unfold e_step. cbn [fst e_code e_data].
  set (x := if e_sready s then ci_s i else None). set (a := in_step _ _ _ _ _ x). set (o := out_step _ _ _ _ _).
  assert (X : x <> None -> crdy s = true /\ drdy s = true).
  { unfold x, e_sready. destruct (crdy s), (drdy s), (e_st s); cbn; auto; congruence. }
  assert (A1 : p_code a <> None -> crdy s = true).
  { subst a. clearbody x. unfold in_step. destruct x as [b|].
    - intros _. apply X. discriminate.
    - clear. destruct (e_st s), (crdy s), app; cbn; congruence. }
  assert (A2 : p_data a <> None -> drdy s = true).
  { subst a. clearbody x. unfold in_step. destruct x as [b|].
    - intros _. apply X. discriminate.
    - clear. destruct (e_st s), (crdy s), app; cbn; congruence. }
  assert (A3 : forall w, p_data a = Some w -> c_u w = false).
  { intros w Hw. subst a. clearbody x. unfold in_step in Hw. clear - Hw. destruct x as [b|].
    - destruct (e_st s); [| |destruct (crdy s), app; discriminate Hw|destruct (crdy s); discriminate Hw];
        destruct ((c_d b =? 0) || (c_l b && c_u b)), (c_l b), app; cbn in Hw; try discriminate Hw; injection Hw as <-; reflexivity.
    - destruct (e_st s), (crdy s), app; discriminate Hw. }
  destruct (ci_rst i) eqn:R.
  - split; exists []; apply holdsc_reset; eauto.
  - split.
    + eexists. apply (holdsc_step true (e_code s) L1 (p_code a) (t_code o) H1 A1). discriminate.
    + eexists. apply (holdsc_step false (e_data s) L2 (p_data a) (t_data o) H2 A2). intros _. exact A3.
Qed.
Lemma fok_run app is : forall s, fok s -> fok (e_fin app s is).
Proof.
  induction is as [|i is IH]; intros s H; [exact H|]. destruct (went_cons_e app s i is) as (_ & _ & ->). apply IH, fok_step, H.
Qed.

Lemma e_fin_app app s a b : e_fin app s (a ++ b) = e_fin app (e_fin app s a) b.
Proof. unfold e_fin. rewrite trace_app. destruct (trace (e_step app) s a) as [s1 o1]. cbn [fst]. destruct (trace (e_step app) s1 b). reflexivity. Qed.

Lemma e_started_state app s : e_started app s -> EI app s st0 [] [] /\ ew app s [] [] = [].
Proof.
  intros [m1 m2 m3 m4|m1 m2 m3 m4 pre i R].
  - unfold e_init. split; [|reflexivity]. constructor; cbn [e_skid e_code e_data e_seg e_ocnt e_st e_cnt st0 fst snd map List.app datas concat ne segb]; auto;
      try apply holdsc_init; try apply skid0_inv; try apply eok0; try (cbn; lia); try discriminate; congruence.
  - change (EI app (e_fin app (e_init m1 m2 m3 m4) (pre ++ [i])) st0 [] [] /\ ew app (e_fin app (e_init m1 m2 m3 m4) (pre ++ [i])) [] [] = []).
    rewrite e_fin_app. assert (fok (e_fin app (e_init m1 m2 m3 m4) pre)) as F.
    { apply fok_run. split; exists []; apply holdsc_init. }
    destruct (went_cons_e app (e_fin app (e_init m1 m2 m3 m4) pre) i []) as (_ & _ & ->). cbn [e_fin trace fst].
    set (s1 := e_fin app (e_init m1 m2 m3 m4) pre) in *. clearbody s1. destruct F as [F1 F2]. unfold e_step. rewrite R. cbn [fst]. split; [|reflexivity].
    constructor; cbn [e_skid e_code e_data e_seg e_ocnt e_st e_cnt st0 fst snd map List.app datas concat ne segb]; auto;
      try (apply holdsc_reset; assumption); try apply skid0_inv; try apply eok0; try (cbn; lia); try discriminate; congruence.
Qed.

(* ----- the claims ----- *)
Lemma frames_bytes fs bss : Forall2 frame_on fs bss -> Forall frame_ok fs -> all_bytes (concat bss).
Proof.
  induction 1 as [|f bs fs bss H HH IH]; intros Ok; [constructor|]. inversion Ok as [|? ? [_ Of] Ok']; subst. cbn [concat]. apply Forall_app. split; [|exact (IH Ok')].
  destruct H as (pre & l & _ & D & _). rewrite <- D in Of. exact (proj1 (Forall_map c_d byte bs) Of).
Qed.
Lemma bytes_prefix a b : prefix a b -> all_bytes b -> all_bytes a.
Proof. intros (c & ->) H. apply Forall_app in H. apply H. Qed.

Lemma enc_safe app s is fs bss : e_started app s -> no_reset is -> Forall frame_ok fs -> Forall2 frame_on fs bss ->
  prefix (went_in is (e_outs app s is)) (concat bss) ->
  exists oss, Forall2 (coded app) fs oss /\ prefix (went_out is (e_outs app s is)) (concat oss).
Proof.
  intros St N Ok H P. destruct (e_started_state app s St) as (I & W).
  pose proof (bytes_prefix _ _ P (frames_bytes fs bss H Ok)) as Ab. destruct P as (rest & E).
  destruct (enc_frames app fs bss H Ok) as (oss & Er & C). rewrite E in Er.
  exists oss. split; auto. destruct (e_run app is s st0 [] [] N Ab I) as (st' & cur' & Bs' & o & _ & Eo & Co). rewrite W in Co. cbn [List.app] in Co.
  destruct (bsteps_prefix app st0 (went_in is (e_outs app s is)) rest) as (c & Ec). rewrite Er, Eo in Ec. cbn [snd] in Ec.
  eexists. rewrite Ec, Co, <- app_assoc. reflexivity.
Qed.

Lemma rem_bound app s st cur Bs : EI app s st cur Bs -> (mu app s cur Bs <= 1562)%nat.
Proof.
  intros I. pose proof (holdsc_bound _ _ _ (ei_code _ _ _ _ _ I)) as H1. pose proof (holdsc_bound _ _ _ (ei_data _ _ _ _ _ I)) as H2.
  rewrite map_length in H1. rewrite !app_length in H2.
  assert (length (emits Bs) = length Bs + length (datas Bs))%nat as E.
  { clear. induction Bs as [|[k d] Bs IH]; [reflexivity|]. unfold emits, datas in *. cbn [map concat length fst snd]. rewrite !app_length.
    unfold emit at 1. cbn [length snd]. lia. }
  unfold mu. assert (length (owed app (e_st s) (e_fail s)) <= 2)%nat as O by (destruct (e_st s), app; cbn; lia).
  pose proof (fdist2 (if ne cur then e_data s else e_code s)) as D. clear I. unfold block in *. destruct (_ =? 0)%nat; lia.
Qed.

Definition nothing_in (app : bool) (s : enc) (is : list cin) : Prop := went_in is (e_outs app s is) = [].

Lemma e_krdy app s i : ci_rst i = false -> ci_mready i = true -> k_rdy (e_skid (fst (e_step app s i))) = true.
Proof.
  intros R M. unfold e_step. rewrite R, M. cbn [fst e_skid]. unfold skid_step. cbn. destruct (k_rdy (e_skid s)); reflexivity.
Qed.

Lemma e_drain_mu app is : forall n s st cur Bs, no_reset is -> sink_ready is -> nothing_in app s is -> EI app s st cur Bs ->
  k_rdy (e_skid s) = true -> (mu app s cur Bs <= n)%nat -> (n < length is)%nat ->
  exists cur' Bs', EI app (e_fin app s is) st cur' Bs' /\ mu app (e_fin app s is) cur' Bs' = 0%nat /\ skid_content (e_skid (e_fin app s is)) = [] /\
    k_rdy (e_skid (e_fin app s is)) = true.
Proof.
  assert (Z : forall is s st cur Bs, no_reset is -> sink_ready is -> nothing_in app s is -> EI app s st cur Bs ->
    k_rdy (e_skid s) = true -> mu app s cur Bs = 0%nat -> skid_content (e_skid s) = [] ->
    exists cur' Bs', EI app (e_fin app s is) st cur' Bs' /\ mu app (e_fin app s is) cur' Bs' = 0%nat /\ skid_content (e_skid (e_fin app s is)) = [] /\
    k_rdy (e_skid (e_fin app s is)) = true).
  { clear is. induction is as [|i is IH]; intros s st cur Bs N Sr Q I K M C.
    - exists cur, Bs. auto.
    - inversion N as [|? ? R N']; inversion Sr as [|? ? Mr Sr']; subst. unfold nothing_in in Q.
      destruct (went_cons_e app s i is) as (E1 & _ & ->). rewrite E1 in Q. apply app_eq_nil in Q. destruct Q as [Q1 Q2].
      destruct (e_step_inv app s i st cur Bs R ltac:(rewrite Q1; constructor) I) as (st1 & cur1 & Bs1 & o1 & I1 & B1 & W1 & _ & M1).
      rewrite Q1 in B1. cbn [bsteps] in B1. injection B1 as <- _. destruct (M1 Q1 M) as (M2 & M3).
      apply (IH _ _ _ _ N' Sr' Q2 I1 (e_krdy app s i R Mr) M2 (M3 K Mr)). }
  induction is as [|i is IH]; intros n s st cur Bs N Sr Q I K M L; [cbn in L; lia|].
  inversion N as [|? ? R N']; inversion Sr as [|? ? Mr Sr']; subst. unfold nothing_in in Q.
  destruct (went_cons_e app s i is) as (E1 & _ & ->). rewrite E1 in Q. apply app_eq_nil in Q. destruct Q as [Q1 Q2].
  destruct (e_step_inv app s i st cur Bs R ltac:(rewrite Q1; constructor) I) as (st1 & cur1 & Bs1 & o1 & I1 & B1 & W1 & M0 & M1).
  rewrite Q1 in B1. cbn [bsteps] in B1. injection B1 as <- _.
  destruct (Nat.eq_dec (mu app s cur Bs) 0) as [Mz|Mz].
  - destruct (M1 Q1 Mz) as (M2 & M3). apply (Z _ _ _ _ _ N' Sr' Q2 I1 (e_krdy app s i R Mr) M2 (M3 K Mr)).
  - specialize (M0 Q1 K Mz). cbn [length] in L. clear - IH N' Sr' Q2 I1 R Mr M0 M L.
    apply (IH (n - 1)%nat _ _ _ _ N' Sr' Q2 I1 (e_krdy app s i R Mr)); lia.
Qed.

Lemma e_drain app is s st cur Bs : no_reset is -> sink_ready is -> nothing_in app s is -> EI app s st cur Bs -> (1564 <= length is)%nat ->
  exists cur' Bs', EI app (e_fin app s is) st cur' Bs' /\ mu app (e_fin app s is) cur' Bs' = 0%nat /\ skid_content (e_skid (e_fin app s is)) = [].
Proof.
  intros N Sr Q I L. destruct is as [|i is]; [cbn in L; lia|].
  inversion N as [|? ? R N']; inversion Sr as [|? ? Mr Sr']; subst. unfold nothing_in in Q.
  destruct (went_cons_e app s i is) as (E1 & _ & ->). rewrite E1 in Q. apply app_eq_nil in Q. destruct Q as [Q1 Q2].
  destruct (e_step_inv app s i st cur Bs R ltac:(rewrite Q1; constructor) I) as (st1 & cur1 & Bs1 & o1 & I1 & B1 & W1 & M0 & M1).
  rewrite Q1 in B1. cbn [bsteps] in B1. injection B1 as <- _.
  destruct (e_drain_mu app is 1562 _ _ _ _ N' Sr' Q2 I1 (e_krdy app s i R Mr) (rem_bound _ _ _ _ _ I1)) as (c & b & A1 & A2 & A3 & _).
  { cbn [length] in L. lia. }
  exists c, b. auto.
Qed.

Lemma mu_zero app s st cur Bs : EI app s st cur Bs -> mu app s cur Bs = 0%nat -> cur = [] /\ Bs = [] /\ owed app (e_st s) (e_fail s) = [].
Proof.
  intros _ M. unfold mu in M. assert (length cur + length (emits Bs) = 0)%nat as Z by lia. splits.
  - destruct cur; [reflexivity|cbn in Z; lia].
  - apply emits_ne. destruct (emits Bs); [reflexivity|cbn in Z; lia].
  - destruct (owed app (e_st s) (e_fail s)); [reflexivity|cbn [length] in M; lia].
Qed.
Lemma drained_ready app s st cur Bs : EI app s st cur Bs -> mu app s cur Bs = 0%nat -> e_sready s = true.
Proof.
  intros I M. destruct (mu_zero _ _ _ _ _ I M) as (-> & -> & O). destruct I as [H1 H2 H3 H4 H5 H6 H7 H8 H9 H10 H11].
  unfold e_sready. assert (crdy s = true) as -> by (apply (holdsc_ready true _ _ H2); cbn; lia).
  assert (drdy s = true) as ->.
  { apply (holdsc_ready false _ _ H3). cbn [List.app datas map concat]. rewrite map_length. destruct H10 as (L & _). lia. }
  destruct (e_st s), app; cbn in O; try discriminate O; reflexivity.
Qed.

Lemma quiet_in_e app is : forall s, source_quiet is -> went_in is (e_outs app s is) = [].
Proof.
  induction is as [|i is IH]; intros s Q; [reflexivity|]. inversion Q as [|? ? Qi Q']; subst.
  destruct (went_cons_e app s i is) as (-> & _ & _). rewrite IH by auto. unfold e_in. rewrite Qi. destruct (e_sready s); reflexivity.
Qed.

Lemma e_outs_len app is : forall s, length (e_outs app s is) = length is.
Proof. intros s. unfold e_outs. apply trace_length. Qed.
Lemma combine_app_e {A B} (a : list A) (b : list B) : forall c d, length a = length b -> combine (a ++ c) (b ++ d) = combine a b ++ combine c d.
Proof. revert b. induction a as [|x a IH]; intros [|y b] c d L; try discriminate L; cbn; [reflexivity|]. rewrite IH by (cbn in L; lia). reflexivity. Qed.
Lemma went_app_e app s a b :
  went_in (a ++ b) (e_outs app s (a ++ b)) = went_in a (e_outs app s a) ++ went_in b (e_outs app (e_fin app s a) b) /\
  went_out (a ++ b) (e_outs app s (a ++ b)) = went_out a (e_outs app s a) ++ went_out b (e_outs app (e_fin app s a) b).
Proof.
  assert (E : e_outs app s (a ++ b) = e_outs app s a ++ e_outs app (e_fin app s a) b).
  { unfold e_outs, e_fin. rewrite trace_app. destruct (trace (e_step app) s a) as [s1 o1]. cbn [fst snd]. destruct (trace (e_step app) s1 b). reflexivity. }
  rewrite E. unfold went_in, went_out. rewrite combine_app_e by (symmetry; apply e_outs_len). rewrite !map_app, !somes_app. auto.
Qed.

Lemma enc_complete app s is tl fs bss : e_started app s -> no_reset (is ++ tl) -> Forall frame_ok fs -> Forall2 frame_on fs bss ->
  went_in is (e_outs app s is) = concat bss -> source_quiet tl -> sink_ready tl -> (1564 <= length tl)%nat ->
  exists oss, Forall2 (coded app) fs oss /\ went_out (is ++ tl) (e_outs app s (is ++ tl)) = concat oss.
Proof.
  intros St N Ok H E Q Sr L. destruct (e_started_state app s St) as (I & W).
  destruct (enc_frames app fs bss H Ok) as (oss & Er & C). exists oss. split; auto.
  assert (Ein : went_in (is ++ tl) (e_outs app s (is ++ tl)) = concat bss).
  { rewrite (proj1 (went_app_e app s is tl)), (quiet_in_e app tl _ Q), app_nil_r. exact E. }
  pose proof (frames_bytes fs bss H Ok) as Ab. rewrite <- E in Ab.
  apply Forall_app in N. destruct N as [N1 N2].
  destruct (e_run app is s st0 [] [] N1 Ab I) as (st1 & cur1 & Bs1 & o1 & I1 & E1 & C1).
  rewrite W in C1. cbn [List.app] in C1. rewrite E, Er in E1. injection E1 as <- <-.
  assert (Q' : nothing_in app (e_fin app s is) tl) by (apply quiet_in_e; exact Q).
  destruct (e_drain app tl _ _ _ _ N2 Sr Q' I1 L) as (cur2 & Bs2 & I2 & M2 & K2).
  destruct (e_run app tl _ _ _ _ N2 ltac:(rewrite Q'; constructor) I1) as (st3 & cur3 & Bs3 & o3 & I3 & E3 & C3).
  rewrite Q' in E3. cbn [bsteps] in E3. injection E3 as <- <-. rewrite app_nil_r in C3.
  assert (Z3 : ew app (e_fin app (e_fin app s is) tl) cur3 Bs3 = []).
  { destruct (mu_zero _ _ _ _ _ I2 M2) as (-> & -> & O). unfold ew. rewrite K2, O, app_nil_r. cbn [List.app].
    pose proof (holdsc_nil true _ _ (ei_code _ _ _ _ _ I2) (ei_code _ _ _ _ _ I3)) as X.
    assert (Bs3 = []) as -> by (apply (f_equal (@length cb)) in X; cbn in X; destruct Bs3; [reflexivity|discriminate X]).
    pose proof (ei_seg _ _ _ _ _ I2) as S2. pose proof (ei_seg _ _ _ _ _ I3) as S3. rewrite S2 in S3. destruct cur3; [reflexivity|discriminate S3]. }
  rewrite Z3, app_nil_r in C3. rewrite (proj2 (went_app_e app s is tl)), <- C3. symmetry. exact C1.
Qed.

Lemma enc_live app s is tl : e_started app s -> no_reset (is ++ tl) -> all_bytes (went_in is (e_outs app s is)) ->
  sink_ready tl -> source_busy tl -> (1565 <= length tl)%nat -> went_in tl (e_outs app (e_fin app s is) tl) <> [].
Proof.
  intros St N Ab Sr B L Q. destruct (e_started_state app s St) as (I & _). apply Forall_app in N. destruct N as [N1 N2].
  destruct (e_run app is s st0 [] [] N1 Ab I) as (st1 & cur1 & Bs1 & o1 & I1 & _ & _). set (s1 := e_fin app s is) in *. clearbody s1.
  destruct (@exists_last _ tl) as (t' & i & ->); [destruct tl; [cbn in L; lia|discriminate]|].
  rewrite (proj1 (went_app_e app s1 t' [i])) in Q. apply app_eq_nil in Q. destruct Q as [Q1 Q2].
  apply Forall_app in N2, Sr, B. destruct N2 as [N2 _], Sr as [Sr _], B as [_ B].
  rewrite app_length in L. cbn [length] in L.
  destruct (e_drain app t' _ _ _ _ N2 Sr Q1 I1) as (cur2 & Bs2 & I2 & M2 & K2); [lia|].
  destruct (went_cons_e app (e_fin app s1 t') i []) as (E & _ & _). rewrite E in Q2. apply app_eq_nil in Q2. destruct Q2 as [Q2 _].
  unfold e_in in Q2. rewrite (drained_ready _ _ _ _ _ I2 M2) in Q2. inversion B as [|? ? Bi _]; subst. destruct (ci_s i); [discriminate Q2|congruence].
Qed.
