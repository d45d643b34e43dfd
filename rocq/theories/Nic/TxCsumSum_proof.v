(** The sums of the transmit checksum unit. *)
From Verif Require Import Base.Prelude Base.Bits Rtl.Handshake_spec Stream.Axis_model Net.Codec_model Net.Codec_spec
  Nic.RxCsum_model Nic.RxCsum_spec Nic.RxCsum_proof Nic.TxCsum_model Nic.TxCsum_spec.
Local Open Scope Z_scope.
#[local] Unset Implicit Arguments.

(* ----- tokens: what a beat is in the adder tree ----- *)
Record tok := mkTk { k_sum : Z; k_last : bool; k_iv : bool; k_odd : bool; k_en : bool; k_off : Z; k_init : Z }.

Definition tword (odd en : bool) (off t : Z) : Z :=
  let n := 65535 - t in word (if odd then n mod 256 * 256 + n / 256 else n) off en.
Definition tsum (c : tccfg) (acc : Z) (k : tok) : Z :=
  rc_fold (tc_rc c) (k_sum k) (if k_iv k && tc_init c then k_init k else acc) mod 2 ^ 16.
Fixpoint trun (c : tccfg) (acc : Z) (l : list tok) : Z * list Z :=
  match l with
  | [] => (acc, [])
  | k :: l =>
      let t := tsum c acc k in
      let r := trun c (if k_last k then 0 else t) l in
      (fst r, (if k_last k then [tword (k_odd k) (k_en k) (k_off k) t] else []) ++ snd r)
  end.

Lemma trun_app c l1 : forall acc l2,
  trun c acc (l1 ++ l2) = (fst (trun c (fst (trun c acc l1)) l2), snd (trun c acc l1) ++ snd (trun c (fst (trun c acc l1)) l2)).
Proof.
  induction l1 as [|k l1 IH]; intros acc l2; cbn [trun app fst snd].
  - destruct (trun c acc l2); reflexivity.
  - rewrite IH. cbn [fst snd]. rewrite app_assoc. reflexivity.
Qed.

Definition scfg (c : tccfg) (m : tcmd) : rccfg := mkRc (tc_l c) (Z.to_nat (cm_start m)).
Definition btok (c : tccfg) (m : tcmd) (n : nat) (b : beat) : tok :=
  mkTk (wt (Z.to_nat (cm_start m)) (n * tc_k c) (frame_bytes (tc_k c) [to_cb b])) (tlast b) (n =? 0)%nat
       (Z.odd (cm_start m)) (cm_en m) (cm_off m) (cm_init m).
Fixpoint btoks (c : tccfg) (m : tcmd) (n : nat) (l : list beat) : list tok :=
  match l with [] => [] | b :: l => btok c m n b :: btoks c m (S n) l end.
Definition ftoks (c : tccfg) (f : frame) : list tok := btoks c (fr_cmd f) 0 (fr_beats f).
Definition ctoks (c : tccfg) (C : option frame) : list tok := match C with Some f => ftoks c f | None => [] end.
Definition alltoks (c : tccfg) (D : list frame) (C : option frame) : list tok := concat (map (ftoks c) D) ++ ctoks c C.

Lemma btoks_app c m l1 : forall n l2, btoks c m n (l1 ++ l2) = btoks c m n l1 ++ btoks c m (n + length l1) l2.
Proof.
  induction l1 as [|b l1 IH]; intros n l2; cbn [btoks app length].
  - rewrite Nat.add_0_r. reflexivity.
  - rewrite IH. do 3 f_equal. lia.
Qed.

Definition goodl (c : tccfg) : Prop := (2 <= tc_l c <= 16)%nat.

Lemma wt_bound c m n b : goodl c -> 0 <= wt (Z.to_nat (cm_start m)) (n * tc_k c) (frame_bytes (tc_k c) [to_cb b]) < 2 ^ (15 + Z.of_nat (tc_l c)).
Proof.
  intros H. pose proof (@beat_sum (scfg c m) n (to_cb b) ltac:(unfold scfg, goodl in *; cbn; lia)) as E.
  change (rc_start (scfg c m)) with (Z.to_nat (cm_start m)) in E. change (rc_k (scfg c m)) with (tc_k c) in E. rewrite <- E.
  pose proof (@tree_top (scfg c m) (rc_level0 (scfg c m) (mk (scfg c m) n) (to_cb b)) ltac:(unfold scfg, goodl in *; cbn; lia)
     (level0_rng _ _ _) (level0_length _ _ _)) as (_ & B). exact B.
Qed.

Definition notlast (l : list beat) : Prop := Forall (fun b => tlast b = false) l.
Definition start_total (c : tccfg) (m : tcmd) : Z := if tc_init c then cm_init m else 0.

Lemma oc_self v : 0 <= v < 65536 -> ones_complement v v.
Proof. intros. unfold ones_complement. splits; auto; lia. Qed.
Lemma oc_zero : ones_complement 0 0.
Proof. apply oc_self. lia. Qed.

Lemma fb_cons c b l : frame_bytes (tc_k c) (map to_cb (b :: l)) = frame_bytes (tc_k c) [to_cb b] ++ frame_bytes (tc_k c) (map to_cb l).
Proof. unfold frame_bytes. cbn [map concat]. rewrite app_nil_r. reflexivity. Qed.
Lemma fb1_length c b : length (frame_bytes (tc_k c) [to_cb b]) = tc_k c.
Proof. rewrite frame_bytes_length. cbn [length]. lia. Qed.

Definition wtot (c : tccfg) (m : tcmd) (n : nat) (l : list beat) : Z :=
  wt (Z.to_nat (cm_start m)) (n * tc_k c) (frame_bytes (tc_k c) (map to_cb l)).
Lemma wtot_cons c m n b l : wtot c m n (b :: l) = k_sum (btok c m n b) + wtot c m (S n) l.
Proof.
  unfold wtot. rewrite fb_cons, wt_app, fb1_length. cbn [btok k_sum]. f_equal. f_equal. lia.
Qed.
Lemma wtot_nonneg c m n l : 0 <= wtot c m n l.
Proof. unfold wtot. apply wt_nonneg, frame_bytes_range. Qed.

Lemma tsum_ok c m n b acc t : goodl c -> cmd_ok m -> 0 <= t -> (n = 0%nat -> acc = 0) -> ones_complement t acc ->
  (n = 0%nat -> t = 0) ->
  ones_complement ((if (n =? 0)%nat then start_total c m else t) + k_sum (btok c m n b)) (tsum c acc (btok c m n b)).
Proof.
  intros HL (_ & _ & HI) Ht Ha OC Ht0. unfold tsum. cbn [btok k_sum k_iv k_init].
  pose proof (wt_bound c m n b HL) as B. unfold goodl in HL.
  destruct (Nat.eqb_spec n 0) as [E|E].
  - cbn [andb]. unfold start_total. destruct (tc_init c).
    + apply fold_fits; cbn; auto; try lia. apply oc_self. lia.
    + apply fold_fits; cbn; auto; try lia. rewrite Ha by auto. apply oc_zero.
  - cbn [andb]. apply fold_fits; cbn; auto.
Qed.

(* beats [n..] of a frame, none the last *)
Lemma run_part c m l : goodl c -> cmd_ok m -> notlast l -> forall n acc t, 0 <= t -> ones_complement t acc ->
  (n = 0%nat -> t = 0 /\ acc = 0) ->
  exists a, trun c acc (btoks c m n l) = (a, []) /\
    ones_complement ((if (n =? 0)%nat && negb (length l =? 0)%nat then start_total c m else t) + wtot c m n l) a.
Proof.
  intros HL HM. induction l as [|b l IH]; intros NL n acc t Ht OC H0; cbn [btoks trun].
  - exists acc. split; auto. rewrite andb_false_r. unfold wtot, wt. cbn. rewrite Z.add_0_r. exact OC.
  - apply Forall_cons_iff in NL. destruct NL as [Nb NL]. cbn [btok k_last]. rewrite Nb. fold (btok c m n b).
    pose proof (tsum_ok c m n b acc t HL HM Ht (fun E => proj2 (H0 E)) OC (fun E => proj1 (H0 E))) as OC'.
    pose proof (wt_bound c m n b HL) as B.
    assert (P0 : 0 <= (if (n =? 0)%nat then start_total c m else t) + k_sum (btok c m n b)).
    { cbn [btok k_sum]. unfold start_total, cmd_ok in *. destruct (n =? 0)%nat, (tc_init c); lia. }
    destruct (IH NL (S n) _ _ P0 OC' ltac:(discriminate)) as (a & E & O).
    exists a. rewrite E. split; [reflexivity|]. rewrite wtot_cons. cbn [length Nat.eqb negb andb] in O |- *. rewrite andb_true_r, Z.add_assoc. exact O.
Qed.

Definition complete (f : frame) : Prop :=
  cmd_ok (fr_cmd f) /\ exists pre b, fr_beats f = pre ++ [b] /\ notlast pre /\ tlast b = true.

(* ----- from the sum of the words in place to that of the bytes from the start ----- *)
Lemma mul256_mod t : (256 * (256 * t)) mod 65535 = t mod 65535.
Proof. replace (256 * (256 * t)) with (t + t * 65535) by lia. apply Z.mod_add. lia. Qed.

Lemma alt_weight start l : 
  wt start start l mod 65535 = ((if Nat.even start then 1 else 256) * alt l) mod 65535 /\ (0 <= alt l -> (forall i, 0 <= nth i l 0) -> (wt start start l = 0 <-> alt l = 0)).
Proof.
  unfold wt, alt. generalize (seq 0 (length l)) as q. intros q.
  destruct (Nat.even start) eqn:E.
  - rewrite (@sum_ext _ _ (fun i => nth i l 0 * (if Nat.even i then 256 else 1))); [rewrite Z.mul_1_l; split; [reflexivity|tauto]|].
    intros i _. replace (start <=? start + i)%nat with true by (symmetry; apply Nat.leb_le; lia).
    rewrite Nat.even_add, E. destruct (Nat.even i); reflexivity.
  - rewrite (@sum_ext _ _ (fun i => nth i l 0 * (if Nat.even i then 1 else 256))).
    2:{ intros i _. replace (start <=? start + i)%nat with true by (symmetry; apply Nat.leb_le; lia).
        rewrite Nat.even_add, E. destruct (Nat.even i); reflexivity. }
    split.
    + induction q as [|i q IH]; [reflexivity|]. cbn [map]. change (sum (?a :: ?b)) with (a + sum b).
      rewrite Z.mul_add_distr_l. rewrite Z.add_mod, IH, <- Z.add_mod by lia.
      rewrite Z.add_mod by lia. rewrite (Z.add_mod (256 * _)) by lia. f_equal. f_equal. destruct (Nat.even i); [|rewrite Z.mul_1_r, Z.mul_comm; reflexivity].
      replace (256 * (nth i l 0 * 256)) with (nth i l 0 * 1 + nth i l 0 * 65535) by lia. rewrite Z.mod_add by lia. reflexivity.
    + intros _ P. 
      assert (G : forall w1 w2 : nat -> Z, (forall i, 0 < w1 i) -> (forall i, 0 < w2 i) ->
         sum (map (fun i => nth i l 0 * w1 i) q) = 0 -> sum (map (fun i => nth i l 0 * w2 i) q) = 0 /\ True).
      { intros w1 w2 P1 P2. assert (S : forall w : nat -> Z, (forall i, 0 < w i) -> forall q, 0 <= sum (map (fun i => nth i l 0 * w i) q)).
        { intros w Pw q0. induction q0 as [|i q0 IHq]; [cbn; lia|]. cbn [map]. change (sum (?a :: ?b)) with (a + sum b). specialize (P i). specialize (Pw i). nia. }
        induction q as [|i q IH]; [auto|]. cbn [map]. change (sum (?a :: ?b)) with (a + sum b). intros Z0.
        pose proof (S w1 P1 q). pose proof (P i). pose proof (P1 i). pose proof (P2 i).
        assert (nth i l 0 = 0) by nia. rewrite H3 in *. rewrite !Z.mul_0_l, Z.add_0_l in *. apply IH. exact Z0. }
      split; intros Z0; [apply (G (fun i => if Nat.even i then 1 else 256) (fun i => if Nat.even i then 256 else 1))
                        |apply (G (fun i => if Nat.even i then 256 else 1) (fun i => if Nat.even i then 1 else 256))]; auto;
        intros i; destruct (Nat.even i); lia.
Qed.

Definition swap16 (n : Z) : Z := n mod 256 * 256 + n / 256.
Lemma swap16_mod n : swap16 n mod 65535 = (256 * n) mod 65535.
Proof.
  unfold swap16. pose proof (Z.div_mod n 256 ltac:(lia)) as E.
  replace (256 * n) with (n mod 256 * 256 + n / 256 + (n / 256) * 65535) by lia. rewrite Z.mod_add by lia. reflexivity.
Qed.
Lemma swap16_range n : 0 <= n <= 65535 -> 0 <= swap16 n <= 65535.
Proof. intros H. unfold swap16. pose proof (Z.mod_pos_bound n 256 ltac:(lia)). pose proof (Z.div_mod n 256 ltac:(lia)). lia. Qed.
Lemma swap16_compl r : 0 <= r <= 65535 -> swap16 (65535 - r) = 65535 - swap16 r.
Proof.
  intros H. unfold swap16. pose proof (Z.mod_pos_bound r 256 ltac:(lia)). pose proof (Z.div_mod r 256 ltac:(lia)) as E.
  assert (E1 : (65535 - r) / 256 = 255 - r / 256) by (symmetry; apply (Z.div_unique _ _ _ (255 - r mod 256)); lia).
  assert (E2 : (65535 - r) mod 256 = 255 - r mod 256) by (pose proof (Z.div_mod (65535 - r) 256 ltac:(lia)); lia).
  lia.
Qed.

Lemma oc_swap t r t' : ones_complement t r -> 0 <= t' -> t' mod 65535 = (256 * t) mod 65535 -> (t' = 0 <-> t = 0) -> ones_complement t' (swap16 r).
Proof.
  intros (A1 & A2 & A3) P E Z0. unfold ones_complement. splits.
  - apply swap16_range. auto.
  - apply swap16_range. auto.
  - rewrite swap16_mod, E. rewrite Z.mul_mod, A2, <- Z.mul_mod by lia. reflexivity.
  - split; [unfold swap16; intros S; pose proof (Z.mod_pos_bound r 256 ltac:(lia)); pose proof (Z.div_mod r 256 ltac:(lia)); apply Z0, A3; lia|].
    intros S. apply Z0, A3 in S. subst r. reflexivity.
Qed.

Lemma nth_octet l i : octets l -> 0 <= nth i l 0 <= 255.
Proof.
  intros H. destruct (Nat.lt_ge_cases i (length l)); [|rewrite nth_overflow by auto; lia].
  unfold octets in H. rewrite Forall_forall in H. specialize (H _ (nth_In l 0 H0)). unfold octet in H. lia.
Qed.

Lemma alt_nonneg l : octets l -> 0 <= alt l.
Proof. intros H. unfold alt. apply (@sum_bound _ _ 65280). intros i. pose proof (nth_octet l i H). destruct (Nat.even i); lia. Qed.

Lemma fb_octets k l : octets (frame_bytes k l).
Proof. unfold octets. eapply Forall_impl; [|apply frame_bytes_range]. intros a. unfold octet. cbn. lia. Qed.

Lemma words_pair a b l : words (a :: b :: l) = (a * 256 + b) :: words l.
Proof. reflexivity. Qed.

(* the total in place against the ones' complement sum of the list the specification names *)
Lemma total_sum c m bs r : cmd_ok m ->
  ones_complement (start_total c m + wtot c m 0 bs) r ->
  (if Z.odd (cm_start m) then swap16 r else r) =
  ones_sum (initial c m ++ skipn (Z.to_nat (cm_start m)) (frame_bytes (tc_k c) (map to_cb bs))).
Proof.
  intros (HS & _ & HI) OC. unfold wtot in OC. cbn [Nat.mul] in OC. set (fb := frame_bytes (tc_k c) (map to_cb bs)) in *.
  set (start := Z.to_nat (cm_start m)) in *.
  assert (Ofb : octets fb) by apply fb_octets. assert (Osk : octets (skipn start fb)).
  { unfold octets in *. rewrite <- (firstn_skipn start fb) in Ofb. apply Forall_app in Ofb. apply Ofb. }
  assert (EW : wt start 0 fb = wt start start (skipn start fb) \/ (skipn start fb = [] /\ wt start 0 fb = 0)).
  { destruct (Nat.le_gt_cases start (length fb)) as [L|L].
    - left. rewrite <- (firstn_skipn start fb) at 1. rewrite wt_app. rewrite wt_before by (rewrite firstn_length; lia). rewrite Z.add_0_l.
      rewrite firstn_length, Nat.min_l by lia. reflexivity.
    - right. split; [apply skipn_all2; lia|apply wt_before; cbn; lia]. }
  assert (EW' : wt start 0 fb = wt start start (skipn start fb)).
  { destruct EW as [E|[E1 E2]]; [exact E|]. rewrite E2, E1. reflexivity. }
  clear EW. rewrite EW' in OC.
  set (sk := skipn start fb) in *. clearbody sk. clear EW' Ofb. clearbody fb.
  assert (OI : octets (initial c m ++ sk)).
  { unfold octets. apply Forall_app. split; [|exact Osk]. unfold initial.
    pose proof (Z.mod_pos_bound (cm_init m) 256 ltac:(lia)). pose proof (Z.div_mod (cm_init m) 256 ltac:(lia)).
    destruct (tc_init c); [|constructor]. destruct (Z.odd (cm_start m)); repeat constructor; unfold octet; lia. }
  eapply oc_unique; [|apply ones_sum_oc; exact OI].
  assert (EV : Z.odd (cm_start m) = negb (Nat.even start)).
  { unfold start. rewrite <- Z.negb_even. f_equal. rewrite <- (Z2Nat.id (cm_start m)) at 1 by lia.
    clear. induction (Z.to_nat (cm_start m)) as [|n IH]; [reflexivity|]. rewrite Nat2Z.inj_succ, Z.even_succ, Nat.even_succ, <- Z.negb_even, <- Nat.negb_even, IH. reflexivity. }
  assert (EI : sum (words (initial c m ++ sk)) = (if tc_init c then if Z.odd (cm_start m) then swap16 (cm_init m) else cm_init m else 0) + alt sk).
  { unfold initial. pose proof (Z.div_mod (cm_init m) 256 ltac:(lia)). destruct (tc_init c); [|cbn [app]; rewrite words_alt; lia].
    destruct (Z.odd (cm_start m)); cbn [app]; rewrite words_pair; change (sum (?a :: ?b)) with (a + sum b); rewrite words_alt; unfold swap16; lia. }
  rewrite EI. clear EI OI. destruct (alt_weight start sk) as [AM AZ]. specialize (AZ (alt_nonneg sk Osk) (fun i => proj1 (nth_octet sk i Osk))).
  pose proof (alt_nonneg sk Osk) as AN. unfold start_total in OC. rewrite EV in *. destruct (Nat.even start) eqn:EE; cbn [negb] in *.
  - rewrite Z.mul_1_l in AM. assert (wt start start sk = alt sk) as <-; [|exact OC]. apply wt_after. exact EE.
  - assert (WN : 0 <= wt start start sk).
    { apply wt_nonneg. unfold octets in Osk. eapply Forall_impl; [|exact Osk]. unfold octet. cbn. intros; lia. }
    pose proof (swap16_range (cm_init m) ltac:(lia)) as SR.
    apply (oc_swap _ _ _ OC); destruct (tc_init c); try lia.
    + rewrite Z.mul_add_distr_l. rewrite Z.add_mod, swap16_mod by lia. rewrite (Z.add_mod (256 * cm_init m)) by lia. f_equal. f_equal.
      rewrite Z.mul_mod, AM, <- Z.mul_mod by lia. rewrite mul256_mod. reflexivity.
    + assert (swap16 (cm_init m) = 0 <-> cm_init m = 0).
      { unfold swap16. pose proof (Z.mod_pos_bound (cm_init m) 256 ltac:(lia)). pose proof (Z.div_mod (cm_init m) 256 ltac:(lia)). split; intros; [lia|]. rewrite H1. reflexivity. }
      lia.
Qed.

Definition fword (c : tccfg) (f : frame) : Z := word (checksum c f) (cm_off (fr_cmd f)) (cm_en (fr_cmd f)).

Lemma run_frame c f : goodl c -> complete f -> trun c 0 (ftoks c f) = (0, [fword c f]).
Proof.
  intros HL (HM & pre & b & E & NL & LB). unfold ftoks. rewrite E, btoks_app, trun_app. cbn [plus].
  destruct (run_part c (fr_cmd f) pre HL HM NL 0 0 0 ltac:(lia) oc_zero ltac:(auto)) as (a & ER & OC).
  rewrite ER. cbn [fst snd app btoks trun]. cbn [btok k_last]. rewrite LB. cbn [fst snd app]. f_equal. f_equal.
  fold (btok c (fr_cmd f) (length pre) b). unfold tword, fword.
  set (m := fr_cmd f) in *.
  assert (HT : ones_complement (start_total c m + wtot c m 0 (fr_beats f)) (tsum c a (btok c m (length pre) b))).
  { assert (A : wtot c m 0 (fr_beats f) = wtot c m 0 pre + k_sum (btok c m (length pre) b)).
    { rewrite E. unfold wtot. rewrite map_app, frame_bytes_app, wt_app. f_equal. cbn [btok k_sum map]. f_equal. rewrite frame_bytes_length, map_length. reflexivity. }
    rewrite A, Z.add_assoc. destruct pre as [|p pre].
    - cbn in ER. injection ER as <-. assert (W0 : wtot c m 0 [] = 0) by reflexivity. rewrite W0, Z.add_0_r.
      apply (tsum_ok c m 0 b 0 0 HL HM); auto using oc_zero; lia.
    - cbn [length Nat.eqb negb andb] in OC.
      pose proof (wtot_nonneg c m 0 (p :: pre)). 
      apply (tsum_ok c m (length (p :: pre)) b a _ HL HM) in OC; [exact OC| |discriminate|discriminate].
      destruct HM as (_ & _ & HI). unfold start_total. destruct (tc_init c); lia. }
  pose proof (total_sum c m (fr_beats f) _ HM HT) as TS. unfold checksum. fold m. rewrite <- TS.
  cbn [btok k_odd k_en k_off]. destruct HT as (HR & _). f_equal. destruct (Z.odd (cm_start m)); [|reflexivity].
  apply swap16_compl. exact HR.
Qed.

(* a frame in progress emits nothing *)
Lemma run_all c D C : goodl c -> Forall complete D -> (forall f, C = Some f -> cmd_ok (fr_cmd f) /\ notlast (fr_beats f)) ->
  snd (trun c 0 (alltoks c D C)) = map (fword c) D.
Proof.
  intros HL HD HC. unfold alltoks. rewrite trun_app.
  assert (G : trun c 0 (concat (map (ftoks c) D)) = (0, map (fword c) D)).
  { induction HD as [|f D Hf HD IH]; [reflexivity|]. cbn [map concat]. rewrite trun_app, run_frame by auto. cbn [fst snd]. rewrite IH. reflexivity. }
  rewrite G. cbn [fst snd]. destruct C as [f|]; cbn [ctoks].
  - destruct (HC f eq_refl) as [HM NL]. destruct (run_part c (fr_cmd f) (fr_beats f) HL HM NL 0 0 0 ltac:(lia) oc_zero ltac:(auto)) as (a & ER & _).
    unfold ftoks. rewrite ER. cbn [snd]. apply app_nil_r.
  - cbn. apply app_nil_r.
Qed.

(* ----- the masks ----- *)
Definition ioff_at (c : tccfg) (m : tcmd) (n : nat) : Z := Z.max 0 (cm_start m - Z.of_nat (S n * tc_k c)).
Lemma tk_pos c : (0 < tc_k c)%nat.
Proof. apply k_pos. Qed.
Lemma mask_cmd_ok c m : cmd_ok m -> mask_cmd c (cm_start m) = (mk (scfg c m) 0, ioff_at c m 0).
Proof.
  intros (HS & _). unfold mask_cmd, ioff_at. pose proof (tk_pos c) as KP. rewrite Nat.mul_1_l.
  rewrite <- (shl_start (scfg c m)). change (rc_start (scfg c m)) with (Z.to_nat (cm_start m)).
  destruct (Z.leb_spec (Z.of_nat (tc_k c)) (cm_start m)) as [L|L].
  - f_equal; [|lia]. pose proof (shl_start (scfg c m)) as SS. change (rc_start (scfg c m)) with (Z.to_nat (cm_start m)) in SS. rewrite SS. unfold mk. cbv zeta. change (rc_start (scfg c m)) with (Z.to_nat (cm_start m)).
    change (rc_k (scfg c m)) with (tc_k c). destruct (Nat.ltb_spec 0 (Z.to_nat (cm_start m) / tc_k c)); [reflexivity|].
    assert (1 <= Z.to_nat (cm_start m) / tc_k c)%nat by (apply Nat.div_le_lower_bound; lia). lia.
  - f_equal. lia.
Qed.
Lemma mask_beat_ok c m n x : cmd_ok m -> mask_beat c x (ioff_at c m n) = (mk (scfg c m) (S n), ioff_at c m (S n)).
Proof.
  intros (HS & _). pose proof (tk_pos c) as KP. unfold mask_beat, ioff_at, mk. cbv zeta.
  change (rc_start (scfg c m)) with (Z.to_nat (cm_start m)). change (rc_k (scfg c m)) with (tc_k c).
  set (st := Z.to_nat (cm_start m)). assert (ES : cm_start m = Z.of_nat st) by (unfold st; lia). rewrite ES. clearbody st. clear HS ES.
  set (k := tc_k c) in *.
  pose proof (Nat.div_mod st k ltac:(lia)) as E. pose proof (Nat.mod_upper_bound st k ltac:(lia)) as B.
  set (q := (st / k)%nat) in *. set (r := (st mod k)%nat) in *.
  destruct (Z.ltb_spec 0 (Z.max 0 (Z.of_nat st - Z.of_nat (S n * k)))) as [L|L].
  - destruct (Z.leb_spec (Z.of_nat k) (Z.max 0 (Z.of_nat st - Z.of_nat (S n * k)))) as [L2|L2].
    + destruct (Nat.ltb_spec (S n) q) as [Q|Q]; [|nia]. f_equal. lia.
    + assert (q = S n) by nia. rewrite H, Nat.ltb_irrefl, Nat.eqb_refl. f_equal; [|nia].
      assert (Z.to_nat (Z.max 0 (Z.of_nat st - Z.of_nat (S n * k))) = r) as -> by nia. reflexivity.
  - assert (q <= S n)%nat by nia. destruct (Nat.ltb_spec (S n) q); [lia|].
    destruct (Nat.eqb_spec (S n) q) as [Q|Q]; (apply f_equal2; [|nia]); [|reflexivity].
    assert (r = 0)%nat as -> by nia. unfold rc_shl. cbn [rc_k scfg]. rewrite Z.shiftl_0_r.
    change (rc_k (scfg c m)) with k. rewrite Z.ones_equiv. symmetry. apply Z.mod_small. 
    assert (0 < 2 ^ Z.of_nat k) by (apply Z.pow_pos_nonneg; lia). lia.
Qed.
Lemma level0_tok c m n b : goodl c -> sum (rc_level0 (tc_rc c) (mk (scfg c m) n) (to_cb b)) = k_sum (btok c m n b).
Proof. intros HL. exact (@beat_sum (scfg c m) n (to_cb b) ltac:(unfold goodl in HL; cbn; lia)). Qed.

(* ----- bytes ----- *)
Lemma byte_range d j : 0 <= byte d j < 256.
Proof. unfold byte, bits. apply (Z.mod_pos_bound _ (2 ^ 8)). reflexivity. Qed.
Lemma byte_set d o v j : 0 <= v < 256 -> byte (set_byte d (Z.of_nat o) v) j = if (j =? o)%nat then v else byte d j.
Proof.
  intros V. unfold byte, set_byte, bits. change (2 ^ 8) with 256.
  set (P := 2 ^ (8 * Z.of_nat o)). assert (PP : 0 < P) by (apply Z.pow_pos_nonneg; lia).
  pose proof (Z.div_mod d P ltac:(lia)) as E. pose proof (Z.mod_pos_bound d P PP) as B.
  set (h := d / P) in *. set (lo := d mod P) in *. pose proof (Z.div_mod h 256 ltac:(lia)) as Eh. pose proof (Z.mod_pos_bound h 256 ltac:(lia)) as Bh.
  set (v0 := h mod 256) in *. set (hh := h / 256) in *.
  destruct (Nat.eqb_spec j o) as [->|N].
  - fold P. replace (d + (v - v0) * P) with (lo + (256 * hh + v) * P) by (rewrite E, Eh; ring). rewrite Z.div_add by lia.
    rewrite Z.div_small by lia. rewrite Z.add_0_l, Z.mul_comm, Z.add_comm, Z.mod_add by lia. apply Z.mod_small. lia.
  - destruct (Nat.lt_ge_cases j o) as [L|L].
    + assert (EP : P = 2 ^ (8 * Z.of_nat j) * (256 * 2 ^ (8 * (Z.of_nat o - Z.of_nat j - 1)))).
      { change 256 with (2 ^ 8). unfold P. rewrite <- !Z.pow_add_r by lia. f_equal. lia. }
      rewrite EP. replace (d + (v - v0) * (2 ^ (8 * Z.of_nat j) * (256 * 2 ^ (8 * (Z.of_nat o - Z.of_nat j - 1)))))
        with (d + ((v - v0) * 2 ^ (8 * (Z.of_nat o - Z.of_nat j - 1)) * 256) * 2 ^ (8 * Z.of_nat j)) by ring.
      rewrite Z.div_add by (apply Z.pow_nonzero; lia). apply Z.mod_add. lia.
    + assert (EP : 2 ^ (8 * Z.of_nat j) = (P * 256) * 2 ^ (8 * (Z.of_nat j - Z.of_nat o - 1))).
      { change 256 with (2 ^ 8). unfold P. rewrite <- !Z.pow_add_r by lia. f_equal. lia. }
      assert (0 < 2 ^ (8 * (Z.of_nat j - Z.of_nat o - 1))) by (apply Z.pow_pos_nonneg; lia).
      rewrite EP, <- !Z.div_div by lia. f_equal. f_equal. fold h. fold hh.
      replace (d + (v - v0) * P) with (lo + (256 * hh + v) * P) by (rewrite E, Eh; ring). rewrite Z.div_add by lia. rewrite (Z.div_small lo P) by lia.
      rewrite Z.add_0_l. symmetry. apply (Z.div_unique _ _ _ v); lia.
Qed.

(* ----- insertion ----- *)
Definition ost (c : tccfg) (m : tcmd) (n : nat) (x : Z * bool * bool) : Prop :=
  let '(off, en, split) := x in
  let k := Z.of_nat (tc_k c) in
  let p := Z.of_nat (n * tc_k c) in
  if cm_en m then
    (p <= cm_off m /\ off = cm_off m - p /\ en = true /\ split = false) \/
    (p = cm_off m + 1 /\ off = k - 1 /\ en = true /\ split = true) \/
    (cm_off m + 1 < p /\ en = false)
  else en = false.

Lemma insert_ok c m n v off en split d : (2 <= tc_l c)%nat -> 0 <= cm_off m -> 0 <= v < 65536 -> ost c m n (off, en, split) ->
  ost c m (S n) (snd (insert c v off en split d)) /\
  forall j, byte (fst (insert c v off en split d)) j =
    let p := Z.of_nat (n * tc_k c + j) in
    if cm_en m && (j <? tc_k c)%nat && (p =? cm_off m) then v / 256
    else if cm_en m && (j <? tc_k c)%nat && (p =? cm_off m + 1) then v mod 256
    else byte d j.
Proof.
  intros HL HO HV H. pose proof (tk_pos c) as KP. assert (K4 : (4 <= tc_k c)%nat).
  { unfold tc_k, rc_k, tc_rc. cbn [rc_l]. replace (tc_l c) with (2 + (tc_l c - 2))%nat by lia. rewrite Nat.pow_add_r. change (2 ^ 2)%nat with 4%nat.
    pose proof (Nat.pow_nonzero 2 (tc_l c - 2)). lia. }
  set (k := tc_k c) in *. unfold ost, insert in *. fold k in H |- *.
  pose proof (Z.mod_pos_bound v 256 ltac:(lia)) as VL. assert (VH : 0 <= v / 256 < 256) by (split; [apply Z.div_pos; lia|apply Z.div_lt_upper_bound; lia]).
  destruct (cm_en m) eqn:EN; cbn [andb].
  2:{ subst en. cbn [fst snd]. split; auto. }
  destruct H as [(P1 & -> & -> & ->)|[(P1 & -> & -> & ->)|(P1 & ->)]].
  - destruct (Z.leb_spec (Z.of_nat k) (cm_off m - Z.of_nat (n * k))) as [L|L]; cbn [fst snd].
    + split.
      * left. splits; auto; lia.
      * intros j. cbv zeta. destruct (Nat.ltb_spec j k); cbn [andb]; [|reflexivity].
        destruct (Z.eqb_spec (Z.of_nat (n * k + j)) (cm_off m)); [lia|]. destruct (Z.eqb_spec (Z.of_nat (n * k + j)) (cm_off m + 1)); [lia|reflexivity].
    + destruct (Z.eqb_spec (cm_off m - Z.of_nat (n * k)) (Z.of_nat k - 1)) as [L2|L2]; cbn [fst snd].
      * split; [right; left; splits; auto; lia|]. intros j. cbv zeta.
        replace (Z.of_nat k - 1) with (Z.of_nat (k - 1)) by lia. rewrite byte_set by lia.
        destruct (Nat.ltb_spec j k); cbn [andb].
        -- destruct (Nat.eqb_spec j (k - 1)).
           ++ destruct (Z.eqb_spec (Z.of_nat (n * k + j)) (cm_off m)); [reflexivity|lia].
           ++ destruct (Z.eqb_spec (Z.of_nat (n * k + j)) (cm_off m)); [lia|]. destruct (Z.eqb_spec (Z.of_nat (n * k + j)) (cm_off m + 1)); [lia|reflexivity].
        -- destruct (Nat.eqb_spec j (k - 1)); [lia|reflexivity].
      * split; [right; right; split; auto; lia|]. intros j. cbv zeta.
        set (o := Z.to_nat (cm_off m - Z.of_nat (n * k))). assert (EO : cm_off m - Z.of_nat (n * k) = Z.of_nat o) by lia. rewrite EO.
        replace (Z.of_nat o + 1) with (Z.of_nat (S o)) by lia. rewrite !byte_set by lia.
        destruct (Nat.ltb_spec j k); cbn [andb].
        -- destruct (Nat.eqb_spec j (S o)).
           ++ destruct (Z.eqb_spec (Z.of_nat (n * k + j)) (cm_off m)); [lia|]. destruct (Z.eqb_spec (Z.of_nat (n * k + j)) (cm_off m + 1)); [reflexivity|lia].
           ++ destruct (Nat.eqb_spec j o).
              ** destruct (Z.eqb_spec (Z.of_nat (n * k + j)) (cm_off m)); [reflexivity|lia].
              ** destruct (Z.eqb_spec (Z.of_nat (n * k + j)) (cm_off m)); [lia|]. destruct (Z.eqb_spec (Z.of_nat (n * k + j)) (cm_off m + 1)); [lia|reflexivity].
        -- destruct (Nat.eqb_spec j (S o)); [lia|]. destruct (Nat.eqb_spec j o); [lia|reflexivity].
  - destruct (Z.leb_spec (Z.of_nat k) (Z.of_nat k - 1)); [lia|]. cbn [fst snd]. split; [right; right; split; auto; lia|].
    intros j. cbv zeta. change 0 with (Z.of_nat 0) at 1. rewrite byte_set by lia. destruct (Nat.ltb_spec j k); cbn [andb].
    + destruct (Nat.eqb_spec j 0).
      * destruct (Z.eqb_spec (Z.of_nat (n * k + j)) (cm_off m)); [lia|]. destruct (Z.eqb_spec (Z.of_nat (n * k + j)) (cm_off m + 1)); [reflexivity|lia].
      * destruct (Z.eqb_spec (Z.of_nat (n * k + j)) (cm_off m)); [lia|]. destruct (Z.eqb_spec (Z.of_nat (n * k + j)) (cm_off m + 1)); [lia|reflexivity].
    + destruct (Nat.eqb_spec j 0); [lia|reflexivity].
  - cbn [fst snd]. split; [right; right; split; auto; lia|]. intros j. cbv zeta. destruct (Nat.ltb_spec j k); cbn [andb]; [|reflexivity].
    destruct (Z.eqb_spec (Z.of_nat (n * k + j)) (cm_off m)); [lia|]. destruct (Z.eqb_spec (Z.of_nat (n * k + j)) (cm_off m + 1)); [lia|reflexivity].
Qed.

Lemma word_parts v off en : 0 <= off < 256 -> wd_csum (word v off en) = v /\ wd_off (word v off en) = off /\ wd_en (word v off en) = en.
Proof.
  intros H. unfold word, wd_csum, wd_off, wd_en. change (2 ^ 8) with 256. change (2 ^ 9) with 512. splits.
  - symmetry. apply (Z.div_unique _ _ _ (off * 2 + Z.b2z en)); destruct en; cbn [Z.b2z]; lia.
  - replace (((v * 256 + off) * 2 + Z.b2z en) / 2) with (v * 256 + off) by (apply (Z.div_unique _ _ _ (Z.b2z en)); destruct en; cbn [Z.b2z]; lia).
    rewrite Z.add_comm, Z.mod_add by lia. apply Z.mod_small. lia.
  - rewrite Z.odd_add, Z.odd_mul. change (Z.odd 2) with false. rewrite andb_false_r. destruct en; reflexivity.
Qed.
