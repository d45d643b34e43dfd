From Verif Require Import Base.Prelude Base.Bits Eth.Baser_model Eth.Baser_spec.
From Coq Require Import Lia.
Local Open Scope Z_scope.
#[local] Unset Implicit Arguments.

(* ----- fields ----- *)
Definition fok (l : list (Z * Z)) : Prop := Forall (fun p => 0 <= fst p /\ 0 <= snd p < 2 ^ fst p) l.

Fixpoint field (l : list (Z * Z)) (off w : Z) : option Z :=
  match l with
  | [] => None
  | (w', v) :: l => if off =? 0 then (if w' =? w then Some v else None) else if off <? w' then None else field l (off - w') w
  end.

Lemma pack_nonneg l : fok l -> 0 <= pack l.
Proof.
  induction 1 as [|[w v] l [A B] _ IH]; cbn; [lia|]. cbn in A, B.
  pose proof (Z.pow_nonneg 2 w ltac:(lia)). nia.
Qed.

Lemma field_bits l : forall off w v, fok l -> field l off w = Some v -> bits (pack l) off w = v.
Proof.
  induction l as [|[w' v'] l IH]; intros off w v K E; cbn in E; [discriminate|].
  inversion K as [|p q [A B] K' e1]; subst. cbn in A, B.
  pose proof (Z.pow_pos_nonneg 2 w' ltac:(lia) A).
  destruct (off =? 0) eqn:E0.
  - apply Z.eqb_eq in E0. subst off. destruct (w' =? w) eqn:E1; [|discriminate]. apply Z.eqb_eq in E1. inversion E; subst.
    unfold bits. cbn [pack]. rewrite Z.pow_0_r, Z.div_1_r.
    rewrite (Z.mul_comm (2 ^ w)), Z.mod_add by lia. apply Z.mod_small. exact B.
  - destruct (off <? w') eqn:E2; [discriminate|]. apply Z.ltb_ge in E2.
    rewrite <- (IH _ _ _ K' E). unfold bits. cbn [pack]. f_equal.
    replace (2 ^ off) with (2 ^ w' * 2 ^ (off - w')) by (rewrite <- Z.pow_add_r by lia; f_equal; lia).
    rewrite <- Z.div_div; [|lia|apply Z.pow_pos_nonneg; lia]. f_equal.
    rewrite (Z.mul_comm (2 ^ w')), Z.div_add by lia. rewrite Z.div_small by exact B. lia.
Qed.

Fixpoint split (x off : Z) (ws : list Z) : list (Z * Z) :=
  match ws with [] => [] | w :: ws => (w, bits x off w) :: split x (off + w) ws end.

Lemma pack_split_gen x ws : forall off, 0 <= off -> Forall (fun w => 0 <= w) ws ->
  pack (split x off ws) = bits x off (fold_right Z.add 0 ws).
Proof.
  induction ws as [|w ws IH]; intros off H K; cbn [pack split fold_right].
  - unfold bits. rewrite Z.pow_0_r, Z.mod_1_r. reflexivity.
  - inversion K; subst. rewrite IH by (auto; lia).
    assert (0 <= fold_right Z.add 0 ws) as G.
    { clear - H3. induction H3; cbn; lia. }
    unfold bits. rewrite (Z.pow_add_r 2 off w) by lia. rewrite (Z.pow_add_r 2 w) by lia.
    pose proof (Z.pow_pos_nonneg 2 off ltac:(lia) H). pose proof (Z.pow_pos_nonneg 2 w ltac:(lia) H2).
    pose proof (Z.pow_pos_nonneg 2 _ ltac:(lia) G).
    rewrite <- Z.div_div by lia. rewrite Z.rem_mul_r by lia. reflexivity.
Qed.

Lemma pack_split x ws : Forall (fun w => 0 <= w) ws -> 0 <= x < 2 ^ fold_right Z.add 0 ws -> pack (split x 0 ws) = x.
Proof.
  intros K H. rewrite (pack_split_gen x ws 0 ltac:(lia) K). unfold bits. rewrite Z.pow_0_r, Z.div_1_r. apply Z.mod_small; exact H.
Qed.

(* ----- characters ----- *)
Lemma find_code b p : find (fun p => fst p =? b) codes = Some p ->
  fst p = b /\ In b fill /\ 0 <= snd p < 128 /\ find (fun q => snd q =? snd p) codes = Some p.
Proof.
  unfold codes. cbn [find fst].
  repeat match goal with |- context [if ?k =? b then _ else _] => let E := fresh "E" in destruct (k =? b) eqn:E;
    [apply Z.eqb_eq in E; intros X; inversion X; subst; clear X; cbn; splits; try lia; auto 20|] end.
  intros X; discriminate X.
Qed.
Lemma find_none b : find (fun p => fst p =? b) codes = None -> ~ In b fill.
Proof.
  unfold codes. cbn [find fst].
  repeat match goal with |- context [if ?k =? b then _ else _] => let E := fresh "E" in destruct (k =? b) eqn:E; [discriminate|apply Z.eqb_neq in E] end.
  intros _ K. cbn in K. intuition congruence.
Qed.

(* what a decoded lane shows *)
Definition seen (d c i : Z) : Z := if snd (ec d c i) then XE else lane d i.
Lemma ec_range d c i : 0 <= fst (ec d c i) < 2 ^ 7.
Proof.
  unfold ec. destruct (Z.testbit c i); [|cbn; lia]. destruct (find _ _) as [p|] eqn:E; [|cbn; lia].
  destruct (find_code _ _ E) as (_ & _ & H & _). cbn. lia.
Qed.
Lemma ec_dec d c i : match find (fun p => snd p =? fst (ec d c i)) codes with Some p => (fst p, false) | None => (XE, true) end = (seen d c i, false).
Proof.
  unfold seen, ec. destruct (Z.testbit c i); [|reflexivity].
  destruct (find (fun p => fst p =? lane d i) codes) as [p|] eqn:E; [|reflexivity].
  destruct (find_code _ _ E) as (A & _ & _ & F). cbn [fst snd]. rewrite F. rewrite A. reflexivity.
Qed.
Lemma dc_at d c x i j : bits x (7 * j + 8) 7 = fst (ec d c i) -> dc x j = (seen d c i, false).
Proof. intros E. unfold dc. rewrite E. apply ec_dec. Qed.

(* ----- decoding what was encoded ----- *)
Definition lanes (d c a b : Z) : list (Z * Z) := map (fun i => (8, seen d c i)) (span a b).

Ltac fok_tac := repeat (apply Forall_cons; [cbn [fst snd]; split; [lia|]; first [apply ec_range | apply bits_range; lia | lia]|]); apply Forall_nil.

Lemma bits_at (x : Z) (L : list (Z * Z)) (o w v : Z) : x = pack L -> fok L -> field L o w = Some v -> bits x o w = v.
Proof. intros ->. apply field_bits. Qed.
Lemma dec_at (x : Z) (L : list (Z * Z)) (d c i j : Z) : x = pack L -> fok L -> field L (7 * j + 8) 7 = Some (fst (ec d c i)) -> dc x j = (seen d c i, false).
Proof. intros E K F. apply dc_at. eapply bits_at; eassumption. Qed.

Ltac spans := repeat match goal with |- context [span ?a ?b] => let l := eval vm_compute in (span a b) in change (span a b) with l end.
Ltac dec_tac d c :=
  unfold ectl, lanes; spans; cbn [map app repeat];
  match goal with |- context [decode _ (pack ?L) 1] =>
    let K := fresh "K" in assert (K : fok L) by fok_tac;
    let x := fresh "x" in let Ex := fresh "Ex" in remember (pack L) as x eqn:Ex;
    unfold decode; rewrite (@bits_at x L 0 8 _ Ex K eq_refl);
    cbn [Z.eqb Pos.eqb]; unfold dctl, derr, os, oserr; spans; cbn [map existsb app];
    repeat match goal with |- context [dc x ?j] => rewrite (@dec_at x L d c j j Ex K eq_refl) end;
    repeat match goal with |- context [bits x ?o ?w] => rewrite (@bits_at x L o w _ Ex K eq_refl) end
  end;
  reflexivity.

Lemma rt_os4 (d c : Z) (f : bool) : decode f (pack ([(8, 0x2d)] ++ ectl d c 0 4 ++ [(4, 0); (24, bits d 40 24)])) 1 = mkD (pack (lanes d c 0 4 ++ [(8, XO); (24, bits d 40 24)])) 0x1f false (false) (f).
Proof. dec_tac d c. Qed.

Lemma rt_start4 (d c : Z) (f : bool) : decode f (pack ([(8, 0x33)] ++ ectl d c 0 4 ++ [(4, 0); (24, bits d 40 24)])) 1 = mkD (pack (lanes d c 0 4 ++ [(8, XS); (24, bits d 40 24)])) 0x1f false (f) (true).
Proof. dec_tac d c. Qed.

Lemma rt_osstart (d c : Z) (f : bool) : decode f (pack ([(8, 0x66); (24, bits d 8 24); (4, 0); (4, 0); (24, bits d 40 24)])) 1 = mkD (pack ([(8, XO); (24, bits d 8 24); (8, XS); (24, bits d 40 24)])) 0x1f false (f) (true).
Proof. dec_tac d c. Qed.

Lemma rt_os04 (d c : Z) (f : bool) : decode f (pack ([(8, 0x55); (24, bits d 8 24); (4, 0); (4, 0); (24, bits d 40 24)])) 1 = mkD (pack ([(8, XO); (24, bits d 8 24); (8, XO); (24, bits d 40 24)])) 0x11 false (false) (f).
Proof. dec_tac d c. Qed.

Lemma rt_start0 (d c : Z) (f : bool) : decode f (pack ([(8, 0x78); (56, bits d 8 56)])) 1 = mkD (pack ([(8, XS); (56, bits d 8 56)])) 0x01 false (f) (true).
Proof. dec_tac d c. Qed.

Lemma rt_os0 (d c : Z) (f : bool) : decode f (pack ([(8, 0x4b); (24, bits d 8 24); (4, 0)] ++ ectl d c 4 8)) 1 = mkD (pack ([(8, XO); (24, bits d 8 24)] ++ lanes d c 4 8)) 0xf1 false (false) (f).
Proof. dec_tac d c. Qed.

Lemma rt_term0 (d c : Z) (f : bool) : decode f (pack ([(8, 0x87); (7, 0)] ++ ectl d c 1 8)) 1 = mkD (pack ([(8, XT)] ++ lanes d c 1 8)) 0xff false (negb f) (false).
Proof. dec_tac d c. Qed.

Lemma rt_term1 (d c : Z) (f : bool) : decode f (pack ([(8, 0x99); (8, bits d 0 8); (6, 0)] ++ ectl d c 2 8)) 1 = mkD (pack ([(8, bits d 0 8); (8, XT)] ++ lanes d c 2 8)) 0xfe false (negb f) (false).
Proof. dec_tac d c. Qed.

Lemma rt_term2 (d c : Z) (f : bool) : decode f (pack ([(8, 0xaa); (16, bits d 0 16); (5, 0)] ++ ectl d c 3 8)) 1 = mkD (pack ([(16, bits d 0 16); (8, XT)] ++ lanes d c 3 8)) 0xfc false (negb f) (false).
Proof. dec_tac d c. Qed.

Lemma rt_term3 (d c : Z) (f : bool) : decode f (pack ([(8, 0xb4); (24, bits d 0 24); (4, 0)] ++ ectl d c 4 8)) 1 = mkD (pack ([(24, bits d 0 24); (8, XT)] ++ lanes d c 4 8)) 0xf8 false (negb f) (false).
Proof. dec_tac d c. Qed.

Lemma rt_term4 (d c : Z) (f : bool) : decode f (pack ([(8, 0xcc); (32, bits d 0 32); (3, 0)] ++ ectl d c 5 8)) 1 = mkD (pack ([(32, bits d 0 32); (8, XT)] ++ lanes d c 5 8)) 0xf0 false (negb f) (false).
Proof. dec_tac d c. Qed.

Lemma rt_term5 (d c : Z) (f : bool) : decode f (pack ([(8, 0xd2); (40, bits d 0 40); (2, 0)] ++ ectl d c 6 8)) 1 = mkD (pack ([(40, bits d 0 40); (8, XT)] ++ lanes d c 6 8)) 0xe0 false (negb f) (false).
Proof. dec_tac d c. Qed.

Lemma rt_term6 (d c : Z) (f : bool) : decode f (pack ([(8, 0xe1); (48, bits d 0 48); (1, 0)] ++ ectl d c 7 8)) 1 = mkD (pack ([(48, bits d 0 48); (8, XT)] ++ lanes d c 7 8)) 0xc0 false (negb f) (false).
Proof. dec_tac d c. Qed.

Lemma rt_term7 (d c : Z) (f : bool) : decode f (pack ([(8, 0xff); (56, bits d 0 56)])) 1 = mkD (pack ([(56, bits d 0 56); (8, XT)])) 0x80 false (negb f) (false).
Proof. dec_tac d c. Qed.

Lemma rt_ctrl (d c : Z) (f : bool) : decode f (pack ([(8, 0x1e)] ++ ectl d c 0 8)) 1 = mkD (pack (lanes d c 0 8)) 0xff false (false) (f).
Proof. dec_tac d c. Qed.

Lemma rt_none f : decode f (pack ((8, 0x1e) :: repeat (7, 0x1e) 8)) 1 = mkD (pack (repeat (8, XE) 8)) 0xff false false f.
Proof. reflexivity. Qed.

(* ----- words ----- *)
Lemma c_bits c : 0 <= c < 2 ^ 8 ->
  c = fold_right Z.add 0 (map (fun i => if Z.testbit c (Z.of_nat i) then 2 ^ Z.of_nat i else 0) (seq 0 8)).
Proof.
  intros H.
  assert (A : forallb (fun n => Z.of_nat n =? fold_right Z.add 0 (map (fun i => if Z.testbit (Z.of_nat n) (Z.of_nat i) then 2 ^ Z.of_nat i else 0) (seq 0 8))) (seq 0 256) = true)
    by (vm_compute; reflexivity).
  rewrite forallb_forall in A. specialize (A (Z.to_nat c)). rewrite in_seq in A.
  assert (Z.to_nat c < 256)%nat by (change (2 ^ 8) with 256 in H; lia).
  specialize (A ltac:(lia)). rewrite Z2Nat.id in A by lia. apply Z.eqb_eq in A. exact A.
Qed.

Lemma ec_fill d c i : snd (ec d c i) = false -> Z.testbit c i = true /\ In (lane d i) fill /\ seen d c i = lane d i.
Proof.
  intros E. unfold seen. rewrite E. unfold ec in E. destruct (Z.testbit c i); [|discriminate].
  destruct (find _ _) as [p|] eqn:F; [|discriminate]. destruct (find_code _ _ F) as (_ & A & _). auto.
Qed.
Lemma fill_ec d c i : Z.testbit c i = true -> In (lane d i) fill -> snd (ec d c i) = false.
Proof.
  intros T I. unfold ec. rewrite T. destruct (find _ _) eqn:F; [reflexivity|]. destruct (find_none _ F I).
Qed.
Lemma fill_ne b : In b fill -> (b =? 0xfb) = false /\ (b =? 0xfd) = false /\ (b =? 0x9c) = false.
Proof. intros K. cbn in K. splits; apply Z.eqb_neq; intuition lia. Qed.
Lemma lane_range d i : 0 <= lane d i < 2 ^ 8.
Proof. apply bits_range; lia. Qed.
Lemma seen_range d c i : 0 <= seen d c i < 2 ^ 8.
Proof. unfold seen. destruct (snd _); [split; vm_compute; congruence|apply lane_range]. Qed.

Lemma encode_legal d c : wf (d, c) -> legal (d, c) -> snd (encode d c) = false.
Proof.
  intros [Hd Hc] (f & If & H). cbn [fst snd] in Hd, Hc. apply c_bits in Hc. cbn [seq map] in Hc.
  unfold formats, os_start in If. cbn [In] in If.
  do 16 (destruct If as [<-|If]; [
    pose proof (H 0%nat _ eq_refl) as H0; pose proof (H 1%nat _ eq_refl) as H1; pose proof (H 2%nat _ eq_refl) as H2;
    pose proof (H 3%nat _ eq_refl) as H3; pose proof (H 4%nat _ eq_refl) as H4; pose proof (H 5%nat _ eq_refl) as H5;
    pose proof (H 6%nat _ eq_refl) as H6; pose proof (H 7%nat _ eq_refl) as H7; clear H;
    cbn [holds_kind] in *; unfold is_ctl in *; cbn [fst snd] in *;
    repeat match goal with K : _ /\ In _ _ |- _ => let A := fresh in let B := fresh "I" in destruct K as [A B] end;
    repeat match goal with K : _ /\ _ = _ |- _ => let A := fresh in let B := fresh "V" in destruct K as [A B] end;
    repeat match goal with K : Z.testbit c _ = _ |- _ => rewrite K in Hc; clear K end;
    match type of Hc with c = ?v => let v' := eval vm_compute in v in change v with v' in Hc end; subst c;
    repeat match goal with K : byte (d, ?c) ?i = ?v |- _ => change (lane d (Z.of_nat i) = v) in K; cbn [Z.of_nat Pos.of_succ_nat Pos.succ] in K end;
    repeat match goal with K : In (byte (d, ?c) ?i) fill |- _ => change (In (lane d (Z.of_nat i)) fill) in K; cbn [Z.of_nat Pos.of_succ_nat Pos.succ] in K end;
    unfold encode; cbn [Z.eqb Pos.eqb andb];
    repeat match goal with K : lane d ?i = _ |- _ => rewrite K end;
    repeat match goal with K : In (lane d ?i) fill |- context [eerr d ?c _ _] =>
       let A := fresh in let B := fresh in let C := fresh in destruct (fill_ne _ K) as (A & B & C);
       apply (@fill_ec d c i eq_refl) in K; unfold XT, XS, XO; rewrite ?A, ?B, ?C; clear A B C end;
    cbn [Z.eqb Pos.eqb andb XS XT XO snd];
    unfold eerr; spans; cbn [existsb];
    repeat match goal with K : snd (ec _ _ _) = false |- _ => rewrite K; clear K end;
    reflexivity |]).
  destruct If.
Qed.

Definition rc (d c : Z) : Z := if (c =? 0x11) && (lane d 0 =? XO) && (lane d 4 =? XS) then 0x1f else c.

Lemma has_error_at w i : (i < 8)%nat -> is_ctl w i = true -> byte w i = 0xfe -> has_error w = true.
Proof.
  intros L A B. unfold has_error. apply existsb_exists. exists i. split; [apply in_seq; lia|].
  unfold lane_is. rewrite A, B. reflexivity.
Qed.

Definition good (d c : Z) (f : bool) (r : dres) : Prop :=
  legal (d, c) /\ d_rxd r = d /\ d_rxc r = rc d c /\ d_bad r = false /\ d_seq r = misplaced f (d, c) /\ d_frame r = inside f (d, c).
Definition poor (r : dres) : Prop := has_error (d_rxd r, d_rxc r) = true /\ d_bad r = false.
Definition outcome (d c : Z) (f : bool) (p : Z * Z * bool) : Prop :=
  let '(x, h, bad) := p in
  (bad = false -> good d c f (decode f x h)) /\ (bad = true -> poor (decode f x h)).

Lemma fmt8 w k0 k1 k2 k3 k4 k5 k6 k7 :
  holds_kind w 0 k0 -> holds_kind w 1 k1 -> holds_kind w 2 k2 -> holds_kind w 3 k3 ->
  holds_kind w 4 k4 -> holds_kind w 5 k5 -> holds_kind w 6 k6 -> holds_kind w 7 k7 ->
  has_format w [k0; k1; k2; k3; k4; k5; k6; k7].
Proof.
  intros. intros i k E.
  destruct i as [|[|[|[|[|[|[|[|i]]]]]]]]; try (inversion E; subst; assumption).
  destruct i; discriminate E.
Qed.
Ltac fmt F := exists F; split; [unfold formats, os_start; cbn [In]; tauto|apply fmt8; cbn [holds_kind]].

Lemma wide (d : Z) ws v : 0 <= d < 2 ^ 64 -> fold_right Z.add 0 ws = 64 -> Forall (fun w => 0 <= w) ws -> pack (split d 0 ws) = v -> v = d.
Proof. intros H E F <-. apply pack_split; [exact F|rewrite E; exact H]. Qed.

Ltac fill_facts d :=
  repeat match goal with K : snd (ec d ?c ?i) = false |- _ =>
    let A := fresh in let B := fresh "B" in let C := fresh "S" in let N := fresh "N" in
    destruct (ec_fill d c i K) as (A & B & C); clear K A; pose proof (fill_ne _ B) as N; destruct N as (? & ? & ?) end.

Ltac orbs := repeat match goal with K : (_ || _)%bool = false |- _ => apply orb_false_iff in K; destruct K | K : false = false |- _ => clear K end.

Ltac lane_goal := first
  [ reflexivity
  | split; [reflexivity|first [assumption | match goal with H : (lane _ _ =? _) = true |- _ => apply Z.eqb_eq in H; exact H end]] ].

Ltac rts := first [rewrite rt_os4|rewrite rt_start4|rewrite (fun d => rt_osstart d 0)|rewrite (fun d => rt_os04 d 0)|rewrite (fun d => rt_start0 d 0)|rewrite rt_os0
  |rewrite rt_term0|rewrite rt_term1|rewrite rt_term2|rewrite rt_term3|rewrite rt_term4|rewrite rt_term5|rewrite rt_term6|rewrite (fun d => rt_term7 d 0)|rewrite rt_ctrl].

Ltac flags d c :=
  unfold misplaced, inside, starts, ends, lane_is; cbn [seq existsb];
  repeat match goal with |- context [is_ctl (d, c) ?i] => let b := eval vm_compute in (Z.testbit c (Z.of_nat i)) in change (is_ctl (d, c) i) with b end;
  cbn [andb orb];
  repeat match goal with |- context [byte (d, c) ?i] => let j := eval vm_compute in (Z.of_nat i) in change (byte (d, c) i) with (lane d j) end;
  repeat match goal with H : (lane d _ =? _) = false |- _ => rewrite ?H; clear H end;
  repeat match goal with H : (lane d _ =? _) = true |- _ => apply Z.eqb_eq in H; rewrite ?H end;
  cbn [andb orb];
  repeat match goal with |- context [?a =? ?b] => let v := eval vm_compute in (a =? b) in change (a =? b) with v end;
  match goal with f : bool |- _ => destruct f; reflexivity end.

Ltac good_tac d c F ws :=
  let E := fresh "E" in intros E; unfold eerr in E;
  repeat match type of E with context [span ?a ?b] => let l := eval vm_compute in (span a b) in change (span a b) with l in E end;
  cbn [existsb] in E; orbs; fill_facts d;
  unfold good; splits;
  [ fmt F; lane_goal
  | rts; cbn [d_rxd]; unfold lanes; spans; cbn [map app];
    repeat match goal with K : seen d _ _ = lane d _ |- _ => rewrite K; clear K end;
    apply (@wide d ws); [assumption|reflexivity|repeat constructor; lia|];
    cbn [split Z.add Pos.add Pos.succ];
    repeat match goal with H : (lane d ?i =? ?v) = true |- _ => apply Z.eqb_eq in H; let o := eval vm_compute in (8 * i) in change (bits d o 8 = v) in H; rewrite H; clear H end;
    reflexivity
  | rts; cbn [d_rxc]; unfold rc; cbn [Z.eqb Pos.eqb andb]; repeat match goal with H : (lane d _ =? _) = true |- _ => apply Z.eqb_eq in H; rewrite ?H; clear H end;
    repeat match goal with H : (lane d _ =? _) = false |- _ => rewrite ?H; clear H end; reflexivity
  | rts; reflexivity
  | rts; cbn [d_seq]; flags d c
  | rts; cbn [d_frame]; flags d c ].

Ltac fok_tac2 := repeat (apply Forall_cons; [cbn [fst snd]; split; [lia|]; first [apply seen_range | apply bits_range; lia | split; vm_compute; congruence]|]); apply Forall_nil.

Lemma lane_of (L : list (Z * Z)) (rxc : Z) (i : nat) v : fok L -> field L (8 * Z.of_nat i) 8 = Some v -> byte (pack L, rxc) i = v.
Proof. intros K E. exact (field_bits L _ _ _ K E). Qed.

Ltac poor_tac2 d E :=
  unfold eerr in E;
  repeat match type of E with context [span ?a ?b] => let l := eval vm_compute in (span a b) in change (span a b) with l in E end;
  cbn [existsb] in E; rts; split; [|reflexivity]; cbn [d_rxd d_rxc]; unfold lanes; spans; cbn [map app];
  match goal with |- has_error (pack ?L, _) = true => let K := fresh "K" in assert (K : fok L) by fok_tac2;
    repeat (apply orb_true_iff in E; destruct E as [E|E];
      [ match type of E with snd (ec d ?c ?i) = true => 
         let n := eval vm_compute in (Z.to_nat i) in
         apply (@has_error_at _ n); [lia|reflexivity|];
         rewrite (@lane_of L _ n (seen d c i) K eq_refl); unfold seen; rewrite E; reflexivity end |]);
    discriminate E
  end.
Ltac poor_tac d := let E := fresh "E" in intros E; first [discriminate E | poor_tac2 d E].

Lemma word_rt d c f : wf (d, c) -> outcome d c f (encode d c).
Proof.
  intros [Hd Hc]. cbn [fst snd] in Hd, Hc. unfold encode.
  destruct (c =? 0) eqn:E0; [apply Z.eqb_eq in E0; subst c; clear Hc|].
  { split; [|discriminate]. intros _. unfold good. splits; try reflexivity.
    fmt [kD; kD; kD; kD; kD; kD; kD; kD]; reflexivity. }
  Ltac br d c F ws := match goal with |- outcome _ _ _ (if ?b then _ else _) => let E := fresh "E" in destruct b eqn:E;
    [ repeat match goal with H : _ && _ = true |- _ => let A := fresh "A" in apply andb_true_iff in H; destruct H as [H A] end;
      match goal with H : (c =? _) = true |- _ => apply Z.eqb_eq in H; match type of H with _ = ?v => subst c; split; [good_tac d v F ws|poor_tac d] end end | ] end.
  br d c [kC; kC; kC; kC; kO; kD; kD; kD] [8; 8; 8; 8; 8; 24].
  br d c [kC; kC; kC; kC; kS; kD; kD; kD] [8; 8; 8; 8; 8; 24].
  br d c [kO; kD; kD; kD; kS; kD; kD; kD] [8; 24; 8; 24].
  br d c [kO; kD; kD; kD; kO; kD; kD; kD] [8; 24; 8; 24].
  br d c [kS; kD; kD; kD; kD; kD; kD; kD] [8; 56].
  br d c [kO; kD; kD; kD; kC; kC; kC; kC] [8; 24; 8; 8; 8; 8].
  br d c [kT; kC; kC; kC; kC; kC; kC; kC] [8; 8; 8; 8; 8; 8; 8; 8].
  br d c [kD; kT; kC; kC; kC; kC; kC; kC] [8; 8; 8; 8; 8; 8; 8; 8].
  br d c [kD; kD; kT; kC; kC; kC; kC; kC] [16; 8; 8; 8; 8; 8; 8].
  br d c [kD; kD; kD; kT; kC; kC; kC; kC] [24; 8; 8; 8; 8; 8].
  br d c [kD; kD; kD; kD; kT; kC; kC; kC] [32; 8; 8; 8; 8].
  br d c [kD; kD; kD; kD; kD; kT; kC; kC] [40; 8; 8; 8].
  br d c [kD; kD; kD; kD; kD; kD; kT; kC] [48; 8; 8].
  br d c [kD; kD; kD; kD; kD; kD; kD; kT] [56; 8].
  br d c [kC; kC; kC; kC; kC; kC; kC; kC] [8; 8; 8; 8; 8; 8; 8; 8].
  split; [discriminate|]. intros _. rewrite rt_none. split; reflexivity.
Qed.
