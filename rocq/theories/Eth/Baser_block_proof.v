From Verif Require Import Base.Prelude Base.Bits Eth.Baser_model Eth.Baser_spec Eth.Baser_proof.
From Coq Require Import Lia.
Local Open Scope Z_scope.
#[local] Unset Implicit Arguments.

Lemma sub_bits x o w b v : 0 <= o -> 0 <= b -> 0 <= v -> b + v <= w -> bits x (o + b) v = bits (bits x o w) b v.
Proof.
  intros. apply Z.bits_inj'. intros n Hn. rewrite !bits_testbit by lia.
  destruct (Z.ltb_spec n v); [|rewrite !andb_false_r; reflexivity].
  destruct (Z.ltb_spec (n + b) w); [|lia]. rewrite !andb_true_r. f_equal. lia.
Qed.

Fixpoint at_field (l : list (Z * Z)) (o N : Z) : Z * Z :=
  match l with [] => (o, 0) | (w, _) :: l => if N <? o + w then (o, w) else at_field l (o + w) N end.

Lemma fill_code d c i : Z.testbit c i = true -> In (lane d i) fill -> In (lane d i, fst (ec d c i)) control_codes.
Proof.
  intros T I. unfold ec. rewrite T. cbn in I.
  repeat (destruct I as [I|I]; [rewrite <- I; cbn; tauto|]). destruct I.
Qed.

Ltac piece x L Ex K :=
  match goal with
  | |- bits x ?o ?w = _ => rewrite (@bits_at x L o w _ Ex K eq_refl)
  | |- bits x ?N 8 = _ =>
      let p := eval vm_compute in (at_field L 0 N) in
      match p with (?o, ?w) =>
        let b := eval vm_compute in (N - o) in
        change (bits x N 8) with (bits x (o + b) 8);
        rewrite (sub_bits x o w b 8) by lia; rewrite (@bits_at x L o w _ Ex K eq_refl);
        rewrite <- sub_bits by lia end
  end.

Ltac topart x :=
  match goal with |- part x ?lo ?w = ?r =>
    let a := eval vm_compute in (Z.of_nat lo) in let b := eval vm_compute in (Z.of_nat w) in change (bits x a b = r) end.
Ltac one_format d c H Hc Bad :=
  pose proof (H 0%nat _ eq_refl) as H0; pose proof (H 1%nat _ eq_refl) as H1; pose proof (H 2%nat _ eq_refl) as H2;
  pose proof (H 3%nat _ eq_refl) as H3; pose proof (H 4%nat _ eq_refl) as H4; pose proof (H 5%nat _ eq_refl) as H5;
  pose proof (H 6%nat _ eq_refl) as H6; pose proof (H 7%nat _ eq_refl) as H7; clear H;
  cbn [holds_kind] in *; unfold is_ctl in *; cbn [fst snd] in *;
  repeat match goal with K : _ /\ In _ _ |- _ => let A := fresh in let B := fresh "I" in destruct K as [A B] end;
  repeat match goal with K : _ /\ _ = _ |- _ => let A := fresh in let B := fresh "V" in destruct K as [A B] end;
  repeat match goal with K : Z.testbit c _ = _ |- _ => rewrite K in Hc; clear K end;
  match type of Hc with c = ?v => let v' := eval vm_compute in v in change v with v' in Hc end; subst c;
  repeat match goal with K : byte (d, ?c) ?i = ?v |- _ => change (lane d (Z.of_nat i) = v) in K; cbn [Z.of_nat Pos.of_succ_nat Pos.succ] in K end;
  repeat match goal with K : In (byte (d, ?c) ?i) fill |- _ => change (In (lane d (Z.of_nat i)) fill) in K; cbn [Z.of_nat Pos.of_succ_nat Pos.succ] in K end;
  revert Bad; unfold encode; cbn [Z.eqb Pos.eqb andb];
  repeat match goal with K : lane d ?i = _ |- _ => rewrite K end;
  repeat match goal with K : In (lane d ?i) fill |- context [eerr d ?c _ _] =>
     let A := fresh in let B := fresh in let C := fresh in destruct (fill_ne _ K) as (A & B & C);
     apply (@fill_code d c i eq_refl) in K; unfold XT, XS, XO; rewrite ?A, ?B, ?C; clear A B C end;
  cbn [Z.eqb Pos.eqb andb XS XT XO snd]; intros Bad;
  first [ left; split; reflexivity
      | right; eexists; split; [rewrite Bad || idtac; reflexivity|] ];
  tryif (clear Bad) then (unfold ectl; spans; cbn [map app repeat];
    match goal with |- control_block _ _ (pack ?L) =>
    let K := fresh "K" in assert (K : fok L) by fok_tac;
    let x := fresh "x" in let Ex := fresh "Ex" in remember (pack L) as x eqn:Ex;
    let i := fresh "i" in let k := fresh "k" in let E := fresh "E" in
    split;
    [eexists; split; [unfold block_types, formats, os_start; cbn [combine skipn In]; repeat (first [left; reflexivity|right])|topart x; piece x L Ex K; reflexivity]|];
    intros i k E;
    do 8 (destruct i as [|i]; [injection E as <-;
      first [ exact Logic.I
            | eexists; split; [|topart x; piece x L Ex K; reflexivity]; match goal with I : In _ control_codes |- _ => exact I end
            | topart x; piece x L Ex K; reflexivity ]|]);
    destruct i; discriminate E end) else idtac.

Lemma encode_block d c f : wf (d, c) -> In f formats -> has_format (d, c) f -> f = repeat kD 8 /\ encode d c = (d, 2, false) \/
  exists x, encode d c = (x, 1, false) /\ control_block (d, c) f x.
Proof.
  intros W If H. pose proof (encode_legal d c W (ex_intro _ f (conj If H))) as Bad.
  destruct W as [Hd Hc]. cbn [fst snd] in Hd, Hc. apply c_bits in Hc. cbn [seq map] in Hc.
  unfold formats, os_start in If. cbn [In] in If.
  do 16 (destruct If as [<-|If]; [one_format d c H Hc Bad|]). destruct If.
Qed.

Lemma enc_out ws : forall s n w o, nth_error ws n = Some w -> nth_error (snd (trace e_step s ws)) (S n) = Some o -> o = encode (fst w) (snd w).
Proof.
  induction ws as [|v ws IH]; intros s n w o A B; [destruct n; discriminate|].
  cbn [trace e_step] in B. destruct (trace e_step (encode (fst v) (snd v)) ws) as [t os] eqn:T. cbn [snd nth_error] in B.
  destruct n as [|n]; cbn in A.
  - injection A as <-. destruct ws as [|u ws]; cbn [trace e_step] in T; [injection T as _ <-; discriminate|].
    destruct (trace e_step (encode (fst u) (snd u)) ws). injection T as _ <-. cbn in B. congruence.
  - apply (IH (encode (fst v) (snd v)) n w o A). rewrite T. exact B.
Qed.

Lemma block_format s ws n w o f : nth_error ws n = Some w -> nth_error (snd (trace e_step s ws)) (S n) = Some o ->
  wf w -> In f formats -> has_format w f ->
  let '(x, h, bad) := o in
  bad = false /\ (if forallb (fun k => match k with kD => true | _ => false end) f then h = 2 /\ x = fst w else h = 1 /\ control_block w f x).
Proof.
  intros A B W If H. rewrite (enc_out ws s n w o A B). clear A B. destruct w as [d c]. cbn [fst snd].
  destruct (encode_block d c f W If H) as [[-> E]|(x & E & C)]; rewrite E; split; auto.
  - cbn. auto.
  - assert (G : forallb (fun k => match k with kD => true | _ => false end) f = false); [|rewrite G; auto].
    destruct C as [(t & I & _) _]. unfold block_types, formats, os_start in I. cbn [combine skipn In] in I.
    repeat (destruct I as [I|I]; [injection I as <- _; reflexivity|]). destruct I.
Qed.
