(** Streams of frames through the receive hash. *)
From Verif Require Import Base.Prelude Nic.RxHash_model Nic.RxHash_spec Nic.RxHash_proof.
Local Open Scope Z_scope.

Section Stream.
Context (k : nat) (Hk : (0 < k)%nat) (key : Z).

(** * The output pipeline *)

Definition em (s : hparse) : option (Z * Z) :=
  if hp_valid s then Some (hp_type s, hash_next (part_next key s)) else None.
Definition pend (s : rhst) : list (option (Z * Z)) :=
  [if rh_valid s then Some (rh_type s, rh_hash s) else None;
   if hq_valid (rh_part s) then Some (hq_type (rh_part s), hash_next (rh_part s)) else None;
   em (rh_parse s)].

Fixpoint pstates (s : hparse) (is : list (option hbeat)) : list hparse :=
  match is with
  | [] => []
  | i :: t => parse_next k s i :: pstates (parse_next k s i) t
  end.

Lemma delay : forall is s,
  snd (trace (rh_step k key) s (map (pair false) is)) ++ pend (fst (trace (rh_step k key) s (map (pair false) is)))
  = pend s ++ map em (pstates (rh_parse s) is).
Proof.
  induction is as [|i is IH]; intros s; [rewrite app_nil_r; reflexivity|].
  cbn [map trace]. destruct (rh_step k key s (false, i)) as [s1 o] eqn:E.
  specialize (IH s1). destruct (trace (rh_step k key) s1 (map (pair false) is)) as [s2 os].
  cbn [fst snd app] in *. rewrite IH. unfold rh_step in E. injection E as <- <-. reflexivity.
Qed.

Lemma somes_app {A} (a b : list (option A)) : somes (a ++ b) = somes a ++ somes b.
Proof. unfold somes. rewrite map_app, concat_app. reflexivity. Qed.

Lemma pstates_app : forall a s b, pstates s (a ++ b) = pstates s a ++ pstates (fold_left (parse_next k) a s) b.
Proof. induction a as [|i a IH]; intros s b; cbn; [reflexivity|]. rewrite IH. reflexivity. Qed.

Lemma run_outputs is : 
  somes (snd (trace (rh_step k key) rh_init (map (pair false) (is ++ [None; None; None])))) =
  somes (map em (pstates (rh_parse rh_init) is)).
Proof.
  pose proof (delay (is ++ [None; None; None]) rh_init) as D.
  apply (f_equal (@somes (Z * Z))) in D. rewrite !(@somes_app (Z * Z)) in D.
  rewrite pstates_app, (map_app em), (@somes_app (Z * Z)) in D.
  assert (P0 : somes (pend rh_init) = []) by reflexivity. rewrite P0 in D.
  assert (P1 : forall s, somes (map em (pstates s [None; None; None])) = []) by (intros; reflexivity).
  rewrite P1, app_nil_r in D. cbn [app] in D. rewrite <- D.
  assert (P2 : somes (pend (fst (trace (rh_step k key) rh_init (map (pair false) (is ++ [None; None; None]))))) = []).
  { rewrite map_app, trace_app. destruct (trace (rh_step k key) rh_init (map (pair false) is)) as [s os].
    reflexivity. }
  rewrite P2, app_nil_r. reflexivity.
Qed.

(** * Bytes of a frame *)

Lemma lanes_length f : length (lanes k f) = (k * length f)%nat.
Proof.
  unfold lanes. induction f as [|b f IH]; cbn [map concat length]; [lia|].
  rewrite app_length, map_length, seq_length, IH. lia.
Qed.

Lemma lanes_app a b : lanes k (a ++ b) = lanes k a ++ lanes k b.
Proof. unfold lanes. rewrite map_app, concat_app. reflexivity. Qed.

Lemma lanes_at cur b x p : (p / k = length cur)%nat ->
  nth p (lanes k (cur ++ b :: x)) 0 = hb_data b (p mod k).
Proof.
  intros E. pose proof (Nat.div_mod p k ltac:(lia)) as DM. pose proof (Nat.mod_upper_bound p k ltac:(lia)) as MB.
  rewrite E in DM. rewrite lanes_app, app_nth2 by (rewrite lanes_length; lia).
  rewrite lanes_length. replace (p - k * length cur)%nat with (p mod k)%nat by lia.
  unfold lanes. cbn [map concat]. rewrite app_nth1 by (rewrite map_length, seq_length; lia).
  rewrite nth_indep with (d' := hb_data b 0) by (rewrite map_length, seq_length; lia).
  rewrite map_nth, seq_nth by lia. reflexivity.
Qed.

Lemma div_lt p n : (p / k < n)%nat <-> (p < k * n)%nat.
Proof.
  split; intros H.
  - pose proof (Nat.div_mod p k ltac:(lia)). pose proof (Nat.mod_upper_bound p k ltac:(lia)). nia.
  - apply Nat.div_lt_upper_bound; lia.
Qed.

Definition gl (f : list hbeat) (p : nat) : Z := nth p (lanes k f) 0.

(** * One report per frame *)

Lemma slice_data (data : nat -> Z) (l : list Z) m :
  (26 + m <= length l)%nat -> (forall p, (26 <= p < 26 + m)%nat -> data (p - 26)%nat = nth p l 0) ->
  map data (seq 0 m) = slice l 26 (26 + m).
Proof.
  intros H D. unfold slice. replace (26 + m - 26)%nat with m by lia.
  apply nth_ext with (d := 0) (d' := 0).
  - rewrite map_length, seq_length, firstn_length, skipn_length. lia.
  - intros i Hi. rewrite map_length, seq_length in Hi.
    rewrite nth_indep with (d' := data 0%nat) by (rewrite map_length, seq_length; lia).
    rewrite map_nth, seq_nth by lia. cbn [Nat.add].
    specialize (D (26 + i)%nat ltac:(lia)). replace (26 + i - 26)%nat with i in D by lia. rewrite D.
    rewrite <- (firstn_skipn 26 l) at 1. rewrite app_nth2 by (rewrite firstn_length; lia).
    rewrite firstn_length. replace (26 + i - Nat.min 26 (length l))%nat with i by lia.
    rewrite <- (firstn_skipn m (skipn 26 l)) at 1.
    rewrite app_nth1; auto. rewrite firstn_length, skipn_length. lia.
Qed.

Lemma verdict_ok n f x s : length f = n -> hp_valid s = true ->
  gverdict k (gl (f ++ x)) n s -> hash_ok key (lanes k (f ++ x)) (hp_type s, hash_next (part_next key s)).
Proof.
  intros HL HV (G1 & G2). unfold hash_ok. cbv zeta.
  pose proof (lanes_length (f ++ x)) as LL. rewrite app_length, HL in LL.
  assert (HG : forall p, (dv k p < n)%nat -> (p < length (lanes k (f ++ x)))%nat).
  { intros p Hp. unfold dv in Hp. rewrite div_lt in Hp. rewrite LL. nia. }
  pose proof (HG 13%nat G1). replace (length (lanes k (f ++ x)) <=? 13)%nat with false by lia.
  change (ethertype (lanes k (f ++ x))) with (gtype (gl (f ++ x))).
  change (is_tcp (lanes k (f ++ x))) with (gtcp (gl (f ++ x))).
  change (is_udp (lanes k (f ++ x))) with (gudp (gl (f ++ x))).
  destruct (gtype (gl (f ++ x)) =? 0x0800).
  - destruct G2 as (G2 & E4 & D1 & G3). pose proof (HG 33%nat G2).
    replace (length (lanes k (f ++ x)) <=? 33)%nat with false by lia.
    unfold hash_next, part_next. cbn [hq_ipv4 hq_tcp hq_udp hq_ip hq_port]. rewrite E4.
    destruct (gtcp (gl (f ++ x)) || gudp (gl (f ++ x))).
    + destruct G3 as (G3 & D2 & ET & EY). pose proof (HG 37%nat G3).
      replace (length (lanes k (f ++ x)) <=? 37)%nat with false by lia.
      rewrite ET, EY, parts_ok. f_equal. f_equal. apply (@slice_data _ _ 12); [lia|].
      intros p Hp. destruct (Nat.lt_ge_cases p 34); [apply D1|apply D2]; lia.
    + destruct G3 as (EY & ET). rewrite ET, EY, part_ip_ok. f_equal. f_equal. apply (@slice_data _ _ 8); [lia|].
      intros p Hp. apply D1; lia.
  - destruct G2 as (_ & E4 & EY). unfold hash_next, part_next. cbn [hq_ipv4]. rewrite E4, EY. reflexivity.
Qed.

Lemma short_ok f s h t : f <> [] -> act k (gl f) (length f) s -> hp_ipv4 t = hp_ipv4 s -> h = hash_next (part_next key t) ->
  hash_ok key (lanes k f) (0, h).
Proof.
  intros NE A E4 ->. pose proof (lanes_length f) as LL. 
  assert (N0 : (0 < length f)%nat) by (destruct f; [congruence|cbn; lia]).
  pose proof (ac_ipv4 A N0) as F4.
  assert (HG : forall p, (dv k p < length f)%nat <-> (p < length (lanes k f))%nat).
  { intros p. rewrite LL. unfold dv. apply div_lt. }
  unfold hash_ok. cbv zeta.
  change (ethertype (lanes k f)) with (gtype (gl f)).
  change (is_tcp (lanes k f)) with (gtcp (gl f)). change (is_udp (lanes k f)) with (gudp (gl f)).
  unfold hash_next, part_next. cbn [hq_ipv4]. rewrite E4, F4.
  destruct (Nat.leb_spec (length (lanes k f)) 13) as [L|L].
  - replace (dv k 13 <? length f)%nat with false; [reflexivity|]. symmetry. apply Nat.ltb_ge.
    apply Nat.le_ngt. intros Q. apply HG in Q. lia.
  - destruct (Z.eqb_spec (gtype (gl f)) 0x0800) as [H8|H8]; [|rewrite andb_false_r; reflexivity].
    destruct (Nat.leb_spec (length (lanes k f)) 33) as [L2|L2]; [reflexivity|].
    apply HG in L2. rewrite (ac_more A H8 L2).
    destruct (Nat.leb_spec (length (lanes k f)) 37) as [L3|L3]; [reflexivity|].
    apply HG in L3. exfalso. exact (ac_more2 A H8 L3).
Qed.

Lemma act0 g s : hp_ptr s = 0%nat -> act k g 0 s.
Proof.
  intros E. pose proof (ptrs_enough Hk). constructor; intros; try lia.
  rewrite E. rewrite Nat.mod_small; [reflexivity|]. eapply Nat.le_lt_trans; [apply Nat.le_0_l|exact H].
Qed.

Lemma act_ext g s t n : act k g n s ->
  hp_ptr t = hp_ptr s -> hp_hi t = hp_hi s -> hp_ihl t = hp_ihl s -> hp_ipv4 t = hp_ipv4 s ->
  hp_tcp t = hp_tcp s -> hp_udp t = hp_udp s -> hp_data t = hp_data s -> act k g n t.
Proof.
  intros A E1 E2 E3 E4 E5 E6 E7. destruct A. constructor; intros; rewrite ?E1, ?E2, ?E3, ?E4, ?E5, ?E6, ?E7; auto.
Qed.

(** The parser between two cycles; [pre] is what it has already reported about
    the frame in progress [cur]. *)
Definition pinv (s : hparse) (cur : list hbeat) (pre : list (Z * Z)) : Prop :=
  (hp_active s = true /\ (forall x, act k (gl (cur ++ x)) (length cur) s) /\ pre = []) \/
  (hp_active s = false /\ cur <> [] /\ exists o, pre = [o] /\ forall x, hash_ok key (lanes k (cur ++ x)) o).

Lemma frames_prefix : forall is cur, exists x, hd (snd (frames_from cur is)) (fst (frames_from cur is)) = cur ++ x.
Proof.
  induction is as [|[b|] is IH]; intros cur; cbn [frames_from].
  - exists []. rewrite app_nil_r. reflexivity.
  - destruct (hb_last b).
    + destruct (frames_from [] is). cbn. eauto.
    + destruct (IH (cur ++ [b])) as [x E]. exists (b :: x). rewrite E, <- app_assoc. reflexivity.
  - apply IH.
Qed.

Lemma frames_prefix_beat b is cur : exists x, hd (snd (frames_from cur (Some b :: is))) (fst (frames_from cur (Some b :: is))) = cur ++ b :: x.
Proof.
  cbn [frames_from]. destruct (hb_last b).
  - destruct (frames_from [] is). cbn. exists []. reflexivity.
  - destruct (frames_prefix is (cur ++ [b])) as [x E]. exists x. rewrite E, <- app_assoc. reflexivity.
Qed.

Definition result (fs : list (list hbeat)) (r : list hbeat) (os : list (Z * Z)) : Prop :=
  exists a tail, os = a ++ tail /\ Forall2 (fun f o => hash_ok key (lanes k f) o) fs a /\
                 (length tail <= 1)%nat /\ (r = [] -> tail = []).

Lemma result_cons f o fs r os : hash_ok key (lanes k f) o -> result fs r os -> result (f :: fs) r (o :: os).
Proof.
  intros H (a & tail & -> & F & L & N). exists (o :: a), tail. repeat split; auto.
Qed.

Lemma stream : forall is s cur pre,
  pinv s cur pre ->
  Forall (short_ipv6 k) (fst (frames_from cur is)) -> short_ipv6 k (snd (frames_from cur is)) ->
  result (fst (frames_from cur is)) (snd (frames_from cur is)) (pre ++ somes (map em (pstates s is))).
Proof.
  induction is as [|i is IH]; intros s cur pre HI HS HR.
  - cbn in *. rewrite app_nil_r. exists [], pre. repeat split; auto.
    + destruct HI as [(_ & _ & ->)|(_ & _ & o & -> & _)]; cbn; lia.
    + intros ->. destruct HI as [(_ & _ & ->)|(_ & N & _)]; congruence.
  - cbn [pstates map]. destruct i as [b|].
    2:{ cbn [frames_from] in *. change (somes (em (parse_next k s None) :: ?l)) with (somes l).
        apply IH; auto. destruct HI as [(A1 & A2 & A3)|HI]; [left|right]; auto.
        split; auto. split; auto. intros x. eapply act_ext; [apply A2|..]; reflexivity. }
    destruct (frames_prefix_beat b is cur) as [x0 EX].
    destruct HI as [(A1 & A2 & ->)|(A1 & NE & o & -> & A2)].
    + (* still looking *)
      assert (Hn : (length cur < rh_ptrs k)%nat).
      { pose proof (ptrs_enough Hk) as PE. destruct (Nat.lt_ge_cases (length cur) (rh_ptrs k)) as [|G]; auto. exfalso.
        pose proof (A2 (b :: x0)) as A. rewrite <- EX in *.
        assert (L37 : (dv k 37 < length cur)%nat) by (unfold dv; lia).
        pose proof (@dmono k Hk (fun _ => 0) 13%nat 37%nat ltac:(lia)) as D13.
        destruct (ac_type A) as [T|T]; [exact (Nat.le_lt_trans _ _ _ D13 L37)| |].
        - exact (ac_more2 A T L37).
        - set (f0 := hd _ _) in *.
          assert (Q : short_ipv6 k f0).
          { subst f0. destruct (frames_from cur (Some b :: is)) as [[|f fs] r]; cbn in *; auto. inversion HS; auto. }
          assert (LF : (length cur < length f0)%nat) by (rewrite EX, app_length; cbn; lia).
          specialize (Q ltac:(rewrite lanes_length; apply div_lt; unfold dv in *; eapply Nat.le_lt_trans; [exact D13|]; eapply Nat.lt_trans; [exact L37|exact LF]) T). lia. }
      clear x0 EX.
      assert (ST : forall x,
        let s' := parse_active k s b in
        (hp_active s' = true /\ hp_valid s' = false /\ act k (gl ((cur ++ [b]) ++ x)) (length (cur ++ [b])) s') \/
        (hp_active s' = false /\ hp_valid s' = true /\ gverdict k (gl ((cur ++ [b]) ++ x)) (length (cur ++ [b])) s')).
      { intros x. rewrite <- app_assoc. cbn [app]. rewrite app_length. cbn [length]. rewrite Nat.add_1_r.
        apply act_step; auto. intros p Hp. unfold gl. apply lanes_at. exact Hp. }
      cbv zeta in ST. cbn [parse_next]. rewrite A1. cbn [frames_from] in *. set (s1 := parse_active k s b) in *.
      clearbody s1.
      destruct (hp_active s1) eqn:EA.
      * assert (EV : hp_valid s1 = false) by (destruct (ST []) as [(_ & ? & _)|(? & _)]; auto; discriminate).
        assert (AA : forall x, act k (gl ((cur ++ [b]) ++ x)) (length (cur ++ [b])) s1).
        { intros x. destruct (ST x) as [(_ & _ & ?)|(? & _)]; auto; discriminate. }
        destruct (hb_last b).
        -- destruct (frames_from [] is) as [fs r] eqn:EF. cbn [fst snd] in *. inversion HS; subst.
           unfold em at 1. cbn [hp_valid hp_type]. rewrite EV. cbn [orb].
           change (somes (Some ?x :: ?l)) with (x :: somes l). cbn [app].
           apply result_cons.
           { specialize (AA []). rewrite app_nil_r in AA. eapply short_ok; [|exact AA|reflexivity|reflexivity].
             destruct cur; discriminate. }
           specialize (IH (mkHp true 0 (hp_hi s1) (hp_lo s1) (hp_ihl s1) (hp_data s1) (hp_ipv4 s1) (hp_tcp s1) (hp_udp s1) 0 true) [] []).
           rewrite EF in IH. cbn [fst snd app] in IH. apply IH; auto.
           left. split; auto. split; auto. intros x. apply act0. reflexivity.
        -- unfold em at 1. rewrite EV. change (somes (None :: ?l)) with (somes l). cbn [app].
           apply (IH s1 (cur ++ [b]) []); auto. left. auto.
      * assert (EV : hp_valid s1 = true) by (destruct (ST []) as [(? & _)|(_ & ? & _)]; auto; discriminate).
        assert (AA : forall x, hash_ok key (lanes k ((cur ++ [b]) ++ x)) (hp_type s1, hash_next (part_next key s1))).
        { intros x. destruct (ST x) as [(? & _)|(_ & _ & G)]; [discriminate|]. eapply verdict_ok; eauto. }
        destruct (hb_last b).
        -- destruct (frames_from [] is) as [fs r] eqn:EF. cbn [fst snd] in *. inversion HS; subst.
           unfold em at 1. cbn [hp_valid hp_type]. rewrite EV. cbn [orb].
           change (somes (Some ?x :: ?l)) with (x :: somes l). cbn [app].
           apply result_cons. { specialize (AA []). rewrite app_nil_r in AA. exact AA. }
           specialize (IH (mkHp true 0 (hp_hi s1) (hp_lo s1) (hp_ihl s1) (hp_data s1) (hp_ipv4 s1) (hp_tcp s1) (hp_udp s1) (hp_type s1) true) [] []).
           rewrite EF in IH. cbn [fst snd app] in IH. apply IH; auto.
           left. split; auto. split; auto. intros x. apply act0. reflexivity.
        -- unfold em at 1. rewrite EV. change (somes (Some ?x :: ?l)) with (x :: somes l). cbn [app].
           apply (IH s1 (cur ++ [b]) [_]); auto. right. split; auto. split; [destruct cur; discriminate|]. eauto.
    + clear x0 EX. cbn [parse_next]. rewrite A1. cbn [frames_from] in *.
      destruct (hb_last b).
      * destruct (frames_from [] is) as [fs r] eqn:EF. cbn [fst snd] in *. inversion HS; subst.
        cbn [hp_hi hp_lo hp_ihl hp_data hp_ipv4 hp_tcp hp_udp hp_active hp_type hp_valid orb].
        unfold em at 1. cbn [hp_valid]. change (somes (None :: ?l)) with (somes l). cbn [app].
        apply result_cons; [apply A2|].
        match goal with |- context [pstates ?z is] => specialize (IH z [] []) end.
        rewrite EF in IH. cbn [fst snd app] in IH. apply IH; auto.
        left. split; auto. split; auto. intros x. apply act0. reflexivity.
      * unfold em at 1. cbn [hp_valid]. change (somes (None :: ?l)) with (somes l).
        apply IH; auto. right. split; auto. split; [destruct cur; discriminate|]. exists o. split; auto.
        intros x. rewrite <- app_assoc. apply A2.
Qed.

Lemma hash_stream is :
  Forall (short_ipv6 k) (fst (frames_from [] is)) -> short_ipv6 k (snd (frames_from [] is)) ->
  exists reports early,
    somes (snd (trace (rh_step k key) rh_init (map (pair false) (is ++ [None; None; None])))) = reports ++ early /\
    Forall2 (fun f o => hash_ok key (lanes k f) o) (fst (frames_from [] is)) reports /\
    (length early <= 1)%nat /\ (snd (frames_from [] is) = [] -> early = []).
Proof.
  intros H1 H2. rewrite run_outputs. apply (@stream is (rh_parse rh_init) [] []); auto.
  left. split; auto. split; auto. intros x. apply act0. reflexivity.
Qed.

(** The same after a reset in any state, but for the two reports that may still be on their way. *)
Lemma hash_stream_reset s0 b is : let s := fst (rh_step k key s0 (true, b)) in
  Forall (short_ipv6 k) (fst (frames_from [] is)) -> short_ipv6 k (snd (frames_from [] is)) ->
  exists reports early,
    somes (skipn 2 (snd (trace (rh_step k key) s (map (pair false) (is ++ [None; None; None]))))) = reports ++ early /\
    Forall2 (fun f o => hash_ok key (lanes k f) o) (fst (frames_from [] is)) reports /\
    (length early <= 1)%nat /\ (snd (frames_from [] is) = [] -> early = []).
Proof.
  cbv zeta. intros H1 H2. set (s := fst (rh_step k key s0 (true, b))).
  assert (Q : (hp_active (rh_parse s), hp_ptr (rh_parse s), hp_valid (rh_parse s)) = (true, 0%nat, false)) by reflexivity.
  clearbody s. injection Q as Q1 Q2 Q3.
  assert (R : somes (skipn 2 (snd (trace (rh_step k key) s (map (pair false) (is ++ [None; None; None]))))) =
    somes (map em (pstates (rh_parse s) is))).
  { pose proof (delay (is ++ [None; None; None]) s) as D.
    assert (P2 : somes (pend (fst (trace (rh_step k key) s (map (pair false) (is ++ [None; None; None]))))) = []).
    { rewrite map_app, trace_app. destruct (trace (rh_step k key) s (map (pair false) is)) as [s' os]. reflexivity. }
    assert (LN : (2 <= length (snd (trace (rh_step k key) s (map (pair false) (is ++ [None; None; None])))))%nat).
    { rewrite trace_length, map_length, app_length. cbn. lia. }
    destruct (snd (trace (rh_step k key) s _)) as [|o1 [|o2 os]]; cbn in LN; try lia. cbn [skipn].
    unfold pend at 2 in D. cbn [app] in D. injection D as _ _ D. apply (f_equal (@somes (Z * Z))) in D.
    rewrite (@somes_app (Z * Z)), P2, app_nil_r in D. rewrite D.
    unfold em at 1. rewrite Q3. change (somes (None :: ?l)) with (somes l).
    rewrite pstates_app, (map_app em), (@somes_app (Z * Z)).
    assert (P1 : forall s, somes (map em (pstates s [None; None; None])) = []) by (intros; reflexivity).
    rewrite P1, app_nil_r. reflexivity. }
  rewrite R. apply (@stream is (rh_parse s) [] []); auto.
  left. split; auto. split; auto. intros x. apply act0. auto.
Qed.

End Stream.
