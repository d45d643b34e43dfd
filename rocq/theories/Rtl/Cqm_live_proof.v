(** Base address byte writes, and progress of retirement. *)
From Verif Require Import Base.Prelude Base.Bits Rtl.OpTable_model Rtl.OpTable_spec Rtl.OpTable_proof
  Rtl.Pipe_proof Rtl.Handshake_spec Rtl.Cqm_model Rtl.Cqm_spec Rtl.Cqm_proof Rtl.Cqm_hist_proof.
Open Scope Z_scope.

Lemma setbits_bits_testbit x lo w data k n :
  0 <= lo -> 0 <= w -> 0 <= n -> 0 <= k ->
  Z.testbit (setbits x lo w (bits data k w)) n =
  if ((lo <=? n) && (n <? lo + w))%bool then Z.testbit data (n - lo + k) else Z.testbit x n.
Proof.
  intros. rewrite setbits_testbit by lia.
  destruct (Z.leb_spec lo n); simpl; auto. destruct (Z.ltb_spec n (lo + w)); auto.
  rewrite bits_testbit by lia. destruct (Z.ltb_spec (n - lo) w); [|lia]. now rewrite andb_true_r.
Qed.

(** The low word: byte n of the data is taken when strobe n-1 is set. *)
Lemma base_lo_bits base data strb n : 0 <= n ->
  Z.testbit (base_lo base data strb) n =
  if ((12 <=? n) && (n <? 32) && Z.testbit strb (n / 8 - 1))%bool
  then Z.testbit data n else Z.testbit base n.
Proof.
  intros Hn. unfold base_lo. cbv zeta.
  assert (C : n < 12 \/ 12 <= n < 16 \/ 16 <= n < 24 \/ 24 <= n < 32 \/ 32 <= n) by lia.
  destruct C as [C|[C|[C|[C|C]]]];
    [|assert (n / 8 - 1 = 0) as -> by (replace (n / 8) with 1 by (apply (Z.div_unique n 8 1 (n - 8)); lia); lia)
     |assert (n / 8 - 1 = 1) as -> by (replace (n / 8) with 2 by (apply (Z.div_unique n 8 2 (n - 16)); lia); lia)
     |assert (n / 8 - 1 = 2) as -> by (replace (n / 8) with 3 by (apply (Z.div_unique n 8 3 (n - 24)); lia); lia)|];
    destruct (Z.testbit strb 2), (Z.testbit strb 1), (Z.testbit strb 0);
    rewrite ?setbits_bits_testbit by lia;
    repeat match goal with
      | |- context [?a <=? ?b] => destruct (Z.leb_spec a b); try lia
      | |- context [?a <? ?b] => destruct (Z.ltb_spec a b); try lia
      end; simpl; auto; f_equal; lia.
Qed.

Lemma base_hi_bits base data strb n : 0 <= n ->
  Z.testbit (base_hi base data strb) n =
  if ((32 <=? n) && (n <? 64) && Z.testbit strb ((n - 32) / 8))%bool
  then Z.testbit data (n - 32) else Z.testbit base n.
Proof.
  intros Hn. unfold base_hi. cbv zeta.
  assert (C : n < 32 \/ 32 <= n < 40 \/ 40 <= n < 48 \/ 48 <= n < 56 \/ 56 <= n < 64 \/ 64 <= n) by lia.
  destruct C as [C|[C|[C|[C|[C|C]]]]];
    [|assert ((n - 32) / 8 = 0) as -> by (symmetry; apply (Z.div_unique (n-32) 8 0 (n - 32)); lia)
     |assert ((n - 32) / 8 = 1) as -> by (symmetry; apply (Z.div_unique (n-32) 8 1 (n - 40)); lia)
     |assert ((n - 32) / 8 = 2) as -> by (symmetry; apply (Z.div_unique (n-32) 8 2 (n - 48)); lia)
     |assert ((n - 32) / 8 = 3) as -> by (symmetry; apply (Z.div_unique (n-32) 8 3 (n - 56)); lia)|];
    destruct (Z.testbit strb 3), (Z.testbit strb 2), (Z.testbit strb 1), (Z.testbit strb 0);
    rewrite ?setbits_bits_testbit by lia;
    repeat match goal with
      | |- context [?a <=? ?b] => destruct (Z.leb_spec a b); try lia
      | |- context [?a <? ?b] => destruct (Z.ltb_spec a b); try lia
      end; simpl; auto; f_equal; lia.
Qed.

(** Progress. *)
Definition no_fin (es : list qev) : Prop := forall q p e, ~ In (EvFin q p e) es.

Lemma head_stays N csz A es B o r :
  aruns N csz A es B -> no_fin es -> a_ops A = o :: r -> so_done o = true ->
  exists r', a_ops B = o :: r'.
Proof.
  intros H. revert r. induction H as [A|A e B es C Hs Hr IH]; intros r Hn Ho Hd; [eauto|].
  assert (Hn' : no_fin es) by (intros q p e' Hi; apply (Hn q p e'); right; auto).
  assert (exists r', a_ops B = o :: r') as (r' & Hr').
  { destruct Hs as [q reg data strb|q reg|q tag Hok|q tag Hok Hl|j Hj Hdn|o' rest El Hdn];
      cbn [a_ops]; eauto.
    - rewrite Ho. simpl. eauto.
    - rewrite Ho in *. destruct j; simpl in *; [congruence|eauto].
    - exfalso. eapply Hn. left. reflexivity. }
  eapply IH; eauto.
Qed.

Lemma last_stage_nofin N csz ram t st ram' t1 rsp b r db evs :
  last_stage N csz ram t st = (ram', t1, rsp, b, r, db, evs) -> no_fin evs.
Proof.
  destruct st as [[[q reg data strb|q reg|q ptr|q tag] d]|]; cbn [last_stage]; intros H.
  - destruct (do_write d reg data strb). injection H as <- <- <- <- <- <- <-.
    intros ? ? ? [E|[]]; discriminate.
  - injection H as <- <- <- <- <- <- <-. intros ? ? ? [E|[]]; discriminate.
  - destruct (do_fin d ptr). injection H as <- <- <- <- <- <- <-. intros ? ? ? [].
  - destruct (do_req csz t q tag d) as [rr []]; injection H as <- <- <- <- <- <- <-;
      intros ? ? ? [E|[]]; discriminate.
  - injection H as <- <- <- <- <- <- <-. intros ? ? ? [].
Qed.

Lemma step_fin N csz s i q p :
  (exists e, In (EvFin q p e) (o_ev (snd (qm_step N csz s i)))) <-> accept s i = Some (PFin q p).
Proof.
  unfold qm_step.
  destruct (last_stage N csz (m_ram s) (m_tab s) (last (m_pipe s) None))
    as [[[[[[ram' t1] rsp] b] r] db] evs] eqn:EL.
  apply last_stage_nofin in EL.
  assert (Hc : forall x e, In (EvFin q p e) (snd (match i_commit i with
            | Some tag => if m_crdy s then (tab_commit x tag, [EvCommit tag]) else (x, [])
            | None => (x, []) end)) -> False).
  { intros x e. destruct (i_commit i); [destruct (m_crdy s)|]; simpl; intuition discriminate. }
  destruct (accept s i) as [[qq rr dd bb|qq rr|qq pp|qq tt]|] eqn:Ea;
  match goal with |- context [match i_commit i with _ => _ end] =>
    match goal with |- context [tab_commit ?x _] => specialize (Hc x) end end;
  destruct (match i_commit i with Some _ => _ | None => _ end) as [t3 ev2];
  cbn [o_ev snd] in *;
  (split; [intros [e H]; rewrite !in_app_iff in H; cbn [In] in H; destruct H as [H|[H|H]];
           [exfalso; eapply EL; eauto| |exfalso; eauto]|]);
  try (intros E; discriminate E); try tauto.
  - destruct H as [H|[]]. injection H as -> -> _. reflexivity.
  - intros E; injection E as -> ->. eexists. rewrite !in_app_iff. cbn [In]. eauto.
Qed.

Lemma quiet_accept s i o : quiet i -> acc_fin s i = None -> accept s i = Some o ->
  is_req o = true /\ hazard (m_pipe s) (pop_q o) = false.
Proof.
  intros (H1 & H2 & _) Hf. unfold accept, orelse, acc_write, acc_read. rewrite H1, H2, Hf.
  unfold acc_req. destruct (i_req i) as [[q tag]|]; [|discriminate].
  match goal with |- (if ?c then _ else _) = _ -> _ => destruct c eqn:Ec; [|discriminate] end.
  intros E; injection E as <-. rewrite !andb_true_iff, !negb_true_iff in Ec. cbn. tauto.
Qed.

Lemma quiet_fin s i o : quiet i -> acc_fin s i = Some o -> accept s i = Some o.
Proof.
  intros (H1 & H2 & _) Hf. unfold accept, orelse, acc_write, acc_read. rewrite H1, H2, Hf. reflexivity.
Qed.

Lemma head_acc_fin N s A i o r :
  Rel N s A -> quiet i -> a_ops A = o :: r -> so_done o = true ->
  acc_fin s i = if (negb (in_pipe is_fin (m_pipe s)) && negb (hazard (m_pipe s) (so_q o)))%bool
              then Some (PFin (so_q o) (so_ptr o)) else None.
Proof.
  intros R (_ & _ & Hq) Ho Hd. pose proof (r_tab R) as T. rewrite Ho in T.
  destruct (ot_head T) as [Ha He]. unfold acc_fin. cbv zeta. rewrite Ha, Hq, orb_true_r.
  rewrite He in Hd |- *. cbn [so_done so_q so_ptr] in *. rewrite Hd. reflexivity.
Qed.

Lemma hazard_split p q : p <> [] ->
  hazard p q = (hazard (removelast p) q ||
                match last p None with Some (o, _) => pop_q o =? q | None => false end)%bool.
Proof.
  intros Hp. unfold hazard. rewrite (pipe_split Hp) at 1. rewrite existsb_app. simpl.
  now rewrite orb_false_r.
Qed.

Lemma hazard_false_keys p q : ~ In q (keys pop_q p) -> hazard p q = false.
Proof.
  unfold hazard. induction p as [|[[o d]|] p IH]; simpl; auto. intros H.
  rewrite IH by tauto. destruct (Z.eqb_spec (pop_q o) q); [subst; tauto|auto].
Qed.

Lemma hazard_at p q : hazard p q = true ->
  exists k o d, nth_error p k = Some (Some (o, d)) /\ pop_q o = q.
Proof.
  unfold hazard. intros H. apply existsb_exists in H. destruct H as ([[o d]|] & Hi & H); [|discriminate].
  apply In_nth_error in Hi. destruct Hi as (k & Hk). apply Z.eqb_eq in H. eauto 6.
Qed.

Lemma step_pipe N csz s i :
  m_pipe (fst (qm_step N csz s i)) =
  (match accept s i with Some o => Some (o, m_ram s (pop_q o)) | None => None end)
    :: removelast (m_pipe s).
Proof.
  destruct (qm_step_shape N csz s i) as (ram & t & rsp & b & r & db & ev & gen & ->). reflexivity.
Qed.

Lemma removelast_length' A (l : list A) : length (removelast l) = (length l - 1)%nat.
Proof.
  destruct l as [|a l]; auto.
  rewrite (@app_removelast_last _ (a :: l) a) at 2 by discriminate. rewrite app_length. simpl. lia.
Qed.

Lemma nth_error_removelast A (l : list A) k : (k + 1 < length l)%nat ->
  nth_error (removelast l) k = nth_error l k.
Proof.
  intros H. destruct l as [|a l]; [simpl in H; lia|].
  rewrite (@app_removelast_last _ (a :: l) a) at 2 by discriminate.
  rewrite nth_error_app1; auto. rewrite removelast_length'. lia.
Qed.

Lemma in_pipe_step N csz s i : m_pipe s <> [] -> in_pipe is_fin (m_pipe s) = false ->
  (forall o, accept s i = Some o -> is_fin o = false) ->
  in_pipe is_fin (m_pipe (fst (qm_step N csz s i))) = false.
Proof.
  intros Hp H Ha. rewrite step_pipe. unfold in_pipe in *.
  rewrite (pipe_split Hp), existsb_app in H. apply orb_false_iff in H. destruct H as [H _].
  cbn [existsb]. rewrite H, orb_false_r. destruct (accept s i) as [o|]; auto.
Qed.

(** A cycle without a finish leaves the oldest operation in place. *)
Lemma blocked_step N csz s A i out o r :
  0 <= csz -> 0 < N <= 256 -> Rel N s A -> tagsok N out A -> quiet i ->
  a_ops A = o :: r -> so_done o = true -> acc_fin s i = None ->
  commits_ok out (o_ev (snd (qm_step N csz s i))) ->
  exists B r', Rel N (fst (qm_step N csz s i)) B /\
    tagsok N (out_after out (o_ev (snd (qm_step N csz s i)))) B /\
    a_ops B = o :: r' /\
    (forall x, accept s i = Some x -> is_fin x = false) /\
    length (m_pipe (fst (qm_step N csz s i))) = length (m_pipe s).
Proof.
  intros Hc HN R T Hq Ho Hd Hf HO.
  destruct (@step_sim N csz s A i out Hc HN R T HO) as (B & B1 & B2 & B3).
  assert (Hnf : no_fin (o_ev (snd (qm_step N csz s i)))).
  { intros q p e Hi.
    assert (Hx : accept s i = Some (PFin q p)) by (apply (step_fin N csz); eauto).
    destruct (quiet_accept s Hq Hf Hx) as [E _]. discriminate. }
  destruct (head_stays B1 Hnf Ho Hd) as (r' & Hr').
  exists B, r'. splits; auto.
  - intros x Ea. destruct (quiet_accept s Hq Hf Ea) as [E _]. destruct x; try discriminate; reflexivity.
  - rewrite step_pipe. simpl. rewrite removelast_length'. pose proof (r_pipe R).
    destruct (m_pipe s); [congruence|simpl; lia].
Qed.

Definition has_fin (es : list qev) : Prop := exists q p e, In (EvFin q p e) es.

Lemma has_fin_app a b : has_fin (a ++ b) <-> has_fin a \/ has_fin b.
Proof.
  unfold has_fin. split.
  - intros (q & p & e & H). apply in_app_or in H. destruct H; [left|right]; eauto.
  - intros [(q & p & e & H)|(q & p & e & H)]; exists q, p, e; apply in_or_app; auto.
Qed.

Lemma live_free N csz s A i o r :
  Rel N s A -> quiet i -> a_ops A = o :: r -> so_done o = true ->
  in_pipe is_fin (m_pipe s) = false -> hazard (m_pipe s) (so_q o) = false ->
  has_fin (o_ev (snd (qm_step N csz s i))).
Proof.
  intros R Hq Ho Hd H0 Hh.
  destruct (proj2 (step_fin N csz s i (so_q o) (so_ptr o))) as [e He].
  - apply quiet_fin; auto. rewrite (head_acc_fin R Hq Ho Hd), H0, Hh. reflexivity.
  - exists (so_q o), (so_ptr o), e. exact He.
Qed.

Lemma live_hazard N csz : 0 <= csz -> 0 < N <= 256 ->
  forall m s A out is o r k x dd,
  Rel N s A -> tagsok N out A -> Forall quiet is ->
  a_ops A = o :: r -> so_done o = true -> in_pipe is_fin (m_pipe s) = false ->
  nth_error (m_pipe s) k = Some (Some (x, dd)) -> pop_q x = so_q o ->
  (k + m + 1 = length (m_pipe s))%nat -> (m + 2 <= length is)%nat ->
  commits_ok out (events (snd (trace (qm_step N csz) s is))) ->
  has_fin (events (snd (trace (qm_step N csz) s is))).
Proof.
  intros Hc HN m. induction m as [|m IH]; intros s A out is o r k x dd R T Hqs Ho Hd Hnf Hk Hx Hlen Hl HO.
  all: destruct is as [|i is]; [simpl in Hl; lia|]; inversion Hqs as [|? ? Hqi Hqs']; subst.
  all: cbn [trace] in *; destruct (qm_step N csz s i) as [s1 ob] eqn:Es;
       destruct (trace (qm_step N csz) s1 is) as [s2 os] eqn:Et; cbn [snd] in *;
       rewrite events_cons in *; apply commits_ok_app in HO; destruct HO as [HO1 HO2].
  all: assert (Hh : hazard (m_pipe s) (so_q o) = true) by
        (apply existsb_exists; exists (Some (x, dd)); split; [eapply nth_error_In; eauto|
         rewrite Hx; apply Z.eqb_refl]).
  all: assert (Hf : acc_fin s i = None) by
        (rewrite (head_acc_fin R Hqi Ho Hd), Hh; rewrite andb_false_r; reflexivity).
  all: destruct (@blocked_step N csz s A i out o r Hc HN R T Hqi Ho Hd Hf) as (B & r' & RB & TB & HoB & H0 & HlB);
       [rewrite Es; exact HO1|].
  all: pose proof (@in_pipe_step N csz s i (r_pipe R) Hnf H0) as Hnf1; rewrite Es in RB, TB, Hnf1, HlB;
       cbn [fst snd] in RB, TB, Hnf1, HlB.
  all: assert (Hp1 : m_pipe s1 = (match accept s i with Some o => Some (o, m_ram s (pop_q o)) | None => None end)
         :: removelast (m_pipe s)) by (rewrite <- (step_pipe N csz s i), Es; reflexivity).
  all: apply has_fin_app; right.
  - destruct is as [|i2 is]; [simpl in Hl; lia|]. inversion Hqs' as [|? ? Hqi2 _]; subst.
    cbn [trace] in Et. destruct (qm_step N csz s1 i2) as [s3 ob3] eqn:Es3.
    destruct (trace (qm_step N csz) s3 is) as [s4 os4]. injection Et as <- <-.
    rewrite events_cons. apply has_fin_app; left.
    replace ob3 with (snd (qm_step N csz s1 i2)) by (rewrite Es3; reflexivity).
    eapply live_free; eauto.
    apply hazard_false_keys. rewrite Hp1.
    assert (Hlast : last (m_pipe s) None = Some (x, dd)).
    { pose proof (r_pipe R) as Hp. rewrite (pipe_split Hp) in Hk.
      rewrite nth_error_app2 in Hk; rewrite removelast_length' in *; [|lia].
      replace (k - (length (m_pipe s) - 1))%nat with 0%nat in Hk by lia. simpl in Hk. congruence. }
    destruct (coh_last (r_pipe R) (r_coh R) Hlast) as [_ Hni]. rewrite Hx in Hni.
    destruct (accept s i) as [y|] eqn:Ea; simpl; [|exact Hni].
    intros [E|E]; [|auto]. destruct (quiet_accept s Hqi Hf Ea) as [_ Hhy]. rewrite E in Hhy. congruence.
  - change os with (snd (s2, os)). rewrite <- Et.
    eapply IH with (k := S k) (A := B); eauto.
    + rewrite Hp1. simpl. rewrite nth_error_removelast by lia. exact Hk.
    + lia.
    + simpl in Hl. lia.
    + rewrite Et. exact HO2.
Qed.

Lemma live_nofin N csz s A out is o r :
  0 <= csz -> 0 < N <= 256 -> Rel N s A -> tagsok N out A -> Forall quiet is ->
  a_ops A = o :: r -> so_done o = true -> in_pipe is_fin (m_pipe s) = false ->
  (length (m_pipe s) + 1 <= length is)%nat ->
  commits_ok out (events (snd (trace (qm_step N csz) s is))) ->
  has_fin (events (snd (trace (qm_step N csz) s is))).
Proof.
  intros Hc HN R T Hqs Ho Hd H0 Hl HO.
  destruct (hazard (m_pipe s) (so_q o)) eqn:Eh.
  - destruct (hazard_at _ _ Eh) as (k & x & dd & Hk & Hx).
    assert (k < length (m_pipe s))%nat by (apply nth_error_Some; congruence).
    eapply live_hazard with (m := (length (m_pipe s) - 1 - k)%nat) (k := k); eauto; lia.
  - destruct is as [|i is]; [simpl in Hl; lia|]. inversion Hqs; subst.
    cbn [trace]. destruct (qm_step N csz s i) as [s1 ob] eqn:Es.
    destruct (trace (qm_step N csz) s1 is) as [s2 os] eqn:Et. cbn [snd]. rewrite events_cons.
    apply has_fin_app; left. replace ob with (snd (qm_step N csz s i)) by (rewrite Es; reflexivity).
    eapply live_free; eauto.
Qed.

(** Finishes already in the pipeline drain first. *)
Lemma live_drain N csz : 0 <= csz -> 0 < N <= 256 ->
  forall m s A out is o r,
  Rel N s A -> tagsok N out A -> Forall quiet is ->
  a_ops A = o :: r -> so_done o = true ->
  (forall k x d, nth_error (m_pipe s) k = Some (Some (x, d)) -> is_fin x = true ->
     (length (m_pipe s) <= k + m)%nat) ->
  (m + length (m_pipe s) + 1 <= length is)%nat ->
  commits_ok out (events (snd (trace (qm_step N csz) s is))) ->
  has_fin (events (snd (trace (qm_step N csz) s is))).
Proof.
  intros Hc HN m. induction m as [|m IH]; intros s A out is o r R T Hqs Ho Hd Hfp Hl HO.
  - eapply live_nofin; eauto.
    destruct (in_pipe is_fin (m_pipe s)) eqn:E; auto.
    unfold in_pipe in E. apply existsb_exists in E. destruct E as ([[x d]|] & Hi & Hx); [|discriminate].
    apply In_nth_error in Hi. destruct Hi as (k & Hk).
    assert (k < length (m_pipe s))%nat by (apply nth_error_Some; congruence).
    specialize (Hfp _ _ _ Hk Hx). lia.
  - destruct is as [|i is]; [simpl in Hl; lia|]. inversion Hqs as [|? ? Hqi Hqs']; subst.
    cbn [trace] in *; destruct (qm_step N csz s i) as [s1 ob] eqn:Es;
       destruct (trace (qm_step N csz) s1 is) as [s2 os] eqn:Et; cbn [snd] in *;
       rewrite events_cons in *; apply commits_ok_app in HO; destruct HO as [HO1 HO2].
    apply has_fin_app.
    destruct (acc_fin s i) as [z|] eqn:Hf.
    { left. replace ob with (snd (qm_step N csz s i)) by (rewrite Es; reflexivity).
      pose proof Hf as Hf'. rewrite (head_acc_fin R Hqi Ho Hd) in Hf'.
      destruct (_ && _)%bool in Hf'; [|discriminate]. injection Hf' as <-.
      destruct (proj2 (step_fin N csz s i (so_q o) (so_ptr o))) as [e He].
      - apply quiet_fin; auto.
      - exists (so_q o), (so_ptr o), e. exact He. }
    right.
    destruct (@blocked_step N csz s A i out o r Hc HN R T Hqi Ho Hd Hf) as (B & r' & RB & TB & HoB & H0 & HlB).
    { rewrite Es; exact HO1. }
    rewrite Es in RB, TB, HlB. cbn [fst snd] in RB, TB, HlB.
    assert (Hp1 : m_pipe s1 = (match accept s i with Some o => Some (o, m_ram s (pop_q o)) | None => None end)
         :: removelast (m_pipe s)) by (rewrite <- (step_pipe N csz s i), Es; reflexivity).
    change os with (snd (s2, os)). rewrite <- Et.
    eapply IH with (A := B); eauto.
    + intros k x d Hk Hx. rewrite HlB. rewrite Hp1 in Hk. destruct k as [|k]; simpl in Hk.
      * destruct (accept s i) as [y|] eqn:Ea; [|discriminate]. injection Hk as <- _.
        rewrite H0 in Hx by auto. discriminate.
      * assert (k < length (removelast (m_pipe s)))%nat by (apply nth_error_Some; congruence).
        rewrite removelast_length' in H. rewrite nth_error_removelast in Hk by lia.
        specialize (Hfp _ _ _ Hk Hx). lia.
    + simpl in Hl. lia.
    + rewrite Et. exact HO2.
Qed.

Lemma live N csz s A out is o r :
  0 <= csz -> 0 < N <= 256 -> Rel N s A -> tagsok N out A -> Forall quiet is ->
  a_ops A = o :: r -> so_done o = true ->
  (2 * length (m_pipe s) + 1 <= length is)%nat ->
  commits_ok out (events (snd (trace (qm_step N csz) s is))) ->
  has_fin (events (snd (trace (qm_step N csz) s is))).
Proof.
  intros Hc HN R T Hqs Ho Hd Hl HO.
  eapply live_drain with (m := length (m_pipe s)); eauto; intros; lia.
Qed.
