(** Proofs for block synchronisation. *)
From Coq Require Import List Arith Bool Lia.
From Verif Require Import Eth.FrameSync_model Eth.FrameSync_spec.
Import ListNotations.

Lemma sync_xor : forall h, sync_hdr h = xorb (fst h) (snd h).
Proof. intros [[] []]; reflexivity. Qed.

Lemma run_app : forall hi lo s a b, fs_run hi lo s (a ++ b) = fs_run hi lo (fs_run hi lo s a) b.
Proof. intros; apply fold_left_app. Qed.

Lemma run_snoc : forall hi lo s a x, fs_run hi lo s (a ++ [x]) = fs_step hi lo (fs_run hi lo s a) x.
Proof. intros; rewrite run_app; reflexivity. Qed.

(** What holds of every state reached. *)
Definition inv (s : fs) : Prop :=
  f_cnt s < 64 /\ f_inv s < 16 /\
  (f_lock s = true -> f_wait s = 0 /\ f_slip s = false) /\
  (f_lock s = false -> f_inv s = 0) /\
  (f_slip s = true \/ f_wait s <> 0 -> f_cnt s = 0).

Lemma add_S : forall n m, S n + m = n + S m.
Proof. intros; lia. Qed.
Lemma mod64 : forall c, c < 64 -> c <> 63 -> (c + 1) mod 64 = S c.
Proof. intros; rewrite Nat.mod_small; lia. Qed.
Lemma mod16 : forall c, c < 16 -> c <> 15 -> (c + 1) mod 16 = S c.
Proof. intros; rewrite Nat.mod_small; lia. Qed.

(** The cases of a clock without reset. *)
Inductive clock (hi lo : nat) (s : fs) (x : fs_in) (s' : fs) : Prop :=
| k_rst : i_rst x = true -> s' = fs_init -> clock hi lo s x s'
| k_wait : i_rst x = false -> f_wait s <> 0 ->
    s' = {| f_cnt := f_cnt s; f_inv := f_inv s; f_wait := f_wait s - 1; f_slip := f_slip s; f_lock := f_lock s |} -> clock hi lo s x s'
| k_drop : i_rst x = false -> f_wait s = 0 -> f_slip s = true ->
    s' = {| f_cnt := f_cnt s; f_inv := f_inv s; f_wait := lo - 1; f_slip := false; f_lock := f_lock s |} -> clock hi lo s x s'
| k_good : good x = true -> bad x = false -> i_rst x = false -> f_wait s = 0 -> f_slip s = false -> f_cnt s <> 63 ->
    s' = {| f_cnt := S (f_cnt s); f_inv := f_inv s; f_wait := 0; f_slip := false; f_lock := f_lock s |} -> clock hi lo s x s'
| k_good_end : good x = true -> bad x = false -> i_rst x = false -> f_wait s = 0 -> f_slip s = false -> f_cnt s = 63 ->
    s' = {| f_cnt := 0; f_inv := 0; f_wait := 0; f_slip := false; f_lock := if f_inv s =? 0 then true else f_lock s |} -> clock hi lo s x s'
| k_slip : good x = false -> bad x = true -> i_rst x = false -> f_wait s = 0 -> f_slip s = false -> f_lock s = false \/ f_inv s = 15 ->
    s' = {| f_cnt := 0; f_inv := 0; f_wait := hi - 1; f_slip := true; f_lock := false |} -> clock hi lo s x s'
| k_bad_end : good x = false -> bad x = true -> i_rst x = false -> f_wait s = 0 -> f_slip s = false -> f_lock s = true -> f_inv s <> 15 -> f_cnt s = 63 ->
    s' = {| f_cnt := 0; f_inv := 0; f_wait := 0; f_slip := false; f_lock := true |} -> clock hi lo s x s'
| k_bad : good x = false -> bad x = true -> i_rst x = false -> f_wait s = 0 -> f_slip s = false -> f_lock s = true -> f_inv s <> 15 -> f_cnt s <> 63 ->
    s' = {| f_cnt := S (f_cnt s); f_inv := S (f_inv s); f_wait := 0; f_slip := false; f_lock := true |} -> clock hi lo s x s'.

Lemma clock_cases : forall hi lo s x, f_cnt s < 64 -> f_inv s < 16 -> clock hi lo s x (fs_step hi lo s x).
Proof.
  intros hi lo s x Hc Hi. unfold fs_step, fs_next. rewrite sync_xor.
  destruct (i_rst x) eqn:R; [now apply k_rst|].
  destruct (f_wait s =? 0) eqn:W; cbn [negb];
    [apply Nat.eqb_eq in W | apply Nat.eqb_neq in W; now apply k_wait].
  destruct (f_slip s) eqn:S1; [now apply k_drop|].
  destruct (xorb _ _) eqn:X.
  - assert (good x = true) by (unfold good; rewrite R, X; reflexivity).
    assert (bad x = false) by (unfold bad; rewrite R, X; reflexivity).
    destruct (f_cnt s =? 63) eqn:C; [apply Nat.eqb_eq in C | apply Nat.eqb_neq in C].
    + now apply k_good_end.
    + rewrite mod64 by assumption. now apply k_good.
  - assert (good x = false) by (unfold good; rewrite R, X; reflexivity).
    assert (bad x = true) by (unfold bad; rewrite R, X; reflexivity).
    destruct (f_lock s) eqn:L; cbn [negb orb].
    + destruct (f_inv s =? 15) eqn:I; [apply Nat.eqb_eq in I | apply Nat.eqb_neq in I].
      * apply k_slip; auto.
      * destruct (f_cnt s =? 63) eqn:C; [apply Nat.eqb_eq in C | apply Nat.eqb_neq in C].
        -- now apply k_bad_end.
        -- rewrite mod64, mod16 by assumption. now apply k_bad.
    + apply k_slip; auto.
Qed.

Lemma inv_init : inv fs_init.
Proof. unfold inv; cbn; repeat split; try lia; discriminate. Qed.

Lemma inv_step : forall hi lo s x, inv s -> inv (fs_step hi lo s x).
Proof.
  intros hi lo s x H. pose proof H as (Hc & Hi & HL & HU & HS).
  destruct (clock_cases hi lo s x Hc Hi) as [? E|? ? E|? ? ? E|? ? ? ? ? ? E|? ? ? ? ? ? E|? ? ? ? ? ? E|? ? ? ? ? ? ? ? E|? ? ? ? ? ? ? ? E];
    rewrite E; clear E.
  1: exact inv_init.
  all: unfold inv; cbn; split; [lia|split; [lia|split; [|split]]];
    try (intro L; apply HL in L; destruct L; split; (lia || congruence));
    try (intros [?|?]; (congruence || lia || (apply HS; auto))); auto; try discriminate.
Qed.

Lemma inv_run : forall hi lo l s, inv s -> inv (fs_run hi lo s l).
Proof. induction l as [|x l IH]; intros s H; cbn; [exact H | apply IH, inv_step, H]. Qed.

Lemma inv_reach : forall hi lo h, inv (fs_run hi lo fs_init h).
Proof. intros; apply inv_run, inv_init. Qed.

Ltac cases s x H :=
  let Hc := fresh "Hc" in let Hi := fresh "Hi" in let HL := fresh "HL" in let HU := fresh "HU" in let HS := fresh "HS" in
  pose proof H as (Hc & Hi & HL & HU & HS);
  match goal with |- context [fs_step ?hi ?lo s x] =>
    destruct (clock_cases hi lo s x Hc Hi) as [? E|? ? E|? ? ? E|? ? ? ? ? ? E|? ? ? ? ? ? E|? ? ? ? ? ? E|? ? ? ? ? ? ? ? E|? ? ? ? ? ? ? ? E];
    rewrite E in *; clear E
  end.

(** Lock comes only after 64 valid headers in a row, without a slip among them. *)
Definition streak (hi lo : nat) (h : list fs_in) (n : nat) : Prop :=
  exists h0 w, h = h0 ++ w /\ length w = n /\ Forall (fun i => good i = true) w /\
    forall k, k < n -> slipping hi lo (h0 ++ firstn k w) = false.

Lemma streak_0 : forall hi lo h, streak hi lo h 0.
Proof. intros; exists h, []; rewrite app_nil_r; repeat split; auto; intros; lia. Qed.

Lemma streak_S : forall hi lo h n x, streak hi lo h n -> good x = true -> slipping hi lo h = false -> streak hi lo (h ++ [x]) (S n).
Proof.
  intros hi lo h n x (h0 & w & -> & <- & F & K) G S1. exists h0, (w ++ [x]).
  split; [now rewrite app_assoc|]. split; [rewrite app_length; cbn; lia|].
  split; [apply Forall_app; auto|].
  intros k Hk. rewrite firstn_app.
  destruct (Nat.eq_dec k (length w)) as [->|N].
  - rewrite Nat.sub_diag, firstn_all. cbn [firstn]. now rewrite app_nil_r.
  - replace (k - length w) with 0 by lia. cbn [firstn]. rewrite app_nil_r. apply K; lia.
Qed.

Lemma streak_inv : forall hi lo h, f_lock (fs_run hi lo fs_init h) = false -> streak hi lo h (f_cnt (fs_run hi lo fs_init h)).
Proof.
  intros hi lo h. induction h as [|x h IH] using rev_ind; intro L.
  - apply streak_0.
  - rewrite run_snoc in *. pose proof (inv_reach hi lo h) as H.
    assert (SL : slipping hi lo h = f_slip (fs_run hi lo fs_init h)) by reflexivity.
    set (s := fs_run hi lo fs_init h) in *. clearbody s. revert L. cases s x H; cbn; intro L.
    + apply streak_0.
    + rewrite HS by auto. apply streak_0.
    + rewrite HS by auto. apply streak_0.
    + apply streak_S; auto. congruence.
    + apply streak_0.
    + apply streak_0.
    + discriminate.
    + discriminate.
Qed.

Lemma lock_sound : forall hi lo h i, locks_at hi lo h i -> streak hi lo (h ++ [i]) 64.
Proof.
  intros hi lo h x [L0 L1]. unfold locked in *. pose proof (streak_inv hi lo h L0) as K.
  rewrite run_snoc in L1. pose proof (inv_reach hi lo h) as H.
  assert (SL : slipping hi lo h = f_slip (fs_run hi lo fs_init h)) by reflexivity.
  set (s := fs_run hi lo fs_init h) in *. clearbody s. revert L1. cases s x H; cbn; intro L1; try congruence.
  match goal with Q : f_cnt s = 63 |- _ => rewrite Q in K end. apply streak_S; auto. congruence.
Qed.

(** Lock goes only with 16 invalid headers among at most 64. *)
Definition window (h : list fs_in) (c i : nat) : Prop :=
  exists h0 w, h = h0 ++ w /\ length w = c /\ quiet w /\ bads w = i.

Lemma window_0 : forall h, window h 0 0.
Proof. intros; exists h, []; rewrite app_nil_r; repeat split; constructor. Qed.

Lemma bads_snoc : forall w x, bads (w ++ [x]) = bads w + (if bad x then 1 else 0).
Proof. intros; unfold bads; rewrite filter_app, app_length; cbn; destruct (bad x); reflexivity. Qed.

Lemma window_S : forall h c i x, window h c i -> i_rst x = false -> window (h ++ [x]) (S c) (i + if bad x then 1 else 0).
Proof.
  intros h c i x (h0 & w & -> & <- & Q & <-) R. exists h0, (w ++ [x]).
  split; [now rewrite app_assoc|]. split; [rewrite app_length; cbn; lia|].
  split; [apply Forall_app; auto | apply bads_snoc].
Qed.

Lemma window_inv : forall hi lo h, f_lock (fs_run hi lo fs_init h) = true ->
  window h (f_cnt (fs_run hi lo fs_init h)) (f_inv (fs_run hi lo fs_init h)).
Proof.
  intros hi lo h. induction h as [|x h IH] using rev_ind; intro L.
  - discriminate.
  - rewrite run_snoc in *. pose proof (inv_reach hi lo h) as H.
    set (s := fs_run hi lo fs_init h) in *. clearbody s. revert L. cases s x H; cbn; intro L.
    + discriminate.
    + apply HL in L; tauto.
    + apply HL in L; destruct L; congruence.
    + specialize (IH L). apply window_S with (x := x) in IH; [|assumption].
      match goal with B : bad x = false |- _ => rewrite B in IH end. now rewrite Nat.add_0_r in IH.
    + apply window_0.
    + discriminate.
    + apply window_0.
    + match goal with B : bad x = true, Q : f_lock s = true |- _ => specialize (IH Q); apply window_S with (x := x) in IH; [|assumption]; rewrite B in IH end.
      now rewrite Nat.add_1_r in IH.
Qed.

Lemma lost_only : forall hi lo h i, locked hi lo h = true -> locked hi lo (h ++ [i]) = false -> i_rst i = false ->
  (exists c, c <= 64 /\ window (h ++ [i]) c 16) /\ slips_at hi lo h i.
Proof.
  intros hi lo h x L0 L1 R. unfold locked, slips_at, slipping in *. pose proof (window_inv hi lo h L0) as K.
  rewrite run_snoc in *. pose proof (inv_reach hi lo h) as H.
  set (s := fs_run hi lo fs_init h) in *. clearbody s. revert L1. cases s x H; cbn; intro L1; try congruence.
  - destruct (f_inv s =? 0); congruence.
  - split; [|auto]. match goal with Q : _ \/ _ |- _ => destruct Q as [Q|Q]; [congruence|]; rewrite Q in K end.
    exists (S (f_cnt s)). split; [lia|]. apply window_S with (x := x) in K; [|assumption].
    match goal with B : bad x = true |- _ => rewrite B in K end. exact K.
Qed.

(** A window of 64 headers from its beginning or from its middle. *)
Lemma bads_cons : forall x w, bads (x :: w) = (if bad x then 1 else 0) + bads w.
Proof. intros; unfold bads; cbn; destruct (bad x); reflexivity. Qed.

Lemma win_keep : forall hi lo w s, inv s -> f_lock s = true -> quiet w -> f_cnt s + length w <= 64 -> f_inv s + bads w <= 15 ->
  (forall k, f_lock (fs_run hi lo s (firstn k w)) = true) /\
  (f_cnt s + length w = 64 -> f_cnt (fs_run hi lo s w) = 0 /\ f_inv (fs_run hi lo s w) = 0).
Proof.
  induction w as [|x w IH]; intros s H L Q C B.
  - cbn in *. split; [intros []; exact L|]. destruct H; lia.
  - inversion Q as [|? ? R Q']; subst. rewrite bads_cons in B. cbn [length] in *.
    pose proof (inv_step hi lo s x H) as H'. specialize (IH (fs_step hi lo s x) H').
    assert (W0 : w = [] \/ length w > 0) by (destruct w; cbn; [auto|right; lia]).
    assert (S1 : f_lock (fs_step hi lo s x) = true /\
       (f_cnt s <> 63 -> f_cnt (fs_step hi lo s x) = S (f_cnt s) /\ f_inv (fs_step hi lo s x) = f_inv s + (if bad x then 1 else 0)) /\
       (f_cnt s = 63 -> f_cnt (fs_step hi lo s x) = 0 /\ f_inv (fs_step hi lo s x) = 0)).
    { clear IH H'. cases s x H; cbn; try congruence; try (apply HL in L; destruct L; congruence);
      repeat match goal with B : bad x = _ |- _ => rewrite B in *; clear B end; cbv iota in *.
      - repeat split; try lia; auto.
      - destruct (f_inv s =? 0); repeat split; try lia; auto.
      - match goal with Q : _ \/ _ |- _ => destruct Q; [congruence|lia] end.
      - repeat split; try lia.
      - repeat split; try lia. }
    destruct S1 as (L' & N & E). destruct (Nat.eq_dec (f_cnt s) 63) as [C63|C63].
    + assert (w = []) by (destruct w; cbn in *; [reflexivity|lia]). subst w. destruct (E C63) as [E1 E2].
      split; [|intros _; exact (conj E1 E2)]. intros [|[|k]]; cbn; assumption.
    + destruct (N C63) as [N1 N2]. destruct (IH L' Q') as [K1 K2]; [lia|lia|].
      split; [intros [|k]; cbn; [exact L|apply K1]|]. intro. cbn. apply K2. lia.
Qed.

Lemma win_lose : forall hi lo w s, inv s -> f_lock s = true -> quiet w -> f_cnt s + length w <= 64 -> f_inv s + bads w >= 16 ->
  exists k, k <= length w /\ f_lock (fs_run hi lo s (firstn k w)) = false.
Proof.
  induction w as [|x w IH]; intros s H L Q C B.
  - cbn in *. destruct H as (_ & ? & _). lia.
  - inversion Q as [|? ? R Q']; subst. rewrite bads_cons in B. cbn [length] in *.
    pose proof (inv_step hi lo s x H) as H'. specialize (IH (fs_step hi lo s x) H').
    assert (S1 : f_lock (fs_step hi lo s x) = false \/ (f_lock (fs_step hi lo s x) = true /\ (w <> [] ->
       f_cnt (fs_step hi lo s x) = S (f_cnt s) /\ f_inv (fs_step hi lo s x) = f_inv s + (if bad x then 1 else 0))
       /\ (w = [] -> f_inv s + (if bad x then 1 else 0) < 16))).
    { clear IH H'. assert (W1 : w <> [] -> f_cnt s <> 63) by (destruct w; cbn in *; [congruence|intros; lia]).
      cases s x H; cbn; try congruence; try (apply HL in L; destruct L; congruence); auto;
      repeat match goal with B : bad x = _ |- _ => rewrite B in *; clear B end; cbv iota in *; right.
      - repeat split; try lia; auto.
      - split; [destruct (f_inv s =? 0); auto|]. split; [intro NE; destruct (W1 NE); assumption|lia].
      - split; [auto|]. split; [intro NE; destruct (W1 NE); assumption|lia].
      - repeat split; try lia. }
    destruct S1 as [F|(T & N & E)].
    + exists 1. split; [lia|]. exact F.
    + destruct w as [|y w].
      * specialize (E eq_refl). cbn in B. lia.
      * destruct N as [N1 N2]; [discriminate|]. destruct (IH T Q') as (k & K1 & K2); [lia|lia|].
        exists (S k). split; [lia|]. exact K2.
Qed.

Lemma just_locked : forall hi lo h i, locks_at hi lo h i ->
  let s := fs_run hi lo fs_init (h ++ [i]) in inv s /\ f_lock s = true /\ f_cnt s = 0 /\ f_inv s = 0.
Proof.
  intros hi lo h x [L0 L1]. cbn zeta. split; [apply inv_reach|]. split; [exact L1|]. unfold locked in *.
  rewrite run_snoc in *. pose proof (inv_reach hi lo h) as H.
  set (s := fs_run hi lo fs_init h) in *. clearbody s. revert L1. cases s x H; cbn; intro L1; try congruence. auto.
Qed.

Lemma wins_keep : forall hi lo ws s, inv s -> f_lock s = true -> f_cnt s = 0 -> f_inv s = 0 ->
  Forall (fun w => length w = 64 /\ quiet w /\ bads w <= 15) ws ->
  (forall k, f_lock (fs_run hi lo s (firstn k (concat ws))) = true) /\
  f_cnt (fs_run hi lo s (concat ws)) = 0 /\ f_inv (fs_run hi lo s (concat ws)) = 0.
Proof.
  induction ws as [|w ws IH]; intros s H L C I F.
  - cbn. split; [intros []; exact L|auto].
  - inversion F as [|? ? (W1 & W2 & W3) F']; subst. cbn [concat].
    destruct (win_keep hi lo w s H L W2) as [K1 K2]; [lia|lia|]. destruct K2 as [K2 K3]; [lia|].
    destruct (IH (fs_run hi lo s w)) as (J1 & J2 & J3); auto.
    { apply inv_run, H. } { rewrite <- (firstn_all w). apply K1. }
    split; [|rewrite run_app; auto]. intro k. rewrite firstn_app.
    destruct (le_lt_dec k (length w)) as [Le|Lt].
    + replace (k - length w) with 0 by lia. cbn [firstn]. rewrite app_nil_r. apply K1.
    + rewrite firstn_all2 by lia. rewrite run_app. apply J1.
Qed.

Lemma kept : forall hi lo h i ws k, locks_at hi lo h i ->
  Forall (fun w => length w = 64 /\ quiet w /\ bads w <= 15) ws ->
  locked hi lo (h ++ [i] ++ firstn k (concat ws)) = true.
Proof.
  intros hi lo h i ws k A F. destruct (just_locked _ _ _ _ A) as (H & L & C & I).
  unfold locked. rewrite app_assoc, run_app. apply wins_keep; auto.
Qed.

Lemma lost : forall hi lo h i ws w, locks_at hi lo h i ->
  Forall (fun w => length w = 64 /\ quiet w /\ bads w <= 15) ws -> quiet w -> length w <= 64 -> bads w >= 16 ->
  exists k, k <= length w /\ locked hi lo (h ++ [i] ++ concat ws ++ firstn k w) = false.
Proof.
  intros hi lo h i ws w A F Q W B. destruct (just_locked _ _ _ _ A) as (H & L & C & I).
  destruct (wins_keep hi lo ws _ H L C I F) as (J1 & J2 & J3).
  destruct (win_lose hi lo w (fs_run hi lo (fs_run hi lo fs_init (h ++ [i])) (concat ws))) as (k & K1 & K2); auto; try lia.
  { apply inv_run, H. } { rewrite <- (firstn_all (concat ws)). apply J1. }
  exists k. split; [exact K1|]. unfold locked. rewrite !run_app. rewrite !run_app in K2. exact K2.
Qed.

Lemma bad_quiet : forall w, Forall (fun i => bad i = true) w -> quiet w /\ bads w = length w.
Proof.
  induction 1 as [|x w B F [I1 I2]]; [split; [constructor|reflexivity]|].
  rewrite bads_cons, B, I2. split; [constructor; auto|reflexivity].
  unfold bad in B. apply andb_true_iff in B. destruct (i_rst x); [destruct B; discriminate|reflexivity].
Qed.

Lemma Forall_firstn' : forall A (P : A -> Prop) n l, Forall P l -> Forall P (firstn n l).
Proof. intros A P n l F. rewrite <- (firstn_skipn n l) in F. apply Forall_app in F. tauto. Qed.
Lemma Forall_skipn' : forall A (P : A -> Prop) n l, Forall P l -> Forall P (skipn n l).
Proof. intros A P n l F. rewrite <- (firstn_skipn n l) in F. apply Forall_app in F. tauto. Qed.

Lemma firstn_plus : forall A n k (w : list A), firstn (n + k) w = firstn n w ++ firstn k (skipn n w).
Proof.
  intros A n k. induction n as [|n IH]; intros [|x w]; cbn; rewrite ?firstn_nil; auto.
  now rewrite IH.
Qed.

Lemma lost_31 : forall hi lo h w, length w = 31 -> Forall (fun i => bad i = true) w ->
  exists k, k <= 31 /\ locked hi lo (h ++ firstn k w) = false.
Proof.
  intros hi lo h w W F. destruct (locked hi lo h) eqn:L.
  2:{ exists 0. split; [lia|]. cbn [firstn]. now rewrite app_nil_r. }
  unfold locked in *. pose proof (inv_reach hi lo h) as H. set (s := fs_run hi lo fs_init h) in *.
  enough (exists k, k <= 31 /\ f_lock (fs_run hi lo s (firstn k w)) = false) as (k & K1 & K2)
    by (exists k; split; [exact K1|]; rewrite run_app; exact K2).
  clearbody s. pose proof H as (Hc & Hi & _).
  destruct (le_lt_dec (16 - f_inv s) (64 - f_cnt s)) as [Le|Lt].
  - set (n := 16 - f_inv s) in *. destruct (bad_quiet (firstn n w)) as [Q B]; [apply Forall_firstn', F|].
    rewrite firstn_length in B. destruct (win_lose hi lo (firstn n w) s H L Q) as (k & K1 & K2); rewrite ?firstn_length in *; try lia.
    exists k. split; [lia|]. rewrite firstn_firstn in K2. now replace (Nat.min k n) with k in K2 by lia.
  - set (n := 64 - f_cnt s) in *. destruct (bad_quiet (firstn n w)) as [Q B]; [apply Forall_firstn', F|].
    rewrite firstn_length in B. destruct (win_keep hi lo (firstn n w) s H L Q) as [K1 K2]; rewrite ?firstn_length in *; try lia.
    destruct K2 as [K2 K3]; [lia|]. set (s1 := fs_run hi lo s (firstn n w)) in *.
    assert (L1 : f_lock s1 = true) by (specialize (K1 n); rewrite firstn_firstn, Nat.min_id in K1; exact K1).
    destruct (bad_quiet (firstn 16 (skipn n w))) as [Q' B']; [apply Forall_firstn', Forall_skipn', F|].
    rewrite firstn_length, skipn_length in B'.
    destruct (win_lose hi lo (firstn 16 (skipn n w)) s1) as (k & J1 & J2); rewrite ?firstn_length, ?skipn_length in *; auto; try lia.
    { apply inv_run, H. }
    exists (n + k). split; [lia|]. rewrite firstn_firstn in J2. replace (Nat.min k 16) with k in J2 by lia.
    unfold s1 in J2. rewrite <- run_app in J2.
    rewrite <- firstn_plus in J2. exact J2.
Qed.

(** The pulse. *)
Lemma wait_run : forall hi lo w s, quiet w -> length w <= f_wait s ->
  fs_run hi lo s w = {| f_cnt := f_cnt s; f_inv := f_inv s; f_wait := f_wait s - length w; f_slip := f_slip s; f_lock := f_lock s |}.
Proof.
  induction w as [|x w IH]; intros s Q W.
  - cbn. rewrite Nat.sub_0_r. now destruct s.
  - inversion Q as [|? ? R Q']; subst. cbn [fs_run fold_left length] in *. change (fold_left (fs_step hi lo) w) with (fun s => fs_run hi lo s w).
    cbn beta. unfold fs_step at 1. rewrite R. unfold fs_next. destruct (f_wait s) as [|n] eqn:E; [lia|]. cbn [Nat.eqb negb].
    rewrite IH; cbn; auto; [f_equal; lia|lia].
Qed.

Definition pulse (hi : nat) : fs := {| f_cnt := 0; f_inv := 0; f_wait := hi - 1; f_slip := true; f_lock := false |}.
Definition gap (n : nat) : fs := {| f_cnt := 0; f_inv := 0; f_wait := n; f_slip := false; f_lock := false |}.

Lemma pulse_high : forall hi lo w, quiet w -> length w < Nat.max 1 hi ->
  f_slip (fs_run hi lo (pulse hi) w) = true.
Proof. intros. rewrite wait_run; cbn; auto; lia. Qed.

Lemma pulse_low : forall hi lo w, quiet w -> Nat.max 1 hi <= length w -> length w < Nat.max 1 hi + Nat.max 1 lo ->
  fs_run hi lo (pulse hi) w = gap (lo - 1 - (length w - Nat.max 1 hi)).
Proof.
  intros hi lo w Q A B. rewrite <- (firstn_skipn (hi - 1) w) at 1. rewrite run_app.
  assert (Q1 : quiet (firstn (hi - 1) w)) by (apply Forall_firstn', Q).
  assert (Q2 : quiet (skipn (hi - 1) w)) by (apply Forall_skipn', Q).
  rewrite (wait_run hi lo (firstn (hi - 1) w) (pulse hi)); [|exact Q1|rewrite firstn_length; cbn; lia]. rewrite firstn_length. cbn [pulse f_cnt f_inv f_wait f_slip f_lock].
  pose proof (skipn_length (hi - 1) w) as SL. destruct (skipn (hi - 1) w) as [|x v]; [cbn in SL; lia|].
  inversion Q2 as [|? ? R Q3]; subst. cbn [fs_run fold_left]. change (fold_left (fs_step hi lo) v) with (fun s => fs_run hi lo s v). cbn beta.
  unfold fs_step at 1. rewrite R. unfold fs_next. cbn [f_cnt f_inv f_wait f_slip f_lock].
  replace (hi - 1 - Nat.min (hi - 1) (length w)) with 0 by lia. cbn [Nat.eqb negb]. cbn [length] in SL.
  rewrite wait_run; cbn [f_cnt f_inv f_wait f_slip f_lock]; auto; [unfold gap; f_equal; lia|lia].
Qed.

Lemma slip_state : forall hi lo h i, slips_at hi lo h i -> bad i = true /\ fs_run hi lo fs_init (h ++ [i]) = pulse hi.
Proof.
  intros hi lo h x [L0 L1]. unfold slipping in *.
  rewrite run_snoc in *. pose proof (inv_reach hi lo h) as H.
  set (s := fs_run hi lo fs_init h) in *. clearbody s. revert L1. cases s x H; cbn; intro L1; try congruence.
  split; [assumption|reflexivity].
Qed.

Lemma slip_shape : forall hi lo h i w, slips_at hi lo h i -> quiet w -> length w < Nat.max 1 hi + Nat.max 1 lo ->
  bad i = true /\ locked hi lo (h ++ [i] ++ w) = false /\ slipping hi lo (h ++ [i] ++ w) = (length w <? Nat.max 1 hi).
Proof.
  intros hi lo h i w A Q W. destruct (slip_state _ _ _ _ A) as [B S1]. split; [exact B|].
  unfold locked, slipping. rewrite app_assoc, run_app, S1.
  destruct (length w <? Nat.max 1 hi) eqn:E; [apply Nat.ltb_lt in E | apply Nat.ltb_ge in E].
  - rewrite wait_run; cbn; auto. lia.
  - rewrite pulse_low; auto.
Qed.

Lemma slip_again : forall hi lo h i w j, slips_at hi lo h i -> quiet w -> length w + 1 = Nat.max 1 hi + Nat.max 1 lo -> bad j = true ->
  slips_at hi lo (h ++ [i] ++ w) j.
Proof.
  intros hi lo h i w j A Q W B. destruct (slip_state _ _ _ _ A) as [_ S1]. unfold slips_at, slipping.
  rewrite run_snoc, app_assoc, run_app, S1, pulse_low by (auto; lia).
  replace (lo - 1 - (length w - Nat.max 1 hi)) with 0 by lia. split; [reflexivity|].
  unfold bad in B. apply andb_true_iff in B. destruct B as [B1 B2]. apply negb_true_iff in B1, B2.
  unfold fs_step, fs_next. rewrite B1, sync_xor, B2. reflexivity.
Qed.

(** Acquisition. *)
Definition fresh (c : nat) : fs := {| f_cnt := c; f_inv := 0; f_wait := 0; f_slip := false; f_lock := false |}.

Section Loop.
Variables (hi lo p d : nat) (out : nat -> nat -> nat -> bool * bool).
Hypothesis T : transceiver out p d.
Hypothesis D : d + 1 <= Nat.max 1 hi + Nat.max 1 lo.

Lemma step_valid : forall c a t g, c < 63 -> xorb (fst (out a t g)) (snd (out a t g)) = true ->
  fs_step hi lo (fresh c) {| i_rst := false; i_hdr := out a t g |} = fresh (S c).
Proof.
  intros. unfold fs_step, fs_next. cbn [i_rst i_hdr fresh f_cnt f_inv f_wait f_slip f_lock Nat.eqb negb].
  rewrite sync_xor, H0. destruct (c =? 63) eqn:E; [apply Nat.eqb_eq in E; lia|]. rewrite mod64 by lia. reflexivity.
Qed.

Definition done (c : fs) : Prop := f_lock c = true /\ f_inv c = 0 /\ inv c.

Lemma stay : forall n s a t g, done s -> a mod 66 = p -> d <= g ->
  done (fst (loop hi lo out n s a t g)) /\ snd (loop hi lo out n s a t g) = a.
Proof.
  induction n as [|n IH]; intros s a t g K A G; cbn [loop]; [auto|].
  destruct K as (L & I & H). destruct T as [T1 _]. specialize (T1 a t g G A).
  set (x := {| i_rst := false; i_hdr := out a t g |}).
  assert (X : bad x = false) by (unfold bad, x; cbn; now rewrite T1).
  pose proof (inv_step hi lo s x H) as H'.
  assert (S1 : done (fs_step hi lo s x) /\ f_slip (fs_step hi lo s x) = false).
  { unfold done. revert H'. cases s x H; intro H'; try congruence; try (apply HL in L; destruct L; congruence);
      (split; [split; [|split; [|exact H']]|]); cbn [f_lock f_inv f_slip]; rewrite ?I; auto. }
  destruct S1 as [S1 S2]. rewrite S2, andb_false_r. apply IH; auto.
Qed.

Lemma aligned : forall n c a t g m, c + n = 63 -> a mod 66 = p -> d <= g -> S n <= m ->
  f_lock (fst (loop hi lo out m (fresh c) a t g)) = true /\ snd (loop hi lo out m (fresh c) a t g) = a.
Proof.
  induction n as [|n IH]; intros c a t g m C A G M; (destruct m as [|m]; [lia|]); cbn [loop].
  - pose proof (proj1 T a t g G A) as X. assert (c = 63) by lia. subst c.
    assert (E : fs_step hi lo (fresh 63) {| i_rst := false; i_hdr := out a t g |} =
      {| f_cnt := 0; f_inv := 0; f_wait := 0; f_slip := false; f_lock := true |}).
    { unfold fs_step, fs_next. cbn. rewrite sync_xor, X. reflexivity. }
    rewrite E. cbn [f_slip andb negb]. rewrite andb_false_r.
    match goal with |- context [loop hi lo out m ?s a ?t' ?g'] => destruct (stay m s a t' g') as [(K & _) K2]; auto end.
    unfold done, inv; cbn; repeat split; auto; lia.
  - rewrite step_valid; [|lia|apply (proj1 T); auto]. cbn [fresh f_slip negb andb]. apply IH; auto; lia.
Qed.

(** In a wrong position, the first invalid header makes it slip. *)
Lemma to_slip : forall k c a t g, c + k < 64 ->
  xorb (fst (out a (t + k) (g + k))) (snd (out a (t + k) (g + k))) = false ->
  exists n, n <= k /\ forall m, loop hi lo out (S n + m) (fresh c) a t g = loop hi lo out m (pulse hi) (S a) (t + S n) 0.
Proof.
  induction k as [|k IH]; intros c a t g C X; (destruct (xorb (fst (out a t g)) (snd (out a t g))) eqn:V;
    [|exists 0; split; [lia|]; intro m; cbn [loop Nat.add]; unfold fs_step, fs_next;
      cbn [i_rst i_hdr fresh f_cnt f_inv f_wait f_slip f_lock Nat.eqb negb orb]; rewrite sync_xor, V; cbn [f_slip andb];
      rewrite Nat.add_1_r; reflexivity]).
  - rewrite !Nat.add_0_r in X. congruence.
  - destruct (IH (S c) a (S t) (S g)) as (n & N1 & N2); [lia| |].
    { rewrite <- !add_S in X. exact X. }
    exists (S n). split; [lia|]. intro m. rewrite Nat.add_succ_l. cbn [loop]. rewrite step_valid; [|lia|exact V].
    cbn [fresh f_slip negb andb]. change (loop hi lo out (S n + m) (fresh (S c)) a (S t) (S g) = loop hi lo out m (pulse hi) (S a) (t + S (S n)) 0).
    replace (t + S (S n)) with (S t + S n) by lia. apply N2.
Qed.

Lemma loop_wait : forall n s a t g m, n <= f_wait s ->
  loop hi lo out (n + m) s a t g =
  loop hi lo out m {| f_cnt := f_cnt s; f_inv := f_inv s; f_wait := f_wait s - n; f_slip := f_slip s; f_lock := f_lock s |} a (t + n) (g + n).
Proof.
  induction n as [|n IH]; intros s a t g m W.
  - rewrite Nat.sub_0_r, !Nat.add_0_r. now destruct s.
  - rewrite Nat.add_succ_l. cbn [loop]. unfold fs_step, fs_next. cbn [i_rst]. destruct (f_wait s) as [|v] eqn:E; [lia|]. cbn [Nat.eqb negb].
    cbn [f_slip]. replace (negb (f_slip s) && f_slip s) with false by (destruct (f_slip s); reflexivity).
    rewrite IH by (cbn; lia). cbn [f_cnt f_inv f_wait f_slip f_lock].
    replace (S v - 1 - n) with (S v - S n) by lia. rewrite <- !add_S. reflexivity.
Qed.

Lemma over_slip : forall a t m, loop hi lo out (Nat.max 1 hi + Nat.max 1 lo - 1 + m) (pulse hi) a t 0 =
  loop hi lo out m (fresh 0) a (t + (Nat.max 1 hi + Nat.max 1 lo - 1)) (Nat.max 1 hi + Nat.max 1 lo - 1).
Proof.
  intros. replace (Nat.max 1 hi + Nat.max 1 lo - 1 + m) with ((hi - 1) + S ((lo - 1) + m)) by lia.
  rewrite loop_wait by (cbn; lia). cbn [pulse f_cnt f_inv f_wait f_slip f_lock]. rewrite Nat.sub_diag. cbn [loop].
  unfold fs_step, fs_next. cbn [i_rst i_hdr f_cnt f_inv f_wait f_slip f_lock Nat.eqb negb andb].
  rewrite loop_wait by (cbn; lia). cbn [f_cnt f_inv f_wait f_slip f_lock]. rewrite Nat.sub_diag.
  unfold fresh. f_equal; lia.
Qed.

Lemma acquire_from : forall r a t g, (a + r) mod 66 = p -> d <= g ->
  exists n, n <= r * (63 + Nat.max 1 hi + Nat.max 1 lo) + 64 /\
    forall m, n <= m -> f_lock (fst (loop hi lo out m (fresh 0) a t g)) = true /\
      (snd (loop hi lo out m (fresh 0) a t g)) mod 66 = p.
Proof.
  induction r as [|r IH]; intros a t g R G; (destruct (Nat.eq_dec (a mod 66) p) as [A|A];
    [exists 64; split; [lia|]; intros m M; destruct (aligned 63 0 a t g m) as [K1 K2]; auto; now rewrite K2|]).
  - rewrite Nat.add_0_r in R. contradiction.
  - destruct (proj2 T a t g G A) as (k & K1 & K2). destruct (to_slip k 0 a t g) as (n & N1 & N2); auto.
    set (e := Nat.max 1 hi + Nat.max 1 lo - 1).
    destruct (IH (S a) (t + S n + e) e) as (q & Q1 & Q2); [now rewrite add_S | unfold e; lia|].
    exists (S n + (e + q)). split; [unfold e in *; nia|]. intros m M.
    replace m with (S n + (e + (m - S n - e))) by lia. rewrite N2. unfold e at 1 3. rewrite over_slip. fold e. apply Q2. lia.
Qed.
End Loop.

Lemma acquire : forall hi lo p d out a t g, p < 66 -> d + 1 <= Nat.max 1 hi + Nat.max 1 lo -> transceiver out p d -> d <= g ->
  exists n, n <= 65 * (63 + Nat.max 1 hi + Nat.max 1 lo) + 64 /\
    forall m, n <= m -> f_lock (fst (loop hi lo out m fs_init a t g)) = true /\ (snd (loop hi lo out m fs_init a t g)) mod 66 = p.
Proof.
  intros hi lo p d out a t g P D T G.
  assert (exists r, r <= 65 /\ (a + r) mod 66 = p) as (r & R1 & R2).
  { exists ((p + 66 - a mod 66) mod 66). split; [pose proof (Nat.mod_upper_bound (p + 66 - a mod 66) 66); lia|].
    rewrite Nat.add_mod_idemp_r by lia. rewrite <- Nat.add_mod_idemp_l by lia.
    pose proof (Nat.mod_upper_bound a 66). replace (a mod 66 + (p + 66 - a mod 66)) with (p + 1 * 66) by lia.
    rewrite Nat.mod_add by lia. apply Nat.mod_small, P. }
  destruct (acquire_from hi lo p d out T D r a t g R2 G) as (n & N1 & N2). exists n. split; [nia|]. exact N2.
Qed.
