(** A checker for [lawful], for concrete runs. *)
From Verif Require Import Base.Prelude Base.Bits Rtl.Handshake_spec Stream.Axis_model Nic.CplWrite_model Nic.CplWrite_spec.
From Coq Require Import Lia Arith ZArith.
Local Open Scope Z_scope.
#[local] Unset Implicit Arguments.

Definition resp_eqb (a b : resp) : bool :=
  Bool.eqb (r_phase a) (r_phase b) && (r_addr a =? r_addr b) && (r_tag a =? r_tag b)%nat && (r_op a =? r_op b) && Bool.eqb (r_full a) (r_full b) && Bool.eqb (r_err a) (r_err b).
Definition owedb (c : wcfg) (L : ledger) (hold : nat -> option resp) (i : win) (o : wout) : bool :=
  let n := l_n L in let at_ k := l_op L k in
  negb (i_rst i) &&
  match req_in i o with Some r => (q_sel r <? w_ports c)%nat | None => true end &&
  forallb (fun p => match hold p with Some r => match i_resp i p with Some r' => resp_eqb r r' | None => false end | None => true end) (seq 0 (w_ports c)) &&
  forallb (fun p => match i_resp i p with
    | Some r => existsb (fun k => means c n k (r_tag r) && (q_sel (p_req (at_ k)) =? p)%nat && p_asked (at_ k) && isnone (p_ans (at_ k))) (seq 0 n)
    | None => true end) (seq 0 (w_ports c)) &&
  match i_done i with Some t => existsb (fun k => means c n k t && p_wr (at_ k) && negb (p_done (at_ k))) (seq 0 n) | None => true end.
Fixpoint lawfulb (c : wcfg) (L : ledger) (hold : nat -> option resp) (is : list win) (os : list wout) : bool :=
  match is, os with
  | i :: is, o :: os => owedb c L hold i o && lawfulb c (keep c L (i, o)) (still i o) is os
  | _, _ => true
  end.

Lemma resp_eqb_ok a b : resp_eqb a b = true -> a = b.
Proof.
  unfold resp_eqb. destruct a, b. cbn. rewrite !andb_true_iff, !Bool.eqb_true_iff, !Z.eqb_eq, Nat.eqb_eq. intros [[[[[H1 H2] H3] H4] H5] H6]. congruence.
Qed.
Lemma owedb_ok c L hold i o : owedb c L hold i o = true -> owed c L hold i o.
Proof.
  unfold owedb, owed. rewrite !andb_true_iff, !forallb_forall. intros ((((H1 & H2) & H3) & H4) & H5). split; [apply negb_true_iff; exact H1|].
  split; [|split; [|split]].
  - intros r E. rewrite E in H2. apply Nat.ltb_lt. exact H2.
  - intros p r P E. specialize (H3 p). rewrite in_seq in H3. specialize (H3 ltac:(lia)). rewrite E in H3. destruct (i_resp i p); [|discriminate]. apply resp_eqb_ok in H3. congruence.
  - intros p r P E. specialize (H4 p). rewrite in_seq in H4. specialize (H4 ltac:(lia)). rewrite E in H4. apply existsb_exists in H4. destruct H4 as (k & _ & K).
    rewrite !andb_true_iff in K. destruct K as (((K1 & K2) & K3) & K4). exists k. apply Nat.eqb_eq in K2. destruct (p_ans (l_op L k)); [discriminate|]. auto.
  - intros t E. rewrite E in H5. apply existsb_exists in H5. destruct H5 as (k & _ & K). rewrite !andb_true_iff, negb_true_iff in K. destruct K as ((K1 & K2) & K3). exists k. auto.
Qed.
Lemma lawfulb_ok c is : forall os L hold, lawfulb c L hold is os = true -> lawful_from c L hold is os.
Proof.
  induction is as [|i is IH]; intros [|o os] L hold H; cbn [lawfulb lawful_from] in *; auto. apply andb_true_iff in H. destruct H. split; [apply owedb_ok; assumption|auto].
Qed.
