(** A checker for [lawful], for concrete runs. *)
From Verif Require Import Base.Prelude Base.Bits Rtl.Handshake_spec Stream.Axis_model Nic.DescFetch_model Nic.DescFetch_spec.
From Coq Require Import Lia Arith ZArith.
Local Open Scope Z_scope.
#[local] Unset Implicit Arguments.

Definition dresp_eqb (a b : dresp) : bool :=
  (r_queue a =? r_queue b) && (r_ptr a =? r_ptr b) && (r_addr a =? r_addr b) && (r_bs a =? r_bs b) && (r_cpl a =? r_cpl b) && (r_tag a =? r_tag b) &&
  (r_op a =? r_op b) && Bool.eqb (r_empty a) (r_empty b) && Bool.eqb (r_err a) (r_err b).
Definition owedb (c : fcfg) (L : ledger) (hold : nat -> option dresp) (i : fin) (o : fout) : bool :=
  negb (i_rst i) &&
  match req_in i o with Some r => (q_sel r <? f_ports c)%nat | None => true end &&
  forallb (fun p => match hold p with Some r => match i_resp i p with Some r' => dresp_eqb r r' | None => false end | None => true end) (seq 0 (f_ports c)) &&
  forallb (fun p => match i_resp i p with
    | Some r => (times p (l_ans L) <? times p (l_ask L))%nat && (0 <=? r_bs r) && (r_bs r <? 2 ^ f_lb c)
    | None => true end) (seq 0 (f_ports c)) &&
  match i_fet i with Some (t, _) => existsb (fun k => means c (l_dma L) k t && negb (l_fet L k)) (seq 0 (l_dma L)) | None => true end &&
  match i_done i with Some t => existsb (fun k => means c (l_cmd L) k t && negb (l_done L k)) (seq 0 (l_cmd L)) | None => true end.
Fixpoint lawfulb (c : fcfg) (L : ledger) (hold : nat -> option dresp) (is : list fin) (os : list fout) : bool :=
  match is, os with
  | i :: is, o :: os => owedb c L hold i o && lawfulb c (keep c L (i, o)) (still i o) is os
  | _, _ => true
  end.

Lemma dresp_eqb_ok a b : dresp_eqb a b = true -> a = b.
Proof.
  unfold dresp_eqb. destruct a, b. cbn. rewrite !andb_true_iff, !Bool.eqb_true_iff, !Z.eqb_eq. intros [[[[[[[[H1 H2] H3] H4] H5] H6] H7] H8] H9]. congruence.
Qed.
Lemma owedb_ok c L hold i o : owedb c L hold i o = true -> owed c L hold i o.
Proof.
  unfold owedb, owed. rewrite !andb_true_iff, !forallb_forall. intros (((((H1 & H2) & H3) & H4) & H5) & H6). split; [apply negb_true_iff; exact H1|].
  split; [|split; [|split; [|split]]].
  - intros r E. rewrite E in H2. apply Nat.ltb_lt. exact H2.
  - intros p r P E. specialize (H3 p). rewrite in_seq in H3. specialize (H3 ltac:(lia)). rewrite E in H3. destruct (i_resp i p); [|discriminate]. apply dresp_eqb_ok in H3. congruence.
  - intros p r P E. specialize (H4 p). rewrite in_seq in H4. specialize (H4 ltac:(lia)). rewrite E, !andb_true_iff, Nat.ltb_lt, Z.leb_le, Z.ltb_lt in H4. tauto.
  - intros t e E. rewrite E in H5. apply existsb_exists in H5. destruct H5 as (k & _ & K). rewrite andb_true_iff, negb_true_iff in K. exists k. exact K.
  - intros t E. rewrite E in H6. apply existsb_exists in H6. destruct H6 as (k & _ & K). rewrite andb_true_iff, negb_true_iff in K. exists k. exact K.
Qed.
Lemma lawfulb_ok c is : forall os L hold, lawfulb c L hold is os = true -> lawful_from c L hold is os.
Proof.
  induction is as [|i is IH]; intros [|o os] L hold H; cbn [lawfulb lawful_from] in *; auto. apply andb_true_iff in H. destruct H. split; [apply owedb_ok; assumption|auto].
Qed.
Definition promptb (is : list fin) (os : list fout) : bool :=
  forallb (fun io => match o_commit (snd io) with Some (p, _) => i_crdy (fst io) p | None => true end) (combine is os).
Lemma promptb_ok c is os : promptb is os = true -> prompt c is os.
Proof. unfold promptb. rewrite forallb_forall. intros H. right. intros i o Hin p t E. specialize (H _ Hin). cbn [fst snd] in H. rewrite E in H. exact H. Qed.
