(** A checker for [lawful], for concrete runs. *)
From Verif Require Import Base.Prelude Base.Bits Rtl.Handshake_spec Stream.Axis_model Nic.RxEngine_model Nic.RxEngine_spec.
From Coq Require Import Lia Arith ZArith.
Local Open Scope Z_scope.
#[local] Unset Implicit Arguments.

Definition some_k (n : nat) (f : nat -> bool) : bool := existsb f (seq 0 n).
Definition emptyb {A} (l : list A) : bool := match l with [] => true | _ => false end.
Definition owedb (c : gcfg) (L : ledger) (i : gin) (o : gout) : bool :=
  let n := l_n L in let at_ k := l_op L k in
  negb (i_rst i) &&
  match i_rx i with
  | Some (t, r) => some_k n (fun k => means c n k t &&
      match p_rxd (at_ k) with Some d => isnone (p_rx (at_ k)) && (0 <=? r_len r) && (r_len r <=? x_room d) | None => false end)
  | None => true end &&
  match i_map i with Some (t, _) => some_k n (fun k => means c n k t && negb (isnone (p_rx (at_ k))) && isnone (p_queue (at_ k))) | None => true end &&
  match i_ans i with
  | Some (t, _, _, b) => some_k n (fun k => means c n k t && p_dreq (at_ k) && isnone (p_ans (at_ k)) &&
      (negb (b && g_csum c) || (k <? length (l_cks L))%nat))
  | None => true end &&
  match desc_in i o with
  | Some (d, t, _) => some_k n (fun k => means c n k t && has_packet (at_ k) && negb (p_whole (at_ k)) && (0 <=? d_len d) &&
      forallb (fun j => (j =? k)%nat || emptyb (p_descs (at_ j)) || p_whole (at_ j)) (seq 0 n))
  | None => true end &&
  match i_wdone i with
  | Some t => some_k n (fun k => means c n k t && p_whole (at_ k) && (length (p_writes (at_ k)) =? length (placed c k (at_ k)))%nat &&
      (p_got (at_ k) <? length (p_writes (at_ k)))%nat && negb (p_written (at_ k)))
  | None => true end &&
  match i_cans i with Some t => some_k n (fun k => means c n k t && p_cpl (at_ k) && negb (p_written (at_ k))) | None => true end.
Fixpoint lawfulb (c : gcfg) (L : ledger) (is : list gin) (os : list gout) : bool :=
  match is, os with
  | i :: is, o :: os => owedb c L i o && lawfulb c (keep c L (i, o)) is os
  | _, _ => true
  end.

Ltac bb := repeat match goal with
  | H : (_ && _)%bool = true |- _ => apply andb_true_iff in H; destruct H
  | H : negb _ = true |- _ => apply negb_true_iff in H
  end.
Lemma isnone_true {A} (x : option A) : isnone x = true -> x = None.
Proof. destruct x; [discriminate|reflexivity]. Qed.
Lemma isnone_false {A} (x : option A) : isnone x = false -> x <> None.
Proof. destruct x; [intros _ H; discriminate|discriminate]. Qed.
Lemma owedb_ok c L i o : owedb c L i o = true -> owed c L i o.
Proof.
  unfold owedb. intros H. do 6 (apply andb_true_iff in H; let x := fresh "G" in destruct H as [H x]). apply negb_true_iff in H.
  unfold owed. split; [exact H|]. clear H.
  split; [|split; [|split; [|split; [|split]]]].
  - intros t r E. rewrite E in *. apply existsb_exists in G4. destruct G4 as (k & _ & K). bb. destruct (p_rxd (l_op L k)) as [d|] eqn:Ed; [|discriminate]. bb.
    exists k, d. split; [assumption|]. split; [assumption|]. split; [apply isnone_true; assumption|].
    split; apply Z.leb_le; assumption.
  - intros t q E. rewrite E in *. apply existsb_exists in G3. destruct G3 as (k & _ & K). bb. exists k. auto using isnone_true, isnone_false.
  - intros t a q b E. rewrite E in *. apply existsb_exists in G2. destruct G2 as (k & _ & K). bb. exists k. split; [assumption|]. split; [assumption|].
    split; [apply isnone_true; assumption|]. intros -> Hc. rewrite Hc in *. cbn [andb negb orb] in *. apply Nat.ltb_lt. assumption.
  - intros d t l E. rewrite E in *. apply existsb_exists in G1. destruct G1 as (k & _ & K). bb. exists k. split; [assumption|]. split; [assumption|]. split; [assumption|].
    split; [apply Z.leb_le; assumption|].
    intros j J1 J2. rewrite forallb_forall in *.
    match goal with H : forall x, In x _ -> _ |- _ => specialize (H j); rename H into X end. rewrite in_seq in X. specialize (X ltac:(lia)).
    apply orb_true_iff in X. destruct X as [X|X]; [|auto]. apply orb_true_iff in X. destruct X as [X|X]; [apply Nat.eqb_eq in X; congruence|].
    left. destruct (p_descs (l_op L j)); [reflexivity|discriminate].
  - intros t E. rewrite E in *. apply existsb_exists in G0. destruct G0 as (k & _ & K). bb. exists k. split; [assumption|]. split; [assumption|].
    split; [apply Nat.eqb_eq; assumption|]. split; [apply Nat.ltb_lt; assumption|assumption].
  - intros t E. rewrite E in *. match goal with H : some_k _ _ = true |- _ => apply existsb_exists in H; destruct H as (k & _ & K) end. bb. exists k. auto.
Qed.
Lemma lawfulb_ok c is : forall os L, lawfulb c L is os = true -> lawful_from c L is os.
Proof.
  induction is as [|i is IH]; intros [|o os] L H; cbn [lawfulb lawful_from] in *; auto. bb. split; [apply owedb_ok; assumption|auto].
Qed.
