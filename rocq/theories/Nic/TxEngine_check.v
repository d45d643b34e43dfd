(** A checker for [lawful], for concrete runs. *)
From Verif Require Import Base.Prelude Base.Bits Rtl.Handshake_spec Stream.Axis_model Nic.TxEngine_model Nic.TxEngine_spec.
From Coq Require Import Lia Arith ZArith.
Local Open Scope Z_scope.
#[local] Unset Implicit Arguments.

Definition some_k (n : nat) (f : nat -> bool) : bool := existsb f (seq 0 n).
Definition desc_okb (c : ecfg) (p : op) (d : desc) : bool :=
  (0 <=? d_start d) && (d_start d <? 256) && (0 <=? d_coff d) && (d_coff d <? 128) && (0 <=? d_len d) &&
  (total (p_descs p) + d_len d <=? e_max c) && (Z.of_nat (length (p_descs p)) + 1 <? 2 ^ e_cw c).
Definition emptyb {A} (l : list A) : bool := match l with [] => true | _ => false end.
Definition owedb (c : ecfg) (L : ledger) (i : ein) (o : eout) : bool :=
  let n := l_n L in let at_ k := l_op L k in
  negb (i_rst i) &&
  match i_ans i with Some (t, _, _, _) => some_k n (fun k => means c n k t && p_asked (at_ k) && isnone (p_ans (at_ k))) | None => true end &&
  match desc_in i o with
  | Some (d, t, _) => some_k n (fun k => means c n k t && has_packet (at_ k) && negb (p_whole (at_ k)) && desc_okb c (at_ k) d &&
      forallb (fun j => (j =? k)%nat || emptyb (p_descs (at_ j)) || p_whole (at_ j)) (seq 0 n))
  | None => true end &&
  match i_rdone i with Some t => some_k n (fun k => means c n k t && (p_got (at_ k) <? length (p_reads (at_ k)))%nat) | None => true end &&
  match i_tdone i with Some t => some_k n (fun k => means c n k t && p_tx (at_ k) && negb (p_freed (at_ k))) | None => true end &&
  match i_tcpl i with
  | Some (t, _) => negb (Z.testbit t (e_ttw c - 1)) ||
      some_k n (fun k => means c n k (k mod e_n c) && (t =? cpl_tag c (k mod e_n c)) && p_tx (at_ k) && isnone (p_ts (at_ k)))
  | None => true end &&
  match i_cans i with Some t => some_k n (fun k => means c n k t && p_cpl (at_ k) && negb (p_written (at_ k))) | None => true end.
Fixpoint lawfulb (c : ecfg) (L : ledger) (is : list ein) (os : list eout) : bool :=
  match is, os with
  | i :: is, o :: os => owedb c L i o && lawfulb c (keep c L (i, o)) is os
  | _, _ => true
  end.

Ltac bb := repeat match goal with
  | H : (_ && _)%bool = true |- _ => apply andb_true_iff in H; destruct H
  | H : negb _ = true |- _ => apply negb_true_iff in H
  end.
Lemma isnone_true {A} (x : option A) : isnone x = true -> x = None.
Proof. destruct x; [discriminate|reflexivity]. Qed.
Lemma owedb_ok c L i o : owedb c L i o = true -> owed c L i o.
Proof.
  unfold owedb. intros H. do 6 (apply andb_true_iff in H; let x := fresh "G" in destruct H as [H x]). apply negb_true_iff in H.
  unfold owed. split; [exact H|]. clear H.
  split; [|split; [|split; [|split; [|split]]]].
  - intros t a q b E. rewrite E in *. apply existsb_exists in G4. destruct G4 as (k & _ & K). bb. exists k. auto using isnone_true.
  - intros d t l E. rewrite E in *. apply existsb_exists in G3. destruct G3 as (k & _ & K). bb. exists k. split; [assumption|]. split; [|split; [assumption|split]].
    + unfold has_packet in *. destruct (p_ans (l_op L k)) as [[aq|]|]; try discriminate. eauto.
    + unfold desc_okb, desc_ok in *. bb. repeat match goal with H : (_ <=? _) = true |- _ => apply Z.leb_le in H | H : (_ <? _) = true |- _ => apply Z.ltb_lt in H end. splits; lia.
    + intros j J1 J2. rewrite forallb_forall in *. 
      match goal with H : forall x, In x _ -> _ |- _ => specialize (H j); rename H into X end. rewrite in_seq in X. specialize (X ltac:(lia)).
      apply orb_true_iff in X. destruct X as [X|X]; [|auto]. apply orb_true_iff in X. destruct X as [X|X]; [apply Nat.eqb_eq in X; congruence|].
      left. destruct (p_descs (l_op L j)); [reflexivity|discriminate].
  - intros t E. rewrite E in *. apply existsb_exists in G2. destruct G2 as (k & _ & K). bb. exists k. split; [assumption|]. apply Nat.ltb_lt. assumption.
  - intros t E. rewrite E in *. apply existsb_exists in G1. destruct G1 as (k & _ & K). bb. exists k. auto.
  - intros t ts E. rewrite E in *. apply orb_true_iff in G0. destruct G0 as [X|X]; [left; apply negb_true_iff; exact X|right].
    apply existsb_exists in X. destruct X as (k & _ & K). bb. exists k. splits; auto using isnone_true. apply Z.eqb_eq. assumption.
  - intros t E. rewrite E in *. match goal with H : some_k _ _ = true |- _ => apply existsb_exists in H; destruct H as (k & _ & K) end. bb. exists k. auto.
Qed.
Lemma lawfulb_ok c is : forall os L, lawfulb c L is os = true -> lawful_from c L is os.
Proof.
  induction is as [|i is IH]; intros [|o os] L H; cbn [lawfulb lawful_from] in *; auto. bb. split; [apply owedb_ok; assumption|auto].
Qed.
