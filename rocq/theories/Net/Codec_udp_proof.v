From Verif Require Import Base.Prelude Net.Codec_model Net.Codec_spec Net.Codec_proof Net.Codec_ip_proof.
Open Scope Z_scope.

Lemma udp_loop_pairs : forall n l s, (length l <= n)%nat -> udp_loop l false s = s + sum (words l).
Proof.
  induction n as [|n IH]; intros l s Hl.
  - destruct l; [cbn; lia|cbn in Hl; lia].
  - destruct l as [|a [|b t]]; cbn [udp_loop words negb sum fold_right].
    + lia.
    + rewrite Z.shiftl_mul_pow2 by lia. lia.
    + rewrite IH by (cbn in Hl; lia). rewrite Z.shiftl_mul_pow2 by lia.
      change (fold_right Z.add 0 (words t)) with (sum (words t)). lia.
Qed.

Lemma sum_words_bound : forall n l, (length l <= n)%nat -> octets l -> 0 <= sum (words l) <= Z.of_nat (length l) * 65280.
Proof.
  induction n as [|n IH]; intros l Hl H.
  - destruct l; [cbn; lia|cbn in Hl; lia].
  - destruct l as [|a [|b t]]; cbn [words sum fold_right].
    + cbn; lia.
    + inversion H; subst. red in H2. cbn; lia.
    + inversion H; subst. inversion H3; subst. red in H2, H4.
      specialize (IH t ltac:(cbn in Hl; lia) H5). change (fold_right Z.add 0 (words t)) with (sum (words t)).
      cbn [length]. lia.
Qed.

(** The words of the pseudo header, ports, length and payload. *)
Definition psum (f : udp) (l : Z) : Z :=
  (i_sip (u_ip f) / 65536 + i_sip (u_ip f) mod 65536) + (i_dip (u_ip f) / 65536 + i_dip (u_ip f) mod 65536)
  + i_proto (u_ip f) + l.
Definition usum (f : udp) (l : Z) : Z :=
  psum f l + (u_sport f + u_dport f + l + sum (words (i_pay (u_ip f)))).

Lemma psum_range f l : ip_hdr_ok (u_ip f) -> fits 16 l -> 0 <= psum f l <= 6 * 65535.
Proof.
  intros (H1 & H2 & H3 & H4 & H5 & H6 & H7 & H8 & H9 & H10 & H11 & H12 & H13 & H14 & _) Hl.
  pose proof (fits_split32 H13). pose proof (fits_split32 H14). unfold psum, fits in *. lia.
Qed.

Lemma udp_pseudo_canon f l : ip_hdr_ok (u_ip f) -> fits 16 l -> canon (psum f l) (udp_pseudo f l).
Proof.
  intros H Hl. pose proof (psum_range f H Hl) as Hs. unfold udp_pseudo. cbv zeta.
  destruct H as (H1 & H2 & H3 & H4 & H5 & H6 & H7 & H8 & H9 & H10 & H11 & H12 & H13 & H14 & _).
  destruct (halves H13) as [-> ->]. destruct (halves H14) as [-> ->].
  match goal with |- canon _ (fold16 (fold16 ?x)) => replace x with (psum f l) by (unfold psum; lia) end.
  apply canon_fold16. lia.
Qed.

Definition small (f : udp) : Prop := Z.of_nat (length (i_pay (u_ip f))) < 65536.

Lemma udp_rest_range f l : ip_hdr_ok (u_ip f) -> fits 16 l -> fits 16 (u_sport f) -> fits 16 (u_dport f) -> small f ->
  0 <= u_sport f + u_dport f + l + sum (words (i_pay (u_ip f))) < 2 ^ 32 - 65536.
Proof.
  intros H Hl Hs Hd Hn.
  assert (octets (i_pay (u_ip f))) as Ho by (unfold ip_hdr_ok in H; tauto).
  pose proof (sum_words_bound (le_n _) Ho) as B. unfold fits, small in *. lia.
Qed.

Lemma udp_calc_canon f l : ip_hdr_ok (u_ip f) -> fits 16 l -> fits 16 (u_sport f) -> fits 16 (u_dport f) -> small f ->
  exists r, canon (usum f l) r /\ udp_calc f l = 65535 - r.
Proof.
  intros H Hl Hs Hd Hn. pose proof (udp_pseudo_canon f H Hl) as Cp.
  pose proof (psum_range f H Hl) as Rp. pose proof (udp_rest_range H Hl Hs Hd Hn) as Rr.
  set (t := u_sport f + u_dport f + l + sum (words (i_pay (u_ip f)))) in *.
  assert (0 <= udp_pseudo f l <= 65535) as Rq by exact (proj1 Cp).
  assert (canon (udp_pseudo f l + t) (fold16 (fold16 (udp_pseudo f l + t)))) as C by (apply canon_fold16; lia).
  exists (fold16 (fold16 (udp_pseudo f l + t))). split.
  - unfold usum. fold t. apply (canon_add (proj1 Rp) (proj1 Rr) Cp C).
  - unfold udp_calc. cbv zeta. rewrite (fun s => @udp_loop_pairs _ (i_pay (u_ip f)) s (le_n _)).
    match goal with |- Z.land (Z.lnot (fold16 (fold16 ?x))) _ = _ => replace x with (udp_pseudo f l + t) by (unfold t; lia) end.
    apply lnot16. exact (proj1 C).
Qed.
Lemma udp_calc_fits f l : ip_hdr_ok (u_ip f) -> fits 16 l -> fits 16 (u_sport f) -> fits 16 (u_dport f) -> small f ->
  fits 16 (udp_calc f l).
Proof. intros H Hl Hs Hd Hn. destruct (udp_calc_canon H Hl Hs Hd Hn) as (r & (A & _) & ->). red. lia. Qed.

(** * Building *)
Definition seg (f : udp) (l ck : Z) : list Z :=
  be 2 (u_sport f) ++ be 2 (u_dport f) ++ be 2 l ++ be 2 ck ++ i_pay (u_ip f).
Lemma seg_length f l ck : length (seg f l ck) = (8 + length (i_pay (u_ip f)))%nat.
Proof. unfold seg. rewrite !app_length, !be_length. lia. Qed.
Lemma seg_octets f l ck : octets (i_pay (u_ip f)) -> octets (seg f l ck).
Proof. intro H. unfold seg. repeat (apply Forall_app; split; [apply be_octets|]). exact H. Qed.

Definition with_pay (i : ip) (l ck : Z) (p : list Z) : ip :=
  mkIp (i_dst i) (i_src i) (i_type i) (i_ver i) (i_ihl i) (i_dscp i) (i_ecn i) (Some l) (i_id i)
       (i_flags i) (i_frag i) (i_ttl i) (i_proto i) (Some ck) (i_sip i) (i_dip i) p.

Lemma hdr_ok_pay i l ck p : ip_hdr_ok i -> octets p -> ip_hdr_ok (with_pay i l ck p).
Proof. unfold ip_hdr_ok, with_pay. cbn. tauto. Qed.

Lemma udp_len_ok f : udp_ok f -> udp_len f = Z.of_nat (length (i_pay (u_ip f))) + 8 /\ fits 16 (udp_len f).
Proof.
  intros (_ & _ & _ & Hp & Hl & _). unfold udp_len, len, fits. destruct (u_len f) as [l|]; cbn in Hl; [subst l|]; lia.
Qed.
Lemma udp_ip_len_ok f : udp_ok f -> udp_ip_len f = Z.of_nat (length (i_pay (u_ip f))) + 28 /\ fits 16 (udp_ip_len f).
Proof.
  intro H. pose proof (udp_len_ok H) as [E _]. destruct H as (_ & _ & _ & Hp & _ & _ & Hl & _).
  unfold udp_ip_len, fits. destruct (i_len (u_ip f)) as [l|]; cbn in Hl; [subst l|]; lia.
Qed.
Lemma udp_small f : udp_ok f -> small f.
Proof. intros (_ & _ & _ & Hp & _). red. lia. Qed.
Lemma udp_ck_fits f : udp_ok f -> fits 16 (udp_ck f).
Proof.
  intro H. pose proof (udp_len_ok H) as [_ Hl]. pose proof (udp_small H) as Hn.
  destruct H as (Hi & Hs & Hd & _ & _ & Hc & _).
  unfold udp_ck. destruct (u_ck f); [exact Hc|]. apply udp_calc_fits; assumption.
Qed.
Lemma udp_ip_ck_fits f : udp_ok f -> fits 16 (udp_ip_ck f).
Proof.
  intro H. pose proof (udp_ip_len_ok H) as [_ Hl]. destruct H as (Hi & _ & _ & _ & _ & _ & _ & Hc).
  unfold udp_ip_ck. destruct (i_ck (u_ip f)); [exact Hc|]. apply ip_calc_fits; assumption.
Qed.

Lemma udp_build_ok f : udp_ok f ->
  udp_build f = Some (frame_of (u_ip f) (udp_ip_len f) (udp_ip_ck f) (seg f (udp_len f) (udp_ck f))).
Proof.
  intro H. pose proof (udp_len_ok H) as [El Hl]. pose proof (udp_ip_len_ok H) as [Ei Hi].
  pose proof (udp_ck_fits H) as Hc. pose proof (udp_ip_ck_fits H) as Hic.
  assert (octets (i_pay (u_ip f))) as Ho by (unfold udp_ok, ip_hdr_ok in H; tauto).
  destruct H as (Hh & Hs & Hd & Hp & _).
  unfold udp_build, udp_build_ip. cbv zeta. cbn [cat]. rewrite !pack2 by assumption. cbn [bind].
  rewrite app_nil_r. fold (seg f (udp_len f) (udp_ck f)).
  fold (with_pay (u_ip f) (udp_ip_len f) (udp_ip_ck f) (seg f (udp_len f) (udp_ck f))).
  rewrite ip_build_ok; [reflexivity|].
  split; [apply hdr_ok_pay; [exact Hh|apply seg_octets; exact Ho]|].
  cbn [with_pay i_pay i_len i_ck]. rewrite seg_length. cbn [auto_or].
  split; [lia|split; [lia|exact Hic]].
Qed.

Lemma hdr_same_pay i l ck p : hdr_of (with_pay i l ck p) = hdr_of i.
Proof. reflexivity. Qed.
Lemma frame_same_pay i l ck p : frame_of (with_pay i l ck p) = frame_of i.
Proof. reflexivity. Qed.

(** * Parsing *)
Lemma udp_parse_frame f il ick ul ck rest : ip_hdr_ok (u_ip f) -> fits 16 (u_sport f) -> fits 16 (u_dport f) ->
  fits 16 il -> fits 16 ick -> fits 16 ul -> fits 16 ck -> 28 <= il ->
  udp_parse (frame_of (u_ip f) il ick (be 2 (u_sport f) ++ be 2 (u_dport f) ++ be 2 ul ++ be 2 ck ++ rest)) =
  Some (mkUdp (with_pay (u_ip f) il ick (firstn (Z.to_nat ul - 8) (firstn (Z.to_nat il - 28) rest)))
              (u_sport f) (u_dport f) (Some ul) (Some ck)).
Proof.
  intros H Hs Hd Hil Hick Hul Hck H28. unfold udp_parse. rewrite ip_parse_frame by assumption. cbn [bind].
  unfold udp_parse_ip. cbn [i_pay i_dst i_src i_type i_ver i_ihl i_dscp i_ecn i_len i_id i_flags i_frag i_ttl i_proto i_ck i_sip i_dip].
  assert (firstn (Z.to_nat il - 20) (be 2 (u_sport f) ++ be 2 (u_dport f) ++ be 2 ul ++ be 2 ck ++ rest)
          = be 2 (u_sport f) ++ be 2 (u_dport f) ++ be 2 ul ++ be 2 ck ++ firstn (Z.to_nat il - 28) rest) as ->.
  { rewrite firstn_app, be_length, firstn_all2 by (rewrite be_length; lia). f_equal.
    rewrite firstn_app, be_length, firstn_all2 by (rewrite be_length; lia). f_equal.
    rewrite firstn_app, be_length, firstn_all2 by (rewrite be_length; lia). f_equal.
    rewrite firstn_app, be_length, firstn_all2 by (rewrite be_length; lia). f_equal. f_equal. lia. }
  go_slice. rewrite !unpack2 by assumption. cbn [bind]. go_slice.
  unfold slice at 1. cbn [skipn]. rewrite Nat.sub_0_r. unfold with_pay.
  replace (Z.to_nat ul - 2 - 2 - 2 - 2)%nat with (Z.to_nat ul - 8)%nat by lia. reflexivity.
Qed.

Lemma udp_round f pad : udp_ok f -> exists d g, udp_build f = Some d /\ length d = (42 + length (i_pay (u_ip f)))%nat
  /\ udp_parse (d ++ pad) = Some g
  /\ ip_header_same (u_ip f) (u_ip g) /\ u_sport g = u_sport f /\ u_dport g = u_dport f
  /\ i_len (u_ip g) = Some (Z.of_nat (length (i_pay (u_ip f))) + 28) /\ shows (i_ck (u_ip f)) (i_ck (u_ip g))
  /\ u_len g = Some (Z.of_nat (length (i_pay (u_ip f))) + 8) /\ shows (u_ck f) (u_ck g).
Proof.
  intro H. pose proof (udp_len_ok H) as [El Hl]. pose proof (udp_ip_len_ok H) as [Ei Hi].
  pose proof (udp_ck_fits H) as Hc. pose proof (udp_ip_ck_fits H) as Hic.
  exists (frame_of (u_ip f) (udp_ip_len f) (udp_ip_ck f) (seg f (udp_len f) (udp_ck f))). eexists.
  split; [apply udp_build_ok; exact H|].
  split; [unfold frame_of; rewrite !app_length, !be_length, hdr_length, seg_length; lia|].
  match goal with |- udp_parse ?x = _ /\ _ => assert (x = frame_of (u_ip f) (udp_ip_len f) (udp_ip_ck f)
    (be 2 (u_sport f) ++ be 2 (u_dport f) ++ be 2 (udp_len f) ++ be 2 (udp_ck f) ++ i_pay (u_ip f) ++ pad)) as ->
    by (unfold frame_of, seg; rewrite <- !app_assoc; reflexivity) end.
  destruct H as (Hh & Hs & Hd & Hp & _).
  split; [apply udp_parse_frame; assumption || lia|].
  cbn [u_ip u_sport u_dport u_len u_ck with_pay i_len i_ck].
  split; [|split; [reflexivity|split; [reflexivity|split; [|split; [|split]]]]].
  - unfold ip_header_same, with_pay. cbn [i_pay i_dst i_src i_type i_ver i_ihl i_dscp i_ecn i_id i_flags i_frag i_ttl i_proto i_sip i_dip].
    replace (Z.to_nat (udp_ip_len f) - 28)%nat with (length (i_pay (u_ip f))) by lia.
    replace (Z.to_nat (udp_len f) - 8)%nat with (length (i_pay (u_ip f))) by lia.
    rewrite firstn_app, Nat.sub_diag, firstn_O, app_nil_r, firstn_all, firstn_all. tauto.
  - rewrite Ei. reflexivity.
  - unfold udp_ip_ck. destruct (i_ck (u_ip f)); cbn; [reflexivity|discriminate].
  - rewrite El. reflexivity.
  - unfold udp_ck. destruct (u_ck f); cbn; [reflexivity|discriminate].
Qed.

Lemma udp_shows f d : udp_ok f -> udp_build f = Some d ->
  at_octets d 0 6 = i_dst (u_ip f) /\ at_octets d 6 6 = i_src (u_ip f) /\ at_octets d 12 2 = i_type (u_ip f) /\
  at_octets d 14 1 / 16 = i_ver (u_ip f) /\ at_octets d 14 1 mod 16 = i_ihl (u_ip f) /\
  at_octets d 15 1 / 4 = i_dscp (u_ip f) /\ at_octets d 15 1 mod 4 = i_ecn (u_ip f) /\
  at_octets d 16 2 = Z.of_nat (length (i_pay (u_ip f))) + 28 /\ at_octets d 18 2 = i_id (u_ip f) /\
  at_octets d 20 2 / 8192 = i_flags (u_ip f) /\ at_octets d 20 2 mod 8192 = i_frag (u_ip f) /\
  at_octets d 22 1 = i_ttl (u_ip f) /\ at_octets d 23 1 = i_proto (u_ip f) /\
  shows (i_ck (u_ip f)) (Some (at_octets d 24 2)) /\
  at_octets d 26 4 = i_sip (u_ip f) /\ at_octets d 30 4 = i_dip (u_ip f) /\
  at_octets d 34 2 = u_sport f /\ at_octets d 36 2 = u_dport f /\
  at_octets d 38 2 = Z.of_nat (length (i_pay (u_ip f))) + 8 /\ shows (u_ck f) (Some (at_octets d 40 2)) /\
  skipn 42 d = i_pay (u_ip f).
Proof.
  intros H E. pose proof (udp_len_ok H) as [El Hl]. pose proof (udp_ip_len_ok H) as [Ei Hi].
  pose proof (udp_ck_fits H) as Hc. pose proof (udp_ip_ck_fits H) as Hic.
  rewrite udp_build_ok in E by exact H. apply some_inj in E. subst d.
  assert (shows (i_ck (u_ip f)) (Some (udp_ip_ck f))) as Hs1 by (unfold udp_ip_ck; destruct (i_ck (u_ip f)); cbn; [reflexivity|discriminate]).
  assert (shows (u_ck f) (Some (udp_ck f))) as Hs2 by (unfold udp_ck; destruct (u_ck f); cbn; [reflexivity|discriminate]).
  destruct H as ((H1 & H2 & H3 & H4 & H5 & H6 & H7 & H8 & H9 & H10 & H11 & H12 & H13 & H14 & _) & Hsp & Hdp & _).
  rewrite <- El, <- Ei.
  unfold at_octets. rewrite <- !value_number. unfold frame_of, hdr_of, hdr, seg. rewrite <- !app_assoc.
  go_at. go_slice.
  assert (fits 8 (i_ver (u_ip f) * 16 + i_ihl (u_ip f))) as F1 by (unfold fits in *; lia).
  assert (fits 8 (i_dscp (u_ip f) * 4 + i_ecn (u_ip f))) as F2 by (unfold fits in *; lia).
  assert (fits 16 (i_flags (u_ip f) * 8192 + i_frag (u_ip f))) as F3 by (unfold fits in *; lia).
  rewrite !value_be by assumption.
  destruct (@divmod (i_ver (u_ip f)) (i_ihl (u_ip f)) 16 H5) as [-> ->].
  destruct (@divmod (i_dscp (u_ip f)) (i_ecn (u_ip f)) 4 H7) as [-> ->].
  destruct (@divmod (i_flags (u_ip f)) (i_frag (u_ip f)) 8192 H10) as [-> ->].
  rewrite !skipn_be by (apply Nat.leb_le; reflexivity). cbn [Nat.sub skipn]. tauto.
Qed.

(** * Checksums *)
Lemma pseudo_bytes i il ick rest l : ip_hdr_ok i -> fits 16 l ->
  pseudo_header (frame_of i il ick rest) l = be 4 (i_sip i) ++ be 4 (i_dip i) ++ [0; i_proto i] ++ be 2 l.
Proof.
  intros H Hl. unfold pseudo_header.
  destruct H as (H1 & H2 & H3 & H4 & H5 & H6 & H7 & H8 & H9 & H10 & H11 & H12 & H13 & H14 & _).
  assert (skipn 26 (frame_of i il ick rest) = be 4 (i_sip i) ++ be 4 (i_dip i) ++ rest) as E1.
  { unfold frame_of, hdr_of, hdr. rewrite <- !app_assoc.
    rewrite !skipn_be by (apply Nat.leb_le; reflexivity). reflexivity. }
  assert (nth 23 (frame_of i il ick rest) 0 = i_proto i) as E2.
  { replace (nth 23 (frame_of i il ick rest) 0) with (nth 0 (skipn 23 (frame_of i il ick rest)) 0).
    - unfold frame_of, hdr_of, hdr. rewrite <- !app_assoc.
      rewrite !skipn_be by (apply Nat.leb_le; reflexivity). cbn. red in H12. apply Z.mod_small. lia.
    - rewrite <- (firstn_skipn 23 (frame_of i il ick rest)) at 2.
      rewrite app_nth2; rewrite firstn_length_le; try lia; try reflexivity.
      all: unfold frame_of; rewrite !app_length, !be_length, hdr_length; lia. }
  rewrite E1, E2. rewrite firstn_app, be_length, firstn_all2 by (rewrite be_length; lia).
  change (8 - 4)%nat with 4%nat. rewrite firstn_app, be_length, firstn_all2 by (rewrite be_length; lia).
  rewrite Nat.sub_diag, firstn_O, app_nil_r, <- app_assoc. f_equal. f_equal. f_equal. f_equal.
  cbn [be app]. red in Hl. rewrite (Z.mod_small (l / 256)); [reflexivity|].
  split; [apply Z.div_pos; lia|apply Z.div_lt_upper_bound; lia].
Qed.

Lemma words_app_even : forall n a b, length a = (2 * n)%nat -> words (a ++ b) = words a ++ words b.
Proof.
  induction n as [|n IH]; intros a b Ha.
  - destruct a; [reflexivity|discriminate].
  - destruct a as [|x [|y t]]; cbn [length] in Ha; try lia. cbn [app words]. f_equal. apply IH. lia.
Qed.

Lemma udp_sum_words f ul ck i il ick rest : ip_hdr_ok (u_ip f) -> i_sip i = i_sip (u_ip f) -> i_dip i = i_dip (u_ip f) ->
  i_proto i = i_proto (u_ip f) -> ip_hdr_ok i ->
  fits 16 (u_sport f) -> fits 16 (u_dport f) -> fits 16 ul -> fits 16 ck ->
  sum (words (pseudo_header (frame_of i il ick rest) ul ++ seg f ul ck)) = usum f ul + ck.
Proof.
  intros H E1 E2 E3 H' Hs Hd Hul Hck. rewrite pseudo_bytes by assumption. rewrite E1, E2, E3.
  destruct H as (H1 & H2 & H3 & H4 & H5 & H6 & H7 & H8 & H9 & H10 & H11 & H12 & H13 & H14 & _).
  unfold seg. rewrite <- !app_assoc. rewrite !words_be4 by assumption.
  rewrite words_two. rewrite !words_be2 by assumption.
  unfold usum, psum, sum. cbn [fold_right]. lia.
Qed.

Lemma pseudo_octets d l : octets d -> fits 16 l -> octets (pseudo_header d l).
Proof.
  intros Hd Hl. unfold pseudo_header. apply Forall_app. split.
  - exact (slice_octets 26 34 Hd).
  - red in Hl. constructor; [red; lia|]. constructor.
    + destruct (nth_in_or_default 23 d 0) as [Hi| ->]; [exact (proj1 (Forall_forall _ _) Hd _ Hi)|red; lia].
    + constructor; [|constructor; [red; apply Z.mod_pos_bound; lia|constructor]].
      red. split; [apply Z.div_pos; lia|apply Z.div_lt_upper_bound; lia].
Qed.

Lemma udp_verdict f ul ck il ick rest : ip_hdr_ok (u_ip f) -> octets rest ->
  fits 16 (u_sport f) -> fits 16 (u_dport f) -> fits 16 ul -> fits 16 ck -> small f ->
  (ones_sum (pseudo_header (frame_of (u_ip f) il ick rest) ul ++ seg f ul ck) = 65535 <->
   ck = udp_calc f ul \/ (ck = 65535 /\ udp_calc f ul = 0)).
Proof.
  intros H Hr Hs Hd Hul Hck Hn. assert (octets (i_pay (u_ip f))) as Ho by (unfold ip_hdr_ok in H; tauto).
  set (bs := pseudo_header (frame_of (u_ip f) il ick rest) ul ++ seg f ul ck).
  assert (octets bs) as Hb.
  { apply Forall_app. split; [|apply seg_octets; exact Ho]. apply pseudo_octets; [|exact Hul].
    unfold frame_of. repeat (apply Forall_app; split; [apply be_octets|]). apply Forall_app. split; [apply hdr_octets|exact Hr]. }
  pose proof (canon_fold (a := 0) (words_w16 (le_n _) Hb) ltac:(red; lia)) as C.
  unfold bs in C at 1. rewrite udp_sum_words in C by (assumption || reflexivity).
  change (fold_left oadd (words bs) 0) with (ones_sum bs) in C. rewrite Z.add_0_l in C.
  rewrite (sum_ffff C). destruct (udp_calc_canon H Hul Hs Hd Hn) as (r & Hrr & ->).
  rewrite (@completes _ r ck); [| |exact Hrr|red in Hck; red; lia].
  - split; intros [E|[E1 E2]]; [left; exact E|right; lia|left; exact E|right; lia].
  - pose proof (psum_range f H Hul). pose proof (udp_rest_range H Hul Hs Hd Hn). unfold usum. lia.
Qed.

Lemma udp_back d f : octets d -> udp_parse d = Some f ->
  exists ul ck il ick rest, u_len f = Some ul /\ u_ck f = Some ck /\ i_len (u_ip f) = Some il /\ i_ck (u_ip f) = Some ick
  /\ ip_hdr_ok (u_ip f) /\ fits 16 (u_sport f) /\ fits 16 (u_dport f) /\ fits 16 ul /\ fits 16 ck /\ fits 16 il /\ fits 16 ick
  /\ 28 <= il /\ octets rest
  /\ d = frame_of (u_ip f) il ick (be 2 (u_sport f) ++ be 2 (u_dport f) ++ be 2 ul ++ be 2 ck ++ rest)
  /\ i_pay (u_ip f) = firstn (Z.to_nat ul - 8) (firstn (Z.to_nat il - 28) rest).
Proof.
  intros Hd E. unfold udp_parse in E. destruct (ip_parse d) as [i|] eqn:Ei; cbn [bind] in E; [|discriminate].
  destruct (ip_back Hd Ei) as (H & il & ick & rest & El & Eck & Fl & Fck & Ed & Ep & Hr).
  unfold udp_parse_ip in E. set (p := i_pay i) in *.
  destruct (unpack 2 (slice p 0 2)) as [sp|] eqn:E0; cbn [bind] in E; [|discriminate].
  destruct (unpack 2 (slice p 2 4)) as [dp|] eqn:E1; cbn [bind] in E; [|discriminate].
  destruct (unpack 2 (slice p 4 6)) as [ul|] eqn:E2; cbn [bind] in E; [|discriminate].
  destruct (unpack 2 (slice p 6 8)) as [ck|] eqn:E3; cbn [bind] in E; [|discriminate].
  apply some_inj in E. subst f.
  assert (octets p) as Hp by (unfold ip_hdr_ok in H; tauto).
  assert (8 <= length p)%nat as L8.
  { apply unpack_inv in E3. destruct E3 as [L _]. unfold slice in L. rewrite firstn_length, skipn_length in L. lia. }
  assert (length p <= Z.to_nat il - 20)%nat as L20 by (rewrite Ep; apply firstn_le_length).
  apply (@fits_slice p _ _ _ _ Hp) in E0. apply (@fits_slice p _ _ _ _ Hp) in E1.
  apply (@fits_slice p _ _ _ _ Hp) in E2. apply (@fits_slice p _ _ _ _ Hp) in E3.
  destruct E0 as [F0 B0], E1 as [F1 B1], E2 as [F2 B2], E3 as [F3 B3].
  rewrite El, Eck. fold (with_pay i il ick (slice p 8 (Z.to_nat ul))).
  exists ul, ck, il, ick, (skipn 8 rest). cbn [u_ip u_sport u_dport u_len u_ck].
  split; [reflexivity|]. split; [reflexivity|]. split; [reflexivity|]. split; [reflexivity|].
  split; [apply hdr_ok_pay; [exact H|apply slice_octets; exact Hp]|].
  split; [exact F0|]. split; [exact F1|]. split; [exact F2|]. split; [exact F3|]. split; [exact Fl|]. split; [exact Fck|].
  split; [lia|].
  split; [rewrite <- (firstn_skipn 8 rest) in Hr; apply Forall_app in Hr; exact (proj2 Hr)|].
  assert (firstn 8 p = firstn 8 rest) as E8 by (rewrite Ep, firstn_firstn; f_equal; lia).
  split.
  - rewrite frame_same_pay, Ed. f_equal. rewrite B0, B1, B2, B3.
    assert (slice p 0 2 ++ slice p 2 4 ++ slice p 4 6 ++ slice p 6 8 = firstn 8 rest) as E.
    { rewrite <- E8. rewrite <- (firstn_skipn 8 p) at 1 2 3 4. set (q := firstn 8 p).
      assert (length q = 8%nat) as Lq by (unfold q; rewrite firstn_length_le; lia).
      destruct q as [|x0 [|x1 [|x2 [|x3 [|x4 [|x5 [|x6 [|x7 [|]]]]]]]]]; try discriminate Lq. reflexivity. }
    rewrite <- (firstn_skipn 8 rest) at 1. rewrite <- E, <- !app_assoc. reflexivity.
  - cbn [with_pay i_pay]. unfold slice. f_equal. rewrite Ep, skipn_firstn_comm. f_equal. lia.
Qed.

Lemma udp_checksum_built f d : udp_ok f -> u_ck f = None -> udp_build f = Some d ->
  ones_sum (pseudo_header d (Z.of_nat (length (i_pay (u_ip f))) + 8) ++ skipn 34 d) = 65535.
Proof.
  intros H Hn E. pose proof (udp_len_ok H) as [El Hl]. pose proof (udp_ck_fits H) as Hc. pose proof (udp_small H) as Hsm.
  rewrite udp_build_ok in E by exact H. apply some_inj in E. subst d. rewrite <- El.
  assert (octets (i_pay (u_ip f))) as Ho by (unfold udp_ok, ip_hdr_ok in H; tauto).
  assert (skipn 34 (frame_of (u_ip f) (udp_ip_len f) (udp_ip_ck f) (seg f (udp_len f) (udp_ck f)))
          = seg f (udp_len f) (udp_ck f)) as ->.
  { unfold frame_of, hdr_of, hdr. rewrite <- !app_assoc. rewrite !skipn_be by (apply Nat.leb_le; reflexivity). reflexivity. }
  destruct H as (Hh & Hs & Hd & _).
  apply udp_verdict; try assumption; [apply seg_octets; exact Ho|].
  left. unfold udp_ck. rewrite Hn. reflexivity.
Qed.

Lemma udp_ip_checksum_built f d : udp_ok f -> i_ck (u_ip f) = None -> udp_build f = Some d ->
  ones_sum (firstn 20 (skipn 14 d)) = 65535.
Proof.
  intros H Hn E. pose proof (udp_ip_len_ok H) as [El Hl]. pose proof (udp_ip_ck_fits H) as Hc.
  rewrite udp_build_ok in E by exact H. apply some_inj in E. subst d. rewrite frame_hdr.
  apply hdr_verdict; [exact (proj1 H)|exact Hl|exact Hc|]. left. unfold udp_ip_ck. rewrite Hn. reflexivity.
Qed.

Lemma udp_verify_spec d f : octets d -> udp_parse d = Some f ->
  exists ul, u_len f = Some ul /\ ul = at_octets d 38 2 /\
  let sum := ones_sum (pseudo_header d ul ++ firstn 8 (skipn 34 d) ++ i_pay (u_ip f)) in
  (udp_verify f = Some true -> sum = 65535) /\
  (sum = 65535 -> u_ck f <> Some 65535 -> udp_verify f = Some true) /\ udp_verify f <> None.
Proof.
  intros Hd E. destruct (udp_back Hd E) as
    (ul & ck & il & ick & rest & Eul & Eck & Eil & Eick & H & Hs & Hdp & Ful & Fck & Fil & Fick & H28 & Hr & Ed & Ep).
  exists ul. split; [exact Eul|].
  assert (firstn 8 (skipn 34 d) = be 2 (u_sport f) ++ be 2 (u_dport f) ++ be 2 ul ++ be 2 ck) as E8.
  { rewrite Ed. unfold frame_of, hdr_of, hdr. rewrite <- !app_assoc.
    rewrite !skipn_be by (apply Nat.leb_le; reflexivity). cbn [Nat.sub skipn].
    rewrite !app_assoc, firstn_app. rewrite firstn_all2 by (rewrite !app_length, !be_length; lia).
    rewrite !app_length, !be_length. cbn [plus Nat.sub firstn]. apply app_nil_r. }
  split.
  { unfold at_octets. rewrite <- value_number.
    replace (firstn 2 (skipn 38 d)) with (be 2 ul); [symmetry; apply value_be; exact Ful|].
    rewrite Ed. unfold frame_of, hdr_of, hdr. rewrite <- !app_assoc.
    rewrite !skipn_be by (apply Nat.leb_le; reflexivity). cbn [Nat.sub skipn].
    rewrite firstn_app, be_length, Nat.sub_diag, firstn_O, app_nil_r. rewrite firstn_all2 by (rewrite be_length; lia). reflexivity. }
  intro s. unfold s. rewrite E8.
  replace ((be 2 (u_sport f) ++ be 2 (u_dport f) ++ be 2 ul ++ be 2 ck) ++ i_pay (u_ip f)) with (seg f ul ck)
    by (unfold seg; rewrite <- !app_assoc; reflexivity).
  assert (small f) as Hn.
  { red. rewrite Ep. pose proof (firstn_le_length (Z.to_nat ul - 8) (firstn (Z.to_nat il - 28) rest)). red in Ful. lia. }
  assert (octets (be 2 (u_sport f) ++ be 2 (u_dport f) ++ be 2 ul ++ be 2 ck ++ rest)) as Hr'
    by (repeat (apply Forall_app; split; [apply be_octets|]); exact Hr).
  pose proof (@udp_verdict f ul ck il ick _ H Hr' Hs Hdp Ful Fck Hn) as V. rewrite <- Ed in V.
  unfold udp_verify. rewrite Eul, Eck. cbn [bind]. split; [|split].
  - intro E1. apply some_inj in E1. apply Z.eqb_eq in E1. apply V. left. exact E1.
  - intros E1 E2. apply V in E1. destruct E1 as [E1|[E1 _]]; [|congruence]. f_equal. apply Z.eqb_eq. exact E1.
  - discriminate.
Qed.
