(** Registered-ready input channels: with a source that holds its request until
    the handshake, what is handed over is exactly what was accepted one cycle
    earlier. *)
From Verif Require Import Base.Prelude Rtl.Handshake_spec.

Lemma somes_cons A (x : option A) l : somes (x :: l) = olist x ++ somes l.
Proof. destruct x; reflexivity. Qed.

Lemma somes_app A (a b : list (option A)) : somes (a ++ b) = somes a ++ somes b.
Proof. apply flat_map_app. Qed.

Section RegReady.
  Variables (S I O X : Type) (step : S -> I -> S * O).
  Variables (v : I -> option X) (rdy : S -> bool) (h acc : O -> option X).
  Variable (inv : S -> Prop).
  Hypothesis F0 : forall s i, inv s -> inv (fst (step s i)).
  Hypothesis F1 : forall s i, h (snd (step s i)) = if rdy s then v i else None.
  Hypothesis F2 : forall s i, rdy (fst (step s i)) = match acc (snd (step s i)) with Some _ => true | None => false end.
  Hypothesis F3 : forall s i x, acc (snd (step s i)) = Some x -> v i = Some x.
  Hypothesis F4 : forall s i, inv s -> rdy s = true -> acc (snd (step s i)) = None.

  Lemma regready_gen : forall is s P,
    inv s ->
    (rdy s = true -> exists x, P = [x] /\ (forall i r, is = i :: r -> v i = Some x)) ->
    (rdy s = false -> P = []) ->
    holds_until (map v is) (map h (snd (trace step s is))) ->
    exists pend, P ++ somes (map acc (snd (trace step s is)))
                 = somes (map h (snd (trace step s is))) ++ pend /\ length pend <= 1.
  Proof.
    induction is as [|i is IH]; intros s P Hi Hr Hn Hh.
    - simpl. rewrite app_nil_r. exists P. split; auto.
      destruct (rdy s); [destruct Hr as (x & -> & _); auto|rewrite Hn; auto].
    - simpl. simpl in Hh.
      pose proof (F0 i Hi) as Hi1.
      pose proof (F1 s i) as E1. pose proof (F2 s i) as E2. pose proof (F3 s i) as E3.
      pose proof (F4 i Hi) as E4.
      destruct (step s i) as [s1 o]. cbn [fst snd] in *.
      specialize (IH s1).
      destruct (trace step s1 is) as [s2 os] eqn:Et. cbn [fst snd] in *.
      rewrite !map_cons in *. rewrite !somes_cons.
      assert (Hh' : holds_until (map v is) (map h os)).
      { intros t x H1 H2 H3. apply (Hh (Datatypes.S t) x H1 H2). simpl. lia. }
      destruct (rdy s) eqn:Er.
      + destruct (Hr eq_refl) as (x & -> & Hx). specialize (Hx _ _ eq_refl).
        rewrite (E4 eq_refl) in *. rewrite E1, Hx.
        destruct (IH [] Hi1) as (pend & Hp & Hl); auto.
        { intros H; congruence. }
        simpl. exists pend. split; auto. simpl in Hp. rewrite Hp. reflexivity.
      + rewrite Hn, E1 by auto. simpl.
        apply IH; auto.
        * destruct (acc o) as [x|] eqn:Ea; [|congruence].
          intros _. exists x. split; auto. intros i' r' ->.
          assert (Hs : nth_error (v i :: map v (i' :: r')) 1 = Some (Some x)).
          { apply (Hh 0 x).
            - simpl. rewrite (E3 _ eq_refl). reflexivity.
            - simpl. rewrite E1. reflexivity.
            - simpl. lia. }
          simpl in Hs. congruence.
        * destruct (acc o); [congruence|auto].
  Qed.

  Lemma regready s is :
    inv s -> rdy s = false ->
    holds_until (map v is) (map h (snd (trace step s is))) ->
    exists pend, somes (map acc (snd (trace step s is)))
                 = somes (map h (snd (trace step s is))) ++ pend /\ length pend <= 1.
  Proof.
    intros Hi Hr Hh. destruct (@regready_gen is s [] Hi) as (p & Hp & Hl); auto.
    - congruence.
    - exists p. auto.
  Qed.
End RegReady.
