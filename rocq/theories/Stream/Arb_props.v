(** C22 (arbiter) and C23 (priority encoder). *)
From Verif Require Import Base.Prelude Stream.Arb_model Stream.Arb_spec Stream.Arb_proof.

Theorem C23_valid w lsb inp :
  pe_valid w lsb inp = true <-> exists i, i < w /\ inp i = true.
Proof. exact (pe_valid_spec w lsb inp). Qed.
Print Assumptions C23_valid.

Theorem C23_encoded w lsb inp :
  (exists i, i < w /\ inp i = true) -> extreme_bit lsb w inp (pe_encoded w lsb inp).
Proof. exact (fun H => @pe_encoded_spec w lsb inp (proj2 (pe_valid_spec w lsb inp) H)). Qed.
Print Assumptions C23_encoded.

Theorem C23_unencoded w lsb inp :
  (exists i, i < w /\ inp i = true) ->
  forall k, pe_unencoded w lsb inp k = true <-> extreme_bit lsb w inp k.
Proof. exact (@pe_unencoded_spec w lsb inp). Qed.
Print Assumptions C23_unencoded.

(** Bits at or above WIDTH do not exist: they have no influence. *)
Theorem C23_only_real_bits w lsb f g :
  (forall i, i < w -> f i = g i) ->
  pe_valid w lsb f = pe_valid w lsb g /\
  ((exists i, i < w /\ f i = true) -> pe_encoded w lsb f = pe_encoded w lsb g).
Proof. exact (@pe_ext w lsb f g). Qed.
Print Assumptions C23_only_real_bits.

(** A width that is not a power of two, both priorities. *)
Example C23_nonvacuous :
  let inp := fun k => (k =? 2) || (k =? 5) || (k =? 9) in
  pe_valid 7 true inp = true /\ pe_encoded 7 true inp = 2 /\ pe_encoded 7 false inp = 5 /\
  pe_encoded 11 false inp = 9 /\ pe_valid 2 true inp = false.
Proof. vm_compute. auto. Qed.

(** At most one grant, named by grant_encoded. *)
Theorem C22_one_hot c s : 0 < ports c -> arb_reach c s ->
  (forall k, a_grant s k = true <-> (a_valid s = true /\ k = a_enc s)) /\
  (a_valid s = true -> a_enc s < ports c).
Proof. exact (@one_hot c s). Qed.
Print Assumptions C22_one_hot.

(** In a cycle in which the grant is not held, a grant is given exactly when some
    port requests, and to a port that requests in that cycle. *)
Theorem C22_grant_to_requester c s x : 0 < ports c -> arb_reach c s ->
  ar_rst x = false -> held c s x = false ->
  (a_valid (arb_step c s x) = true <-> exists p, p < ports c /\ ar_req x p = true) /\
  (a_valid (arb_step c s x) = true -> ar_req x (a_enc (arb_step c s x)) = true).
Proof. exact (@to_requester c s x). Qed.
Print Assumptions C22_grant_to_requester.

(** Without round robin the extreme requester wins. *)
Theorem C22_fixed_priority c s x : 0 < ports c -> arb_reach c s ->
  ar_rst x = false -> held c s x = false -> rr c = false ->
  (exists p, p < ports c /\ ar_req x p = true) ->
  extreme_bit (lsb_high c) (ports c) (ar_req x) (a_enc (arb_step c s x)).
Proof. exact (@fixed_priority c s x). Qed.
Print Assumptions C22_fixed_priority.

(** With blocking, the grant stays until the granted port releases it. *)
Theorem C22_held c s x : 0 < ports c -> arb_reach c s ->
  ar_rst x = false -> held c s x = true ->
  a_valid (arb_step c s x) = true /\ a_enc (arb_step c s x) = a_enc s /\
  forall k, a_grant (arb_step c s x) k = a_grant s k.
Proof. exact (@stays_held c s x). Qed.
Print Assumptions C22_held.

(** Round robin: a port that keeps requesting is among the next PORTS grants. *)
Theorem C22_fair c s p xs : 0 < ports c -> arb_reach c s ->
  rr c = true -> p < ports c ->
  Forall (fun x => ar_rst x = false /\ ar_req x p = true) xs ->
  ports c <= length (grants c s xs) ->
  In p (firstn (ports c) (grants c s xs)).
Proof. exact (fun Hp Hs Hr Hpp HF HL => @fair c Hp s p xs Hr Hpp Hs HF HL). Qed.
Print Assumptions C22_fair.

(** Without round robin there is no such guarantee: a port can be passed over for ever. *)
Theorem C22_fixed_priority_starves n :
  exists xs, Forall (fun x => ar_rst x = false /\ ar_req x 1 = true) xs /\
    grants (mkArb 2 false false false true) arb0 xs = repeat 0 n.
Proof. exact (starves n). Qed.
Print Assumptions C22_fixed_priority_starves.

Example C22_nonvacuous :
  let c := mkArb 3 true true true false in
  let x a := mkArbIn false (fun _ => true) (fun k => k =? a) in
  grants c arb0 [x 0; x 7; x 2; x 1; x 0; x 1] = [2; 1; 0; 2].
Proof. vm_compute. reflexivity. Qed.
