(** C01: the queue index allocator never hands out a held index. *)
From Verif Require Import Base.Prelude Driver.Resource_model Driver.Resource_spec Driver.Resource_proof.

Theorem C01_resource_pool_history : forall count stride ops,
  well_used [] ops (snd (trace res_step (res_init count stride) ops)) ->
  spec_history count stride [] ops (snd (trace res_step (res_init count stride) ops)).
Proof. exact resource_correct. Qed.
Print Assumptions C01_resource_pool_history.

(** A history that exhausts the pool, frees out of order and re-allocates
    meets the hypothesis and shows the expected results. *)
Example C01_nonvacuous :
  let ops := [OpAlloc; OpAlloc; OpAlloc; OpAlloc; OpFree 1; OpFree 0; OpAlloc; OpWindow 0] in
  well_used [] ops (snd (trace res_step (res_init 3 64) ops)) /\
  snd (trace res_step (res_init 3 64) ops)
  = [RetIndex 0; RetIndex 1; RetIndex 2; RetIndexError; RetNone; RetNone; RetIndex 0; RetWin (0, 64)%Z].
Proof. vm_compute. tauto. Qed.
