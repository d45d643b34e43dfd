(** C63: the completion writer. *)
From Verif Require Import Base.Prelude Base.Bits Rtl.Handshake_spec Stream.Axis_model Nic.CplWrite_model Nic.CplWrite_spec Nic.CplWrite_check
  Nic.CplWrite_proof Nic.CplWrite_data_proof Nic.CplWrite_live_proof.
From Coq Require Import Lia Arith ZArith.
Local Open Scope Z_scope.

(** Every accepted request asks its queue manager for a place once, in order; at most the last one is still to be
    taken. *)
Theorem C63_enqueue : forall c s is, sane c -> started c s ->
  let os := snd (trace (w_step c) s is) in let L := ledger_of c is os in lawful c is os ->
  exists w, (length w <= 1)%nat /\
    over enq_out is os ++ w = map (fun k => (q_sel (p_req (l_op L k)), q_queue (p_req (l_op L k)), (k mod w_n c)%nat)) (seq 0 (l_n L)).
Proof. exact enq_result. Qed.
Print Assumptions C63_enqueue.

(** Every answer taken gives one status, in the order of the answers, with the tag of the request it answers; no request
    is answered twice. *)
Theorem C63_status : forall c s is, sane c -> started c s ->
  let os := snd (trace (w_step c) s is) in let L := ledger_of c is os in lawful c is os ->
  somes (map o_stat os) = map (fun k => status_of (l_op L k)) (l_ans L) /\ NoDup (l_ans L) /\
  forall k, In k (l_ans L) <-> (k < l_n L)%nat /\ p_ans (l_op L k) <> None.
Proof. exact status_result. Qed.
Print Assumptions C63_status.

(** Every answer that is neither full nor an error gives one DMA write, in the order of the answers, of the whole record,
    from its own row to the address in the answer; at most the last one is still to be taken. *)
Theorem C63_writes : forall c s is, sane c -> started c s ->
  let os := snd (trace (w_step c) s is) in let L := ledger_of c is os in lawful c is os ->
  exists w, (length w <= 1)%nat /\ over write_out is os ++ w = flat_map (fun k => write_of c k (l_op L k)) (l_ans L).
Proof. exact write_result. Qed.
Print Assumptions C63_writes.

(** What the DMA engine reads for a write it is performing is the data of that request with the phase of its answer in the
    last bit, segment by segment, in the order of the read commands. *)
Theorem C63_data : forall c s is n, sane c -> started c s ->
  let os := snd (trace (w_step c) s is) in lawful c is os ->
  exists answered rest, reads c n is os = answered ++ rest /\ (length rest <= w_pipe c)%nat /\ Forall2 (fits c n) answered (over (data_out n) is os).
Proof. exact data_result. Qed.
Print Assumptions C63_data.

(** While the DMA engine takes data, every read is answered after as many cycles as there are stages. *)
Theorem C63_data_comes : forall c s is1 is2 n, sane c -> started c s ->
  let os := snd (trace (w_step c) s (is1 ++ is2)) in lawful c (is1 ++ is2) os -> (w_pipe c <= length is2)%nat -> Forall (fun i => i_rrdy i n = true) is2 ->
  (length (reads c n is1 (snd (trace (w_step c) s is1))) <= length (over (data_out n) (is1 ++ is2) os))%nat.
Proof. exact drain_result. Qed.
Print Assumptions C63_data_comes.

(** Commits come in the order of the requests that may be written, one each, to the port it was asked from with the
    operation it was given there, and only once the record is written. *)
Theorem C63_commits : forall c s is, sane c -> started c s ->
  let os := snd (trace (w_step c) s is) in let L := ledger_of c is os in lawful c is os ->
  exists ks rest, passed L = ks ++ rest /\ Forall2 (fun k x => commit_as (l_op L k) x) ks (over commit_out is os).
Proof. exact commit_result. Qed.
Print Assumptions C63_commits.

(** When a request is accepted, the one before it with the same tag is over and done with. *)
Theorem C63_tag_reuse : forall c s is, sane c -> started c s ->
  let os := snd (trace (w_step c) s is) in let L := ledger_of c is os in lawful c is os ->
  forall i, let o := snd (w_step c (fst (trace (w_step c) s is)) i) in
  o_ready o = true -> forall k, (k + w_n c <= l_n L)%nat -> settled (l_op L k).
Proof. exact reuse_result. Qed.
Print Assumptions C63_tag_reuse.

(** The lower ports go first, but no port starves: while DMA writes are taken, an answer that is offered is taken within
    four cycles for each entry of the table. *)
Theorem C63_no_starvation : forall c p, sane c -> (p < w_ports c)%nat -> forall s is1 is2, started c s ->
  lawful c (is1 ++ is2) (snd (trace (w_step c) s (is1 ++ is2))) ->
  Forall (fun i => i_wrdy i = true) is2 -> (forall i is3, is2 = i :: is3 -> i_resp i p <> None) -> (4 * w_n c <= length is2)%nat ->
  exists o, In o (snd (trace (w_step c) (fst (trace (w_step c) s is1)) is2)) /\ o_rrdy o = Some p.
Proof. exact starve_result. Qed.
Print Assumptions C63_no_starvation.

(** Nothing gets stuck: once everything offered is taken for a while, a queue manager or the DMA engine owes an answer, or
    every request is settled, everything due was handed over, and the next request is taken. *)
Theorem C63_progress : forall c s is1 is2, sane c -> started c s ->
  let is := is1 ++ is2 in let os := snd (trace (w_step c) s is) in let L := ledger_of c is os in
  lawful c is os -> Forall (idle c) is2 -> (2 * w_n c + 5 <= length is2)%nat -> forall i,
  (exists k, (k < l_n L)%nat /\ waits (l_op L k)) \/
  (forall k, (k < l_n L)%nat -> settled (l_op L k)) /\
  over enq_out is os = map (fun k => (q_sel (p_req (l_op L k)), q_queue (p_req (l_op L k)), (k mod w_n c)%nat)) (seq 0 (l_n L)) /\
  over write_out is os = flat_map (fun k => write_of c k (l_op L k)) (l_ans L) /\
  Forall2 (fun k x => commit_as (l_op L k) x) (passed L) (over commit_out is os) /\
  o_ready (snd (w_step c (fst (trace (w_step c) s is)) i)) = true.
Proof. exact progress_result. Qed.
Print Assumptions C63_progress.

(* ----- cases ----- *)
Definition none2 : nat -> option resp := fun _ => None.
Definition at_port (p : nat) (r : resp) : nat -> option resp := fun q => if (q =? p)%nat then Some r else None.
Definition w_in (r : option creq) (a : nat -> option resp) (d : option nat) (m : option Z) : win :=
  mkWin false true r (fun _ => true) a (fun _ => true) true d (fun _ => m) (fun _ => true).
Definition tick := w_in None none2 None None.
Definition c1 := mkWc 1 2 64 32 2 5 12.
Definition mem1 : nat -> wentry := fun k => mkWe true true true 1 99 99 true 99.
Definition rq p q t d := w_in (Some (mkCr p q t d)) none2 None None.
Definition r_a := mkRe true 4096 0 9 false false.
Definition r_b := mkRe false 8192 1 3 false false.
Definition r_c := mkRe false 0 0 0 true false.
(** Three requests: two are answered in the same cycle, the second of them first written; the third is refused. *)
Definition run1 := [tick; rq 1 5 70 (2 ^ 40 + 77); tick; tick; rq 0 6 71 (2 ^ 63 + 5); tick; tick;
  w_in None (fun q => if (q =? 0)%nat then Some r_b else Some r_a) None None; w_in None (fun q => if (q =? 0)%nat then Some r_b else Some r_a) None None;
  w_in None (at_port 1 r_a) None (Some 1); w_in None (at_port 1 r_a) None None; w_in None none2 None (Some 0); w_in None none2 (Some 1%nat) None;
  w_in None none2 (Some 0%nat) None; tick; tick; rq 1 7 72 1; tick; w_in None (at_port 1 r_c) None None; w_in None (at_port 1 r_c) None None].
Definition is1 := run1 ++ repeat tick 9.
Definition os1 := snd (trace (w_step c1) (w_init c1 mem1) is1).
Example C63_nonvacuous : sane c1 /\ started c1 (w_init c1 mem1) /\ lawful c1 is1 os1 /\
  let L := ledger_of c1 is1 os1 in
  l_n L = 3%nat /\ l_ans L = [1; 0; 2]%nat /\ passed L = [0; 1]%nat /\
  over enq_out is1 os1 = [(1%nat, 5, 0%nat); (0%nat, 6, 1%nat); (1%nat, 7, 0%nat)] /\
  somes (map o_stat os1) = [(71, false, false); (70, false, false); (72, true, false)] /\
  over write_out is1 os1 = [mkWd 8192 32 8 1; mkWd 4096 0 8 0] /\
  over commit_out is1 os1 = [(1%nat, 9); (0%nat, 3)].
Proof.
  split; [unfold sane; cbn; lia|]. split; [left; exists mem1; reflexivity|]. split; [apply lawfulb_ok; vm_compute; reflexivity|]. cbv zeta.
  splits; vm_compute; reflexivity.
Qed.
(** The record with the phase in its last bit, whatever that bit of the data was. *)
Example C63_data_nonvacuous :
  map (option_map (fun p => q_tag (p_req p))) (reads c1 1 is1 os1) = [Some 71; Some 70] /\
  over (data_out 0) is1 os1 = [5; 77] /\ over (data_out 1) is1 os1 = [0; 2 ^ 31 + 2 ^ 8].
Proof. splits; vm_compute; reflexivity. Qed.
Example C63_no_starvation_nonvacuous : is1 = firstn 7 is1 ++ skipn 7 is1 /\ Forall (fun i => i_wrdy i = true) (skipn 7 is1) /\ (4 * w_n c1 <= length (skipn 7 is1))%nat /\
  (forall i is3, skipn 7 is1 = i :: is3 -> i_resp i 1%nat <> None).
Proof. splits; [reflexivity|repeat constructor|vm_compute; lia|intros i is3; cbn; intros [= <- _]; discriminate]. Qed.
Example C63_progress_nonvacuous : Forall (idle c1) (repeat tick 9) /\ (2 * w_n c1 + 5 <= length (repeat tick 9))%nat /\
  let L := ledger_of c1 is1 os1 in forallb (fun k => refused (l_op L k) || goes (l_op L k) && p_done (l_op L k)) (seq 0 (l_n L)) = true.
Proof.
  split; [apply Forall_forall; intros i H; apply repeat_spec in H; subst; unfold idle; splits; auto|]. split; [vm_compute; lia|]. vm_compute. reflexivity.
Qed.
(** A reset in the middle of an operation. *)
Example C63_started_nonvacuous : exists s, started c1 s /\ n_done (x_tab s 0%nat) = true /\ n_phase (x_tab s 0%nat) = true.
Proof.
  exists (fst (trace (w_step c1) (w_init c1 mem1) (firstn 14 run1 ++ [mkWin true true None (fun _ => true) none2 (fun _ => true) true None (fun _ => None) (fun _ => true)]))).
  split; [right; exists mem1; eexists; eexists; split; [|reflexivity]; reflexivity|]. split; vm_compute; reflexivity.
Qed.
