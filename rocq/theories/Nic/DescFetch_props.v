(** C64: the descriptor fetcher. *)
From Verif Require Import Base.Prelude Base.Bits Rtl.Handshake_spec Stream.Axis_model Nic.DescFetch_model Nic.DescFetch_spec Nic.DescFetch_check Nic.DescFetch_proof
  Nic.DescFetch_live_proof.
From Coq Require Import Lia Arith ZArith.
Local Open Scope Z_scope.

(** Every request is passed on to the queue manager of its port once, in order. *)
Theorem C64_asks : forall c s is, sane c -> started c s -> let os := snd (trace (f_step c) s is) in lawful c is os ->
  exists w, (length w <= 1)%nat /\ over ask_out is os ++ w = map (fun r => (q_sel r, q_queue r, q_tag r)) (over req_in is os).
Proof. exact ask_result. Qed.
Print Assumptions C64_asks.

(** Every answer taken gives one status report with its fields, in order. *)
Theorem C64_status : forall c s is, sane c -> started c s -> let os := snd (trace (f_step c) s is) in lawful c is os ->
  somes (map o_stat os) = map stat_of (over resp_in is os).
Proof. exact status_result. Qed.
Print Assumptions C64_status.

(** Every descriptor block found is read from the host once, in order, and nothing else is. *)
Theorem C64_reads : forall c s is, sane c -> started c s -> let os := snd (trace (f_step c) s is) in lawful c is os ->
  exists w, (length w <= 1)%nat /\ over dma_out is os ++ w = map (dma_of c) (number (fetches (over resp_in is os))).
Proof. exact dma_result. Qed.
Print Assumptions C64_reads.

(** Blocks are handed on in the order of the answers, under the tag of the request, each after its DMA read was reported. *)
Theorem C64_hands_on : forall c s is, sane c -> started c s -> let os := snd (trace (f_step c) s is) in lawful c is os ->
  exists rest, map (cmd_of c) (number (fetches (over resp_in is os))) = over cmd_out is os ++ rest /\
  forall k, (k < length (over cmd_out is os))%nat -> l_fet (ledger_of c is os) k = true.
Proof. exact cmd_result. Qed.
Print Assumptions C64_hands_on.

(** Where commits are taken at once, or with one port: dequeues are committed in that order, to the port of the answer. *)
Theorem C64_commits : forall c s is, sane c -> started c s -> let os := snd (trace (f_step c) s is) in lawful c is os ->
  prompt c is os ->
  exists rest, map commit_of (fetches (over resp_in is os)) = over commit_out is os ++ rest /\
  forall k, (k < length (over commit_out is os))%nat -> l_fet (ledger_of c is os) k = true.
Proof. exact commit_result. Qed.
Print Assumptions C64_commits.

(** A row of the memory is filled again only after the block in it was handed on whole; rows have nothing in common. *)
Theorem C64_row_reuse : forall c s is, sane c -> started c s -> let os := snd (trace (f_step c) s is) in lawful c is os ->
  forall i d, o_dma (snd (f_step c (fst (trace (f_step c) s is)) i)) = Some d ->
  let L := ledger_of c is os in d_tag d = (l_dma L mod f_n c)%nat /\ forall k, (k + f_n c <= l_dma L)%nat -> l_done L k = true.
Proof. exact row_result. Qed.
Print Assumptions C64_row_reuse.
Theorem C64_rows_apart : forall c s is, sane c -> started c s -> let os := snd (trace (f_step c) s is) in lawful c is os ->
  forall d1 d2, In d1 (over dma_out is os) -> In d2 (over dma_out is os) -> d_tag d1 <> d_tag d2 ->
  apart (d_ram d1) (d_len d1) (d_ram d2) (d_len d2).
Proof. exact apart_result. Qed.
Print Assumptions C64_rows_apart.

(** No more requests are in hand than the table has rows. *)
Theorem C64_limit : forall c s is, sane c -> started c s -> let os := snd (trace (f_step c) s is) in lawful c is os ->
  (length (over req_in is os) <= length (filter (fun x => negb (full x)) (over resp_in is os)) + finished (ledger_of c is os) + f_n c)%nat.
Proof. exact limit_result. Qed.
Print Assumptions C64_limit.

(** Where an answer is offered and a DMA read is taken, an answer of that port or a lower one is taken within three cycles. *)
Theorem C64_answers_taken : forall c s is i1 i2 i3 p r, sane c -> started c s ->
  lawful c (is ++ [i1; i2; i3]) (snd (trace (f_step c) s (is ++ [i1; i2; i3]))) ->
  (p < f_ports c)%nat -> i_resp i1 p = Some r -> i_drdy i1 = true ->
  exists q x, (q <= p)%nat /\ In (q, x) (over resp_in [i1; i2; i3] (snd (trace (f_step c) (fst (trace (f_step c) s is)) [i1; i2; i3]))).
Proof. exact taken_result. Qed.
Print Assumptions C64_answers_taken.

(** Left alone, it finishes everything the surroundings do not keep it from, and is ready again. *)
Theorem C64_progress : forall b c s is ws, sane c -> started c s ->
  let js := is ++ ws in let os := snd (trace (f_step c) s js) in let L := ledger_of c js os in let T := over resp_in js os in
  lawful c js os -> (b = true -> prompt c js os) -> Forall (idle c) ws -> (4 * f_n c + 5 <= length ws)%nat ->
  waits L \/
  over ask_out js os = map (fun r => (q_sel r, q_queue r, q_tag r)) (over req_in js os) /\
  over dma_out js os = map (dma_of c) (number (fetches T)) /\ over cmd_out js os = map (cmd_of c) (number (fetches T)) /\
  (b = true -> over commit_out js os = map commit_of (fetches T)) /\ finished L = length (fetches T) /\
  forall i, o_ready (snd (f_step c (fst (trace (f_step c) s js)) i)) = true.
Proof. exact progress_result. Qed.
Print Assumptions C64_progress.

(** A DMA read that failed is handed on like one that did not. *)
Theorem C64_read_errors_ignored : forall c is js s, Forall2 same_but_errors is js -> trace (f_step c) s js = trace (f_step c) s is.
Proof. exact blind_result. Qed.
Print Assumptions C64_read_errors_ignored.

(* ----- cases ----- *)
Definition none2 : nat -> option dresp := fun _ => None.
Definition f_in (r : option dreq) (a : nat -> option dresp) (t : option nat) (d : option nat) (cr : nat -> bool) : fin :=
  mkFin false true r (fun _ => true) a cr true (option_map (fun t => (t, 0)) t) true d.
Definition yes : nat -> bool := fun _ => true.
Definition tick := f_in None none2 None None yes.
Definition c1 := mkFc 1 2 4 2 20 20.
Definition mem1 : nat -> fentry := fun k => mkFe true true true 1 99 99 99.
Definition rq p q t := f_in (Some (mkDr p q t)) none2 None None yes.
Definition r_a := mkDe 5 100 4096 0 33 70 9 false false.
Definition r_b := mkDe 6 200 8192 3 34 71 3 false false.
Definition r_c := mkDe 7 0 0 0 0 72 0 true false.
Definition r_d := mkDe 8 300 12288 1 35 73 4 false false.
Definition both : nat -> option dresp := fun q => if (q =? 0)%nat then Some r_a else Some r_b.
Definition only p r : nat -> option dresp := fun q => if (q =? p)%nat then Some r else None.
(** Two requests, answered in the same cycle and fetched in the other order; with [cr], port 0 takes commits in cycles 13 and
    14; one that finds its queue empty; one more, into the first row. *)
Definition run1 (cr : nat -> bool) := [tick; rq 0 5 70; tick; rq 1 6 71; tick;
  f_in None both None None yes; f_in None both None None yes; f_in None (only 1 r_b) None None yes; f_in None (only 1 r_b) None None yes;
  f_in None none2 (Some 1%nat) None yes; f_in None none2 (Some 0%nat) None yes; tick; f_in None none2 None None cr; f_in None none2 None None cr;
  f_in None none2 None (Some 0%nat) yes; tick; f_in None none2 None (Some 1%nat) yes; tick; tick; rq 1 7 72; tick;
  f_in None (only 1 r_c) None None yes; f_in None (only 1 r_c) None None yes; tick; rq 0 8 73; tick; f_in None (only 0 r_d) None None yes].
Definition ws1 := f_in None (only 0 r_d) None None yes :: f_in None none2 (Some 0%nat) None yes :: tick :: tick :: f_in None none2 None (Some 0%nat) yes :: repeat tick 13.
Definition s1 := f_init mem1.
Definition is1 := run1 yes ++ ws1.
Definition os1 := snd (trace (f_step c1) s1 is1).
Example C64_nonvacuous : sane c1 /\ started c1 s1 /\ lawful c1 is1 os1 /\ prompt c1 is1 os1 /\
  over ask_out is1 os1 = [(0%nat, 5, 70); (1%nat, 6, 71); (1%nat, 7, 72); (0%nat, 8, 73)] /\
  over resp_in is1 os1 = [(0%nat, r_a); (1%nat, r_b); (1%nat, r_c); (0%nat, r_d)] /\
  over dma_out is1 os1 = [mkRd 4096 0 16 0; mkRd 8192 128 128 1; mkRd 12288 0 32 0] /\
  over cmd_out is1 os1 = [mkRc 0 16 0 70; mkRc 128 128 1 71; mkRc 0 32 0 73] /\
  over commit_out is1 os1 = [(0%nat, 9); (1%nat, 3); (0%nat, 4)].
Proof.
  split; [unfold sane; cbn; lia|]. split; [left; exists mem1; reflexivity|]. split; [apply lawfulb_ok; vm_compute; reflexivity|].
  split; [apply promptb_ok; vm_compute; reflexivity|]. splits; vm_compute; reflexivity.
Qed.
Example C64_row_reuse_nonvacuous : exists d, o_dma (snd (f_step c1 (fst (trace (f_step c1) s1 (run1 yes))) tick)) = Some d /\
  (0 + f_n c1 <= l_dma (ledger_of c1 (run1 yes) (snd (trace (f_step c1) s1 (run1 yes)))))%nat.
Proof. eexists. split; [vm_compute; reflexivity|vm_compute; lia]. Qed.
Example C64_answers_taken_nonvacuous : exists is i1 i2 i3 rest, run1 yes = is ++ [i1; i2; i3] ++ rest /\ i_resp i1 1%nat = Some r_b /\ i_drdy i1 = true.
Proof. exists (firstn 6 (run1 yes)). do 4 eexists. split; [reflexivity|split; reflexivity]. Qed.
Example C64_progress_nonvacuous : is1 = (run1 yes ++ firstn 5 ws1) ++ repeat tick 13 /\ Forall (idle c1) (repeat tick 13) /\ (4 * f_n c1 + 5 <= length (repeat tick 13))%nat /\
  finished (ledger_of c1 is1 os1) = 3%nat /\ waitsb (ledger_of c1 is1 os1) = false.
Proof.
  split; [reflexivity|]. split; [apply Forall_forall; intros i H; apply repeat_spec in H; subst; unfold idle; splits; auto|]. split; [vm_compute; lia|]. split; vm_compute; reflexivity.
Qed.
(** A reset in the middle of an operation. *)
Example C64_started_nonvacuous : exists s, started c1 s /\ n_done (x_tab s 1%nat) = true /\ n_op (x_tab s 0%nat) = 9.
Proof.
  exists (fst (trace (f_step c1) s1 (firstn 18 (run1 yes) ++ [mkFin true true None yes none2 yes true None true None]))).
  split; [right; exists mem1; eexists; eexists; split; [|reflexivity]; reflexivity|]. split; vm_compute; reflexivity.
Qed.
Example C64_read_errors_nonvacuous : exists i j, same_but_errors i j /\ i <> j.
Proof.
  exists (f_in None none2 (Some 1%nat) None yes), (mkFin false true None yes none2 yes true (Some (1%nat, 5)) true None). split; [split; reflexivity|]. intros E.
  apply (f_equal i_fet) in E. discriminate.
Qed.

(** With two ports, a commit that is not taken at once can be replaced by one for the other port: it is never sent, although
    everything is taken afterwards and the block was handed on. *)
Definition slow : nat -> bool := fun p => negb (p =? 0)%nat.
Definition is2 := run1 slow ++ ws1.
Definition os2 := snd (trace (f_step c1) s1 is2).
Theorem C64_commits_refuted : exists c s is ws, sane c /\ started c s /\
  let js := is ++ ws in let os := snd (trace (f_step c) s js) in let L := ledger_of c js os in let T := over resp_in js os in
  lawful c js os /\ Forall (idle c) ws /\ (4 * f_n c + 5 <= length ws)%nat /\ waitsb L = false /\ finished L = length (fetches T) /\
  over cmd_out js os = map (cmd_of c) (number (fetches T)) /\
  map commit_of (fetches T) = [(0%nat, 9); (1%nat, 3); (0%nat, 4)] /\ over commit_out js os = [(1%nat, 3); (0%nat, 4)].
Proof.
  exists c1, s1, (run1 slow ++ firstn 5 ws1), (repeat tick 13). split; [unfold sane; cbn; lia|]. split; [left; exists mem1; reflexivity|]. cbv zeta.
  split; [apply lawfulb_ok; vm_compute; reflexivity|]. split; [apply Forall_forall; intros i H; apply repeat_spec in H; subst; unfold idle; splits; auto|].
  split; [vm_compute; lia|]. splits; vm_compute; reflexivity.
Qed.
Print Assumptions C64_commits_refuted.
