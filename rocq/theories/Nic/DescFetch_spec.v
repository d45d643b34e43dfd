(** Vocabulary for the descriptor fetcher: a ledger kept from what is handed over on its interfaces only. *)
From Verif Require Import Base.Prelude Base.Bits Rtl.Handshake_spec Stream.Axis_model Nic.DescFetch_model.
Local Open Scope Z_scope.

(** What is handed over in a cycle. *)
Definition req_in (i : fin) (o : fout) : option dreq := if o_ready o then i_req i else None.
Definition ask_out (i : fin) (o : fout) : option (nat * Z * Z) :=
  match o_ask o with Some (p, q, t) => if i_qrdy i p then Some (p, q, t) else None | None => None end.
Definition resp_in (i : fin) (o : fout) : option (nat * dresp) :=
  match o_ack o with Some p => match i_resp i p with Some r => Some (p, r) | None => None end | None => None end.
Definition commit_out (i : fin) (o : fout) : option (nat * Z) :=
  match o_commit o with Some (p, t) => if i_crdy i p then Some (p, t) else None | None => None end.
Definition dma_out (i : fin) (o : fout) : option rd := if i_drdy i then o_dma o else None.
Definition cmd_out (i : fin) (o : fout) : option rc := if i_rrdy i then o_cmd o else None.
Definition over {A} (f : fin -> fout -> option A) (is : list fin) (os : list fout) : list A :=
  somes (map (fun p => f (fst p) (snd p)) (combine is os)).

(** The answers that carry a descriptor to fetch; they are numbered from 0 in the order they come. *)
Definition full (x : nat * dresp) : bool := negb (r_empty (snd x)) && negb (r_err (snd x)).
Definition fetches (l : list (nat * dresp)) : list (nat * dresp) := filter full l.
Definition number {X} (l : list X) : list (nat * X) := combine (seq 0 (length l)) l.

(** Ports of the requests passed on, and of the answers; DMA reads taken, and which of them were reported done; reader
    commands taken, and which of them were reported done. *)
Record ledger := mkL { l_ask : list nat; l_ans : list nat; l_dma : nat; l_fet : nat -> bool; l_cmd : nat; l_done : nat -> bool }.
Definition l0 : ledger := mkL [] [] 0 (fun _ => false) 0 (fun _ => false).
(** Number [k] of the [n] so far is the one a tag means: the newest with that tag. *)
Definition means (c : fcfg) (n k t : nat) : bool := ((k <? n) && (k mod f_n c =? t) && (n <=? k + f_n c))%nat.
Definition hit (c : fcfg) (n k : nat) (o : option nat) : bool := match o with Some t => means c n k t | None => false end.
Definition plus1 {X} (n : nat) (x : option X) : nat := match x with Some _ => S n | None => n end.
Definition keep (c : fcfg) (L : ledger) (io : fin * fout) : ledger :=
  let (i, o) := io in
  mkL (l_ask L ++ olist (option_map (fun x => fst (fst x)) (ask_out i o)))
      (l_ans L ++ olist (option_map fst (resp_in i o)))
      (plus1 (l_dma L) (dma_out i o))
      (fun k => l_fet L k || hit c (l_dma L) k (option_map fst (i_fet i)))
      (plus1 (l_cmd L) (cmd_out i o))
      (fun k => l_done L k || hit c (l_cmd L) k (i_done i)).
Definition ledger_of (c : fcfg) (is : list fin) (os : list fout) : ledger := fold_left (keep c) (combine is os) l0.

(** What the surroundings owe: requests are for a port there is; a queue manager answers no more often than it was asked,
    with a block size that fits its field, and an answer stays until it is taken ([hold]: the answers offered in the cycle
    before and not taken); a DMA read, or a command of the reader, is reported done once, after it was taken. *)
Definition times (p : nat) (l : list nat) : nat := count_occ Nat.eq_dec l p.
Definition owed (c : fcfg) (L : ledger) (hold : nat -> option dresp) (i : fin) (o : fout) : Prop :=
  i_rst i = false /\
  (forall r, req_in i o = Some r -> (q_sel r < f_ports c)%nat) /\
  (forall p r, (p < f_ports c)%nat -> hold p = Some r -> i_resp i p = Some r) /\
  (forall p r, (p < f_ports c)%nat -> i_resp i p = Some r -> (times p (l_ans L) < times p (l_ask L))%nat /\ 0 <= r_bs r < 2 ^ f_lb c) /\
  (forall t e, i_fet i = Some (t, e) -> exists k, means c (l_dma L) k t = true /\ l_fet L k = false) /\
  (forall t, i_done i = Some t -> exists k, means c (l_cmd L) k t = true /\ l_done L k = false).
Definition still (i : fin) (o : fout) (p : nat) : option dresp :=
  if match o_ack o with Some q => (q =? p)%nat | None => false end then None else i_resp i p.
Fixpoint lawful_from (c : fcfg) (L : ledger) (hold : nat -> option dresp) (is : list fin) (os : list fout) : Prop :=
  match is, os with
  | i :: is, o :: os => owed c L hold i o /\ lawful_from c (keep c L (i, o)) (still i o) is os
  | _, _ => True
  end.
Definition lawful (c : fcfg) := lawful_from c l0 (fun _ => None).

(** Parameters that fit together: the rows of the table fit the memory, the longest descriptor block both length fields. *)
Definition sane (c : fcfg) : Prop :=
  0 <= f_ds c /\ 0 <= f_lb c /\ Z.of_nat (f_cl c) + f_ds c + 2 ^ f_lb c - 1 <= f_raw c /\
  f_ds c + 2 ^ f_lb c - 1 < f_lw c /\ f_ds c + 2 ^ f_lb c - 1 < 8.
(** Power-up with any contents of the memories, or a reset in any reachable state. *)
Definition started (c : fcfg) (s : fst_) : Prop :=
  (exists mem, s = f_init mem) \/ exists mem js j, i_rst j = true /\ s = fst (trace (f_step c) (f_init mem) (js ++ [j])).

(** The status of an answer; the DMA read of descriptor block [k], into the row that has its number; the reader command
    for it; its commit. *)
Definition stat_of (x : nat * dresp) : dstat :=
  let r := snd x in mkDs (r_queue r) (r_ptr r) (r_cpl r) (r_tag r) (r_empty r) (r_err r).
Definition place (c : fcfg) (k : nat) : Z := Z.of_nat (k mod f_n c) * 2 ^ (f_ds c + 2 ^ f_lb c - 1).
Definition size (c : fcfg) (r : dresp) : Z := 2 ^ f_ds c * 2 ^ r_bs r.
Definition dma_of (c : fcfg) (x : nat * (nat * dresp)) : rd :=
  let '(k, (_, r)) := x in mkRd (r_addr r) (place c k) (size c r) (k mod f_n c).
Definition cmd_of (c : fcfg) (x : nat * (nat * dresp)) : rc :=
  let '(k, (_, r)) := x in mkRc (place c k) (size c r) (k mod f_n c) (r_tag r).
Definition commit_of (x : nat * dresp) : nat * Z := (fst x, r_op (snd x)).

(** Commits are taken in the cycle they are offered, or there is one port only. *)
Definition prompt (c : fcfg) (is : list fin) (os : list fout) : Prop :=
  f_ports c = 1%nat \/ forall i o, In (i, o) (combine is os) -> forall p t, o_commit o = Some (p, t) -> i_crdy i p = true.

(** A cycle in which everything offered is taken and nothing comes in; something the surroundings still owe. *)
Definition idle (c : fcfg) (i : fin) : Prop :=
  i_rst i = false /\ i_en i = true /\ i_req i = None /\ i_fet i = None /\ i_done i = None /\ i_drdy i = true /\ i_rrdy i = true /\
  (forall p, (p < f_ports c)%nat -> i_qrdy i p = true /\ i_resp i p = None /\ i_crdy i p = true).
Definition waits (L : ledger) : Prop :=
  (length (l_ans L) < length (l_ask L))%nat \/ (exists k, (k < l_dma L)%nat /\ l_fet L k = false) \/
  exists k, (k < l_cmd L)%nat /\ l_done L k = false.
(** Reader commands reported done. *)
Definition finished (L : ledger) : nat := length (filter (l_done L) (seq 0 (l_cmd L))).
(** Two stretches of memory that have nothing in common. *)
Definition apart (a la b lb : Z) : Prop := a + la <= b \/ b + lb <= a.
(** Two inputs that differ only in the error reported with a DMA read. *)
Definition same_but_errors (i j : fin) : Prop :=
  j = mkFin (i_rst i) (i_en i) (i_req i) (i_qrdy i) (i_resp i) (i_crdy i) (i_drdy i) (i_fet j) (i_rrdy i) (i_done i) /\
  option_map fst (i_fet j) = option_map fst (i_fet i).
