(** Vocabulary for the transmit engine: a ledger of transmit requests, kept from what is handed over on its
    interfaces only. *)
From Coq Require Import Permutation.
From Verif Require Import Base.Prelude Base.Bits Rtl.Handshake_spec Stream.Axis_model Nic.TxEngine_model.
Local Open Scope Z_scope.

(** What is handed over in a cycle. *)
Definition req_in (i : ein) (o : eout) : option (Z * Z * Z) := if o_ready o then i_req i else None.
Definition desc_in (i : ein) (o : eout) : option (desc * nat * bool) := if o_dready o then i_desc i else None.
Definition dreq_out (i : ein) (o : eout) : option (Z * nat) := if i_drdy i then o_dreq o else None.
Definition read_out (i : ein) (o : eout) : option rd := if i_rrdy i then o_read o else None.
Definition tx_out (i : ein) (o : eout) : option txd := if i_trdy i then o_tx o else None.
Definition ck_out (i : ein) (o : eout) : option ck := if i_krdy i then o_ck o else None.
Definition cpl_out (i : ein) (o : eout) : option cpl := if i_crdy i then o_cpl o else None.
Definition over {A} (f : ein -> eout -> option A) (is : list ein) (os : list eout) : list A :=
  somes (map (fun p => f (fst p) (snd p)) (combine is os)).
Definition statuses (os : list eout) : list (Z * Z) := somes (map o_stat os).

(** A transmit request: queue, tag and destination; whether its descriptor request was taken; the answer (nothing to
    send, or queue pointer and completion queue); the descriptors so far and whether the last one was among them; the
    DMA reads handed over and how many were reported done; whether its transmit descriptor was taken, and reported
    done; the timestamp of its transmit completion; whether its completion request was taken, and answered. *)
Record op := mkOp {
  p_queue : Z; p_tag : Z; p_dest : Z; p_asked : bool; p_ans : option (option (Z * Z)); p_descs : list desc; p_whole : bool;
  p_reads : list rd; p_got : nat; p_tx : bool; p_freed : bool; p_ts : option Z; p_cpl : bool; p_written : bool }.
Record ledger := mkL { l_n : nat; l_op : nat -> op }.
Definition blank (q t d : Z) : op := mkOp q t d false None [] false [] 0 false false None false false.
Definition l0 : ledger := mkL 0 (fun _ => blank 0 0 0).

(** Request number [k] of [n] is the one a tag on an interface means: the newest with that tag. *)
Definition means (c : ecfg) (n k t : nat) : bool := ((k <? n) && (k mod e_n c =? t) && (n <=? k + e_n c))%nat.
(** The tag of transmit completions, in the user signal of the packet. *)
Definition cpl_tag (c : ecfg) (t : nat) : Z := 2 ^ (e_ttw c - 1) + Z.of_nat t.

Definition hit (c : ecfg) (n k : nat) (o : option nat) : bool := match o with Some t => means c n k t | None => false end.
Definition op_next (c : ecfg) (n : nat) (i : ein) (o : eout) (k : nat) (p : op) : op :=
  mkOp (p_queue p) (p_tag p) (p_dest p)
    (p_asked p || hit c n k (option_map snd (dreq_out i o)))
    (match i_ans i with
     | Some (t, a, q, bad) => if means c n k t then Some (if bad then None else Some (a, q)) else p_ans p
     | None => p_ans p end)
    (match desc_in i o with Some (d, t, _) => if means c n k t then p_descs p ++ [d] else p_descs p | None => p_descs p end)
    (match desc_in i o with Some (_, t, l) => if means c n k t then l else p_whole p | None => p_whole p end)
    (match read_out i o with Some r => if means c n k (r_tag r) then p_reads p ++ [r] else p_reads p | None => p_reads p end)
    (if hit c n k (i_rdone i) then S (p_got p) else p_got p)
    (p_tx p || hit c n k (option_map t_tag (tx_out i o)))
    (p_freed p || hit c n k (i_tdone i))
    (match i_tcpl i with Some (t, ts) => if means c n k (k mod e_n c) && (t =? cpl_tag c (k mod e_n c)) then Some ts else p_ts p | None => p_ts p end)
    (p_cpl p || hit c n k (option_map c_tag (cpl_out i o)))
    (p_written p || hit c n k (i_cans i)).
Definition keep (c : ecfg) (L : ledger) (io : ein * eout) : ledger :=
  let (i, o) := io in
  let f k := op_next c (l_n L) i o k (l_op L k) in
  match req_in i o with
  | Some (q, t, d) => mkL (S (l_n L)) (fun k => if (k =? l_n L)%nat then blank q t d else f k)
  | None => mkL (l_n L) f
  end.
Definition ledger_of (c : ecfg) (is : list ein) (os : list eout) : ledger := fold_left (keep c) (combine is os) l0.

(** The sum of the lengths, and the DMA reads for descriptors when the packet goes to address [a]: one for each
    that is not empty, to where the ones before end. *)
Definition total (ds : list desc) : Z := fold_right Z.add 0 (map d_len ds).
Fixpoint places (c : ecfg) (t : nat) (a : Z) (ds : list desc) : list rd :=
  match ds with
  | [] => []
  | d :: ds =>
      (if d_len d =? 0 then [] else [mkRd (d_addr d) (a mod 2 ^ e_raw c) (d_len d) t]) ++ places c t (a + d_len d) ds
  end.

(** What the surroundings owe: every answer is to something handed over before and not answered yet.  The descriptors
    of a packet come together; there are fewer of them than the read counters count; their lengths add up to
    at most MAX_TX_SIZE. *)
Definition desc_ok (c : ecfg) (p : op) (d : desc) : Prop :=
  0 <= d_start d < 256 /\ 0 <= d_coff d < 128 /\ 0 <= d_len d /\ total (p_descs p) + d_len d <= e_max c /\
  Z.of_nat (length (p_descs p)) + 1 < 2 ^ e_cw c.
Definition owed (c : ecfg) (L : ledger) (i : ein) (o : eout) : Prop :=
  let n := l_n L in let at_ k := l_op L k in
  i_rst i = false /\
  (forall t a q b, i_ans i = Some (t, a, q, b) -> exists k, means c n k t = true /\ p_asked (at_ k) = true /\ p_ans (at_ k) = None) /\
  (forall d t l, desc_in i o = Some (d, t, l) -> exists k, means c n k t = true /\
     (exists a, p_ans (at_ k) = Some (Some a)) /\ p_whole (at_ k) = false /\ desc_ok c (at_ k) d /\
     forall j, (j < n)%nat -> j <> k -> p_descs (at_ j) = [] \/ p_whole (at_ j) = true) /\
  (forall t, i_rdone i = Some t -> exists k, means c n k t = true /\ (p_got (at_ k) < length (p_reads (at_ k)))%nat) /\
  (forall t, i_tdone i = Some t -> exists k, means c n k t = true /\ p_tx (at_ k) = true /\ p_freed (at_ k) = false) /\
  (forall t ts, i_tcpl i = Some (t, ts) -> Z.testbit t (e_ttw c - 1) = false \/
     exists k, means c n k (k mod e_n c) = true /\ t = cpl_tag c (k mod e_n c) /\ p_tx (at_ k) = true /\ p_ts (at_ k) = None) /\
  (forall t, i_cans i = Some t -> exists k, means c n k t = true /\ p_cpl (at_ k) = true /\ p_written (at_ k) = false).
Fixpoint lawful_from (c : ecfg) (L : ledger) (is : list ein) (os : list eout) : Prop :=
  match is, os with
  | i :: is, o :: os => owed c L i o /\ lawful_from c (keep c L (i, o)) is os
  | _, _ => True
  end.
Definition lawful (c : ecfg) := lawful_from c l0.

(** Parameters that fit together: lengths fit their fields, the tags fit (te 244-247), and the buffer is at address 0
    (as in mqnic_interface_tx.v:279). *)
Definition sane (c : ecfg) : Prop :=
  0 < e_max c < 2 ^ e_lw c /\ e_max c < 2 ^ e_dlw c /\ 0 < e_cw c /\ Z.of_nat (e_cl c) < e_ttw c /\ 0 <= e_raw c /\
  0 <= e_sl c /\ 0 < e_size c /\ 0 < e_req c /\ e_off c = 0.

(** The requests that have something to send, in order. *)
Definition has_packet (p : op) : bool := match p_ans p with Some (Some _) => true | _ => false end.
Definition packets (L : ledger) : list nat := filter (fun k => has_packet (l_op L k)) (seq 0 (l_n L)).

(** [d] transmits request [k]: all of its descriptors are there and their data has been read to the place from which
    [d] sends it. *)
Definition tx_as (c : ecfg) (k : nat) (p : op) (d : txd) : Prop :=
  p_whole p = true /\ p_descs p <> [] /\ t_len d = total (p_descs p) /\
  p_reads p = places c (k mod e_n c) (t_addr d) (p_descs p) /\ p_got p = length (p_reads p) /\
  t_tag d = (k mod e_n c)%nat /\ t_id d = p_queue p /\ t_dest d = p_dest p /\ t_user d = 2 * cpl_tag c (k mod e_n c).
(** The checksum command for a request: as its first descriptor says. *)
Definition ck_as (p : op) (x : ck) : Prop :=
  exists d ds, p_descs p = d :: ds /\ k_en x = d_cen d /\
    (d_start d < 128 -> k_start x = d_start d /\ k_coff x = d_start d + d_coff d).
(** The completion of a request. *)
Definition cpl_as (c : ecfg) (k : nat) (p : op) (x : cpl) : Prop :=
  exists a q ts, p_ans p = Some (Some (a, q)) /\ p_ts p = Some ts /\
    x = mkCpl q (k mod e_n c) (p_queue p mod 2 ^ 16) (a mod 2 ^ 16) (total (p_descs p) mod 2 ^ 16)
              (if e_ptp c then ts / 2 ^ 16 mod 2 ^ 48 else 0) (p_dest p mod 2 ^ 9).
(** The status due to a request: length zero if there was nothing to send, the length once its completion is
    written. *)
Definition due (p : op) : list (Z * Z) :=
  match p_ans p with
  | Some None => [(0, p_tag p)]
  | _ => if p_written p then [(total (p_descs p), p_tag p)] else []
  end.
(** A request that is over and done with: nothing is owed for it any more but that its buffer was read. *)
Definition settled (p : op) : Prop :=
  p_ans p = Some None \/ p_whole p = true /\ p_got p = length (p_reads p) /\ p_tx p = true /\ p_ts p <> None /\ p_written p = true.

(** Power-up, or any run that ends in a reset. *)
Definition started (c : ecfg) (s : est) : Prop :=
  s = e_init \/ exists js j, i_rst j = true /\ s = fst (trace (e_step c) e_init (js ++ [j])).

(** A cycle in which everything offered is taken and nothing comes in; what the surroundings still owe a request. *)
Definition idle (i : ein) : Prop :=
  i_rst i = false /\ i_en i = true /\ i_req i = None /\ i_ans i = None /\ i_desc i = None /\ i_cans i = None /\ i_rdone i = None /\
  i_tdone i = None /\ i_tcpl i = None /\ i_drdy i = true /\ i_crdy i = true /\ i_rrdy i = true /\ i_trdy i = true /\ i_krdy i = true.
Definition waits (p : op) : Prop :=
  p_asked p = true /\ p_ans p = None \/ has_packet p = true /\ p_whole p = false \/ (p_got p < length (p_reads p))%nat \/
  p_tx p = true /\ p_ts p = None \/ p_cpl p = true /\ p_written p = false.
