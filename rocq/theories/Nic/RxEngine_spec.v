(** Vocabulary for the receive engine: a ledger of receive requests, kept from what is handed over on its interfaces
    only. *)
From Coq Require Import Permutation.
From Verif Require Import Base.Prelude Base.Bits Rtl.Handshake_spec Stream.Axis_model Nic.RxEngine_model.
Local Open Scope Z_scope.

(** What is handed over in a cycle. *)
Definition req_in (i : gin) (o : gout) : option Z := if o_ready o then i_req i else None.
Definition desc_in (i : gin) (o : gout) : option (desc * nat * bool) := if o_dready o then i_desc i else None.
Definition csum_in (i : gin) (o : gout) : option Z := if o_cready o then i_csum i else None.
Definition rx_out (i : gin) (o : gout) : option rxd := if i_rxrdy i then o_rx o else None.
Definition dreq_out (i : gin) (o : gout) : option (Z * nat) := if i_drdy i then o_dreq o else None.
Definition write_out (i : gin) (o : gout) : option wr := if i_wrdy i then o_write o else None.
Definition cpl_out (i : gin) (o : gout) : option cpl := if i_crdy i then o_cpl o else None.
Definition over {A} (f : gin -> gout -> option A) (is : list gin) (os : list gout) : list A :=
  somes (map (fun p => f (fst p) (snd p)) (combine is os)).
Definition statuses (os : list gout) : list (Z * Z) := somes (map o_stat os).

(** A receive request: its tag; the receive command handed over for it; what was received; the queue; whether its
    descriptor request was taken; the answer (no descriptor, or queue pointer and completion queue); the descriptors so
    far and whether the last one was among them; the DMA writes handed over and how many were reported done; whether its
    completion request was taken, and answered. *)
Record op := mkOp {
  p_tag : Z; p_rxd : option rxd; p_rx : option rxs; p_queue : option Z; p_dreq : bool; p_ans : option (option (Z * Z));
  p_descs : list desc; p_whole : bool; p_writes : list wr; p_got : nat; p_cpl : bool; p_written : bool }.
(** The requests so far, and the checksums handed over. *)
Record ledger := mkL { l_n : nat; l_op : nat -> op; l_cks : list Z }.
Definition blank (t : Z) : op := mkOp t None None None false None [] false [] 0 false false.
Definition l0 : ledger := mkL 0 (fun _ => blank 0) [].

(** Request number [k] of [n] is the one a tag on an interface means: the newest with that tag. *)
Definition means (c : gcfg) (n k t : nat) : bool := ((k <? n) && (k mod g_n c =? t) && (n <=? k + g_n c))%nat.
Definition hit (c : gcfg) (n k : nat) (o : option nat) : bool := match o with Some t => means c n k t | None => false end.
Definition op_next (c : gcfg) (n : nat) (i : gin) (o : gout) (k : nat) (p : op) : op :=
  mkOp (p_tag p)
    (match rx_out i o with Some d => if means c n k (x_tag d) then Some d else p_rxd p | None => p_rxd p end)
    (match i_rx i with Some (t, r) => if means c n k t then Some r else p_rx p | None => p_rx p end)
    (match i_map i with Some (t, q) => if means c n k t then Some q else p_queue p | None => p_queue p end)
    (p_dreq p || hit c n k (option_map snd (dreq_out i o)))
    (match i_ans i with
     | Some (t, a, q, bad) => if means c n k t then Some (if bad then None else Some (a, q)) else p_ans p
     | None => p_ans p end)
    (match desc_in i o with Some (d, t, _) => if means c n k t then p_descs p ++ [d] else p_descs p | None => p_descs p end)
    (match desc_in i o with Some (_, t, l) => if means c n k t then l else p_whole p | None => p_whole p end)
    (match write_out i o with Some r => if means c n k (w_tag r) then p_writes p ++ [r] else p_writes p | None => p_writes p end)
    (if hit c n k (i_wdone i) then S (p_got p) else p_got p)
    (p_cpl p || hit c n k (option_map c_tag (cpl_out i o)))
    (p_written p || hit c n k (i_cans i)).
Definition keep (c : gcfg) (L : ledger) (io : gin * gout) : ledger :=
  let (i, o) := io in
  let f k := op_next c (l_n L) i o k (l_op L k) in
  let cks := l_cks L ++ match csum_in i o with Some v => [v] | None => [] end in
  match req_in i o with
  | Some t => mkL (S (l_n L)) (fun k => if (k =? l_n L)%nat then blank t else f k) cks
  | None => mkL (l_n L) f cks
  end.
Definition ledger_of (c : gcfg) (is : list gin) (os : list gout) : ledger := fold_left (keep c) (combine is os) l0.

(** The DMA writes that take [len] bytes at address [a] to descriptors: each gets what it holds of what is left. *)
Definition total (ds : list desc) : Z := fold_right Z.add 0 (map d_len ds).
Fixpoint spread (c : gcfg) (t : nat) (a len : Z) (ds : list desc) : list wr :=
  match ds with
  | [] => []
  | d :: ds =>
      let m := Z.min (d_len d) len in
      (if m =? 0 then [] else [mkWr (d_addr d) (a mod 2 ^ g_raw c) m t]) ++ spread c t (a + m) (len - m) ds
  end.
(** The writes due for a request: what was received, from where it was received to, to its descriptors. *)
Definition placed (c : gcfg) (k : nat) (p : op) : list wr :=
  match p_rxd p, p_rx p with
  | Some d, Some r => spread c (k mod g_n c) (x_addr d) (r_len r) (p_descs p)
  | _, _ => []
  end.

Definition has_packet (p : op) : bool := match p_ans p with Some (Some _) => true | _ => false end.
(** What the surroundings owe: every answer is to something handed over before and not answered yet.  A packet is no
    longer than its receive command allows; the descriptors of a packet come together; a write is reported after the last
    descriptor of the packet has come and all its writes have been taken, and before its completion is answered; a packet
    for which there is no descriptor is reported so after its checksum was handed over. *)
Definition owed (c : gcfg) (L : ledger) (i : gin) (o : gout) : Prop :=
  let n := l_n L in let at_ k := l_op L k in
  i_rst i = false /\
  (forall t r, i_rx i = Some (t, r) -> exists k d, means c n k t = true /\ p_rxd (at_ k) = Some d /\ p_rx (at_ k) = None /\
     0 <= r_len r <= x_room d) /\
  (forall t q, i_map i = Some (t, q) -> exists k, means c n k t = true /\ p_rx (at_ k) <> None /\ p_queue (at_ k) = None) /\
  (forall t a q b, i_ans i = Some (t, a, q, b) -> exists k, means c n k t = true /\ p_dreq (at_ k) = true /\ p_ans (at_ k) = None /\
     (b = true -> g_csum c = true -> (k < length (l_cks L))%nat)) /\
  (forall d t l, desc_in i o = Some (d, t, l) -> exists k, means c n k t = true /\ has_packet (at_ k) = true /\ p_whole (at_ k) = false /\
     0 <= d_len d /\ forall j, (j < n)%nat -> j <> k -> p_descs (at_ j) = [] \/ p_whole (at_ j) = true) /\
  (forall t, i_wdone i = Some t -> exists k, means c n k t = true /\ p_whole (at_ k) = true /\
     length (p_writes (at_ k)) = length (placed c k (at_ k)) /\ (p_got (at_ k) < length (p_writes (at_ k)))%nat /\ p_written (at_ k) = false) /\
  (forall t, i_cans i = Some t -> exists k, means c n k t = true /\ p_cpl (at_ k) = true /\ p_written (at_ k) = false).
Fixpoint lawful_from (c : gcfg) (L : ledger) (is : list gin) (os : list gout) : Prop :=
  match is, os with
  | i :: is, o :: os => owed c L i o /\ lawful_from c (keep c L (i, o)) is os
  | _, _ => True
  end.
Definition lawful (c : gcfg) := lawful_from c l0.

(** Parameters that fit together: lengths fit their fields. *)
Definition sane (c : gcfg) : Prop :=
  0 < g_max c < 2 ^ g_lw c /\ g_max c < 2 ^ g_dlw c /\ g_lw c <= 32 /\ 0 <= g_raw c /\ 0 <= g_sl c /\ 0 < g_size c /\ 0 < g_req c.

(** The requests whose packet has descriptors, in order. *)
Definition packets (L : ledger) : list nat := filter (fun k => has_packet (l_op L k)) (seq 0 (l_n L)).

(** Of a packet at least one DMA write is done, and all of them have been handed over. *)
Definition delivered (c : gcfg) (k : nat) (p : op) : Prop :=
  has_packet p = true /\ p_whole p = true /\ p_writes p = placed c k p /\ (0 < p_got p <= length (p_writes p))%nat.
(** The completion of request [k]: what was received for it, and checksum number [k]. *)
Definition cpl_as (c : gcfg) (L : ledger) (k : nat) (x : cpl) : Prop :=
  let p := l_op L k in
  delivered c k p /\
  exists a q r u, p_ans p = Some (Some (a, q)) /\ p_rx p = Some r /\ p_queue p = Some u /\
    (g_csum c = true -> (k < length (l_cks L))%nat) /\
    x = mkCpl q (k mod g_n c) (u mod 2 ^ 16) (a mod 2 ^ 16) (r_len r mod 2 ^ 16) (if g_ptp c then r_ts r / 2 ^ 16 mod 2 ^ 48 else 0)
              (if g_csum c then nth k (l_cks L) 0 mod 2 ^ 16 else 0) (if g_hash c then r_hash r mod 2 ^ 32 else 0)
              (if g_hash c then r_ht r mod 2 ^ 4 else 0) (r_id r mod 2 ^ 9).
(** The status of a request: length zero if there was no descriptor for the packet, else its length. *)
Definition status_of (p : op) : Z * Z :=
  (match p_ans p with Some None => 0 | _ => match p_rx p with Some r => r_len r | None => 0 end end, p_tag p).
(** A request that is over: there was no descriptor, or its packet is delivered and its completion written. *)
Definition settled (c : gcfg) (k : nat) (p : op) : Prop :=
  p_ans p = Some None \/ delivered c k p /\ p_cpl p = true /\ p_written p = true.
(** Its buffer may be used again. *)
Definition released (c : gcfg) (k : nat) (p : op) : Prop := p_ans p = Some None \/ delivered c k p.

(** Power-up, or any run that ends in a reset. *)
Definition started (c : gcfg) (s : gst) : Prop :=
  s = g_init \/ exists js j, i_rst j = true /\ s = fst (trace (g_step c) g_init (js ++ [j])).

(** The MTU in force; a buffer that holds every packet: the last place where one may begin leaves room for one. *)
Definition mtu_of (c : gcfg) (m : Z) : Z := Z.min m (g_max c).
Definition up (c : gcfg) (x : Z) : Z := (x + 2 ^ g_sl c - 1) / 2 ^ g_sl c * 2 ^ g_sl c.
Definition roomy (c : gcfg) (m : Z) : Prop :=
  0 < m /\ g_max c < g_size c /\ up c (g_size c - g_max c) + mtu_of c m <= g_size c /\ g_sl c <= g_bl c /\
  0 <= g_off c /\ g_off c + g_size c <= 2 ^ g_raw c.

(** A cycle in which everything offered is taken and nothing comes in; what the surroundings still owe request [k]. *)
Definition idle (i : gin) : Prop :=
  i_rst i = false /\ i_en i = true /\ i_req i = None /\ i_rx i = None /\ i_map i = None /\ i_ans i = None /\ i_desc i = None /\
  i_wdone i = None /\ i_csum i = None /\ i_cans i = None /\ i_rxrdy i = true /\ i_drdy i = true /\ i_wrdy i = true /\ i_crdy i = true.
Definition waits (c : gcfg) (L : ledger) (k : nat) : Prop :=
  let p := l_op L k in
  p_rxd p <> None /\ p_rx p = None \/ p_rx p <> None /\ p_queue p = None \/ g_csum c = true /\ (length (l_cks L) <= k)%nat \/
  p_dreq p = true /\ p_ans p = None \/ has_packet p = true /\ p_whole p = false \/ has_packet p = true /\ p_got p = 0%nat \/
  p_cpl p = true /\ p_written p = false.
