(** Vocabulary for the receive queue map, over observed cycles: reset, the
    inputs and the outputs of each cycle. *)
From Verif Require Import Base.Prelude Nic.RxMap_model.
Local Open Scope Z_scope.

Notation cycle := (bool * rmin * rmout)%type.

Definition observe (c : rmcfg) (xs : list (bool * rmin)) : list cycle :=
  combine xs (snd (trace (rm_step c) rm_init xs)).

(** Register writes acknowledged since the last reset, oldest first. *)
Definition acked (h : list cycle) : list (Z * Z) :=
  fold_left (fun acc (x : cycle) => let '(rst, i, o) := x in
    if rst then [] else acc ++ match in_wr i with Some w => if o_wr_ack o then [w] else [] | None => [] end) h [].

(** AXI lite table writes accepted so far, reset or not. *)
Definition stored (h : list cycle) : list (Z * Z) :=
  fold_left (fun acc (x : cycle) => let '(rst, i, o) := x in acc ++ if o_wready o then [(in_awaddr i, in_wdata i)] else []) h [].

(** The data of the last write to a location for which [here] holds, else 0. *)
Definition last_write (here : Z -> bool) (ws : list (Z * Z)) : Z :=
  fold_left (fun acc (w : Z * Z) => let '(a, d) := w in if here a then d else acc) ws 0.

(** Registers of a port: hash mask at offset 0x14 of its block, application mask
    and direct enable (bit 31) at 0x18; the blocks are 16 bytes apart. *)
Definition at_reg (c : rmcfg) (port : nat) (off : Z) (a : Z) : bool :=
  a / 4 * 4 =? rm_rbb c + off + 16 * Z.of_nat port.
Definition hash_mask (c : rmcfg) (port : nat) (h : list cycle) : Z :=
  last_write (at_reg c port 0x14) (acked h) mod 2 ^ rm_q c.
Definition app_mask (c : rmcfg) (port : nat) (h : list cycle) : Z :=
  last_write (at_reg c port 0x18) (acked h) mod 2 ^ rm_q c.
Definition app_direct (c : rmcfg) (port : nat) (h : list cycle) : bool :=
  Z.testbit (last_write (at_reg c port 0x18) (acked h)) 31.

(** The 32-bit entries of the tables, those of port 0 first; addresses wrap at
    the size of all the tables together. *)
Definition entry_of (c : rmcfg) (a : Z) : Z := (a / 4) mod 2 ^ rm_full c.
Definition table (c : rmcfg) (entry : Z) (h : list cycle) : Z :=
  last_write (fun a => entry_of c a =? entry) (stored h).

(** The queue for a request: the destination itself if its top bit is set and
    direct mode is on, else the entry selected by masked destination plus masked
    hash within the table of the port.  [h] is the history up to the cycle of
    the request, [h'] has one cycle more. *)
Definition direct (c : rmcfg) (h : list cycle) (r : rmreq) : bool :=
  Z.testbit (rq_dest r) (rm_d c - 1) && app_direct c (rq_id r) h.
Definition slot (c : rmcfg) (h : list cycle) (r : rmreq) : Z :=
  (Z.land (rq_dest r) (app_mask c (rq_id r) h) + Z.land (rq_hash r) (hash_mask c (rq_id r) h)) mod 2 ^ rm_w c.
Definition chosen (c : rmcfg) (h h' : list cycle) (r : rmreq) : Z :=
  (if direct c h r then rq_dest r else table c (Z.of_nat (rq_id r) * 2 ^ rm_w c + slot c h r) h') mod 2 ^ rm_q c.

(** Bus rules for the masters: what is offered is held until it is taken. *)
Definition held (a b : cycle) : Prop :=
  let '(rst, i, o) := a in let '(_, i', _) := b in
  rst = false ->
  (in_wr i <> None -> o_wr_ack o = false -> in_wr i' = in_wr i) /\
  (in_awvalid i = true -> o_wready o = false -> in_awvalid i' = true /\ in_awaddr i' = in_awaddr i) /\
  (in_wvalid i = true -> o_wready o = false -> in_wvalid i' = true /\ in_wdata i' = in_wdata i) /\
  (in_arvalid i = true -> o_arready o = false -> in_arvalid i' = true /\ in_araddr i' = in_araddr i).
Definition polite (h : list cycle) : Prop :=
  forall p a b q, h = p ++ a :: b :: q -> held a b.
(** No table write is offered during reset. *)
Definition quiet (h : list cycle) : Prop :=
  forall i o, In (true, i, o) h -> in_awvalid i && in_wvalid i = false.

(** The widths make sense; requests name a port. *)
Definition cfg_ok (c : rmcfg) : Prop :=
  (0 < rm_ports c)%nat /\ 0 <= rm_q c <= 31 /\ 0 <= rm_w c /\ rm_q c < rm_d c.

(** AXI lite, since the last reset: the data each accepted read should return,
    from the writes accepted before its own cycle; the data returned; the
    numbers of writes accepted and of write responses taken. *)
Definition wanted (c : rmcfg) (h : list cycle) : list Z :=
  snd (fold_left (fun '(past, acc) (x : cycle) => let '(rst, i, o) := x in
    (past ++ [x],
     if rst then [] else acc ++ if o_arready o then [table c (entry_of c (in_araddr i)) past] else [])) h ([], [])).
Definition returned (h : list cycle) : list Z :=
  fold_left (fun acc (x : cycle) => let '(rst, i, o) := x in if rst then [] else acc ++ if o_rvalid o && in_rready i then [o_rdata o] else []) h [].
Definition writes (h : list cycle) : Z :=
  fold_left (fun acc (x : cycle) => let '(rst, i, o) := x in if rst then 0 else acc + if o_wready o then 1 else 0) h 0.
Definition responses (h : list cycle) : Z :=
  fold_left (fun acc (x : cycle) => let '(rst, i, o) := x in if rst then 0 else acc + if o_bvalid o && in_bready i then 1 else 0) h 0.

(** What a register read returns. *)
Definition read_back (c : rmcfg) (h : list cycle) (a v : Z) : Prop :=
  let w := a / 4 * 4 in
  (w = rm_rbb c /\ v = 0xC090) \/ (w = rm_rbb c + 4 /\ v = 0x200) \/ (w = rm_rbb c + 8 /\ v = rm_next c) \/
  (w = rm_rbb c + 12 /\ v = Z.of_nat (rm_ports c) mod 256 + 256 * (rm_w c mod 256)) \/
  exists port, (port < rm_ports c)%nat /\
    ((at_reg c port 0x10 a = true /\ v = (rm_base c + 4 * (Z.of_nat port * 2 ^ rm_w c)) mod 2 ^ 32) \/
     (at_reg c port 0x14 a = true /\ v = hash_mask c port h) \/
     (at_reg c port 0x18 a = true /\ v = app_mask c port h + if app_direct c port h then 2 ^ 31 else 0)).
