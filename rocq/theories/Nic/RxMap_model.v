(** The receive queue map, fpga/common/rtl/mqnic_rx_queue_map.v. *)
From Verif Require Import Base.Prelude.
Local Open Scope Z_scope.

(** Parameters (mqnic_rx_queue_map.v:17-47): PORTS, QUEUE_INDEX_WIDTH,
    INDIR_TBL_ADDR_WIDTH, DEST_WIDTH, RBB, RB_NEXT_PTR, AXIL_BASE_ADDR. *)
Record rmcfg := mkRm { rm_ports : nat; rm_q : Z; rm_w : Z; rm_d : Z; rm_rbb : Z; rm_next : Z; rm_base : Z }.

(** mqnic_rx_queue_map.v:109, 111. *)
Definition rm_clports (c : rmcfg) : Z := Z.log2_up (Z.of_nat (rm_ports c)).
Definition rm_full (c : rmcfg) : Z := rm_clports c + rm_w c.

(** A request: req_id, req_dest, req_hash, req_tag. *)
Record rmreq := mkRq { rq_id : nat; rq_dest : Z; rq_hash : Z; rq_tag : Z }.

(** Inputs of one cycle.  The register bus: write address and data, read
    address; the AXI lite channels. *)
Record rmin := mkIn {
  in_wr : option (Z * Z); in_rd : option Z;
  in_awaddr : Z; in_awvalid : bool; in_wdata : Z; in_wvalid : bool; in_bready : bool;
  in_araddr : Z; in_arvalid : bool; in_rready : bool;
  in_req : option rmreq }.

(** Outputs of one cycle; awready and wready are always assigned together. *)
Record rmout := mkOut {
  o_wr_ack : bool; o_rd_ack : bool; o_rd_data : Z;
  o_wready : bool; o_bvalid : bool; o_arready : bool; o_rvalid : bool; o_rdata : Z;
  o_valid : bool; o_queue : Z; o_tag : Z }.

(** Registers (mqnic_rx_queue_map.v:147-170, 298-313); offset_reg is never used. *)
Record rmst := mkSt {
  t_mem : Z -> Z;
  t_wr_ack : bool; t_rd_ack : bool; t_rd_data : Z;
  t_direct : nat -> bool; t_hmask : nat -> Z; t_amask : nat -> Z;
  t_index : Z; t_dest1 : Z; t_tag1 : Z; t_valid1 : bool;
  t_queue : Z; t_dest2 : Z; t_tag2 : Z; t_valid2 : bool;
  t_rqueue : Z; t_rtag : Z; t_rvalid : bool;
  t_lastrd : bool; t_wready : bool; t_bvalid : bool; t_arready : bool;
  t_rdata0 : Z; t_rvalid0 : bool; t_rdata1 : Z; t_rvalid1 : bool }.

(** mqnic_rx_queue_map.v:188-202 and the initial values of the registers. *)
Definition rm_init : rmst :=
  mkSt (fun _ => 0) false false 0 (fun _ => false) (fun _ => 0) (fun _ => 0)
       0 0 0 false 0 0 0 false 0 0 false false false false false 0 false 0 false.

(** [{addr >> 2, 2'b00}]. *)
Definition word_addr (a : Z) : Z := 4 * Z.shiftr a 2.

(** mqnic_rx_queue_map.v:211-225: one register write; new masks and acknowledge. *)
Definition wr_hits (c : rmcfg) (off : Z) (a : Z) (k : nat) : bool :=
  word_addr a =? rm_rbb c + off + Z.of_nat k * 16.
Definition wr_any (c : rmcfg) (a : Z) : bool :=
  existsb (fun k => wr_hits c 0x14 a k || wr_hits c 0x18 a k) (seq 0 (rm_ports c)).
Definition wr_hmask (c : rmcfg) (a d : Z) (m : nat -> Z) (k : nat) : Z :=
  if (k <? rm_ports c)%nat && wr_hits c 0x14 a k then d mod 2 ^ rm_q c else m k.
Definition wr_amask (c : rmcfg) (a d : Z) (m : nat -> Z) (k : nat) : Z :=
  if (k <? rm_ports c)%nat && wr_hits c 0x18 a k then (d mod 2 ^ 31) mod 2 ^ rm_q c else m k.
Definition wr_direct (c : rmcfg) (a d : Z) (m : nat -> bool) (k : nat) : bool :=
  if (k <? rm_ports c)%nat && wr_hits c 0x18 a k then Z.testbit d 31 else m k.

(** mqnic_rx_queue_map.v:227-255: one register read, [Some] when acknowledged.
    Later assignments of the loop win. *)
Definition rd_head (c : rmcfg) (a : Z) : option Z :=
  if word_addr a =? rm_rbb c then Some 0xC090
  else if word_addr a =? rm_rbb c + 4 then Some 0x200
  else if word_addr a =? rm_rbb c + 8 then Some (rm_next c)
  else if word_addr a =? rm_rbb c + 12 then Some (Z.of_nat (rm_ports c) mod 2 ^ 8 + 2 ^ 8 * (rm_w c mod 2 ^ 8))
  else None.
Definition rd_port (c : rmcfg) (s : rmst) (a : Z) (acc : option Z) (k : nat) : option Z :=
  if wr_hits c 0x18 a k then Some (t_amask s k mod 2 ^ 31 + 2 ^ 31 * Z.b2z (t_direct s k))
  else if wr_hits c 0x14 a k then Some (t_hmask s k)
  else if wr_hits c 0x10 a k then Some ((rm_base c + 2 ^ (rm_w c + 2) * Z.of_nat k) mod 2 ^ 32)
  else acc.
Definition rd_value (c : rmcfg) (s : rmst) (a : Z) : option Z :=
  fold_left (rd_port c s a) (seq 0 (rm_ports c)) (rd_head c a).

(** mqnic_rx_queue_map.v:257-260: the table index of a request. *)
Definition req_index (c : rmcfg) (s : rmst) (r : rmreq) : Z :=
  (Z.land (rq_dest r) (t_amask s (rq_id r)) + Z.land (rq_hash r) (t_hmask s (rq_id r))) mod 2 ^ rm_w c
  + if (1 <? rm_ports c)%nat then 2 ^ rm_w c * (Z.of_nat (rq_id r) mod 2 ^ rm_clports c) else 0.

(** mqnic_rx_queue_map.v:261, 262: the destination with its top bit masked. *)
Definition req_dest1 (c : rmcfg) (s : rmst) (r : rmreq) : Z :=
  rq_dest r mod 2 ^ (rm_d c - 1)
  + 2 ^ (rm_d c - 1) * Z.b2z (Z.testbit (rq_dest r) (rm_d c - 1) && t_direct s (rq_id r)).

(** mqnic_rx_queue_map.v:315, 316: table address of an AXI lite address. *)
Definition tbl_addr (c : rmcfg) (a : Z) : Z := Z.shiftr a 2 mod 2 ^ rm_full c.

(** mqnic_rx_queue_map.v:206-295, 327-397: one clock.  When there is no request
    the data registers of the pipeline keep their values here, in the code they
    take the values of the undriven inputs; they are not used without valid.
    A table read in the cycle of a write to the same entry gives the old entry,
    as in simulation ("no_rw_check" leaves that to the memory of the device). *)
Definition rm_step (c : rmcfg) (s : rmst) (x : bool * rmin) : rmst * rmout :=
  let '(rst, i) := x in
  (* registers *)
  let wr := match in_wr i with Some w => if t_wr_ack s then None else Some w | None => None end in
  let wr_ack := match wr with Some (a, _) => wr_any c a | None => false end in
  let hmask := match wr with Some (a, d) => wr_hmask c a d (t_hmask s) | None => t_hmask s end in
  let amask := match wr with Some (a, d) => wr_amask c a d (t_amask s) | None => t_amask s end in
  let direct := match wr with Some (a, d) => wr_direct c a d (t_direct s) | None => t_direct s end in
  let rd := match in_rd i with Some a => if t_rd_ack s then None else rd_value c s a | None => None end in
  (* pipeline *)
  let index := match in_req i with Some r => req_index c s r | None => t_index s end in
  let dest1 := match in_req i with Some r => req_dest1 c s r | None => t_dest1 s end in
  let tag1 := match in_req i with Some r => rq_tag r | None => t_tag1 s end in
  let valid1 := match in_req i with Some _ => true | None => false end in
  let queue := t_mem s (t_index s) mod 2 ^ rm_q c in
  let rqueue := if Z.testbit (t_dest2 s) (rm_d c - 1) then t_dest2 s mod 2 ^ rm_q c else t_queue s in
  (* AXI lite *)
  let write_eligible := in_awvalid i && in_wvalid i && (negb (t_bvalid s) || in_bready i) && negb (t_wready s) in
  let read_eligible := in_arvalid i && (negb (t_rvalid1 s) || in_rready i) && negb (t_arready s) in
  let write := write_eligible && (negb read_eligible || t_lastrd s) in
  let read := negb write && read_eligible in
  let lastrd := if write then false else if read then true else t_lastrd s in
  let bvalid := if write then true else t_bvalid s && negb (in_bready i) in
  let rvalid0 := if read then true else t_rvalid0 s && negb (in_rready i || negb (t_rvalid1 s)) in
  let mem := if write then zupd (t_mem s) (tbl_addr c (in_awaddr i)) (in_wdata i) else t_mem s in
  let rdata0 := if read then t_mem s (tbl_addr c (in_araddr i)) else t_rdata0 s in
  let adv := negb (t_rvalid1 s) || in_rready i in
  let rdata1 := if adv then t_rdata0 s else t_rdata1 s in
  let rvalid1 := if adv then t_rvalid0 s else t_rvalid1 s in
  (mkSt mem
     (negb rst && wr_ack) (negb rst && match rd with Some _ => true | None => false end)
     (match rd with Some v => v | None => 0 end)
     (if rst then fun _ => false else direct) (if rst then fun _ => 0 else hmask) (if rst then fun _ => 0 else amask)
     index dest1 tag1 (negb rst && valid1)
     queue (t_dest1 s) (t_tag1 s) (negb rst && t_valid1 s)
     rqueue (t_tag2 s) (negb rst && t_valid2 s)
     (negb rst && lastrd) (negb rst && write) (negb rst && bvalid) (negb rst && read)
     rdata0 (negb rst && rvalid0) rdata1 (negb rst && rvalid1),
   mkOut (t_wr_ack s) (t_rd_ack s) (t_rd_data s) (t_wready s) (t_bvalid s) (t_arready s) (t_rvalid1 s) (t_rdata1 s)
         (t_rvalid s) (t_rqueue s) (t_rtag s)).
