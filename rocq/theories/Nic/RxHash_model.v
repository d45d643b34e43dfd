(** The receive hash unit, fpga/common/rtl/rx_hash.v. *)
From Verif Require Import Base.Prelude.
Local Open Scope Z_scope.

(** rx_hash.v:47, 49: CYCLE_COUNT and the number of values of ptr_reg.  For
    PTR_WIDTH = 0 the declaration [reg [-1:0]] has two bits. *)
Definition rh_cycles (k : nat) : nat := ((38 + k - 1) / k)%nat.
Definition rh_ptrs (k : nat) : nat :=
  let w := Z.log2_up (Z.of_nat (rh_cycles k)) in
  if w =? 0 then 4%nat else Z.to_nat (2 ^ w).

(** A beat: the bytes of tdata by lane, and tlast.  tkeep is not used by the
    module. *)
Record hbeat := mkHb { hb_data : nat -> Z; hb_last : bool }.

(** State.  Simplifications: the two bytes of eth_type_reg and the twelve bytes
    of hash_data_reg that are ever written are kept as bytes; bytes 12 to 35
    are always zero and never used. *)
Record hparse := mkHp {
  hp_active : bool; hp_ptr : nat; hp_hi : Z; hp_lo : Z; hp_ihl : Z;
  hp_data : nat -> Z; hp_ipv4 : bool; hp_tcp : bool; hp_udp : bool; hp_type : Z; hp_valid : bool }.

Record hpart := mkHq {
  hq_ip : Z; hq_port : Z; hq_ipv4 : bool; hq_tcp : bool; hq_udp : bool; hq_type : Z; hq_valid : bool }.

Record rhst := mkRh { rh_parse : hparse; rh_part : hpart; rh_hash : Z; rh_type : Z; rh_valid : bool }.

(** rx_hash.v:136-148: hash_toep; [key[o +: 32]]. *)
Definition key_slice (key : Z) (o : Z) : Z := (Z.shiftr key o) mod 2 ^ 32.
Definition hash_toep (data : nat -> Z) (len : nat) (key : Z) : Z :=
  fold_left (fun h i =>
    fold_left (fun h j => if Z.testbit (data i) (Z.of_nat (7 - j))
                          then Z.lxor h (key_slice key (40*8 - 32 - Z.of_nat i * 8 - Z.of_nat j)) else h)
      (seq 0 8) h)
    (seq 0 len) 0.

(** rx_hash.v:151, 152: the two partial hashes. *)
Definition part_ip (data : nat -> Z) (key : Z) : Z := hash_toep data 8 key.
Definition part_port (data : nat -> Z) (key : Z) : Z :=
  hash_toep (fun i => data (i + 8)%nat) 4 (Z.shiftl key 64 mod 2 ^ 320).

(** rx_hash.v:214-244, 253-267: capture of the bytes at positions [ps] of the frame. *)
Definition capture (k ptr : nat) (b : hbeat) (ps : list nat) (d : nat -> Z) : nat -> Z :=
  fold_left (fun d p => if (ptr =? p / k)%nat then nupd d (p - 26) (hb_data b (p mod k)) else d) ps d.

(** rx_hash.v:169-274: one accepted beat while active_reg is set. *)
Definition parse_active (k : nat) (s : hparse) (b : hbeat) : hparse :=
  let at_ p := (hp_ptr s =? p / k)%nat in
  let byte p := hb_data b (p mod k)%nat in
  let first := (hp_ptr s =? 0)%nat in
  let ipv4 := if first then false else hp_ipv4 s in
  let tcp := if first then false else hp_tcp s in
  let udp := if first then false else hp_udp s in
  (* 177-198: ethertype *)
  let hi := if at_ 12%nat then byte 12%nat else hp_hi s in
  let lo := if at_ 13%nat then byte 13%nat else hp_lo s in
  let et := hi * 256 + lo in
  let ipv4 := if at_ 13%nat then if et =? 0x0800 then true else ipv4 else ipv4 in
  let other := at_ 13%nat && negb (et =? 0x0800) && negb (et =? 0x86dd) in
  (* 199-202: IHL *)
  let ihl := if at_ 14%nat then byte 14%nat mod 16 else hp_ihl s in
  (* 203-213: protocol *)
  let tcp' := tcp || (ipv4 && at_ 23%nat && (byte 23%nat =? 0x06) && (ihl =? 5)) in
  let udp' := udp || (ipv4 && at_ 23%nat && negb ((byte 23%nat =? 0x06) && (ihl =? 5))
                           && (byte 23%nat =? 0x11) && (ihl =? 5)) in
  let data := if ipv4 then capture k (hp_ptr s) b (seq 26 8) (hp_data s) else hp_data s in
  let done_ip := ipv4 && at_ 33%nat && negb (tcp' || udp') in
  let ports := ipv4 && (tcp' || udp') in
  let data := if ports then capture k (hp_ptr s) b (seq 34 4) data else data in
  let done_port := ports && at_ 37%nat in
  let type := if other then 0 else hp_type s in
  let type := if done_ip then 1 else type in
  let type := if done_port then 8 * Z.b2z udp' + 4 * Z.b2z tcp' + 1 else type in
  let done := other || done_ip || done_port in
  mkHp (negb done) ((hp_ptr s + 1) mod rh_ptrs k) hi lo ihl data ipv4 tcp' udp' type done.

(** rx_hash.v:154-284: the next-state logic for one beat or an idle cycle. *)
Definition parse_next (k : nat) (s : hparse) (i : option hbeat) : hparse :=
  match i with
  | None => mkHp (hp_active s) (hp_ptr s) (hp_hi s) (hp_lo s) (hp_ihl s) (hp_data s)
                 (hp_ipv4 s) (hp_tcp s) (hp_udp s) (hp_type s) false
  | Some b =>
      let s1 := if hp_active s then parse_active k s b
                else mkHp (hp_active s) (hp_ptr s) (hp_hi s) (hp_lo s) (hp_ihl s) (hp_data s)
                          (hp_ipv4 s) (hp_tcp s) (hp_udp s) (hp_type s) false in
      if hb_last b then
        mkHp true 0 (hp_hi s1) (hp_lo s1) (hp_ihl s1) (hp_data s1) (hp_ipv4 s1) (hp_tcp s1) (hp_udp s1)
             (if hp_active s1 then 0 else hp_type s1) (hp_valid s1 || hp_active s1)
      else s1
  end.

(** rx_hash.v:301-317. *)
Definition part_next (key : Z) (p : hparse) : hpart :=
  mkHq (part_ip (hp_data p) key) (part_port (hp_data p) key) (hp_ipv4 p) (hp_tcp p) (hp_udp p) (hp_type p) (hp_valid p).

Definition hash_next (q : hpart) : Z :=
  if hq_ipv4 q then if hq_tcp q || hq_udp q then Z.lxor (hq_ip q) (hq_port q) else hq_ip q else 0.

(** rx_hash.v:287-326: one clock; the outputs are those during the cycle. *)
Definition rh_step (k : nat) (key : Z) (s : rhst) (i : bool * option hbeat) : rhst * option (Z * Z) :=
  let '(rst, b) := i in
  let p := parse_next k (rh_parse s) b in
  let p := if rst then mkHp true 0 (hp_hi p) (hp_lo p) (hp_ihl p) (hp_data p) (hp_ipv4 p) (hp_tcp p) (hp_udp p)
                            (hp_type p) false else p in
  (mkRh p (part_next key (rh_parse s)) (hash_next (rh_part s)) (hq_type (rh_part s)) (hq_valid (rh_part s)),
   if rh_valid s then Some (rh_type s, rh_hash s) else None).

(** rx_hash.v:107-130: power-up values. *)
Definition rh_init : rhst :=
  mkRh (mkHp true 0 0 0 0 (fun _ => 0) false false false 0 false)
       (mkHq 0 0 false false false 0 false) 0 0 false.
