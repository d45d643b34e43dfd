(** The receive checksum unit, fpga/common/rtl/rx_checksum.v. *)
From Verif Require Import Base.Prelude.
Local Open Scope Z_scope.

(** rx_checksum.v:18-22, 43: LEVELS and START_OFFSET.  DATA_WIDTH/8 = KEEP_WIDTH
    is taken to be the power of two [2 ^ LEVELS]; with another width the
    module's slices do not line up. *)
Record rccfg := mkRc { rc_l : nat; rc_start : nat }.
Definition rc_k (c : rccfg) : nat := (2 ^ rc_l c)%nat.

(** A beat of the input stream (tdata, tkeep, tlast). *)
Record cbeat := mkCb { cb_data : Z; cb_keep : Z; cb_last : bool }.

(** rx_checksum.v:44: OFFSET_WIDTH; [$clog2] is [Z.log2_up]. *)
Definition rc_ow (c : rccfg) : Z :=
  let q := Z.of_nat (rc_start c / rc_k c) in if 1 <? q then Z.log2_up q else 1.

(** rx_checksum.v:54, 55: reset values, cut to the register widths. *)
Definition rc_offset0 (c : rccfg) : Z := Z.of_nat (rc_start c / rc_k c) mod 2 ^ rc_ow c.
Definition rc_shl (c : rccfg) (n : nat) : Z :=
  Z.shiftl (Z.ones (Z.of_nat (rc_k c))) (Z.of_nat n) mod 2 ^ Z.of_nat (rc_k c).

(** One pipeline stage: sum_valid_reg, sum_last_reg and the fields of sum_reg.
    Simplification: the fields packed into one vector are kept as a list. *)
Record cstage := mkCs { cs_valid : bool; cs_last : bool; cs_sums : list Z }.

Record rcst := mkRcst {
  rc_offset : Z; rc_mask : Z; rc_stages : list cstage;
  rc_acc : Z; rc_csum : Z; rc_csum_valid : bool }.

(** rx_checksum.v:74-78: byte [j] of s_axis_tdata_masked. *)
Definition rc_masked (mask : Z) (b : cbeat) (j : nat) : Z :=
  if Z.testbit (cb_keep b) (Z.of_nat j) && Z.testbit mask (Z.of_nat j)
  then Z.land (Z.shiftr (cb_data b) (8 * Z.of_nat j)) 255 else 0.

(** rx_checksum.v:86-88: first level, DATA_WIDTH/8/4 fields of 17 bits. *)
Definition rc_level0 (c : rccfg) (mask : Z) (b : cbeat) : list Z :=
  let m := rc_masked mask b in
  map (fun i => (((m (4*i+0)%nat * 256 + m (4*i+1)%nat) + (m (4*i+2)%nat * 256 + m (4*i+3)%nat)) mod 2 ^ 17))
      (seq 0 (rc_k c / 4)).

(** rx_checksum.v:124-126: level [l >= 1], fields of 17+l bits. *)
Definition rc_level (c : rccfg) (l : nat) (s : list Z) : list Z :=
  map (fun i => (nth (2*i) s 0 + nth (2*i+1) s 0) mod 2 ^ (17 + Z.of_nat l))
      (seq 0 (rc_k c / 4 / 2 ^ l)).

(** rx_checksum.v:120-134: the register of level [l] from that of level [l-1]. *)
Definition rc_stage_next (c : rccfg) (rst : bool) (l : nat) (prev cur : cstage) : cstage :=
  mkCs (cs_valid prev && negb rst)
       (if cs_valid prev then cs_last prev else cs_last cur)
       (if cs_valid prev then rc_level c l (cs_sums prev) else cs_sums cur).

Fixpoint rc_shift (c : rccfg) (rst : bool) (l : nat) (prev : cstage) (rest : list cstage) : list cstage :=
  match rest with
  | [] => []
  | s :: rest' => rc_stage_next c rst l prev s :: rc_shift c rst (S l) s rest'
  end.

(** rx_checksum.v:82-91, 107-111: level 0. *)
Definition rc_stage0 (c : rccfg) (rst : bool) (mask : Z) (i : option cbeat) (cur : cstage) : cstage :=
  match i with
  | Some b => mkCs (negb rst) (cb_last b) (rc_level0 c mask b)
  | None => mkCs false (cs_last cur) (cs_sums cur)
  end.

(** rx_checksum.v:93-104, 107-111: offset_reg and mask_reg. *)
Definition rc_front (c : rccfg) (rst : bool) (i : option cbeat) (offset mask : Z) : Z * Z :=
  if rst then (rc_offset0 c, rc_shl c (rc_start c))
  else match i with
       | None => (offset, mask)
       | Some b =>
           if cb_last b then (rc_offset0 c, rc_shl c (rc_start c))
           else if (rc_start c <? rc_k c)%nat || (offset =? 0) then (offset, Z.ones (Z.of_nat (rc_k c)))
           else ((offset - 1) mod 2 ^ rc_ow c,
                 if offset =? 1 then rc_shl c (rc_start c mod rc_k c) else 0)
       end.

(** rx_checksum.v:144-146, with sum_acc_temp of 16+LEVELS bits. *)
Definition rc_fold (c : rccfg) (sum acc : Z) : Z :=
  let w := 2 ^ (16 + Z.of_nat (rc_l c)) in
  let t := (sum + acc) mod w in
  let t := (t mod 2 ^ 16 + Z.shiftr t 16) mod w in
  (t mod 2 ^ 16 + Z.b2z (Z.testbit t 16)) mod w.

(** One clock: next state and the outputs m_axis_csum_valid, m_axis_csum
    during the cycle (rx_checksum.v:80-113, 118-136, 140-160). *)
Definition rc_step (c : rccfg) (s : rcst) (i : bool * option cbeat) : rcst * (bool * Z) :=
  let '(rst, b) := i in
  let st0 := mkCs false false [] in
  let stages' := match rc_stages s with
                 | [] => []
                 | h :: t => rc_stage0 c rst (rc_mask s) b h :: rc_shift c rst 1 h t
                 end in
  let last := last (rc_stages s) st0 in
  let t := rc_fold c (nth 0 (cs_sums last) 0 mod 2 ^ (15 + Z.of_nat (rc_l c))) (rc_acc s) in
  let '(o', m') := rc_front c rst b (rc_offset s) (rc_mask s) in
  (mkRcst o' m' stages'
     (if cs_valid last then if cs_last last then 0 else t mod 2 ^ 16 else rc_acc s)
     (if cs_valid last && cs_last last then t mod 2 ^ 16 else rc_csum s)
     (cs_valid last && cs_last last && negb rst),
   (rc_csum_valid s, rc_csum s)).

(** Power-up state: LEVELS-1 stages (rx_checksum.v:54-68). *)
Definition rc_init (c : rccfg) : rcst :=
  mkRcst (rc_offset0 c) (rc_shl c (rc_start c)) (repeat (mkCs false false []) (rc_l c - 1)) 0 0 false.
