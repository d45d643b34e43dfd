(** The statistics collector, fpga/common/rtl/stats_collect.v. *)
From Verif Require Import Base.Prelude.
Local Open Scope Z_scope.

(** Parameters (stats_collect.v:35-46): COUNT, INC_WIDTH, STAT_INC_WIDTH,
    UPDATE_PERIOD.  STAT_ID_WIDTH is taken wide enough for COUNT, its default. *)
Record slcfg := mkSl { sl_k : nat; sl_iw : Z; sl_sw : Z; sl_up : Z }.

(** stats_collect.v:71-73: PERIOD_COUNT_WIDTH, ACC_WIDTH. *)
Definition period_width (c : slcfg) : Z := Z.log2_up (sl_up c - 1).
Definition acc_width (c : slcfg) : Z := sl_iw c + Z.log2_up (Z.of_nat (sl_k c)) + 1.

(** Inputs: for each channel its increment when valid, tready, update. *)
Record slin := mkSlIn { li_inc : nat -> option Z; li_tready : bool; li_update : bool }.
(** Output stream: tvalid, tid, tdata. *)
Record slout := mkSlOut { lo_tvalid : bool; lo_tid : nat; lo_tdata : Z }.

(** stats_collect.v:75-100, 112: the registers; [l_write]: STATE_WRITE. *)
Record slst := mkSlSt {
  l_write : bool; l_tvalid : bool; l_tid : nat; l_tdata : Z; l_count : nat; l_period : Z;
  l_zero : nat -> bool; l_upd : nat -> bool; l_acc : nat -> Z; l_mem : nat -> Z; l_rd : Z }.

(** stats_collect.v:82: UPDATE_PERIOD-1 assigned to a register of PERIOD_COUNT_WIDTH bits. *)
Definition period_load (c : slcfg) : Z := (sl_up c - 1) mod 2 ^ period_width c.

(** Initial values (stats_collect.v:75-96); the memory's are unknown. *)
Definition sl_init (c : slcfg) (mem0 : nat -> Z) : slst :=
  mkSlSt false false 0 0 0 (period_load c) (fun _ => true) (fun _ => false) (fun _ => 0) mem0 0.

(** stats_collect.v:111-133: the accumulator of one channel. *)
Definition acc_next (c : slcfg) (rst clear : bool) (acc : Z) (inc : option Z) : Z :=
  if rst then 0
  else if clear then match inc with Some v => v | None => 0 end
  else match inc with Some v => (acc + v) mod 2 ^ acc_width c | None => acc end.

(** stats_collect.v:137-235: one clock. *)
Definition sl_step (c : slcfg) (s : slst) (x : bool * slin) : slst * slout :=
  let '(rst, i) := x in
  let n := l_count s in
  let acc := l_acc s n in
  let sum := if l_zero s n then acc mod 2 ^ sl_sw c else (l_rd s + acc) mod 2 ^ sl_sw c in
  let some := if l_zero s n then negb (acc =? 0) else negb (l_rd s =? 0) || negb (acc =? 0) in
  let report := l_write s && negb (l_tvalid s) && l_upd s n in
  let tvalid := if report then some else l_tvalid s && negb (li_tready i) in
  let tid := if report then n else l_tid s in
  let tdata := if report then sum else l_tdata s in
  let upd0 := if report then nupd (l_upd s) n false else l_upd s in
  let upd := if (l_period s =? 0) || li_update i then (fun _ => true) else upd0 in
  let period := if l_period s =? 0 then period_load c else l_period s - 1 in
  let zero := if l_write s then nupd (l_zero s) n false else l_zero s in
  let mem := if l_write s then nupd (l_mem s) n (if report then 0 else sum) else l_mem s in
  let rd := if l_write s then l_rd s else l_mem s n in
  let count := if l_write s then (if Nat.eqb n (sl_k c - 1) then 0%nat else S n) else n in
  (mkSlSt (if rst then false else negb (l_write s)) (if rst then false else tvalid) tid tdata
     (if rst then 0%nat else count) (if rst then period_load c else period)
     (if rst then (fun _ => true) else zero) (if rst then (fun _ => false) else upd)
     (fun m => acc_next c rst (l_write s && Nat.eqb m n) (l_acc s m) (li_inc i m)) mem rd,
   mkSlOut (l_tvalid s) (l_tid s) (l_tdata s)).
