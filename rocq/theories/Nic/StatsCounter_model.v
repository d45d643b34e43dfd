(** The statistics counter memory, fpga/common/rtl/stats_counter.v. *)
From Verif Require Import Base.Prelude.
Local Open Scope Z_scope.

(** Parameters (stats_counter.v:36-51): STAT_ID_WIDTH, STAT_COUNT_WIDTH,
    AXIL_DATA_WIDTH, PIPELINE. *)
Record sccfg := mkSc { sc_d : Z; sc_w : Z; sc_a : Z; sc_p : nat }.

(** stats_counter.v:87-89. *)
Definition id_shift (c : sccfg) : Z := Z.log2_up ((Z.max (sc_a c) (sc_w c) + 7) / 8).
Definition sel_shift (c : sccfg) : Z := Z.log2_up (sc_a c / 8).
Definition sel_width (c : sccfg) : Z :=
  if sc_a c <? sc_w c then Z.log2_up ((sc_w c + 7) / 8) - Z.log2_up (sc_a c / 8) else 0.

(** Inputs: the statistics stream as (id, increment), the AXI lite read channels;
    the write channels only as "both valid" and bready (writes are discarded). *)
Record scin := mkScIn { si_stat : option (Z * Z); si_ar : option Z; si_rready : bool; si_wr : bool; si_bready : bool }.
Record scout := mkScOut { so_tready : bool; so_arready : bool; so_rvalid : bool; so_rdata : Z; so_wready : bool; so_bvalid : bool }.

(** One stage of the pipeline: op_axil_read_pipe_reg, op_acc_pipe_reg,
    mem_addr_pipeline_reg, axil_shift_pipeline_reg, stat_inc_pipeline_reg and the
    data read: mem_read_data_reg for stage 0, mem_read_data_pipeline_reg above. *)
Record stage := mkStage { g_rd : bool; g_acc : bool; g_addr : Z; g_shift : Z; g_inc : Z; g_data : Z }.

Record scst := mkScSt {
  c_init : bool; c_ptr : Z; c_pipe : list stage; c_mem : Z -> Z;
  c_tready : bool; c_arready : bool; c_rvalid : bool; c_rdata : Z; c_wready : bool; c_bvalid : bool }.

(** stats_counter.v:109-152, 157-170. *)
Definition blank : stage := mkStage false false 0 0 0 0.
Definition sc_init (c : sccfg) : scst :=
  mkScSt true 0 (repeat blank (sc_p c)) (fun _ => 0) false false false 0 false false.

(** stats_counter.v:206-209: an operation on the same counter is in the pipeline. *)
Definition hazard (pipe : list stage) (id : Z) : bool :=
  existsb (fun g => (g_rd g || g_acc g) && (g_addr g =? id)) pipe.

(** stats_counter.v:152, 153. *)
Definition ar_id (c : sccfg) (a : Z) : Z := Z.shiftr a (id_shift c) mod 2 ^ sc_d c.
Definition ar_sel (c : sccfg) (a : Z) : Z := Z.shiftr a (sel_shift c) mod 2 ^ sel_width c.

(** stats_counter.v:257-265: the word of a counter returned. *)
Definition rd_word (c : sccfg) (count sel : Z) : Z :=
  if sc_a c <? sc_w c then Z.shiftr count (sel * sc_a c) mod 2 ^ sc_a c else count mod 2 ^ sc_a c.

(** stats_counter.v:172-315: one clock. *)
Definition sc_step (c : sccfg) (s : scst) (x : bool * scin) : scst * scout :=
  let '(rst, i) := x in
  let tail := last (c_pipe s) blank in
  let write := si_wr i && (negb (c_bvalid s) || si_bready i) && negb (c_wready s) in
  let read := match si_ar i with
              | Some a => if negb (c_init s) && (negb (c_rvalid s) || si_rready i) && negb (existsb g_rd (c_pipe s)) then Some a else None
              | None => None end in
  let acc := match si_stat i with
             | Some (id, n) => if negb (c_init s) && negb (match read with Some _ => true | None => false end)
                                  && negb (c_tready s) && negb (hazard (c_pipe s) id) then Some (id, n) else None
             | None => None end in
  let front := match read, acc with
               | Some a, _ => mkStage true false (ar_id c a) (ar_sel c a) 0 (c_mem s (ar_id c a))
               | None, Some (id, n) => mkStage false true id 0 n (c_mem s id)
               | None, None => mkStage false false 0 0 0 (c_mem s 0)
               end in
  let pipe := removelast (front :: c_pipe s) in
  let mem := if g_acc tail then zupd (c_mem s) (g_addr tail) ((g_data tail + g_inc tail) mod 2 ^ sc_w c)
             else if c_init s then zupd (c_mem s) (c_ptr s) 0 else c_mem s in
  let done := negb (g_acc tail) && g_rd tail in
  let off g := mkStage false false (g_addr g) (g_shift g) (g_inc g) (g_data g) in
  (mkScSt
     (rst || c_init s && negb (c_ptr s =? 2 ^ sc_d c - 1))
     (if rst then 0 else if c_init s then (c_ptr s + 1) mod 2 ^ sc_d c else c_ptr s)
     (if rst then map off pipe else pipe) mem
     (negb rst && match acc with Some _ => true | None => false end)
     (negb rst && match read with Some _ => true | None => false end)
     (negb rst && (done || c_rvalid s && negb (si_rready i)))
     (if done then rd_word c (g_data tail) (g_shift tail) else c_rdata s)
     (negb rst && write) (negb rst && (write || c_bvalid s && negb (si_bready i))),
   mkScOut (c_tready s) (c_arready s) (c_rvalid s) (c_rdata s) (c_wready s) (c_bvalid s)).
