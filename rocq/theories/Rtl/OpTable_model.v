(** The operation table shared (as identical source text) by the two queue
    managers: fpga/common/rtl/queue_manager.v lines 220-235, 628-635, 674-681 and
    fpga/common/rtl/cpl_queue_manager.v lines 220-233, 661-668, 706-713. *)
From Verif Require Import Base.Prelude.
Open Scope Z_scope.

(** queue_manager.v:220-235 (op_table_active, op_table_commit, op_table_queue,
    op_table_queue_ptr, op_table_start_ptr_reg, op_table_finish_ptr_reg). *)
Record optab := mkTab {
  t_active : Z -> bool;
  t_commit : Z -> bool;
  t_queue  : Z -> Z;
  t_ptr    : Z -> Z;
  t_start  : Z;
  t_finish : Z }.

(** The table after reset (queue_manager.v:284-295, 606-609; the queue and pointer
    columns have no reset value and are only read for active entries, or to
    compute a hazard for an entry that is not active). *)
Definition tab0 : optab :=
  mkTab (fun _ => false) (fun _ => false) (fun _ => 0) (fun _ => 0) 0 0.

(** op_table_start_en (queue_manager.v:628-631, 674-678). [N] = OP_TABLE_SIZE, a power of
    two, so that the CL_OP_TABLE_SIZE-bit increment wraps modulo [N]. *)
Definition tab_start (N : Z) (t : optab) (q ptr : Z) : optab :=
  mkTab (zupd (t_active t) (t_start t) true)
        (zupd (t_commit t) (t_start t) false)
        (zupd (t_queue t) (t_start t) q)
        (zupd (t_ptr t) (t_start t) ptr)
        ((t_start t + 1) mod N) (t_finish t).

(** op_table_commit_en (queue_manager.v:679-681). *)
Definition tab_commit (t : optab) (tag : Z) : optab :=
  mkTab (t_active t) (zupd (t_commit t) tag true) (t_queue t) (t_ptr t)
        (t_start t) (t_finish t).

(** op_table_finish_en (queue_manager.v:632-635). *)
Definition tab_finish (N : Z) (t : optab) : optab :=
  mkTab (zupd (t_active t) (t_finish t) false) (t_commit t) (t_queue t) (t_ptr t)
        (t_start t) ((t_finish t + 1) mod N).
