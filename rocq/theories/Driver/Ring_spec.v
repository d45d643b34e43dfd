(** Vocabulary in which the ring properties C04-C10 are stated: what an
    observer outside the driver sees, and the assumptions on the configuration.
    Nothing here mentions ring slots, phase tags or the driver's tables. *)
From Verif Require Import Base.Prelude Driver.Ring_model.
Local Open Scope Z_scope.

(** Records written by the hardware, and records returned by polling. *)
Definition produced (os : list cq_obs) : list (Z * Z) :=
  flat_map (fun o => match o with ObsProduced i l => [(i, l)] | _ => [] end) os.

Definition consumed (os : list cq_obs) : list (Z * Z) :=
  flat_map (fun o => match o with ObsGot rs => map (fun r => (c_index r, c_len r)) rs | _ => [] end) os.

(** Segments tile [a, a+len): each nonempty segment starts where the previous
    ones end. *)
Fixpoint tiles (segs : list seg) (a len : Z) : Prop :=
  match segs with
  | [] => len = 0
  | (l, p) :: t => 0 <= l <= len /\ (l = 0 -> p = 0) /\ (l <> 0 -> p = a) /\ tiles t (a + l) (len - l)
  end.

(** Packet buffers do not overlap (guest memory regions are distinct). *)
Definition buffers_disjoint (base : nat -> Z) : Prop :=
  forall b b', b <> b' -> base b + pkt_buf_size <= base b' \/ base b' + pkt_buf_size <= base b.

(** Supported configurations: ring of 2^k slots with 16-bit indices, at least
    one descriptor per block, MTU that fits the 16 KiB buffer. *)
Record tx_ok (P : rparams) : Prop := {
  to_k : 0 <= rp_k P <= 16;
  to_kc : 0 <= rp_kc P < 16;
  to_dbs : (1 <= rp_dbs P)%nat;
  to_base : buffers_disjoint (rp_base P);
  to_mtu : rp_mtu P + 9 <= pkt_buf_size
}.

(** Posted packet data, as seen from outside: data of the accepted calls. *)
Fixpoint posted (ops : list tx_op) (outs : list tx_out) : list (list Z) :=
  match ops, outs with
  | TxXmit d :: ops', TxPosted :: outs' => d :: posted ops' outs'
  | _ :: ops', _ :: outs' => posted ops' outs'
  | _, _ => []
  end.

Record rx_ok (P : rparams) : Prop := {
  xo_k : 0 <= rp_k P <= 16;
  xo_kc : 0 <= rp_kc P < 16;
  xo_dbs : (1 <= rp_dbs P)%nat;
  xo_base : buffers_disjoint (rp_base P)
}.

(** Packets accepted by the hardware, and packets handed to the user. *)
Definition rx_received (outs : list rx_out) : list (list Z) :=
  flat_map (fun o => match o with RxReceived d => [d] | _ => [] end) outs.

Definition rx_delivered (outs : list rx_out) : list (list Z) :=
  flat_map (fun o => match o with RxDelivered l => l | _ => [] end) outs.

(** Number of descriptors the hardware has completed. *)
Definition completed (outs : list tx_out) : nat :=
  length (filter (fun o => match o with TxCompleted _ => true | _ => false end) outs).

(** Packet buffer pool: [created] buffers exist, [held] are handed out. *)
Inductive pool_history : nat -> list nat -> list pool_op -> list pool_ret -> Prop :=
| ph_nil c held : pool_history c held [] []
| ph_reuse c held b ops rets :
    (b < c)%nat -> ~ In b held ->
    pool_history c (b :: held) ops rets ->
    pool_history c held (PAlloc :: ops) (PGot b :: rets)
| ph_create c held ops rets :
    (forall b, (b < c)%nat -> In b held) -> ~ In c held ->
    pool_history (S c) (c :: held) ops rets ->
    pool_history c held (PAlloc :: ops) (PGot c :: rets)
| ph_free c held b ops rets :
    pool_history c (remove Nat.eq_dec b held) ops rets ->
    pool_history c held (PFree b :: ops) (PFreed :: rets).

(** Client discipline: only held buffers are freed. *)
Fixpoint pool_well_used (held : list nat) (ops : list pool_op) (rets : list pool_ret) : Prop :=
  match ops, rets with
  | [], [] => True
  | PAlloc :: ops', PGot b :: rets' => pool_well_used (b :: held) ops' rets'
  | PFree b :: ops', _ :: rets' => In b held /\ pool_well_used (remove Nat.eq_dec b held) ops' rets'
  | _, _ => False
  end.
