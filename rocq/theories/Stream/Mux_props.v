(** C27: the arbitrated stream multiplexer never interleaves frames. *)
From Verif Require Import Base.Prelude Base.Bits Rtl.Handshake_spec Stream.Axis_model Stream.Arb_model
  Stream.Mux_model Stream.Mux_spec Stream.Mux_proof.
Local Open Scope nat_scope.

(** There is a sequence of source-labelled beats, made of whole frames, such that the
    output so far is that sequence up to at most two beats still inside, and each
    port's part of it is what that port handed over, up to at most one beat still in
    its input register. *)
Theorem C27_whole_frames c is : 0 < m_count c -> mrunning is ->
  let os := snd (trace (mux_step c) mux0 is) in
  let l := moved c mux0 is in
  whole_frames (m_ax c) l /\
  (exists inside, map (shown c) l = mdelivered is os ++ inside /\ length inside <= 2) /\
  (forall p, exists waiting, maccepted p is os = from p l ++ waiting /\ length waiting <= 1).
Proof. exact (fun Hc => @mux_top c Hc is). Qed.
Print Assumptions C27_whole_frames.

(** The source port can be read back from tid, and the low tid bits are the source's. *)
Theorem C27_source_marked c p t :
  m_upd c = true -> 1 < m_count c -> p < m_count c -> (m_cl c <= m_idw c)%Z ->
  bits (mux_tid c p t) (m_idw c - m_cl c) (m_cl c) = Z.of_nat p /\
  forall n, (0 <= n < m_idw c - m_cl c)%Z -> Z.testbit (mux_tid c p t) n = Z.testbit t n.
Proof. exact (fun a b d e => conj (@mux_tid_port c p t a b d e) (@mux_tid_low c p t)). Qed.
Print Assumptions C27_source_marked.

(** Nothing but tid is changed, and the disabled signals. *)
Theorem C27_unmodified c p b :
  tdata (shown c (p, b)) = tdata b /\
  (keep_en (m_ax c) = true -> tkeep (shown c (p, b)) = tkeep b) /\
  (last_en (m_ax c) = true -> tlast (shown c (p, b)) = tlast b) /\
  (dest_en (m_ax c) = true -> tdest (shown c (p, b)) = tdest b) /\
  (user_en (m_ax c) = true -> tuser (shown c (p, b)) = tuser b) /\
  (id_en (m_ax c) = true -> m_upd c = false -> (0 <= tid b < 2 ^ m_idw c)%Z ->
     (0 <= m_idw c)%Z -> tid (shown c (p, b)) = tid b).
Proof. exact (@shown_fields c p b). Qed.
Print Assumptions C27_unmodified.

(** Round robin: a port with a beat waiting gets a beat through before more than
    S_COUNT frames have been finished. *)
Theorem C27_fair c is1 is2 p : 0 < m_count c -> m_rr c = true -> p < m_count c ->
  mrunning (is1 ++ is2) ->
  let os := snd (trace (mux_step c) mux0 is1) in
  let s1 := fst (trace (mux_step c) mux0 is1) in
  length (from p (moved c mux0 is1)) < length (maccepted p is1 os) ->
  m_count c < lasts (m_ax c) (moved c s1 is2) ->
  from p (moved c s1 is2) <> [].
Proof. exact (fun Hc => @mux_fair c Hc is1 is2 p). Qed.
Print Assumptions C27_fair.

(** No deadlock: with a beat waiting at some port, a ready sink, and the source of an
    unfinished frame (if any) offering its next beat, a beat moves within two cycles. *)
Theorem C27_progress c is a b p : 0 < m_count c -> mrunning (is ++ [a; b]) ->
  let os := snd (trace (mux_step c) mux0 is) in
  let s1 := fst (trace (mux_step c) mux0 is) in
  p < m_count c ->
  length (from p (moved c mux0 is)) < length (maccepted p is os) ->
  mi_mready a = true ->
  (forall q, unfinished (m_ax c) (moved c mux0 is) = Some q -> mi_s a q <> None) ->
  moved c s1 [a; b] <> [].
Proof. exact (fun Hc => @mux_progress c Hc is a b p). Qed.
Print Assumptions C27_progress.

(** Two sources with two-beat frames, interleaved at the inputs. *)
Definition ex_mux := mkMux 2 (mkAx true 255 true true false true) 9 true true true.
Definition ex_mb n l := mkBeat n 255 l 0 0 0.
Definition ex_in (a b : option beat) (r : bool) := mkMuxIn false (fun k => if k =? 0 then a else b) r.
Definition ex_mrun : list muxin :=
  [ex_in (Some (ex_mb 1 false)) (Some (ex_mb 11 false)) true;
   ex_in (Some (ex_mb 2 true)) (Some (ex_mb 12 true)) true;
   ex_in (Some (ex_mb 2 true)) (Some (ex_mb 12 true)) true;
   ex_in None (Some (ex_mb 12 true)) false;
   ex_in None (Some (ex_mb 12 true)) true;
   ex_in None (Some (ex_mb 12 true)) true;
   ex_in None None true; ex_in None None true; ex_in None None true; ex_in None None true].
Example C27_nonvacuous :
  mrunning ex_mrun /\
  map tdata (mdelivered ex_mrun (snd (trace (mux_step ex_mux) mux0 ex_mrun))) = [1; 2; 11; 12]%Z /\
  map tid (mdelivered ex_mrun (snd (trace (mux_step ex_mux) mux0 ex_mrun))) = [0; 0; 256; 256]%Z.
Proof. split; [repeat constructor|vm_compute; auto]. Qed.
