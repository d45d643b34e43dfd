(** The claims about the receive queue map (C48). *)
From Verif Require Import Base.Prelude Nic.RxMap_model Nic.RxMap_spec Nic.RxMap_proof.
Local Open Scope Z_scope.

(** A request is answered in the third cycle after it, with its tag, unless
    there is a reset in the cycle of the request or the two after it; nothing
    else is answered.  The queue is the destination itself if its top bit is set
    and direct mode is on for the port, and otherwise the indirection table
    entry; masks and mode are those acknowledged up to the cycle of the request,
    the table is the one written up to the cycle after it. *)
Theorem C48_response : forall c xs h r0 i0 o0 r1 i1 o1 r2 i2 o2 r3 i3 o3, cfg_ok c ->
  observe c xs = h ++ [(r0, i0, o0); (r1, i1, o1); (r2, i2, o2); (r3, i3, o3)] ->
  polite (observe c xs) -> quiet (observe c xs) ->
  o_valid o3 = negb r0 && negb r1 && negb r2 && (match in_req i0 with Some _ => true | None => false end) /\
  forall r, in_req i0 = Some r -> (rq_id r < rm_ports c)%nat -> o_valid o3 = true ->
    o_tag o3 = rq_tag r /\ o_queue o3 = chosen c (h ++ [(r0, i0, o0)]) (h ++ [(r0, i0, o0); (r1, i1, o1)]) r.
Proof. exact response. Qed.
Print Assumptions C48_response.

Theorem C48_no_early_response : forall c xs h cy,
  observe c xs = h ++ [cy] -> (length h < 3)%nat -> o_valid (snd cy) = false.
Proof. exact response_early. Qed.
Print Assumptions C48_no_early_response.

(** The queue is in range, and only the table of the request's own port matters. *)
Theorem C48_queue_in_range : forall c h h' r, cfg_ok c -> 0 <= chosen c h h' r < 2 ^ rm_q c.
Proof. exact chosen_range. Qed.
Print Assumptions C48_queue_in_range.

Theorem C48_own_table : forall c h h' h'' r, cfg_ok c -> (rq_id r < rm_ports c)%nat ->
  (forall e, Z.of_nat (rq_id r) * 2 ^ rm_w c <= e < (Z.of_nat (rq_id r) + 1) * 2 ^ rm_w c -> table c e h' = table c e h'') ->
  chosen c h h' r = chosen c h h'' r.
Proof. exact chosen_own_table. Qed.
Print Assumptions C48_own_table.

(** The address the driver computes for entry [idx] of a port, from the offset
    register of the port (mqnic.py:1363-1370, 1561-1565), is that entry. *)
Theorem C48_driver_address : forall c port idx, cfg_ok c -> (port < rm_ports c)%nat -> 0 <= idx < 2 ^ rm_w c ->
  rm_base c mod 2 ^ (rm_full c + 2) = 0 ->
  entry_of c (rm_base c + 4 * (Z.of_nat port * 2 ^ rm_w c) + idx * 4) = Z.of_nat port * 2 ^ rm_w c + idx.
Proof. exact driver_entry. Qed.
Print Assumptions C48_driver_address.

(** Table reads: each accepted read is answered once, in order, with the entry
    as written before; once the master has been ready for two cycles and no
    read was accepted in the second, all of them have been. *)
Theorem C48_table_reads : forall c xs, cfg_ok c -> polite (observe c xs) -> quiet (observe c xs) ->
  exists rest, wanted c (observe c xs) = returned (observe c xs) ++ rest /\ (length rest <= 2)%nat.
Proof. exact reads_prefix. Qed.
Print Assumptions C48_table_reads.

Theorem C48_table_reads_complete : forall c xs h i1 o1 i2 o2, cfg_ok c -> polite (observe c xs) -> quiet (observe c xs) ->
  observe c xs = h ++ [(false, i1, o1); (false, i2, o2)] ->
  in_rready i1 = true -> in_rready i2 = true -> o_arready o2 = false ->
  returned (observe c xs) = wanted c (observe c xs).
Proof. exact reads_done. Qed.
Print Assumptions C48_table_reads_complete.

(** Table writes: each accepted write has one response. *)
Theorem C48_table_write_responses : forall c xs, cfg_ok c -> polite (observe c xs) -> quiet (observe c xs) ->
  forall h cy, observe c xs = h ++ [cy] ->
  writes h + (if o_wready (snd cy) then 1 else 0) = responses h + (if o_bvalid (snd cy) then 1 else 0).
Proof. exact write_responses. Qed.
Print Assumptions C48_table_write_responses.

(** Neither kind of access can be starved by the other. *)
Theorem C48_write_progress : forall c xs h i1 o1 i2 o2 cy,
  observe c xs = h ++ [(false, i1, o1); (false, i2, o2); cy] ->
  in_awvalid i1 = true -> in_wvalid i1 = true -> in_awvalid i2 = true -> in_wvalid i2 = true ->
  in_bready i1 = true -> in_bready i2 = true ->
  o_wready o1 = true \/ o_wready o2 = true \/ o_wready (snd cy) = true.
Proof. exact write_progress. Qed.
Print Assumptions C48_write_progress.

Theorem C48_read_progress : forall c xs h i1 o1 i2 o2 cy,
  observe c xs = h ++ [(false, i1, o1); (false, i2, o2); cy] ->
  in_arvalid i1 = true -> in_arvalid i2 = true -> in_rready i1 = true -> in_rready i2 = true ->
  o_arready o1 = true \/ o_arready o2 = true \/ o_arready (snd cy) = true.
Proof. exact read_progress. Qed.
Print Assumptions C48_read_progress.

(** Registers read back what was written; a read is acknowledged in the next
    cycle exactly if the block has a register there, and that has one value. *)
Theorem C48_register_read : forall c xs h i0 o0 cy a, cfg_ok c -> polite (observe c xs) -> quiet (observe c xs) ->
  observe c xs = h ++ [(false, i0, o0); cy] -> in_rd i0 = Some a -> o_rd_ack o0 = false ->
  if o_rd_ack (snd cy) then read_back c (h ++ [(false, i0, o0)]) a (o_rd_data (snd cy))
  else forall v, ~ read_back c (h ++ [(false, i0, o0)]) a v.
Proof. exact reg_read. Qed.
Print Assumptions C48_register_read.

Theorem C48_register_unique : forall c h a v w, read_back c h a v -> read_back c h a w -> v = w.
Proof. exact read_back_fun. Qed.
Print Assumptions C48_register_unique.

(** "The table holds what was written and accepted" fails if a write is offered
    during reset: it is never accepted, yet it is performed. *)
Theorem C48_write_in_reset_refuted : ~ (forall c xs h r0 i0 o0 r1 i1 o1 r2 i2 o2 r3 i3 o3 r, cfg_ok c ->
  observe c xs = h ++ [(r0, i0, o0); (r1, i1, o1); (r2, i2, o2); (r3, i3, o3)] ->
  polite (observe c xs) -> in_req i0 = Some r -> (rq_id r < rm_ports c)%nat -> o_valid o3 = true ->
  o_queue o3 = chosen c (h ++ [(r0, i0, o0)]) (h ++ [(r0, i0, o0); (r1, i1, o1)]) r).
Proof.
  intro H. assert (C : cfg_ok rc_cfg) by (unfold cfg_ok; cbn; lia).
  remember (observe rc_cfg rst_run) as ob eqn:E. vm_compute in E.
  match type of E with _ = [?a0; (?r0, ?i0, ?o0); (?r1, ?i1, ?o1); (?r2, ?i2, ?o2); (?r3, ?i3, ?o3)] =>
    specialize (H rc_cfg rst_run [a0] r0 i0 o0 r1 i1 o1 r2 i2 o2 r3 i3 o3 (mkRq 0 0 0 0) C eq_refl reset_write_polite eq_refl ltac:(cbn; lia) eq_refl) end.
  vm_compute in H. discriminate.
Qed.
Print Assumptions C48_write_in_reset_refuted.

(** Port 1, hash mask 3, entry 2 of its table set to 5; hash 6 gives queue 5. *)
Definition ex_set := mkIn (Some (0x24, 3)) None 24 true 5 true true 0 false false None.
Definition ex_req := mkIn None (Some 0x24) 0 false 0 false true 24 true true (Some (mkRq 1 0 6 9)).
Definition ex_rd := mkIn None None 0 false 0 false true 24 true true None.
Definition ex_end := mkIn None None 0 false 0 false true 0 false true None.
Definition ex_run : list (bool * rmin) := map (pair false) [ex_set; ex_set; ex_req; ex_rd; ex_end; ex_end].

Example C48_nonvacuous :
  cfg_ok rc_cfg /\ polite (observe rc_cfg ex_run) /\ quiet (observe rc_cfg ex_run) /\
  map (fun cy => let o := snd cy in (o_valid o, o_queue o, o_tag o, o_rd_ack o, o_rd_data o, o_rvalid o, o_rdata o)) (observe rc_cfg ex_run) =
  [(false, 0, 0, false, 0, false, 0); (false, 0, 0, false, 0, false, 0); (false, 0, 0, false, 0, false, 0);
   (false, 0, 0, true, 3, false, 0); (false, 0, 0, false, 0, true, 5); (true, 5, 9, false, 0, false, 5)] /\
  wanted rc_cfg (observe rc_cfg ex_run) = [5] /\ returned (observe rc_cfg ex_run) = [5] /\
  chosen rc_cfg (firstn 3 (observe rc_cfg ex_run)) (firstn 4 (observe rc_cfg ex_run)) (mkRq 1 0 6 9) = 5.
Proof.
  split; [unfold cfg_ok; cbn; lia|]. split.
  { vm_compute. repeat apply polite_cons; try apply polite_one; intro; repeat split; intros; try discriminate; try reflexivity;
    try (match goal with H : None <> None |- _ => now elim H end). }
  split. { vm_compute. intros i o H. repeat (destruct H as [H|H]; [discriminate|]). destruct H. }
  repeat split.
Qed.

Example C48_register_nonvacuous : read_back rc_cfg (firstn 3 (observe rc_cfg ex_run)) 0x24 3.
Proof. unfold read_back. do 4 right. exists 1%nat. split; [cbn; lia|]. right. left. split; reflexivity. Qed.

Example C48_driver_address_nonvacuous : rm_base rc_cfg mod 2 ^ (rm_full rc_cfg + 2) = 0 /\ rm_full rc_cfg = 3.
Proof. split; reflexivity. Qed.
