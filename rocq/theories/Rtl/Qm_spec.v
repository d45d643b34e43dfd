(** What a user of the descriptor queue manager relies on: an atomic queue
    manager, one operation at a time, no pipeline and no operation table. *)
From Verif Require Import Base.Prelude Base.Bits Rtl.OpTable_spec Rtl.Handshake_spec Rtl.Qm_model.
Open Scope Z_scope.

(** One queue as software sees it. *)
Record squeue := mkS {
  s_prod : Z; s_cons : Z; s_cqn : Z; s_lsz : Z; s_lblk : Z; s_en : bool; s_base : Z }.

(** The atomic machine: the queues, the operations handed out and not retired
    (oldest first), and the tag of the oldest one. *)
Record satom := mkA { a_q : Z -> squeue; a_ops : list sop; a_fin : Z }.

Definition satom0 : satom := mkA (fun _ => mkS 0 0 0 0 0 false 0) [] 0.

(** Index of the next descriptor of [q] to hand out. *)
Definition s_head (A : satom) (q : Z) : Z :=
  match last_ptr q (a_ops A) with Some p => p | None => s_cons (a_q A q) end.

(** Register interface, by command. *)
Inductive cmd :=
| CBaseLo | CBaseHi | CSize | CCqn | CProd | CCons | CEnable | CNone.

Definition decode (reg data : Z) : cmd :=
  if reg =? 0 then CBaseLo else if reg =? 1 then CBaseHi
  else if (2 <=? reg) && (reg <=? 4) then
    let hi := bits data 16 16 in
    if hi =? 0x8002 then CSize
    else if hi =? 0x8080 then CProd
    else if hi =? 0x8090 then CCons
    else if hi / 256 =? 0xC0 then CCqn
    else if bits data 8 24 =? 0x400001 then CEnable
    else CNone
  else CNone.

(** Effect of a command.  Everything but the producer pointer and the enable
    flag is ignored while the queue is enabled. *)
Definition s_write (x : squeue) (reg data strb : Z) : squeue :=
  match decode reg data, x with
  | CProd, mkS pr co cq ls lb en ba => mkS (data mod 2 ^ 16) co cq ls lb en ba
  | CEnable, mkS pr co cq ls lb en ba => mkS pr co cq ls lb (Z.odd data) ba
  | CNone, _ => x
  | _, mkS pr co cq ls lb true ba => x
  | CBaseLo, mkS pr co cq ls lb false ba => mkS pr co cq ls lb false (base_lo ba data strb)
  | CBaseHi, mkS pr co cq ls lb false ba => mkS pr co cq ls lb false (base_hi ba data strb)
  | CSize, mkS pr co cq ls lb false ba =>
      mkS pr co cq (data mod 16) (data / 256 mod 4) false ba
  | CCqn, mkS pr co cq ls lb false ba => mkS pr co (data mod 2 ^ 16) ls lb false ba
  | CCons, mkS pr co cq ls lb false ba => mkS pr (data mod 2 ^ 16) cq ls lb false ba
  end.

(** A doorbell is due exactly for a producer pointer write to an enabled queue. *)
Definition s_doorbell (x : squeue) (reg data : Z) : bool :=
  match decode reg data with CProd => s_en x | _ => false end.

(** Register read values; [act]: the queue has operations outstanding. *)
Definition s_read (x : squeue) (act : bool) (reg : Z) : Z :=
  match reg with
  | 0 => (s_base x mod 2 ^ 32) / 4096 * 4096
  | 1 => (s_base x / 2 ^ 32) mod 2 ^ 32
  | 2 => b2z (s_en x) + 8 * b2z act
  | 3 => s_cqn x + 2 ^ 24 * s_lsz x + 2 ^ 28 * s_lblk x
  | 4 => s_prod x + 2 ^ 16 * s_cons x
  | _ => 0
  end.

(** The response to a dequeue request. *)
Definition s_resp (N cld : Z) (A : satom) (q tag : Z) : resp :=
  let x := a_q A q in
  let h := s_head A q in
  mkResp q h (Z.even (h / 2 ^ s_lsz x))
    ((s_base x + (h mod 2 ^ s_lsz x) * (2 ^ cld * 2 ^ s_lblk x)) mod 2 ^ 64)
    (s_lblk x) (s_cqn x) tag
    ((a_fin A + Z.of_nat (length (a_ops A))) mod N)
    (s_en x && (s_prod x =? h)) (negb (s_en x)).

Definition ok_resp (r : resp) : bool := negb (rs_empty r) && negb (rs_err r).

(** One event of the atomic machine; a relation, so an event whose outputs are
    not the atomic machine's has no successor. *)
Inductive astep (N cld : Z) (A : satom) : qev -> satom -> Prop :=
| as_write q reg data strb :
    astep N cld A (EvWrite q reg data strb (s_doorbell (a_q A q) reg data))
          (mkA (zupd (a_q A) q (s_write (a_q A q) reg data strb)) (a_ops A) (a_fin A))
| as_read q reg :
    astep N cld A (EvRead q reg (s_read (a_q A q) (busy q (a_ops A)) reg)) A
| as_req_fail q tag :
    ok_resp (s_resp N cld A q tag) = false ->
    astep N cld A (EvReq (s_resp N cld A q tag)) A
| as_req_ok q tag :
    ok_resp (s_resp N cld A q tag) = true ->
    Z.of_nat (length (a_ops A)) < N ->
    astep N cld A (EvReq (s_resp N cld A q tag))
          (mkA (a_q A) (a_ops A ++ [mkOp q ((s_head A q + 1) mod 2 ^ 16) false]) (a_fin A))
| as_commit j :
    (j < length (a_ops A))%nat ->
    so_done (nth j (a_ops A) (mkOp 0 0 false)) = false ->
    astep N cld A (EvCommit ((a_fin A + Z.of_nat j) mod N))
          (mkA (a_q A) (mark (a_ops A) j) (a_fin A))
| as_fin o rest :
    a_ops A = o :: rest -> so_done o = true ->
    astep N cld A (EvFin (so_q o) (so_ptr o))
          (mkA (zupd (a_q A) (so_q o)
                  (let '(mkS pr _ cq ls lb en ba) := a_q A (so_q o) in
                   mkS pr (so_ptr o) cq ls lb en ba))
               rest ((a_fin A + 1) mod N)).

Inductive aruns (N cld : Z) : satom -> list qev -> satom -> Prop :=
| ar_nil A : aruns N cld A [] A
| ar_cons A e B es C : astep N cld A e B -> aruns N cld B es C -> aruns N cld A (e :: es) C.

(** The user commits only operation tags it was given by a successful response,
    each once.  [out]: tags handed out and not yet committed. *)
Fixpoint commits_ok (out : list Z) (es : list qev) : Prop :=
  match es with
  | [] => True
  | EvReq r :: t => commits_ok (if ok_resp r then rs_optag r :: out else out) t
  | EvCommit tag :: t => In tag out /\ commits_ok (remove Z.eq_dec tag out) t
  | _ :: t => commits_ok out t
  end.

(** Outputs as the port sees them. *)
Definition events (os : list qobs) : list qev := flat_map o_ev os.
Definition ev_resps (es : list qev) : list resp :=
  flat_map (fun e => match e with EvReq r => [r] | _ => [] end) es.
Definition ev_reads (es : list qev) : list Z :=
  flat_map (fun e => match e with EvRead _ _ v => [v] | _ => [] end) es.
Definition ev_doorbells (es : list qev) : list Z :=
  flat_map (fun e => match e with EvWrite q _ _ _ true => [q] | _ => [] end) es.

Definition ev_writes (es : list qev) : nat :=
  length (filter (fun e => match e with EvWrite _ _ _ _ _ => true | _ => false end) es).

(** The operation an event answers. *)
Definition ev_ops (es : list qev) : list pop :=
  flat_map (fun e => match e with
                     | EvReq r => [PReq (rs_queue r) (rs_tag r)]
                     | EvWrite q reg data strb _ => [PWrite q reg data strb]
                     | EvRead q reg _ => [PRead q reg]
                     | _ => []
                     end) es.

Definition count_true (l : list bool) : nat := length (filter (fun b => b) l).

(** The accepted operations of each input channel. *)
Definition acc_aw (o : qobs) : option (Z * Z * Z * Z) :=
  match o_acc o with Some (PWrite q r d b) => Some (q, r, d, b) | _ => None end.
Definition acc_ar (o : qobs) : option (Z * Z) :=
  match o_acc o with Some (PRead q r) => Some (q, r) | _ => None end.
Definition acc_rq (o : qobs) : option (Z * Z) :=
  match o_acc o with Some (PReq q tag) => Some (q, tag) | _ => None end.

(** * Histories

    Everything below is stated on the sequence of events seen at the ports. *)

(** Register contents of every queue after a history: the writes in order, and
    the consumer pointer moved by retirements. *)
Definition view1 (f : Z -> squeue) (e : qev) : Z -> squeue :=
  match e with
  | EvWrite q reg data strb _ => zupd f q (s_write (f q) reg data strb)
  | EvFin q p => zupd f q (let '(mkS pr _ cq ls lb en ba) := f q in mkS pr p cq ls lb en ba)
  | _ => f
  end.
Definition view (es : list qev) : Z -> squeue :=
  fold_left view1 es (fun _ => mkS 0 0 0 0 0 false 0).

Definition is_handed (q : Z) (e : qev) : bool :=
  match e with EvReq r => ok_resp r && (rs_queue r =? q) | _ => false end.
Definition is_retired (q : Z) (e : qev) : bool :=
  match e with EvFin q' _ => q' =? q | _ => false end.

(** Number of operations on [q] handed out / retired. *)
Definition handed (q : Z) (es : list qev) : nat := length (filter (is_handed q) es).
Definition retired (q : Z) (es : list qev) : nat := length (filter (is_retired q) es).

(** No consumer pointer write to [q]. *)
Definition cons_write (q : Z) (e : qev) : Prop :=
  match e with
  | EvWrite q' reg data _ _ => q' = q /\ decode reg data = CCons
  | _ => False
  end.
Definition no_cons_write (q : Z) (es : list qev) : Prop := Forall (fun e => ~ cons_write q e) es.

(** Descriptors published by software: the sum of the (16-bit) producer pointer
    increments, starting from pointer [p]. *)
Fixpoint published (q p : Z) (es : list qev) : Z :=
  match es with
  | [] => 0
  | EvWrite q' reg data _ _ :: t =>
      match decode reg data with
      | CProd => if q' =? q
                 then (data - p) mod 2 ^ 16 + published q (data mod 2 ^ 16) t
                 else published q p t
      | _ => published q p t
      end
  | _ :: t => published q p t
  end.

(** All operations handed out, in order, as (queue, pointer just past it), and
    all retirements. *)
Definition all_handed (es : list qev) : list (Z * Z) :=
  flat_map (fun e => match e with
     | EvReq r => if ok_resp r then [(rs_queue r, (rs_ptr r + 1) mod 2 ^ 16)] else []
     | _ => [] end) es.
Definition all_retired (es : list qev) : list (Z * Z) :=
  flat_map (fun e => match e with EvFin q p => [(q, p)] | _ => [] end) es.

(** Operation number [i] (counting all operations handed out since reset, from
    0) has been committed: tag [i mod N] was committed more than [i / N] times. *)
Definition commits (tag : Z) (es : list qev) : Z :=
  Z.of_nat (length (filter (fun e => match e with EvCommit t => t =? tag | _ => false end) es)).
Definition committed (N : Z) (es : list qev) (i : nat) : Prop :=
  Z.of_nat i / N < commits (Z.of_nat i mod N) es.

(** Doorbells due for a history of register writes. *)
Fixpoint due_doorbells (f : Z -> squeue) (es : list qev) : list Z :=
  match es with
  | [] => []
  | e :: t =>
      match e with
      | EvWrite q reg data _ _ =>
          match decode reg data with
          | CProd => if s_en (f q) then [q] else []
          | _ => []
          end
      | _ => []
      end ++ due_doorbells (view1 f e) t
  end.

(** Start of a window of operation of queue [q], with the index [h0] of the
    first descriptor: reset, or a consumer pointer write to the disabled queue
    with no operations outstanding. *)
Definition window_start (q : Z) (es1 : list qev) (h0 : Z) : Prop :=
  (es1 = [] /\ h0 = 0) \/
  exists es0 reg data strb db, es1 = es0 ++ [EvWrite q reg data strb db] /\
    decode reg data = CCons /\ s_en (view es0 q) = false /\
    handed q es0 = retired q es0 /\ h0 = data mod 2 ^ 16.

(** The write clears the enable flag of [q]. *)
Definition disables (q : Z) (e : qev) : Prop :=
  match e with
  | EvWrite q' reg data _ _ => q' = q /\ decode reg data = CEnable /\ Z.odd data = false
  | _ => False
  end.

(** No register access is offered in this cycle. *)
Definition quiet (i : qin) : Prop := i_aw i = None /\ i_ar i = None.
