(** What a user of the completion queue manager relies on: an atomic manager,
    one operation at a time, no pipeline and no operation table. *)
From Verif Require Import Base.Prelude Base.Bits Rtl.OpTable_spec Rtl.Handshake_spec Rtl.Cqm_model.
Open Scope Z_scope.

(** One completion queue as software sees it. *)
Record squeue := mkS {
  s_prod : Z; s_cons : Z; s_evt : Z; s_lsz : Z; s_arm : bool; s_en : bool; s_base : Z }.

Definition sq0 : squeue := mkS 0 0 0 0 false false 0.

Record satom := mkA { a_q : Z -> squeue; a_ops : list sop; a_fin : Z }.

Definition satom0 : satom := mkA (fun _ => sq0) [] 0.

(** Index of the next completion record of [q]. *)
Definition s_head (A : satom) (q : Z) : Z :=
  match last_ptr q (a_ops A) with Some p => p | None => s_prod (a_q A q) end.

Inductive cmd :=
| CBaseLo | CBaseHi | CSize | CEqn | CProd | CCons | CConsArm | CEnable | CArm | CNone.

Definition decode (reg data : Z) : cmd :=
  if reg =? 0 then CBaseLo else if reg =? 1 then CBaseHi
  else if (2 <=? reg) && (reg <=? 3) then
    let hi := bits data 16 16 in
    if hi =? 0x8002 then CSize
    else if hi =? 0x8080 then CProd
    else if hi =? 0x8090 then CCons
    else if hi =? 0x8091 then CConsArm
    else if hi / 256 =? 0xC0 then CEqn
    else if bits data 8 24 =? 0x400001 then CEnable
    else if bits data 8 24 =? 0x400002 then CArm
    else CNone
  else CNone.

(** An event is raised at once when an enabled, non-empty queue is armed. *)
Definition s_event (x : squeue) (reg data : Z) : option Z :=
  match decode reg data with
  | CConsArm => if s_en x && negb (s_prod x =? data mod 2 ^ 16) then Some (s_evt x) else None
  | CArm => if s_en x && Z.odd data && negb (s_prod x =? s_cons x) then Some (s_evt x) else None
  | _ => None
  end.

(** Effect of a command.  Base, size, event number and producer pointer are
    ignored while the queue is enabled.  Arming is cancelled by the event it
    raises. *)
Definition s_write (x : squeue) (reg data strb : Z) : squeue :=
  match decode reg data, x with
  | CCons, mkS pr co ev ls ar en ba => mkS pr (data mod 2 ^ 16) ev ls ar en ba
  | CConsArm, mkS pr co ev ls ar en ba =>
      mkS pr (data mod 2 ^ 16) ev ls
        (match s_event x reg data with Some _ => false | None => true end) en ba
  | CArm, mkS pr co ev ls ar en ba =>
      mkS pr co ev ls (match s_event x reg data with Some _ => false | None => Z.odd data end) en ba
  | CEnable, mkS pr co ev ls ar en ba => mkS pr co ev ls ar (Z.odd data) ba
  | CNone, _ => x
  | _, mkS pr co ev ls ar true ba => x
  | CBaseLo, mkS pr co ev ls ar false ba => mkS pr co ev ls ar false (base_lo ba data strb)
  | CBaseHi, mkS pr co ev ls ar false ba => mkS pr co ev ls ar false (base_hi ba data strb)
  | CSize, mkS pr co ev ls ar false ba => mkS pr co ev (data mod 16) ar false ba
  | CEqn, mkS pr co ev ls ar false ba => mkS pr co (data mod 2 ^ 16) ls ar false ba
  | CProd, mkS pr co ev ls ar false ba => mkS (data mod 2 ^ 16) co ev ls ar false ba
  end.

(** A completion is made visible: the producer pointer moves, and an armed queue
    raises its event and is disarmed. *)
Definition s_fin (x : squeue) (p : Z) : squeue :=
  let '(mkS _ co ev ls _ en ba) := x in mkS p co ev ls false en ba.
Definition s_finev (x : squeue) : option Z := if s_arm x then Some (s_evt x) else None.

Definition s_read (x : squeue) (act : bool) (reg : Z) : Z :=
  match reg with
  | 0 => (s_base x mod 2 ^ 32) / 4096 * 4096
  | 1 => (s_base x / 2 ^ 32) mod 2 ^ 32
  | 2 => s_evt x + 2 ^ 16 * b2z (s_en x) + 2 ^ 17 * b2z (s_arm x) + 2 ^ 19 * b2z act + 2 ^ 28 * s_lsz x
  | 3 => s_prod x + 2 ^ 16 * s_cons x
  | _ => 0
  end.

(** The response to an enqueue request; full: [2 ^ size] or more records between
    the consumer pointer and the next index. *)
Definition s_resp (N csz : Z) (A : satom) (q tag : Z) : resp :=
  let x := a_q A q in
  let h := s_head A q in
  mkResp q h (Z.even (h / 2 ^ s_lsz x))
    ((s_base x + (h mod 2 ^ s_lsz x) * csz) mod 2 ^ 64)
    (s_evt x) tag ((a_fin A + Z.of_nat (length (a_ops A))) mod N)
    (s_en x && (2 ^ s_lsz x <=? (h - s_cons x) mod 2 ^ 16)) (negb (s_en x)).

Definition ok_resp (r : resp) : bool := negb (rs_full r) && negb (rs_err r).

Inductive astep (N csz : Z) (A : satom) : qev -> satom -> Prop :=
| as_write q reg data strb :
    astep N csz A (EvWrite q reg data strb (s_event (a_q A q) reg data))
          (mkA (zupd (a_q A) q (s_write (a_q A q) reg data strb)) (a_ops A) (a_fin A))
| as_read q reg :
    astep N csz A (EvRead q reg (s_read (a_q A q) (busy q (a_ops A)) reg)) A
| as_req_fail q tag :
    ok_resp (s_resp N csz A q tag) = false ->
    astep N csz A (EvReq (s_resp N csz A q tag)) A
| as_req_ok q tag :
    ok_resp (s_resp N csz A q tag) = true ->
    Z.of_nat (length (a_ops A)) < N ->
    astep N csz A (EvReq (s_resp N csz A q tag))
          (mkA (a_q A) (a_ops A ++ [mkOp q ((s_head A q + 1) mod 2 ^ 16) false]) (a_fin A))
| as_commit j :
    (j < length (a_ops A))%nat ->
    so_done (nth j (a_ops A) (mkOp 0 0 false)) = false ->
    astep N csz A (EvCommit ((a_fin A + Z.of_nat j) mod N))
          (mkA (a_q A) (mark (a_ops A) j) (a_fin A))
| as_fin o rest :
    a_ops A = o :: rest -> so_done o = true ->
    astep N csz A (EvFin (so_q o) (so_ptr o) (s_finev (a_q A (so_q o))))
          (mkA (zupd (a_q A) (so_q o) (s_fin (a_q A (so_q o)) (so_ptr o)))
               rest ((a_fin A + 1) mod N)).

Inductive aruns (N csz : Z) : satom -> list qev -> satom -> Prop :=
| ar_nil A : aruns N csz A [] A
| ar_cons A e B es C : astep N csz A e B -> aruns N csz B es C -> aruns N csz A (e :: es) C.

(** The user commits only operation tags it was given, each once. *)
Fixpoint commits_ok (out : list Z) (es : list qev) : Prop :=
  match es with
  | [] => True
  | EvReq r :: t => commits_ok (if ok_resp r then rs_optag r :: out else out) t
  | EvCommit tag :: t => In tag out /\ commits_ok (remove Z.eq_dec tag out) t
  | _ :: t => commits_ok out t
  end.

(** Outputs as the port sees them. *)
Definition events (os : list qobs) : list qev := flat_map o_ev os.
Definition ev_resps (es : list qev) : list resp :=
  flat_map (fun e => match e with EvReq r => [r] | _ => [] end) es.
Definition ev_reads (es : list qev) : list Z :=
  flat_map (fun e => match e with EvRead _ _ v => [v] | _ => [] end) es.
Definition ev_writes (es : list qev) : nat :=
  length (filter (fun e => match e with EvWrite _ _ _ _ _ => true | _ => false end) es).
Definition ev_ops (es : list qev) : list pop :=
  flat_map (fun e => match e with
                     | EvReq r => [PReq (rs_queue r) (rs_tag r)]
                     | EvWrite q reg data strb _ => [PWrite q reg data strb]
                     | EvRead q reg _ => [PRead q reg]
                     | _ => []
                     end) es.
Definition count_true (l : list bool) : nat := length (filter (fun b => b) l).

Definition acc_aw (o : qobs) : option (Z * Z * Z * Z) :=
  match o_acc o with Some (PWrite q r d b) => Some (q, r, d, b) | _ => None end.
Definition acc_ar (o : qobs) : option (Z * Z) :=
  match o_acc o with Some (PRead q r) => Some (q, r) | _ => None end.
Definition acc_rq (o : qobs) : option (Z * Z) :=
  match o_acc o with Some (PReq q tag) => Some (q, tag) | _ => None end.

(** Events raised for queue [q]. *)
Definition raised (q : Z) (es : list qev) : list Z :=
  flat_map (fun e => match e with
     | EvFin q' _ (Some ev) => if q' =? q then [ev] else []
     | EvWrite q' _ _ _ (Some ev) => if q' =? q then [ev] else []
     | _ => [] end) es.
Definition from_queue (q : Z) (l : list (Z * Z)) : list Z :=
  flat_map (fun p => if snd p =? q then [fst p] else []) l.

(** * Histories *)

Definition view1 (f : Z -> squeue) (e : qev) : Z -> squeue :=
  match e with
  | EvWrite q reg data strb _ => zupd f q (s_write (f q) reg data strb)
  | EvFin q p _ => zupd f q (s_fin (f q) p)
  | _ => f
  end.
Definition view (es : list qev) : Z -> squeue := fold_left view1 es (fun _ => sq0).

Definition is_handed (q : Z) (e : qev) : bool :=
  match e with EvReq r => ok_resp r && (rs_queue r =? q) | _ => false end.
Definition is_retired (q : Z) (e : qev) : bool :=
  match e with EvFin q' _ _ => q' =? q | _ => false end.
Definition handed (q : Z) (es : list qev) : nat := length (filter (is_handed q) es).
Definition retired (q : Z) (es : list qev) : nat := length (filter (is_retired q) es).

(** Writes to [q] that (can) move the producer pointer or the size. *)
Definition cfg_write (q : Z) (e : qev) : Prop :=
  match e with
  | EvWrite q' reg data _ _ => q' = q /\ (decode reg data = CProd \/ decode reg data = CSize)
  | _ => False
  end.
Definition no_cfg_write (q : Z) (es : list qev) : Prop := Forall (fun e => ~ cfg_write q e) es.

(** Records consumed by software: the sum of the 16-bit consumer pointer
    increments, starting from pointer [p]. *)
Fixpoint consumed (q p : Z) (es : list qev) : Z :=
  match es with
  | [] => 0
  | EvWrite q' reg data _ _ :: t =>
      match decode reg data with
      | CCons | CConsArm =>
          if q' =? q then (data - p) mod 2 ^ 16 + consumed q (data mod 2 ^ 16) t
          else consumed q p t
      | _ => consumed q p t
      end
  | _ :: t => consumed q p t
  end.

Definition all_handed (es : list qev) : list (Z * Z) :=
  flat_map (fun e => match e with
     | EvReq r => if ok_resp r then [(rs_queue r, (rs_ptr r + 1) mod 2 ^ 16)] else []
     | _ => [] end) es.
Definition all_retired (es : list qev) : list (Z * Z) :=
  flat_map (fun e => match e with EvFin q p _ => [(q, p)] | _ => [] end) es.

Definition commits (tag : Z) (es : list qev) : Z :=
  Z.of_nat (length (filter (fun e => match e with EvCommit t => t =? tag | _ => false end) es)).
Definition committed (N : Z) (es : list qev) (i : nat) : Prop :=
  Z.of_nat i / N < commits (Z.of_nat i mod N) es.

(** Start of a window of operation of [q] with first index [h0]: reset, or a
    producer pointer write to the disabled queue with nothing outstanding. *)
Definition window_start (q : Z) (es1 : list qev) (h0 : Z) : Prop :=
  (es1 = [] /\ h0 = 0) \/
  exists es0 reg data strb ev, es1 = es0 ++ [EvWrite q reg data strb ev] /\
    decode reg data = CProd /\ s_en (view es0 q) = false /\
    handed q es0 = retired q es0 /\ h0 = data mod 2 ^ 16.

Definition disables (q : Z) (e : qev) : Prop :=
  match e with
  | EvWrite q' reg data _ _ => q' = q /\ decode reg data = CEnable /\ Z.odd data = false
  | _ => False
  end.

(** Arming writes, and writes that touch the armed flag at all. *)
Definition arms (q : Z) (e : qev) : bool :=
  match e with
  | EvWrite q' reg data _ _ =>
      (q' =? q) && match decode reg data with CConsArm => true | CArm => Z.odd data | _ => false end
  | _ => false
  end.
Definition arm_write (q : Z) (e : qev) : Prop :=
  match e with
  | EvWrite q' reg data _ _ => q' = q /\ (decode reg data = CConsArm \/ decode reg data = CArm)
  | _ => False
  end.

(** No register access, and the event sink ready. *)
Definition quiet (i : qin) : Prop := i_aw i = None /\ i_ar i = None /\ i_evready i = true.
