(** Consistent overhead byte stuffing, as defined by Cheshire and Baker, and frames on a
    byte stream.  Nothing here mentions the registers of the modules. *)
From Verif Require Import Base.Prelude Rtl.Handshake_spec Stream.Cobs_model.
Local Open Scope Z_scope.

Definition byte (b : Z) : Prop := 0 <= b < 256.
Definition nonzero (b : Z) : Prop := 0 < b < 256.

(** [is_cobs f e]: [e] is the stuffing of [f].  A group is a code [n] and [n-1] nonzero
    bytes; it stands for those bytes and a zero, without the zero if it is the last or
    its code is 255. *)
Inductive is_cobs : list Z -> list Z -> Prop :=
| cobs_last g : Forall nonzero g -> (length g <= 254)%nat -> is_cobs g (Z.of_nat (length g) + 1 :: g)
| cobs_zero g f e : Forall nonzero g -> (length g <= 253)%nat -> is_cobs f e ->
    is_cobs (g ++ 0 :: f) (Z.of_nat (length g) + 1 :: g ++ e)
| cobs_full g f e : Forall nonzero g -> length g = 254%nat -> f <> [] -> is_cobs f e ->
    is_cobs (g ++ f) (255 :: g ++ e).

(** A frame: its bytes and whether the source marked it as bad (tuser in its last beat). *)
Record frame := mkFrame { f_bytes : list Z; f_bad : bool }.
Definition frame_ok (f : frame) : Prop := f_bytes f <> [] /\ Forall byte (f_bytes f).

(** The beats of a frame on a stream: tlast in the last one only; tuser counts in that
    one only. *)
Definition frame_on (f : frame) (bs : list cb) : Prop :=
  exists pre l, bs = pre ++ [l] /\ map c_d bs = f_bytes f /\ Forall (fun b => c_l b = false) pre /\
    c_l l = true /\ c_u l = f_bad f.

(** Beats that are not last and not in error. *)
Definition plain (b : Z) : cb := mkCb b false false.
Definition lastb (b : Z) : cb := mkCb b true false.

(** A good frame on the encoded side, with or without the delimiter. *)
Definition coded_good (app : bool) (f : list Z) (bs : list cb) : Prop :=
  exists e, is_cobs f e /\
    if app then bs = map plain e ++ [lastb 0]
    else exists p x, e = p ++ [x] /\ bs = map plain p ++ [lastb x].
(** A bad frame: a code that announces a byte, which is not there. *)
Definition coded_bad (app : bool) (f : list Z) (bs : list cb) : Prop :=
  exists p x e, f = p ++ [x] /\ is_cobs (p ++ [0]) (e ++ [1]) /\
    if app then bs = map plain e ++ [plain 2; mkCb 0 true true] else bs = map plain e ++ [mkCb 2 true true].
Definition coded (app : bool) (f : frame) (bs : list cb) : Prop :=
  if f_bad f then coded_bad app (f_bytes f) bs else coded_good app (f_bytes f) bs.

(** What the decoder may be given for a frame: any number of zero bytes, then the
    stuffed bytes either with a zero after them or with tlast on the last one.  tlast
    and tuser of the padding and tlast of the delimiter do not matter. *)
Definition sent_good (f : list Z) (bs : list cb) : Prop :=
  exists pad e, Forall (fun b => c_d b = 0) pad /\ is_cobs f e /\
    ((exists l, bs = pad ++ map plain e ++ [mkCb 0 l false]) \/
     (exists p x, e = p ++ [x] /\ bs = pad ++ map plain p ++ [lastb x])).
Definition sent_cut (f : list Z) (bs : list cb) : Prop :=
  exists pad p x e, Forall (fun b => c_d b = 0) pad /\ f = p ++ [x] /\ is_cobs (p ++ [0]) (e ++ [1]) /\
    ((exists l u, bs = pad ++ map plain e ++ [plain 2; mkCb 0 l u]) \/ (bs = pad ++ map plain e ++ [mkCb 2 true true])).
(** A stuffed frame whose last byte the link marked as error. *)
Definition sent_marked (f : list Z) (bs : list cb) : Prop :=
  exists pad e, Forall (fun b => c_d b = 0) pad /\ is_cobs f e /\
    ((exists l, bs = pad ++ map plain e ++ [mkCb 0 l true]) \/
     (exists p x, e = p ++ [x] /\ bs = pad ++ map plain p ++ [mkCb x true true])).
Definition sent_bad (f : list Z) (bs : list cb) : Prop := sent_cut f bs \/ sent_marked f bs.
Definition sent_as (f : frame) (bs : list cb) : Prop :=
  if f_bad f then sent_bad (f_bytes f) bs else sent_good (f_bytes f) bs.

(** The frame as it should come out: a good one unchanged; of a bad one a beginning and
    then a byte marked as error. *)
Definition comes_out (f : frame) (bs : list cb) : Prop :=
  if f_bad f then exists p q x, f_bytes f = p ++ q /\ q <> [] /\ bs = map plain p ++ [mkCb x true true]
  else exists p x, f_bytes f = p ++ [x] /\ bs = map plain p ++ [lastb x].

Definition prefix {A} (a b : list A) : Prop := exists c, b = a ++ c.

(** Bytes handed over on each side of a run. *)
Definition went_in (is : list cin) (os : list cout) : list cb :=
  somes (map (fun p => if co_sready (snd p) then ci_s (fst p) else None) (combine is os)).
Definition went_out (is : list cin) (os : list cout) : list cb :=
  somes (map (fun p => if ci_mready (fst p) then co_m (snd p) else None) (combine is os)).
Definition no_reset (is : list cin) : Prop := Forall (fun i => ci_rst i = false) is.
Definition sink_ready (is : list cin) : Prop := Forall (fun i => ci_mready i = true) is.
Definition source_quiet (is : list cin) : Prop := Forall (fun i => ci_s i = None) is.
(** The source offers a byte in every cycle. *)
Definition source_busy (is : list cin) : Prop := Forall (fun i => ci_s i <> None) is.

(** States a run may start from: power-on, or the cycle after a reset. *)
Inductive e_started (app : bool) : enc -> Prop :=
| e_on m1 m2 m3 m4 : e_started app (e_init m1 m2 m3 m4)
| e_rst m1 m2 m3 m4 pre i : ci_rst i = true ->
    e_started app (fst (trace (e_step app) (e_init m1 m2 m3 m4) (pre ++ [i]))).
Inductive d_started : dec -> Prop :=
| d_on : d_started d_init
| d_rst pre i : ci_rst i = true -> d_started (fst (trace d_step d_init (pre ++ [i]))).

Definition e_outs (app : bool) (s : enc) (is : list cin) : list cout := snd (trace (e_step app) s is).
Definition d_outs (s : dec) (is : list cin) : list cout := snd (trace d_step s is).

(** The encodings the published definition also allows: a group of 254 bytes at the end
    may be followed by an empty group. *)
Inductive is_cobs_loose : list Z -> list Z -> Prop :=
| loose_strict f e : is_cobs f e -> is_cobs_loose f e
| loose_zero g f e : Forall nonzero g -> (length g <= 253)%nat -> is_cobs_loose f e ->
    is_cobs_loose (g ++ 0 :: f) (Z.of_nat (length g) + 1 :: g ++ e)
| loose_full g f e : Forall nonzero g -> length g = 254%nat -> is_cobs_loose f e ->
    is_cobs_loose (g ++ f) (255 :: g ++ e).

(** A link between the two modules: everything unchanged, or the bytes only. *)
Definition carried (strip : bool) (l : list cb) : list cb := if strip then map (fun b => plain (c_d b)) l else l.

(** Bytes all in range. *)
Definition all_bytes (l : list cb) : Prop := Forall (fun b => byte (c_d b)) l.
