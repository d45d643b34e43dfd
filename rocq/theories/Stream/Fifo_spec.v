(** What an observer of the stream FIFO sees: beats handed over on each side, frames,
    the status pulses.  Nothing here mentions the FIFO's registers. *)
From Verif Require Import Base.Prelude Rtl.Handshake_spec Stream.Axis_model Stream.Axis_spec
  Stream.Fifo_model.

(** The stream interface part of the inputs and outputs. *)
Definition sin_of (i : fin) : sin :=
  mkSin (x_rst i) (if x_v i then Some (x_b i) else None) (x_mready i).
Definition sout_of (o : fout) : sout := mkSout (y_sready o) (y_m o).

Definition got (is : list fin) (os : list fout) : list beat :=
  accepted (map sin_of is) (map sout_of os).
Definition sent (is : list fin) (os : list fout) : list beat :=
  delivered (map sin_of is) (map sout_of os).

Definition no_reset (is : list fin) : Prop := Forall (fun i => x_rst i = false) is.
(** Sink ready in every cycle and no pause requested. *)
Definition sinking (is : list fin) : Prop :=
  Forall (fun i => x_mready i = true /\ x_preq i = false) is.
(** The source offers nothing. *)
Definition silent (is : list fin) : Prop := Forall (fun i => x_v i = false) is.
(** The source offers the same beat in every cycle. *)
Definition offering (b : beat) (is : list fin) : Prop :=
  Forall (fun i => x_v i = true /\ x_b i = b) is.

(** The states a run may start from: power-on, or the cycle after a reset, whatever
    happened before. *)
Inductive started (c : fcfg) : fifo -> Prop :=
| started_on mem qmem : started c (f_init c mem qmem)
| started_rst mem qmem pre i :
    x_rst i = true -> started c (fst (f_trace c (f_init c mem qmem) (pre ++ [i]))).

(** A run: [os] are the outputs of the cycles with inputs [is]. *)
Definition outs (c : fcfg) (s : fifo) (is : list fin) : list fout := snd (f_trace c s is).
Definition after (c : fcfg) (s : fifo) (is : list fin) : fifo := fst (f_trace c s is).

(** Beats inside at most: the memory, the read pipeline, and the output FIFO with its
    output register. *)
Definition room (c : fcfg) : nat :=
  (2 ^ f_aw c + (f_pipe c + 1) + (if f_ofifo c then 2 ^ ofaw c + 1 else 0))%nat.

(** A frame: its last beat, and only that one, has tlast set. *)
Definition is_frame (f : list beat) : Prop :=
  exists a z, f = a ++ [z] /\ tlast z = true /\ Forall (fun b => tlast b = false) a.

(** What became of a frame, as reported by the status outputs. *)
Inductive fate := Good | Bad | Over.

(** The status pulse shown in a cycle: exactly one of the three outputs is high. *)
Definition pulse (o : fout) : option fate :=
  match y_ovf o, y_bad o, y_good o with
  | true, false, false => Some Over
  | false, true, false => Some Bad
  | false, false, true => Some Good
  | _, _, _ => None
  end.
Definition pulses (os : list fout) : list fate := somes (map pulse os).
(** No two status outputs high in one cycle. *)
Definition one_pulse (o : fout) : Prop :=
  ~ (y_ovf o = true /\ y_bad o = true) /\ ~ (y_ovf o = true /\ y_good o = true) /\
  ~ (y_bad o = true /\ y_good o = true).

(** The user signal marks a frame bad when some bit selected by the mask equals the
    same bit of the bad frame value. *)
Definition marked_bad (c : fcfg) (b : beat) : Prop :=
  exists n, (0 <= n)%Z /\ Z.testbit (f_badm c) n = true /\
            Z.testbit (tuser b) n = Z.testbit (f_badv c) n.

(** The frames with a given fate. *)
Definition with_fate (t : fate) (fs : list (list beat * fate)) : list (list beat) :=
  map fst (filter (fun p => match snd p, t with
                            | Good, Good | Bad, Bad | Over, Over => true
                            | _, _ => false end) fs).

(** Why a frame got its fate: a frame reported good or bad fits the memory, and bad
    means the user signal of its last beat says so; overflow means longer than the
    memory, or (DROP_WHEN_FULL) that the memory was seen full. *)
Definition justified (c : fcfg) (os : list fout) (p : list beat * fate) : Prop :=
  match snd p with
  | Good => length (fst p) <= 2 ^ f_aw c /\
            (f_drop_bad c = true -> forall a z, fst p = a ++ [z] -> ~ marked_bad c z)
  | Bad => length (fst p) <= 2 ^ f_aw c /\ f_drop_bad c = true /\
           forall a z, fst p = a ++ [z] -> marked_bad c z
  | Over => 2 ^ f_aw c < length (fst p) \/
            (f_drop_full c = true /\ exists o, In o os /\ y_depth o = Z.of_nat (2 ^ f_aw c))
  end.

(** Once a beat that is not the last of its frame has been handed over, the next one is
    offered in the very next cycle. *)
Definition no_gap (is : list fin) (os : list fout) : Prop :=
  forall t i o b, nth_error is t = Some i -> nth_error os t = Some o ->
    x_mready i = true -> y_m o = Some b -> tlast b = false ->
    forall o', nth_error os (S t) = Some o' -> y_m o' <> None.

(** MARK_WHEN_FULL: what became of a frame.  [Cut n z]: the first [n] beats came out,
    terminated by [z]; [CutOpen n]: the same with the terminator still to come;
    [Lost]: nothing of it came out. *)
Inductive mfate := Kept | Cut (n : nat) (z : beat) | CutOpen (n : nat) | Lost.
Definition mout (p : list beat * mfate) : list beat :=
  match snd p with
  | Kept => fst p
  | Cut n z => firstn n (fst p) ++ [z]
  | CutOpen n => firstn n (fst p)
  | Lost => []
  end.
(** A cut frame comes out as a proper, non-empty prefix and a final beat that carries
    the bad frame value. *)
Definition mok (c : fcfg) (p : list beat * mfate) : Prop :=
  match snd p with
  | Cut n z => 0 < n < length (fst p) /\ tlast z = true /\ tuser z = f_badv c
  | CutOpen n => 0 < n < length (fst p)
  | _ => True
  end.
Definition is_kept (p : list beat * mfate) : bool := match snd p with Kept => true | _ => false end.
Definition closed (fs : list (list beat * mfate)) : Prop :=
  Forall (fun p => match snd p with CutOpen _ => False | _ => True end) fs.
(** One frame waits for its terminator, and every later one was lost. *)
Definition open_tail (fs : list (list beat * mfate)) : Prop :=
  exists a f n b, fs = a ++ (f, CutOpen n) :: b /\ closed a /\ Forall (fun p => snd p = Lost) b.

(** The beats handed over so far end inside a frame. *)
Definition mid_frame (l : list beat) : Prop := exists a z, l = a ++ [z] /\ tlast z = false.

(** Cycles within which a ready sink gets everything out. *)
Definition drain_time (c : fcfg) : nat :=
  (2 * (1 + 2 * 2 ^ ofaw c + (f_pipe c + 4) * (f_pipe c + 1) + (f_pipe c + 5 + 1) * 2 ^ f_aw c) + 1)%nat.
