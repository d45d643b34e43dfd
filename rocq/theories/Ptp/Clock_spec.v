(** Vocabulary for the PTP clock, over observed cycles. *)
From Verif Require Import Base.Prelude Ptp.Clock_model.
Local Open Scope Z_scope.

Notation pcycle := (bool * pin * pout)%type.

Definition observe (c : pcfg) (xs : list (bool * pin)) : list pcycle :=
  combine xs (snd (trace (p_step c) (p_init c) xs)).
Definition observe_pipelined (c : pcfg) (n : nat) (xs : list (bool * pin)) : list pcycle :=
  combine xs (snd (trace (pp_step c) (pp_init c n) xs)).

(** ** The increment of one cycle, from what happened before it *)
(** The period, adjustment and drift in effect: the latest given since reset. *)
Definition period_at (c : pcfg) (h : list pcycle) : Z :=
  fold_left (fun p (x : pcycle) => if fst (fst x) then p_period c else match i_period (snd (fst x)) with Some v => v | None => p end) h (p_period c).
Definition adj_at (h : list pcycle) : Z :=
  fold_left (fun p (x : pcycle) => if fst (fst x) then 0 else match i_adj (snd (fst x)) with Some (v, _) => v | None => p end) h 0.
Definition drift_at (c : pcfg) (h : list pcycle) : Z * Z :=
  fold_left (fun p (x : pcycle) => if fst (fst x) then (p_drift c, p_rate c) else
    match i_drift (snd (fst x)) with Some v => if p_den c then v else p | None => p end) h (p_drift c, p_rate c).
(** The cycles until the drift is applied again: counts down from the rate. *)
Fixpoint drift_wait (c : pcfg) (rh : list pcycle) : Z :=
  match rh with
  | [] => 0
  | x :: t => if fst (fst x) then 0 else if drift_wait c t =? 0 then (snd (drift_at c (rev t)) - 1) mod 65536 else drift_wait c t - 1
  end.
Definition drift_on (c : pcfg) (h : list pcycle) : bool := p_den c && (drift_wait c (rev h) =? 0).

(** Two's complement. *)
Definition twos (w v : Z) : Z := if v <? 2 ^ (w - 1) then v else v - 2 ^ w.
(** Period, plus the offset adjustment while it is active, plus the drift. *)
Definition rate_of (c : pcfg) (h : list pcycle) (x : pcycle) : Z :=
  period_at c h + (if o_active (snd x) then twos (p_ow c + p_f c) (adj_at h) else 0)
  + (if drift_on c h then twos (p_dw c + p_f c) (fst (drift_at c h)) else 0).
Definition inc_of (c : pcfg) (h : list pcycle) (x : pcycle) : Z := rate_of c h x mod 2 ^ inc_width c.

(** The increments of all cycles, in order. *)
Fixpoint incs_r (c : pcfg) (rh : list pcycle) : list Z :=
  match rh with [] => [] | x :: t => incs_r c t ++ [inc_of c (rev t) x] end.
Definition incs (c : pcfg) (h : list pcycle) : list Z := incs_r c (rev h).
Definition total (l : list Z) : Z := fold_right Z.add 0 l.

(** ** Times *)
Definition second (c : pcfg) : Z := 1000000000 * 2 ^ p_f c.
(** The time of an output, in units of 2^-16 ns. *)
Definition time96 (o : pout) : Z := (o_s o * 1000000000 + o_ns o) * 65536 + o_fns o.
(** [t] is in units of 2^-FNS_WIDTH ns; what 16 bits of fraction show of it. *)
Definition shown (c : pcfg) (t : Z) : Z := t * 65536 / 2 ^ p_f c.

(** The time a cycle sets, if it does: reset sets zero. *)
Definition set96 (c : pcfg) (x : bool * pin) : option Z :=
  if fst x then Some 0 else match i_96 (snd x) with
    | Some (s, ns, f) => Some ((s * 1000000000 + ns) * 2 ^ p_f c + f * 2 ^ p_f c / 65536) | None => None end.
Definition set64 (c : pcfg) (x : bool * pin) : option Z :=
  if fst x then Some 0 else match i_64 (snd x) with Some v => Some (v mod 2 ^ (48 + p_f c)) | None => None end.

(** Register values fit their registers; times given are normalised. *)
Definition in_ok (c : pcfg) (x : bool * pin) : Prop :=
  (forall s ns f, i_96 (snd x) = Some (s, ns, f) -> 0 <= s < 2 ^ 48 /\ 0 <= ns < 1000000000 /\ 0 <= f < 65536) /\
  (forall v, i_64 (snd x) = Some v -> 0 <= v < 2 ^ 64) /\
  (forall v, i_period (snd x) = Some v -> 0 <= v < 2 ^ (p_pw c + p_f c)) /\
  (forall v n, i_adj (snd x) = Some (v, n) -> 0 <= v < 2 ^ (p_ow c + p_f c) /\ 0 <= n < 65536) /\
  (forall v r, i_drift (snd x) = Some (v, r) -> 0 <= v < 2 ^ (p_dw c + p_f c) /\ 0 <= r < 65536).
(** At most 28 bits of increment: 2^28 ns is over a quarter of a second. *)
Definition cfg_ok (c : pcfg) : Prop :=
  0 < p_pw c /\ 0 < p_ow c /\ 0 < p_dw c /\ 0 < p_f c /\ inc_ns_width c <= 28 /\
  0 <= p_period c < 2 ^ (p_pw c + p_f c) /\ 0 <= p_drift c < 2 ^ (p_dw c + p_f c) /\ 0 <= p_rate c < 65536.

(** The 96-bit time takes up increments two cycles later than they are computed. *)
Definition lagged (c : pcfg) (h : list pcycle) : list Z := 0 :: 0 :: incs c h.
(** The 96-bit time wraps after 2^48 seconds. *)
Definition epoch (c : pcfg) : Z := 2 ^ 48 * second c.
