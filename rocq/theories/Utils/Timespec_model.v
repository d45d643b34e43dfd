(** utils/timespec.c, and the start time computed by utils/perout.c.

    [long] has 64 bits; a result outside its range is an overflow, which makes
    the function [None].  Loops take a bound on their number of iterations and
    are [None] when it is exceeded; the theorems hold for every large enough
    bound.  The conversions from and to [double] are not modelled. *)
From Verif Require Import Base.Prelude.
Local Open Scope Z_scope.

Definition LONG_MAX : Z := 2 ^ 63 - 1.
Definition lng (x : Z) : option Z := if (- 2 ^ 63 <=? x) && (x <=? LONG_MAX) then Some x else None.
Notation "'do!' x <- a ; b" := (match a with Some x => b | None => None end)
  (at level 200, x pattern, a at level 100, b at level 200).

(** timespec.c:65. *)
Definition NSEC : Z := 1000000000.

(** struct timespec: tv_sec, tv_nsec. *)
Record ts := mkTs { sec : Z; nsec : Z }.

Fixpoint loop (fuel : nat) (cond : ts -> bool) (body : ts -> option ts) (t : ts) : option ts :=
  if cond t then
    match fuel with
    | O => None
    | S n => do! t' <- body t; loop n cond body t'
    end
  else Some t.

(** timespec.c:319-353. *)
Definition normalise (fuel : nat) (t : ts) : option ts :=
  do! t <- loop fuel (fun t => NSEC <=? nsec t)
             (fun t => do! s <- lng (sec t + 1); do! n <- lng (nsec t - NSEC); Some (mkTs s n)) t;
  do! t <- loop fuel (fun t => nsec t <=? - NSEC)
             (fun t => do! s <- lng (sec t - 1); do! n <- lng (nsec t + NSEC); Some (mkTs s n)) t;
  if (nsec t <? 0) && (0 <? sec t) then
    do! s <- lng (sec t - 1); do! m <- lng (-1 * nsec t); do! n <- lng (NSEC - m); Some (mkTs s n)
  else if (0 <? nsec t) && (sec t <? 0) then
    do! s <- lng (sec t + 1); do! m <- lng (-1 * nsec t); do! n <- lng (- NSEC - m); Some (mkTs s n)
  else Some t.

(** timespec.c:70-82. *)
Definition add (fuel : nat) (t1 t2 : ts) : option ts :=
  do! t1 <- normalise fuel t1; do! t2 <- normalise fuel t2;
  do! s <- lng (sec t1 + sec t2); do! n <- lng (nsec t1 + nsec t2);
  normalise fuel (mkTs s n).

(** timespec.c:87-99. *)
Definition sub (fuel : nat) (t1 t2 : ts) : option ts :=
  do! t1 <- normalise fuel t1; do! t2 <- normalise fuel t2;
  do! s <- lng (sec t1 - sec t2); do! n <- lng (nsec t1 - nsec t2);
  normalise fuel (mkTs s n).

(** timespec.c:197-232. *)
Definition ts_eq (t1 t2 : ts) : bool := (sec t1 =? sec t2) && (nsec t1 =? nsec t2).
Definition ts_gt (t1 t2 : ts) : bool := (sec t2 <? sec t1) || ((sec t1 =? sec t2) && (nsec t2 <? nsec t1)).
Definition ts_ge (t1 t2 : ts) : bool := (sec t2 <? sec t1) || ((sec t1 =? sec t2) && (nsec t2 <=? nsec t1)).
Definition ts_lt (t1 t2 : ts) : bool := (sec t1 <? sec t2) || ((sec t1 =? sec t2) && (nsec t1 <? nsec t2)).
Definition ts_le (t1 t2 : ts) : bool := (sec t1 <? sec t2) || ((sec t1 =? sec t2) && (nsec t1 <=? nsec t2)).

(** timespec.c:123-136, 185-189: change of sign. *)
Definition negate (t : ts) : option ts := do! s <- lng (- sec t); do! n <- lng (- nsec t); Some (mkTs s n).

(** timespec.c:139-151: doubling; the shift count and ts2. *)
Fixpoint shift_up (fuel : nat) (t1 t2 : ts) (i : nat) : option (nat * ts) :=
  if (sec t2 <? Z.shiftr LONG_MAX 1) && ts_ge t1 t2 then
    match fuel with
    | O => None
    | S m =>
        do! n <- lng (2 * nsec t2); do! s <- lng (2 * sec t2);
        if NSEC <? n then
          do! n <- lng (n - NSEC); do! s <- lng (s + 1); shift_up m t1 (mkTs s n) (S i)
        else shift_up m t1 (mkTs s n) (S i)
    end
  else Some (i, t2).

(** timespec.c:153-174: subtraction and halving, [i] shifts to go. *)
Fixpoint shift_down (fuel : nat) (i : nat) (t1 t2 : ts) : option (ts * ts) :=
  do! t1 <- (if ts_ge t1 t2 then sub fuel t1 t2 else Some t1);
  match i with
  | O => Some (t1, t2)
  | S j =>
      do! n <- (if Z.odd (sec t2) then lng (nsec t2 + NSEC) else Some (nsec t2));
      shift_down fuel j t1 (mkTs (Z.shiftr (sec t2) 1) (Z.shiftr n 1))
  end.

(** timespec.c:104-192. *)
Definition ts_mod (fuel : nat) (t1 t2 : ts) : option ts :=
  do! t1 <- normalise fuel t1; do! t2 <- normalise fuel t2;
  if (sec t2 =? 0) && (nsec t2 =? 0) then Some t1
  else
    let neg1 := (sec t1 <? 0) || (nsec t1 <? 0) in
    let neg2 := (sec t2 <? 0) || (nsec t2 <? 0) in
    do! t1 <- (if neg1 then negate t1 else Some t1);
    do! t2 <- (if neg2 then negate t2 else Some t2);
    do! (i, t2) <- shift_up fuel t1 t2 0;
    do! (t1, t2) <- shift_down fuel i t1 t2;
    do! t1 <- (if xorb neg1 neg2 && (negb (sec t1 =? 0) || negb (nsec t1 =? 0)) then sub fuel t1 t2 else Some t1);
    if neg1 then negate t1 else Some t1.

(** timespec.c:286-302: milliseconds. *)
Definition from_ms (fuel : nat) (ms : Z) : option ts :=
  do! n <- lng (Z.rem ms 1000 * 1000000); normalise fuel (mkTs (Z.quot ms 1000) n).
Definition to_ms (t : ts) : option Z :=
  do! a <- lng (sec t * 1000); lng (a + Z.quot (nsec t) 1000000).

(** timespec.c:258-281: struct timeval, seconds and microseconds. *)
Definition from_timeval (fuel : nat) (s us : Z) : option ts :=
  do! n <- lng (us * 1000); normalise fuel (mkTs s n).
Definition to_timeval (fuel : nat) (t : ts) : option (Z * Z) :=
  do! t <- normalise fuel t; Some (sec t, Z.quot (nsec t) 1000).

(** perout.c:118-141: the start time requested, from the current time and the
    start and period given in nanoseconds. *)
Definition perout_start (fuel : nat) (now : ts) (start_nsec period_nsec : Z) : option (ts * ts) :=
  let split v := let s := Z.quot v NSEC in mkTs s (v - s * NSEC) in
  let start := split start_nsec in
  let period := split period_nsec in
  if ts_lt start now then
    do! start <- ts_mod fuel start period;
    do! m <- ts_mod fuel now period;
    do! aligned <- sub fuel now m;
    do! start <- add fuel start aligned;
    Some (start, period)
  else Some (start, period).
