(** Vocabulary for the statistics counter memory, over observed cycles. *)
From Verif Require Import Base.Prelude Nic.StatsCounter_model.
Local Open Scope Z_scope.

Notation ccycle := (bool * scin * scout)%type.

Definition observe (c : sccfg) (xs : list (bool * scin)) : list ccycle :=
  combine xs (snd (trace (sc_step c) (sc_init c) xs)).

(** The cycles since the last reset. *)
Definition live (h : list ccycle) : list ccycle :=
  fold_left (fun acc (x : ccycle) => if fst (fst x) then [] else acc ++ [x]) h [].

(** Sum of the increments of a counter accepted in some cycles. *)
Definition added (id : Z) (h : list ccycle) : Z :=
  fold_left (fun acc (x : ccycle) => let '(_, i, o) := x in
    acc + match si_stat i with Some (id', n) => if so_tready o && (id' =? id) then n else 0 | None => 0 end) h 0.

(** The value a read of address [a] accepted in cycle [t] of [l] returns: word
    [sel] of the counter, counting everything accepted more than PIPELINE cycles
    before and nothing after that. *)
Definition counter_of (c : sccfg) (a : Z) : Z := (a / 2 ^ id_shift c) mod 2 ^ sc_d c.
Definition word_of (c : sccfg) (a count : Z) : Z :=
  if sc_a c <? sc_w c
  then (count / 2 ^ (sc_a c * ((a / 2 ^ sel_shift c) mod 2 ^ sel_width c))) mod 2 ^ sc_a c
  else count.
Definition value_at (c : sccfg) (l : list ccycle) (t : nat) (a : Z) : Z :=
  word_of c a (added (counter_of c a) (firstn (t - sc_p c) l) mod 2 ^ sc_w c).

(** Reads accepted, with the value each should return; values returned. *)
Definition wanted (c : sccfg) (l : list ccycle) : list Z :=
  concat (map (fun t => match nth_error l t with
                        | Some (_, i, o) => match si_ar i with Some a => if so_arready o then [value_at c l t a] else [] | None => [] end
                        | None => [] end) (seq 0 (length l))).
Definition returned (l : list ccycle) : list Z :=
  concat (map (fun x : ccycle => let '(_, i, o) := x in if so_rvalid o && si_rready i then [so_rdata o] else []) l).

(** The masters hold what they offer until it is taken. *)
Definition held (x y : ccycle) : Prop :=
  let '(rst, i, o) := x in let '(_, i', _) := y in
  rst = false ->
  (si_stat i <> None -> so_tready o = false -> si_stat i' = si_stat i) /\
  (si_ar i <> None -> so_arready o = false -> si_ar i' = si_ar i).
Definition polite (h : list ccycle) : Prop := forall p x y q, h = p ++ x :: y :: q -> held x y.

Definition ids_ok (c : sccfg) (h : list ccycle) : Prop :=
  forall rst i o id n, In (rst, i, o) h -> si_stat i = Some (id, n) -> 0 <= id < 2 ^ sc_d c.
Definition cfg_ok (c : sccfg) : Prop := 0 <= sc_d c /\ 0 < sc_w c /\ 0 < sc_a c /\ (2 <= sc_p c)%nat.

(** The addresses of the reads accepted. *)
Definition read_addrs (l : list ccycle) : list Z :=
  concat (map (fun x : ccycle => let '(_, i, o) := x in match si_ar i with Some a => if so_arready o then [a] else [] | None => [] end) l).
