(** Vocabulary for the receive hash. *)
From Verif Require Import Base.Prelude Nic.RxHash_model.
Local Open Scope Z_scope.

(** The bytes of a frame on a bus of [k] lanes, by position. *)
Definition lanes (k : nat) (f : list hbeat) : list Z :=
  concat (map (fun b => map (hb_data b) (seq 0 k)) f).

(** Complete frames of a stream, and the frame in progress at its end. *)
Fixpoint frames_from (cur : list hbeat) (is : list (option hbeat)) : list (list hbeat) * list hbeat :=
  match is with
  | [] => ([], cur)
  | None :: t => frames_from cur t
  | Some b :: t =>
      if hb_last b then let '(fs, r) := frames_from [] t in ((cur ++ [b]) :: fs, r)
      else frames_from (cur ++ [b]) t
  end.

(** Most significant bit first. *)
Definition bits_msb (n : nat) (x : Z) : list bool := map (fun i => Z.testbit x (Z.of_nat (n - 1 - i))) (seq 0 n).
Definition of_msb (l : list bool) : Z := fold_left (fun a (b : bool) => 2 * a + Z.b2z b) l 0.

(** Toeplitz hash: for every set bit of the input, the 32 key bits starting at
    that bit's position, combined by exclusive or. *)
Fixpoint toeplitz (key : list bool) (input : list bool) : Z :=
  match input with
  | [] => 0
  | b :: t => Z.lxor (if b then of_msb (firstn 32 key) else 0) (toeplitz (tl key) t)
  end.
Definition toeplitz_hash (key : Z) (octs : list Z) : Z :=
  toeplitz (bits_msb 320 key) (concat (map (bits_msb 8) octs)).

Definition ethertype (l : list Z) : Z := nth 12 l 0 * 256 + nth 13 l 0.
Definition slice (l : list Z) (a b : nat) : list Z := firstn (b - a) (skipn a l).

(** Transport headers directly after a 20-byte IPv4 header. *)
Definition is_tcp (l : list Z) : bool := (nth 23 l 0 =? 6) && (nth 14 l 0 mod 16 =? 5).
Definition is_udp (l : list Z) : bool := (nth 23 l 0 =? 17) && (nth 14 l 0 mod 16 =? 5).

(** What the unit should report for a frame with bytes [l]: the type word (bit 0
    IPv4, bit 2 TCP, bit 3 UDP) and the hash; frames cut short inside the
    headers have type 0 and an unspecified hash. *)
Definition hash_ok (key : Z) (l : list Z) (o : Z * Z) : Prop :=
  let n := length l in
  if (n <=? 13)%nat then o = (0, 0)
  else if ethertype l =? 0x0800 then
    if (n <=? 33)%nat then fst o = 0
    else if is_tcp l || is_udp l then
      if (n <=? 37)%nat then fst o = 0
      else o = ((if is_udp l then 8 else 4) + 1, toeplitz_hash key (slice l 26 38))
    else o = (1, toeplitz_hash key (slice l 26 34))
  else o = (0, 0).

(** IPv6 frames of more beats than the beat counter can count are excluded. *)
Definition short_ipv6 (k : nat) (f : list hbeat) : Prop :=
  (13 < length (lanes k f))%nat -> ethertype (lanes k f) = 0x86dd -> (length f <= rh_ptrs k)%nat.

Definition somes {A} (l : list (option A)) : list A :=
  concat (map (fun o => match o with Some x => [x] | None => [] end) l).
