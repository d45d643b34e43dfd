(** What memory transactions must achieve, independent of how packets are cut. *)
From Verif Require Import Base.Prelude Pcie.Tlp_model Pcie.Tlp_spec Pcie.Mem_model.
Open Scope Z_scope.

(** The bytes [a .. a+n-1] lie in one naturally aligned 4 KiB page. *)
Definition same_page (a n : Z) : Prop := a / 4096 = (a + n - 1) / 4096.

(** A request as the PCIe specification requires it: dword aligned, not crossing
    4 KiB, at most [mx] bytes of payload, first byte enables not empty, last byte
    enables empty exactly for one dword, 64-bit format exactly above 4 GiB, and
    accepted by the simulation model's own check. *)
Definition legal_req (mx : Z) (wr : bool) (t : tlp) : Prop :=
  t_addr t mod 4 = 0 /\ 1 <= t_length t /\ 4 * t_length t <= mx /\
  same_page (t_addr t) (4 * t_length t) /\
  0 < t_first_be t < 16 /\ 0 <= t_last_be t < 16 /\ (t_last_be t = 0 <-> t_length t = 1) /\
  t_type t = 0 /\ has_data t = wr /\ (is_4dw t = true <-> 2 ^ 32 <= t_addr t) /\
  tlp_check t = true.

(** The requests cover the bytes from [a] to [e], each exactly once and in order. *)
Inductive tiles : Z -> list tlp -> Z -> Prop :=
| tiles_nil a : tiles a [] a
| tiles_cons a n t ts e : 1 <= n ->
    (forall b, touches t b = true <-> a <= b < a + n) -> tiles (a + n) ts e ->
    tiles a (t :: ts) e.
(** The write requests carry the byte string [d] to the addresses from [a] on. *)
Inductive carries : Z -> list tlp -> list Z -> Prop :=
| carries_nil a : carries a [] []
| carries_cons a t ts d d' : d <> [] ->
    (forall b, touches t b = true <-> a <= b < a + Z.of_nat (length d)) ->
    (forall i, (i < length d)%nat -> byte_at t (a + Z.of_nat i) = nth i d 0) ->
    carries (a + Z.of_nat (length d)) ts d' ->
    carries a (t :: ts) (d ++ d').

Definition sumz (l : list Z) : Z := fold_right Z.add 0 l.
Definition dwords (cs : list tlp) : Z := sumz (map t_length cs).

(** The completions [cs] answer request [t] with the dword-aligned data [data] (the
    request's whole dwords), completer [id], maximum payload [mx] bytes.
    [lo] is the first byte transferred and [cnt] the number of bytes from there to
    the last one transferred, both relative to the request address. *)
Definition answers (mx : Z) (t : tlp) (id : pid) (lo cnt : Z) (data : list Z) (cs : list tlp) : Prop :=
  cs <> [] /\ dwords cs = t_length t /\ flat_map get_data cs = data /\
  forall pre c post, cs = pre ++ c :: post ->
    let from := 4 * dwords pre in
    let first := Z.max lo from in
    ft c = TLP_CPL_DATA /\ t_status c = 0 /\ t_requester c = t_requester t /\ t_tag c = t_tag t /\
    t_tc c = t_tc t /\ t_attr c = t_attr t /\ t_completer c = id /\
    1 <= t_length c /\ 4 * t_length c <= mx /\ t_length c = Z.of_nat (length (t_data c)) /\
    t_lower c = (t_addr t + first) mod 128 /\
    t_byte_count c = lo + cnt - first /\
    (post <> [] -> (t_addr t + from + 4 * t_length c) mod 128 = 0) /\
    tlp_check c = true.

(** Byte-addressed memory and writing a byte string into it. *)
Definition wr (f : Z -> Z) (a : Z) (d : list Z) (b : Z) : Z :=
  if (a <=? b) && (b <? a + Z.of_nat (length d)) then nth (Z.to_nat (b - a)) d 0 else f b.
(** The byte at index [b] of a bytearray. *)
Definition at_ (mem : list Z) (b : Z) : Z := if 0 <=? b then nth (Z.to_nat b) mem 0 else 0.
(** The byte the host memory holds at address [b]. *)
Definition host_byte (rs : list region) (b : Z) : option Z :=
  match find_region rs b with Some r => nth_error (r_mem r) (Z.to_nat (b - r_base r)) | None => None end.

(** Regions are memories of their size and do not overlap. *)
Definition wf_region (r : region) : Prop := 1 <= r_size r /\ Z.of_nat (length (r_mem r)) = r_size r.
Definition apart (r1 r2 : region) : Prop :=
  forall b, in_region b r1 = true -> in_region b r2 = false.
Definition wf_regions (rs : list region) : Prop := Forall wf_region rs /\ ForallOrdPairs apart rs.

(** A completer for the memory [mem] at [base]: every legal request inside it gets
    completions that answer it, cut in any legal way. *)
Definition completer (mx : Z) (base : Z) (mem : list Z) (resp : tlp -> list tlp) : Prop :=
  forall mrrs t a n, legal_req mrrs false t -> 1 <= n ->
    (forall b, touches t b = true <-> a <= b < a + n) ->
    base <= t_addr t -> t_addr t + 4 * t_length t <= base + Z.of_nat (length mem) ->
    exists id, answers mx t id (a - t_addr t) n
      (slice mem (t_addr t - base) (t_addr t - base + 4 * t_length t)) (resp t).
(** A BAR is aligned to 4 KiB unless it is smaller. *)
Definition page_ok (base : Z) (mem : list Z) : Prop := base mod 4096 = 0 \/ Z.of_nat (length mem) <= 4096.
(** The completions an endpoint or the host sends, as a list. *)
Definition sent (r : res (list tlp)) : list tlp := match r with Ok l => l | Raise _ => [] end.
(** Successive allocations. *)
Definition alloc_all (lg : Z -> Z) (sizes : list Z) (s : rc_mem) : rc_mem :=
  fold_left (fun s n => fst (alloc_region lg s n)) sizes s.
(** The host memory before any allocation, pcie.py 3257-3258. *)
Definition rc_empty : rc_mem := mkRc 0 [].
(** Address [b] lies in region [r]. *)
Definition within (r : region) (b : Z) : Prop := r_base r <= b < r_base r + r_size r.
(** The state after a stream of write requests reached the host. *)
Definition host_after (rs : list region) (ts : list tlp) : res (list region) :=
  fold_left (fun rs t => bind rs (fun rs => rc_handle_write rs t)) ts (Ok rs).
