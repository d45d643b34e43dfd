(** Which bytes a request names, independent of how the packet is built. *)
From Verif Require Import Base.Prelude Pcie.Tlp_model.
Open Scope Z_scope.

(** Byte [i] after the dword address is transferred (PCIe byte enable rules:
    first enables for the first dword, last enables for the last one of several,
    everything in between). *)
Definition enabled (t : tlp) (i : Z) : bool :=
  (0 <=? i) && (i <? 4 * t_length t) &&
  (if i <? 4 then Z.testbit (t_first_be t) i
   else if i <? 4 * (t_length t - 1) then true
   else Z.testbit (t_last_be t) (i mod 4)).

(** The request transfers the byte at address [b]. *)
Definition touches (t : tlp) (b : Z) : bool := enabled t (b - t_addr t).

Definition is_byte (b : Z) : Prop := 0 <= b < 256.
Definition bytes_ok (l : list Z) : Prop := Forall is_byte l.

(** The byte the packet carries for address [b]. *)
Definition byte_at (t : tlp) (b : Z) : Z :=
  (nth (Z.to_nat ((b - t_addr t) / 4)) (t_data t) 0 / 256 ^ ((b - t_addr t) mod 4)) mod 256.

(** In-range header fields. *)
Definition wf_pid (p : pid) : Prop :=
  0 <= p_bus p < 256 /\ 0 <= p_dev p < 32 /\ 0 <= p_fn p < 8.
Definition wf_hdr (t : tlp) : Prop :=
  0 <= t_tc t < 8 /\ 0 <= t_th t < 2 /\ 0 <= t_td t < 2 /\ 0 <= t_ep t < 2 /\
  0 <= t_attr t < 8 /\ 0 <= t_at t < 4 /\ 0 <= t_tag t < 256 /\
  wf_pid (t_requester t) /\ wf_pid (t_completer t) /\ wf_pid (t_dest t) /\
  (if has_data t then 1 <= t_length t <= 1024 else 0 <= t_length t < 1024) /\
  (has_data t = false -> t_data t = []).
(** A completion: only completion fields are in use. *)
Definition wf_cpl (t : tlp) : Prop :=
  isft t cpl_types = true /\ wf_hdr t /\
  0 <= t_status t < 8 /\ 0 <= t_bcm t < 2 /\ 1 <= t_byte_count t <= 4096 /\ 0 <= t_lower t < 128 /\
  t_dest t = pid0 /\ t_first_be t = 0 /\ t_last_be t = 0 /\ t_addr t = 0 /\ t_regno t = 0.
(** A configuration request. *)
Definition wf_cfg (t : tlp) : Prop :=
  isft t cfg_types = true /\ wf_hdr t /\
  0 <= t_first_be t < 16 /\ 0 <= t_last_be t < 16 /\ 0 <= t_regno t < 1024 /\
  t_completer t = pid0 /\ t_status t = 0 /\ t_bcm t = 0 /\ t_byte_count t = 0 /\
  t_lower t = 0 /\ t_addr t = 0.
(** A memory or IO request. *)
Definition wf_req (t : tlp) : Prop :=
  isft t (mem_types ++ io_types) = true /\ wf_hdr t /\
  0 <= t_first_be t < 16 /\ 0 <= t_last_be t < 16 /\ t_regno t = 0 /\
  0 <= t_addr t < (if is_4dw t then 2 ^ 64 else 2 ^ 32) /\ t_addr t mod 4 = 0 /\
  t_completer t = pid0 /\ t_dest t = pid0 /\ t_status t = 0 /\ t_bcm t = 0 /\ t_byte_count t = 0 /\
  t_lower t = 0.

(** Replacing the address and register number. *)
Definition with_addr (t : tlp) (a : Z) : tlp :=
  let '(mkTlp f ty tc th td ep at1 at2 le co st bc byc rq de tag fb lb lo _ rn da) := t in
  mkTlp f ty tc th td ep at1 at2 le co st bc byc rq de tag fb lb lo a rn da.
Definition with_regno (t : tlp) (r : Z) : tlp :=
  let '(mkTlp f ty tc th td ep at1 at2 le co st bc byc rq de tag fb lb lo ad _ da) := t in
  mkTlp f ty tc th td ep at1 at2 le co st bc byc rq de tag fb lb lo ad r da.
