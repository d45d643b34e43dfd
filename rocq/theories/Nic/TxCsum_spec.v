(** Vocabulary for the transmit checksum unit. *)
From Verif Require Import Base.Prelude Base.Bits Rtl.Handshake_spec Stream.Axis_model Net.Codec_spec
  Nic.RxCsum_model Nic.RxCsum_spec Nic.TxCsum_model.
Local Open Scope Z_scope.

(** A frame with its command. *)
Record frame := mkFr { fr_cmd : tcmd; fr_beats : list beat }.

(** What is handed over in a cycle: a command, a beat in, a beat out. *)
Definition cmd_taken (i : tin) (o : tout) : option tcmd := if to_cmdready o then ti_cmd i else None.
Definition beat_taken (i : tin) (o : tout) : option beat := if to_sready o then ti_s i else None.
Definition beat_given (i : tin) (o : tout) : option beat := if ti_mready i then to_m o else None.

(** The frames received over a run: the complete ones, and the one begun by a command
    whose last beat has not come. *)
Definition feed (g : list frame * option frame) (io : tin * tout) : list frame * option frame :=
  match cmd_taken (fst io) (snd io) with
  | Some m => (fst g, Some (mkFr m []))
  | None =>
      match beat_taken (fst io) (snd io), snd g with
      | Some b, Some f =>
          let f' := mkFr (fr_cmd f) (fr_beats f ++ [b]) in
          if tlast b then (fst g ++ [f'], None) else (fst g, Some f')
      | _, _ => g
      end
  end.
Definition received (is : list tin) (os : list tout) : list frame * option frame :=
  fold_left feed (combine is os) ([], None).
Definition sent (is : list tin) (os : list tout) : list beat :=
  somes (map (fun p => beat_given (fst p) (snd p)) (combine is os)).

(** The fields of a command fit their signals. *)
Definition cmd_ok (m : tcmd) : Prop := 0 <= cm_start m < 256 /\ 0 <= cm_off m < 256 /\ 0 <= cm_init m < 65536.
Definition inputs_ok (is : list tin) : Prop :=
  Forall (fun i => ti_rst i = false /\ forall m, ti_cmd i = Some m -> cmd_ok m) is.

(** The checksum of a frame: the complement of the ones'-complement sum (RFC 1071,
    [ones_sum]) of its bytes from the start position on.  With USE_INIT_VALUE
    the sum begins with the initial value, taken with its bytes exchanged if the start
    position is odd. *)
Definition initial (c : tccfg) (m : tcmd) : list Z :=
  if tc_init c then
    if Z.odd (cm_start m) then [cm_init m mod 256; cm_init m / 256] else [cm_init m / 256; cm_init m mod 256]
  else [].
Definition checksum (c : tccfg) (f : frame) : Z :=
  65535 - ones_sum (initial c (fr_cmd f) ++
                    skipn (Z.to_nat (cm_start (fr_cmd f))) (frame_bytes (tc_k c) (map to_cb (fr_beats f)))).

(** Byte [j] of a word. *)
Definition byte (d : Z) (j : nat) : Z := bits d (8 * Z.of_nat j) 8.

(** Beat [n] of a frame as sent: everything as received, but the two bytes at the
    position given, which are the checksum (high byte first) if it is enabled. *)
Definition beat_as (c : tccfg) (f : frame) (n : nat) (b b' : beat) : Prop :=
  tkeep b' = tkeep b /\ tlast b' = tlast b /\
  tid b' = (if tc_id c then tid b else 0) /\ tdest b' = (if tc_dest c then tdest b else 0) /\
  tuser b' = (if tc_user c then tuser b else 0) /\
  forall j, byte (tdata b') j =
    let p := Z.of_nat (n * tc_k c + j) in
    if cm_en (fr_cmd f) && (j <? tc_k c)%nat && (p =? cm_off (fr_cmd f)) then checksum c f / 256
    else if cm_en (fr_cmd f) && (j <? tc_k c)%nat && (p =? cm_off (fr_cmd f) + 1) then checksum c f mod 256
    else byte (tdata b) j.
Definition sent_as (c : tccfg) (f : frame) (f' : list beat) : Prop :=
  length f' = length (fr_beats f) /\
  forall n b b', nth_error (fr_beats f) n = Some b -> nth_error f' n = Some b' -> beat_as c f n b b'.
