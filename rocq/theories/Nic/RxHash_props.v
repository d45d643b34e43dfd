(** C29: the receive hash. *)
From Verif Require Import Base.Prelude Nic.RxHash_model Nic.RxHash_spec Nic.RxHash_proof Nic.RxHash_stream_proof.
Local Open Scope Z_scope.

(** Exactly one report per frame, in order and within three cycles of the
    frame's end: the type word, and the Toeplitz hash of the addresses, and of
    the ports for TCP and UDP without IP options.  A report may precede the end
    of its frame, so there may be one for the frame in progress.  IPv6 frames
    longer than the beat counter's period are excluded. *)
Theorem C29_report_per_frame : forall k, (0 < k)%nat -> forall key is,
  Forall (short_ipv6 k) (fst (frames_from [] is)) -> short_ipv6 k (snd (frames_from [] is)) ->
  exists reports early,
    somes (snd (trace (rh_step k key) rh_init (map (pair false) (is ++ [None; None; None])))) = reports ++ early /\
    Forall2 (fun f o => hash_ok key (lanes k f) o) (fst (frames_from [] is)) reports /\
    (length early <= 1)%nat /\ (snd (frames_from [] is) = [] -> early = []).
Proof. exact hash_stream. Qed.
Print Assumptions C29_report_per_frame.

(** The published RSS verification suite: key, 66.9.149.187:2794 to
    161.142.100.80:1766 over TCP, then the same addresses with protocol 1, on a
    16-byte bus with a gap. *)
Definition c29_key : Z := 0x6d5a56da255b0ec24167253d43a38fb0d0ca2bcbae7b30b477cb2da38030f20c6a42b73bbeac01fa.
Definition beat_of (l : list Z) (last : bool) : hbeat := mkHb (fun j => nth j l 0) last.
Definition c29_head (proto : Z) : list (option hbeat) :=
  [Some (beat_of [1;2;3;4;5;6;7;8;9;10;11;12;0x08;0x00;0x45;0] false); None;
   Some (beat_of [0;40;0;0;0;0;64;proto;0;0;66;9;149;187;161;142] false)].
Definition c29_is : list (option hbeat) :=
  c29_head 6 ++ [Some (beat_of [100;80;0x0a;0xea;0x06;0xe6;0;0;0;0;0;0;0;0;0;0] true)] ++
  c29_head 1 ++ [Some (beat_of [100;80;0x0a;0xea;0x06;0xe6;0;0;0;0;0;0;0;0;0;0] false); Some (beat_of [] true)] ++
  [Some (beat_of [1;2;3;4;5;6;7;8;9;10;11;12;0x86;0xdd;0x60;0] false); Some (beat_of [] true)].

Example C29_nonvacuous :
  length (fst (frames_from [] c29_is)) = 3%nat /\ snd (frames_from [] c29_is) = [] /\
  Forall (short_ipv6 16) (fst (frames_from [] c29_is)) /\
  somes (snd (trace (rh_step 16 c29_key) rh_init (map (pair false) (c29_is ++ [None; None; None])))) =
    [(5, 0x51ccc178); (1, 0x323e8fc2); (0, 0)].
Proof.
  split; [reflexivity|]. split; [reflexivity|].
  split; [|vm_compute; reflexivity].
  assert (P : rh_ptrs 16 = 4%nat) by reflexivity.
  repeat constructor; intros _ _; rewrite P; cbn; lia.
Qed.

(** The same after a reset in any state; only what comes in the two cycles after it belongs to earlier frames. *)
Theorem C29_after_reset : forall k, (0 < k)%nat -> forall key s0 b is, let s := fst (rh_step k key s0 (true, b)) in
  Forall (short_ipv6 k) (fst (frames_from [] is)) -> short_ipv6 k (snd (frames_from [] is)) ->
  exists reports early,
    somes (skipn 2 (snd (trace (rh_step k key) s (map (pair false) (is ++ [None; None; None]))))) = reports ++ early /\
    Forall2 (fun f o => hash_ok key (lanes k f) o) (fst (frames_from [] is)) reports /\
    (length early <= 1)%nat /\ (snd (frames_from [] is) = [] -> early = []).
Proof. exact hash_stream_reset. Qed.
Print Assumptions C29_after_reset.
Example C29_after_reset_nonvacuous :
  let s0 := fst (trace (rh_step 16 c29_key) rh_init (map (pair false) (firstn 3 c29_is))) in
  let s := fst (rh_step 16 c29_key s0 (true, Some (beat_of [1;2;3] false))) in
  somes (skipn 2 (snd (trace (rh_step 16 c29_key) s (map (pair false) (c29_is ++ [None; None; None]))))) =
    [(5, 0x51ccc178); (1, 0x323e8fc2); (0, 0)].
Proof. vm_compute. reflexivity. Qed.

(** Defect: the beat counter wraps in long IPv6 frames and payload bytes are
    then read as headers: this IPv6 frame gets the IPv4 type and a hash of its
    payload. *)
Definition c29_v6 : list hbeat :=
  [beat_of ([1;2;3;4;5;6;7;8;9;10;11;12;0x86;0xdd;0x60] ++ repeat 0 17) false; beat_of [] false;
   beat_of ([0;0;0;0;0;0;0;0;0;0;0;0;0x08;0x00] ++ repeat 1 18) false;
   beat_of (repeat 1 32) true].

Theorem C29_long_ipv6_refuted :
  ethertype (lanes 32 c29_v6) = 0x86dd /\
  exists h, h <> 0 /\
  somes (snd (trace (rh_step 32 c29_key) rh_init (map (pair false) (map Some c29_v6 ++ [None; None; None])))) = [(1, h)].
Proof.
  split; [reflexivity|]. vm_compute. eexists. split; [|reflexivity]. discriminate.
Qed.
Print Assumptions C29_long_ipv6_refuted.

(** Defect: a frame cut short in the IPv4 header is reported with type 0 but a
    hash left over from an earlier frame. *)
Definition c29_cut : list (option hbeat) :=
  map Some [beat_of [1;2;3;4;5;6;7;8;9;10;11;12;0x08;0x00;0x45;0] false;
            beat_of [0;40;0;0;0;0;64;1;0;0;66;9;149;187;161;142] false; beat_of [100;80] true;
            beat_of [1;2;3;4;5;6;7;8;9;10;11;12;0x08;0x00;0x45;0] true].

Theorem C29_short_frame_refuted : exists h, h <> 0 /\
  somes (snd (trace (rh_step 16 c29_key) rh_init (map (pair false) (c29_cut ++ [None; None; None])))) = [(1, h); (0, h)].
Proof. vm_compute. eexists. split; [|reflexivity]. discriminate. Qed.
Print Assumptions C29_short_frame_refuted.
