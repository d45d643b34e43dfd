(** Consistent overhead byte stuffing over AXI streams:
    fpga/lib/axis/rtl/axis_cobs_encode.v (cited as enc) with its two instances of
    axis_fifo ([Stream.Fifo_model]), and axis_cobs_decode.v (cited as dec).  The
    output stages of both (enc 427-510, dec 250-333) have the text of the skid
    buffer of axis_register.v ([skid_step]). *)
From Verif Require Import Base.Prelude Stream.Axis_model Stream.Fifo_model.
Local Open Scope Z_scope.

(** One transfer: tdata, tlast, tuser (enc 46-59, dec 42-55). *)
Record cb := mkCb { c_d : Z; c_l : bool; c_u : bool }.
(** Inputs of one cycle: rst, the source's offer, m_axis_tready; outputs:
    s_axis_tready and what m_axis offers. *)
Record cin := mkCin { ci_rst : bool; ci_s : option cb; ci_mready : bool }.
Record cout := mkCout { co_sready : bool; co_m : option cb }.

(* ----- the encoder ----- *)
(** input_state_reg (enc 62-69). *)
Inductive ist := I_idle | I_seg | I_final | I_append.

(** The FIFO parameters (enc 115-125, 153-162 and axis_fifo.v:34-96): 256 words, last
    enabled; user enabled for the codes only. *)
Definition cfifo (user : bool) : fcfg :=
  mkFcfg 8 1 false false 1 1 false false false false false false (mkAx false 1 true false false user).
Definition code_cfg := cfifo true.
Definition data_cfg := cfifo false.
(** A FIFO word and what its output shows (enc 126-151, 163-188). *)
Definition to_beat (x : cb) : beat := mkBeat (c_d x) 0 (c_l x) 0 0 (if c_u x then 1 else 0).
Definition of_beat (b : beat) : cb := mkCb (tdata b) (tlast b) (tuser b =? 1).

(** Registers (enc 69-79) with the FIFOs and the output stage; [e_seg] is
    output_state_reg. *)
Record enc := mkEnc {
  e_st : ist; e_cnt : Z; e_fail : bool; e_code : fifo; e_data : fifo;
  e_seg : bool; e_ocnt : Z; e_skid : skid cb }.

Definition crdy (s : enc) : bool := sready code_cfg (z_w (e_code s)) (z_rd (e_code s)).
Definition drdy (s : enc) : bool := sready data_cfg (z_w (e_data s)) (z_rd (e_data s)).
(** s_axis_tready with s_axis_tready_mask (enc 113, 197, 211, 257, 309, 335). *)
Definition e_sready (s : enc) : bool :=
  crdy s && drdy s && match e_st s with I_idle | I_seg => true | _ => false end.

(** What the input side does: next input_state, input_count, fail_frame, the word for
    the code FIFO and the word for the data FIFO. *)
Record iact := mkI { n_st : ist; n_cnt : Z; n_fail : bool; p_code : option cb; p_data : option cb }.

(** enc 190-350; [app] is APPEND_ZERO, [x] the byte transferred (s_axis_tready &&
    s_axis_tvalid), [cr] is code_fifo_in_tready. *)
Definition in_step (app : bool) (st : ist) (cnt : Z) (fail cr : bool) (x : option cb) : iact :=
  match st with
  | I_idle =>
      match x with
      | None => mkI I_idle cnt false None None
      | Some b =>
          if (c_d b =? 0) || (c_l b && c_u b) then
            if c_l b then mkI I_final cnt (c_u b) (Some (mkCb 1 false false)) None
            else mkI I_idle cnt false (Some (mkCb 1 false false)) None
          else if c_l b then
            if app then mkI I_append 2 false (Some (mkCb 2 false false)) (Some (mkCb (c_d b) false false))
            else mkI I_idle 2 false (Some (mkCb 2 false false)) (Some (mkCb (c_d b) true false))
          else mkI I_seg 2 false None (Some (mkCb (c_d b) false false))
      end
  | I_seg =>
      match x with
      | None => mkI I_seg cnt false None None
      | Some b =>
          if (c_d b =? 0) || (c_l b && c_u b) then
            if c_l b then mkI I_final cnt (c_u b) (Some (mkCb cnt false false)) None
            else mkI I_idle cnt false (Some (mkCb cnt false false)) None
          else
            let inc := (cnt + 1) mod 256 in
            let cnt' := if cnt =? 254 then 1 else inc in
            if c_l b then
              if app then mkI I_append cnt' false (Some (mkCb inc false false)) (Some (mkCb (c_d b) false false))
              else mkI I_idle cnt' false (Some (mkCb inc false false)) (Some (mkCb (c_d b) true false))
            else mkI I_seg cnt' false (if cnt =? 254 then Some (mkCb inc false false) else None)
                     (Some (mkCb (c_d b) false false))
      end
  | I_final =>
      if cr then
        let d := if fail then 2 else 1 in
        if app then mkI I_append cnt fail (Some (mkCb d false fail)) None
        else mkI I_idle cnt false (Some (mkCb d true fail)) None
      else mkI I_final cnt fail None None
  | I_append =>
      if cr then mkI I_idle cnt false (Some (mkCb 0 true fail)) None
      else mkI I_append cnt fail None None
  end.

(** What the output side does (enc 352-411): next output_state, output_count, the
    transfer to the output stage, and the reads of the two FIFOs. *)
Record oact := mkOA { n_seg : bool; n_ocnt : Z; n_int : option cb; t_code : bool; t_data : bool }.

Definition out_step (seg : bool) (ocnt : Z) (rdy : bool) (code data : option cb) : oact :=
  if seg then
    match data with
    | Some d => if rdy then mkOA (negb (ocnt =? 1)) ((ocnt - 1) mod 256) (Some (mkCb (c_d d) (c_l d) false)) false true
                else mkOA true ocnt None false false
    | None => mkOA true ocnt None false false
    end
  else
    match code with
    | Some k => if rdy then mkOA (negb ((c_d k =? 0) || (c_d k =? 1) || c_u k)) ((c_d k - 1) mod 256)
                                 (Some (mkCb (c_d k) (c_l k) (c_u k && c_l k))) true false
                else mkOA false ocnt None false false
    | None => mkOA false ocnt None false false
    end.

Definition code_out (s : enc) : option cb := option_map of_beat (m_vis code_cfg (e_code s)).
Definition data_out (s : enc) : option cb := option_map of_beat (m_vis data_cfg (e_data s)).

(** One clock edge (enc 413-425 and the instances).  The reset does not clear
    input_count, output_count and fail_frame. *)
Definition e_step (app : bool) (s : enc) (i : cin) : enc * cout :=
  let x := if e_sready s then ci_s i else None in
  let a := in_step app (e_st s) (e_cnt s) (e_fail s) (crdy s) x in
  let o := out_step (e_seg s) (e_ocnt s) (k_rdy (e_skid s)) (code_out s) (data_out s) in
  let fin_of (p : option cb) (r : bool) :=
    mkFin (ci_rst i) (negb (isnone p)) (to_beat (match p with Some w => w | None => mkCb 0 false false end)) r false in
  (mkEnc (if ci_rst i then I_idle else n_st a) (n_cnt a) (n_fail a)
         (fst (f_step code_cfg (e_code s) (fin_of (p_code a) (t_code o))))
         (fst (f_step data_cfg (e_data s) (fin_of (p_data a) (t_data o))))
         (if ci_rst i then false else n_seg o) (n_ocnt o)
         (if ci_rst i then skid0 else skid_step (e_skid s) (n_int o) (ci_mready i)),
   mkCout (e_sready s) (k_out (e_skid s))).

(** Power-on values (enc 69-79, 428-436); the FIFO memories hold anything. *)
Definition e_init (m1 m2 m3 m4 : Z -> beat) : enc :=
  mkEnc I_idle 0 false (f_init code_cfg m1 m2) (f_init data_cfg m3 m4) false 0 skid0.

(* ----- the decoder ----- *)
(** state_reg (dec 59-64). *)
Inductive dst := D_idle | D_seg | D_next.
(** Registers (dec 64-70, 80): state, count, suppress_zero, temp_tdata, temp_tvalid, s_axis_tready_reg,
    output stage. *)
Record dec := mkDec {
  d_st : dst; d_cnt : Z; d_sup : bool; d_td : Z; d_tv : bool; d_rdy : bool; d_skid : skid cb }.

(** What a cycle does apart from the ready signals (dec 84-230): next state, count,
    suppress_zero, temp_tdata, temp_tvalid, the offer to the output stage; [n_rdy] tells
    how s_axis_tready_next is set: [None] is m_axis_tready_int_early. [x] is the byte
    transferred, [kr] is m_axis_tready_int_reg. *)
Record dact := mkDA {
  m_st : dst; m_cnt : Z; m_sup : bool; m_td : Z; m_tv : bool; m_int : option cb; m_rdy : option bool }.

Definition dec_next (st : dst) (cnt : Z) (sup : bool) (td : Z) (tv kr : bool) (x : option cb) : dact :=
  let offer (v l u : bool) := if v then Some (mkCb td l u) else None in
  match st with
  | D_idle =>
      let tv' := tv && negb kr in
      let r := if tv then None else Some true in
      match x with
      | Some b =>
          if c_d b =? 0 then mkDA D_idle cnt sup td tv' (offer tv true false) r
          else mkDA (if c_d b =? 1 then D_next else D_seg) ((c_d b - 1) mod 256) (c_d b =? 255) td tv' (offer tv true false) None
      | None => mkDA D_idle cnt sup td tv' (offer tv true false) r
      end
  | D_seg =>
      match x with
      | Some b =>
          let cnt' := (cnt - 1) mod 256 in
          if c_d b =? 0 then mkDA D_idle cnt' sup (c_d b) false (offer true true true) (Some true)
          else if c_l b then
            if (cnt =? 1) && negb (c_u b) then mkDA D_idle cnt' sup (c_d b) true (offer tv false false) None
            else mkDA D_idle cnt' sup (c_d b) false (offer true true true) (Some true)
          else mkDA (if cnt =? 1 then D_next else D_seg) cnt' sup (c_d b) true (offer tv false false) None
      | None => mkDA D_seg cnt sup td tv None None
      end
  | D_next =>
      match x with
      | Some b =>
          if c_d b =? 0 then mkDA D_idle cnt sup 0 false (offer tv true (c_u b)) (Some true)
          else if c_l b then
            if (c_d b =? 1) && negb (c_u b) then mkDA D_idle cnt sup 0 (negb sup) (offer tv false false) None
            else mkDA D_idle cnt sup 0 false (offer true true true) (Some true)
          else mkDA (if c_d b =? 1 then D_next else D_seg) ((c_d b - 1) mod 256) (c_d b =? 255) 0 (negb sup) (offer tv false false) None
      | None => mkDA D_next cnt sup td tv None None
      end
  end.

(** m_axis_tready_int_early (dec 272). *)
Definition early {A} (k : skid A) (x : option A) (mrdy : bool) : bool :=
  mrdy || (isnone (k_tmp k) && (isnone (k_out k) || isnone x)).

(** One clock edge (dec 232-248). *)
Definition d_step (s : dec) (i : cin) : dec * cout :=
  let x := if d_rdy s then ci_s i else None in
  let a := dec_next (d_st s) (d_cnt s) (d_sup s) (d_td s) (d_tv s) (k_rdy (d_skid s)) x in
  let r := match m_rdy a with Some b => b | None => early (d_skid s) (m_int a) (ci_mready i) end in
  (mkDec (if ci_rst i then D_idle else m_st a) (m_cnt a) (m_sup a) (m_td a)
         (if ci_rst i then false else m_tv a) (if ci_rst i then false else r)
         (if ci_rst i then skid0 else skid_step (d_skid s) (m_int a) (ci_mready i)),
   mkCout (d_rdy s) (k_out (d_skid s))).

Definition d_init : dec := mkDec D_idle 0 false 0 false false skid0.
