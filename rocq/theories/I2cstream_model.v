(** Model of lambdalib/cores/i2c/stream.py: I2CStream and I2CWriterStream, each
    with its I2CInitiator inside. *)
From Verif Require Import Stream I2c_model.

(** ** I2CStream, stream.py:34-209.
    Sink payload (r_wn, data); source payload data; source.first is never driven.
    Registers: the FSM (134-207), last_r (131) and the initiator (128). *)
Inductive ist_fsm := IsIdle | IsStart | IsWStart | IsXfer | IsWWrite | IsWRead | IsStop | IsWStop.
Record ist_state := Ist { is_f : ist_fsm; is_last : bool; is_i : i2c_state }.
Definition ist_reset : ist_state := Ist IsIdle false i2c_reset.

(** Pad inputs of a cycle: SDA, SCL. *)
Definition pads := (bool * bool)%type.

Section IStream.
  Context (period : Z) (stretch oe : bool).
  Implicit Types (s : ist_state) (c : chan (bool * Z)).

  Definition ist_is s (f : ist_fsm) : bool :=
    match is_f s, f with
    | IsIdle, IsIdle | IsStart, IsStart | IsWStart, IsWStart | IsXfer, IsXfer
    | IsWWrite, IsWWrite | IsWRead, IsWRead | IsStop, IsStop | IsWStop, IsWStop => true
    | _, _ => false
    end.

  Definition ist_rd s c : bool := ist_is s IsXfer && cvalid c && fst (bdata (cbeat c)).          (* 152-154 *)
  Definition ist_wr s c : bool := ist_is s IsXfer && cvalid c && negb (fst (bdata (cbeat c))).   (* 163 *)

  (** Inputs of the initiator: start (142), stop (202), write and data_i (164-167),
      read and ack_i (155-158); 0 where not assigned. *)
  Definition ist_in s c (p : pads) : i2c_in :=
    I2cIn (ist_is s IsStart) (ist_is s IsStop) (ist_wr s c) (ist_rd s c)
      (if ist_wr s c then snd (bdata (cbeat c)) else 0)
      (if ist_rd s c then negb (blast (cbeat c)) else false)
      (fst p) (snd p).

  Definition ist_idle s : bool := negb (s_busy (is_i s)).

  (** sink.ready (159, 172), error (175-176), source (189-193). *)
  Definition ist_rdy s c : bool := ist_rd s c || (ist_is s IsWWrite && ist_idle s).
  Definition ist_err s : bool := ist_is s IsWWrite && ist_idle s && negb (d_acko (s_d (is_i s))).
  Definition ist_src s : chan Z :=
    if ist_is s IsWRead && ist_idle s
    then Chan true (Beat false (is_last s) (d_datao (s_d (is_i s))))
    else Chan false (Beat false false 0).

  Definition ist_fnext s c (r : bool) : ist_fsm :=
    match is_f s with
    | IsIdle => if ist_idle s && cvalid c then IsStart else IsIdle                    (* 136-139 *)
    | IsStart => IsWStart                                                             (* 141-143 *)
    | IsWStart => if ist_idle s then IsXfer else IsWStart                             (* 145-147 *)
    | IsXfer => if ist_rd s c then IsWRead else if ist_wr s c then IsWWrite else IsXfer (* 149-168 *)
    | IsWWrite =>                                                                     (* 170-185 *)
        if ist_idle s
        then if negb (d_acko (s_d (is_i s))) then IsStop else if is_last s then IsStop else IsXfer
        else IsWWrite
    | IsWRead =>                                                                      (* 187-199 *)
        if ist_idle s && r then if is_last s then IsStop else IsXfer else IsWRead
    | IsStop => IsWStop                                                               (* 201-203 *)
    | IsWStop => if ist_idle s then IsIdle else IsWStop                               (* 205-207 *)
    end.

  Definition ist_next s c (r : bool) (p : pads) : ist_state :=
    Ist (ist_fnext s c r)
        (if ist_is s IsXfer then blast (cbeat c) else is_last s)                      (* 150 *)
        (i2c_next period stretch oe (is_i s) (ist_in s c p)).
End IStream.

(** One cycle: both streams, error, and the initiator inside. *)
Record ist_obs := IstObs { so_io : obs (bool * Z) Z; so_error : bool; so_i2c : i2c_obs }.

Definition i2c_stream (period : Z) (stretch oe : bool) : circuit (chan (bool * Z) * bool * pads) ist_obs :=
  Circuit ist_state ist_reset
    (fun s '(c, r, p) => IstObs (Obs c (ist_rdy s c) (ist_src s) r) (ist_err s)
                           (cout (i2c_initiator period stretch oe) (is_i s) (ist_in s c p)))
    (fun s '(c, r, p) => ist_next period stretch oe s c r p).

(** ** I2CWriterStream, stream.py:212-321.
    Registers: FSM (273-319), stage (242, 2 bits), retry (243), cache (244),
    cache_stage (245, 2 bits), and the initiator (239). *)
Inductive iw_fsm := IwIdle | IwStart | IwWStart | IwWrite | IwWWrite | IwStop | IwWStop.
Record iw_state := Iw {
  iw_f : iw_fsm; iw_stage : Z; iw_retry : bool; iw_c0 : Z; iw_c1 : Z; iw_c2 : Z; iw_cstage : Z;
  iw_i : i2c_state }.
Definition iw_reset : iw_state := Iw IwIdle 0 false 0 0 0 0 i2c_reset.

Section IWriter.
  Context (period : Z) (stretch oe : bool).
  Implicit Types (s : iw_state) (c : chan Z).

  Definition iw_use_cache s : bool := iw_retry s && (iw_stage s <=? iw_cstage s).     (* 250 *)
  Definition iw_cache s : Z :=                                                        (* 253-256 *)
    if iw_stage s =? 0 then iw_c0 s else if iw_stage s =? 1 then iw_c1 s
    else if iw_stage s =? 2 then iw_c2 s else 0.
  Definition iw_is_write s : bool := match iw_f s with IwWrite => true | _ => false end.
  Definition iw_idle s : bool := negb (s_busy (iw_i s)).

  (** Inputs of the initiator: start (282), stop (314), write (290), data_i (252-262). *)
  Definition iw_in s c (p : pads) : i2c_in :=
    I2cIn (match iw_f s with IwStart => true | _ => false end)
          (match iw_f s with IwStop => true | _ => false end)
          (iw_is_write s) false
          (if iw_use_cache s then iw_cache s else bdata (cbeat c)) false (fst p) (snd p).

  Definition iw_take s : bool := negb (iw_use_cache s) && iw_is_write s.              (* 261-264 *)

  Definition iw_next s c (p : pads) : iw_state :=
    let i' := i2c_next period stretch oe (iw_i s) (iw_in s c p) in
    let stg := iw_stage s in
    (* lines 261-270 *)
    let c0 := if iw_take s && (stg =? 0) then bdata (cbeat c) else iw_c0 s in
    let c1 := if iw_take s && (stg =? 1) then bdata (cbeat c) else iw_c1 s in
    let c2 := if iw_take s && (stg =? 2) then bdata (cbeat c) else iw_c2 s in
    let cs := if iw_take s then stg else iw_cstage s in
    let go := cvalid c || iw_use_cache s in
    match iw_f s with
    | IwIdle =>                                                                       (* 275-279 *)
        if iw_idle s && go then Iw IwStart 0 (iw_retry s) c0 c1 c2 cs i'
        else Iw IwIdle stg (iw_retry s) c0 c1 c2 cs i'
    | IwStart => Iw IwWStart stg (iw_retry s) c0 c1 c2 cs i'                          (* 281-283 *)
    | IwWStart => Iw (if iw_idle s then IwWrite else IwWStart) stg (iw_retry s) c0 c1 c2 cs i'  (* 285-287 *)
    | IwWrite => Iw IwWWrite (trunc 2 (stg + 1)) (iw_retry s) c0 c1 c2 cs i'          (* 289-292 *)
    | IwWWrite =>                                                                     (* 294-311 *)
        if iw_idle s
        then if negb (d_acko (s_d (iw_i s))) then Iw IwStop stg true c0 c1 c2 cs i'
             else if 2 <? stg then Iw IwStop stg false c0 c1 c2 cs i'
             else Iw (if go then IwWrite else IwWWrite) stg (iw_retry s) c0 c1 c2 cs i'
        else Iw IwWWrite stg (iw_retry s) c0 c1 c2 cs i'
    | IwStop => Iw IwWStop stg (iw_retry s) c0 c1 c2 cs i'                            (* 313-315 *)
    | IwWStop => Iw (if iw_idle s then IwIdle else IwWStop) stg (iw_retry s) c0 c1 c2 cs i'     (* 317-319 *)
    end.
End IWriter.

(** The writer has no source; its stream side is the sink channel and its ready. *)
Record iw_obs := IwObs { wo_sink : chan Z; wo_ready : bool; wo_i2c : i2c_obs }.

Definition i2c_writer (period : Z) (stretch oe : bool) : circuit (chan Z * pads) iw_obs :=
  Circuit iw_state iw_reset
    (fun s '(c, p) => IwObs c (iw_take s) (cout (i2c_initiator period stretch oe) (iw_i s) (iw_in s c p)))
    (fun s '(c, p) => iw_next period stretch oe s c p).
