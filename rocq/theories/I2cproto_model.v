(** Model of lambdalib/cores/i2c/proto.py: I2CProto, with its I2CStream inside. *)
From Verif Require Import Stream I2c_model I2cstream_model.

(** proto.py:70-72, 77-172.  Registers: header, length (8 bits), status, the FSM, and
    the I2CStream (68). *)
Inductive pr_fsm := PHeader | PLength | PAddr | POk | PRead | PFlush | PWrite | PError | PStatus.
Record pr_state := Pr { p_f : pr_fsm; p_header : Z; p_length : Z; p_status : Z; p_i : ist_state }.
Definition pr_reset : pr_state := Pr PHeader 0 0 0 ist_reset.

(** One cycle: both byte streams, and the I2CStream inside. *)
Record pr_obs := PrObs { po_io : obs Z Z; po_i2c : ist_obs }.

Section Proto.
  Context (period : Z) (stretch oe : bool).
  Implicit Types (s : pr_state) (c : chan Z).

  (** i2c.sink (92-97, 120-124, 141-146); 0 where not driven. *)
  Definition pr_isink s c : chan (bool * Z) :=
    match p_f s with
    | PAddr => Chan true (Beat false (p_length s =? 0) (false, p_header s))
    | PRead => Chan true (Beat false (p_length s =? 1) (true, 0))
    | PWrite => Chan true (Beat false (p_length s =? 1) (false, bdata (cbeat c)))
    | _ => Chan false (Beat false false (false, 0))
    end.
  (** i2c.source.ready (125, 134). *)
  Definition pr_irdy s (r : bool) : bool := match p_f s with PRead | PFlush => r | _ => false end.
  (** i2c.sink.ready. *)
  Definition pr_go s c : bool := ist_rdy (p_i s) (pr_isink s c).

  (** sink.ready (80, 86, 148, 159). *)
  Definition pr_rdy s c : bool :=
    match p_f s with
    | PHeader | PLength => true
    | PWrite => pr_go s c
    | PError => 1 <=? p_length s
    | _ => false
    end.
  (** source (111-115, 125, 134, 166-170). *)
  Definition pr_src s : chan Z :=
    match p_f s with
    | POk => Chan true (Beat false true 0)
    | PRead | PFlush => ist_src (p_i s)
    | PStatus => Chan true (Beat false true (p_status s))
    | _ => Chan false (Beat false false 0)
    end.

  Definition pr_next s c (r : bool) (p : pads) : pr_state :=
    let i' := ist_next period stretch oe (p_i s) (pr_isink s c) (pr_irdy s r) p in
    let h := p_header s in let l := p_length s in let u := p_status s in
    let dec := trunc 8 (l - 1) in
    match p_f s with
    | PHeader => if cvalid c then Pr PLength (bdata (cbeat c)) l u i' else Pr PHeader h l u i'   (* 79-83 *)
    | PLength => if cvalid c then Pr PAddr h (bdata (cbeat c)) u i' else Pr PLength h l u i'     (* 85-89 *)
    | PAddr =>                                                                                   (* 98-108 *)
        if pr_go s c
        then if ist_err (p_i s) then Pr PError h l u i'
             else if Z.testbit h 0 then Pr POk h l u i'
             else if 1 <=? l then Pr PWrite h l u i'
             else Pr PStatus h l 0 i'
        else Pr PAddr h l u i'
    | POk => Pr (if r then PRead else POk) h l u i'                                              (* 116-117 *)
    | PRead =>                                                                                   (* 127-131 *)
        if pr_go s c then Pr (if l =? 1 then PFlush else PRead) h dec u i' else Pr PRead h l u i'
    | PFlush =>                                                                                  (* 135-138 *)
        Pr (if cvalid (pr_src s) && r && blast (cbeat (pr_src s)) then PHeader else PFlush) h l u i'
    | PWrite =>                                                                                  (* 147-155 *)
        if pr_go s c
        then if ist_err (p_i s) then Pr PError h dec u i'
             else if l =? 1 then Pr PStatus h dec 0 i'
             else Pr PWrite h dec u i'
        else Pr PWrite h l u i'
    | PError => if 1 <=? l then Pr PError h dec u i' else Pr PStatus h l 1 i'                    (* 157-163 *)
    | PStatus => Pr (if r then PHeader else PStatus) h l u i'                                    (* 171-172 *)
    end.
End Proto.

Definition i2c_proto (period : Z) (stretch oe : bool) : circuit (chan Z * bool * pads) pr_obs :=
  Circuit pr_state pr_reset
    (fun s '(c, r, p) => PrObs (Obs c (pr_rdy s c) (pr_src s) r)
                           (cout (i2c_stream period stretch oe) (p_i s) (pr_isink s c, pr_irdy s r, p)))
    (fun s '(c, r, p) => pr_next period stretch oe s c r p).
