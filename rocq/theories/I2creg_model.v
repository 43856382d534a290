(** Model of I2CRegStream (lambdalib/cores/i2c/stream.py:324-383) and TCA9548A
    (lambdalib/cores/i2c/tca9548a.py). *)
From Verif Require Import Stream.

(** ** I2CRegStream, stream.py:324-383.
    The sink payload is the pair (addr, val).  Registers: FSM state, source.valid,
    source.last, source.data (written in m.d.sync, so registered), addr_d, val_d.
    source.first is never driven. *)
Inductive irs_fsm := IrsIdle | IrsSlave | IrsReg | IrsVal.
Record irs_state := Irs { irs_f : irs_fsm; irs_v : bool; irs_l : bool; irs_d : Z; irs_a : Z; irs_val : Z }.

Definition i2c_reg_stream (i2c_addr : Z) : smod (Z * Z) Z :=
  SMod irs_state (Irs IrsIdle false false 0 0 0)
    (fun s _ => Chan (irs_v s) (Beat false (irs_l s) (irs_d s)))
    (fun s _ _ => match irs_f s with IrsIdle => true | _ => false end)   (* line 352 *)
    (fun s c r =>
       match irs_f s with
       | IrsIdle =>                                                      (* lines 351-360 *)
           if cvalid c
           then Irs IrsSlave true (irs_l s) (trunc 8 (Z.shiftl i2c_addr 1)) (fst (bdata (cbeat c))) (snd (bdata (cbeat c)))
           else s
       | IrsSlave =>                                                     (* lines 362-365 *)
           if r then Irs IrsReg (irs_v s) (irs_l s) (irs_a s) (irs_a s) (irs_val s) else s
       | IrsReg =>                                                       (* lines 367-373 *)
           if r then Irs IrsVal (irs_v s) true (irs_val s) (irs_a s) (irs_val s) else s
       | IrsVal =>                                                       (* lines 375-381 *)
           if r then Irs IrsIdle false false (irs_d s) (irs_a s) (irs_val s) else s
       end).

(** ** TCA9548A, tca9548a.py:12-65.
    Inputs: ctrl, source.ready.  Registers: FSM state, init, ctrl_r, ctrl_addr_n.
    The source payload is the pair (r_wn, data). *)
Inductive tca_fsm := TcaIdle | TcaMux.
Record tca_state := Tca { tca_f : tca_fsm; tca_init : bool; tca_ctrl_r : Z; tca_an : bool }.
Record tca_obs := TcaObs { tco_ctrl : Z; tco_done : bool; tco_src : chan (bool * Z); tco_ready : bool }.

Section Tca.
  Context (i2c_addr : Z).
  Definition tca_done (s : tca_state) (ctrl : Z) : bool :=               (* lines 42-50 *)
    match tca_f s with
    | TcaIdle => tca_init s && (ctrl =? tca_ctrl_r s)
    | TcaMux => false
    end.
  Definition tca_src (s : tca_state) : chan (bool * Z) :=                (* lines 52-59 *)
    match tca_f s with
    | TcaIdle => Chan false (Beat false false (false, 0))
    | TcaMux => Chan true (Beat false (tca_an s)
                  (false, if negb (tca_an s) then trunc 8 (Z.shiftl i2c_addr 1) else tca_ctrl_r s))
    end.
  Definition tca_next (s : tca_state) (i : Z * bool) : tca_state :=
    let '(ctrl, ready) := i in
    match tca_f s with
    | TcaIdle =>                                                         (* lines 43-48 *)
        if negb (tca_init s) then Tca TcaMux true (tca_ctrl_r s) (tca_an s)
        else if negb (ctrl =? tca_ctrl_r s) then Tca TcaMux (tca_init s) ctrl (tca_an s)
        else s
    | TcaMux =>                                                          (* lines 60-63 *)
        if ready then Tca (if tca_an s then TcaIdle else TcaMux) (tca_init s) (tca_ctrl_r s) (negb (tca_an s))
        else s
    end.
  Definition tca9548a : circuit (Z * bool) tca_obs :=
    Circuit tca_state (Tca TcaIdle false 0 false)
      (fun s i => TcaObs (fst i) (tca_done s (fst i)) (tca_src s) (snd i))
      tca_next.
End Tca.
