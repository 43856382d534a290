(** Model of lambdalib/cores/i2c/i2c.py: I2CBusDriver and I2CInitiator. *)
From Verif Require Import Hdl Bits.

(** Inputs of a cycle: the command strobes and operands, and the pad inputs. *)
Record i2c_in := I2cIn {
  ii_start : bool; ii_stop : bool; ii_write : bool; ii_read : bool;
  ii_data : Z; ii_ack : bool;
  ii_sda_pad : bool; ii_scl_pad : bool }.

(** A command taken by the initiator, with its latched operand. *)
Inductive i2c_cmd := CStart | CStop | CWrite (data : Z) | CRead (ack : bool).

(** Observation of a cycle.  [io_scl] / [io_sda] are the levels the initiator asks
    for (scl_o, sda_o; open drain: 0 = drive low, 1 = release), [io_scl_i] /
    [io_sda_i] the levels it sees after the synchronisers.  [io_cmd] is the command
    taken in this cycle, if any. *)
Record i2c_obs := I2cObs {
  io_in : i2c_in; io_busy : bool; io_ack : bool; io_data : Z;
  io_scl : bool; io_sda : bool; io_scl_i : bool; io_sda_i : bool;
  io_cmd : option i2c_cmd }.

(** FSM states, i2c.py:190-274. *)
Inductive i2c_fsm :=
| Idle
| StartSclL | StartSdaH | StartSclH | StartSdaL
| StopSclL | StopSdaL | StopSclH | StopSdaH
| WdSclL | WdSdaX | WdSclH | WdSdaN
| WaSclL | WaSdaH | WaSclH | WaSdaN
| RdSclL | RdSdaH | RdSclH | RdSdaN
| RaSclL | RaSdaX | RaSclH | RaSdaN.

(** Data path registers: bitno (158), r_shreg (159), w_shreg (160), r_ack (161),
    ack_o (138), data_o (140), bus.scl_o (37, reset 1), bus.sda_o (39, reset 1). *)
Record i2c_dp := Dp {
  d_bitno : Z; d_rsh : Z; d_wsh : Z; d_rack : bool;
  d_acko : bool; d_datao : Z; d_scl : bool; d_sda : bool }.

Definition set_scl (v : bool) (d : i2c_dp) : i2c_dp :=
  Dp (d_bitno d) (d_rsh d) (d_wsh d) (d_rack d) (d_acko d) (d_datao d) v (d_sda d).
Definition set_sda (v : bool) (d : i2c_dp) : i2c_dp :=
  Dp (d_bitno d) (d_rsh d) (d_wsh d) (d_rack d) (d_acko d) (d_datao d) (d_scl d) v.
Definition set_bitno (v : Z) (d : i2c_dp) : i2c_dp :=
  Dp v (d_rsh d) (d_wsh d) (d_rack d) (d_acko d) (d_datao d) (d_scl d) (d_sda d).
Definition set_rsh (v : Z) (d : i2c_dp) : i2c_dp :=
  Dp (d_bitno d) v (d_wsh d) (d_rack d) (d_acko d) (d_datao d) (d_scl d) (d_sda d).
Definition set_wsh (v : Z) (d : i2c_dp) : i2c_dp :=
  Dp (d_bitno d) (d_rsh d) v (d_rack d) (d_acko d) (d_datao d) (d_scl d) (d_sda d).
Definition set_rack (v : bool) (d : i2c_dp) : i2c_dp :=
  Dp (d_bitno d) (d_rsh d) (d_wsh d) v (d_acko d) (d_datao d) (d_scl d) (d_sda d).
Definition set_acko (v : bool) (d : i2c_dp) : i2c_dp :=
  Dp (d_bitno d) (d_rsh d) (d_wsh d) (d_rack d) v (d_datao d) (d_scl d) (d_sda d).
Definition set_datao (v : Z) (d : i2c_dp) : i2c_dp :=
  Dp (d_bitno d) (d_rsh d) (d_wsh d) (d_rack d) (d_acko d) v (d_scl d) (d_sda d).

(** All registers: FSM, busy (133, reset 1), timer (148), the data path, and the
    two stages of the synchronisers (FFSynchronizer, reset 1, lines 54 and 62).
    The bus driver's scl_r/sda_r and its sample/setup/start/stop outputs (71-82)
    are not used by the initiator and are left out. *)
Record i2c_state := I2cSt {
  s_f : i2c_fsm; s_busy : bool; s_timer : Z; s_d : i2c_dp;
  s_sda1 : bool; s_sda2 : bool; s_scl1 : bool; s_scl2 : bool }.

Definition i2c_reset : i2c_state :=
  I2cSt Idle true 0 (Dp 0 0 0 false false 0 true true) true true true true.

Section I2c.
  (** period_cyc, clk_stretch, and whether the SCL pad has an output enable
      (open drain with input; otherwise scl_i = scl_o, lines 57-68). *)
  Context (period : Z) (stretch oe : bool).

  Definition scl_i (s : i2c_state) : bool := if oe then s_scl2 s else d_scl (s_d s).
  Definition sda_i (s : i2c_state) : bool := s_sda2 s.

  (** lines 151-156 *)
  Definition stb (s : i2c_state) : bool := s_timer s =? 0.
  Definition timer_next (s : i2c_state) : Z :=
    if stb s || negb (s_busy s) then trunc (range_width period) (period / 4)
    else if negb stretch || Bool.eqb (d_scl (s_d s)) (scl_i s)
         then trunc (range_width period) (s_timer s - 1)
         else s_timer s.

  (** The command taken: strobes are looked at in IDLE only, in this priority
      (lines 190-211). *)
  Definition cmd_taken (s : i2c_state) (i : i2c_in) : option i2c_cmd :=
    match s_f s with
    | Idle => if ii_start i then Some CStart
              else if ii_stop i then Some CStop
              else if ii_write i then Some (CWrite (ii_data i))
              else if ii_read i then Some (CRead (ii_ack i))
              else None
    | _ => None
    end.

  (** lines 165-170 *)
  Definition scl_l (s : i2c_state) (next : i2c_fsm) : i2c_fsm * i2c_dp :=
    if stb s then (next, set_scl false (s_d s)) else (s_f s, s_d s).
  (** lines 172-179 *)
  Definition scl_h (s : i2c_state) (next : i2c_fsm) (exprs : i2c_dp -> i2c_dp) : i2c_fsm * i2c_dp :=
    if stb s then (s_f s, set_scl true (s_d s))
    else if d_scl (s_d s) && (negb stretch || scl_i s) then (next, exprs (s_d s))
    else (s_f s, s_d s).
  (** lines 181-188 *)
  Definition stb_x (s : i2c_state) (next : i2c_fsm) (exprs : i2c_dp -> i2c_dp) : i2c_fsm * i2c_dp :=
    if stb s then (next, exprs (s_d s)) else (s_f s, s_d s).

  Definition bit7 (s : i2c_state) (next b7 : i2c_fsm) : i2c_fsm :=       (* lines 185-187 *)
    if d_bitno (s_d s) =? 7 then b7 else next.
  Definition inc_bitno (d : i2c_dp) : i2c_dp := set_bitno (trunc 3 (d_bitno d + 1)) d.

  (** FSM and data path, lines 190-274 *)
  Definition fsm_next (s : i2c_state) (i : i2c_in) : i2c_fsm * i2c_dp :=
    let d := s_d s in
    match s_f s with
    | Idle =>
        match cmd_taken s i with
        | Some CStart =>                                                 (* lines 192-198 *)
            (if scl_i s && sda_i s then StartSdaL else if negb (scl_i s) then StartSclH else StartSclL, d)
        | Some CStop =>                                                  (* lines 199-205 *)
            (if scl_i s && negb (d_sda d) then StopSdaH else if negb (scl_i s) then StopSclH else StopSclL, d)
        | Some (CWrite x) => (WdSclL, set_wsh x d)                       (* lines 206-208 *)
        | Some (CRead a) => (RdSclL, set_rack a d)                       (* lines 209-211 *)
        | None => (Idle, d)
        end
    | StartSclL => scl_l s StartSdaH                                     (* lines 216-223 *)
    | StartSdaH => stb_x s StartSclH (set_sda true)
    | StartSclH => scl_h s StartSdaL (fun d => d)
    | StartSdaL => stb_x s Idle (set_sda false)
    | StopSclL => scl_l s StopSdaL                                       (* lines 225-232 *)
    | StopSdaL => stb_x s StopSclH (set_sda false)
    | StopSclH => scl_h s StopSdaH (fun d => d)
    | StopSdaH => stb_x s Idle (set_sda true)
    | WdSclL => scl_l s WdSdaX                                           (* lines 234-244 *)
    | WdSdaX => stb_x s WdSclH (fun d => set_sda (Z.testbit (d_wsh d) 7) d)
    | WdSclH => scl_h s WdSdaN (fun d => set_wsh (cat 1 0 (slice 0 7 (d_wsh d))) d)
    | WdSdaN => stb_x s (bit7 s WdSclL WaSclL) inc_bitno
    | WaSclL => scl_l s WaSdaH                                           (* lines 246-253 *)
    | WaSdaH => stb_x s WaSclH (set_sda true)
    | WaSclH => scl_h s WaSdaN (set_acko (negb (sda_i s)))
    | WaSdaN => stb_x s Idle (fun d => d)
    | RdSclL => scl_l s RdSdaH                                           (* lines 255-265 *)
    | RdSdaH => stb_x s RdSclH (set_sda true)
    | RdSclH => scl_h s RdSdaN (fun d => set_rsh (cat 1 (Z.b2z (sda_i s)) (slice 0 7 (d_rsh d))) d)
    | RdSdaN => stb_x s (bit7 s RdSclL RaSclL) inc_bitno
    | RaSclL => scl_l s RaSdaX                                           (* lines 267-274 *)
    | RaSdaX => stb_x s RaSclH (fun d => set_sda (negb (d_rack d)) d)
    | RaSclH => scl_h s RaSdaN (fun d => set_datao (d_rsh d) d)
    | RaSdaN => stb_x s Idle (fun d => d)
    end.

  Definition busy_next (s : i2c_state) (i : i2c_in) : bool :=            (* lines 191, 212-213 *)
    match s_f s with
    | Idle => match cmd_taken s i with Some _ => true | None => false end
    | _ => s_busy s
    end.

  Definition i2c_next (s : i2c_state) (i : i2c_in) : i2c_state :=
    let '(f, d) := fsm_next s i in
    I2cSt f (busy_next s i) (timer_next s) d
      (ii_sda_pad i) (s_sda1 s) (ii_scl_pad i) (s_scl1 s).

  Definition i2c_initiator : circuit i2c_in i2c_obs :=
    Circuit i2c_state i2c_reset
      (fun s i => I2cObs i (s_busy s) (d_acko (s_d s)) (d_datao (s_d s))
                    (d_scl (s_d s)) (d_sda (s_d s)) (scl_i s) (sda_i s) (cmd_taken s i))
      i2c_next.
End I2c.
