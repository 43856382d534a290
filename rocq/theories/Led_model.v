(** Model of lambdalib/cores/led/ws2812b.py: WS2812B. *)
From Verif Require Import Stream Bits Timing_model.

(** FSM states, lines 54, 65, 89. *)
Inductive ws_fsm := WsIdle | WsTransmit | WsReset.
(** Registers, lines 37-41. *)
Record ws_state := Ws { ws_st : ws_fsm; ws_sreg : Z; ws_cycs : Z; ws_last : bool; ws_idx : Z }.
(** One cycle: the sink channel, sink.ready, the pin. *)
Record ws_obs := WsObs { wo_sink : chan Z; wo_ready : bool; wo_pin : bool }.

Section WS.
  Context (T0H T1H T TRST width : Z).
  (** line 38 *)
  Definition ws_bit (s : ws_state) : bool := Z.testbit (ws_sreg s) (width - 1).
  (** lines 67-68 *)
  Definition ws_high (s : ws_state) : bool :=
    (negb (ws_bit s) && (ws_cycs s <? T0H)) || (ws_bit s && (ws_cycs s <? T1H)).
  (** lines 69, 70, 74, 90 *)
  Definition ws_pin (s : ws_state) : bool :=
    match ws_st s with WsTransmit => ws_high s | _ => false end.
  Definition ws_inc (s : ws_state) : bool :=
    match ws_st s with
    | WsIdle => false
    | WsTransmit => ws_high s || (ws_cycs s <? T)
    | WsReset => true
    end.
  (** line 56 *)
  Definition ws_ready (s : ws_state) : bool := match ws_st s with WsIdle => true | _ => false end.
  Definition ws_next (s : ws_state) (c : chan Z) : ws_state :=
    let cycs := if ws_inc s then trunc (range_width (TRST + 1)) (ws_cycs s + 1) else 0 in  (* lines 46-49 *)
    match ws_st s with
    | WsIdle =>                                                                            (* lines 54-63 *)
        if cvalid c then Ws WsTransmit (trunc width (bdata (cbeat c))) cycs (blast (cbeat c)) 0
        else Ws WsIdle (ws_sreg s) cycs (ws_last s) (ws_idx s)
    | WsTransmit =>                                                                        (* lines 65-87 *)
        if ws_inc s then Ws WsTransmit (ws_sreg s) cycs (ws_last s) (ws_idx s)
        else if ws_idx s <? width - 1 then
          Ws WsTransmit (trunc width (cat 1 0 (ws_sreg s))) cycs (ws_last s)
             (trunc (range_width width) (ws_idx s + 1))
        else Ws (if ws_last s then WsReset else WsIdle) (ws_sreg s) cycs (ws_last s) (ws_idx s)
    | WsReset =>                                                                           (* lines 89-92 *)
        Ws (if TRST <=? ws_cycs s then WsIdle else WsReset) (ws_sreg s) cycs (ws_last s) (ws_idx s)
    end.
  Definition ws2812b_core : circuit (chan Z) ws_obs :=
    Circuit ws_state (Ws WsIdle 0 0 false 0)
      (fun s c => WsObs c (ws_ready s) (ws_pin s))
      ws_next.
End WS.

(** WS2812B(pin, sys_clk_freq, width), lines 17-33; the cycle counts (30-33) are in
    Timing_model. *)
Definition ws2812b (f width : Z) : circuit (chan Z) ws_obs :=
  ws2812b_core (ws_t0h f) (ws_t1h f) (ws_t f) (ws_trst f) width.
