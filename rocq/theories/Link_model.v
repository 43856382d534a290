(** Model of examples/i2c_bridge.py: Top with bridge_type "usb", the logic between the USB
    device's streams and the I2C pads (lines 38-62).  The USB device (USBGenericDevice, C103)
    is left out: its source and sink streams are inputs and outputs here; so are the clocks
    (crg) and the LEDs (64-73). *)
From Verif Require Import Stream I2c_model I2cstream_model I2cproto_model Fifo_model Serial_model Bridge_model.

(** Inputs: link.source, link.sink.ready, the I2C pads. *)
Record lk_in := LkIn { li_source : chan Z; li_rready : bool; li_pads : pads }.
(** Registers: fifo_rx and fifo_tx (53-54), I2CProto (49-50). *)
Record lk_state := Lk { l_rx : list Z; l_pr : pr_state; l_tx : list Z }.
Record lk_obs := LkObs { lo_link : obs Z Z; lo_pr : pr_obs }.

Section Link.
  Context (period : Z) (stretch oe : bool).
  Implicit Types (s : lk_state) (i : lk_in).
  (** fifo_rx.source -> i2c.sink (58), fifo_tx.source -> link.sink (60); link.source -> fifo_rx.sink
      (57), i2c.source -> fifo_tx.sink (59). *)
  Definition lk_rx s : chan Z := src br_fifo (l_rx s) no_beat.
  Definition lk_tx s : chan Z := src br_fifo (l_tx s) no_beat.
  Definition lk_rx_rdy s : bool := rdy br_fifo (l_rx s) no_beat false.
  Definition lk_tx_rdy s : bool := rdy br_fifo (l_tx s) no_beat false.
  Definition lk_pr_in s i : chan Z * bool * pads := (lk_rx s, lk_tx_rdy s, li_pads i).

  Definition i2c_link : circuit lk_in lk_obs :=
    Circuit lk_state (Lk [] pr_reset [])
      (fun s i => LkObs
         (Obs (li_source i) (lk_rx_rdy s) (lk_tx s) (li_rready i))
         (cout (i2c_proto period stretch oe) (l_pr s) (lk_pr_in s i)))
      (fun s i => Lk
         (nxt br_fifo (l_rx s) (li_source i) (pr_rdy (l_pr s) (lk_rx s)))
         (cnext (i2c_proto period stretch oe) (l_pr s) (lk_pr_in s i))
         (nxt br_fifo (l_tx s) (pr_src (l_pr s)) (li_rready i))).
End Link.
