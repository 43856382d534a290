(** Model of examples/i2c_bridge.py: Top with bridge_type "uart", the logic between the
    UART and the I2C pads (lines 30-36, 47-62).  The UART itself (amaranth_stdio), the
    clocks (crg) and the LEDs (64-73) are left out. *)
From Verif Require Import Stream I2c_model I2cstream_model I2cproto_model Fifo_model Serial_model.

(** Inputs: the UART receiver (rdy, data), the UART transmitter (rdy), the I2C pads. *)
Record br_in := BrIn { bi_rx_rdy : bool; bi_rx_data : Z; bi_tx_rdy : bool; bi_pads : pads }.
(** Registers: AsyncSerialStream (34-37), fifo_rx and fifo_tx (53-54), I2CProto (49-50). *)
Record br_state := Br { b_us : us_state; b_rx : list Z; b_pr : pr_state; b_tx : list Z }.
Record br_obs := BrObs { bo_us : us_obs; bo_rx : obs Z Z; bo_pr : pr_obs; bo_tx : obs Z Z }.

(** stream.SyncFIFO(link.source.description, 32): 8 data bits, first, last. *)
Definition br_fifo : smod Z Z := stream_sync_fifo 8 32 false.
Definition no_beat : chan Z := Chan false (Beat false false 0).

Section Bridge.
  Context (period : Z) (stretch oe : bool).
  Implicit Types (s : br_state) (i : br_in).

  (** fifo_rx.source -> i2c.sink (58), fifo_tx.source -> link.sink (60).  The outputs of a
      FIFO do not depend on its inputs of the same cycle. *)
  Definition br_rx s : chan Z := src br_fifo (b_rx s) no_beat.
  Definition br_tx s : chan Z := src br_fifo (b_tx s) no_beat.
  (** link.source -> fifo_rx.sink (57): fifo_rx.sink.ready; i2c.source -> fifo_tx.sink (59). *)
  Definition br_rx_rdy s : bool := rdy br_fifo (b_rx s) no_beat false.
  Definition br_tx_rdy s : bool := rdy br_fifo (b_tx s) no_beat false.
  Definition br_us_in s i : us_in := UsIn (bi_rx_rdy i) (bi_rx_data i) (br_rx_rdy s) (bi_tx_rdy i) (br_tx s).
  Definition br_link s : chan Z := Chan (us_valid (b_us s)) (Beat false false (us_data (b_us s))).
  Definition br_pr_in s i : chan Z * bool * pads := (br_rx s, br_tx_rdy s, bi_pads i).

  Definition i2c_bridge : circuit br_in br_obs :=
    Circuit br_state (Br (Us false 0) [] pr_reset [])
      (fun s i => BrObs
         (cout serial_stream (b_us s) (br_us_in s i))
         (Obs (br_link s) (br_rx_rdy s) (br_rx s) (pr_rdy (b_pr s) (br_rx s)))
         (cout (i2c_proto period stretch oe) (b_pr s) (br_pr_in s i))
         (Obs (pr_src (b_pr s)) (br_tx_rdy s) (br_tx s) (bi_tx_rdy i)))
      (fun s i => Br
         (cnext serial_stream (b_us s) (br_us_in s i))
         (nxt br_fifo (b_rx s) (br_link s) (pr_rdy (b_pr s) (br_rx s)))
         (cnext (i2c_proto period stretch oe) (b_pr s) (br_pr_in s i))
         (nxt br_fifo (b_tx s) (pr_src (b_pr s)) (bi_tx_rdy i))).
End Bridge.
