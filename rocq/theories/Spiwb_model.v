(** Model of an SPIPHYSlave joined to an SPIWishboneBridge by their streams, which have the
    same layout (spi/slave.py:38-41, spi/bridge.py:20-21 and common.py:26-30): slave.source
    to bridge.sink, bridge.source to slave.sink.  The SPI pins and the Wishbone target are
    the environment. *)
From Verif Require Import Stream Fifo_model Spislave_model Spibridge_model.

Record wb_in := WbIn { wi_pins : pins; wi_ack : bool; wi_dat_r : Z }.
Record wb_obs := WbObs { wo_slave : sl_obs; wo_bridge : br_obs }.

Section Wb.
  Context (cpol cpha : bool) (width bw : Z) (stages : list Z) (addr_width : Z).
  Notation slave := (spi_slave cpol cpha width bw true stages).
  Notation wb := (bridge width addr_width).
  (** A FIFO word as (data, len): data in the low bits (slave.py:104-106). *)
  Definition wb_split (x : Z) : Z * Z := (x mod 2 ^ width, x / 2 ^ width).
  Definition wb_chan (c : chan Z) : chan (Z * Z) :=
    Chan (cvalid c) (Beat (bfirst (cbeat c)) (blast (cbeat c)) (wb_split (bdata (cbeat c)))).
  (** The bridge's inputs: slave.source does not depend on the slave's inputs of the same
      cycle, nor does slave.sink.ready. *)
  Definition wb_bin (s : sl_state width true) (i : wb_in) : br_in :=
    BrIn (wb_chan (src (sl_fifo width true) (l_fifo _ _ s) (sl_fsink cpol cpha width true stages s)))
         (sl_load width true s) (wi_ack i) (wi_dat_r i).
  Definition wb_sin (s : sl_state width true) (b : br_state) (i : wb_in) : sl_in :=
    SlIn (wi_pins i) (br_src width b (wb_bin s i)) (br_ready b (wb_bin s i)).
  Definition spi_wb : circuit wb_in wb_obs :=
    Circuit (sl_state width true * br_state) (creset slave, creset wb)
      (fun s i => WbObs (cout slave (fst s) (wb_sin (fst s) (snd s) i)) (cout wb (snd s) (wb_bin (fst s) i)))
      (fun s i => (cnext slave (fst s) (wb_sin (fst s) (snd s) i), cnext wb (snd s) (wb_bin (fst s) i))).
End Wb.
