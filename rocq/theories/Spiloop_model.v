(** Model of SlaveLoopBench, lambdalib/tests/test_cores_spi.py:86-102: an SPI slave whose
    received words are its words to send.  (The master of the bench is Spimaster_model.) *)
From Verif Require Import Stream Bits Fifo_model Spislave_model.

Section Loop.
  (** The slave with a single stage, which is the default (slave.py:31-32). *)
  Context (cpol cpha : bool) (width bw : Z) (with_len : bool).
  Notation slave := (spi_slave cpol cpha width bw with_len [width]).
  (** slave.source.connect(slave.sink), test_cores_spi.py:100.  The word of the FIFO is
      split into data and len (common.py:26-30); with_len = False: there is no len. *)
  Definition loop_sink (s : cst slave) : chan (Z * Z) :=
    let c := src (sl_fifo width with_len) (l_fifo _ _ s) (sl_fsink cpol cpha width with_len [width] s) in
    Chan (cvalid c) (Beat (bfirst (cbeat c)) (blast (cbeat c))
      (bdata (cbeat c) mod 2 ^ width, if with_len then bdata (cbeat c) / 2 ^ width else 0)).
  (** The source is ready when the sink is (slave.py:135-136). *)
  Definition loop_in (s : cst slave) (p : pins) : sl_in := SlIn p (loop_sink s) (sl_load _ _ s).
  Definition spi_echo : circuit pins sl_obs :=
    Circuit (cst slave) (creset slave) (fun s p => cout slave s (loop_in s p)) (fun s p => cnext slave s (loop_in s p)).
End Loop.
