(** The two boards of examples/spi_bridge.py joined by the wires of their pmod
    connectors: SPIMasterBridge (18-69) and SPISlaveBridge (72-115), single data line. *)
From Verif Require Import Stream Spistream_model Spimaster_model Spislave_model Spilink_model.

(** One cycle: the USB side of the host board (words to send, ready for the words
    returned), the USB side of the slave board (words to answer, ready for the words
    received). *)
Record pair_in := PairIn { pi_sink : chan Z; pi_ready : bool; pi_words : chan (Z * Z); pi_rready : bool }.
Record pair_obs := PairObs { po_host : host_obs; po_slave : sl_obs }.

Section Pair.
  (** As in Spilink_model and Spislave_model, with one data line, and with_len=False
      (spi_bridge.py:98-100). *)
  Context (width div delay : Z) (cpol cpha : bool) (stages : list Z).
  Notation host := (spi_host width 1 div delay).
  Notation slave := (spi_slave cpol cpha width 1 false stages).
  (** The pins mosi, miso, cs_n, clk (spi_bridge.py:121-127, 144-150): miso is line 1
      of the data input of the master (master.py:81-86).  Simplification: the boards
      have the same clock. *)
  Definition pair_host_in (s : cst slave) (i : pair_in) : host_in :=
    HostIn (pi_sink i) (2 * l_dqo _ _ s) (pi_ready i).
  Definition pair_slave_in (s : cst host * cst slave) (i : pair_in) : sl_in :=
    let m := ho_phy (cout host (fst s) (pair_host_in (snd s) i)) in
    SlIn (Pins (mo_clk m) (mo_cs_n m) (mo_dq_o m)) (pi_words i) (pi_rready i).
  Definition spi_pair : circuit pair_in pair_obs :=
    Circuit (cst host * cst slave) (creset host, creset slave)
      (fun s i => PairObs (cout host (fst s) (pair_host_in (snd s) i)) (cout slave (snd s) (pair_slave_in s i)))
      (fun s i => (cnext host (fst s) (pair_host_in (snd s) i), cnext slave (snd s) (pair_slave_in s i))).
End Pair.
