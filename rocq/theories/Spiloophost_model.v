(** SlaveLoopBench, lambdalib/tests/test_cores_spi.py:86-102, with the SPIStream of
    MasterStreamBench (56-83) in front of its master: a host and a looped slave on the
    same pins and the same clock, single data line. *)
From Verif Require Import Stream Spistream_model Spimaster_model Spislave_model Spilink_model Spipair_model Spiloop_model.

Section LoopHost.
  (** As in Spilink_model and Spiloop_model. *)
  Context (width div delay : Z) (cpol cpha with_len : bool).
  Notation host := (spi_host width 1 div delay).
  Notation slave := (spi_echo cpol cpha width 1 with_len).
  (** The user of the host: words to send, ready for the words returned.  The pins are
      shared (89-93); miso is line 1 of the data input of the master (master.py:81-86). *)
  Definition lh_host_in (s : cst slave) (i : chan Z * bool) : host_in := HostIn (fst i) (2 * l_dqo _ _ s) (snd i).
  Definition lh_pins (s : cst host * cst slave) (i : chan Z * bool) : pins :=
    let m := ho_phy (cout host (fst s) (lh_host_in (snd s) i)) in Pins (mo_clk m) (mo_cs_n m) (mo_dq_o m).
  Definition spi_loop_host : circuit (chan Z * bool) pair_obs :=
    Circuit (cst host * cst slave) (creset host, creset slave)
      (fun s i => PairObs (cout host (fst s) (lh_host_in (snd s) i)) (cout slave (snd s) (lh_pins s i)))
      (fun s i => (cnext host (fst s) (lh_host_in (snd s) i), cnext slave (snd s) (lh_pins s i))).
End LoopHost.
