(** Model of MasterStreamBench, lambdalib/tests/test_cores_spi.py:56-83: an SPIStream and its
    master, with the data pins of the master connected to themselves. *)
From Verif Require Import Stream Spistream_model Spimaster_model Spilink_model.

Section Stub.
  Context (width bw div delay : Z).
  Notation host := (spi_host width bw div delay).
  (** The level of the data inputs.  One line: miso = mosi (77-78), which are line 1 of the
      input and line 0 of the output (master.py:81-86).  More lines: dq.i = dq.o while dq.oe
      (79-81), zero otherwise. *)
  Definition stub_dq (s : cst host) : Z :=
    if bw =? 1 then 2 * ms_dq_o width bw (snd s) else if m_oe width (snd s) then ms_dq_o width bw (snd s) else 0.
  (** Inputs: a word for data_sink, and ready of data_source (59, 70-75). *)
  Definition stub_in (s : cst host) (i : chan Z * bool) : host_in := HostIn (fst i) (stub_dq s) (snd i).
  Definition spi_stub_loop : circuit (chan Z * bool) host_obs :=
    Circuit (cst host) (creset host) (fun s i => cout host s (stub_in s i)) (fun s i => cnext host s (stub_in s i)).
End Stub.
