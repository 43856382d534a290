(** Model of MasterSlaveBench, lambdalib/tests/test_cores_spi.py:23-53: an SPIPHYMaster and an
    SPIPHYSlave connected by their pins. *)
From Verif Require Import Stream Spimaster_model Spislave_model.

(** One cycle: cs, the words for the master and ready for the words it returns (139-158); the
    words for the slave and ready for the words it received (160-168). *)
Record bench_in := BenchIn { bi_cs : bool; bi_sink : chan mword; bi_ready : bool; bi_words : chan (Z * Z); bi_rready : bool }.
Record bench_obs := BenchObs { be_master : ms_obs; be_slave : sl_obs }.

Section Bench.
  (** [width]: the width of both (8 in the bench, 27-30); [bw]: bus_width. *)
  Context (width bw div delay : Z) (cpol cpha with_len : bool).
  Notation master := (spi_master width bw div delay).
  Notation slave := (spi_slave cpol cpha width bw with_len [width]).
  (** The data inputs of the master.  One line: miso (42-46), which is line 1 of its input
      (master.py:81-86).  More lines: dq.i is driven only while dq.oe of the slave (50-51),
      which is a signal that the slave never assigns (slave.py:62-66), so it is 0. *)
  Definition bench_master_in (s : cst slave) (i : bench_in) : ms_in :=
    MsIn (bi_cs i) (bi_sink i) (if bw =? 1 then 2 * l_dqo _ _ s else 0) (bi_ready i).
  (** The pins of the slave: clk, cs_n (37-40), mosi (44), or the data lines while dq.oe of the
      master (48-49), zero otherwise. *)
  Definition bench_slave_in (s : cst master * cst slave) (i : bench_in) : sl_in :=
    let m := cout master (fst s) (bench_master_in (snd s) i) in
    SlIn (Pins (mo_clk m) (mo_cs_n m) (if (bw =? 1) || mo_oe m then mo_dq_o m else 0)) (bi_words i) (bi_rready i).
  Definition spi_bench : circuit bench_in bench_obs :=
    Circuit (cst master * cst slave) (creset master, creset slave)
      (fun s i => BenchObs (cout master (fst s) (bench_master_in (snd s) i)) (cout slave (snd s) (bench_slave_in s i)))
      (fun s i => (cnext master (fst s) (bench_master_in (snd s) i), cnext slave (snd s) (bench_slave_in s i))).
End Bench.
