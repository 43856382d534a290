(** A program that uses I2CBus over the UART bridge comes to its end (C150). *)
From Verif Require Import Stream I2c_model I2cstream_model I2cproto_model Serial_model Bridge_model Bridge_spec Session_spec.

(** An infinite run: the first [n] cycles. *)
Definition cycles (period : Z) (stretch oe : bool) (ins : nat -> br_in) (n : nat) : list br_obs :=
  trace (i2c_bridge period stretch oe) (map ins (seq 0 n)).
(** The bytes handed to the bridge and the bytes it handed back. *)
Definition given (t : list br_obs) : list Z := map bdata (accepted (map uart t)).
Definition handed_back (t : list br_obs) : list Z := map bdata (emitted (map uart t)).
(** The devices do not hold SCL low. *)
Definition no_stretching (stretch oe : bool) (t : list br_obs) : Prop :=
  stretch = true -> oe = true -> Forall (fun o => ii_scl_pad (io_in (so_i2c (po_i2c (bo_pr o)))) = io_scl (so_i2c (po_i2c (bo_pr o)))) t.
(** The UART works: time and again the receiver offers a byte, if the program has written one that
    the bridge has not taken, and the transmitter is free. *)
Definition link_works (width : Z) (p : program) (ins : nat -> br_in) (run : nat -> list br_obs) : Prop :=
  (forall n, exists m, (n <= m)%nat /\ (bi_rx_rdy (ins m) = true \/ given (run m) = written width p (handed_back (run m)))) /\
  (forall n, exists m, (n <= m)%nat /\ bi_tx_rdy (ins m) = true).
