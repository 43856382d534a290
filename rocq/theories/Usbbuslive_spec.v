(** A program that uses I2CBus over the USB bridge comes to its end (C154). *)
From Verif Require Import Stream I2c_model I2cstream_model I2cproto_model Link_model Link_spec Session_spec Usbbus_model Usbbus_spec.

(** An infinite run: the first [n] cycles. *)
Definition link_cycles (period : Z) (stretch oe : bool) (ins : nat -> lk_in) (n : nat) : list lk_obs :=
  trace (i2c_link period stretch oe) (map ins (seq 0 n)).
(** The bytes handed to the bridge, the bytes it handed back and the packets completed. *)
Definition link_given (t : list lk_obs) : list Z := map bdata (accepted (map lo_link t)).
Definition link_back (t : list lk_obs) : list Z := map bdata (emitted (map lo_link t)).
Definition link_packets (t : list lk_obs) : list (list Z) := packets (emitted (map lo_link t)).
(** The devices do not hold SCL low. *)
Definition link_no_stretching (stretch oe : bool) (t : list lk_obs) : Prop :=
  stretch = true -> oe = true -> Forall (fun o => ii_scl_pad (io_in (so_i2c (po_i2c (lo_pr o)))) = io_scl (so_i2c (po_i2c (lo_pr o)))) t.
(** The USB link works: time and again it offers a byte, if the program has written one that the
    bridge has not taken, and takes one. *)
Definition usb_works (width : Z) (p : program) (ins : nat -> lk_in) (run : nat -> list lk_obs) : Prop :=
  (forall n, exists m, (n <= m)%nat /\ (cvalid (li_source (ins m)) = true \/ link_given (run m) = usb_written width p (link_packets (run m)))) /\
  (forall n, exists m, (n <= m)%nat /\ li_rready (ins m) = true).
