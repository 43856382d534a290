(** Vocabulary for C155: a program that uses exchange over the SPI bridge. *)
From Verif Require Import Stream Spimaster_model Spimaster_props Spilink_model Spilink_spec Spixchg_props Usbspi_model.

Section Xchg.
  (** [size]: bytes in the largest USB packet; [every], [zlp]: Usbspi_model. *)
  Context (every zlp : bool) (size : Z).
  (** The packets the PC has got from the device. *)
  Definition got (t : list host_obs) : list (list Z) := in_packets zlp size [] (returned t).
  (** What the program has written, the calls that have returned with their results, whether it has ended. *)
  Definition xwritten (p : xprogram) (t : list host_obs) : list (beat Z) := fst (fst (xrun every size p (got t))).
  Definition xhistory (p : xprogram) (t : list host_obs) : list (list Z * list Z) := snd (fst (xrun every size p (got t))).
  Definition xended (p : xprogram) (t : list host_obs) : bool := snd (xrun every size p (got t)).

  (** The bridge is given nothing but what the program has written, in order. *)
  Definition xdriven (p : xprogram) (t : list host_obs) : Prop := exists later, xwritten p t = sent t ++ later.

  (** The calls of a program that work with every version of the endpoints: at least one byte,
      and less than a full packet if the device may send an empty packet. *)
  Definition fits_usb (data : list Z) : Prop := data <> [] /\ (every && zlp = true -> Z.of_nat (length data) < size).
  Fixpoint all_fit (p : xprogram) : Prop :=
    match p with XDone => True | Exchange d k => fits_usb d /\ forall r, all_fit (k r) end.
End Xchg.
(** Every call has at least one byte. *)
Fixpoint all_some (p : xprogram) : Prop :=
  match p with XDone => True | Exchange d k => d <> [] /\ forall r, all_some (k r) end.

(** Bytes [d] were put on the lines, most significant bits first, and [r] was read: one run of
    clock pulses per byte. *)
Definition on_pins (bw : Z) (d r : list Z) (runs : list (list (Z * Z))) : Prop :=
  Forall3 (fun x pulses y => map fst pulses = msb_first 8 bw x /\ y = number bw (map (sample bw) (map snd pulses))) d runs r.

(** An infinite run of the bridge: the first [n] cycles. *)
Definition host_cycles (bw div delay : Z) (ins : nat -> host_in) (n : nat) : list host_obs :=
  trace (spi_host 8 bw div delay) (map ins (seq 0 n)).
(** The USB link works: time and again it offers a byte, if the program has written one that the
    bridge has not taken, and takes one. *)
Definition xusb_works (every zlp : bool) (size : Z) (p : xprogram) (ins : nat -> host_in) (run : nat -> list host_obs) : Prop :=
  (forall n, exists m, (n <= m)%nat /\ (cvalid (hi_sink (ins m)) = true \/ xwritten every zlp size p (run m) = sent (run m))) /\
  (forall n, exists m, (n <= m)%nat /\ hi_ready (ins m) = true).
