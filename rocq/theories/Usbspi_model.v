(** Model of USBEndpoint.exchange (lambdalib/software/usb/device.py:66-68) over the SPI bridge
    (examples/spi_bridge.py, examples/spi_bridge_soft.py) and of recv on the slave's side.
    The USB device core (LUNA) and libusb are not in the repository; what is assumed of them is
    written down here.  Where LUNA's behaviour depends on its version or settings there is a
    parameter: [every] and [zlp]. *)
From Verif Require Import Stream.

(** An OUT transfer, device.py:36-45: libusb cuts the bytes into packets of [size] bytes (the
    largest packet, 512), the last one may be shorter.  The OUT endpoint hands the bytes on
    one by one and marks with last the end of a short packet and, if [every], the end of a full
    one too (endpoint_cdc.py:36, 63: last is passed on).  [room]: bytes still missing in the packet.
    Transfers of 0 bytes are not modelled. *)
Fixpoint out_beats (every : bool) (size room : Z) (data : list Z) : list (beat Z) :=
  match data with
  | [] => []
  | x :: r =>
      let full := room =? 1 in
      Beat false (if full then every else match r with [] => true | _ => false end) x
        :: out_beats every size (if full then size else room - 1) r
  end.

(** The IN endpoint collects the bytes it is given and sends a packet when it has [size] of them
    or at last (endpoint_cdc.py:84, 113).  If [zlp], a full packet whose last byte was marked is
    followed by an empty one. *)
Fixpoint in_packets (zlp : bool) (size : Z) (open : list Z) (l : list (beat Z)) : list (list Z) :=
  match l with
  | [] => []
  | b :: r =>
      let p := open ++ [bdata b] in
      let full := Z.of_nat (length p) =? size in
      if blast b then p :: (if zlp && full then [[]] else []) ++ in_packets zlp size [] r
      else if full then p :: in_packets zlp size [] r
      else in_packets zlp size p r
  end.

(** recv(len), device.py:47-64, without a timeout: a bulk transfer takes packets until it has [len] bytes or a
    packet was short; [None]: it waits.  What comes beyond [len] is lost (the status of the
    transfer is not looked at, C120). *)
Fixpoint bulk_in (size len : Z) (acc : list Z) (pk : list (list Z)) : option (list Z * list (list Z)) :=
  match pk with
  | [] => None
  | q :: r =>
      let got := acc ++ q in
      if (Z.of_nat (length q) <? size) || (len <=? Z.of_nat (length got)) then Some (firstn (Z.to_nat len) got, r)
      else bulk_in size len got r
  end.

(** A program that calls exchange; each call may depend on the results before it. *)
Inductive xprogram := XDone | Exchange (data : list Z) (next : list Z -> xprogram).

(** What the program has done when the device has sent the packets [pk]: the bytes sent, the
    calls that have returned with their results, and whether it has ended.
    exchange, device.py:66-68: send(data), then recv(len(data)). *)
Fixpoint xrun (every : bool) (size : Z) (p : xprogram) (pk : list (list Z)) : list (beat Z) * list (list Z * list Z) * bool :=
  match p with
  | XDone => ([], [], true)
  | Exchange d k =>
      match bulk_in size (Z.of_nat (length d)) [] pk with
      | None => (out_beats every size size d, [], false)
      | Some (r, pk') =>
          let '(w, h, e) := xrun every size (k r) pk' in
          (out_beats every size size d ++ w, (d, r) :: h, e)
      end
  end.

(** A program that only calls recv() (spi_bridge_soft.py:16-19): the results so far; the length
    is the endpoint's size, device.py:48-49.  Every packet ends such a transfer: it is short or
    has all the bytes asked for. *)
Fixpoint recv_all (size : Z) (pk : list (list Z)) : list (list Z) :=
  match pk with [] => [] | q :: r => firstn (Z.to_nat size) q :: recv_all size r end.
