(** Model of I2CBus (lambdalib/software/i2c/bus.py) when [dev] is an endpoint of a USBDevice
    (examples/i2c_bridge_soft.py:15-16, lambdalib/software/usb/device.py:38-64): [dev.write] is
    [send], [dev.read] is [recv].  What [recv] gets are USB packets, not bytes. *)
From Verif Require Import Stream I2cbus_model.

(** The packets the USB device has sent: its IN endpoint sends one when the stream it is given
    has a beat with last (lambdalib/cores/usb/endpoint_cdc.py, C103).  Simplification: no packet
    is as long as the largest packet of the endpoint (512 bytes), which would be sent without
    waiting for last; I2CProto's answers have 255 bytes at most. *)
Fixpoint packets_from (open : list Z) (l : list (beat Z)) : list (list Z) :=
  match l with
  | [] => []
  | b :: r => if blast b then (open ++ [bdata b]) :: packets_from [] r else packets_from (open ++ [bdata b]) r
  end.
Definition packets (l : list (beat Z)) : list (list Z) := packets_from [] l.

(** recv(length), device.py:47-64: one bulk transfer of at most [len] bytes; it ends with the next
    packet, as that is a short one.  [None]: no packet yet, the call waits.  Of a packet longer
    than asked for the rest is lost (the status of the transfer is not looked at, C120). *)
Definition recv (len : Z) (pk : list (list Z)) : option (list Z * list (list Z)) :=
  match pk with [] => None | q :: r => Some (firstn (Z.to_nat len) q, r) end.

(** A call: the buffers sent, the reads that have returned (the length asked for, the packet
    that came), the packets left, and a result; or it waits; or it raises. *)
Inductive unfinished := Waiting | Raised (e : py_error).
Record ucall (A : Type) := UCall {
  u_written : list (list Z); u_reads : list (Z * list Z); u_left : list (list Z); u_result : A + unfinished }.
Arguments UCall {A}. Arguments u_written {A}. Arguments u_reads {A}. Arguments u_left {A}. Arguments u_result {A}.

(** One request, as [request]: bus.py:39-44, 57-62, 65-70. *)
Definition usb_request (buf : list Z) (pk : list (list Z)) : ucall bool :=
  match bytearray buf with
  | None => UCall [] [] pk (inr (Raised ValueError))
  | Some b =>
      match recv 1 pk with
      | None => UCall [b] [] pk (inr Waiting)
      | Some ([], r) => UCall [b] [(1, hd [] pk)] r (inr (Raised IndexError))
      | Some (s :: _, r) => UCall [b] [(1, hd [] pk)] r (inl (s =? 0))
      end
  end.

(** write_block_data, bus.py:27-46. *)
Definition usb_write_block_data (width addr reg : Z) (data : list Z) (pk : list (list Z)) : ucall (option Z) :=
  let q := usb_request (Z.lor (Z.shiftl addr 1) 0 :: width / 8 + Z.of_nat (length data) :: reg_array width reg ++ data) pk in
  UCall (u_written q) (u_reads q) (u_left q)
    match u_result q with
    | inl true => inl (Some (Z.of_nat (length data)))
    | inl false => inl None
    | inr e => inr e
    end.

(** read_block_data, bus.py:48-73. *)
Definition usb_read_block_data (width addr reg len : Z) (pk : list (list Z)) : ucall (option (list Z)) :=
  let q := usb_request (Z.lor (Z.shiftl addr 1) 0 :: width / 8 :: reg_array width reg) pk in
  match u_result q with
  | inr e => UCall (u_written q) (u_reads q) (u_left q) (inr e)
  | inl false => UCall (u_written q) (u_reads q) (u_left q) (inl None)
  | inl true =>
      let q2 := usb_request [Z.lor (Z.shiftl addr 1) 1; len] (u_left q) in
      let w := u_written q ++ u_written q2 in
      let r := u_reads q ++ u_reads q2 in
      match u_result q2 with
      | inr e => UCall w r (u_left q2) (inr e)
      | inl false => UCall w r (u_left q2) (inl None)
      | inl true =>
          match recv len (u_left q2) with
          | None => UCall w r (u_left q2) (inr Waiting)
          | Some (block, more) => UCall w (r ++ [(len, hd [] (u_left q2))]) more (inl (Some block))
          end
      end
  end.

(** One address of discover, bus.py:79-87. *)
Definition usb_probe (addr : Z) (pk : list (list Z)) : ucall bool := usb_request [Z.lor (Z.shiftl addr 1) 0; 0] pk.

(** discover_queue, bus.py:101-121: one read for the 128 answers; the addresses printed as
    present are given. *)
Definition usb_discover_queue (pk : list (list Z)) : ucall (list Z) :=
  let buf := flat_map (fun a => [Z.lor (Z.shiftl (Z.of_nat a) 1) 0; 0]) (seq 0 128) in
  match bytearray buf with
  | None => UCall [] [] pk (inr (Raised ValueError))
  | Some b =>
      match recv 128 pk with
      | None => UCall [b] [] pk (inr Waiting)
      | Some (status, r) => UCall [b] [(128, hd [] pk)] r
          (inl (map (fun x => Z.of_nat (fst x)) (filter (fun x => snd x =? 0) (combine (seq 0 128) status))))
      end
  end.
