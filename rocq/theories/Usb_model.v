(** Models of lambdalib/cores/usb/endpoint_cdc.py, generic_device.py, utmi.py and of the device
    search of lambdalib/software/usb/device.py.  The LUNA and usb_protocol classes, usb1 and the Verilog
    wrapper are external: a LUNA endpoint is seen through the stream it offers or takes. *)
From Verif Require Import Stream Fifo_model Timing_model.

(** ** Endpoints, endpoint_cdc.py.  The first flag is not connected (reset value 0). *)
Definition ep_beat (b : beat Z) : beat Z := Beat false (blast b) (bdata b).
Definition ep_chan (c : chan Z) : chan Z := Chan (cvalid c) (ep_beat (cbeat c)).
(** USBSyncStreamOutEndpoint (34-39) and USBSyncStreamInEndpoint (81-86): wires. *)
Definition sync_endpoint : smod Z Z :=
  SMod unit tt (fun _ c => ep_chan c) (fun _ _ r => r) (fun _ _ _ => tt).
(** USBAsyncStreamOutEndpoint: a FIFO of 8 (49-53) written from the LUNA stream (63-66).  *)
Definition async_out_endpoint : circuit af_event af_obs :=
  let f := async_fifo 8 8 in
  Circuit (cst f) (creset f)
    (fun s e => match e with AfWrite c n => cout f s (AfWrite (ep_chan c) n) | AfRead r n => cout f s (AfRead r n) end)
    (fun s e => match e with AfWrite c n => cnext f s (AfWrite (ep_chan c) n) | AfRead r n => cnext f s (AfRead r n) end).
(** USBAsyncStreamInEndpoint: written by the user (96-100), read into the LUNA stream (110-113). *)
Definition async_in_endpoint : circuit af_event af_obs :=
  let f := async_fifo 8 8 in
  Circuit (cst f) (creset f)
    (fun s e => let o := cout f s e in
       AfObs (af_wr o) (map ep_beat (af_rdo o)) (option_map ep_chan (af_source o)) (af_level o))
    (cnext f).

(** ** USBGenericDevice, generic_device.py.  A size is (IN, OUT). *)
Definition gd_sizes (ep_sizes : option (list (Z * Z))) (ep_pairs : nat) (max_packet_size : Z) : list (Z * Z) :=   (* 56-60 *)
  match ep_sizes with None => repeat (max_packet_size, max_packet_size) ep_pairs | Some l => l end.
(** bEndpointAddress and wMaxPacketSize of the descriptors (106-116), k counting from [k]. *)
Fixpoint gd_descriptors (k : Z) (sizes : list (Z * Z)) : list (Z * Z) :=
  match sizes with
  | [] => []
  | (imax, omax) :: r =>
      (if negb (omax =? 0) then [(1 + k, omax)] else []) ++
      (if negb (imax =? 0) then [(Z.lor 128 (1 + k), imax)] else []) ++ gd_descriptors (k + 1) r
  end.
(** The endpoints of the gateware (182-202): direction, endpoint_number, max_packet_size and
    the index of the user stream it is connected to. *)
Inductive ep_dir := EpOut | EpIn.
Record hw_ep := HwEp { h_dir : ep_dir; h_num : Z; h_size : Z; h_stream : Z }.
Fixpoint gd_endpoints (k : Z) (sizes : list (Z * Z)) : list hw_ep :=
  match sizes with
  | [] => []
  | (i, o) :: r =>
      (if negb (o =? 0) then [HwEp EpOut (1 + k) o k] else []) ++
      (if negb (i =? 0) then [HwEp EpIn (1 + k) i k] else []) ++ gd_endpoints (k + 1) r
  end.
(** tx_activity / rx_activity (210-214) of one pair. *)
Definition gd_activity (valid ready : bool) : bool := valid && ready.

(** ** UTMITranslator, utmi.py: the part that is not in the Verilog core. *)
Definition por_cycles : Z := utmi_por_cycles.                                       (* 43 *)
Record ut_obs := UtObs { uto_dir : bool; uto_oe : bool; uto_rst : bool }.
Definition utmi_por : circuit bool ut_obs :=                                        (* input: dir *)
  Circuit Z (por_cycles - 1)                                                        (* 44 *)
    (fun cnt dir => UtObs dir (negb dir) (0 <? cnt))                                (* 47-48, 58-59 *)
    (fun cnt _ => if 0 <? cnt then trunc (range_width por_cycles) (cnt - 1) else cnt).   (* 45-46 *)

(** ** USBDevice.__init__, device.py:79-92: the device opened among the (vid, pid) of the list, by its
    position; None is the USBError raised at 91. *)
Fixpoint dev_search (vid pid idx index : Z) (at_ : nat) (l : list (Z * Z)) : option nat :=
  match l with
  | [] => None
  | (v, p) :: r =>
      if (v =? vid) && (p =? pid)
      then if index =? idx then Some at_ else dev_search vid pid idx (index + 1) (S at_) r
      else dev_search vid pid idx index (S at_) r
  end.
Definition dev_open (vid pid idx : Z) (l : list (Z * Z)) : option nat := dev_search vid pid idx 0 0 l.
