(** A program on the PC that uses I2CBus over the USB bridge (C153).  Programs, calls and what a
    call must have made of the I2C bus ([explained]) are as in Session_spec. *)
From Verif Require Import Stream I2c_model I2cstream_model I2cproto_model I2cproto_spec I2cbus_model Bridge_model Link_model Link_spec Session_spec Usbbus_model.

(** A call given the packets the device has sent: the bytes written, the reads that have
    returned, and, if the call has returned, its result and the packets it did not use. *)
Definition usb_so_far (width : Z) (c : bus_call) (pk : list (list Z)) : list Z * list (Z * list Z) * option (bus_result * list (list Z)) :=
  match c with
  | WriteBlock a g d =>
      let q := usb_write_block_data width a g d pk in
      (concat (u_written q), u_reads q, match u_result q with inl r => Some (Written r, u_left q) | inr _ => None end)
  | ReadBlock a g n =>
      let q := usb_read_block_data width a g n pk in
      (concat (u_written q), u_reads q, match u_result q with inl r => Some (Block r, u_left q) | inr _ => None end)
  | Probe a =>
      let q := usb_probe a pk in
      (concat (u_written q), u_reads q, match u_result q with inl r => Some (Present r, u_left q) | inr _ => None end)
  end.
(** A program: the bytes written, the reads returned, the calls returned with their results,
    whether it has ended and the packets it has left unread. *)
Fixpoint usb_written (width : Z) (p : program) (pk : list (list Z)) : list Z :=
  match p with
  | Finished => []
  | Do c k => fst (fst (usb_so_far width c pk)) ++
      match snd (usb_so_far width c pk) with Some (r, rest) => usb_written width (k r) rest | None => [] end
  end.
Fixpoint usb_reads (width : Z) (p : program) (pk : list (list Z)) : list (Z * list Z) :=
  match p with
  | Finished => []
  | Do c k => snd (fst (usb_so_far width c pk)) ++
      match snd (usb_so_far width c pk) with Some (r, rest) => usb_reads width (k r) rest | None => [] end
  end.
Fixpoint usb_history (width : Z) (p : program) (pk : list (list Z)) : list (bus_call * bus_result) :=
  match p with
  | Finished => []
  | Do c k => match snd (usb_so_far width c pk) with Some (r, rest) => (c, r) :: usb_history width (k r) rest | None => [] end
  end.
Fixpoint usb_ended (width : Z) (p : program) (pk : list (list Z)) : bool :=
  match p with
  | Finished => true
  | Do c k => match snd (usb_so_far width c pk) with Some (r, rest) => usb_ended width (k r) rest | None => false end
  end.
Fixpoint usb_unread (width : Z) (p : program) (pk : list (list Z)) : list (list Z) :=
  match p with
  | Finished => pk
  | Do c k => match snd (usb_so_far width c pk) with Some (r, rest) => usb_unread width (k r) rest | None => [] end
  end.

(** Each byte that enters the bridge is the next one the program has written, given the packets
    that have been completed before. *)
Definition driven_usb (width : Z) (p : program) (t : list lk_obs) : Prop :=
  forall t1 o t2, t = t1 ++ o :: t2 -> cvalid (o_sink (lo_link o)) && o_sready (lo_link o) = true ->
    exists later, map bdata (accepted (map lo_link t1)) ++ bdata (cbeat (o_sink (lo_link o))) :: later =
                  usb_written width p (packets (emitted (map lo_link t1))).
(** The values on the data lines are bytes; if the data of a write has not all come within
    [limit] cycles of its length, the link offers the rest without a pause (as [good_link]). *)
Definition link_bytes (t : list lk_obs) : Prop := Forall (fun o => 0 <= bdata (cbeat (o_sink (lo_link o))) < 256) t.
Definition link_in_time (limit : Z) (t : list lk_obs) : Prop :=
  forall t1 o t2, t = t1 ++ o :: t2 -> limit < link_waited t1 -> cvalid (o_sink (lo_link o)) = true.
