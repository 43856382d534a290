(** The I2C bridge seen from its UART (C122). *)
From Verif Require Import Stream I2c_model I2cstream_model I2cstream_spec I2cproto_model I2cproto_spec Serial_model Bridge_model.

(** The bytes crossing the UART in one cycle: taken from the receiver, handed to the
    transmitter. *)
Definition uart (o : br_obs) : obs Z Z :=
  Obs (Chan (uo_rx_rdy (bo_us o)) (Beat false false (uo_rx_data (bo_us o)))) (uo_rx_ack (bo_us o))
      (uo_sink (bo_us o)) (uo_sready (bo_us o)).
(** The host's view of the exchanges, at the UART. *)
Definition uart_view (t : list br_obs) : host * list exchange := host_view (map uart t).

(** Number of cycles for which a write request has been incomplete since its length byte. *)
Definition is_data (h : host) : bool := match h with HData _ _ _ => true | _ => false end.
Definition waited_step (st : (host * list exchange) * Z) (o : br_obs) : (host * list exchange) * Z :=
  let v := host_step (fst st) (uart o) in
  (v, if is_data (fst (fst st)) && is_data (fst v) then snd st + 1 else 0).
Definition waited (t : list br_obs) : Z := snd (fold_left waited_step t ((HIdle, []), 0)).

(** A host that sends bytes, waits for the whole answer before its next request, never
    asks for 0 bytes, and sends the data of a write within [limit] cycles of its length. *)
Definition good_user (limit : Z) (t : list br_obs) : Prop :=
  forall t1 o t2, t = t1 ++ o :: t2 ->
    0 <= uo_rx_data (bo_us o) < 256 /\
    (uo_rx_rdy (bo_us o) && uo_rx_ack (bo_us o) = true ->
     match fst (uart_view t1) with
     | HIdle | HData _ _ _ => True
     | HHeader h => is_read h = true -> uo_rx_data (bo_us o) <> 0
     | _ => False
     end) /\
    waited t1 <= limit.

(** What happens on the I2C bus. *)
Definition i2c_of (t : list br_obs) : list ist_obs := map po_i2c (map bo_pr t).
