(** The I2C bridge seen from a stream (C151). *)
From Verif Require Import Stream I2c_model I2cstream_model I2cstream_spec I2cproto_model I2cproto_spec Bridge_model Bridge_spec Link_model.

(** The host's view of the exchanges, at the link. *)
Definition link_view (t : list lk_obs) : host * list exchange := host_view (map lo_link t).
(** Number of cycles for which a write request has been incomplete since its length byte. *)
Definition link_waited_step (st : (host * list exchange) * Z) (o : lk_obs) : (host * list exchange) * Z :=
  let v := host_step (fst st) (lo_link o) in
  (v, if is_data (fst (fst st)) && is_data (fst v) then snd st + 1 else 0).
Definition link_waited (t : list lk_obs) : Z := snd (fold_left link_waited_step t ((HIdle, []), 0)).

(** A host that sends bytes, waits for the whole answer before its next request and never asks
    for 0 bytes; if the data of a write has not all come within [limit] cycles of its length,
    the link offers the rest without a pause. *)
Definition good_link (limit : Z) (t : list lk_obs) : Prop :=
  forall t1 o t2, t = t1 ++ o :: t2 ->
    0 <= bdata (cbeat (o_sink (lo_link o))) < 256 /\
    (cvalid (o_sink (lo_link o)) && o_sready (lo_link o) = true ->
     match fst (link_view t1) with
     | HIdle | HData _ _ _ => True
     | HHeader h => is_read h = true -> bdata (cbeat (o_sink (lo_link o))) <> 0
     | _ => False
     end) /\
    (limit < link_waited t1 -> cvalid (o_sink (lo_link o)) = true).

(** What happens on the I2C bus. *)
Definition link_i2c (t : list lk_obs) : list ist_obs := map po_i2c (map lo_pr t).
