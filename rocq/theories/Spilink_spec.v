(** Vocabulary for C117: an SPI host and an SPI slave joined by their pins. *)
From Verif Require Import Stream Spistream_model Spistream_props Spimaster_model Spislave_model Spislave_props Spilink_model.

(** The words handed to the host, in order. *)
Definition sent (t : list host_obs) : list (beat Z) := tx_in (map ho_app t).
(** The pins driven by the host: clock, chip select, data lines. *)
Definition pins_of (o : host_obs) : pins := Pins (mo_clk (ho_phy o)) (mo_cs_n (ho_phy o)) (mo_dq_o (ho_phy o)).
(** The values taken by the pins, after [p], without repetitions. *)
Definition pins_eqb (p q : pins) : bool := Bool.eqb (p_clk p) (p_clk q) && Bool.eqb (p_cs_n p) (p_cs_n q) && (p_dq p =? p_dq q).
Fixpoint changes (p : pins) (l : list pins) : list pins :=
  match l with [] => [] | q :: l' => if pins_eqb p q then changes p l' else q :: changes q l' end.
(** The slave has its own clock: it looks at the pins at its own times, often enough
    to see every value they take, and may be late.  (With a common clock both
    histories are the same.) *)
Definition watches (u : list sl_obs) (t : list host_obs) : Prop :=
  exists later, changes low (map pins_of t) = changes low (map so_pins u) ++ later.

(** The slave has looked at everything the host did: its synchronisers have passed the
    last value of the pins. *)
Definition caught_up (u : list sl_obs) (t : list host_obs) : Prop :=
  changes low (looked_at u) = changes low (map pins_of t).
(** A word taken by the host in one cycle. *)
Definition took (o : host_obs) : list (beat Z) := xfer (o_sink (so_tx (ho_app o))) (o_sready (so_tx (ho_app o))).
(** A list of words that ends with the end of a packet. *)
Definition whole_packets (ws : list (beat Z)) : Prop := ws = [] \/ exists ws' w, ws = ws' ++ [w] /\ blast w = true.
