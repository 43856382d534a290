(** Vocabulary for C166: the answers of an SPI slave whose clock edges may fall on a
    change of the pins. *)
From Verif Require Import Stream Spimaster_model Spislave_model Spilink_model Spilink_spec Spiclockback_spec.

(** A cycle of the host: perhaps an edge of the slave's clock that falls just where this
    cycle begins, when the pins are changing, and the slave's edges in the rest of it. *)
Record bcycle : Type := BCycle { b_host : host_obs; b_first : option sl_obs; b_rest : list sl_obs }.
Definition opt {A} (o : option A) : list A := match o with Some x => [x] | None => [] end.
Definition b_edges (l : list bcycle) : list sl_obs := concat (map (fun x => opt (b_first x) ++ b_rest x) l).
Definition clear_edges (l : list bcycle) : list sl_obs := concat (map b_rest l).
(** The slave finds the clock and the chip select as the host drives them; at an edge on a
    change of the pins, each of the two pins as it was before or as it is after. *)
Definition finds_clear (l : list bcycle) : Prop :=
  Forall (fun x => Forall (fun o => agrees o (b_host x)) (b_rest x)) l.
Definition finds_mixed (l : list bcycle) : Prop :=
  forall l1 a x l2 o, l = l1 ++ a :: x :: l2 -> b_first x = Some o ->
    In (p_clk (so_pins o)) [p_clk (pins_of (b_host a)); p_clk (pins_of (b_host x))] /\
    In (p_cs_n (so_pins o)) [p_cs_n (pins_of (b_host a)); p_cs_n (pins_of (b_host x))].
(** The host sees, in each of its cycles, a level the slave's data line has during this
    cycle: before one of the slave's edges in it, or after the last of them.  An edge on
    the change of the pins at the end of the cycle comes before the host's own if both pins
    are found as they were; the host may then also see the level after that edge. *)
Definition b_sees (l : list bcycle) : Prop :=
  forall l1 x l2, l = l1 ++ x :: l2 -> b_edges l2 <> [] ->
    exists o, mo_dq_i (ho_phy (b_host x)) = 2 * so_dq_o o /\
      (In o (b_rest x) \/ (exists q, b_edges l2 = o :: q) \/
       exists e y q l3, l2 = y :: l3 /\ b_first y = Some e /\ agrees e (b_host x) /\ b_edges l2 = e :: o :: q).
(** In any [w] consecutive cycles of the host, the slave has at least [m] edges that fall
    on no change of the pins. *)
Definition clear_in (m w : nat) (l : list bcycle) : Prop :=
  forall a b c, l = a ++ b ++ c -> length b = w -> (m <= length (clear_edges b))%nat.
