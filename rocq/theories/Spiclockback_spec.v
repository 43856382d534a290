(** Vocabulary for C160: the answers of an SPI slave with a clock of its own. *)
From Verif Require Import Stream Spimaster_model Spislave_model Spilink_model Spilink_spec.

(** A run of the two boards: for each cycle of the host's clock, the edges of the
    slave's clock in it. *)
Definition joint := list (host_obs * list sl_obs).
Definition slave_edges (l : joint) : list sl_obs := concat (map snd l).
(** The slave finds the clock and the chip select as the host drives them. *)
Definition agrees (o : sl_obs) (h : host_obs) : Prop :=
  p_clk (so_pins o) = p_clk (pins_of h) /\ p_cs_n (so_pins o) = p_cs_n (pins_of h).
Definition finds (l : joint) : Prop :=
  Forall (fun x => Forall (fun o => agrees o (fst x)) (snd x)) l.
(** The host sees, in each of its cycles, a level the slave's data line has during
    this cycle: the level before one of the slave's edges in it ([so_dq_o] is the level
    before the edge), or the one after the last, which is the level before the next
    edge.  (miso is line 1 of the data input of the host, master.py:81-86.) *)
Definition sees (l : joint) : Prop :=
  forall l1 x l2, l = l1 ++ x :: l2 -> slave_edges l2 <> [] ->
    exists o, In o (snd x ++ firstn 1 (slave_edges l2)) /\ mo_dq_i (ho_phy (fst x)) = 2 * so_dq_o o.
(** In any [w] consecutive cycles of the host, the slave has at least [m] edges. *)
Definition edges_in (m w : nat) (l : joint) : Prop :=
  forall a b c, l = a ++ b ++ c -> length b = w -> (m <= length (slave_edges b))%nat.
