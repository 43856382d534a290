(** Vocabulary for C162: an SPI slave with a clock of its own, whose edges may fall on
    the very moment the pins change. *)
From Verif Require Import Stream Spimaster_model Spislave_model Spilink_model Spilink_spec Spiclock_spec.

(** What the slave's flip-flops may take when the pins go from [old] to [new] at the
    edge: the clock pin and the chip select pin are found old or new, each on its own;
    the data lines are found as they are if they do not change, and otherwise anyhow. *)
Definition mixed (bw : Z) (old new q : pins) : Prop :=
  (p_clk q = p_clk old \/ p_clk q = p_clk new) /\
  (p_cs_n q = p_cs_n old \/ p_cs_n q = p_cs_n new) /\
  (p_dq old = p_dq new -> p_dq q = p_dq new) /\ 0 <= p_dq q < 2 ^ bw.

(** The edges of the slave's clock in one cycle of the host's: perhaps one as the cycle
    begins, which finds [g_blur], and then [g_clear] that find the pins of the cycle. *)
Record glimpse := Glimpse { g_blur : option pins; g_clear : nat }.
(** The number of edges, clear or not. *)
Definition g_edges (g : glimpse) : nat := (match g_blur g with Some _ => 1 | None => 0 end) + g_clear g.
Definition g_found (o : host_obs) (g : glimpse) : list pins :=
  (match g_blur g with Some q => [q] | None => [] end) ++ repeat (pins_of o) (g_clear g).
(** The pins as the slave finds them at its edges. *)
Definition glimpsed (t : list host_obs) (gs : list glimpse) : list pins :=
  flat_map (fun x => g_found (fst x) (snd x)) (combine t gs).
(** Where an edge falls on a change of the pins, they are found old or new (there is no
    change as the first cycle begins). *)
Definition blurred (bw : Z) (t : list host_obs) (gs : list glimpse) : Prop :=
  forall before o after gb g ga q, t = before ++ o :: after -> gs = gb ++ g :: ga -> length gb = length before ->
  g_blur g = Some q -> mixed bw (last (map pins_of before) (pins_of o)) (pins_of o) q.
(** The slave gets its clock edges while the host runs; in any [w] consecutive cycles of
    the host's clock there is a clear one. *)
Definition blurry (bw : Z) (w : nat) (gs : list glimpse) (u : list sl_obs) (t : list host_obs) : Prop :=
  length gs = length t /\ often w (map g_clear gs) /\ blurred bw t gs /\ map so_pins u = glimpsed t gs.
