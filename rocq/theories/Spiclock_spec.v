(** Vocabulary for C158: an SPI slave with a clock of its own. *)
From Verif Require Import Stream Spimaster_model Spislave_model Spilink_model Spilink_spec.

(** [ks] gives, for each cycle of the host's clock, the number of edges of the slave's
    clock in it.  The pins as the slave finds them at its edges. *)
Definition found (t : list host_obs) (ks : list nat) : list pins :=
  flat_map (fun x => repeat (pins_of (fst x)) (snd x)) (combine t ks).
(** In any [w] consecutive cycles of the host's clock, the slave's clock has an edge. *)
Definition often (w : nat) (ks : list nat) : Prop :=
  forall a b c, ks = a ++ b ++ c -> length b = w -> exists k, In k b /\ (0 < k)%nat.
(** The slave gets its clock edges while the host runs. *)
Definition clocked (w : nat) (ks : list nat) (u : list sl_obs) (t : list host_obs) : Prop :=
  length ks = length t /\ often w ks /\ map so_pins u = found t ks.
