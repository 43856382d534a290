(** Specification vocabulary for the register files; mentions no model. *)
From Verif Require Import Stream.

(** How many beats have come since the beat that last carried [last]. *)
Fixpoint since_last_from {A} (n : Z) (h : list (beat A)) : Z :=
  match h with
  | [] => n
  | b :: r => since_last_from (if blast b then 0 else n + 1) r
  end.
Definition since_last {A} (h : list (beat A)) : Z := since_last_from 0 h.

(** The register the beat following the beats [h] goes to: the position in the
    packet, wrapping at [length]. *)
Definition slot {A} (length : Z) (h : list (beat A)) : Z := since_last h mod length.

(** [v] is what register [k] must hold after the beats [h]: the payload of the
    latest beat that went to [k], or the reset value if there is none. *)
Inductive register_holds {A} (length : Z) (d0 : A) (k : Z) (h : list (beat A)) : A -> Prop :=
| RhNone : (forall a b c, h = a ++ b :: c -> slot length a <> k) -> register_holds length d0 k h d0
| RhSome a b c : h = a ++ b :: c -> slot length a = k ->
    (forall c1 x c2, c = c1 ++ x :: c2 -> slot length (a ++ b :: c1) <> k) ->
    register_holds length d0 k h (bdata b).
