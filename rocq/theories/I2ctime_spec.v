(** Vocabulary for C121: when the two I2C lines change. *)
From Verif Require Import Hdl I2c_model.

(** Line changes between cycle [n] and cycle [n + 1]. *)
Definition changes_at (p : i2c_obs -> bool) (t : list i2c_obs) (n : nat) : Prop :=
  exists o o', nth_error t n = Some o /\ nth_error t (S n) = Some o' /\ p o <> p o'.
Definition scl_rises (t : list i2c_obs) (n : nat) : Prop :=
  exists o o', nth_error t n = Some o /\ nth_error t (S n) = Some o' /\ io_scl o = false /\ io_scl o' = true.
(** Either line changes. *)
Definition line_moves (t : list i2c_obs) (n : nat) : Prop := changes_at io_scl t n \/ changes_at io_sda t n.
(** No command is taken after cycle [i], up to cycle [j]. *)
Definition same_command (t : list i2c_obs) (i j : nat) : Prop :=
  forall k o, (i < k <= j)%nat -> nth_error t k = Some o -> io_cmd o = None.
