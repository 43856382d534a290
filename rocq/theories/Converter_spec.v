(** What width conversion means, independently of the circuits. *)
From Verif Require Import Stream.

(** Cut a list of beats into groups of [k], a group also ending at a beat
    marked last.  Result: complete groups, and the incomplete remainder. *)
Definition group_step (k : Z) (acc : list (list (beat Z)) * list (beat Z)) (b : beat Z)
  : list (list (beat Z)) * list (beat Z) :=
  let cur := snd acc ++ [b] in
  if (Z.of_nat (length cur) =? k) || blast b then (fst acc ++ [cur], []) else (fst acc, cur).

Definition group (k : Z) (l : list (beat Z)) := fold_left (group_step k) l ([], []).

(** Position of the i-th narrow word inside the wide word. *)
Definition position (k : Z) (reverse : bool) (i : Z) : Z := if reverse then k - 1 - i else i.

(** Bits [n*p .. n*p+n-1] of a word. *)
Definition field (n p w : Z) : Z := (w / 2 ^ (n * p)) mod 2 ^ n.

(** [w] is a wide word carrying the group [g]. *)
Definition packs (n k : Z) (reverse : bool) (g : list (beat Z)) (w : beat Z) : Prop :=
  bfirst w = existsb bfirst g /\ blast w = existsb blast g /\
  0 <= bdata w < 2 ^ (n * k) /\
  forall i b, nth_error g i = Some b ->
    field n (position k reverse (Z.of_nat i)) (bdata w) = bdata b mod 2 ^ n.

(** The [k] narrow beats of a wide beat, in order. *)
Definition slices (n k : Z) (reverse : bool) (b : beat Z) : list (beat Z) :=
  map (fun i => Beat (bfirst b && Nat.eqb i 0) (blast b && Nat.eqb i (Z.to_nat k - 1))
                     (field n (position k reverse (Z.of_nat i)) (bdata b)))
      (seq 0 (Z.to_nat k)).
