(** Specification: IEEE-754 binary32 magnitudes. *)
From Verif Require Import Hdl.

(** Value of the non-negative finite binary32 with encoding [u] (31 bits), in
    units of 2^-149: exponent field e = u / 2^23, fraction m = u mod 2^23. *)
Definition f32_mag (u : Z) : Z :=
  let e := u / 2 ^ 23 in
  let m := u mod 2 ^ 23 in
  if e =? 0 then m else (2 ^ 23 + m) * 2 ^ (e - 1).

(** [w] is the binary32 encoding of the integer [x] rounded toward zero: the sign
    bit is that of x, the magnitude is finite and the largest one not above |x|. *)
Definition f32_rtz (x w : Z) : Prop :=
  exists u, w = u + (if x <? 0 then 2 ^ 31 else 0) /\ 0 <= u < 255 * 2 ^ 23 /\
    f32_mag u <= Z.abs x * 2 ^ 149 < f32_mag (u + 1).

(** The integer a 32-bit word denotes in two's complement. *)
Definition int32 (d : Z) : Z := if d <? 2 ^ 31 then d else d - 2 ^ 32.
