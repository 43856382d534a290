(** Model of lambdalib/cores/filter/iir.py:44-53: the conversion of the filter
    coefficients from floats to fixed point, in binary64 ([Float_model]).  The design
    step (28-42, scipy) is left out: the coefficients are any floats. *)
From Verif Require Import Float_model.
Local Open Scope Q_scope.

(** A binary64 number (without the limits of the exponent). *)
Definition is_float (v : Q) : Prop := exists m e : Z, (Z.abs m <= 2 ^ 53)%Z /\ v == inject_Z m * 2 ^ e.
(** 46: max(map(abs, coeffs)) *)
Definition coef_max (l : list Q) : Q := fold_right (fun v m => if Qle_bool (Qabs v) m then m else Qabs v) 0 l.
(** [n] is math.ceil(math.log2(x)).  The library's log2 is not modelled further than this:
    with an error below one unit in the last place, its result is at most k when x <= 2^k,
    and log2(x) exceeds it by less than 2^-42, whence the factor. *)
Definition log2_ceil (x : Q) (n : Z) : Prop := 2 ^ (n - 1) < x /\ x <= 2 ^ n * (1 + 2 ^ (-40)).
(** 47: nbits *)
Definition iir_nbits (b a : list Q) (n : Z) : Prop := log2_ceil (fadd (coef_max (b ++ a)) 1) n.
(** 48: shift_c *)
Definition iir_shift (width_c n : Z) : Z := (width_c - n - 1)%Z.
(** 52, 53: int(v * 2**shift) *)
Definition to_fixed (shift : Z) (v : Q) : Z := fint (fmul v (2 ^ shift)).
