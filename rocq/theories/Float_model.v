(** Model of Python's float arithmetic as used by lambdalib to compute parameters (pll/,
    time/clk.py, spi/master.py, led/ws2812b.py, usb/ulpi.py, usb/utmi.py): IEEE 754 binary64,
    rounding to nearest, ties to even.  A float is its exact value, a rational.  Overflow,
    subnormal numbers, infinities, NaN and signed zero are left out: the values here lie
    between 2^-1022 and 2^1024 in magnitude or are 0. *)
From Coq Require Export ZArith QArith Qabs Qround Qpower Bool List.
Export ListNotations.

(** The integer nearest to [a / b], the even one of two. *)
Definition nearest (a b : Z) : Z :=
  let q := (a / b)%Z in
  match (2 * (a mod b) ?= b)%Z with
  | Lt => q
  | Gt => q + 1
  | Eq => if Z.even q then q else q + 1
  end.
(** [n / d] divided by [2 ^ e], as numerator and denominator. *)
Definition scaled (n d e : Z) : Z * Z := if (0 <=? e)%Z then (n, d * 2 ^ e)%Z else (n * 2 ^ (- e), d)%Z.
(** The exponent that gives [n / d] 53 bits before the point. *)
Definition exponent (n d : Z) : Z :=
  let k := (Z.log2 n - Z.log2 d)%Z in
  let (a, b) := scaled n d k in if (b <=? a)%Z then (k - 52)%Z else (k - 53)%Z.
Definition round_pos (n d : Z) : Q :=
  let e := exponent n d in
  let (a, b) := scaled n d e in
  let m := nearest a b in
  if (0 <=? e)%Z then inject_Z (m * 2 ^ e) else Qmake m (Z.to_pos (2 ^ (- e))).
(** The float nearest to a rational. *)
Definition rnd (q : Q) : Q :=
  let q := Qred q in
  match Qnum q with
  | Z0 => 0
  | Zpos n => round_pos (Zpos n) (Zpos (Qden q))
  | Zneg n => - round_pos (Zpos n) (Zpos (Qden q))
  end.

Open Scope Q_scope.
(** x * y, x / y, x - y, x + y.  An int operand below 2^53 is converted exactly. *)
Definition fmul (x y : Q) : Q := rnd (x * y).
Definition fdiv (x y : Q) : Q := rnd (x / y).
Definition fsub (x y : Q) : Q := rnd (x - y).
Definition fadd (x y : Q) : Q := rnd (x + y).
(** int(x), math.ceil(x): exact; int truncates towards 0. *)
Definition fint (x : Q) : Z := if Qle_bool 0 x then Qfloor x else (- Qfloor (- x))%Z.
Definition fceil (x : Q) : Z := Qceiling x.
(** x // y for y > 0, as CPython computes it (Objects/floatobject.c, _float_div_mod): the
    remainder is exact, the quotient is then found by dividing and snapping to an
    integer. *)
Definition ffloordiv (x y : Q) : Q :=
  let m := x - y * inject_Z (Qfloor (x / y)) in
  let div := fdiv (fsub x m) y in
  let fl := inject_Z (Qfloor div) in
  if negb (Qle_bool (fsub div fl) (1 # 2)) then fadd fl 1 else fl.

(** Decimal constants are converted to the nearest float. *)
Definition dec (q : Q) : Q := rnd q.
