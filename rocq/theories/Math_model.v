(** Model of lambdalib/cores/float/{clz,i2f}.py and lambdalib/cores/math/multiplier.py. *)
From Verif Require Import Stream Bits.

(** ** CLZ, clz.py:4-19.  The loop of line 15 as a recursion on k = 5 - i: the
    current d has 2^k = 32 >> i bits and mid = 2^(k-1) = 16 >> i; clz[4-i] has
    weight 2^(k-1). *)
Fixpoint clz_loop (k : nat) (d : Z) : Z :=
  match k with
  | O => 0
  | S k' =>
      let mid := 2 ^ Z.of_nat k' in
      let b := slice mid mid d =? 0 in                        (* line 16 *)
      (if b then mid else 0) +
      clz_loop k' (if b then slice 0 mid d else slice mid mid d)   (* line 17 *)
  end.
Definition clz (d : Z) : Z := clz_loop 5 (trunc 32 d).

(** ** Int2Float, i2f.py:10-76.  Registers of the two stages, lines 23-34. *)
Record i2f_s1 := S1 { s1_valid : bool; s1_sign : bool; s1_abs : Z; s1_zero : bool; s1_last : bool }.
Record i2f_s2 := S2 { s2_valid : bool; s2_sign : bool; s2_expn : Z; s2_mant : Z; s2_last : bool }.

(** lines 52-62 *)
Definition i2f_load1 (c : chan Z) : i2f_s1 :=
  let x := bdata (cbeat c) in
  let low := slice 0 31 x in
  S1 (cvalid c) (Z.testbit x 31)
     (if Z.testbit x 31 then trunc 31 (0 - low) else trunc 31 low)
     (low =? 0) (blast (cbeat c)).
(** lines 36-39 and 64-74; Cat(1, s1_abs) has the constant in bit 0 *)
Definition i2f_clz (s : i2f_s1) : Z := trunc 5 (clz (cat 1 1 (s1_abs s))).
Definition i2f_load2 (s : i2f_s1) : i2f_s2 :=
  S2 (s1_valid s) (s1_sign s)
     (if s1_zero s then 0 else trunc 8 (157 - i2f_clz s))
     (trunc 31 (Z.shiftl (s1_abs s) (i2f_clz s)))
     (s1_last s).
(** lines 41-45; source.first is not driven *)
Definition i2f_word (s : i2f_s2) : Z :=
  cat 23 (slice 7 23 (s2_mant s)) (cat 8 (s2_expn s) (Z.b2z (s2_sign s))).
Definition i2f_src (s : i2f_s2) : chan Z := Chan (s2_valid s) (Beat false (s2_last s) (i2f_word s)).
(** lines 47-50 *)
Definition i2f_go (s : i2f_s1 * i2f_s2) (r : bool) : bool := negb (s2_valid (snd s) && negb r).

Definition int2float : smod Z Z :=
  SMod (i2f_s1 * i2f_s2) (S1 false false 0 false false, S2 false false 0 0 false)
    (fun s _ => i2f_src (snd s))
    (fun s _ r => i2f_go s r)
    (fun s c r => if i2f_go s r then (i2f_load1 c, i2f_load2 (fst s)) else s).

(** ** Shapes: width and signedness (amaranth.hdl Shape). *)
Record shape := Shape { sh_width : Z; sh_signed : bool }.
(** the value a signal of a shape takes when assigned an integer *)
Definition wrap (sh : shape) (x : Z) : Z :=
  if sh_signed sh then (x + 2 ^ (sh_width sh - 1)) mod 2 ^ sh_width sh - 2 ^ (sh_width sh - 1)
  else x mod 2 ^ sh_width sh.

(** multiplier_layout_o, multiplier.py:20-25 *)
Definition mul_shape (a b : shape) : shape :=
  Shape (sh_width a + sh_width b) (sh_signed a || sh_signed b).

(** ** Multiplier, multiplier.py:28-48: the state is the output register. *)
Definition multiplier (sa sb : shape) : smod (Z * Z) Z :=
  let en (s : chan Z) (r : bool) := negb (cvalid s) || r in          (* line 39 *)
  SMod (chan Z) (Chan false (Beat false false 0))
    (fun s _ => s)
    (fun s _ r => en s r)                                            (* line 40 *)
    (fun s c r =>
       if en s r then
         Chan (cvalid c) (Beat (bfirst (cbeat c)) (blast (cbeat c))
           (wrap (mul_shape sa sb)
                 (wrap sa (fst (bdata (cbeat c))) * wrap sb (snd (bdata (cbeat c))))))  (* lines 41-46 *)
       else s).
