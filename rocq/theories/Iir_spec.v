(** The difference equation of a direct-form IIR filter in fixed point. *)
From Verif Require Import Stream.

(** two's complement wrap to w bits *)
Definition swrap (w x : Z) : Z := (x + 2 ^ (w - 1)) mod 2 ^ w - 2 ^ (w - 1).

Fixpoint zsum (l : list Z) : Z := match l with [] => 0 | x :: r => x + zsum r end.

Section Spec.
  Context (b a : list Z) (width width_s width_c shift_c : Z).
  Let size := length a.
  Let shift_s := width_s - width.
  (** stored output sample from an accumulator value *)
  Definition y_of (acc : Z) : Z := swrap width_s (Z.shiftr acc shift_c).
  (** accumulators, newest first, for the samples [xs], newest first:
      acc[n] = sum_{0<=i<size} b_i * (x[n-i] << shift_s) - sum_{1<=i<size} a_i * y[n-i] *)
  Fixpoint accs (xs : list Z) : list Z :=
    match xs with
    | [] => []
    | _ :: r =>
        let ys := map y_of (accs r) in
        swrap (width_s + width_c)
          (zsum (map (fun i => nth i b 0 * (nth i xs 0 * 2 ^ shift_s)) (seq 0 size))
           - zsum (map (fun i => nth i a 0 * nth (i - 1) ys 0) (seq 1 (size - 1)))) :: accs r
    end.
  (** what the filter delivers for the accepted beats, oldest first *)
  Definition iir_out (l : list (beat Z)) : list (beat Z) :=
    map (fun p => Beat (bfirst (fst p)) (blast (fst p))
                    (swrap width (Z.shiftr (snd p) (shift_c + shift_s))))
        (combine l (rev (accs (rev (map bdata l))))).
End Spec.
