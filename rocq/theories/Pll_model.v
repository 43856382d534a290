(** Model of lambdalib/cores/pll/lattice_ecp5.py and xilinx_7series.py, with the float
    arithmetic of [Float_model].  i_freq and o_freq are the integers kept in the object
    (int(i_freq), int(o_freq)).  The isinstance checks are typing here; the Instance
    construction is in [Pllinst_model]. *)
From Coq Require Export String Lia.
From Verif Require Export Float_model.
Open Scope Q_scope.

Definition between (lo x hi : Q) : bool := Qle_bool lo x && Qle_bool x hi.
Definition Qlt_bool (a b : Q) : bool := negb (Qle_bool b a).
Definition irange (a n : Z) : list Z := map (fun k => (a + Z.of_nat k)%Z) (seq 0 (Z.to_nat n)).   (* range(a, a + n) *)
(** Python's comparison of tuples. *)
Fixpoint lex_lt (a b : list Q) : bool :=
  match a, b with
  | x :: a', y :: b' => Qlt_bool x y || (Qeq_bool x y && lex_lt a' b')
  | _, _ => false
  end.
(** min(l, key=key): the first of the minimal elements; None is the ValueError raised on
    an empty list. *)
Definition min_key {A} (key : A -> list Q) (l : list A) : option A :=
  match l with
  | [] => None
  | x :: r => Some (fold_left (fun best y => if lex_lt (key y) (key best) then y else best) r x)
  end.

(** ** lattice_ecp5.py, Parameters *)
Record ecp5_set := Ecp5 { e_i_div : Z; e_fb_div : Z; e_op_div : Z }.
Section Ecp5.
  Context (i_freq o_freq : Z).
  Definition e_pfd (v : ecp5_set) : Q := fdiv (inject_Z i_freq) (inject_Z (e_i_div v)).                                (* 163 *)
  Definition e_vco (v : ecp5_set) : Q := fmul (fmul (e_pfd v) (inject_Z (e_fb_div v))) (inject_Z (e_op_div v)).        (* 168, 194, 199 *)
  Definition e_op (v : ecp5_set) : Q := fdiv (e_vco v) (inject_Z (e_op_div v)).                                        (* 171 *)
  Definition e_variants : list ecp5_set :=                                                          (* 161-174 *)
    flat_map (fun i_div =>
      if between 3125000 (fdiv (inject_Z i_freq) (inject_Z i_div)) 400000000 then
        flat_map (fun fb_div => flat_map (fun op_div =>
          let v := Ecp5 i_div fb_div op_div in
          if between 400000000 (e_vco v) 800000000 then
            if between 10000000 (e_op v) 400000000 then [v] else [] else [])
          (irange 1 128)) (irange 1 80) else []) (irange 1 128).
  Definition e_error (v : ecp5_set) : list Q :=                                                     (* 192-195 *)
    [Qabs (fsub (e_op v) (inject_Z o_freq)); Qabs (fsub (e_vco v) 600000000); Qabs (fsub (e_pfd v) 200000000)].
  Definition ecp5_settings : option ecp5_set := min_key e_error e_variants.                         (* 186-197 *)
  (** div of a secondary output (219): a float. *)
  Definition e_os_div (v : ecp5_set) (os_freq : Q) : Q := ffloordiv (e_vco v) os_freq.
  (** cphase of the primary output (200, 209) and of a secondary one (215, 220). *)
  Definition e_op_cphase (v : ecp5_set) : Q := fmul (fmul (fdiv 1 (e_op v)) (1 # 2)) (e_vco v).
  Definition e_os_cphase (v : ecp5_set) (os_freq os_phase : Q) : Q :=
    fadd (e_op_cphase v) (fmul (fdiv (fmul (fdiv 1 os_freq) os_phase) 360) (e_vco v)).
End Ecp5.

(** ** xilinx_7series.py, Parameters *)
Record xil_set := Xil { x_divclk : Z; x_mult : Z; x_div0 : Z }.
Section Xil.
  Context (i_freq o_freq : Z).
  (** The product of two ints is exact (170, 198, 207). *)
  Definition x_vco (v : xil_set) : Q := fdiv (inject_Z (i_freq * x_mult v)) (inject_Z (x_divclk v)).
  Definition x_out0 (v : xil_set) : Q := fdiv (x_vco v) (inject_Z (x_div0 v)).                           (* 175 *)
  Definition x_variants : list xil_set :=                                                                (* 166-178 *)
    flat_map (fun d => flat_map (fun k =>
      if between 800000000 (fdiv (inject_Z (i_freq * k)) (inject_Z d)) 1600000000 then
        flat_map (fun d0 => let v := Xil d k d0 in if between 6250000 (x_out0 v) 800000000 then [v] else []) (irange 1 128)
      else []) (rev (irange 2 63))) (irange 1 56).
  Definition x_error (v : xil_set) : list Q :=                                                           (* 196-200 *)
    [Qabs (fsub (x_out0 v) (inject_Z o_freq)); Qabs (fsub (x_vco v) 1200000000)].
  Definition xil_settings : option xil_set := min_key x_error x_variants.                                (* 190-202 *)
  (** div of a secondary output (220). *)
  Definition x_out_div (v : xil_set) (freq : Q) : Q := fdiv (x_vco v) freq.
  (** phase of a secondary output (221): (0.0 + phase) % 360.0, exact. *)
  Definition x_out_phase (phase : Q) : Q := phase - 360 * inject_Z (Qfloor (phase / 360)).
End Xil.

(** ** The Parameters object of both: secondary outputs added so far and, once frozen,
    the settings (ECP5 85-122, 124-159, 176-225; 7-series 77-127, 129-164, 180-225).
    [S]: the type of the settings, [settings] what compute finds, [lo] [hi] the frequency
    range of add_secondary_output, [most] the number of secondary outputs. *)
Inductive pll_op := AddSecondary (domain : string) (freq phase : Q) | Compute.   (* reading a property computes *)
Record pll_obj (S : Type) := PllObj { pl_outs : list (string * (Q * Q)); pl_set : option S; pl_os : list (string * (Q * Q)) }.
Arguments PllObj {S} _ _ _. Arguments pl_outs {S} _. Arguments pl_set {S} _. Arguments pl_os {S} _.
Section Obj.
  Context {S : Type} (settings : option S) (lo hi : Q) (most : nat).
  Definition pll_new : pll_obj S := PllObj [] None [].
  (** The new object, and whether the call returned normally.  [pl_os] are the computed
      secondary outputs, in order: os, os2, os3 / clkout1 .. clkout5 (domain, frequency,
      phase; the dividers are [e_os_div] and [x_out_div] of these). *)
  Definition pll_step (o : pll_obj S) (op : pll_op) : pll_obj S * bool :=
    match op with
    | AddSecondary d f p =>
        match pl_set o with
        | Some _ => (o, false)
        | None => if negb (between lo f hi) || negb (between 0 p 360) || Nat.eqb (length (pl_outs o)) most
                     || existsb (fun e => String.eqb d (fst e)) (pl_outs o)
                  then (o, false)
                  else (PllObj (pl_outs o ++ [(d, (f, p))]) None (pl_os o), true)
        end
    | Compute =>
        match pl_set o with
        | Some _ => (o, true)
        | None => match settings with
                  | None => (o, false)
                  | Some s => (PllObj (pl_outs o) (Some s) (pl_outs o), true)
                  end
        end
    end.
  Definition pll_run (ops : list pll_op) (o : pll_obj S) : pll_obj S := fold_left (fun o op => fst (pll_step o op)) ops o.
End Obj.
