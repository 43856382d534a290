(** Model of lambdalib/cores/filter/iir.py: IIRFilter with dynamic=True and
    use_external_multiply=True.  The coefficient registers b_regs, a_regs (60-63; the user
    drives them from outside) and the multiplier's side of mult_i / mult_o (80-84, 104-105)
    are inputs.  The scipy design and the float conversion (28-55) are left out as in
    Iir_model.  With dynamic=False the registers are constants (66-67); with an internal
    multiplier the circuit is closed by it (107-110), see [iirx_internal]. *)
From Verif Require Import Stream Bits Math_model Iir_model.

(** The coefficient registers in a cycle: b_regs and a_regs (which hold minus a_i). *)
Record coefs := Coefs { cf_b : Z -> Z; cf_na : Z -> Z }.
Record ix_in := IxIn { xi_sink : chan Z; xi_rready : bool; xi_cf : coefs;
                       xi_mready : bool; xi_mo : chan Z }.
(** One cycle: both streams, the coefficients, the operands offered to the multiplier,
    mult_i.ready, and mult_o (mult_o.ready is 1, line 192). *)
Record ix_obs := IxObs { xo_io : obs Z Z; xo_cf : coefs; xo_mi : chan (Z * Z); xo_mready : bool; xo_mo : chan Z }.
(** Registers: lines 97-101, 112-119, the FSM. *)
Record ix_state := Ix { x_st : iir_fsm; x_idx : Z; x_i : list Z; x_o : list Z;
                        x_cr : Z; x_vr : bool; x_lr : bool; x_sum : Z; x_first : bool; x_last : bool }.

Section Iirx.
  Context (size : nat) (width width_s width_c shift_c : Z).
  Definition ix_acc_shape := mul_shape (Shape width_s true) (Shape width_c true).       (* 112, 115: Signal.like(mult_o.c) *)
  Definition ix_idx (x : Z) : Z := trunc (range_width (Z.of_nat size)) x.               (* 97 *)
  (** mult_i, lines 146-150 and 160-165; mult_i.first is not driven *)
  Definition ix_mi (s : ix_state) (k : coefs) : chan (Z * Z) :=
    match x_st s with
    | FRunB => Chan true (Beat false false (nth (Z.to_nat (x_idx s)) (x_i s) 0, cf_b k (x_idx s)))
    | FRunA => Chan true (Beat false (x_idx s =? Z.of_nat size - 1) (nth (Z.to_nat (x_idx s)) (x_o s) 0, cf_na k (x_idx s)))
    | _ => Chan false (Beat false false (0, 0))
    end.
  (** source, lines 181-186 *)
  Definition ix_src (s : ix_state) : chan Z :=
    match x_st s with
    | FOutput => Chan true (Beat (x_first s) (x_last s)
                   (wrap (Shape width true) (Z.shiftr (x_sum s) (shift_c + (width_s - width)))))
    | _ => Chan false (Beat false false 0)
    end.
  Definition ix_rdy (s : ix_state) : bool := match x_st s with FIdle => true | _ => false end.   (* 127 *)

  Definition ix_next (s : ix_state) (i : ix_in) : ix_state :=
    let c := xi_sink i in
    let acc := wrap ix_acc_shape (x_sum s + x_cr s) in
    let sum' := if x_vr s then acc                                       (* lines 200-201, last assignment wins *)
                else match x_st s with FIdle => 0 | _ => x_sum s end in  (* line 125 *)
    (* lines 193-197: c_r, valid_r, last_r *)
    let mk st idx li lo f l :=
      Ix st idx li lo (bdata (cbeat (xi_mo i))) (cvalid (xi_mo i)) (blast (cbeat (xi_mo i))) sum' f l in
    match x_st s with
    | FIdle =>                                                           (* lines 124-142 *)
        if cvalid c then
          mk FRunB (x_idx s)
             (wrap (Shape width_s true) (Z.shiftl (bdata (cbeat c)) (width_s - width)) :: removelast (x_i s))
             (0 :: removelast (x_o s)) (bfirst (cbeat c)) (blast (cbeat c))
        else mk FIdle (x_idx s) (x_i s) (x_o s) (x_first s) (x_last s)
    | FRunB =>                                                           (* lines 144-156 *)
        if xi_mready i then
          if x_idx s <? Z.of_nat size - 1 then mk FRunB (ix_idx (x_idx s + 1)) (x_i s) (x_o s) (x_first s) (x_last s)
          else mk FRunA (ix_idx 1) (x_i s) (x_o s) (x_first s) (x_last s)
        else mk FRunB (x_idx s) (x_i s) (x_o s) (x_first s) (x_last s)
    | FRunA =>                                                           (* lines 158-171 *)
        if xi_mready i then
          if x_idx s <? Z.of_nat size - 1 then mk FRunA (ix_idx (x_idx s + 1)) (x_i s) (x_o s) (x_first s) (x_last s)
          else mk FWait 0 (x_i s) (x_o s) (x_first s) (x_last s)
        else mk FRunA (x_idx s) (x_i s) (x_o s) (x_first s) (x_last s)
    | FWait =>                                                           (* lines 173-176 *)
        mk (if x_vr s && x_lr s then FOutput else FWait) (x_idx s) (x_i s) (x_o s) (x_first s) (x_last s)
    | FOutput =>                                                         (* lines 178-188 *)
        mk (if xi_rready i then FIdle else FOutput) (x_idx s) (x_i s)
           (wrap (Shape width_s true) (Z.shiftr (x_sum s) shift_c) :: tl (x_o s)) (x_first s) (x_last s)
    end.

  Definition ix_reset : ix_state :=
    Ix FIdle 0 (repeat 0 size) (repeat 0 size) 0 false false 0 false false.

  Definition iirx : circuit ix_in ix_obs :=
    Circuit ix_state ix_reset
      (fun s i => IxObs (Obs (xi_sink i) (ix_rdy s) (ix_src s) (xi_rready i)) (xi_cf i) (ix_mi s (xi_cf i)) (xi_mready i) (xi_mo i))
      ix_next.
End Iirx.

(** The internal multiplier (107-110) and constant coefficients (66-67). *)
Section Internal.
  Context (b a : list Z) (width width_s width_c shift_c : Z).
  Let x := iirx (length a) width width_s width_c shift_c.
  Let mul := multiplier (Shape width_s true) (Shape width_c true).
  Definition const_coefs : coefs := Coefs (b_reg b width_c) (a_reg a width_c).
  Definition iirx_in (ms : chan Z) (s : ix_state) (i : chan Z * bool) : ix_in :=
    IxIn (fst i) (snd i) const_coefs (rdy mul ms (ix_mi (length a) s const_coefs) true) ms.
  Definition iirx_internal : circuit (chan Z * bool) ix_obs :=
    Circuit (ix_state * chan Z) (creset x, st0 mul)
      (fun s i => cout x (fst s) (iirx_in (snd s) (fst s) i))
      (fun s i => (cnext x (fst s) (iirx_in (snd s) (fst s) i),
                   nxt mul (snd s) (ix_mi (length a) (fst s) const_coefs) true)).
End Internal.
