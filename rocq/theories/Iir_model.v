(** Model of lambdalib/cores/filter/iir.py: IIRFilter with the internal Multiplier
    (use_external_multiply=False) and fixed coefficients (dynamic=False).  The
    scipy design step is not modelled and the float to fixed point conversion (44-53)
    is in Iircoef_model: here the integer coefficients b_fp, a_fp and shift_c are parameters. *)
From Verif Require Import Stream Bits Math_model.

Inductive iir_fsm := FIdle | FRunB | FRunA | FWait | FOutput.
(** Registers: lines 97-101, 112-119, and the multiplier's output register. *)
Record iir_state := Iir {
  f_st : iir_fsm; f_idx : Z; f_i : list Z; f_o : list Z;
  f_mul : chan Z; f_cr : Z; f_vr : bool; f_lr : bool; f_sum : Z;
  f_first : bool; f_last : bool }.

Section IIR.
  Context (b a : list Z)                       (* b_fp, a_fp, lines 52-53 *)
          (width width_s width_c shift_c : Z).
  Definition iir_size : Z := Z.of_nat (length a).                        (* line 96 *)
  Definition shift_s : Z := width_s - width.                             (* line 74 *)
  Definition sh_s := Shape width_s true.
  Definition sh_c := Shape width_c true.
  Definition sh_acc := mul_shape sh_s sh_c.
  Definition the_mul := multiplier sh_s sh_c.                            (* line 108 *)
  (** lines 66-67 *)
  Definition b_reg (i : Z) : Z := wrap sh_c (nth (Z.to_nat i) b 0).
  Definition a_reg (i : Z) : Z := wrap sh_c (- nth (Z.to_nat i) a 0).

  (** mult_i, lines 146-150 and 160-165; mult_i.first is not driven *)
  Definition iir_mul_in (s : iir_state) : chan (Z * Z) :=
    match f_st s with
    | FRunB => Chan true (Beat false false (nth (Z.to_nat (f_idx s)) (f_i s) 0, b_reg (f_idx s)))
    | FRunA => Chan true (Beat false (f_idx s =? iir_size - 1)
                           (nth (Z.to_nat (f_idx s)) (f_o s) 0, a_reg (f_idx s)))
    | _ => Chan false (Beat false false (0, 0))
    end.
  (** source, lines 181-186 *)
  Definition iir_src (s : iir_state) : chan Z :=
    match f_st s with
    | FOutput => Chan true (Beat (f_first s) (f_last s)
                   (wrap (Shape width true) (Z.shiftr (f_sum s) (shift_c + shift_s))))
    | _ => Chan false (Beat false false 0)
    end.
  (** line 127 *)
  Definition iir_rdy (s : iir_state) : bool := match f_st s with FIdle => true | _ => false end.

  Definition iir_idx (x : Z) : Z := trunc (range_width iir_size) x.

  Definition iir_next (s : iir_state) (c : chan Z) (r : bool) : iir_state :=
    let mi := iir_mul_in s in
    let mready := rdy the_mul (f_mul s) mi true in                       (* mult_o.ready = 1, line 192 *)
    let mul' := nxt the_mul (f_mul s) mi true in
    let acc := wrap sh_acc (f_sum s + f_cr s) in
    let sum' := if f_vr s then acc                                       (* lines 200-201, last assignment wins *)
                else match f_st s with FIdle => 0 | _ => f_sum s end in  (* line 125 *)
    (* lines 193-197: c_r, valid_r, last_r *)
    let mk st idx i o f l :=
      Iir st idx i o mul' (bdata (cbeat (f_mul s))) (cvalid (f_mul s)) (blast (cbeat (f_mul s))) sum' f l in
    match f_st s with
    | FIdle =>                                                           (* lines 124-142 *)
        if cvalid c then
          mk FRunB (f_idx s)
             (wrap sh_s (Z.shiftl (bdata (cbeat c)) shift_s) :: removelast (f_i s))
             (0 :: removelast (f_o s)) (bfirst (cbeat c)) (blast (cbeat c))
        else mk FIdle (f_idx s) (f_i s) (f_o s) (f_first s) (f_last s)
    | FRunB =>                                                           (* lines 144-156 *)
        if mready then
          if f_idx s <? iir_size - 1 then mk FRunB (iir_idx (f_idx s + 1)) (f_i s) (f_o s) (f_first s) (f_last s)
          else mk FRunA (iir_idx 1) (f_i s) (f_o s) (f_first s) (f_last s)
        else mk FRunB (f_idx s) (f_i s) (f_o s) (f_first s) (f_last s)
    | FRunA =>                                                           (* lines 158-171 *)
        if mready then
          if f_idx s <? iir_size - 1 then mk FRunA (iir_idx (f_idx s + 1)) (f_i s) (f_o s) (f_first s) (f_last s)
          else mk FWait 0 (f_i s) (f_o s) (f_first s) (f_last s)
        else mk FRunA (f_idx s) (f_i s) (f_o s) (f_first s) (f_last s)
    | FWait =>                                                           (* lines 173-176 *)
        mk (if f_vr s && f_lr s then FOutput else FWait) (f_idx s) (f_i s) (f_o s) (f_first s) (f_last s)
    | FOutput =>                                                         (* lines 178-188 *)
        mk (if r then FIdle else FOutput) (f_idx s) (f_i s)
           (wrap sh_s (Z.shiftr (f_sum s) shift_c) :: tl (f_o s)) (f_first s) (f_last s)
    end.

  Definition iir_reset : iir_state :=
    let z := repeat 0 (length a) in
    Iir FIdle 0 z z (st0 the_mul) 0 false false 0 false false.

  Definition iir_filter : smod Z Z :=
    SMod iir_state iir_reset (fun s _ => iir_src s) (fun s _ _ => iir_rdy s) iir_next.
End IIR.
