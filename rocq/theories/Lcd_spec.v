(** Specification vocabulary for the SSD1306 driver. *)
From Verif Require Import Stream Mem_model Lcd_model Mem_spec.

(** ** The wrapper *)
(** The I2C bytes an SSD1306 write packet starts with, and its data bytes. *)
Definition addr_beat : beat (bool * Z) := Beat false false (false, 0x78).
Definition ctrl_beat (d_cn : bool) : beat (bool * Z) := Beat false false (false, if d_cn then 0x40 else 0x00).
Definition data_beat (b : beat (bool * Z)) : beat (bool * Z) := Beat false (blast b) (false, snd (bdata b)).
(** The I2C write packet for a packet of display bytes. *)
Definition lcd_frame (p : list (beat (bool * Z))) : list (beat (bool * Z)) :=
  addr_beat :: ctrl_beat (match p with b :: _ => fst (bdata b) | [] => false end) :: map data_beat p.

(** The bytes handed to the I2C layer, each with the i2c_error level of its transfer. *)
Definition lw_sent (t : list lw_obs) : list (beat (bool * Z) * bool) :=
  flat_map (fun o => map (fun b => (b, lo_err o)) (xfer (o_src (lo_io o)) (o_rready (lo_io o)))) t.
Definition lw_taken (t : list lw_obs) : list (beat (bool * Z)) := accepted (map lo_io t).

(** [l] is what is sent for the packet [p]: a refused address alone, or the whole
    I2C packet. *)
Definition carries (p : list (beat (bool * Z))) (l : list (beat (bool * Z) * bool)) : Prop :=
  match l with
  | [] => False
  | (a, refused) :: l' => if refused then a = addr_beat /\ l' = [] else map fst l = lcd_frame p
  end.
Definition no_last {A} (p : list (beat A)) : Prop := Forall (fun b => blast b = false) p.
(** A complete packet: last on its final beat and only there. *)
Definition whole {A} (p : list (beat A)) : Prop := exists q b, p = q ++ [b] /\ no_last q /\ blast b = true.

(** ** The driver *)
(** What the driver feeds the wrapper: commands are packets of one byte. *)
Definition cmd_beat (d : Z) : beat (bool * Z) := Beat false true (false, d).
Definition cmds (ds : list Z) : list (beat (bool * Z)) := map cmd_beat ds.
(** The blank frame: [n] zero bytes of display data, last on the final one. *)
Definition blank (n : nat) : list (beat (bool * Z)) := repeat (Beat false false (true, 0)) (n - 1) ++ [Beat false true (true, 0)].
(** The start-up sequence. *)
Definition boot (g : lcd) : list (beat (bool * Z)) :=
  cmds (init_cmds g) ++ cmds (display_cmds g) ++ blank (Z.to_nat (l_size g)).
(** User bytes as display data: the addressing sequence before each frame; a frame
    ends at last or after the screen's size.  [k]: bytes of the frame already sent. *)
Fixpoint show (g : lcd) (k : Z) (us : list (beat Z)) : list (beat (bool * Z)) :=
  match us with
  | [] => []
  | u :: us' =>
      let final := blast u || (k =? l_size g - 1) in
      (if k =? 0 then cmds (display_cmds g) else []) ++
      Beat false final (true, bdata u) :: show g (if final then 0 else k + 1) us'
  end.
(** Where in its frame the next user byte is. *)
Fixpoint show_pos (g : lcd) (k : Z) (us : list (beat Z)) : Z :=
  match us with
  | [] => k
  | u :: us' => show_pos g (if blast u || (k =? l_size g - 1) then 0 else k + 1) us'
  end.

(** User bytes accepted; bytes accepted by the wrapper. *)
Definition ld_user (t : list ld_obs) : list (beat Z) := flat_map (fun o => xfer (ld_sink o) (ld_sready o)) t.
Definition ld_fed (t : list ld_obs) : list (beat (bool * Z)) := lw_taken (map ld_wrap t).
(** The user's stream obeys the stream rule. *)
Definition ld_stable (t : list ld_obs) : Prop :=
  forall t1 o o' t2, t = t1 ++ o :: o' :: t2 -> cvalid (ld_sink o) = true -> ld_sready o = false -> ld_sink o' = ld_sink o.
(** The display is started once: reset is low from the first cycle after start-up. *)
Definition started_once (por : bool) (t : list ld_obs) : Prop :=
  forall t1 o t2 o' t3, t = t1 ++ o :: t2 ++ o' :: t3 -> ld_reset o || por = true -> ld_reset o' = false.
