(** The panel on the other side of the I2C bus, written from the SSD1306
    controller's data sheet and not from /repo: what the controller does with the
    bytes of the I2C write packets addressed to it. *)
From Verif Require Import Stream.

(** Register settings, the addressing window, the RAM pointer and the RAM (by
    column and page), the bytes of a command still missing its arguments, and
    whether a command outside this list was received. *)
Record settings := Settings {
  d_on : bool; d_clock : Z; d_mux : Z; d_offset : Z; d_line : Z; d_pump : Z; d_mode : Z; d_remap : bool;
  d_comdec : bool; d_pins : Z; d_contrast : Z; d_precharge : Z; d_vcomh : Z; d_allon : bool; d_invert : bool }.
Record panel := Panel {
  p_cfg : settings; p_c0 : Z; p_c1 : Z; p_g0 : Z; p_g1 : Z; p_col : Z; p_page : Z; p_ram : Z -> Z -> Z;
  p_args : list Z; p_bad : bool }.

Definition set_cfg (f : settings -> settings) (p : panel) : panel :=
  Panel (f (p_cfg p)) (p_c0 p) (p_c1 p) (p_g0 p) (p_g1 p) (p_col p) (p_page p) (p_ram p) [] (p_bad p).
Definition set_args (l : list Z) (p : panel) : panel :=
  Panel (p_cfg p) (p_c0 p) (p_c1 p) (p_g0 p) (p_g1 p) (p_col p) (p_page p) (p_ram p) l (p_bad p).
Definition unknown (p : panel) : panel :=
  Panel (p_cfg p) (p_c0 p) (p_c1 p) (p_g0 p) (p_g1 p) (p_col p) (p_page p) (p_ram p) [] true.

(** Commands of one byte. *)
Definition cmd1 (c : Z) (p : panel) : panel :=
  if (0x40 <=? c) && (c <=? 0x7F) then
    set_cfg (fun s => Settings (d_on s) (d_clock s) (d_mux s) (d_offset s) (c - 0x40) (d_pump s) (d_mode s) (d_remap s) (d_comdec s) (d_pins s) (d_contrast s) (d_precharge s) (d_vcomh s) (d_allon s) (d_invert s)) p
  else if (c =? 0xA0) || (c =? 0xA1) then
    set_cfg (fun s => Settings (d_on s) (d_clock s) (d_mux s) (d_offset s) (d_line s) (d_pump s) (d_mode s) (c =? 0xA1) (d_comdec s) (d_pins s) (d_contrast s) (d_precharge s) (d_vcomh s) (d_allon s) (d_invert s)) p
  else if (c =? 0xA4) || (c =? 0xA5) then
    set_cfg (fun s => Settings (d_on s) (d_clock s) (d_mux s) (d_offset s) (d_line s) (d_pump s) (d_mode s) (d_remap s) (d_comdec s) (d_pins s) (d_contrast s) (d_precharge s) (d_vcomh s) (c =? 0xA5) (d_invert s)) p
  else if (c =? 0xA6) || (c =? 0xA7) then
    set_cfg (fun s => Settings (d_on s) (d_clock s) (d_mux s) (d_offset s) (d_line s) (d_pump s) (d_mode s) (d_remap s) (d_comdec s) (d_pins s) (d_contrast s) (d_precharge s) (d_vcomh s) (d_allon s) (c =? 0xA7)) p
  else if (c =? 0xAE) || (c =? 0xAF) then
    set_cfg (fun s => Settings (c =? 0xAF) (d_clock s) (d_mux s) (d_offset s) (d_line s) (d_pump s) (d_mode s) (d_remap s) (d_comdec s) (d_pins s) (d_contrast s) (d_precharge s) (d_vcomh s) (d_allon s) (d_invert s)) p
  else if (c =? 0xC0) || (c =? 0xC8) then
    set_cfg (fun s => Settings (d_on s) (d_clock s) (d_mux s) (d_offset s) (d_line s) (d_pump s) (d_mode s) (d_remap s) (c =? 0xC8) (d_pins s) (d_contrast s) (d_precharge s) (d_vcomh s) (d_allon s) (d_invert s)) p
  else unknown p.
(** Commands with one argument. *)
Definition has1 (c : Z) : bool := existsb (Z.eqb c) [0x20; 0x81; 0x8D; 0xA8; 0xD3; 0xD5; 0xD9; 0xDA; 0xDB].
Definition cmd2 (c a : Z) (p : panel) : panel :=
  if c =? 0xD5 then
    set_cfg (fun s => Settings (d_on s) a (d_mux s) (d_offset s) (d_line s) (d_pump s) (d_mode s) (d_remap s) (d_comdec s) (d_pins s) (d_contrast s) (d_precharge s) (d_vcomh s) (d_allon s) (d_invert s)) p
  else if c =? 0xA8 then
    set_cfg (fun s => Settings (d_on s) (d_clock s) a (d_offset s) (d_line s) (d_pump s) (d_mode s) (d_remap s) (d_comdec s) (d_pins s) (d_contrast s) (d_precharge s) (d_vcomh s) (d_allon s) (d_invert s)) p
  else if c =? 0xD3 then
    set_cfg (fun s => Settings (d_on s) (d_clock s) (d_mux s) a (d_line s) (d_pump s) (d_mode s) (d_remap s) (d_comdec s) (d_pins s) (d_contrast s) (d_precharge s) (d_vcomh s) (d_allon s) (d_invert s)) p
  else if c =? 0x8D then
    set_cfg (fun s => Settings (d_on s) (d_clock s) (d_mux s) (d_offset s) (d_line s) a (d_mode s) (d_remap s) (d_comdec s) (d_pins s) (d_contrast s) (d_precharge s) (d_vcomh s) (d_allon s) (d_invert s)) p
  else if c =? 0x20 then
    set_cfg (fun s => Settings (d_on s) (d_clock s) (d_mux s) (d_offset s) (d_line s) (d_pump s) a (d_remap s) (d_comdec s) (d_pins s) (d_contrast s) (d_precharge s) (d_vcomh s) (d_allon s) (d_invert s)) p
  else if c =? 0xDA then
    set_cfg (fun s => Settings (d_on s) (d_clock s) (d_mux s) (d_offset s) (d_line s) (d_pump s) (d_mode s) (d_remap s) (d_comdec s) a (d_contrast s) (d_precharge s) (d_vcomh s) (d_allon s) (d_invert s)) p
  else if c =? 0x81 then
    set_cfg (fun s => Settings (d_on s) (d_clock s) (d_mux s) (d_offset s) (d_line s) (d_pump s) (d_mode s) (d_remap s) (d_comdec s) (d_pins s) a (d_precharge s) (d_vcomh s) (d_allon s) (d_invert s)) p
  else if c =? 0xD9 then
    set_cfg (fun s => Settings (d_on s) (d_clock s) (d_mux s) (d_offset s) (d_line s) (d_pump s) (d_mode s) (d_remap s) (d_comdec s) (d_pins s) (d_contrast s) a (d_vcomh s) (d_allon s) (d_invert s)) p
  else
    set_cfg (fun s => Settings (d_on s) (d_clock s) (d_mux s) (d_offset s) (d_line s) (d_pump s) (d_mode s) (d_remap s) (d_comdec s) (d_pins s) (d_contrast s) (d_precharge s) a (d_allon s) (d_invert s)) p.
(** Commands with two arguments: the column and the page window; the RAM pointer
    goes to the window's start. *)
Definition has2 (c : Z) : bool := (c =? 0x21) || (c =? 0x22).
Definition cmd3 (c a b : Z) (p : panel) : panel :=
  if c =? 0x21 then Panel (p_cfg p) a b (p_g0 p) (p_g1 p) a (p_page p) (p_ram p) [] (p_bad p)
  else Panel (p_cfg p) (p_c0 p) (p_c1 p) a b (p_col p) a (p_ram p) [] (p_bad p).

Definition command (c : Z) (p : panel) : panel :=
  match p_args p with
  | [] => if has1 c || has2 c then set_args [c] p else cmd1 c p
  | [k] => if has2 k then set_args [k; c] p else cmd2 k c p
  | k :: a :: _ => cmd3 k a c p
  end.

(** A byte of display data is stored at the pointer.  In the horizontal mode (0)
    the pointer then moves along the columns of the window and, past the last,
    to the next page of the window; only that mode is described here. *)
Definition data_byte (d : Z) (p : panel) : panel :=
  let ram := fun x y => if (x =? p_col p) && (y =? p_page p) then d else p_ram p x y in
  if p_col p =? p_c1 p then
    Panel (p_cfg p) (p_c0 p) (p_c1 p) (p_g0 p) (p_g1 p) (p_c0 p) (if p_page p =? p_g1 p then p_g0 p else p_page p + 1) ram
      (p_args p) (p_bad p || negb (d_mode (p_cfg p) =? 0))
  else
    Panel (p_cfg p) (p_c0 p) (p_c1 p) (p_g0 p) (p_g1 p) (p_col p + 1) (p_page p) ram
      (p_args p) (p_bad p || negb (d_mode (p_cfg p) =? 0)).
Definition panel_byte (p : panel) (x : bool * Z) : panel := if fst x then data_byte (snd x) p else command (snd x) p.

(** ** The I2C side: a packet is the address byte 0x78 (the panel's address 0x3C,
    writing), a control byte (0x00: commands follow; 0x40: display data follow),
    and the bytes; packets end with last.  Any other packet is ignored. *)
Inductive rx_phase := RxIdle | RxControl | RxBytes (data : bool) | RxIgnore.
Definition rx_next (s : rx_phase) (b : beat (bool * Z)) : rx_phase :=
  if blast b then RxIdle else
  match s with
  | RxIdle => if negb (fst (bdata b)) && (snd (bdata b) =? 0x78) then RxControl else RxIgnore
  | RxControl => if snd (bdata b) =? 0x40 then RxBytes true else if snd (bdata b) =? 0x00 then RxBytes false else RxIgnore
  | _ => s
  end.
Fixpoint decode (s : rx_phase) (l : list (beat (bool * Z))) : list (bool * Z) :=
  match l with
  | [] => []
  | b :: l' => match s with RxBytes d => [(d, snd (bdata b))] | _ => [] end ++ decode (rx_next s b) l'
  end.
Definition panel_rx (p : panel) (l : list (beat (bool * Z))) : panel := fold_left panel_byte (decode RxIdle l) p.

(** ** What the user wants to see. *)
(** How the panels of each size are wired: the clock divider, the COM pin
    configuration and the first column. *)
Definition wiring (w h : Z) : Z * Z * Z :=
  if (w =? 96) && (h =? 16) then (0x60, 0x02, 0)
  else if (w =? 128) && (h =? 32) then (0x80, 0x02, 0)
  else if w =? 128 then (0x80, 0x12, 0)
  else (0x80, 0x12, 32).
(** A running panel of h lines: on, showing the RAM as it is, from line 0, with
    the charge pump on and horizontal addressing. *)
Definition running (w h : Z) : settings :=
  let '(clock, pins, _) := wiring w h in
  Settings true clock (h - 1) 0 0 0x14 0 true true pins 0x7F 0xF1 0x40 false false.
(** The picture after a series of bytes, [n] bytes to a frame: byte k of a frame
    replaces byte k of the picture, and a frame ends with last or after n bytes. *)
Fixpoint picture (n k : Z) (img : Z -> Z) (us : list (beat Z)) : Z -> Z :=
  match us with
  | [] => img
  | u :: us' =>
      picture n (if blast u || (k =? n - 1) then 0 else k + 1) (fun j => if j =? k then bdata u else img j) us'
  end.
