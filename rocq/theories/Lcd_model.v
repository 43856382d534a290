(** Model of lambdalib/cores/lcd/ssd1306.py: SSD1306_Wrapper and SSD1306. *)
From Verif Require Import Stream Mem_model.

(** ** SSD1306_Wrapper, ssd1306.py:41-99.  Sink payload (d_cn, data); source payload
    (r_wn, data), r_wn being 0 (56); source.first is never driven. *)
Inductive lw_state := LwAddr | LwControl | LwData | LwError.

Section Wrapper.
  Implicit Types (s : lw_state) (c : chan (bool * Z)).
  Definition lw_src s c : chan (bool * Z) :=
    match s with
    | LwAddr => Chan (cvalid c) (Beat false false (false, 0x78))                            (* 61-64: 0x3C << 1 *)
    | LwControl => Chan (cvalid c) (Beat false false (false, if fst (bdata (cbeat c)) then 0x40 else 0))  (* 72-78 *)
    | LwData => Chan (cvalid c) (Beat false (blast (cbeat c)) (false, snd (bdata (cbeat c))))  (* 83-86 *)
    | LwError => Chan false (Beat false false (false, 0))
    end.
  Definition lw_rdy s (r : bool) : bool :=
    match s with LwData => r | LwError => true | _ => false end.                            (* 87, 95 *)
  Definition lw_next s c (r err : bool) : lw_state :=
    match s with
    | LwAddr => if cvalid c && r then if err then LwError else LwControl else LwAddr        (* 65-69 *)
    | LwControl => if cvalid c && r then LwData else LwControl                              (* 79-80 *)
    | LwData => if cvalid c && r && blast (cbeat c) then LwAddr else LwData                 (* 89-90 *)
    | LwError => if cvalid c && blast (cbeat c) then LwAddr else LwError                    (* 96-97 *)
    end.
End Wrapper.

(** One cycle: both streams and the i2c_error input. *)
Record lw_obs := LwObs { lo_io : obs (bool * Z) (bool * Z); lo_err : bool }.
Definition lcd_wrapper : circuit (chan (bool * Z) * bool * bool) lw_obs :=
  Circuit lw_state LwAddr
    (fun s '(c, r, e) => LwObs (Obs c (lw_rdy s r) (lw_src s c) r) e)
    (fun s '(c, r, e) => lw_next s c r e).

(** ** SSD1306, ssd1306.py:102-270. *)
(** Screen settings (125-139): width, height, clockdiv, compins, colstart. *)
Record lcd := Lcd { l_width : Z; l_height : Z; l_clockdiv : Z; l_compins : Z; l_colstart : Z }.
Definition lcds : list lcd :=
  [Lcd 128 64 0x80 0x12 0; Lcd 128 32 0x80 0x02 0; Lcd 96 16 0x60 0x02 0; Lcd 64 48 0x80 0x12 32; Lcd 64 32 0x80 0x12 32].
Definition l_pages (g : lcd) : Z := l_height g / 8.              (* 133 *)
Definition l_size (g : lcd) : Z := l_width g * l_pages g.        (* 134 *)

(** The two command tables (155-181, 185-192). *)
Definition init_cmds (g : lcd) : list Z :=
  [0xAE; 0xD5; l_clockdiv g; 0xA8; l_height g - 1; 0xD3; 0; 0x40; 0x8D; 0x14; 0x20; 0; 0xA1; 0xC8;
   0xDA; l_compins g; 0x81; 0x7F; 0xD9; 0xF1; 0xDB; 0x40; 0xA4; 0xA6; 0xAF].
Definition display_cmds (g : lcd) : list Z :=
  [0x21; l_colstart g; l_colstart g + l_width g - 1; 0x22; 0; l_pages g - 1].

Inductive ld_fsm := LUnknown | LReset | LInit | LDisplay | LFrame.
Record ld_in := LdIn { li_reset : bool; li_sink : chan Z; li_rready : bool; li_err : bool }.
(** One cycle: the reset input, the user's sink, ready, and the submodules. *)
Record ld_obs := LdObs { ld_reset : bool; ld_sink : chan Z; ld_sready : bool; ld_ready : bool;
                         ld_init : mr_obs; ld_disp : mr_obs; ld_wrap : lw_obs }.

Section Ssd.
  Context (g : lcd) (por_init : bool).
  Let rdi := mem_reader_buffered (init_cmds g).                  (* 182 *)
  Let rdd := mem_reader_buffered (display_cmds g).               (* 193 *)
  (** Registers: the FSM (202), ready (142), cnt (200), and the submodules. *)
  Record ld_state := Ld { lf : ld_fsm; lrdy : bool; lcnt : Z; linit : cst rdi; ldisp : cst rdd; lwrap : lw_state }.
  Definition ld_reset_state : ld_state := Ld LUnknown false 0 (creset rdi) (creset rdd) LwAddr.

  Definition ld_final (s : ld_state) : bool := lcnt s =? l_size g - 1.
  (** In DISPLAY the recipe is connected unless reset, or ready without user data (227-238). *)
  Definition ld_go (s : ld_state) (i : ld_in) : bool := negb (li_reset i) && (negb (lrdy s) || cvalid (li_sink i)).

  (** wrapper.sink (218-222, 234-238, 246-259); 0 where not driven. *)
  Definition ld_wsink (s : ld_state) (i : ld_in) : chan (bool * Z) :=
    let cmd (k : chan Z) := Chan (cvalid k) (Beat (bfirst (cbeat k)) true (false, bdata (cbeat k))) in
    match lf s with
    | LInit => cmd (snd (linit s))
    | LDisplay => if ld_go s i then cmd (snd (ldisp s)) else Chan false (Beat false false (false, 0))
    | LFrame =>
        if lrdy s
        then Chan (cvalid (li_sink i)) (Beat false (ld_final s || blast (cbeat (li_sink i))) (true, bdata (cbeat (li_sink i))))
        else Chan true (Beat false (ld_final s) (true, 0))
    | _ => Chan false (Beat false false (false, 0))
    end.
  Definition ld_wrdy (s : ld_state) (i : ld_in) : bool := lw_rdy (lwrap s) (li_rready i).
  (** wrapper.sink transfers its last byte of the frame (261, 264). *)
  Definition ld_fire (s : ld_state) (i : ld_in) : bool := cvalid (ld_wsink s i) && ld_wrdy s i.
  Definition ld_endframe (s : ld_state) (i : ld_in) : bool :=
    match lf s with LFrame => ld_fire s i && blast (cbeat (ld_wsink s i)) | _ => false end.

  (** rewind and source.ready of the two readers (210-211, 219, 235, 267). *)
  Definition ld_iin (s : ld_state) (i : ld_in) : bool * bool :=
    match lf s with LReset => (true, false) | LInit => (false, ld_wrdy s i) | _ => (false, false) end.
  Definition ld_din (s : ld_state) (i : ld_in) : bool * bool :=
    match lf s with
    | LReset => (true, false)
    | LDisplay => (false, ld_go s i && ld_wrdy s i)
    | _ => (ld_endframe s i, false)
    end.
  (** sink.ready (257). *)
  Definition ld_srdy (s : ld_state) (i : ld_in) : bool :=
    match lf s with LFrame => lrdy s && ld_wrdy s i | _ => false end.

  Definition ssd1306 : circuit ld_in ld_obs :=
    Circuit ld_state ld_reset_state
      (fun s i => LdObs (li_reset i) (li_sink i) (ld_srdy s i) (lrdy s)
                    (cout rdi (linit s) (ld_iin s i)) (cout rdd (ldisp s) (ld_din s i))
                    (cout lcd_wrapper (lwrap s) (ld_wsink s i, li_rready i, li_err i)))
      (fun s i =>
         let i' := cnext rdi (linit s) (ld_iin s i) in
         let d' := cnext rdd (ldisp s) (ld_din s i) in
         let w' := cnext lcd_wrapper (lwrap s) (ld_wsink s i, li_rready i, li_err i) in
         match lf s with
         | LUnknown =>                                                                     (* 203-206 *)
             if li_reset i || por_init then Ld LReset false (lcnt s) i' d' w' else Ld LUnknown (lrdy s) (lcnt s) i' d' w'
         | LReset => Ld LInit (lrdy s) (lcnt s) i' d' w'                                   (* 208-213 *)
         | LInit =>                                                                        (* 223-224 *)
             Ld (if mr_done (fst (linit s)) && negb (cvalid (snd (linit s))) then LDisplay else LInit) (lrdy s) (lcnt s) i' d' w'
         | LDisplay =>                                                                     (* 226-240 *)
             if li_reset i then Ld LReset false (lcnt s) i' d' w'
             else if negb (lrdy s) || cvalid (li_sink i)
             then Ld (if mr_done (fst (ldisp s)) && negb (cvalid (snd (ldisp s))) then LFrame else LDisplay) (lrdy s) (lcnt s) i' d' w'
             else Ld LDisplay (lrdy s) (lcnt s) i' d' w'
         | LFrame =>                                                                       (* 261-268 *)
             if ld_fire s i
             then if blast (cbeat (ld_wsink s i)) then Ld LDisplay true 0 i' d' w'
                  else Ld LFrame (lrdy s) (trunc (range_width (l_size g)) (lcnt s + 1)) i' d' w'
             else Ld LFrame (lrdy s) (lcnt s) i' d' w'
         end).
End Ssd.
