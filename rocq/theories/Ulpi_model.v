(** Model of lambdalib/cores/usb/ulpi.py. *)
From Verif Require Import Stream.

(** ** _Transceiver, 174-234.  Registers: dir_r, stp, source.valid/data/cmd.
    Inputs: the PHY's dir, nxt, data (pins.i) and the sink. *)
Record phy := Phy { ph_dir : bool; ph_nxt : bool; ph_data : Z }.
Record rxev := Rx { rx_valid : bool; rx_data : Z; rx_cmd : bool }.
Record xc_obs := XcObs { xo_phy : phy; xo_sink : chan Z; xo_sready : bool;
                         xo_stp : bool; xo_oe : bool; xo_data_o : Z; xo_src : rxev }.
Record xc_state := Xc { x_dir_r : bool; x_stp : bool; x_src : rxev }.
Definition xc_reset : xc_state := Xc false false (Rx false 0 false).
Definition xc_oe (s : xc_state) (p : phy) : bool := negb (x_dir_r s) && negb (ph_dir p).            (* 207-208 *)
Definition xc_ready (s : xc_state) (p : phy) : bool := xc_oe s p && negb (x_stp s) && ph_nxt p.     (* 209, 217 *)
Definition xc_data_o (s : xc_state) (p : phy) (k : chan Z) : Z :=
  if xc_oe s p && negb (x_stp s) && cvalid k then bdata (cbeat k) else 0.                           (* 210-214 *)
Definition xc_next (s : xc_state) (p : phy) (k : chan Z) : xc_state :=
  Xc (ph_dir p)                                                                                     (* 203-204 *)
     (if x_stp s then false                                                                         (* 219-220 *)
      else xc_oe s p && cvalid k && blast (cbeat k) && ph_nxt p)                                    (* 215-216 *)
     (if x_dir_r s && ph_dir p then Rx true (ph_data p) (negb (ph_nxt p))                           (* 223-228 *)
      else Rx false (rx_data (x_src s)) (rx_cmd (x_src s))).                                        (* 229-230 *)
(** source.last (232) is not used by any user of the source and left out. *)
Definition xc_out (s : xc_state) (p : phy) (k : chan Z) : xc_obs :=
  XcObs p k (xc_ready s p) (x_stp s) (xc_oe s p) (xc_data_o s p k) (x_src s).
Definition transceiver : circuit (phy * chan Z) xc_obs :=
  Circuit xc_state xc_reset (fun s i => xc_out s (fst i) (snd i)) (fun s i => xc_next s (fst i) (snd i)).

(** ** _Splitter, 301-346.  Registers: source.valid/last/data, buf_data, buf_valid. *)
Record sp_state := Sp { p_src : chan Z; p_buf : option Z }.
Definition sp_reset : sp_state := Sp (Chan false (Beat false false 0)) None.
Definition sp_idle (s : sp_state) : chan Z := Chan false (cbeat (p_src s)).                         (* 318 *)
Definition sp_next (s : sp_state) (e : rxev) : sp_state :=
  if rx_valid e then
    if negb (rx_cmd e) then                                                                         (* 326-336 *)
      Sp (match p_buf s with Some d => Chan true (Beat false false d) | None => sp_idle s end) (Some (rx_data e))
    else if Z.land (rx_data e) 48 =? 0 then                                                         (* 337-344 *)
      match p_buf s with Some d => Sp (Chan true (Beat false true d)) None | None => Sp (sp_idle s) None end
    else Sp (sp_idle s) (p_buf s)
  else Sp (sp_idle s) (p_buf s).
Definition splitter : circuit rxev (rxev * chan Z) :=
  Circuit sp_state sp_reset (fun s e => (e, p_src s)) sp_next.

(** ** _Sender, 349-383.  Register: last_r (reset 1).  source.first is driven only
    through connect. *)
Definition sender_tag (d : Z) : Z := d mod 16 + 64.                                                 (* 367-368 *)
Definition sender : smod Z Z :=
  SMod bool true
    (fun l k => if l then Chan (cvalid k) (Beat false (blast (cbeat k)) (sender_tag (bdata (cbeat k))))   (* 373-379 *)
                else k)                                                                             (* 380-381 *)
    (fun _ _ r => r)
    (fun l k r => if cvalid k && r then blast (cbeat k) else l).                                    (* 370-371 *)

(** ** _Timer, 270-298 and _POR, 237-267.  [n2], [n4]: the two int(sys_clk_freq * ...)
    (293, 295). *)
Inductive por_st := PorReset | PorWait | PorIdle.
Record por_state := Por { po_st : por_st; po_cnt : Z }.
Record por_obs := PorObs { poo_rst : bool; poo_done : bool }.
Section Por.
  Context (n2 n4 : Z).
  Definition tm_done (c2 c4 : bool) (cnt : Z) : bool := (c2 && (cnt =? n2)) || (c4 && (cnt =? n4)).
  Definition tm_next (c2 c4 : bool) (cnt : Z) : Z :=
    if c2 || c4 then if tm_done c2 c4 cnt then 0 else trunc 30 (cnt + 1) else 0.                    (* 285-291 *)
  Definition por : circuit unit por_obs :=
    Circuit por_state (Por PorReset 0)
      (fun s _ => PorObs (match po_st s with PorReset => true | _ => false end)                     (* 254 *)
                         (match po_st s with PorIdle => true | _ => false end))                     (* 265 *)
      (fun s _ =>
         let c2 := match po_st s with PorReset => true | _ => false end in                          (* 255 *)
         let c4 := match po_st s with PorWait => true | _ => false end in                           (* 260 *)
         Por (match po_st s with
              | PorReset => if tm_done c2 c4 (po_cnt s) then PorWait else PorReset
              | PorWait => if tm_done c2 c4 (po_cnt s) then PorIdle else PorWait
              | PorIdle => PorIdle end)
             (tm_next c2 c4 (po_cnt s))).
End Por.

(** ** DumpULPIRegs, 16-73, in the ulpi domain.  por.rst and por.done come from the
    sync domain and are inputs here. *)
Inductive du_st := DuReset | DuCmd | DuVal | DuOut | DuInc | DuDone.
Record du_in := DuIn { du_phy : phy; du_por_done : bool; du_rready : bool }.
Record du_obs := DuObs { duo_xc : xc_obs; duo_src : chan Z; duo_rready : bool; duo_por_done : bool }.
Record du_state := Du { du_fsm : du_st; du_xc : xc_state; du_addr : Z; du_data : Z }.
Section Dump.
  Context (max_addr : Z).
  Definition du_sink (s : du_state) : chan Z :=
    match du_fsm s with
    | DuCmd => Chan true (Beat false false (Z.lor 192 (du_addr s)))                                 (* 43-48 *)
    | _ => Chan false (Beat false false 0) end.
  Definition dump : circuit du_in du_obs :=
    Circuit du_state (Du DuReset xc_reset 0 0)
      (fun s i => DuObs (xc_out (du_xc s) (du_phy i) (du_sink s))
                    (Chan (match du_fsm s with DuOut => true | _ => false end) (Beat false false (du_data s)))   (* 59 *)
                    (du_rready i) (du_por_done i))
      (fun s i =>
         Du (match du_fsm s with
             | DuReset => if du_por_done i then DuCmd else DuReset                                  (* 38-41 *)
             | DuCmd => if xc_ready (du_xc s) (du_phy i) then DuVal else DuCmd                      (* 49-50 *)
             | DuVal => if rx_valid (x_src (du_xc s)) then DuOut else DuVal                         (* 55-56 *)
             | DuOut => if du_rready i then DuInc else DuOut                                        (* 60-61 *)
             | DuInc => if du_addr s =? max_addr then DuDone else DuCmd                             (* 63-68 *)
             | DuDone => DuDone end)
            (xc_next (du_xc s) (du_phy i) (du_sink s))
            (match du_fsm s with DuInc => if du_addr s =? max_addr then du_addr s else trunc 6 (du_addr s + 1) | _ => du_addr s end)
            (match du_fsm s with DuVal => rx_data (x_src (du_xc s)) | _ => du_data s end)).         (* 54 *)
End Dump.

(** ** DirectULPI, 76-171, in the ulpi domain, between the two asynchronous FIFOs:
    tx is the output of tx_fifo, the rx observation is the input of rx_fifo.
    [nt]: int(60e6 * 2e-6) (93). *)
Inductive di_st := DiReset | Di0 | Di1 | Di2 | Di3 | Di4 | DiUp.
Record di_in := DiIn { di_phy : phy; di_por_rst : bool; di_por_done : bool; di_tx : chan Z }.
Record di_obs := DiObs { dio_xc : xc_obs; dio_rst : bool; dio_tx : obs Z Z; dio_rx : chan Z; dio_por_rst : bool; dio_por_done : bool }.
Record di_state := Di { di_fsm : di_st; di_xc : xc_state; di_sp : sp_state; di_se : bool; di_cnt : Z }.
Section Direct.
  Context (nt : Z).
  Definition di_const (last : bool) (d : Z) : chan Z := Chan true (Beat false last d).
  Definition di_sink (s : di_state) (tx : chan Z) : chan Z :=
    match di_fsm s with
    | DiReset | Di2 => Chan false (Beat false false 0)
    | Di0 => di_const false 132                                                                     (* 116-121 *)
    | Di1 => di_const true 96                                                                       (* 125-136 *)
    | Di3 => di_const false 138                                                                     (* 145-150 *)
    | Di4 => di_const true 0                                                                        (* 154-161 *)
    | DiUp => src sender (di_se s) tx                                                               (* 168 *)
    end.
  (** sender.source.ready: connected in LINK-UP only. *)
  Definition di_se_ready (s : di_state) (p : phy) : bool :=
    match di_fsm s with DiUp => xc_ready (di_xc s) p | _ => false end.
  Definition di_ev (s : di_state) : rxev :=                                                         (* 167 *)
    match di_fsm s with DiUp => x_src (di_xc s) | _ => Rx false 0 false end.
  Definition direct : circuit di_in di_obs :=
    Circuit di_state (Di DiReset xc_reset sp_reset true 0)
      (fun s i => DiObs (xc_out (di_xc s) (di_phy i) (di_sink s (di_tx i)))
                    (match di_fsm s with DiReset => di_por_rst i | _ => false end)                  (* 112 *)
                    (Obs (di_tx i) (rdy sender (di_se s) (di_tx i) (di_se_ready s (di_phy i)))
                         (src sender (di_se s) (di_tx i)) (di_se_ready s (di_phy i)))
                    (p_src (di_sp s)) (di_por_rst i) (di_por_done i))
      (fun s i =>
         let r := xc_ready (di_xc s) (di_phy i) in
         let c2 := match di_fsm s with Di2 => true | _ => false end in
         Di (match di_fsm s with
             | DiReset => if di_por_done i then Di0 else DiReset                                    (* 113-114 *)
             | Di0 => if r then Di1 else Di0
             | Di1 => if r then Di2 else Di1
             | Di2 => if tm_done nt 0 true false (di_cnt s) then Di3 else Di2                       (* 140-143 *)
             | Di3 => if r then Di4 else Di3
             | Di4 => if r then DiUp else Di4
             | DiUp => DiUp end)
            (xc_next (di_xc s) (di_phy i) (di_sink s (di_tx i)))
            (sp_next (di_sp s) (di_ev s))
            (nxt sender (di_se s) (di_tx i) (di_se_ready s (di_phy i)))
            (tm_next nt 0 c2 false (di_cnt s))).
End Direct.
