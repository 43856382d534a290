(** Model of lambdalib/cores/usb/ulpi_wrapper.v, the Verilog core instantiated by
    UTMITranslator (lambdalib/cores/usb/utmi.py:17-37): a USB device core speaking UTMI on
    one side, a ULPI PHY on the other.  One step is one cycle of ulpi_clk60_i.

    Simplifications: the asynchronous reset ulpi_rst_i is the initial state only here (in any cycle: Utmi_model); two-bit
    inputs are integers expected in 0..3 and data bytes in 0..255. *)
From Verif Require Import Hdl.

(** The UTMI settings of the PHY: ulpi_wrapper.v:41-45. *)
Record setting := Setting { s_op : Z; s_xcvr : Z; s_term : bool; s_dp : bool; s_dm : bool }.
(** Inputs, ulpi_wrapper.v:36-45. *)
Record uw_in := UwIn { ui_dir : bool; ui_nxt : bool; ui_data : Z; ui_txv : bool; ui_txd : Z; ui_set : setting }.
(** What is seen in a cycle: the inputs and the outputs, ulpi_wrapper.v:48-55. *)
Record uw_obs := UwObs { uo_in : uw_in; uo_data : Z; uo_stp : bool; uo_txr : bool;
  uo_rxv : bool; uo_rxd : Z; uo_rxa : bool; uo_rxe : bool; uo_line : Z }.

(** ulpi_wrapper.v:73-79 *)
Inductive uw_st := WIdle | WCmd | WData | WReg.
Definition uw_st_eqb (a b : uw_st) : bool :=
  match a, b with WIdle, WIdle | WCmd, WCmd | WData, WData | WReg, WReg => true | _, _ => false end.

(** Registers of the blocks at ulpi_wrapper.v:93-98, 135-138, 199-202, 251-253 and 255-259. *)
Record uw_mode := UwMode { m_upd : bool; m_xcvr : Z; m_term : bool; m_op : Z; m_rst : bool }.
Record uw_otg := UwOtg { g_upd : bool; g_dp : bool; g_dm : bool }.
Record uw_buf := UwBuf { b_0 : Z; b_1 : Z; b_v0 : bool; b_v1 : bool; b_wr : bool; b_rd : bool }.
Record uw_main := UwMain { w_st : uw_st; w_data : Z; w_stp : bool; w_dataq : Z; w_mwr : bool; w_owr : bool }.
Record uw_rx := UwRx { r_v : bool; r_e : bool; r_a : bool; r_line : Z; r_d : Z }.
Record uw_state := UwState { u_mode : uw_mode; u_otg : uw_otg; u_dir : bool; u_delay : Z; u_buf : uw_buf; u_main : uw_main; u_rx : uw_rx }.

(** The byte written to the function control register, ulpi_wrapper.v:355, and to the OTG
    control register, 366. *)
Definition b2z (b : bool) : Z := if b then 1 else 0.
Definition func_ctrl (rst : bool) (op : Z) (term : bool) (xcvr : Z) : Z := 64 + 32 * b2z rst + 8 * op + 4 * b2z term + xcvr.
Definition otg_ctrl (dm dp : bool) : Z := 4 * b2z dm + 2 * b2z dp.

(** complete wires, ulpi_wrapper.v:101-104 and 141-144 *)
Definition complete (wr : bool) (st : uw_st) (i : uw_in) : bool := uw_st_eqb st WReg && wr && ui_nxt i && negb (ui_dir i).

(** ulpi_wrapper.v:106-130 *)
Definition mode_next (m : uw_mode) (done : bool) (s : setting) : uw_mode :=
  let fin := m_upd m && done in
  let chg := negb (m_op m =? s_op s) || xorb (m_term m) (s_term s) || negb (m_xcvr m =? s_xcvr s) in
  UwMode (if fin then false else if chg then true else m_upd m) (s_xcvr s) (s_term s) (s_op s) (if fin then false else m_rst m).
(** ulpi_wrapper.v:146-163 *)
Definition otg_next (g : uw_otg) (done : bool) (s : setting) : uw_otg :=
  let chg := xorb (g_dp g) (s_dp s) || xorb (g_dm g) (s_dm s) in
  UwOtg (if g_upd g && done then false else if chg then true else g_upd g) (s_dp s) (s_dm s).
(** ulpi_wrapper.v:186-192 *)
Definition delay_next (d : Z) (rxa : bool) : Z := if rxa then 7 else if d =? 0 then 0 else d - 1.

(** The two-entry buffer: entry at an index, ulpi_wrapper.v:199-200, 237-241. *)
Definition b_data (b : uw_buf) (k : bool) : Z := if k then b_1 b else b_0 b.
Definition b_valid (b : uw_buf) (k : bool) : bool := if k then b_v1 b else b_v0 b.
Definition tx_ready_o (b : uw_buf) (delay : Z) : bool := negb (b_valid b (b_wr b)) && (delay =? 0).   (* 237 *)
Definition tx_have (b : uw_buf) : bool := b_valid b (b_rd b).                                           (* 239 *)
Definition tx_byte (b : uw_buf) : Z := b_data b (b_rd b).                                               (* 241 *)
(** ulpi_wrapper.v:220-233; push and pop never address the same entry (the one needs it
    free, the other taken), so their order does not matter. *)
Definition buf_push (b : uw_buf) (d : Z) : uw_buf :=
  if b_wr b then UwBuf (b_0 b) d (b_v0 b) true false (b_rd b) else UwBuf d (b_1 b) true (b_v1 b) true (b_rd b).
Definition buf_pop (b : uw_buf) : uw_buf :=
  if b_rd b then UwBuf (b_0 b) (b_1 b) (b_v0 b) false (b_wr b) false else UwBuf (b_0 b) (b_1 b) false (b_v1 b) (b_wr b) true.
Definition buf_next (b : uw_buf) (delay : Z) (i : uw_in) (accept : bool) : uw_buf :=
  let b1 := if ui_txv i && tx_ready_o b delay then buf_push b (ui_txd i) else b in
  if tx_have b && accept then buf_pop b1 else b1.

(** ulpi_wrapper.v:418-419 *)
Definition tx_accept (s : uw_state) (i : uw_in) : bool :=
  (uw_st_eqb (w_st (u_main s)) WIdle && negb (m_upd (u_mode s) || g_upd (u_otg s) || xorb (u_dir s) (ui_dir i)) && negb (ui_dir i)) ||
  (uw_st_eqb (w_st (u_main s)) WData && ui_nxt i && negb (ui_dir i)).

(** The transmitting half of the block at ulpi_wrapper.v:262-415. *)
Definition main_next (s : uw_state) (i : uw_in) : uw_main :=
  let m := u_main s in let md := u_mode s in let g := u_otg s in
  let turn := xorb (u_dir s) (ui_dir i) in
  let abort := match w_st m with                                                                        (* 290-294, 302-306 *)
    | WReg => UwMain WIdle 0 false (w_dataq m) (w_mwr m) (w_owr m)
    | st => UwMain st (w_data m) false (w_dataq m) (w_mwr m) (w_owr m)
    end in
  let hold := UwMain (w_st m) (w_data m) false (w_dataq m) (w_mwr m) (w_owr m) in
  if turn && ui_dir i && ui_nxt i then abort                                                            (* 285 *)
  else if turn && negb (ui_dir i) then abort                                                            (* 297 *)
  else if negb turn && negb (ui_dir i) then                                                             (* 309, 350 *)
    match w_st m with
    | WIdle =>
        if m_upd md then UwMain WCmd 132 false (func_ctrl (m_rst md) (m_op md) (m_term md) (m_xcvr md)) true false   (* 353-362 *)
        else if g_upd g then UwMain WCmd 138 false (otg_ctrl (g_dm g) (g_dp g)) false true              (* 364-373 *)
        else if tx_have (u_buf s) then UwMain WData (64 + tx_byte (u_buf s) mod 16) false (w_dataq m) (w_mwr m) (w_owr m)  (* 375-379 *)
        else hold
    | WCmd => if ui_nxt i then UwMain WReg (w_dataq m) false (w_dataq m) (w_mwr m) (w_owr m) else hold   (* 381-386 *)
    | WReg => if ui_nxt i then UwMain WIdle 0 true (w_dataq m) false false else hold                    (* 388-396 *)
    | WData => if ui_nxt i then
                 if tx_have (u_buf s) then UwMain WData (tx_byte (u_buf s)) false (w_dataq m) (w_mwr m) (w_owr m)   (* 407-411 *)
                 else UwMain WIdle 0 true (w_dataq m) (w_mwr m) (w_owr m)                               (* 401-406 *)
               else hold
    end
  else hold.

(** The receiving half of the same block, ulpi_wrapper.v:282-346. *)
Definition rx_next (s : uw_state) (i : uw_in) : uw_rx :=
  let r := u_rx s in let turn := xorb (u_dir s) (ui_dir i) in
  if turn && ui_dir i && ui_nxt i then UwRx false (r_e r) true (r_line r) (r_d r)                       (* 285-287 *)
  else if turn && negb (ui_dir i) then UwRx false (r_e r) false (r_line r) (r_d r)                      (* 297-299 *)
  else if negb turn then
    if ui_dir i && negb (ui_nxt i) then                                                                 (* 314-338 *)
      let ev := (ui_data i / 16) mod 4 in
      UwRx false (if (ev =? 0) || (ev =? 1) then false else if ev =? 3 then true else r_e r)
        (if ev =? 0 then false else if (ev =? 1) || (ev =? 3) then true else r_a r) (ui_data i mod 4) (r_d r)
    else if ui_dir i && ui_nxt i then UwRx true (r_e r) (r_a r) (r_line r) (ui_data i)                  (* 342-346 *)
    else UwRx false (r_e r) (r_a r) (r_line r) (r_d r)
  else UwRx false (r_e r) (r_a r) (r_line r) (r_d r).

(** The core, with the reset values of ulpi_wrapper.v:109-113, 149-151, 172, 188, 210-215 and
    265-277 and the outputs of 237 and 425-433. *)
Definition ulpi_wrapper : circuit uw_in uw_obs := {|
  cst := uw_state;
  creset := UwState (UwMode false 0 false 3 true) (UwOtg false true true) false 0 (UwBuf 0 0 false false false false)
    (UwMain WIdle 0 true 0 false false) (UwRx false false false 0 0);
  cout s i := UwObs i (w_data (u_main s)) (w_stp (u_main s)) (tx_ready_o (u_buf s) (u_delay s))
    (r_v (u_rx s)) (r_d (u_rx s)) (r_a (u_rx s)) (r_e (u_rx s)) (r_line (u_rx s));
  cnext s i := UwState
    (mode_next (u_mode s) (complete (w_mwr (u_main s)) (w_st (u_main s)) i) (ui_set i))
    (otg_next (u_otg s) (complete (w_owr (u_main s)) (w_st (u_main s)) i) (ui_set i))
    (ui_dir i) (delay_next (u_delay s) (r_a (u_rx s)))
    (buf_next (u_buf s) (u_delay s) i (tx_accept s i)) (main_next s i) (rx_next s i) |}.
