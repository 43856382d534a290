(** Model of lambdalib/cores/usb/utmi.py: UTMITranslator as a whole, the Verilog core
    ulpi_wrapper.v with its asynchronous reset, the counter of the PHY's reset and the direction
    of the data pins.  One step is one cycle of the domain's clock (60 MHz); the reset is
    constant within a cycle. *)
From Verif Require Import Hdl Usb_model Ulpiw_model.

(** Inputs: ResetSignal() (utmi.py:19), the inputs of ulpi_wrapper (20-29). *)
Record tr_in := TrIn { ti_rst : bool; ti_uw : uw_in }.
(** Outputs: those of ulpi_wrapper (30-37), ulpi.data.oe (58), ulpi.rst.o (59). *)
Record tr_obs := TrObs { to_uw : uw_obs; to_oe : bool; to_rst : bool }.

(** ulpi_rst_i acts at once on all the registers of ulpi_wrapper (always @ (posedge clk or posedge
    rst), ulpi_wrapper.v:106, 146, 170, 186, 207, 262); por_cnt is an Amaranth register, reset at
    the clock edge (utmi.py:44-46). *)
Definition utmi_translator : circuit tr_in tr_obs := {|
  cst := Z * uw_state;
  creset := (creset utmi_por, creset ulpi_wrapper);
  cout s i := let o := cout utmi_por (fst s) (ui_dir (ti_uw i)) in
    TrObs (cout ulpi_wrapper (if ti_rst i then creset ulpi_wrapper else snd s) (ti_uw i)) (uto_oe o) (uto_rst o);
  cnext s i := if ti_rst i then (creset utmi_por, creset ulpi_wrapper)
    else (cnext utmi_por (fst s) (ui_dir (ti_uw i)), cnext ulpi_wrapper (snd s) (ti_uw i)) |}.
