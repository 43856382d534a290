(** Model of PLL_LatticeECP5.elaborate (lattice_ecp5.py:250-363) and
    PLL_Xilinx7Series.elaborate (xilinx_7series.py:250-291): the arguments handed to the
    primitive, as the dictionary pll_kwargs.  What the primitives do with them is in Pllinst_props.
    Numbers are rationals; the signals are named. *)
From Verif Require Import Pll_model.
Open Scope string_scope.

Inductive pval := VNum (q : Q) | VStr (s : string) | VClk (domain : string) | VRst (domain : string) | VSig (name : string).
Definition kwargs := list (string * pval).
(** dict.update: a later entry wins. *)
Definition kw_get (k : kwargs) (key : string) : option pval :=
  fold_left (fun r e => if String.eqb (fst e) key then Some (snd e) else r) k None.
Definition VInt (z : Z) : pval := VNum (inject_Z z).

Section Ecp5.
  (** The Parameters object: i_domain, i_freq, o_domain, i_reset_less, fb_internal, the settings
      and the secondary outputs (domain, (frequency, phase)). *)
  Context (i_domain : string) (i_freq : Z) (o_domain : string) (i_reset_less fb_internal : bool) (v : ecp5_set) (os : list (string * (Q * Q))).
  (** lines 251-284 *)
  Definition ecp5_fixed : kwargs :=
    [("a_ICP_CURRENT", VInt 12); ("a_LPF_RESISTOR", VInt 8); ("a_MFG_ENABLE_FILTEROPAMP", VInt 1); ("a_MFG_GMCREF_SEL", VInt 2);
     ("p_INTFB_WAKE", VStr "DISABLED"); ("p_STDBY_ENABLE", VStr "DISABLED"); ("p_DPHASE_SOURCE", VStr "DISABLED");
     ("p_OUTDIVIDER_MUXA", VStr "DIVA"); ("p_OUTDIVIDER_MUXB", VStr "DIVB"); ("p_OUTDIVIDER_MUXC", VStr "DIVC"); ("p_OUTDIVIDER_MUXD", VStr "DIVD");
     ("i_PHASESEL0", VInt 0); ("i_PHASESEL1", VInt 0); ("i_PHASEDIR", VInt 1); ("i_PHASESTEP", VInt 1); ("i_PHASELOADREG", VInt 1);
     ("i_PLLWAKESYNC", VInt 0); ("i_ENCLKOP", VInt 0);
     ("o_LOCK", VSig "locked");
     ("a_FREQUENCY_PIN_CLKI", VInt (fint (fdiv (inject_Z i_freq) 1000000)));
     ("p_CLKI_DIV", VInt (e_i_div v));
     ("i_CLKI", VClk i_domain);
     ("a_FREQUENCY_PIN_CLKOP", VInt (fint (fdiv (e_op i_freq v) 1000000)));
     ("p_CLKOP_ENABLE", VStr "ENABLED");
     ("p_CLKOP_DIV", VInt (e_op_div v));
     ("p_CLKOP_CPHASE", VNum (e_op_cphase i_freq v));
     ("p_CLKOP_FPHASE", VInt 0);
     ("o_CLKOP", VClk o_domain)].
  (** One secondary output (288-300, 302-314, 316-328). *)
  Definition ecp5_second (port : string) (s : option (string * (Q * Q))) : kwargs :=
    match s with
    | Some (d, (f, p)) =>
        [("a_FREQUENCY_PIN_" ++ port, VInt (fint (fdiv f 1000000))); ("p_" ++ port ++ "_ENABLE", VStr "ENABLED");
         ("p_" ++ port ++ "_DIV", VNum (e_os_div i_freq v f)); ("p_" ++ port ++ "_CPHASE", VNum (e_os_cphase i_freq v f p));
         ("p_" ++ port ++ "_FPHASE", VInt 0); ("o_" ++ port, VClk d)]
    | None => [("p_" ++ port ++ "_ENABLE", VStr "DISABLED")]
    end.
  (** 332-341, 345-347, 349-361 *)
  Definition ecp5_rest : kwargs :=
    ((if i_reset_less then [("p_PLLRST_ENA", VStr "DISABLED"); ("i_RST", VInt 0)]
      else [("p_PLLRST_ENA", VStr "ENABLED"); ("i_RST", VRst i_domain)]) ++
     [("p_CLKFB_DIV", VInt (e_fb_div v))] ++
     (if fb_internal then [("p_FEEDBK_PATH", VStr "INT_OP"); ("i_CLKFB", VSig "clkintfb"); ("o_CLKINTFB", VSig "clkintfb")]
      else [("p_FEEDBK_PATH", VStr "CLKOP"); ("i_CLKFB", VClk o_domain); ("o_CLKINTFB", VSig "unused")]))%list.
  (** os, os2, os3 are the secondary outputs in order (212-223). *)
  Definition ecp5_kwargs : kwargs :=
    (ecp5_fixed ++ ecp5_second "CLKOS" (nth_error os 0) ++ ecp5_second "CLKOS2" (nth_error os 1) ++ ecp5_second "CLKOS3" (nth_error os 2) ++ ecp5_rest)%list.
End Ecp5.

Section Xil.
  Context (i_domain : string) (i_freq : Z) (o_domain : string) (i_reset_less : bool) (v : xil_set) (os : list (string * (Q * Q))).
  (** lines 253-279 *)
  Definition xil_fixed : kwargs :=
    ([("p_STARTUP_WAIT", VStr "FALSE"); ("i_PWRDWN", VInt 0); ("o_LOCKED", VSig "locked");
     ("p_REF_JITTER1", VNum (dec (1 # 100)));
     ("p_CLKIN1_PERIOD", VNum (fdiv 1000000000 (inject_Z i_freq)));
     ("i_CLKIN1", VClk i_domain);
     ("p_DIVCLK_DIVIDE", VInt (x_divclk v)); ("p_CLKFBOUT_MULT", VInt (x_mult v));
     ("i_CLKFBIN", VSig "pll_fb"); ("o_CLKFBOUT", VSig "pll_fb");
     ("p_CLKOUT0_DIVIDE", VInt (x_div0 v)); ("p_CLKOUT0_PHASE", VInt 0); ("o_CLKOUT0", VClk o_domain)] ++
    (if i_reset_less then [("i_RST", VInt 0)] else [("i_RST", VRst i_domain)]))%list.
  (** 281-289 *)
  Definition xil_second (port : string) (s : option (string * (Q * Q))) : kwargs :=
    match s with
    | Some (d, (f, p)) => [("p_" ++ port ++ "_DIVIDE", VNum (x_out_div i_freq v f)); ("p_" ++ port ++ "_PHASE", VNum (x_out_phase p)); ("o_" ++ port, VClk d)]
    | None => []
    end.
  Definition xil_kwargs : kwargs :=
    (xil_fixed ++ xil_second "CLKOUT1" (nth_error os 0) ++ xil_second "CLKOUT2" (nth_error os 1) ++ xil_second "CLKOUT3" (nth_error os 2) ++
    xil_second "CLKOUT4" (nth_error os 3) ++ xil_second "CLKOUT5" (nth_error os 4))%list.
End Xil.
