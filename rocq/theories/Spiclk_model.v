(** Model of lambdalib/cores/spi/clkgen.py and of the divisor computation of
    lambdalib/cores/spi/master.py. *)
From Verif Require Import Hdl Timing_model.

(** ** LiteSPIClkGen, clkgen.py:12-81, with cnt_width = 8 (13).  Registers: cnt (35),
    clk (37), posedge_reg, posedge_reg2 (27-28).  [div] is the value of the div
    input, held constant as in master.py:65.  en_int (36) is never driven: 0.
    sample, update (42-43) and the pad instance (66-79) are left out. *)
Record ck_state := Ck { ck_cnt : Z; ck_clk : bool; ck_pr : bool; ck_pr2 : bool }.
Record ck_obs := CkObs { ko_en : bool; ko_clk : bool; ko_posedge : bool; ko_negedge : bool;
                         ko_posedge_reg : bool; ko_posedge_reg2 : bool }.
Section ClkGen.
  Context (div : Z).
  Definition ck_reset : ck_state := Ck 0 false false false.
  Definition ck_posedge (s : ck_state) (en : bool) : bool := en && negb (ck_clk s) && (ck_cnt s =? div).   (* 40 *)
  Definition ck_negedge (s : ck_state) (en : bool) : bool := en && ck_clk s && (ck_cnt s =? div).          (* 41 *)
  Definition ck_next (s : ck_state) (en : bool) : ck_state :=
    let '(cnt, clk) :=
      if en then if ck_cnt s <? div then (trunc 8 (ck_cnt s + 1), ck_clk s) else (0, negb (ck_clk s))      (* 51-58 *)
      else (0, false) in                                                                                   (* 60-64 *)
    Ck cnt clk (ck_posedge s en) (ck_pr s).                                                                (* 46-49 *)
  Definition clkgen : circuit bool ck_obs :=
    Circuit ck_state ck_reset
      (fun s en => CkObs en (ck_clk s) (ck_posedge s en) (ck_negedge s en) (ck_pr s) (ck_pr2 s))
      ck_next.
End ClkGen.

(** ** SPIPHYMaster, master.py:25-38.  The capped frequency (27-29), the divisor (32) and
    the chip-select delay (33) are in Timing_model. *)
(** What the clock generator gets: clkgen.div is 8 bits wide (clkgen.py:18). *)
Definition spi_div_reg (sys spi : Z) : Z := trunc 8 (spi_divisor sys spi).
