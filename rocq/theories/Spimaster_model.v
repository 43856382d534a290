(** Model of lambdalib/cores/spi/master.py (_LiteSPISDRPHYCore, 41-205). *)
From Verif Require Import Stream Bits Fifo_model Timer_model Spiclk_model.

(** A word of the sink (common.py:7-15): data, width (lines used per clock), oe, len. *)
Record mword := MWord { mw_data : Z; mw_width : Z; mw_oe : bool; mw_len : Z }.
Record ms_in := MsIn { mi_cs : bool; mi_sink : chan mword; mi_dq : Z; mi_rready : bool }.
(** One cycle: the cs input, the sink, the pins (dq_i is the 2-bit {miso, -} signal of
    81-86 on single-line pads, the dq input lines otherwise), and the receive FIFO whose
    source is the core's source. *)
Record ms_obs := MsObs { mo_cs : bool; mo_sink : chan mword; mo_sready : bool;
                         mo_clk : bool; mo_cs_n : bool; mo_dq_o : Z; mo_oe : bool; mo_dq_i : Z;
                         mo_fifo : obs Z Z }.

Section Master.
  (** [width]: word width; [bo]: number of output lines; [div]: divisor (after the
      truncation to the 8-bit clkgen.div); [delay]: cs_delay. *)
  Context (width bo div delay : Z).
  Definition ms_fifo : smod Z Z := stream_sync_fifo width 8 true.                          (* 59 *)
  (** Registers: the CS timer's count (73), the clock generator (64), sr_out_cnt, sr_out
      (103, 106), sr_in_cnt, sr_in (109, 112), width_r, last_r (115-116), dq_oe, running
      (158), fifo.sink.valid and .last (149-152), the FIFO. *)
  Record ms_state := Ms { m_tim : Z; m_ck : ck_state; m_ocnt : Z; m_so : Z; m_icnt : Z; m_si : Z;
                          m_w : Z; m_last : bool; m_oe : bool; m_run : bool;
                          m_fv : bool; m_fl : bool; m_fifo : st ms_fifo }.
  Definition ms_reset : ms_state :=
    Ms (delay + 1) ck_reset 0 0 0 0 0 false false false false false (st0 ms_fifo).
  Implicit Types (s : ms_state) (i : ms_in).
  Definition ms_cs_en s : bool := wt_done (m_tim s).                                       (* 76 *)
  Definition ms_level s : Z := wf_level (sync_fifo_buffered (wrapper_depth 8)) (m_fifo s).
  Definition ms_full s : bool := wrapper_depth 8 - 2 <? ms_level s.                        (* 163 *)
  Definition ms_xfr_en s i : bool := ms_cs_en s && cvalid (mi_sink i) && negb (ms_full s). (* 164 *)
  Definition ms_posedge_reg s : bool := ck_pr (m_ck s).
  Definition ms_negedge s : bool := ck_negedge div (m_ck s) (m_run s).
  Definition ms_in_end s : bool := ms_posedge_reg s && (m_icnt s =? 0).                    (* 186-191 *)
  Definition ms_out_end s : bool := ms_negedge s && (m_ocnt s =? 0).                       (* 196-201 *)
  Definition ms_load s i : bool := (negb (m_run s) || ms_out_end s) && ms_xfr_en s i.      (* 171-175 *)
  (** Widths with a Case (119-122, 133-137, 140-146). *)
  Definition ms_case (w : Z) : bool := (w =? 1) || (w =? 2) || (w =? 4) || (w =? 8).
  Definition ms_dq_o s : Z :=
    if ms_case (m_w s) then trunc bo (trunc (m_w s) (Z.shiftr (m_so s) (width - m_w s))) else 0.
  (** The lines sampled: line 1 for width 1 (143), the low lines otherwise (146). *)
  Definition ms_sampled (w dq : Z) : Z := if w =? 1 then Z.b2z (Z.testbit dq 1) else trunc w dq.
  Definition ms_fsink s : chan Z := Chan (m_fv s) (Beat false (m_fl s) (m_si s)).          (* 148-154 *)

  Definition spi_master : circuit ms_in ms_obs :=
    Circuit ms_state ms_reset
      (fun s i => MsObs (mi_cs i) (mi_sink i) (ms_load s i)                                (* 131 *)
                    (ck_clk (m_ck s)) (negb (ms_cs_en s)) (ms_dq_o s) (m_oe s) (mi_dq i)
                    (Obs (ms_fsink s) (rdy ms_fifo (m_fifo s) (ms_fsink s) (mi_rready i))
                         (src ms_fifo (m_fifo s) (ms_fsink s)) (mi_rready i)))
      (fun s i =>
         let b := bdata (cbeat (mi_sink i)) in
         let load := ms_load s i in
         Ms (wt_next (delay + 1) (m_tim s) (mi_cs i))                                      (* 73-75 *)
            (ck_next div (m_ck s) (m_run s))                                               (* 168 *)
            (if ms_negedge s && negb (m_ocnt s =? 0) then trunc 8 (m_ocnt s - m_w s)       (* 203 *)
             else if load then trunc 8 (mw_len b - mw_width b) else m_ocnt s)              (* 176 *)
            (if load then trunc width (Z.shiftl (mw_data b) (width - mw_len b))            (* 124-126 *)
             else if ms_negedge s && ms_case (m_w s) then trunc width (2 ^ m_w s * m_so s) (* 133-137 *)
             else m_so s)
            (if ms_posedge_reg s && negb (m_icnt s =? 0) then trunc 8 (m_icnt s - m_w s)   (* 193 *)
             else if load then trunc 8 (mw_len b - mw_width b) else m_icnt s)              (* 179 *)
            (if ms_posedge_reg s && ms_case (m_w s)
             then trunc width (ms_sampled (m_w s) (mi_dq i) + 2 ^ m_w s * m_si s) else m_si s)   (* 140-146 *)
            (if load then mw_width b else m_w s)
            (if load then blast (cbeat (mi_sink i)) else m_last s)
            (if load then mw_oe b else m_oe s)                                             (* 127-129 *)
            (if load then true else if ms_out_end s then false else m_run s)               (* 171-183 *)
            (ms_in_end s)                                                                  (* 148-152 *)
            (if ms_in_end s then m_last s else m_fl s)                                     (* 150 *)
            (nxt ms_fifo (m_fifo s) (ms_fsink s) (mi_rready i))).
End Master.
