(** The reset of the clock domain, for the cores of the other model files.

    In Amaranth every register of a domain takes its reset value at a clock edge at which
    the domain's reset is high, except signals declared reset_less=True, the flip-flops of an
    FFSynchronizer (amaranth.lib.cdc, reset_less=True by default), the contents of a Memory and
    the output register of its read port: these go on as if there was no reset.
    examples/crg.py drives the reset of "sync" from the lock of the PLL and the reset
    button (62-66), so it can come at any time. *)
From Verif Require Import Stream Mem_model Timer_model Serial_model I2c_model I2cstream_model I2cproto_model I2cinit_model
  Lcd_model Bridge_model Fifo_model Spiclk_model Spimaster_model Spislave_model Spibridge_model Spiwb_model.

(** [keep s] is [s] with every register at its reset value but those without reset. *)
Section Reset.
  Context {I O : Type} (c : circuit I O) (keep : cst c -> cst c).
  (** The same core with a reset input. *)
  Definition resettable : circuit (bool * I) O :=
    Circuit (cst c) (creset c)
      (fun (s : cst c) (i : bool * I) => cout c s (snd i))
      (fun (s : cst c) (i : bool * I) => if fst i then keep (cnext c s (snd i)) else cnext c s (snd i)).
End Reset.

(** No register is kept. *)
Definition keep_none {I O} (c : circuit I O) (_ : cst c) : cst c := creset c.

(** The synchronisers of the I2C bus driver (i2c.py:54, 62), and the cores around it. *)
Definition keep_i2c (s : i2c_state) : i2c_state :=
  I2cSt (s_f i2c_reset) (s_busy i2c_reset) (s_timer i2c_reset) (s_d i2c_reset) (s_sda1 s) (s_sda2 s) (s_scl1 s) (s_scl2 s).
Definition keep_ist (s : ist_state) : ist_state := Ist (is_f ist_reset) (is_last ist_reset) (keep_i2c (is_i s)).
Definition keep_iw (s : iw_state) : iw_state :=
  Iw (iw_f iw_reset) (iw_stage iw_reset) (iw_retry iw_reset) (iw_c0 iw_reset) (iw_c1 iw_reset) (iw_c2 iw_reset) (iw_cstage iw_reset) (keep_i2c (iw_i s)).
Definition keep_pr (s : pr_state) : pr_state :=
  Pr (p_f pr_reset) (p_header pr_reset) (p_length pr_reset) (p_status pr_reset) (keep_ist (p_i s)).
(** The memory reader: the output register of the read port (mem/stream.py:152-153). *)
Definition keep_mr (s : mr_state) : mr_state := Mr (mr_done mr_reset) (mr_wait mr_reset) (mr_rd mr_reset) (mr_rp s).
Definition keep_mrb (s : mr_state * chan Z) : mr_state * chan Z := (keep_mr (fst s), Pipe_model.pv_reset 0).
Definition keep_ri addr regs period stretch oe (s : ri_state addr regs period stretch oe) : ri_state addr regs period stretch oe :=
  Ri _ _ _ _ _ false (keep_mrb (rs_mem _ _ _ _ _ s)) (keep_iw (rs_w _ _ _ _ _ s)).
Definition keep_ld g (s : ld_state g) : ld_state g :=
  Ld g LUnknown false 0 (keep_mrb (linit g s)) (keep_mrb (ldisp g s)) LwAddr.
(** The UART bridge: the AsyncSerialStream and the FIFOs are reset (the FIFO's memory is
    not, but an empty FIFO does not show it). *)
Definition keep_bridge (s : Bridge_model.br_state) : Bridge_model.br_state :=
  Bridge_model.Br (Us false 0) [] (keep_pr (b_pr s)) [].
(** The half duplex UART: the synchroniser of the pin (serial.py:91). *)
Definition keep_hd (divisor : Z) (s : hd_state) : hd_state := Hd (hd_f1 s) (hd_f2 s) false divisor.
(** The SPI slave: the synchronisers of the pins (slave.py:56, 67, 73-74). *)
Definition keep_sl width with_len (s : sl_state width with_len) : sl_state width with_len :=
  Sl _ _ (l_p1 _ _ s) (l_p2 _ _ s) false 0 0 0 0 0 0 (st0 (sl_fifo width with_len)).
Definition keep_wb cpol cpha width bw stages addr_width (s : cst (spi_wb cpol cpha width bw stages addr_width)) :
  cst (spi_wb cpol cpha width bw stages addr_width) :=
  (keep_sl width true (fst s), Spibridge_model.Br BrCommand false 0 0).
(** The SPI master: sr_out_cnt, sr_out, sr_in_cnt, sr_in (master.py:103-112). *)
Definition keep_ms width delay (s : ms_state width) : ms_state width :=
  let r := ms_reset width delay in
  Ms _ (m_tim _ r) (m_ck _ r) (m_ocnt _ s) (m_so _ s) (m_icnt _ s) (m_si _ s) (m_w _ r) (m_last _ r) (m_oe _ r) (m_run _ r)
     (m_fv _ r) (m_fl _ r) (m_fifo _ r).
(** The memory stream: the memory and the output register of the read port
    (mem/stream.py:58-60). *)
Definition keep_mem (s : Mem_model.ms_state) : Mem_model.ms_state := Mem_model.Ms (ms_mem s) (ms_rp s) 0 0 0.
Definition keep_memb (s : Mem_model.ms_state * chan Z) : Mem_model.ms_state * chan Z := (keep_mem (fst s), Pipe_model.pv_reset 0).
(** The clock dividers: acc (clk.py:28, 48). *)
Definition keep_pc (s : pc_state) : pc_state := Pc (pc_acc s) false.
Definition keep_tc (s : tc_state) : tc_state := Tc (tc_acc s) false false.
