-Q theories Verif
theories/Hdl.v
theories/Stream.v
theories/Bits.v
theories/Pipe_model.v
theories/Pipe_proofs.v
theories/Pipe_props.v
theories/Converter_model.v
theories/Converter_spec.v
theories/Converter_proofs.v
theories/Converter_rt.v
theories/Converter_props.v
theories/Float_model.v
theories/Float_proofs.v
theories/Timing_model.v
theories/Timing_proofs.v
theories/Timer_model.v
theories/Timer_proofs.v
theories/Timer_props.v
theories/Utils_model.v
theories/Utils_spec.v
theories/Utils_proofs.v
theories/Arb_proofs.v
theories/Utils_props.v
theories/Fifo_model.v
theories/Fifo_proofs.v
theories/Fifo_props.v
theories/Mem_model.v
theories/Mem_spec.v
theories/Mem_proofs.v
theories/Mem_props.v
theories/Memexact_props.v
theories/Led_model.v
theories/Led_spec.v
theories/Led_proofs.v
theories/Led_props.v
theories/Math_model.v
theories/Math_spec.v
theories/Math_proofs.v
theories/Math_props.v
theories/Iir_model.v
theories/Iir_spec.v
theories/Iir_proofs.v
theories/Iir_props.v
theories/Regs_model.v
theories/Regs_spec.v
theories/Regs_proofs.v
theories/Regs_props.v
theories/I2creg_model.v
theories/I2creg_props.v
theories/I2c_model.v
theories/I2c_spec.v
theories/I2c_proofs.v
theories/I2c_live.v
theories/I2c_props.v
theories/I2cstream_model.v
theories/I2cstream_spec.v
theories/I2cstream_proofs.v
theories/I2cstream_props.v
theories/I2cwriter_props.v
theories/I2cinit_model.v
theories/I2cinit_props.v
theories/I2cproto_model.v
theories/I2cproto_spec.v
theories/I2cproto_proofs.v
theories/I2cproto_props.v
theories/I2cbus_model.v
theories/I2cbus_props.v
theories/Lcd_model.v
theories/Lcd_spec.v
theories/Lcd_proofs.v
theories/Lcd_boot.v
theories/Lcd_props.v
theories/Spiclk_model.v
theories/Spiclk_props.v
theories/Spistream_model.v
theories/Spistream_props.v
theories/Spibridge_model.v
theories/Spibridge_props.v
theories/Spislave_model.v
theories/Spislave_props.v
theories/Spirate_props.v
theories/Spimaster_model.v
theories/Spimaster_props.v
theories/Ulpi_model.v
theories/Ulpi_props.v
theories/Timing_props.v
theories/Iircoef_model.v
theories/Iircoef_props.v
theories/Serial_model.v
theories/Serial_props.v
theories/Sim_model.v
theories/Sim_props.v
theories/Layout_model.v
theories/Layout_props.v
theories/Hexdump_model.v
theories/Hexdump_props.v
theories/Pll_model.v
theories/Pll_props.v
theories/Delay_model.v
theories/Delay_props.v
theories/Bfm_model.v
theories/Bfm_props.v
theories/Usb_model.v
theories/Usb_props.v
theories/Progress.v
theories/Lcdlive_props.v
theories/I2clive_props.v
theories/I2cinitlive_props.v
theories/I2chold_props.v
theories/First_props.v
theories/Spilive_props.v
theories/Iirx_model.v
theories/Iirx_props.v
theories/Oled_spec.v
theories/Oled_props.v
theories/Ulpistart_props.v
theories/Spilink_model.v
theories/Spilink_spec.v
theories/Spilink_proofs.v
theories/Spilink_props.v
theories/Spiwb_model.v
theories/Spiwb_props.v
theories/Plltie_props.v
theories/Pllfloat_props.v
theories/I2czero_props.v
theories/Usbep_model.v
theories/Usbep_spec.v
theories/Usbep_props.v
theories/I2ctime_spec.v
theories/I2ctime_props.v
theories/Bridge_model.v
theories/Bridge_spec.v
theories/Bridge_proofs.v
theories/Bridge_props.v
theories/I2cend_spec.v
theories/I2cend_props.v
theories/Ulpiw_model.v
theories/Ulpiw_spec.v
theories/Ulpirx_props.v
theories/Ulpitx_proofs.v
theories/Ulpiset_proofs.v
theories/Ulpitx_props.v
theories/Pllphase_props.v
theories/Cdcconv_model.v
theories/Cdcconv_props.v
theories/Chain_model.v
theories/Chain_props.v
theories/Spimiso_props.v
theories/Spihostlive_props.v
theories/Spixchg_props.v
theories/Spipair_model.v
theories/Spipair_proofs.v
theories/Spipair_props.v
theories/Reset_model.v
theories/Reset_props.v
theories/Ulpifull_model.v
theories/Ulpifull_props.v
theories/Ulpiboot_props.v
theories/Hold_props.v
theories/Crg_model.v
theories/Crg_props.v
theories/Spipairrx_props.v
theories/Session_spec.v
theories/Session_proofs.v
theories/Session_props.v
theories/Pllinst_model.v
theories/Pllinst_props.v
theories/Sessionlive_spec.v
theories/Sessionlive_proofs.v
theories/Sessionlive_props.v
theories/Link_model.v
theories/Link_spec.v
theories/Link_proofs.v
theories/Link_props.v
theories/Utmi_model.v
theories/Utmi_props.v
theories/Usbbus_model.v
theories/Usbbus_spec.v
theories/Usbbus_proofs.v
theories/Usbbus_props.v
theories/Usbbuslive_spec.v
theories/Usbbuslive_proofs.v
theories/Usbbuslive_props.v
theories/Usbspi_model.v
theories/Usbspi_spec.v
theories/Usbspi_props.v
theories/Usbspilive_proofs.v
theories/Usbspilive_props.v
theories/Usbspirecv_props.v
theories/Spiclock_spec.v
theories/Spiclock_proofs.v
theories/Spiclock_props.v
theories/Spiclockrecv_props.v
theories/Spiclockback_spec.v
theories/Spiclockback_proofs.v
theories/Spiclockback_props.v
theories/Ulpidump_model.v
theories/Ulpidump_spec.v
theories/Ulpidump_props.v
theories/Spiblur_spec.v
theories/Spiblur_props.v
theories/Usbwbusy_props.v
theories/Usbgen_model.v
theories/Usbgen_props.v
theories/Spiblurrecv_props.v
theories/Spiblurback_spec.v
theories/Spiblurback_props.v
theories/Spiloop_model.v
theories/Spiloop_spec.v
theories/Spiloop_props.v
theories/Spiloophost_model.v
theories/Spiloophost_props.v
theories/Usblife_model.v
theories/Usblife_props.v
theories/Spistub_model.v
theories/Spistub_props.v
theories/Spibench_model.v
theories/Spibench_props.v
theories/I2cempty_proofs.v
theories/I2cempty_props.v
theories/Usbread_props.v
theories/Emptyprog_props.v
theories/I2cheld_proofs.v
theories/I2cheld_props.v
