(** Model of the SPI side of examples/spi_bridge.py: SPIMasterBridge (18-78). *)
From Verif Require Import Stream Spistream_model Spimaster_model.

(** One cycle: the SPIStream and the SPIPHYMaster. *)
Record host_in := HostIn { hi_sink : chan Z; hi_dq : Z; hi_ready : bool }.
Record host_obs := HostObs { ho_app : ss_obs; ho_phy : ms_obs }.

Section Host.
  (** [width]: word width of both (8 in the example); [bw]: bus_width, and the number of
      data lines of the pads (the example requests 4 lines whenever its width is not 1);
      [div], [delay] as in Spimaster_model. *)
  Context (width bw div delay : Z).
  Definition to_mword (b : beat phy_word) : beat mword :=
    Beat (bfirst b) (blast b) (MWord (pw_data (bdata b)) (pw_width (bdata b)) (pw_oe (bdata b)) (pw_len (bdata b))).
  Definition nobeat : chan Z := Chan false (Beat false false 0).
  (** The outputs of the SPIStream that do not depend on its PHY side: cs, the word
      for the PHY and phy_sink.ready (stream.py:42-61). *)
  Definition host_probe (s : ss_state) (i : host_in) : ss_obs :=
    cout (spi_stream width bw) s (SsIn (hi_sink i) false nobeat (hi_ready i)).
  (** spi_bridge.py:57-66: spi_phy.cs = api.cs, api.phy_source -> spi_phy.sink,
      spi_phy.source -> api.phy_sink; hi_sink and hi_ready are the USB side
      (link.source, link.sink), which is not modelled here. *)
  Definition host_phy_in (s : ss_state) (i : host_in) : ms_in :=
    let p := host_probe s i in
    MsIn (so_cs p) (Chan (cvalid (o_src (so_tx p))) (to_mword (cbeat (o_src (so_tx p))))) (hi_dq i) (o_sready (so_rx p)).
  Definition host_phy_out (s : ss_state) (m : ms_state width) (i : host_in) : ms_obs :=
    cout (spi_master width bw div delay) m (host_phy_in s i).
  Definition host_app_in (s : ss_state) (m : ms_state width) (i : host_in) : ss_in :=
    let o := host_phy_out s m i in
    SsIn (hi_sink i) (mo_sready o) (o_src (mo_fifo o)) (hi_ready i).
  Definition spi_host : circuit host_in host_obs :=
    Circuit (ss_state * ms_state width) (creset (spi_stream width bw), creset (spi_master width bw div delay))
      (fun s i => HostObs (cout (spi_stream width bw) (fst s) (host_app_in (fst s) (snd s) i)) (host_phy_out (fst s) (snd s) i))
      (fun s i => (cnext (spi_stream width bw) (fst s) (host_app_in (fst s) (snd s) i),
                   cnext (spi_master width bw div delay) (snd s) (host_phy_in (fst s) i))).
End Host.
