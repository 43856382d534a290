(** Model of lambdalib/cores/spi/stream.py. *)
From Verif Require Import Stream.

(** ** SPIStream, stream.py:16-93.  A word for the PHY (common.py:8-16). *)
Record phy_word := PhyWord { pw_data : Z; pw_width : Z; pw_oe : bool; pw_len : Z }.
Inductive ss_state := SsIdle | SsTxRx | SsRx.
(** Inputs: data_sink, phy_source.ready, phy_sink, data_source.ready. *)
Record ss_in := SsIn { si_dsink : chan Z; si_pready : bool; si_psink : chan Z; si_dready : bool }.
(** One cycle: cs, the words going to the PHY and the words coming from it. *)
Record ss_obs := SsObs { so_cs : bool; so_tx : obs Z phy_word; so_rx : obs Z Z }.
Section SpiStream.
  Context (width bus_width : Z).
  Definition ss_tx_en (s : ss_state) : bool := match s with SsTxRx => true | _ => false end.   (* 72-77 *)
  Definition ss_rx_en (s : ss_state) : bool := match s with SsIdle => false | _ => true end.   (* 76, 87 *)
  Definition ss_dready (s : ss_state) (r : bool) : bool := r && ss_tx_en s.                    (* 49 *)
  Definition ss_pready (s : ss_state) (r : bool) : bool := r && ss_rx_en s.                    (* 59 *)
  Definition spi_stream : circuit ss_in ss_obs :=
    Circuit ss_state SsIdle
      (fun s i => SsObs (match s with SsIdle => false | _ => true end)                         (* 73, 85 *)
        (Obs (si_dsink i) (ss_dready s (si_pready i))
             (Chan (cvalid (si_dsink i) && ss_tx_en s)                                         (* 48 *)
                   (Beat false (blast (cbeat (si_dsink i)))                                    (* 51 *)
                         (PhyWord (bdata (cbeat (si_dsink i))) bus_width true width)))         (* 42-46 *)
             (si_pready i))
        (Obs (si_psink i) (ss_pready s (si_dready i))
             (Chan (cvalid (si_psink i) && ss_rx_en s)                                         (* 58 *)
                   (Beat false (blast (cbeat (si_psink i))) (trunc width (bdata (cbeat (si_psink i))))))  (* 56, 61 *)
             (si_dready i)))
      (fun s i =>
         match s with
         | SsIdle => if cvalid (si_dsink i) then SsTxRx else SsIdle                            (* 65-68 *)
         | SsTxRx => if cvalid (si_dsink i) && ss_dready s (si_pready i) && blast (cbeat (si_dsink i)) then SsRx else SsTxRx   (* 79-80 *)
         | SsRx => if cvalid (si_psink i) && ss_pready s (si_dready i) && blast (cbeat (si_psink i)) then SsIdle else SsRx     (* 90-91 *)
         end).
End SpiStream.
