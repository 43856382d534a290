(** Model of lambdalib/cores/serial.py.  The UART itself (amaranth_stdio.serial) is not
    part of the repository: its outputs rx.rdy, rx.data, tx.rdy, tx.o are inputs here. *)
From Verif Require Import Stream Timer_model.

(** ** AsyncSerialStream, 38-78.  Registers: source.valid, source.data. *)
Record us_in := UsIn { u_rx_rdy : bool; u_rx_data : Z; u_rready : bool; u_tx_rdy : bool; u_sink : chan Z }.
Record us_obs := UsObs { uo_rx_rdy : bool; uo_rx_data : Z; uo_rx_ack : bool; uo_src : chan Z; uo_rready : bool;
                         uo_tx_rdy : bool; uo_tx_ack : bool; uo_tx_data : Z; uo_sink : chan Z; uo_sready : bool }.
Record us_state := Us { us_valid : bool; us_data : Z }.
Definition us_busy (s : us_state) (i : us_in) : bool := us_valid s && negb (u_rready i).      (* 66-67 *)
Definition us_ack (s : us_state) (i : us_in) : bool := negb (us_busy s i).                    (* 69 *)
Definition serial_stream : circuit us_in us_obs :=
  Circuit us_state (Us false 0)
    (fun s i => UsObs (u_rx_rdy i) (u_rx_data i) (us_ack s i) (Chan (us_valid s) (Beat false false (us_data s))) (u_rready i)
                  (u_tx_rdy i) (cvalid (u_sink i)) (bdata (cbeat (u_sink i))) (u_sink i) (u_tx_rdy i))   (* 60-64 *)
    (fun s i => if us_ack s i && u_rx_rdy i then Us true (u_rx_data i)                        (* 70-74 *)
                else if us_valid s && u_rready i then Us false (us_data s) else s).           (* 75-76 *)

(** ** AsyncSerialTXStream, 18-35, around the UART's transmitter.  No register. *)
Record ut_in := UtIn { ut_rdy : bool; ut_o : bool; ut_sink : chan Z }.
Record ut_obs := UtObs { uto_rdy : bool; uto_o : bool; uto_ack : bool; uto_data : Z; uto_sink : chan Z; uto_sready : bool; uto_pin : bool }.
Definition serial_tx_stream : circuit ut_in ut_obs :=
  Circuit unit tt
    (fun _ i => UtObs (ut_rdy i) (ut_o i) (cvalid (ut_sink i)) (bdata (cbeat (ut_sink i)))                (* 29-30 *)
                  (ut_sink i) (ut_rdy i) (ut_o i))                                                        (* 31-32 *)
    (fun s _ => s).

(** ** AsyncSerialStreamHalfDuplex, 81-116, around the UART.  Registers: the two stages
    of the FFSynchronizer (91, reset 1), the FSM, the WaitTimer (93).  Its
    platform.request("debug") line (107) is left out. *)
Record hd_in := HdIn { h_pin : bool; h_tx_rdy : bool; h_tx_o : bool }.
Record hd_obs := HdObs { ho_pin : bool; ho_tx_rdy : bool; ho_tx_o : bool; ho_o : bool; ho_oe : bool; ho_rx_i : bool }.
Record hd_state := Hd { hd_f1 : bool; hd_f2 : bool; hd_tx : bool; hd_cnt : Z }.
Section HalfDuplex.
  Context (divisor : Z).
  Definition hd_wait (s : hd_state) (i : hd_in) : bool := hd_tx s && h_tx_rdy i.              (* 111-112 *)
  Definition half_duplex : circuit hd_in hd_obs :=
    Circuit hd_state (Hd true true false divisor)
      (fun s i => HdObs (h_pin i) (h_tx_rdy i) (h_tx_o i)
                    (if hd_tx s then h_tx_o i else false) (hd_tx s)                           (* 104-105 *)
                    (if hd_tx s then true else hd_f2 s))                                      (* 97, 109 *)
      (fun s i => Hd (h_pin i) (hd_f1 s)
                     (if hd_tx s then negb (h_tx_rdy i && wt_done (hd_cnt s))                 (* 111-114 *)
                      else negb (h_tx_rdy i))                                                 (* 99-100 *)
                     (wt_next divisor (hd_cnt s) (hd_wait s i))).
End HalfDuplex.
