(** Model of lambdalib/cores/spi/slave.py. *)
From Verif Require Import Stream Bits Fifo_model.

(** The SPI pins seen by the slave (common.py:32-49): clk, cs_n and the input data
    lines (mosi, or dq.i of [bw] bits). *)
Record pins := Pins { p_clk : bool; p_cs_n : bool; p_dq : Z }.
Definition pins0 : pins := Pins false false 0.

Record sl_in := SlIn { sl_pins : pins; sl_sink : chan (Z * Z); sl_rready : bool }.
(** One cycle: pins, the word stream to send, dq_o, the word pushed into the FIFO
    (data, len, end), and the FIFO. *)
Record sl_obs := SlObs { so_pins : pins; so_sink : chan (Z * Z); so_sready : bool; so_dq_o : Z;
                         so_push : option (Z * Z * bool); so_fifo : obs Z Z }.

Section Slave.
  Context (cpol cpha : bool) (width bw : Z) (with_len : bool) (stages : list Z).
  (** fifo (40): payload data and, with_len, len (38, common.py:26-30). *)
  Definition sl_pw : Z := if with_len then width + range_width (width + 1) else width.
  Definition sl_fifo : smod Z Z := stream_sync_fifo sl_pw 8 true.
  Definition sl_payload (d len : Z) : Z := if with_len then d + 2 ^ width * len else d.
  (** Registers: the two stages of the three FFSynchronizers (56, 67, 73-74), clk_r
      (76), cnt_in, reg_in (100-101), idx (110), cnt_out, reg_out (130-131), dq_o
      (52, 60), the FIFO.  All reset to 0 (so cs_n reads as selected at first). *)
  Record sl_state := Sl { l_p1 : pins; l_p2 : pins; l_clk_r : bool;
                          l_cnt : Z; l_reg : Z; l_idx : Z;
                          l_cnto : Z; l_rego : Z; l_dqo : Z; l_fifo : st sl_fifo }.
  Definition sl_reset : sl_state := Sl pins0 pins0 false 0 0 0 0 0 0 (st0 sl_fifo).
  Implicit Types (s : sl_state).
  Definition sl_en s : bool := negb (p_cs_n (l_p2 s)).                                  (* 79 *)
  Definition sl_rise s : bool := sl_en s && negb (l_clk_r s) && p_clk (l_p2 s).         (* 80 *)
  Definition sl_fall s : bool := sl_en s && l_clk_r s && negb (p_clk (l_p2 s)).         (* 81 *)
  Definition sl_mode : bool := Bool.eqb cpol cpha.                                      (* 84-85 *)
  Definition sl_sample s : bool := if sl_mode then sl_rise s else sl_fall s.            (* 86, 89 *)
  Definition sl_update s : bool := if sl_mode then sl_fall s else sl_rise s.            (* 87, 90 *)
  Definition sl_wdlen (c : chan (Z * Z)) : Z := if with_len then snd (bdata (cbeat c)) else width.   (* 92-97 *)
  Definition sl_end s : bool := (0 <? l_cnt s) && negb (sl_en s).                       (* 102 *)
  Definition sl_nbits s : Z := nth (Z.to_nat (l_idx s)) stages (last stages 0).         (* 109-110, 120: Array clamps *)
  (** fifo.sink.valid (113-121). *)
  Definition sl_pushing s : bool := negb (sl_sample s) && ((l_cnt s =? sl_nbits s) || sl_end s).
  Definition sl_fsink s : chan Z := Chan (sl_pushing s) (Beat false false (sl_payload (l_reg s) (l_cnt s))).   (* 104-106 *)
  (** sink.ready (135-136). *)
  Definition sl_load s : bool := sl_en s && (l_cnto s =? 0).

  Definition spi_slave : circuit sl_in sl_obs :=
    let cw := range_width (width + 1) in
    Circuit sl_state sl_reset
      (fun s i => SlObs (sl_pins i) (sl_sink i) (sl_load s) (l_dqo s)
                    (if sl_pushing s then Some (l_reg s, l_cnt s, sl_end s) else None)
                    (Obs (sl_fsink s) (rdy sl_fifo (l_fifo s) (sl_fsink s) (sl_rready i))
                         (src sl_fifo (l_fifo s) (sl_fsink s)) (sl_rready i)))
      (fun s i =>
         let '(cnt, reg, idx) :=
           if sl_sample s then                                                          (* 113-117 *)
             (trunc cw (l_cnt s + bw), trunc width (p_dq (l_p2 s) + 2 ^ bw * l_reg s), l_idx s)
           else if sl_pushing s then                                                    (* 120-127 *)
             (0, l_reg s, if sl_end s then 0
                          else if l_idx s <? Z.of_nat (length stages) - 1
                               then trunc (range_width (Z.of_nat (length stages))) (l_idx s + 1) else l_idx s)
           else (l_cnt s, l_reg s, l_idx s) in
         let '(cnto, rego, dqo) :=
           if sl_load s then                                                            (* 135-141 *)
             if cvalid (sl_sink i)
             then (trunc cw (sl_wdlen (sl_sink i)),
                   trunc width (Z.shiftl (fst (bdata (cbeat (sl_sink i)))) (width - sl_wdlen (sl_sink i))), l_dqo s)
             else (l_cnto s, l_rego s, l_dqo s)
           else if sl_update s then                                                     (* 144-150 *)
             (if 0 <? l_cnto s then trunc cw (l_cnto s - bw) else l_cnto s,
              trunc width (2 ^ bw * l_rego s), trunc bw (Z.shiftr (l_rego s) (width - bw)))
           else if sl_en s then (l_cnto s, l_rego s, l_dqo s) else (0, l_rego s, l_dqo s) in   (* 152-153 *)
         Sl (sl_pins i) (l_p1 s) (p_clk (l_p2 s)) cnt reg idx cnto rego dqo
            (nxt sl_fifo (l_fifo s) (sl_fsink s) (sl_rready i))).
End Slave.
