(** Model of DirectULPI as a whole, lambdalib/cores/usb/ulpi.py:76-171: the part in the ulpi
    clock domain ([direct] of Ulpi_model), the power-on reset in the sync domain, and the two
    asynchronous FIFOs that join them to the user's streams. *)
From Verif Require Import Stream Fifo_model Cdcconv_model Ulpi_model.

(** An execution is a list of clock edges of the two domains.  What each side of a FIFO knows
    of the other is chosen by the environment, as for [async_words]. *)
Inductive fu_event :=
| FuSync (sink : chan Z) (seen_tx_reads : Z) (ready : bool) (seen_rx_writes : Z)    (* user's side *)
| FuUlpi (p : phy) (seen_tx_writes seen_rx_reads : Z).                              (* the PHY's clock *)
(** What is seen: at an edge of sync, the two streams of the user; at an edge of ulpi, what
    [direct] shows and whether rx_fifo has room. *)
Inductive fu_obs :=
| FoSync (sink : chan Z) (sready : bool) (source : chan Z) (ready : bool)
| FoUlpi (o : di_obs) (room : bool).
Record fu_state := Fu { fu_por : por_state; fu_tx : af_state; fu_rx : af_state; fu_di : di_state }.

Section Full.
  (** The cycle counts of the two timers (91, 92), rx_depth and tx_depth (77). *)
  Context (n2 n4 nt rx_depth tx_depth : Z).
  Definition fu_di_in (s : fu_state) (p : phy) (sw : Z) : di_in :=
    let o := cout (por n2 n4) (fu_por s) tt in
    DiIn p (poo_rst o) (poo_done o) (cv_out 8 (fu_tx s) sw).                           (* 104, 112-113: read across the domains *)
  Definition fu_ulpi (s : fu_state) (p : phy) (sw : Z) : di_obs := cout (direct nt) (fu_di s) (fu_di_in s p sw).
  Definition direct_ulpi : circuit fu_event fu_obs :=
    Circuit fu_state (Fu (creset (por n2 n4)) (Af [] 0 0 0) (Af [] 0 0 0) (creset (direct nt)))
      (fun s e => match e with
        | FuSync k sr r sw => FoSync k (af_wrdy (async_depth tx_depth) (fu_tx s) sr) (cv_out 8 (fu_rx s) sw) r     (* 103, 107 *)
        | FuUlpi p sw sr => FoUlpi (fu_ulpi s p sw) (af_wrdy (async_depth rx_depth) (fu_rx s) sr)
        end)
      (fun s e => match e with
        | FuSync k sr r sw =>
            Fu (cnext (por n2 n4) (fu_por s) tt)
               (cv_write 8 (async_depth tx_depth) (fu_tx s) k sr) (cv_read (fu_rx s) r sw) (fu_di s)
        | FuUlpi p sw sr =>
            Fu (fu_por s) (cv_read (fu_tx s) (o_sready (dio_tx (fu_ulpi s p sw))) sw)                             (* 104 *)
               (cv_write 8 (async_depth rx_depth) (fu_rx s) (dio_rx (fu_ulpi s p sw)) sr)                         (* 106; the splitter ignores ready *)
               (cnext (direct nt) (fu_di s) (fu_di_in s p sw))
        end).
End Full.
