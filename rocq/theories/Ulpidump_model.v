(** Model of DumpULPIRegs as a whole, lambdalib/cores/usb/ulpi.py:16-73: the part in the ulpi
    clock domain ([dump] of Ulpi_model) and the power-on reset in the sync domain. *)
From Verif Require Import Stream Ulpi_model.

(** An execution is a list of clock edges of the two domains.  The source stream (22) is
    driven in the ulpi domain, so its user lives there too. *)
Inductive dw_event :=
| DwSync                                (* an edge of sync *)
| DwUlpi (p : phy) (ready : bool).      (* an edge of the PHY's clock *)
Inductive dw_obs :=
| DoSync
| DoUlpi (o : du_obs) (rst : bool).     (* [rst]: the PHY's reset pin (199) *)
Record dw_state := Dw { dw_por : por_state; dw_du : du_state }.

Section Whole.
  (** The cycle counts of the timer (33), max_addr (17). *)
  Context (n2 n4 max_addr : Z).
  Definition dw_in (s : dw_state) (p : phy) (r : bool) : du_in := DuIn p (poo_done (cout (por n2 n4) (dw_por s) tt)) r.   (* 40: read across the domains *)
  (** The reset of the ulpi domain that follows the one of sync (30) is not modelled:
      executions start after it. *)
  Definition dump_regs : circuit dw_event dw_obs :=
    Circuit dw_state (Dw (creset (por n2 n4)) (creset (dump max_addr)))
      (fun s e => match e with
        | DwSync => DoSync
        | DwUlpi p r => DoUlpi (cout (dump max_addr) (dw_du s) (dw_in s p r))
                          (match du_fsm (dw_du s) with DuReset => poo_rst (cout (por n2 n4) (dw_por s) tt) | _ => false end)   (* 39 *)
        end)
      (fun s e => match e with
        | DwSync => Dw (cnext (por n2 n4) (dw_por s) tt) (dw_du s)
        | DwUlpi p r => Dw (dw_por s) (cnext (dump max_addr) (dw_du s) (dw_in s p r))
        end).
End Whole.
