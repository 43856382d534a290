(** Model of DELAY_LatticeECP5, lambdalib/cores/pll/lattice_ecp5.py:368-428, with the default
    7-bit taps.  The DELAYF primitive (388-397) is seen through its inputs LOADN and MOVE.
    The sync reset, which also loads the delay line, only happens before the first cycle. *)
From Verif Require Import Hdl.

Inductive dl_fsm := DlIdle | DlRst | DlMove.
Record dl_state := Dl { dl_s : dl_fsm; dl_move : bool; dl_curr : Z }.              (* 381-385, 406 *)
Record dl_obs := DlObs { dlo_taps : Z; dlo_locked : bool; dlo_load : bool; dlo_move : bool }.
Definition dl_done (s : dl_state) (taps : Z) : bool := taps =? dl_curr s.          (* 402 *)
Definition dl_out (s : dl_state) (taps : Z) : dl_obs :=
  DlObs taps (dl_done s taps)                                                      (* 401 *)
        match dl_s s with DlRst => true | _ => false end                           (* 393, 412 *)
        (dl_move s).                                                               (* 394 *)
Definition dl_next (s : dl_state) (taps : Z) : dl_state :=
  match dl_s s with
  | DlIdle => Dl (if dl_done s taps then DlIdle else DlRst) (dl_move s) (dl_curr s)   (* 407-409 *)
  | DlRst => Dl DlMove false 0                                                        (* 411-417 *)
  | DlMove =>
      if dl_done s taps then Dl DlIdle false (dl_curr s)                              (* 420-422 *)
      else Dl DlMove (negb (dl_move s))
              (if dl_move s then trunc 7 (dl_curr s + 1) else dl_curr s)              (* 423-426 *)
  end.
Definition delay : circuit Z dl_obs := Circuit dl_state (Dl DlIdle false 0) dl_out dl_next.
