(** Model of lambdalib/cores/time/timer.py, cores/time/clk.py and
    cores/led/blink.py. *)
From Verif Require Import Hdl.

(** ** WaitTimer, timer.py:3-20.  Register: count (reset t, line 12). *)
Definition wt_done (count : Z) : bool := count =? 0.                      (* line 13 *)
Definition wt_next (t count : Z) (wait : bool) : Z :=                     (* lines 14-18 *)
  if wait then (if negb (wt_done count) then trunc (range_width (t + 1)) (count - 1) else count)
  else t.

Record wt_obs := WtObs { wo_wait : bool; wo_done : bool }.
Definition wait_timer (t : Z) : circuit bool wt_obs :=
  Circuit Z t (fun s w => WtObs w (wt_done s)) (wt_next t).

(** ** WaitNTimer, timer.py:22-47.  [wait] is the list of the bits of self.wait. *)
Definition wn_done (ts : list Z) (count : Z) (wait : list bool) : bool := (* lines 41-45 *)
  existsb (fun p => snd p && (count =? fst p)) (combine ts wait).
Definition wn_max (ts : list Z) : Z := fold_right Z.max 0 ts.
Definition wn_next (ts : list Z) (count : Z) (wait : list bool) : Z :=    (* lines 35-39 *)
  if existsb (fun b => b) wait then
    (if negb (wn_done ts count wait) then trunc (range_width (wn_max ts + 1)) (count + 1) else count)
  else 0.
Record wn_obs := WnObs { wno_wait : list bool; wno_done : bool }.
Definition wait_n_timer (ts : list Z) : circuit (list bool) wn_obs :=
  Circuit Z 0 (fun s w => WnObs w (wn_done ts s w)) (wn_next ts).

(** ** PulseClock, clk.py:12-37.  Registers acc (32 bits), tick.
    The tuning word is an integer parameter; its computation (line 21) is
    [pulse_tuning_word] in Timing_model. *)
Record pc_state := Pc { pc_acc : Z; pc_tick : bool }.
Record pc_obs := PcObs { pco_rst : bool; pco_o : bool }.
Definition pc_next (tw : Z) (s : pc_state) (rst : bool) : pc_state :=     (* lines 31-34 *)
  if rst then Pc (2 ^ 31) (pc_tick s)
  else let sum := pc_acc s + tw in
       Pc (trunc 32 sum) (Z.odd (sum / 2 ^ 32)).
Definition pulse_clock (tw : Z) : circuit bool pc_obs :=
  Circuit pc_state (Pc 0 false) (fun s rst => PcObs rst (pc_tick s)) (pc_next tw).

(** ** TuningClock, clk.py:40-56.  Registers acc, tick, o.  The tuning word (line 42) is
    [tuning_tuning_word] in Timing_model. *)
Record tc_state := Tc { tc_acc : Z; tc_tick : bool; tc_o : bool }.
Definition tc_next (tw : Z) (s : tc_state) : tc_state :=                  (* lines 51-54 *)
  let sum := tc_acc s + tw in
  Tc (trunc 32 sum) (Z.odd (sum / 2 ^ 32)) (if tc_tick s then negb (tc_o s) else tc_o s).
Definition tuning_clock (tw : Z) : circuit unit bool :=
  Circuit tc_state (Tc 0 false false) (fun s _ => tc_o s) (fun s _ => tc_next tw s).
(** ** BlinkKeep, blink.py:9-39.  Registers counter (22), inc (34, 8 bits). *)
Record bk_state := Bk { bk_counter : Z; bk_inc : Z }.
Record bk_obs := BkObs { bko_i : bool; bko_o : bool }.
Definition bk_next (timeout : Z) (s : bk_state) (i : bool) : bk_state :=
  Bk (if i then timeout                                                   (* lines 24-31 *)
      else if bk_counter s >? 0 then trunc (range_width (timeout + 1)) (bk_counter s - 1) else 0)
     (trunc 8 (bk_inc s + 1)).                                            (* line 35 *)
Definition blink_keep (timeout thresh : Z) : circuit bool bk_obs :=
  Circuit bk_state (Bk 0 0)
    (fun s i => BkObs i ((bk_inc s <? thresh) && (bk_counter s >? 0)))    (* line 37 *)
    (bk_next timeout).

(** ** BlinkDomain, blink.py:42-55 *)
Definition blink_domain : circuit unit bool :=
  Circuit Z 0 (fun s _ => Z.testbit s 25) (fun s _ => trunc 26 (s + 1)).
