(** What a ULPI PHY and a UTMI device core see of ulpi_wrapper: definitions over the
    observed cycles only. *)
From Verif Require Import Hdl Ulpiw_model.

Definition uo_dir (o : uw_obs) : bool := ui_dir (uo_in o).
Definition uo_nxt (o : uw_obs) : bool := ui_nxt (uo_in o).
Definition uo_txv (o : uw_obs) : bool := ui_txv (uo_in o).
Definition uo_set (o : uw_obs) : setting := ui_set (uo_in o).

(** dir in the previous cycle; low before the first. *)
Definition was_dir (t : list uw_obs) : bool := match rev t with [] => false | o :: _ => uo_dir o end.

(** ** The PHY's side of the bus (ULPI 1.1, 3.8).

    The link owns the data lines in a cycle in which dir is low and was low in the cycle
    before.  A byte 01xxxxxx taken (nxt) by an idle PHY is a transmit command carrying the
    packet identifier; the bytes taken after it are the packet's, until stp.  A byte
    10aaaaaa is a register write command; the byte taken next is the value, unless the PHY
    took over the bus before. *)
Inductive phy := PIdle | PTx | PReg (a : Z).
Inductive phy_event := PPid (n : Z) | PByte (d : Z) | PStop | PWrite (a d : Z).
Definition phy_step (own : bool) (p : phy) (o : uw_obs) : phy * list phy_event :=
  let take := own && uo_nxt o in
  match p with
  | PIdle => if take && (64 <=? uo_data o) && (uo_data o <? 128) then (PTx, [PPid (uo_data o - 64)])
             else if take && (128 <=? uo_data o) && (uo_data o <? 192) then (PReg (uo_data o - 128), [])
             else (PIdle, [])
  | PTx => if uo_stp o then (PIdle, [PStop]) else if take then (PTx, [PByte (uo_data o)]) else (PTx, [])
  | PReg a => if uo_dir o then (PIdle, []) else if take then (PIdle, [PWrite a (uo_data o)]) else (PReg a, [])
  end.
Fixpoint phy_run (was : bool) (p : phy) (t : list uw_obs) : phy * list phy_event :=
  match t with
  | [] => (p, [])
  | o :: t' => let '(p1, e) := phy_step (negb (uo_dir o) && negb was) p o in
               let '(p2, es) := phy_run (uo_dir o) p1 t' in (p2, e ++ es)
  end.
Definition phy_state (t : list uw_obs) : phy := fst (phy_run false PIdle t).
Definition phy_log (t : list uw_obs) : list phy_event := snd (phy_run false PIdle t).

(** The one thing asked of the PHY: nxt is low in the cycle in which it gives the bus back. *)
Definition phy_ok (t : list uw_obs) : Prop :=
  forall a x y b, t = a ++ x :: y :: b -> uo_dir x = true -> uo_dir y = false -> uo_nxt y = false.

(** ** Transmitting *)
(** The bytes the device core handed over. *)
Definition tx_taken (t : list uw_obs) : list Z :=
  flat_map (fun o => if uo_txv o && uo_txr o then [ui_txd (uo_in o)] else []) t.
(** The packet bytes among the events, and which byte they stand for: the command carries
    the low four bits of the first. *)
Definition is_sent (e : phy_event) : bool := match e with PPid _ | PByte _ => true | _ => false end.
Definition stands_for (e : phy_event) (b : Z) : Prop :=
  match e with PPid n => n = b mod 16 | PByte d => d = b | _ => False end.

(** Packets handed over: the bytes of each stretch of cycles with tx_valid high. *)
Definition close (ps : list (list Z)) (cur : list Z) : list (list Z) := match cur with [] => ps | _ => ps ++ [cur] end.
Fixpoint packets_from (ps : list (list Z)) (cur : list Z) (t : list uw_obs) : list (list Z) * list Z :=
  match t with
  | [] => (ps, cur)
  | o :: t' => if uo_txv o then packets_from ps (cur ++ (if uo_txr o then [ui_txd (uo_in o)] else [])) t'
               else packets_from (close ps cur) [] t'
  end.
Definition packets (t : list uw_obs) : list (list Z) := let '(ps, cur) := packets_from [] [] t in close ps cur.
(** Packets on the bus: complete ones, and the one not yet stopped. *)
Fixpoint bus_from (done : list (list Z)) (open : list Z) (l : list phy_event) : list (list Z) * list Z :=
  match l with
  | [] => (done, open)
  | PPid n :: l' => bus_from done [n] l'
  | PByte d :: l' => bus_from done (open ++ [d]) l'
  | PStop :: l' => bus_from (done ++ [open]) [] l'
  | PWrite _ _ :: l' => bus_from done open l'
  end.
Definition bus_packets (t : list uw_obs) : list (list Z) * list Z := bus_from [] [] (phy_log t).
(** A packet as the bus shows it. *)
Definition on_bus (p : list Z) : list Z := match p with [] => [] | b :: r => b mod 16 :: r end.

(** The core starts a packet only when the previous one was stopped on the bus, and asks to
    send only while it is not receiving. *)
Definition spaced (t : list uw_obs) : Prop :=
  forall a x y b, t = a ++ x :: y :: b -> uo_txv x = false -> uo_txv y = true -> bus_packets (a ++ [x]) = (map on_bus (packets (a ++ [x])), []).
Definition calm (t : list uw_obs) : Prop := Forall (fun o => uo_txv o = true -> uo_rxa o = false) t.
(** Cycles in which the PHY takes something. *)
Definition nxt_count (t : list uw_obs) : nat := length (filter uo_nxt t).
(** A quiet stretch: the PHY leaves the bus to the link, the core offers nothing and keeps
    its settings. *)
Definition quiet (x : setting) (o : uw_obs) : Prop := uo_dir o = false /\ uo_txv o = false /\ uo_set o = x.

(** ** Settings *)
(** The settings in the previous cycle; the reset values before the first. *)
Definition prev_set (t : list uw_obs) : setting := match rev t with [] => Setting 3 0 false true true | o :: _ => uo_set o end.
(** The values written to a PHY register, in order. *)
Definition writes (a : Z) (l : list phy_event) : list Z :=
  flat_map (fun e => match e with PWrite a' d => if a' =? a then [d] else [] | _ => [] end) l.
(** A write to a register is under way: its command is on the bus, or was taken and its
    value was not. *)
Definition writing (a : Z) (t : list uw_obs) (o : uw_obs) : Prop :=
  phy_state t = PReg a \/ (phy_state t = PIdle /\ uo_data o = 128 + a).
(** The function control value for given settings (register 4 of the ULPI standard): SuspendM
    (bit 6) set, Reset (bit 5), OpMode (bits 4-3), TermSelect (bit 2), XcvrSelect (bits 1-0);
    and the OTG control value (register 10): DmPulldown (bit 2), DpPulldown (bit 1). *)
Definition func_value (rst : bool) (s : setting) : Z :=
  (if rst then 96 else 64) + 8 * s_op s + (if s_term s then 4 else 0) + s_xcvr s.
Definition otg_value (s : setting) : Z := (if s_dm s then 4 else 0) + (if s_dp s then 2 else 0).
Definition same_mode (s s' : setting) : Prop := s_op s = s_op s' /\ s_term s = s_term s' /\ s_xcvr s = s_xcvr s'.
Definition same_otg (s s' : setting) : Prop := s_dm s = s_dm s' /\ s_dp s = s_dp s'.

(** ** Receiving *)
(** A data byte from the PHY: dir and nxt high, and dir high before. *)
Definition rx_data_cycle (was : bool) (o : uw_obs) : bool := was && uo_dir o && uo_nxt o.
(** A status byte (RX CMD): dir high as before, nxt low. *)
Definition rx_cmd_cycle (was : bool) (o : uw_obs) : bool := was && uo_dir o && negb (uo_nxt o).
Definition rx_event (o : uw_obs) : Z := (ui_data (uo_in o) / 16) mod 4.
(** What a PHY reports about the receiver: it is active from a turn of the bus with nxt, or a
    status with event 1 or 3, to a status with event 0 or the end of its turn. *)
Inductive rx_change := RxOn | RxOff | RxSame.
Definition rx_report (was : bool) (o : uw_obs) : rx_change :=
  if negb was && uo_dir o && uo_nxt o then RxOn
  else if was && negb (uo_dir o) then RxOff
  else if rx_cmd_cycle was o then
    if rx_event o =? 0 then RxOff else if (rx_event o =? 1) || (rx_event o =? 3) then RxOn else RxSame
  else RxSame.
(** Packets sent by the PHY: the bytes sent while active; a packet ends where the receiver
    stops being active. *)
Fixpoint phy_packets (was active : bool) (cur : list Z) (t : list uw_obs) : list (list Z) * option (list Z) :=
  match t with
  | [] => ([], if active then Some cur else None)
  | o :: t' =>
      match rx_report was o, active with
      | RxOn, false => phy_packets (uo_dir o) true [] t'
      | RxOff, true => let '(ps, q) := phy_packets (uo_dir o) false [] t' in (cur :: ps, q)
      | _, true => phy_packets (uo_dir o) true (cur ++ (if rx_data_cycle was o then [ui_data (uo_in o)] else [])) t'
      | _, false => phy_packets (uo_dir o) false [] t'
      end
  end.
(** Packets seen by the device core: the bytes of each stretch of cycles with rx_active. *)
Fixpoint core_packets (active : bool) (cur : list Z) (t : list uw_obs) : list (list Z) * option (list Z) :=
  match t with
  | [] => ([], if active then Some cur else None)
  | o :: t' =>
      let got := if uo_rxv o then [uo_rxd o] else [] in
      if uo_rxa o then core_packets true (if active then cur ++ got else got) t'
      else if active then let '(ps, q) := core_packets false [] t' in (cur :: ps, q) else core_packets false [] t'
  end.
