(** Properties of I2CInitiator (C42-C46, C85). *)
From Verif Require Import Hdl Bits I2c_model I2c_spec I2c_proofs I2c_live.
From Coq Require Import Lia.

(** C42: for every period, bus configuration and input history: SCL and SDA are
    never moved in the same cycle, and SDA is moved while SCL is high only from 1 to
    0 in a start command and from 0 to 1 in a stop command. *)
Theorem C42_sda_changes : forall period stretch oe ins t1 o o' t2,
  trace (i2c_initiator period stretch oe) ins = t1 ++ o :: o' :: t2 ->
  io_sda o <> io_sda o' ->
  io_scl o = io_scl o' /\
  (io_scl o = true ->
     (io_sda o = true /\ io_sda o' = false /\ last_cmd t1 = Some CStart) \/
     (io_sda o = false /\ io_sda o' = true /\ last_cmd t1 = Some CStop)).
Proof.
  intros period stretch oe ins t1 o o' t2 H HS. apply trace_two in H. destruct H as (a & i & i' & b & -> & <- & -> & ->).
  pose proof (line_run period stretch oe a) as L. unfold line_ok in L. set (lc := last_cmd _) in *. clearbody lc.
  set (s := state _ a) in *. clearbody s. cbn [i2c_initiator cout cnext io_sda io_scl] in *.
  unfold i2c_next in *. destruct (fsm_next stretch oe s i) as [f d] eqn:FN. cbn [s_d] in *.
  unfold fsm_next, scl_l, scl_h, stb_x in FN.
  destruct (s_f s) eqn:F.
  1: { destruct (cmd_taken s i) as [[]|]; injection FN as <- <-; cbn in HS; contradiction. }
  all: destruct (stb s); [|try destruct (d_scl (s_d s) && _)]; injection FN as <- <-; cbn in HS |- *; try contradiction.
  all: try match type of L with _ /\ _ => destruct L as [L1 L2]; rewrite L1 end.
  all: try rewrite L.
  all: split; auto; intros; try discriminate.
  - left. destruct (d_sda (s_d s)); auto; contradiction.
  - right. destruct (d_sda (s_d s)); auto; contradiction.
Qed.

Definition no_cmd (sda scl : bool) : i2c_in := I2cIn false false false false 0 false sda scl.
Definition cmd_start (sda scl : bool) : i2c_in := I2cIn true false false false 0 false sda scl.
Definition cmd_stop (sda scl : bool) : i2c_in := I2cIn false true false false 0 false sda scl.
Definition cmd_write (x : Z) (sda scl : bool) : i2c_in := I2cIn false false true false x false sda scl.
Definition cmd_read (a sda scl : bool) : i2c_in := I2cIn false false false true 0 a sda scl.

Example C42_nonvacuous :
  let t := trace (i2c_initiator 4 false true)
    ([no_cmd true true; cmd_start true true] ++ repeat (no_cmd true true) 6 ++ [cmd_stop true true] ++ repeat (no_cmd true true) 6) in
  map io_sda t = repeat true 4 ++ repeat false 7 ++ repeat true 4 /\ forallb io_scl t = true /\
  map io_busy t = [true; false; true; true; true; false; false; false; false; true; true; true; false; false; false].
Proof. repeat split; reflexivity. Qed.

(** C43: whenever busy is low and the last command was a write of [x], the lines have
    shown, since the command was taken: exactly nine falling and nine rising edges of
    SCL, no start or stop condition, SDA equal to bits 7..0 of [x] and then released
    at the rising edges, and ack_o is the complement of SDA as seen in the ninth high
    phase. *)
Theorem C43_write : forall period stretch oe ins t1 o t2 x,
  4 <= period ->
  trace (i2c_initiator period stretch oe) ins = t1 ++ o :: t2 ->
  io_busy o = false -> last_cmd t1 = Some (CWrite x) ->
  let m := monitored stretch t1 in
  m_rises m = msb_first x ++ [true] /\ m_falls m = 9 /\ m_conds m = [] /\
  length (m_samples m) = 9%nat /\ io_ack o = negb (nth 8 (m_samples m) false) /\ io_scl o = true.
Proof.
  intros period stretch oe ins t1 o t2 x HP H HB HC m. apply trace_one in H. destruct H as (a & i & b & -> & <- & ->).
  destruct (idle_facts period stretch oe HP a HB) as (_ & H1 & H2). fold m in H2. unfold m in H2. rewrite m_cmd_last, HC in H2. fold m in H2.
  destruct H2 as ((_ & _ & P3 & P4 & P5 & P6 & P7) & H3). cbn [i2c_initiator cout io_ack io_scl]. repeat (split; auto).
Qed.

(** C44: likewise for a read with acknowledge bit [a]: SDA is released for eight
    clocks, then driven with the complement of [a]; data_o is the eight values seen,
    most significant first. *)
Theorem C44_read : forall period stretch oe ins t1 o t2 a,
  4 <= period ->
  trace (i2c_initiator period stretch oe) ins = t1 ++ o :: t2 ->
  io_busy o = false -> last_cmd t1 = Some (CRead a) ->
  let m := monitored stretch t1 in
  m_rises m = repeat true 8 ++ [negb a] /\ m_falls m = 9 /\ m_conds m = [] /\
  length (m_samples m) = 9%nat /\ io_data o = from_msb (firstn 8 (m_samples m)) 0 /\ io_scl o = true.
Proof.
  intros period stretch oe ins t1 o t2 ak HP H HB HC m. apply trace_one in H. destruct H as (a & i & b & -> & <- & ->).
  destruct (idle_facts period stretch oe HP a HB) as (_ & H1 & H2). fold m in H2. unfold m in H2. rewrite m_cmd_last, HC in H2. fold m in H2.
  destruct H2 as ((_ & _ & P3 & P4 & P5 & P6 & P7) & H3). cbn [i2c_initiator cout io_data io_scl]. repeat (split; auto).
Qed.

(** C85: a start leaves SCL high and SDA low, and makes one start condition exactly
    if SDA was released, or SCL was seen high with SDA seen low (repeated start); a
    stop leaves both lines high, and makes one stop condition exactly if SDA was held
    low or SCL was seen high.  Nothing else appears on the bus meanwhile. *)
Theorem C85_start_stop : forall period stretch oe ins t1 o t2,
  4 <= period ->
  trace (i2c_initiator period stretch oe) ins = t1 ++ o :: t2 ->
  io_busy o = false ->
  let m := monitored stretch t1 in
  let '(scl_seen, sda_seen, sda_driven) := m_at m in
  match last_cmd t1 with
  | Some CStart => io_scl o = true /\ io_sda o = false /\
      m_conds m = if sda_driven || (scl_seen && negb sda_seen) then [BusStart] else []
  | Some CStop => io_scl o = true /\ io_sda o = true /\
      m_conds m = if negb sda_driven || scl_seen then [BusStop] else []
  | None => io_scl o = true /\ io_sda o = true /\ m_conds m = []
  | _ => True
  end.
Proof.
  intros period stretch oe ins t1 o t2 HP H HB m. apply trace_one in H. destruct H as (a & i & b & -> & <- & ->).
  destruct (idle_facts period stretch oe HP a HB) as (_ & H1 & H2). fold m in H2. unfold m in H2 at 1. rewrite m_cmd_last in H2.
  destruct (m_at m) as [[si di] d0]. cbn [i2c_initiator cout io_sda io_scl]. destruct (last_cmd _) as [[]|]; auto; tauto.
Qed.

Definition i2c_cycles (c : i2c_in) (n : nat) : list i2c_in := c :: repeat (no_cmd true true) n.

(** A start, a write of 0xA5 answered by an acknowledge, a read of 0x0F and a stop. *)
Definition i2c_session : list i2c_in :=
  [no_cmd true true] ++ i2c_cycles (cmd_start true true) 8 ++
  (cmd_write 0xA5 true true :: repeat (no_cmd true true) 64 ++ repeat (no_cmd false true) 11).

Example C43_nonvacuous :
  let t := trace (i2c_initiator 4 false true) (i2c_session ++ [no_cmd true true]) in
  let m := monitored false (removelast t) in
  last_cmd (removelast t) = Some (CWrite 0xA5) /\ io_busy (last t (hd (cout (i2c_initiator 4 false true) i2c_reset (no_cmd true true)) t)) = false /\
  m_rises m = [true; false; true; false; false; true; false; true; true] /\
  m_samples m = repeat true 8 ++ [false].
Proof. vm_compute. repeat split; reflexivity. Qed.

Example C44_nonvacuous :
  let t := trace (i2c_initiator 4 false true) (i2c_session ++ (cmd_read true true true :: repeat (no_cmd false true) 30 ++ repeat (no_cmd true true) 60)) in
  let m := monitored false (removelast t) in
  last_cmd (removelast t) = Some (CRead true) /\ io_busy (last t (hd (cout (i2c_initiator 4 false true) i2c_reset (no_cmd true true)) t)) = false /\
  m_rises m = repeat true 8 ++ [false] /\
  io_data (last t (hd (cout (i2c_initiator 4 false true) i2c_reset (no_cmd true true)) t)) = 0x0F.
Proof. vm_compute. repeat split; reflexivity. Qed.

Example C85_nonvacuous :
  let t := trace (i2c_initiator 4 false true) (i2c_session ++ i2c_cycles (cmd_start false true) 20 ++ i2c_cycles (cmd_stop false true) 20) in
  last_cmd t = Some CStop /\ m_conds (monitored false t) = [BusStop] /\ m_at (monitored false t) = (true, true, false) /\
  m_conds (monitored false (firstn (86 + 20) t)) = [BusStart] /\
  last_cmd (firstn (86 + 20) t) = Some CStart.
Proof. vm_compute. repeat split; reflexivity. Qed.

(** C45: with a period of at least 4 cycles, and, if clock stretching is enabled on a
    pad with an output enable, SCL following the initiator, the initiator is ready for
    a new command within 46 * (period/4 + 4) + 1 cycles: at that point busy is low, or
    a command has been strobed in the cycle before it would have been. *)
Theorem C45_finishes : forall period stretch oe ins t1 t2,
  4 <= period ->
  trace (i2c_initiator period stretch oe) ins = t1 ++ t2 ->
  Forall (fun o => stretch = true -> oe = true -> ii_scl_pad (io_in o) = io_scl o) t2 ->
  46 * (period / 4 + 4) + 1 < Z.of_nat (length t2) ->
  exists u o v, t2 = u ++ o :: v /\ Z.of_nat (length u) <= 46 * (period / 4 + 4) + 1 /\
    (io_busy o = false \/ io_cmd o <> None).
Proof.
  intros period stretch oe ins t1 t2 HP H HF HN. apply trace_cut_from in H. destruct H as (a & b & -> & <- & <-).
  fold (state (i2c_initiator period stretch oe) a) in *. rewrite trace_from_length in HN.
  pose proof (live_run period stretch oe HP a) as HL. pose proof (mu_bound period stretch oe HP _ HL) as HM.
  set (B := 46 * (period / 4 + 4)) in *. assert (HQ : 0 <= period / 4) by (apply Z.div_pos; lia).
  destruct (to_idle period stretch oe HP (Z.to_nat B) (state (i2c_initiator period stretch oe) a) b HL) as (x & y & -> & L1 & L2); auto; try lia.
  set (c := i2c_initiator period stretch oe) in *. rewrite app_length in HN.
  destruct y as [|i [|i' y]]; [cbn [length] in HN; lia|cbn [length] in HN; lia|].
  set (s := state_from c (state c a) x) in *. rewrite trace_from_app. fold s. cbn [trace_from].
  destruct (io_cmd (cout c s i)) as [k|] eqn:EC.
  - exists (trace_from c (state c a) x), (cout c s i), (cout c (cnext c s i) i' :: trace_from c (cnext c (cnext c s i) i') y).
    rewrite trace_from_length. repeat split; [lia|right; congruence].
  - exists (trace_from c (state c a) x ++ [cout c s i]), (cout c (cnext c s i) i'), (trace_from c (cnext c (cnext c s i) i') y).
    rewrite <- app_assoc, app_length, trace_from_length. cbn [app length]. repeat split; [lia|]. left.
    cbn [c i2c_initiator cout cnext io_busy io_cmd] in *. unfold i2c_next. destruct (fsm_next stretch oe s i). cbn [s_busy].
    unfold busy_next. rewrite L2. now rewrite EC.
Qed.

Definition strobed (i : i2c_in) : bool := ii_start i || ii_stop i || ii_write i || ii_read i.

(** C45, without further strobes: busy goes low within the bound. *)
Theorem C45_busy_low : forall period stretch oe ins t1 t2,
  4 <= period ->
  trace (i2c_initiator period stretch oe) ins = t1 ++ t2 ->
  Forall (fun o => strobed (io_in o) = false /\ (stretch = true -> oe = true -> ii_scl_pad (io_in o) = io_scl o)) t2 ->
  46 * (period / 4 + 4) + 1 < Z.of_nat (length t2) ->
  exists u o v, t2 = u ++ o :: v /\ Z.of_nat (length u) <= 46 * (period / 4 + 4) + 1 /\ io_busy o = false.
Proof.
  intros period stretch oe ins t1 t2 HP H HF HN.
  destruct (C45_finishes period stretch oe ins t1 t2 HP H) as (u & o & v & -> & H1 & [H2|H2]); auto.
  - eapply Forall_impl; [|exact HF]. intros o Ho. apply Ho.
  - exists u, o, v. auto.
  - exfalso. apply Forall_app in HF. destruct HF as [_ HF]. inversion HF as [|? ? [HS _] _]; subst.
    rewrite app_assoc in H. change (o :: v) with (o :: v) in H. 
    apply trace_one in H. destruct H as (a & i & b & -> & _ & ->). cbn [i2c_initiator cout io_cmd io_in] in *.
    unfold strobed in HS. unfold cmd_taken in H2. destruct (s_f _); try contradiction.
    destruct (ii_start i), (ii_stop i), (ii_write i), (ii_read i); try discriminate; contradiction.
Qed.

(** Why a period of at least 4 is needed: below, a write never ends, however long one
    waits. *)
Theorem C45_short_period_hangs : forall period stretch oe n,
  1 <= period < 4 ->
  Forall (fun o => io_busy o = true)
    (skipn 2 (trace (i2c_initiator period stretch oe) ([no_cmd true true; cmd_write 0 true true] ++ repeat (no_cmd true true) n))).
Proof.
  intros period stretch oe n HP. rewrite trace_app.
  set (c := i2c_initiator period stretch oe).
  assert (E : skipn 2 (trace c [no_cmd true true; cmd_write 0 true true] ++ trace_from c (state c [no_cmd true true; cmd_write 0 true true]) (repeat (no_cmd true true) n))
     = trace_from c (state c [no_cmd true true; cmd_write 0 true true]) (repeat (no_cmd true true) n)) by reflexivity.
  rewrite E. clear E. set (inv := fun s => s_busy s = true /\ s_timer s = 0 /\ (s_f s = WdSclL \/ s_f s = WdSdaX \/ s_f s = WdSclH)).
  assert (Q0 : period / 4 = 0) by (apply Z.div_small; lia).
  assert (T0 : forall w, trunc w 0 = 0) by (intros; unfold trunc; apply Zmod_0_l).
  assert (I0 : inv (state c [no_cmd true true; cmd_write 0 true true])).
  { unfold inv, c. cbn. repeat split; auto. unfold timer_next, stb. cbn. rewrite Q0. rewrite !T0. reflexivity. }
  assert (IS : forall s i, inv s -> inv (cnext c s i)).
  { intros s i (H1 & H2 & H3). cbn. unfold i2c_next, fsm_next, scl_l, scl_h, stb_x, busy_next, timer_next.
    assert (ST : stb s = true) by (unfold stb; rewrite H2; reflexivity).
    rewrite ST. cbn [orb]. rewrite Q0, T0. destruct H3 as [-> | [-> | ->]]; unfold inv; cbn; repeat split; auto. }
  generalize (state c [no_cmd true true; cmd_write 0 true true]) as s, I0. induction n as [|n IH]; intros s Hs; cbn; constructor.
  - apply Hs.
  - apply IH. now apply IS.
Qed.

Example C45_nonvacuous :
  let t := trace (i2c_initiator 4 true false) (i2c_session ++ repeat (no_cmd true true) 400) in
  Z.of_nat (length (skipn 11 t)) > 46 * (4 / 4 + 4) + 1 /\ last_cmd (firstn 11 t) = Some (CWrite 0xA5) /\ forallb (fun o => negb (strobed (io_in o))) (skipn 11 t) = true /\
  map io_busy (firstn 8 (skipn 79 t)) = [true; true; true; true; true; false; false; false].
Proof. vm_compute. repeat split; reflexivity. Qed.

(** C46 is false as stated: busy is high in the cycle after reset and in the last
    cycle of a command, and a strobe there is obeyed. *)
Theorem C46_ignored_refuted :
  exists ins i i' rest o k o1 o2,
    let c := i2c_initiator 4 false true in
    trace c (ins ++ [i]) = trace c ins ++ [o] /\ io_busy o = true /\ strobed i' = false /\
    ii_sda_pad i = ii_sda_pad i' /\ ii_scl_pad i = ii_scl_pad i' /\
    nth_error (trace c (ins ++ i :: rest)) k = Some o1 /\ nth_error (trace c (ins ++ i' :: rest)) k = Some o2 /\
    io_sda o1 <> io_sda o2.
Proof.
  exists [], (cmd_start true true), (no_cmd true true), (repeat (no_cmd true true) 6), (cout (i2c_initiator 4 false true) i2c_reset (cmd_start true true)).
  exists 4%nat. eexists. eexists. vm_compute. repeat split; try reflexivity. discriminate.
Qed.

(** The outputs, without the inputs of the cycle. *)
Definition i2c_outputs (o : i2c_obs) := (io_busy o, io_ack o, io_data o, io_scl o, io_sda o).

(** C46, what holds: if busy would stay high without a strobe, then strobes and
    operands in this cycle have no effect at all on what follows.  Missing from the
    full statement: the last busy cycle of each command, and the reset cycle. *)
Theorem C46_ignored_partial : forall period stretch oe ins i i0 i' o rest,
  let c := i2c_initiator period stretch oe in
  ii_sda_pad i = ii_sda_pad i0 -> ii_scl_pad i = ii_scl_pad i0 -> strobed i0 = false ->
  trace c (ins ++ [i0; i']) = trace c (ins ++ [i0]) ++ [o] -> io_busy o = true ->
  map i2c_outputs (trace c (ins ++ i :: rest)) = map i2c_outputs (trace c (ins ++ i0 :: rest)).
Proof.
  intros period stretch oe ins i i0 i' o rest c E1 E2 HS HT HB.
  rewrite !trace_app in HT. rewrite <- app_assoc in HT. apply app_inv_head in HT. cbn [trace_from app] in HT. injection HT as HT.
  subst o. set (s := state c ins) in *. rewrite !trace_app, !map_app. fold s. f_equal. cbn [trace_from map]. 
  assert (N : s_f s <> Idle).
  { intros F. cbn [c i2c_initiator cout cnext io_busy] in HB. unfold i2c_next in HB. destruct (fsm_next stretch oe s i0). cbn [s_busy] in HB.
    unfold busy_next in HB. rewrite F in HB. unfold cmd_taken in HB. rewrite F in HB. unfold strobed in HS.
    destruct (ii_start i0), (ii_stop i0), (ii_write i0), (ii_read i0); discriminate. }
  assert (EN : cnext c s i = cnext c s i0).
  { cbn [c i2c_initiator cnext]. unfold i2c_next, fsm_next, busy_next. rewrite E1, E2. destruct (s_f s); auto. contradiction. }
  rewrite EN. reflexivity.
Qed.

(** C46, the converse: when busy is low, a strobe is obeyed, in the order start,
    stop, write, read. *)
Theorem C46_taken : forall period stretch oe ins t1 o t2,
  trace (i2c_initiator period stretch oe) ins = t1 ++ o :: t2 -> io_busy o = false ->
  io_cmd o = let i := io_in o in
    if ii_start i then Some CStart else if ii_stop i then Some CStop
    else if ii_write i then Some (CWrite (ii_data i)) else if ii_read i then Some (CRead (ii_ack i)) else None.
Proof.
  intros period stretch oe ins t1 o t2 H HB. apply trace_one in H. destruct H as (a & i & b & -> & <- & ->).
  pose proof (busy_run period stretch oe a) as HI. cbn [i2c_initiator cout io_busy io_cmd io_in] in *. unfold cmd_taken.
  destruct (s_f _); auto; rewrite HI in HB by discriminate; discriminate.
Qed.

Example C46_nonvacuous :
  let c := i2c_initiator 4 false true in
  exists o, trace c (i2c_cycles (cmd_start true true) 1 ++ [no_cmd true true; no_cmd true true]) = trace c (i2c_cycles (cmd_start true true) 1 ++ [no_cmd true true]) ++ [o] /\
    io_busy o = true /\ strobed (cmd_write 3 true true) = true.
Proof. eexists. vm_compute. repeat split; reflexivity. Qed.

Print Assumptions C42_sda_changes.
Print Assumptions C43_write.
Print Assumptions C44_read.
Print Assumptions C85_start_stop.
Print Assumptions C45_finishes.
Print Assumptions C45_busy_low.
Print Assumptions C45_short_period_hangs.
Print Assumptions C46_ignored_refuted.
Print Assumptions C46_ignored_partial.
Print Assumptions C46_taken.
