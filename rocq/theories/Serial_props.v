(** UART stream wrappers: C71, C81. *)
From Verif Require Import Stream Timer_model Serial_model.

(** ** C71 *)
(** Bytes taken from the receiver: rdy and ack both high. *)
Definition us_taken (t : list us_obs) : list Z := flat_map (fun o => if uo_rx_rdy o && uo_rx_ack o then [uo_rx_data o] else []) t.
Definition us_delivered (t : list us_obs) : list Z := flat_map (fun o => map bdata (xfer (uo_src o) (uo_rready o))) t.
Definition us_pend (s : us_state) : list Z := if us_valid s then [us_data s] else [].

Lemma us_inv ins : let t := trace serial_stream ins in us_taken t = us_delivered t ++ us_pend (state serial_stream ins).
Proof.
  cbv zeta. revert ins. apply (run_inv serial_stream (fun t s => us_taken t = us_delivered t ++ us_pend s)); [reflexivity|].
  intros t s i H. unfold us_taken, us_delivered in *. rewrite !flat_map_app. cbn [flat_map]. rewrite !app_nil_r, H, <- !app_assoc. f_equal.
  cbn [cout cnext serial_stream uo_rx_rdy uo_rx_ack uo_rx_data uo_src uo_rready]. unfold us_ack, us_busy, us_pend, xfer. cbn [cvalid cbeat].
  destruct (us_valid s) eqn:Ev, (u_rready i), (u_rx_rdy i); cbn; rewrite ?Ev; reflexivity.
Qed.
(** Every byte taken is delivered, once, in order, at most one being in flight. *)
Theorem C71_delivered : forall ins, let t := trace serial_stream ins in
  exists pend, us_taken t = us_delivered t ++ pend /\ (length pend <= 1)%nat.
Proof. intros ins t. exists (us_pend (state serial_stream ins)). split; [apply us_inv|]. unfold us_pend. destruct (us_valid _); cbn; lia. Qed.
(** A byte offered and not taken stays, and the receiver is not acknowledged meanwhile. *)
Theorem C71_held : forall ins t1 o o' t2, trace serial_stream ins = t1 ++ o :: o' :: t2 ->
  cvalid (uo_src o) = true -> uo_rready o = false -> uo_src o' = uo_src o /\ uo_rx_ack o = false.
Proof.
  intros ins t1 o o' t2 E Hv Hr. apply trace_two in E. destruct E as (a & i & i' & b & -> & _ & -> & ->).
  cbn [cout cnext serial_stream uo_src uo_rready uo_rx_ack cvalid] in *. unfold us_ack, us_busy. rewrite Hr, Hv. cbn. now rewrite Hv.
Qed.
(** A byte taken is offered in the next cycle; the receiver is acknowledged whenever there is room. *)
Theorem C71_prompt : forall ins t1 o o' t2, trace serial_stream ins = t1 ++ o :: o' :: t2 ->
  (uo_rx_rdy o = true -> uo_rx_ack o = true -> uo_src o' = Chan true (Beat false false (uo_rx_data o))) /\
  (cvalid (uo_src o) = false \/ uo_rready o = true -> uo_rx_ack o = true).
Proof.
  intros ins t1 o o' t2 E. apply trace_two in E. destruct E as (a & i & i' & b & -> & _ & -> & ->).
  cbn [cout cnext serial_stream uo_src uo_rready uo_rx_ack uo_rx_rdy uo_rx_data cvalid] in *. split.
  - intros H1 H2. rewrite H1, H2. reflexivity.
  - unfold us_ack, us_busy. intros [->| ->]; [reflexivity|now rewrite andb_false_r].
Qed.
(** A byte leaves the sink exactly when the transmitter takes it. *)
Theorem C71_transmit : forall ins o, In o (trace serial_stream ins) ->
  map bdata (xfer (uo_sink o) (uo_sready o)) = if uo_tx_ack o && uo_tx_rdy o then [uo_tx_data o] else [].
Proof.
  intros ins o H. apply in_split in H. destruct H as (t1 & t2 & E). apply trace_one in E. destruct E as (a & i & b & -> & _ & ->).
  cbn [cout serial_stream uo_sink uo_sready uo_tx_ack uo_tx_rdy uo_tx_data]. unfold xfer. now destruct (_ && _).
Qed.
(** The same of the wrapper around a transmitter alone, which also puts the transmitter's
    output on the pin it was given. *)
Theorem C71_tx_stream : forall ins,
  flat_map (fun o => map bdata (xfer (uto_sink o) (uto_sready o))) (trace serial_tx_stream ins) =
  flat_map (fun o => if uto_ack o && uto_rdy o then [uto_data o] else []) (trace serial_tx_stream ins) /\
  map uto_pin (trace serial_tx_stream ins) = map ut_o ins /\ map uto_sready (trace serial_tx_stream ins) = map ut_rdy ins.
Proof.
  assert (G : forall ins s, trace_from serial_tx_stream s ins = map (cout serial_tx_stream tt) ins).
  { induction ins as [|i ins IH]; intros s; [reflexivity|]. cbn [trace_from map]. rewrite IH. now destruct s. }
  intros ins. unfold trace. rewrite G, !map_map. split; [|split; now apply map_ext].
  induction ins as [|i ins IH]; [reflexivity|]. cbn [map flat_map]. rewrite IH. f_equal. unfold xfer. cbn. now destruct (_ && _).
Qed.
Example C71_nonvacuous_tx :
  let t := trace serial_tx_stream [UtIn false true (Chan true (Beat false false 5)); UtIn true false (Chan true (Beat false false 5)); UtIn true true (Chan false (Beat false false 7))] in
  flat_map (fun o => map bdata (xfer (uto_sink o) (uto_sready o))) t = [5].
Proof. reflexivity. Qed.
Example C71_nonvacuous :
  let none := Chan false (Beat false false 0) in
  let t := trace serial_stream [UsIn true 5 false true none; UsIn true 6 false true none; UsIn true 6 true true none; UsIn false 0 true true none] in
  us_taken t = [5; 6] /\ us_delivered t = [5; 6] /\ map uo_rx_ack t = [true; false; true; true].
Proof. vm_compute. auto. Qed.

(** ** C81 *)
Lemma list_case {A} (t : list A) : t = [] \/ exists t0 x, t = t0 ++ [x].
Proof. induction t as [|x t _] using rev_ind; eauto. Qed.
(** A cycle in which the link transmits and the transmitter is idle. *)
Definition idle_tx (o : hd_obs) : Prop := ho_oe o = true /\ ho_tx_rdy o = true.
(** The run of such cycles at the end of [t]. *)
Fixpoint run_of (t : list hd_obs) (n : Z) : Z :=
  match t with [] => n | o :: r => run_of r (if ho_oe o && ho_tx_rdy o then n + 1 else 0) end.
Lemma run_of_snoc t o n : run_of (t ++ [o]) n = if ho_oe o && ho_tx_rdy o then run_of t n + 1 else 0.
Proof. revert n. induction t as [|x t IH]; intros n; [reflexivity|]. cbn [app run_of]. apply IH. Qed.
Lemma run_of_spec t m : 0 <= m <= run_of t 0 -> exists t0 t', t = t0 ++ t' /\ Z.of_nat (length t') = m /\ Forall idle_tx t'.
Proof.
  revert m. induction t as [|o t IH] using rev_ind; intros m Hm.
  - exists [], []. cbn in *. repeat split; try lia. constructor.
  - rewrite run_of_snoc in Hm. destruct (Z.eq_dec m 0) as [->|].
    { exists (t ++ [o]), []. rewrite app_nil_r. repeat split. constructor. }
    destruct (ho_oe o && ho_tx_rdy o) eqn:E; [|lia]. apply andb_prop in E.
    destruct (IH (m - 1) ltac:(lia)) as (t0 & t' & -> & L & F). exists t0, (t' ++ [o]). rewrite app_assoc, app_length. cbn. repeat split; [lia|].
    apply Forall_app. auto.
Qed.
Lemma run_of_nonneg t n : 0 <= n -> 0 <= run_of t n.
Proof. revert n. induction t as [|o t IH]; intros n Hn; [exact Hn|]. cbn [run_of]. apply IH. destruct (_ && _); lia. Qed.
Lemma run_of_long t t' : Forall idle_tx t' -> Z.of_nat (length t') <= run_of (t ++ t') 0.
Proof.
  induction t' as [|o t' IH] using rev_ind; intros F.
  - rewrite app_nil_r. cbn. apply run_of_nonneg. lia.
  - apply Forall_app in F. destruct F as [F1 F2]. inversion F2 as [|? ? [Ho Hr] _]; subst. rewrite app_assoc, run_of_snoc, Ho, Hr, app_length. cbn. specialize (IH F1). lia.
Qed.

Section HalfDuplex.
  Context (divisor : Z) (Hd0 : 0 <= divisor).
  Lemma hd_inv ins : let t := trace (half_duplex divisor) ins in let s := state (half_duplex divisor) ins in
    0 <= run_of t 0 /\ hd_cnt s = Z.max 0 (divisor - run_of t 0).
  Proof.
    cbv zeta. revert ins. apply (run_inv (half_duplex divisor) (fun t s => 0 <= run_of t 0 /\ hd_cnt s = Z.max 0 (divisor - run_of t 0))).
    - cbn. lia.
    - intros t s i [H0 H]. rewrite run_of_snoc. cbn [cout cnext half_duplex ho_oe ho_tx_rdy hd_cnt]. unfold hd_wait, wt_next, wt_done.
      destruct (hd_tx s && h_tx_rdy i); [|lia]. destruct (Z.eqb_spec (hd_cnt s) 0); cbn [negb]; [lia|].
      rewrite trunc_range_small; lia.
  Qed.
End HalfDuplex.

(** The pin is driven only in transmit mode, and then with the transmitter's output; the
    receiver then sees the line idle. *)
Theorem C81_exclusive : forall divisor ins o, In o (trace (half_duplex divisor) ins) ->
  (ho_oe o = true -> ho_rx_i o = true /\ ho_o o = ho_tx_o o).
Proof.
  intros d ins o H. apply in_split in H. destruct H as (t1 & t2 & E). apply trace_one in E. destruct E as (a & i & b & -> & _ & ->).
  cbn [cout half_duplex ho_oe ho_rx_i ho_o ho_tx_o]. intros ->. auto.
Qed.
(** Direction changes: to transmit in the cycle after the transmitter became busy; back
    exactly when the transmitter has been idle for divisor + 1 cycles in transmit mode. *)
Theorem C81_turnaround : forall divisor ins t1 o o' t2, 0 <= divisor ->
  trace (half_duplex divisor) ins = t1 ++ o :: o' :: t2 ->
  (ho_oe o = false -> (ho_oe o' = true <-> ho_tx_rdy o = false)) /\
  (ho_oe o = true -> (ho_oe o' = false <-> exists t0 t', t1 ++ [o] = t0 ++ t' /\ Z.of_nat (length t') = divisor + 1 /\ Forall idle_tx t')).
Proof.
  intros d ins t1 o o' t2 Hd E. apply trace_two in E. destruct E as (a & i & i' & b & -> & <- & -> & ->).
  destruct (hd_inv d Hd a) as [R H]. cbv zeta in *. set (s := state (half_duplex d) a) in *. set (t := trace (half_duplex d) a) in *.
  set (o := cout (half_duplex d) s i).
  assert (Eo : ho_oe o = hd_tx s) by reflexivity. assert (Er : ho_tx_rdy o = h_tx_rdy i) by reflexivity.
  assert (En : ho_oe (cout (half_duplex d) (cnext (half_duplex d) s i) i') = if hd_tx s then negb (h_tx_rdy i && wt_done (hd_cnt s)) else negb (h_tx_rdy i)) by reflexivity.
  rewrite En, Er, Eo. clearbody t s. split; intros Et; rewrite Et in *.
  - destruct (h_tx_rdy i); cbn; intuition discriminate.
  - unfold wt_done. rewrite H. split.
    + intros X. apply run_of_spec. rewrite run_of_snoc, Eo, Er.
      destruct (h_tx_rdy i); [|discriminate]. destruct (Z.eqb_spec (Z.max 0 (d - run_of t 0)) 0); [|discriminate]. cbn [andb]. lia.
    + intros (t0 & t' & E & L & F). apply (run_of_long t0) in F. rewrite <- E, run_of_snoc, Eo, Er in F. cbn [andb] in F.
      destruct (h_tx_rdy i); cbv iota in F; [|lia]. destruct (Z.eqb_spec (Z.max 0 (d - run_of t 0)) 0); [reflexivity|lia].
Qed.
(** In receive mode the receiver sees the pin, two cycles late. *)
Theorem C81_listen : forall divisor ins t1 o o' o'' t2,
  trace (half_duplex divisor) ins = t1 ++ o :: o' :: o'' :: t2 ->
  ho_oe o'' = false -> ho_rx_i o'' = ho_pin o.
Proof.
  intros d ins t1 o o' o'' t2 E. change (o :: o' :: o'' :: t2) with ([o] ++ o' :: o'' :: t2) in E. rewrite app_assoc in E.
  apply trace_two in E. destruct E as (a & i' & i'' & b & -> & Et & -> & ->).
  destruct (list_case a) as [->|(a0 & i & ->)]; [destruct t1; discriminate|].
  unfold trace, state in *. rewrite trace_from_app in Et. cbn [trace_from] in Et. apply app_inj_tail in Et. destruct Et as [_ <-].
  rewrite state_from_app. cbn [state_from cout cnext half_duplex ho_oe ho_rx_i ho_pin hd_tx hd_f2 hd_f1]. intros ->. reflexivity.
Qed.
Example C81_nonvacuous :
  let t := trace (half_duplex 2) [HdIn true true true; HdIn true false true; HdIn false false false; HdIn false true true; HdIn false true true; HdIn false true true; HdIn false true true; HdIn true true true] in
  map ho_oe t = [false; false; true; true; true; true; false; false] /\ map ho_rx_i t = [true; true; true; true; true; true; false; false].
Proof. vm_compute. auto. Qed.
Print Assumptions C71_delivered.
Print Assumptions C71_held.
Print Assumptions C71_prompt.
Print Assumptions C71_transmit.
Print Assumptions C71_tx_stream.
Print Assumptions C81_exclusive.
Print Assumptions C81_turnaround.
Print Assumptions C81_listen.
