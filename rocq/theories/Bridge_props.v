(** Properties of the UART to I2C bridge (C122). *)
From Verif Require Import Stream Bits I2c_model I2c_spec I2c_proofs I2cstream_model I2cstream_spec I2cstream_proofs I2cproto_model I2cproto_spec I2cproto_proofs I2cproto_props
  Fifo_model Fifo_proofs Serial_model Bridge_model Bridge_spec Bridge_proofs.
From Coq Require Import Lia.

(** Logs. *)
Lemma sents_log l : forall st, snd (sents l st) = snd st.
Proof. induction l as [|x l IH]; intros [h g]; [reflexivity|]. cbn [sents fold_left]. change (snd (sents l (host_sent (h, g) x)) = g). rewrite IH. reflexivity. Qed.
Lemma sent_not_idle st x : fst (host_sent st x) <> HIdle.
Proof. destruct st as [h g]. cbn. destruct h; try discriminate; [destruct (is_read h); [discriminate|destruct (x =? 0); discriminate]|destruct (left =? 1); discriminate]. Qed.
Lemma sents_not_idle l : forall st, fst st <> HIdle -> fst (sents l st) <> HIdle.
Proof. induction l as [|x l IH]; intros st H; [exact H|]. apply (IH (host_sent st x)). apply sent_not_idle. Qed.
Lemma gots_log l : forall st, fst (gots l st) <> HLost -> exists later, snd (gots l st) = snd st ++ later /\ (length later <= 1)%nat.
Proof.
  induction l as [|x l IH]; intros [h g] H.
  - exists []. cbn. rewrite app_nil_r. auto.
  - cbn [gots fold_left] in *. fold (gots l (host_got (h, g) x)) in *.
    assert (K : snd (host_got (h, g) x) = g \/ exists y, snd (host_got (h, g) x) = g ++ [y] /\ fst (host_got (h, g) x) = HIdle).
    { cbn. destruct h; cbn; auto; [right; eauto| |]; [destruct (bdata x =? 0)|destruct (left =? 1)]; cbn; eauto. }
    destruct K as [K|(y & K & F)].
    + destruct (IH _ H) as (later & E & L). exists later. rewrite E, K. auto.
    + destruct l as [|z l]; [exists [y]; cbn [gots fold_left snd length]; auto|].
      exfalso. destruct (host_got (h, g) x) as [h' g']. cbn in F. subst h'. apply H. change (fst (gots l (HLost, g')) = HLost). apply gots_lost. reflexivity.
Qed.

(** C122: the bytes are carried unchanged, whatever the host and the bus do: those taken
    from the receiver are those handed to the I2C core followed by at most 33 on the way,
    those given to the transmitter are those answered by the core but the last 32 at
    most.  The receiver is left waiting only with 33 bytes on the way, the core only with
    32 answers on the way. *)
Theorem C122_carried : forall period stretch oe ins t1 o t2,
  trace (i2c_bridge period stretch oe) ins = t1 ++ o :: t2 ->
  Forall (fun q => 0 <= uo_rx_data (bo_us q) < 256) (t1 ++ o :: t2) ->
  exists going coming,
    accepted (map uart t1) = accepted (map po_io (map bo_pr t1)) ++ going /\ (length going <= 33)%nat /\
    (uo_rx_ack (bo_us o) = false -> length going = 33%nat) /\
    emitted (map po_io (map bo_pr t1)) = emitted (map uart t1) ++ coming /\ (length coming <= 32)%nat /\
    (o_rready (po_io (bo_pr o)) = false -> length coming = 32%nat) /\
    (going = [] \/ cvalid (o_sink (po_io (bo_pr o))) = true \/ length going = 1%nat) /\
    (coming = [] -> cvalid (o_src (uart o)) = false) /\ (coming <> [] -> cvalid (o_src (uart o)) = true).
Proof.
  intros period stretch oe ins t1 o t2 H HF. apply trace_one in H. destruct H as (a & i & b & -> & Ha & Ho).
  set (B := i2c_bridge period stretch oe) in *. apply Forall_app in HF. destruct HF as [HF _].
  assert (X : exists rxb txb, let s := state B a in b_rx s = map pack8 rxb /\ Forall byte rxb /\ (length rxb <= 32)%nat /\
     b_tx s = map pack8 txb /\ Forall byte txb /\ (length txb <= 32)%nat /\ (us_valid (b_us s) = true -> 0 <= us_data (b_us s) < 256) /\
     accepted (map uart t1) = accepted (map po_io (map bo_pr t1)) ++ rxb ++ usq (b_us s) /\
     emitted (map po_io (map bo_pr t1)) = emitted (map uart t1) ++ txb /\
     exists ins, b_pr s = state (i2c_proto period stretch oe) ins).
  { subst t1. clear Ho t2 o. revert HF. apply (run_inv_hyp B (Forall (fun q => 0 <= uo_rx_data (bo_us q) < 256)) (fun t s => exists rxb txb, b_rx s = map pack8 rxb /\ Forall byte rxb /\ (length rxb <= 32)%nat /\
     b_tx s = map pack8 txb /\ Forall byte txb /\ (length txb <= 32)%nat /\ (us_valid (b_us s) = true -> 0 <= us_data (b_us s) < 256) /\
     accepted (map uart t) = accepted (map po_io (map bo_pr t)) ++ rxb ++ usq (b_us s) /\
     emitted (map po_io (map bo_pr t)) = emitted (map uart t) ++ txb /\
     exists ins, b_pr s = state (i2c_proto period stretch oe) ins)).
    - intros t u HU. apply Forall_app in HU. apply HU.
    - exists [], []. do 2 (split; [reflexivity|]; split; [apply Forall_nil|]; split; [apply Nat.le_0_l|]). split; [discriminate|]. split; [reflexivity|]. split; [reflexivity|]. exists []. reflexivity.
    - clear. intros t s i HU (rxb & txb & Q1 & Q2 & Q3 & Q4 & Q5 & Q6 & V4 & A & E & pins & V2).
      apply Forall_app in HU. destruct HU as [_ HU]. inversion HU as [|? ? U1 _]; subst. clear HU. set (o := cout B s i) in *.
      pose proof (src_byte period stretch oe pins) as SB. rewrite <- V2 in SB. set (u := b_us s) in *.
      set (ea := xfer (o_sink (uart o)) (o_sready (uart o))). set (ee := xfer (o_src (uart o)) (o_rready (uart o))).
      destruct (fifo_cycle txb (pr_src (b_pr s)) (bi_tx_rdy i) Q5 SB Q6) as (x0 & TX1 & TX2 & TX3 & TX4).
      assert (KB : cvalid (br_link s) = true -> byte (cbeat (br_link s))) by (unfold br_link, byte; cbn; apply V4).
      destruct (fifo_cycle rxb (br_link s) (pr_rdy (b_pr s) (br_rx s)) Q2 KB Q3) as (y0 & RX1 & RX2 & RX3 & RX4).
      rewrite <- Q4 in TX1, TX2, TX3, TX4. rewrite <- Q1 in RX1, RX2, RX3, RX4. fold (br_tx s) in TX1. fold (br_rx s) in RX1. fold (br_rx_rdy s) in RX2, RX3, RX4. fold (br_tx_rdy s) in TX2, TX3, TX4.
      exists (y0 ++ xfer (br_link s) (br_rx_rdy s)), (x0 ++ xfer (pr_src (b_pr s)) (br_tx_rdy s)).
      do 6 (split; [assumption|]). split.
      { cbn [uart bo_us o B i2c_bridge cout] in U1. cbn [B i2c_bridge cnext b_us serial_stream]. fold u.
        match goal with |- context [if ?x then _ else _] => destruct x end; [intros _; exact U1|].
        match goal with |- context [if ?x then _ else _] => destruct x end; [discriminate|exact V4]. }
      assert (US : usq (b_us (cnext B s i)) = (if br_rx_rdy s then [] else usq u) ++ ea) by apply us_cycle.
      assert (MV : usq u = xfer (br_link s) (br_rx_rdy s) ++ (if br_rx_rdy s then [] else usq u)).
      { unfold xfer, br_link, usq. fold u. cbn [cvalid cbeat]. destruct (us_valid u), (br_rx_rdy s); reflexivity. }
      split; [|split; [|exists (pins ++ [br_pr_in s i]); unfold state; rewrite state_from_app; fold (state (i2c_proto period stretch oe) pins); rewrite <- V2; reflexivity]].
      + rewrite !map_app. cbn [map]. unfold accepted in *. rewrite !flat_map_app. cbn [flat_map]. rewrite !app_nil_r, A.
        rewrite RX1 at 1. rewrite MV, US. rewrite <- !app_assoc. reflexivity.
      + rewrite !map_app. cbn [map]. unfold emitted in *. rewrite !flat_map_app. cbn [flat_map]. rewrite !app_nil_r, E.
        rewrite TX1 at 1. rewrite <- !app_assoc. reflexivity. }
  cbv zeta in X. destruct X as (rxb & txb & Q1 & Q2 & Q3 & Q4 & Q5 & Q6 & V4 & A & E & _).
  exists (rxb ++ usq (b_us (state B a))), txb. rewrite Ho. set (s := state B a) in *.
  split; [exact A|]. rewrite app_length. assert (UL : (length (usq (b_us s)) <= 1)%nat) by (unfold usq; destruct (us_valid _); cbn; lia).
  split; [lia|]. split.
  { cbn [B i2c_bridge cout bo_us serial_stream uo_rx_ack]. unfold us_ack, us_busy. cbn [br_us_in u_rready]. unfold br_rx_rdy. rewrite Q1, fifo_rdy.
    unfold usq. destruct (us_valid (b_us s)); [|discriminate]. cbn [andb length]. destruct (Z.eqb_spec (Z.of_nat (length rxb)) 32); [lia|discriminate]. }
  split; [exact E|]. split; [lia|].
  assert (R : o_rready (po_io (bo_pr (cout B s i))) = negb (Z.of_nat (length txb) =? 32)) by (cbn [B i2c_bridge cout bo_pr i2c_proto po_io o_rready br_pr_in]; unfold br_tx_rdy; rewrite Q4; apply fifo_rdy).
  assert (K : o_sink (po_io (bo_pr (cout B s i))) = match rxb with [] => Chan false (fifo_unpack 8 0) | x :: _ => Chan true x end).
  { cbn [B i2c_bridge cout bo_pr i2c_proto po_io o_sink br_pr_in]. unfold br_rx. rewrite Q1. now apply fifo_src. }
  assert (T : o_src (uart (cout B s i)) = match txb with [] => Chan false (fifo_unpack 8 0) | x :: _ => Chan true x end).
  { cbn [B i2c_bridge cout bo_us uart o_src serial_stream uo_sink br_us_in u_sink]. unfold br_tx. rewrite Q4. now apply fifo_src. }
  rewrite R, K, T. split; [destruct (Z.eqb_spec (Z.of_nat (length txb)) 32); [lia|discriminate]|]. split.
  - destruct rxb as [|x rxb]; [|right; left; reflexivity]. cbn [app length]. destruct (usq (b_us s)) as [|y [|? ?]]; auto. cbn in UL. lia.
  - destruct txb; split; cbn; congruence.
Qed.

(** C122: the parts are the ones of C51-C53 and C121: the I2C core in the bridge is an
    I2CProto, and its requests obey the stream rule. *)
Theorem C122_core : forall period stretch oe ins,
  let t := map bo_pr (trace (i2c_bridge period stretch oe) ins) in
  t = trace (i2c_proto period stretch oe)
        (map (fun o => (o_sink (po_io o), o_rready (po_io o), (ii_sda_pad (io_in (so_i2c (po_i2c o))), ii_scl_pad (io_in (so_i2c (po_i2c o)))))) t) /\
  stable_sink (map po_io t).
Proof.
  intros period stretch oe ins t. split.
  - refine (proj1 (part_trace (i2c_bridge period stretch oe) (i2c_proto period stretch oe) _ b_pr br_pr_in bo_pr _ eq_refl _ _ ins)); auto.
    intros s [[k r] [x y]]. reflexivity.
  - intros x1 o o' x2 E HV HR. unfold t in E. rewrite map_map in E. apply map_eq_app in E. destruct E as (t1 & w & E & E1 & E2).
    destruct w as [|q [|q' t2]]; try discriminate. injection E2 as <- <- _.
    apply trace_two in E. destruct E as (a & i & i' & b & -> & Ha & -> & ->). set (s := state _ a) in *. clearbody s.
    cbn [i2c_bridge cout cnext bo_pr i2c_proto po_io o_sink o_sready br_pr_in] in *. unfold br_rx in *. cbn [b_rx]. rewrite HR.
    destruct (b_rx s) as [|x l]; [discriminate|]. reflexivity.
Qed.

(** C122: with a host that waits for its answers and sends the data of a write before the
    address can have been answered (fewer than 36 quarter periods after its length byte),
    the exchanges seen at the UART are exactly the transactions performed on the I2C bus,
    each executed as C51 and C52 say; at most one is ahead of the host, none when the host
    has nothing outstanding. *)
Theorem C122_bridge_partial : forall period stretch oe ins, 1 <= period ->
  let t := trace (i2c_bridge period stretch oe) ins in
  good_user (36 * (period / 4 + 1) - 1) t ->
  let '(hs, log) := uart_view t in
  hs <> HLost /\
  exists later segs beats data,
    Forall2 (fun e g => executed e (fst g) (snd g)) (log ++ later) segs /\ (length later <= 1)%nat /\
    served (i2c_of t) = concat (map fst segs) ++ beats /\
    emitted (map so_io (i2c_of t)) = concat (map snd segs) ++ data /\
    (hs = HIdle -> later = [] /\ beats = [] /\ data = []).
Proof.
  intros period stretch oe ins HP t HU. pose proof (bridge_run period stretch oe HP ins HU) as [V1 (pins & V2 & _) (rxb & txb & _ & _ & _ & _ & _ & _ & Q7 & _) _ V5 _ _].
  fold t in V1, V2, Q7, V5. pose proof (C51_exchanges period stretch oe pins) as K. cbv zeta in K. rewrite <- V2 in K. specialize (K V1).
  unfold i2c_of. set (pt := map bo_pr t) in *. destruct (uart_view t) as [hs log]. set (pv := host_view (map po_io pt)) in *. destruct pv as [ph plog]. cbn [fst snd] in *.
  destruct K as (PL & segs & beats & data & K1 & K2 & K3 & K4). split; [exact V5|].
  assert (L : exists later, plog = log ++ later /\ (length later <= 1)%nat /\ (hs = HIdle -> later = [] /\ ph = HIdle)).
  { destruct Q7 as [[_ R]|[_ R]].
    - exists []. rewrite app_nil_r. pose proof (f_equal snd R) as S. cbn in S. rewrite sents_log in S. cbn in S. split; [congruence|]. split; [cbn; lia|].
      intros ->. split; [reflexivity|]. destruct (rxb ++ usq _) as [|z q]; [cbn in R; congruence|].
      exfalso. apply (sents_not_idle (map bdata q) (host_sent (ph, plog) (bdata z)) (sent_not_idle _ _)). change (fst (sents (map bdata (z :: q)) (ph, plog)) = HIdle). rewrite <- R. reflexivity.
    - destruct (gots_log txb (hs, log)) as (later & E & EL); [rewrite <- R; exact PL|]. exists later. rewrite <- R in E. cbn in E. split; [exact E|]. split; [exact EL|].
      intros ->. destruct txb as [|z q]; [cbn in R; injection R as -> ->; split; [|reflexivity]; apply (app_inv_head log); now rewrite <- E, app_nil_r|].
      exfalso. apply (gots_waiting (z :: q) (HIdle, log)); [discriminate|rewrite <- R; exact PL|exact I]. }
  destruct L as (later & -> & L1 & L2). exists later, segs, beats, data. repeat (split; [assumption|]).
  intros E. destruct (L2 E) as [-> E']. destruct (K4 E'). auto.
Qed.

(** ** Runs.  Bytes received every [gap] cycles, on a bus where nobody answers. *)
Definition rx1 (b : Z) : br_in := BrIn true b true (true, true).
Definition rx0 : br_in := BrIn false 0 true (true, true).
Definition at_rate (gap : nat) (bytes : list Z) : list br_in := flat_map (fun b => rx1 b :: repeat rx0 (gap - 1)) bytes.
(** The same with a device that acknowledges every byte written. *)
Fixpoint with_device (c : circuit br_in br_obs) (busy : cst c -> bool) (s : cst c) (ins : list br_in) : list br_in :=
  match ins with
  | [] => []
  | i :: r => let i' := BrIn (bi_rx_rdy i) (bi_rx_data i) (bi_tx_rdy i) (busy s, true) in i' :: with_device c busy (cnext c s i') r
  end.
Definition released (s : br_state) : bool :=
  match s_f (is_i (p_i (b_pr s))) with WaSclL | WaSdaH | WaSclH | WaSdaN => false | _ => true end.

(** C122: the example's own rates are too slow for that (100 MHz, UART at 3 Mbaud: a byte
    every 330 cycles; I2C at 400 kHz).  A write of 12 bytes that nobody acknowledges: the
    bytes still to come when the address is refused are taken for new requests, and bytes
    the host meant as data are put on the bus as device addresses. *)
Theorem C122_refused_write_refuted :
  exists ins, let t := trace (i2c_bridge 250 false true) ins in
    ins = at_rate 330 ([0x20; 12] ++ [0; 0x30; 0; 0x30; 0; 0x30; 0; 0x30; 0; 0x30; 0; 0x30]) ++ repeat rx0 4000 /\
    map bdata (accepted (map uart t)) = [0x20; 12] ++ [0; 0x30; 0; 0x30; 0; 0x30; 0; 0x30; 0; 0x30; 0; 0x30] /\
    commands (map so_i2c (i2c_of t)) = [CStart; CWrite 0x20; CStop; CStart; CWrite 0x30; CStop; CStart; CWrite 0x30; CStop] /\
    map bdata (emitted (map uart t)) = [1; 1; 1].
Proof. eexists. cbv zeta. split; [reflexivity|]. vm_compute. auto. Qed.

(** C122: nor is the buffer deep enough for a long write at that rate: of a write of 50
    bytes, all acknowledged, the 40th byte of the request is not taken from the receiver
    for more than three byte times, so the next ones overrun it. *)
Theorem C122_overrun_refuted :
  exists ins, let c := i2c_bridge 250 false true in let t := trace c ins in
    ins = with_device c released (creset c) (at_rate 330 ([0x20; 50] ++ repeat 0x55 41)) /\
    length (accepted (map uart t)) = 39%nat /\
    forallb (fun o => negb (uo_rx_ack (bo_us o))) (firstn (3 * 330) (skipn (39 * 330) t)) = true /\
    length t = (43 * 330)%nat /\ map bdata (emitted (map uart t)) = [].
Proof. eexists. cbv zeta. split; [reflexivity|]. vm_compute. auto. Qed.

Fixpoint good_userb (limit : Z) (st : (host * list exchange) * Z) (t : list br_obs) : bool :=
  match t with
  | [] => true
  | o :: r => let d := uo_rx_data (bo_us o) in
      (0 <=? d) && (d <? 256) && (snd st <=? limit) &&
      (negb (uo_rx_rdy (bo_us o) && uo_rx_ack (bo_us o)) ||
       match fst (fst st) with
       | HIdle | HData _ _ _ => true
       | HHeader h => negb (is_read h) || negb (d =? 0)
       | _ => false
       end) && good_userb limit (waited_step st o) r
  end.
Lemma good_userb_ok limit t : good_userb limit ((HIdle, []), 0) t = true -> good_user limit t.
Proof.
  set (run := fun t => fold_left waited_step t ((HIdle, []), 0)).
  intros H. assert (G : forall t0 t, good_userb limit (run t0) t = true -> forall t1 o t2, t = t1 ++ o :: t2 ->
    0 <= uo_rx_data (bo_us o) < 256 /\
    (uo_rx_rdy (bo_us o) && uo_rx_ack (bo_us o) = true ->
     match fst (fst (run (t0 ++ t1))) with
     | HIdle | HData _ _ _ => True
     | HHeader h => is_read h = true -> uo_rx_data (bo_us o) <> 0
     | _ => False
     end) /\ snd (run (t0 ++ t1)) <= limit).
  2: { intros t1 o t2 E. destruct (G [] t H t1 o t2 E) as (G1 & G2 & G3). rewrite <- waited_fst. auto. }
  clear. intros t0 t. revert t0. induction t as [|o t IH]; intros t0 H t1 q t2 E; [destruct t1; discriminate|].
  cbn [good_userb] in H. cbv zeta in H. apply andb_true_iff in H. destruct H as [H H'].
  replace (waited_step (run t0) o) with (run (t0 ++ [o])) in H' by (unfold run; now rewrite fold_left_app).
  destruct t1 as [|q1 t1]; cbn [app] in E; injection E as -> E.
  - rewrite app_nil_r. apply andb_true_iff in H. destruct H as [H H1]. apply andb_true_iff in H. destruct H as [H H2]. apply andb_true_iff in H. destruct H as [H3 H4].
    split; [lia|]. split; [|lia]. intros X. rewrite X in H1. cbn [negb orb] in H1. destruct (fst (fst (run t0))); auto; try discriminate.
    intros R. rewrite R in H1. cbn in H1. apply negb_true_iff, Z.eqb_neq in H1. exact H1.
  - replace (t0 ++ q1 :: t1) with ((t0 ++ [q1]) ++ t1) by (now rewrite <- app_assoc). apply IH with (t2 := t2); auto.
Qed.

(** A write of three bytes with gaps and a read of two bytes, answered by a device; then,
    with the device gone, a write of two bytes refused. *)
Definition br_script : list br_in :=
  let c := i2c_bridge 4 false true in
  with_device c released (creset c)
    (at_rate 9 [0x20; 3; 0x11; 0x22; 0x33] ++ repeat rx0 320 ++ at_rate 9 [0x21; 2] ++ repeat rx0 400) ++
  at_rate 9 [0x20; 2; 0x44; 0x55] ++ repeat rx0 150.
Example C122_nonvacuous :
  let t := trace (i2c_bridge 4 false true) br_script in
  good_user (36 * (4 / 4 + 1) - 1) t /\
  uart_view t = (HIdle, [Wrote 0x20 [0x11; 0x22; 0x33] [status_beat 0];
                         Asked 0x21 2 [status_beat 0; Beat false false 0xff; Beat false true 0xff];
                         Wrote 0x20 [0x44; 0x55] [status_beat 1]]) /\
  commands (map so_i2c (i2c_of t)) =
    [CStart; CWrite 0x20; CWrite 0x11; CWrite 0x22; CWrite 0x33; CStop;
     CStart; CWrite 0x21; CRead true; CRead false; CStop; CStart; CWrite 0x20; CStop].
Proof. cbv zeta. split; [apply good_userb_ok; vm_compute; reflexivity|]. vm_compute. auto. Qed.

Print Assumptions C122_carried.
Print Assumptions C122_core.
Print Assumptions C122_bridge_partial.
Print Assumptions C122_refused_write_refuted.
Print Assumptions C122_overrun_refuted.
