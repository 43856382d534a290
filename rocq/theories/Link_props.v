(** Properties of the I2C bridge over a stream link (C151). *)
From Verif Require Import Stream Bits I2c_model I2c_spec I2c_proofs I2cstream_model I2cstream_spec I2cstream_proofs I2cproto_model I2cproto_spec I2cproto_proofs I2cproto_props
  Fifo_model Fifo_proofs Serial_model Bridge_model Bridge_spec Bridge_proofs Bridge_props Link_model Link_spec Link_proofs.
From Coq Require Import Lia.

(** C151: the bytes are carried unchanged, whatever the host and the bus do: those taken from
    the link are those handed to the I2C core followed by at most 32 on the way, those given
    to the link are those answered by the core but the last 32 at most.  Either side is left
    waiting only with 32 bytes on the way. *)
Theorem C151_carried : forall period stretch oe ins t1 o t2,
  trace (i2c_link period stretch oe) ins = t1 ++ o :: t2 ->
  Forall (fun q => 0 <= bdata (cbeat (o_sink (lo_link q))) < 256) (t1 ++ o :: t2) ->
  exists going coming,
    accepted (map lo_link t1) = accepted (map po_io (map lo_pr t1)) ++ going /\ (length going <= 32)%nat /\
    (o_sready (lo_link o) = false <-> length going = 32%nat) /\
    emitted (map po_io (map lo_pr t1)) = emitted (map lo_link t1) ++ coming /\ (length coming <= 32)%nat /\
    (o_rready (po_io (lo_pr o)) = false <-> length coming = 32%nat) /\
    o_sink (po_io (lo_pr o)) = match going with [] => Chan false (Beat false false 0) | x :: _ => Chan true x end /\
    o_src (lo_link o) = match coming with [] => Chan false (Beat false false 0) | x :: _ => Chan true x end.
Proof.
  intros period stretch oe ins t1 o t2 H HF. apply trace_one in H. destruct H as (a & i & b & -> & Ha & Ho).
  set (B := i2c_link period stretch oe) in *. apply Forall_app in HF. destruct HF as [HF _].
  set (I := fun (t : list lk_obs) (s : lk_state) => exists rxb txb, l_rx s = map pack8 rxb /\ Forall byte rxb /\ (length rxb <= 32)%nat /\
     l_tx s = map pack8 txb /\ Forall byte txb /\ (length txb <= 32)%nat /\
     accepted (map lo_link t) = accepted (map po_io (map lo_pr t)) ++ rxb /\
     emitted (map po_io (map lo_pr t)) = emitted (map lo_link t) ++ txb /\
     exists ins, l_pr s = state (i2c_proto period stretch oe) ins).
  assert (X : I t1 (state B a)).
  { subst t1. clear Ho t2 o. revert HF. apply (run_inv_hyp B (Forall (fun q => 0 <= bdata (cbeat (o_sink (lo_link q))) < 256)) I).
    - intros t u HU. apply Forall_app in HU. apply HU.
    - exists [], []. do 2 (split; [reflexivity|]; split; [apply Forall_nil|]; split; [apply Nat.le_0_l|]). split; [reflexivity|]. split; [reflexivity|]. exists []. reflexivity.
    - clear. intros t s i HU (rxb & txb & Q1 & Q2 & Q3 & Q4 & Q5 & Q6 & A & E & pins & V2).
      apply Forall_app in HU. destruct HU as [_ HU]. inversion HU as [|? ? U1 _]; subst. clear HU. set (o := cout B s i) in *.
      pose proof (src_byte period stretch oe pins) as SB. rewrite <- V2 in SB.
      destruct (fifo_cycle txb (pr_src (l_pr s)) (li_rready i) Q5 SB Q6) as (x0 & TX1 & TX2 & TX3 & TX4).
      destruct (fifo_cycle rxb (li_source i) (pr_rdy (l_pr s) (lk_rx s)) Q2 (fun _ => U1) Q3) as (y0 & RX1 & RX2 & RX3 & RX4).
      rewrite <- Q4 in TX1, TX2, TX3, TX4. rewrite <- Q1 in RX1, RX2, RX3, RX4. fold (lk_tx s) in TX1. fold (lk_rx s) in RX1. fold (lk_rx_rdy s) in RX2, RX3, RX4. fold (lk_tx_rdy s) in TX2, TX3, TX4.
      exists (y0 ++ xfer (li_source i) (lk_rx_rdy s)), (x0 ++ xfer (pr_src (l_pr s)) (lk_tx_rdy s)).
      do 6 (split; [assumption|]).
      split; [|split; [|exists (pins ++ [lk_pr_in s i]); unfold state; rewrite state_from_app; fold (state (i2c_proto period stretch oe) pins); rewrite <- V2; reflexivity]].
      + rewrite !map_app. cbn [map]. unfold accepted in *. rewrite !flat_map_app. cbn [flat_map]. rewrite !app_nil_r, A.
        rewrite RX1 at 1. rewrite <- !app_assoc. reflexivity.
      + rewrite !map_app. cbn [map]. unfold emitted in *. rewrite !flat_map_app. cbn [flat_map]. rewrite !app_nil_r, E.
        rewrite TX1 at 1. rewrite <- !app_assoc. reflexivity. }
  destruct X as (rxb & txb & Q1 & Q2 & Q3 & Q4 & Q5 & Q6 & A & E & _).
  exists rxb, txb. rewrite Ho. set (s := state B a) in *.
  assert (F : forall n, (n <= 32)%nat -> negb (Z.of_nat n =? 32) = false <-> n = 32%nat) by (intros n L; rewrite negb_false_iff, Z.eqb_eq; lia).
  split; [exact A|]. split; [exact Q3|]. split.
  { cbn [B i2c_link cout lo_link o_sready]. unfold lk_rx_rdy. rewrite Q1, fifo_rdy. now apply F. }
  split; [exact E|]. split; [exact Q6|]. split.
  { cbn [B i2c_link cout lo_pr i2c_proto po_io o_rready lk_pr_in]. unfold lk_tx_rdy. rewrite Q4, fifo_rdy. now apply F. }
  split.
  - cbn [B i2c_link cout lo_pr i2c_proto po_io o_sink lk_pr_in]. unfold lk_rx. rewrite Q1. now apply fifo_src.
  - cbn [B i2c_link cout lo_link o_src]. unfold lk_tx. rewrite Q4. now apply fifo_src.
Qed.

(** C151: the I2C core in the bridge is an I2CProto (C51-C53), and its requests obey the stream rule. *)
Theorem C151_core : forall period stretch oe ins,
  let t := map lo_pr (trace (i2c_link period stretch oe) ins) in
  t = trace (i2c_proto period stretch oe)
        (map (fun o => (o_sink (po_io o), o_rready (po_io o), (ii_sda_pad (io_in (so_i2c (po_i2c o))), ii_scl_pad (io_in (so_i2c (po_i2c o)))))) t) /\
  stable_sink (map po_io t).
Proof.
  intros period stretch oe ins t. split.
  - refine (proj1 (part_trace (i2c_link period stretch oe) (i2c_proto period stretch oe) _ l_pr lk_pr_in lo_pr _ eq_refl _ _ ins)); auto.
    intros s [[k r] [x y]]. reflexivity.
  - intros x1 o o' x2 E HV HR. unfold t in E. rewrite map_map in E. apply map_eq_app in E. destruct E as (t1 & w & E & E1 & E2).
    destruct w as [|q [|q' t2]]; try discriminate. injection E2 as <- <- _.
    apply trace_two in E. destruct E as (a & i & i' & b & -> & Ha & -> & ->). set (s := state _ a) in *. clearbody s.
    cbn [i2c_link cout cnext lo_pr i2c_proto po_io o_sink o_sready lk_pr_in] in *. unfold lk_rx in *. cbn [l_rx]. rewrite HR.
    destruct (l_rx s) as [|x l]; [discriminate|]. reflexivity.
Qed.

(** C151: with a host that waits for its answers, over a link that offers the data of a write
    without a pause from the moment the address can have been answered (36 quarter periods
    after its length byte), the exchanges seen at the link are exactly the transactions
    performed on the I2C bus, each executed as C51 and C52 say, whatever their length; at most
    one is ahead of the host, none when the host has nothing outstanding. *)
Theorem C151_bridge_partial : forall period stretch oe ins, 1 <= period ->
  let t := trace (i2c_link period stretch oe) ins in
  good_link (36 * (period / 4 + 1) - 1) t ->
  let '(hs, log) := link_view t in
  hs <> HLost /\
  exists later segs beats data,
    Forall2 (fun e g => executed e (fst g) (snd g)) (log ++ later) segs /\ (length later <= 1)%nat /\
    served (link_i2c t) = concat (map fst segs) ++ beats /\
    emitted (map so_io (link_i2c t)) = concat (map snd segs) ++ data /\
    (hs = HIdle -> later = [] /\ beats = [] /\ data = []).
Proof.
  intros period stretch oe ins HP t HU. pose proof (link_run period stretch oe HP ins HU) as [V1 (pins & V2 & _) (rxb & txb & _ & _ & _ & _ & _ & _ & Q7 & _) V5 _ _].
  fold t in V1, V2, Q7, V5. pose proof (C51_exchanges period stretch oe pins) as K. cbv zeta in K. rewrite <- V2 in K. specialize (K V1).
  unfold link_i2c. set (pt := map lo_pr t) in *. destruct (link_view t) as [hs log]. set (pv := host_view (map po_io pt)) in *. destruct pv as [ph plog]. cbn [fst snd] in *.
  destruct K as (PL & segs & beats & data & K1 & K2 & K3 & K4). split; [exact V5|].
  assert (L : exists later, plog = log ++ later /\ (length later <= 1)%nat /\ (hs = HIdle -> later = [] /\ ph = HIdle)).
  { destruct Q7 as [[_ R]|[_ R]].
    - exists []. rewrite app_nil_r. pose proof (f_equal snd R) as S. cbn in S. rewrite sents_log in S. cbn in S. split; [congruence|]. split; [cbn; lia|].
      intros ->. split; [reflexivity|]. destruct rxb as [|z q]; [cbn in R; congruence|].
      exfalso. apply (sents_not_idle (map bdata q) (host_sent (ph, plog) (bdata z)) (sent_not_idle _ _)). change (fst (sents (map bdata (z :: q)) (ph, plog)) = HIdle). rewrite <- R. reflexivity.
    - destruct (gots_log txb (hs, log)) as (later & E & EL); [rewrite <- R; exact PL|]. exists later. rewrite <- R in E. cbn in E. split; [exact E|]. split; [exact EL|].
      intros ->. destruct txb as [|z q]; [cbn in R; injection R as -> ->; split; [|reflexivity]; apply (app_inv_head log); now rewrite <- E, app_nil_r|].
      exfalso. apply (gots_waiting (z :: q) (HIdle, log)); [discriminate|rewrite <- R; exact PL|exact I]. }
  destruct L as (later & -> & L1 & L2). exists later, segs, beats, data. repeat (split; [assumption|]).
  intros E. destruct (L2 E) as [-> E']. destruct (K4 E'). auto.
Qed.

(** ** Runs.  A link that gets a byte in the first [on] cycles of every [per] and holds up to
    10 of them (as the clock domain crossing of USBAsyncStreamOutEndpoint, endpoint_cdc.py
    44-67) until they are taken; the host takes every answer.  [dev]: what the devices put on
    SDA. *)
Fixpoint fed (c : circuit lk_in lk_obs) (dev : cst c -> bool) (on per : Z) (s : cst c) (n have : Z) (bytes : list Z) (cycles : nat) : list lk_in :=
  match cycles with
  | O => []
  | S m =>
      let v := (0 <? have) && negb (match bytes with [] => true | _ => false end) in
      let i := LkIn (Chan v (Beat false false (if v then hd 0 bytes else 0))) true (dev s, true) in
      let go := v && o_sready (lo_link (cout c s i)) in
      let have' := if go then have - 1 else have in
      i :: fed c dev on per (cnext c s i) (if n + 1 =? per then 0 else n + 1)
             (if (n <? on) && (have' <? 10) then have' + 1 else have') (if go then tl bytes else bytes) m
  end.
Definition run_fed (period : Z) (dev : lk_state -> bool) (on per : Z) (bytes : list Z) (cycles : nat) : list lk_in :=
  let c := i2c_link period false true in fed c dev on per (creset c) 0 0 bytes cycles.
(** A device that acknowledges every byte written; nobody. *)
Definition lk_released (s : lk_state) : bool :=
  match s_f (is_i (p_i (l_pr s))) with WaSclL | WaSdaH | WaSclH | WaSdaN => false | _ => true end.
Definition nobody (_ : lk_state) : bool := true.

(** C151: the example's own clocks do not give that (100 MHz, I2C at 400 kHz; the USB side, at
    60 MHz, brings at most 3 bytes in 5 cycles).  A write of 250 bytes that nobody
    acknowledges: they are dropped faster than they come, the ones still to come are taken for
    new requests, and bytes the host meant as data are put on the bus as device addresses. *)
Theorem C151_refused_write_refuted :
  exists ins, let t := trace (i2c_link 250 false true) ins in
    ins = run_fed 250 nobody 3 5 ([0x20; 250] ++ repeat 0x30 250) 5200 /\
    map bdata (accepted (map lo_link t)) = [0x20; 250] ++ repeat 0x30 250 /\
    commands (map so_i2c (link_i2c t)) = [CStart; CWrite 0x20; CStop; CStart; CWrite 0x30; CStop; CStart] /\
    map bdata (emitted (map lo_link t)) = [1; 1].
Proof. eexists. cbv zeta. split; [reflexivity|]. vm_compute. auto. Qed.

(** C151: nor does the bridge wait for the data of a write that is acknowledged: if they come
    late, other bytes are written to the device and the host is told that all went well. *)
Theorem C151_pause_refuted :
  exists ins, let t := trace (i2c_link 4 false true) ins in
    ins = run_fed 4 lk_released 1 300 [0x20; 2; 0x11] 602 /\
    map bdata (accepted (map lo_link t)) = [0x20; 2; 0x11] /\
    commands (map so_i2c (link_i2c t)) = [CStart; CWrite 0x20; CWrite 0; CWrite 0; CStop] /\
    map bdata (emitted (map lo_link t)) = [0].
Proof. eexists. cbv zeta. split; [reflexivity|]. vm_compute. auto. Qed.

Fixpoint good_linkb (limit : Z) (st : (host * list exchange) * Z) (t : list lk_obs) : bool :=
  match t with
  | [] => true
  | o :: r => let d := bdata (cbeat (o_sink (lo_link o))) in
      (0 <=? d) && (d <? 256) && ((snd st <=? limit) || cvalid (o_sink (lo_link o))) &&
      (negb (cvalid (o_sink (lo_link o)) && o_sready (lo_link o)) ||
       match fst (fst st) with
       | HIdle | HData _ _ _ => true
       | HHeader h => negb (is_read h) || negb (d =? 0)
       | _ => false
       end) && good_linkb limit (link_waited_step st o) r
  end.
Lemma good_linkb_ok limit t : good_linkb limit ((HIdle, []), 0) t = true -> good_link limit t.
Proof.
  set (run := fun t => fold_left link_waited_step t ((HIdle, []), 0)).
  intros H. assert (G : forall t0 t, good_linkb limit (run t0) t = true -> forall t1 o t2, t = t1 ++ o :: t2 ->
    0 <= bdata (cbeat (o_sink (lo_link o))) < 256 /\
    (cvalid (o_sink (lo_link o)) && o_sready (lo_link o) = true ->
     match fst (fst (run (t0 ++ t1))) with
     | HIdle | HData _ _ _ => True
     | HHeader h => is_read h = true -> bdata (cbeat (o_sink (lo_link o))) <> 0
     | _ => False
     end) /\ (limit < snd (run (t0 ++ t1)) -> cvalid (o_sink (lo_link o)) = true)).
  2: { intros t1 o t2 E. destruct (G [] t H t1 o t2 E) as (G1 & G2 & G3). rewrite <- link_waited_fst. auto. }
  clear. intros t0 t. revert t0. induction t as [|o t IH]; intros t0 H t1 q t2 E; [destruct t1; discriminate|].
  cbn [good_linkb] in H. cbv zeta in H. apply andb_true_iff in H. destruct H as [H H'].
  replace (link_waited_step (run t0) o) with (run (t0 ++ [o])) in H' by (unfold run; now rewrite fold_left_app).
  destruct t1 as [|q1 t1]; cbn [app] in E; injection E as -> E.
  - rewrite app_nil_r. apply andb_true_iff in H. destruct H as [H H1]. apply andb_true_iff in H. destruct H as [H H2]. apply andb_true_iff in H. destruct H as [H3 H4].
    split; [lia|]. split.
    + intros X. rewrite X in H1. cbn [negb orb] in H1. destruct (fst (fst (run t0))); auto; try discriminate.
      intros R. rewrite R in H1. cbn in H1. apply negb_true_iff, Z.eqb_neq in H1. exact H1.
    + intros L. apply orb_true_iff in H2. destruct H2 as [H2|H2]; [lia|exact H2].
  - replace (t0 ++ q1 :: t1) with ((t0 ++ [q1]) ++ t1) by (now rewrite <- app_assoc). apply IH with (t2 := t2); auto.
Qed.

(** A write of 35 bytes, more than the bridge can hold, and a read of two bytes, answered by a
    device; then, with the device gone, a write of 35 bytes refused. *)
Definition lk_phase (dev : lk_state -> bool) (bytes : list Z) (cycles : nat) (before : list lk_in) : list lk_in :=
  let c := i2c_link 4 false true in before ++ fed c dev 1 1 (state c before) 0 0 bytes cycles.
Definition data35 : list Z := map Z.of_nat (seq 100 35).
Definition lk_script : list lk_in :=
  lk_phase nobody ([0x20; 35] ++ data35) 200 (lk_phase lk_released [0x21; 2] 330 (lk_phase lk_released ([0x20; 35] ++ data35) 2900 [])).
Example C151_nonvacuous :
  let t := trace (i2c_link 4 false true) lk_script in
  good_link (36 * (4 / 4 + 1) - 1) t /\
  link_view t = (HIdle, [Wrote 0x20 data35 [status_beat 0];
                         Asked 0x21 2 [status_beat 0; Beat false false 0xff; Beat false true 0xff];
                         Wrote 0x20 data35 [status_beat 1]]) /\
  commands (map so_i2c (link_i2c t)) =
    [CStart; CWrite 0x20] ++ map CWrite data35 ++ [CStop; CStart; CWrite 0x21; CRead true; CRead false; CStop; CStart; CWrite 0x20; CStop].
Proof. cbv zeta. split; [apply good_linkb_ok; vm_compute; reflexivity|]. vm_compute. auto. Qed.

Print Assumptions C151_carried.
Print Assumptions C151_core.
Print Assumptions C151_bridge_partial.
Print Assumptions C151_refused_write_refuted.
Print Assumptions C151_pause_refuted.
