(** C154: a program that uses I2CBus over the USB bridge comes to its end. *)
From Verif Require Import Stream I2c_model I2cstream_model I2cstream_spec I2cproto_model I2cproto_spec I2cbus_model I2cbus_props Serial_model
  Bridge_model Bridge_spec Bridge_proofs Link_model Link_spec Link_proofs Link_props Session_spec Session_proofs Session_props Sessionlive_props
  Usbbus_model Usbbus_spec Usbbus_proofs Usbbus_props Usbbuslive_spec Usbbuslive_proofs.
From Coq Require Import Lia.

(** C154: if the USB link works and the devices do not hold the clock, every program comes to
    its end, whatever the devices answer. *)
Theorem C154_ends_partial : forall width period stretch oe p ins,
  0 <= width -> 4 <= period -> program_ok width p ->
  let run := link_cycles period stretch oe ins in
  (forall n, link_bytes (run n) /\ link_in_time (36 * (period / 4 + 1) - 1) (run n) /\ driven_usb width p (run n) /\ link_no_stretching stretch oe (run n)) ->
  usb_works width p ins run ->
  exists n, usb_ended width p (link_packets (run n)) = true.
Proof.
  intros width period stretch oe p ins HW HP HO run H HF.
  apply (ends width period stretch oe p ins HW HP HO); try (intros n; apply (H n)). exact HF.
Qed.

(** With C153: a cycle comes at which the program has ended, the I2C bus has seen exactly the
    transactions of its calls, as they were reported to it, every read has got the bytes it
    asked for and no answer is left. *)
Theorem C154_done_partial : forall width period stretch oe p ins,
  0 <= width -> 4 <= period -> program_ok width p ->
  let run := link_cycles period stretch oe ins in
  (forall n, link_bytes (run n) /\ link_in_time (36 * (period / 4 + 1) - 1) (run n) /\ driven_usb width p (run n) /\ link_no_stretching stretch oe (run n)) ->
  usb_works width p ins run ->
  exists n groups,
    usb_ended width p (link_packets (run n)) = true /\
    Forall2 (fun h g => explained width (fst h) (snd h) (fst g) (snd g)) (usb_history width p (link_packets (run n))) groups /\
    served (link_i2c (run n)) = concat (map fst groups) /\
    emitted (map so_io (link_i2c (run n))) = concat (map snd groups) /\
    Forall (fun r => Z.of_nat (length (snd r)) = fst r) (usb_reads width p (link_packets (run n))) /\
    usb_unread width p (link_packets (run n)) = [].
Proof.
  intros width period stretch oe p ins HW HP HO run H HF.
  destruct (C154_ends_partial width period stretch oe p ins HW HP HO H HF) as (n & E). exists n. destruct (H n) as (H1 & H2 & H3 & _).
  destruct (C153_session_partial width period stretch oe p (map ins (seq 0 n)) HW ltac:(lia) HO H1 H2 H3) as (R & gs & bs & ds & G1 & G2 & G3 & G4).
  destruct (G4 E) as (-> & -> & U). rewrite app_nil_r in *. exists gs. auto 10.
Qed.

(** ** Runs that come to a standstill. *)
Definition lk0 : lk_in := LkIn (Chan false (Beat false false 0)) true (true, true).
Definition lk_then_idle (l : list lk_in) (n : nat) : lk_in := nth n l lk0.
Lemma lk_then_idle_ins l k : map (lk_then_idle l) (seq 0 (length l + k)) = l ++ repeat lk0 k.
Proof.
  rewrite seq_app, map_app. f_equal; [apply map_nth_seq|]. cbn [plus].
  assert (G : forall a, (length l <= a)%nat -> map (lk_then_idle l) (seq a k) = repeat lk0 k).
  { induction k as [|k IH]; intros a H; [reflexivity|]. cbn [seq map repeat]. f_equal; [apply nth_overflow; lia|apply IH; lia]. }
  now apply G.
Qed.

Section Standstill.
  Context (period : Z) (stretch oe : bool) (l : list lk_in).
  Let B := i2c_link period stretch oe.
  Let T := link_cycles period stretch oe (lk_then_idle l).
  Let t := trace B l.
  Let o := cout B (state B l) lk0.
  Context (HS : cnext B (state B l) lk0 = state B l) (HX : l_tx (state B l) = []).

  Lemma still_T k : T (length l + k) = t ++ repeat o k.
  Proof using HS. unfold T, link_cycles. rewrite lk_then_idle_ins, trace_app. unfold o. now rewrite <- still by exact HS. Qed.
  Lemma still_prefix n : exists k u, t ++ repeat o k = T n ++ u.
  Proof using HS.
    exists n. rewrite <- still_T. unfold T, link_cycles. replace (length l + n)%nat with (n + length l)%nat by lia.
    rewrite seq_app, map_app, trace_app. eauto.
  Qed.
  Lemma still_quiet : xfer (o_sink (lo_link o)) (o_sready (lo_link o)) = [] /\ xfer (o_src (lo_link o)) (o_rready (lo_link o)) = [].
  Proof using HX.
    split; [reflexivity|]. unfold o. cbn [B i2c_link cout lo_link o_src o_rready].
    unfold lk_tx. rewrite HX. reflexivity.
  Qed.
  Lemma still_acc k : accepted (map lo_link (t ++ repeat o k)) = accepted (map lo_link t).
  Proof using HX.
    induction k as [|k IH]; [now rewrite app_nil_r|]. rewrite repeat_last, app_assoc. unfold accepted in *. rewrite map_app, flat_map_app, IH. cbn [map flat_map].
    rewrite (proj1 still_quiet). now rewrite !app_nil_r.
  Qed.
  Lemma still_emi k : emitted (map lo_link (t ++ repeat o k)) = emitted (map lo_link t).
  Proof using HX.
    induction k as [|k IH]; [now rewrite app_nil_r|]. rewrite repeat_last, app_assoc. unfold emitted in *. rewrite map_app, flat_map_app, IH. cbn [map flat_map].
    rewrite (proj2 still_quiet). now rewrite !app_nil_r.
  Qed.
  Lemma still_split k : forall t1 t2, t ++ repeat o k = t1 ++ t2 -> (exists t3, t = t1 ++ t3) \/ exists j, t1 = t ++ repeat o j.
  Proof.
    induction k as [|k IH]; intros t1 t2 E; [rewrite app_nil_r in E; left; eauto|]. rewrite repeat_last, app_assoc in E.
    destruct (list_case t2) as [->|(t3 & x & ->)].
    - right. exists (S k). rewrite app_nil_r in E. now rewrite repeat_last, app_assoc.
    - rewrite app_assoc in E. apply app_inj_tail in E. apply (IH t1 t3), E.
  Qed.
  Lemma still_at k t1 q t2 : t ++ repeat o k = t1 ++ q :: t2 -> (exists t3, t = t1 ++ q :: t3) \/ q = o /\ exists j, t1 = t ++ repeat o j.
  Proof.
    intros E. destruct (still_split k t1 (q :: t2) E) as [(t3 & E3)|(j & ->)].
    - destruct t3 as [|x t3].
      + right. rewrite app_nil_r in E3. subst t1. split; [|exists 0%nat; now rewrite app_nil_r]. apply app_inv_head in E. destruct k; [discriminate|]. now injection E as <- _.
      + left. assert (x = q) by (rewrite E3, <- app_assoc in E; apply app_inv_head in E; injection E as -> _; reflexivity). subst x. eauto.
    - right. rewrite <- app_assoc in E. apply app_inv_head in E. split; [|eauto].
      apply (repeat_spec k). rewrite E. apply in_or_app. right. now left.
  Qed.
  Lemma still_bytes n : link_bytes t -> link_bytes (T n).
  Proof using HS.
    intros H. destruct (still_prefix n) as (k & u & E). assert (G : link_bytes (t ++ repeat o k)).
    { apply Forall_app. split; [exact H|]. apply Forall_forall. intros x Hx. apply repeat_spec in Hx. subst x. cbn. lia. }
    rewrite E in G. apply Forall_app in G. tauto.
  Qed.
  Lemma still_driven width p n : driven_usb width p t -> driven_usb width p (T n).
  Proof using HS.
    intros H. destruct (still_prefix n) as (k & u & E). intros t1 q t2 E' A.
    assert (E2 : t ++ repeat o k = t1 ++ q :: t2 ++ u) by (rewrite E, E', <- app_assoc; reflexivity).
    destruct (still_at k t1 q _ E2) as [(t3 & E3)|(-> & _)]; [exact (H t1 q t3 E3 A)|discriminate A].
  Qed.
  Lemma still_time limit n : 0 <= limit -> is_data (fst (link_view t)) = false -> link_waited t <= limit -> link_in_time limit t -> link_in_time limit (T n).
  Proof using HS HX.
    intros HL HD HW H. destruct (still_prefix n) as (k & u & E). intros t1 q t2 E' A.
    assert (E2 : t ++ repeat o k = t1 ++ q :: t2 ++ u) by (rewrite E, E', <- app_assoc; reflexivity).
    destruct (still_at k t1 q _ E2) as [(t3 & E3)|(-> & j & ->)]; [exact (H t1 q t3 E3 A)|exfalso].
    assert (V : forall i, fst (fold_left link_waited_step (t ++ repeat o i) ((HIdle, []), 0)) = link_view t /\ link_waited (t ++ repeat o i) <= limit).
    { induction i as [|i [IH1 IH2]].
      - rewrite app_nil_r. split; [|exact HW]. clear. unfold link_view, host_view.
        change (HIdle, @nil exchange) with (fst ((HIdle, @nil exchange), 0)) at 2. generalize ((HIdle, @nil exchange), 0). induction t as [|x r IH]; intros st; [reflexivity|]. cbn [fold_left map]. rewrite IH. reflexivity.
      - unfold link_waited in *. rewrite repeat_last, app_assoc, fold_left_app. cbn [fold_left]. unfold link_waited_step at 1 3. cbn [fst snd]. rewrite IH1, HD. cbn [andb].
        split; [|exact HL]. rewrite host_step_xfer, (proj1 still_quiet), (proj2 still_quiet). reflexivity. }
    destruct (V j) as [_ V2]. lia.
  Qed.
  Lemma still_link width p : link_given t = usb_written width p (link_packets t) -> usb_works width p (lk_then_idle l) T.
  Proof using HS HX.
    intros H. split; intros n; exists (length l + n)%nat; (split; [lia|]).
    - right. unfold link_given, link_packets. rewrite still_T, still_acc, still_emi. exact H.
    - unfold lk_then_idle. rewrite nth_overflow by lia. reflexivity.
  Qed.
End Standstill.

(** The program of C148 (a write, a read, another device asked for), as in C153. *)
Example C154_nonvacuous :
  let run := link_cycles 4 false true (lk_then_idle usb_demo) in
  program_ok 8 demo_program /\
  (forall n, link_bytes (run n) /\ link_in_time (36 * (4 / 4 + 1) - 1) (run n) /\ driven_usb 8 demo_program (run n) /\ link_no_stretching false true (run n)) /\
  usb_works 8 demo_program (lk_then_idle usb_demo) run /\
  usb_ended 8 demo_program (link_packets (run 600%nat)) = false.
Proof.
  cbv zeta. destruct C153_nonvacuous as (H1 & H2 & H3 & H4 & _).
  assert (HS : cnext (i2c_link 4 false true) (state (i2c_link 4 false true) usb_demo) lk0 = state (i2c_link 4 false true) usb_demo) by (vm_compute; reflexivity).
  assert (HX : l_tx (state (i2c_link 4 false true) usb_demo) = []) by (vm_compute; reflexivity).
  split; [exact H1|]. split; [|split].
  - intros n. split; [apply still_bytes; assumption|]. split; [apply still_time; try assumption; [vm_compute; discriminate|vm_compute; reflexivity|vm_compute; discriminate]|].
    split; [apply still_driven; assumption|intros H; discriminate].
  - apply still_link; [assumption|assumption|vm_compute; reflexivity].
  - vm_compute. reflexivity.
Qed.

(** Without the limit it is false: a write is refused and its data comes late.  The data is
    taken for requests, the next request for their data, and in the end the program has been
    told that its read is accepted and waits for the bytes, while the bridge waits for a
    request. *)
Definition usb_stuck : list lk_in :=
  lk_phase lk_released [0x05; 2] 250 (lk_phase lk_released [0x04; 1; 0x11] 250 (lk_phase lk_released [0x40; 0x00; 0x40] 250 (lk_phase nobody [0x04; 4; 0x11] 150 []))).
Theorem C154_ends_refuted :
  exists ins, let run := link_cycles 4 false true ins in
    program_ok 8 stuck_program /\ (forall n, link_bytes (run n) /\ driven_usb 8 stuck_program (run n) /\ link_no_stretching false true (run n)) /\
    usb_works 8 stuck_program ins run /\ forall n, usb_ended 8 stuck_program (link_packets (run n)) = false.
Proof.
  exists (lk_then_idle usb_stuck). cbv zeta.
  assert (HS : cnext (i2c_link 4 false true) (state (i2c_link 4 false true) usb_stuck) lk0 = state (i2c_link 4 false true) usb_stuck) by (vm_compute; reflexivity).
  assert (HX : l_tx (state (i2c_link 4 false true) usb_stuck) = []) by (vm_compute; reflexivity).
  split; [cbn; repeat split; try lia; repeat (apply Forall_cons || apply Forall_nil); unfold I2cbus_props.is_byte; lia|]. split; [|split].
  - intros n. split; [apply still_bytes; [assumption|apply link_bytesb; vm_compute; reflexivity]|].
    split; [apply still_driven; [assumption|apply driven_usbb_ok; vm_compute; reflexivity]|intros H; discriminate].
  - apply still_link; [assumption|assumption|vm_compute; reflexivity].
  - intros n. destruct (still_prefix 4 false true usb_stuck HS n) as (k & u & E).
    assert (X : emitted (map lo_link (trace (i2c_link 4 false true) usb_stuck)) = emitted (map lo_link (link_cycles 4 false true (lk_then_idle usb_stuck) n)) ++ emitted (map lo_link u)).
    { rewrite <- (still_emi 4 false true usb_stuck HX k), E. unfold emitted. now rewrite map_app, flat_map_app. }
    replace (emitted (map lo_link (trace (i2c_link 4 false true) usb_stuck))) with [Beat false true 1; Beat false true 0; Beat false true 0] in X by (vm_compute; reflexivity).
    unfold link_packets. destruct (emitted (map lo_link (link_cycles 4 false true (lk_then_idle usb_stuck) n))) as [|x [|y [|z [|w r]]]]; [reflexivity| | | |destruct r; discriminate]; injection X as; subst; vm_compute; reflexivity.
Qed.

Print Assumptions C154_ends_partial.
Print Assumptions C154_done_partial.
Print Assumptions C154_ends_refuted.
