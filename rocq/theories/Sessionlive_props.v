(** C150: a program that uses I2CBus over the UART bridge comes to its end. *)
From Verif Require Import Stream I2c_model I2cstream_model I2cstream_spec I2cproto_model I2cproto_spec I2cbus_model Serial_model
  Bridge_model Bridge_spec Bridge_proofs Bridge_props Session_spec Session_proofs Session_props Sessionlive_spec Sessionlive_proofs.
From Coq Require Import Lia.

(** C150: if the UART works and the devices do not hold the clock, every program comes to its
    end, whatever the devices answer. *)
Theorem C150_ends_partial : forall width period stretch oe p ins,
  0 <= width -> 4 <= period -> program_ok width p ->
  let run := cycles period stretch oe ins in
  (forall n, bytes_in (run n) /\ in_time (36 * (period / 4 + 1) - 1) (run n) /\ driven_by width p (run n) /\ no_stretching stretch oe (run n)) ->
  link_works width p ins run ->
  exists n, ended width p (handed_back (run n)) = true.
Proof.
  intros width period stretch oe p ins HW HP HO run H HF.
  apply (ends width period stretch oe p ins HW HP HO); try (intros n; apply (H n)). exact HF.
Qed.

(** With C148: a cycle comes at which the program has ended and the I2C bus has seen exactly
    the transactions of its calls, as they were reported to it. *)
Theorem C150_done_partial : forall width period stretch oe p ins,
  0 <= width -> 4 <= period -> program_ok width p ->
  let run := cycles period stretch oe ins in
  (forall n, bytes_in (run n) /\ in_time (36 * (period / 4 + 1) - 1) (run n) /\ driven_by width p (run n) /\ no_stretching stretch oe (run n)) ->
  link_works width p ins run ->
  exists n groups,
    ended width p (handed_back (run n)) = true /\
    Forall2 (fun h g => explained width (fst h) (snd h) (fst g) (snd g)) (history width p (handed_back (run n))) groups /\
    served (i2c_of (run n)) = concat (map fst groups) /\
    emitted (map so_io (i2c_of (run n))) = concat (map snd groups).
Proof.
  intros width period stretch oe p ins HW HP HO run H HF.
  destruct (C150_ends_partial width period stretch oe p ins HW HP HO H HF) as (n & E). exists n. destruct (H n) as (H1 & H2 & H3 & _).
  destruct (C148_session_partial width period stretch oe p (map ins (seq 0 n)) HW ltac:(lia) HO H1 H2 H3) as (gs & bs & ds & G1 & G2 & G3 & G4).
  destruct (G4 E) as [-> ->]. rewrite app_nil_r in *. exists gs. auto.
Qed.

(** ** Runs that come to a standstill. *)
Definition then_idle (l : list br_in) (n : nat) : br_in := nth n l rx0.
Lemma map_nth_seq {A} (l : list A) d : map (fun n => nth n l d) (seq 0 (length l)) = l.
Proof.
  induction l as [|x l IH]; [reflexivity|]. cbn [length seq map nth]. f_equal. rewrite <- seq_shift, map_map. exact IH.
Qed.
Lemma then_idle_ins l k : map (then_idle l) (seq 0 (length l + k)) = l ++ repeat rx0 k.
Proof.
  rewrite seq_app, map_app. f_equal; [apply map_nth_seq|]. cbn [plus].
  assert (G : forall a, (length l <= a)%nat -> map (then_idle l) (seq a k) = repeat rx0 k).
  { induction k as [|k IH]; intros a H; [reflexivity|]. cbn [seq map repeat]. f_equal; [apply nth_overflow; lia|apply IH; lia]. }
  now apply G.
Qed.
Lemma repeat_last {A} (a : A) k : repeat a (S k) = repeat a k ++ [a].
Proof. cbn [repeat]. apply repeat_cons. Qed.
Lemma still {I O} (c : circuit I O) s i k : cnext c s i = s -> trace_from c s (repeat i k) = repeat (cout c s i) k.
Proof. intros H. induction k as [|k IH]; [reflexivity|]. cbn [repeat trace_from]. now rewrite H, IH. Qed.

Section Standstill.
  Context (period : Z) (stretch oe : bool) (l : list br_in).
  Let B := i2c_bridge period stretch oe.
  Let T := cycles period stretch oe (then_idle l).
  Let t := trace B l.
  Let o := cout B (state B l) rx0.
  Context (HS : cnext B (state B l) rx0 = state B l) (HX : b_tx (state B l) = []).

  Lemma still_T k : T (length l + k) = t ++ repeat o k.
  Proof using HS. unfold T, cycles. rewrite then_idle_ins, trace_app. unfold o. now rewrite <- still by exact HS. Qed.
  Lemma still_prefix n : exists k u, t ++ repeat o k = T n ++ u.
  Proof using HS.
    exists n. rewrite <- still_T. unfold T, cycles. replace (length l + n)%nat with (n + length l)%nat by lia.
    rewrite seq_app, map_app, trace_app. eauto.
  Qed.
  Lemma still_quiet : xfer (o_sink (uart o)) (o_sready (uart o)) = [] /\ xfer (o_src (uart o)) (o_rready (uart o)) = [].
  Proof using HX.
    split; [reflexivity|]. unfold o. cbn [B i2c_bridge cout bo_us uart o_src o_rready serial_stream uo_sink uo_sready br_us_in u_sink u_tx_rdy].
    unfold br_tx. rewrite HX. reflexivity.
  Qed.
  Lemma still_given k : given (t ++ repeat o k) = given t.
  Proof using HX.
    unfold given. f_equal. induction k as [|k IH]; [now rewrite app_nil_r|]. rewrite repeat_last, app_assoc. unfold accepted in *. rewrite map_app, flat_map_app, IH. cbn [map flat_map].
    rewrite (proj1 still_quiet). now rewrite !app_nil_r.
  Qed.
  Lemma still_back k : handed_back (t ++ repeat o k) = handed_back t.
  Proof using HX.
    unfold handed_back. f_equal. induction k as [|k IH]; [now rewrite app_nil_r|]. rewrite repeat_last, app_assoc. unfold emitted in *. rewrite map_app, flat_map_app, IH. cbn [map flat_map].
    rewrite (proj2 still_quiet). now rewrite !app_nil_r.
  Qed.
  Lemma still_split k : forall t1 t2, t ++ repeat o k = t1 ++ t2 -> (exists t3, t = t1 ++ t3) \/ exists j, t1 = t ++ repeat o j.
  Proof.
    induction k as [|k IH]; intros t1 t2 E; [rewrite app_nil_r in E; left; eauto|]. rewrite repeat_last, app_assoc in E.
    destruct (list_case t2) as [->|(t3 & x & ->)].
    - right. exists (S k). rewrite app_nil_r in E. now rewrite repeat_last, app_assoc.
    - rewrite app_assoc in E. apply app_inj_tail in E. apply (IH t1 t3), E.
  Qed.
  Lemma still_bytes n : bytes_in t -> bytes_in (T n).
  Proof using HS.
    intros H. destruct (still_prefix n) as (k & u & E). assert (G : bytes_in (t ++ repeat o k)).
    { apply Forall_app. split; [exact H|]. apply Forall_forall. intros x Hx. apply repeat_spec in Hx. subst x. cbn. lia. }
    rewrite E in G. apply Forall_app in G. tauto.
  Qed.
  Lemma still_driven width p n : driven_by width p t -> driven_by width p (T n).
  Proof using HS.
    intros H. destruct (still_prefix n) as (k & u & E). apply (driven_prefix width p (T n) u). rewrite <- E. clear E.
    intros t1 q t2 E A. destruct (still_split k t1 (q :: t2) E) as [(t3 & E3)|(j & ->)].
    - destruct t3 as [|x t3].
      + rewrite app_nil_r in E3. subst t1. apply app_inv_head in E. destruct k; [discriminate|]. injection E as <- _. discriminate A.
      + assert (x = q) by (rewrite E3, <- app_assoc in E; apply app_inv_head in E; injection E as -> _; reflexivity). subst x. apply (H t1 q t3 E3 A).
    - rewrite <- app_assoc in E. apply app_inv_head in E. assert (q = o) as ->; [|discriminate A].
      apply (repeat_spec k). rewrite E. apply in_or_app. right. now left.
  Qed.
  Lemma still_time limit n : 0 <= limit -> is_data (fst (uart_view t)) = false -> in_time limit t -> in_time limit (T n).
  Proof using HS HX.
    intros HL HD H. destruct (still_prefix n) as (k & u & E). assert (G : in_time limit (t ++ repeat o k)).
    2: { intros t1 t2 E'. apply (G t1 (t2 ++ u)). now rewrite E, E', <- app_assoc. }
    intros t1 t2 E'. destruct (still_split k t1 t2 E') as [(t3 & E3)|(j & ->)]; [exact (H t1 t3 E3)|].
    assert (V : forall i, uart_view (t ++ repeat o i) = uart_view t).
    { induction i as [|i IH]; [now rewrite app_nil_r|]. rewrite repeat_last, app_assoc, view_snoc, IH, host_step_xfer, (proj1 still_quiet), (proj2 still_quiet). reflexivity. }
    destruct j as [|j]; [rewrite app_nil_r; apply (H t []); now rewrite app_nil_r|].
    rewrite repeat_last, app_assoc, waited_snoc, V, HD. exact HL.
  Qed.
  Lemma still_link width p : given t = written width p (handed_back t) -> link_works width p (then_idle l) T.
  Proof using HS HX.
    intros H. split; intros n; exists (length l + n)%nat; (split; [lia|]).
    - right. now rewrite still_T, still_given, still_back.
    - unfold then_idle. rewrite nth_overflow by lia. reflexivity.
  Qed.
End Standstill.

(** The program of C148: it writes a register, reads it back and asks for another device. *)
Example C150_nonvacuous :
  let run := cycles 4 false true (then_idle demo_ins) in
  program_ok 8 demo_program /\
  (forall n, bytes_in (run n) /\ in_time (36 * (4 / 4 + 1) - 1) (run n) /\ driven_by 8 demo_program (run n) /\ no_stretching false true (run n)) /\
  link_works 8 demo_program (then_idle demo_ins) run /\
  ended 8 demo_program (handed_back (run 1000%nat)) = false.
Proof.
  cbv zeta. destruct C148_nonvacuous as (H1 & H2 & H3 & H4 & _).
  assert (HS : cnext (i2c_bridge 4 false true) (state (i2c_bridge 4 false true) demo_ins) rx0 = state (i2c_bridge 4 false true) demo_ins) by (vm_compute; reflexivity).
  assert (HX : b_tx (state (i2c_bridge 4 false true) demo_ins) = []) by (vm_compute; reflexivity).
  split; [exact H1|]. split; [|split].
  - intros n. split; [apply still_bytes; assumption|]. split; [apply still_time; try assumption; [vm_compute; discriminate|vm_compute; reflexivity]|].
    split; [apply still_driven; assumption|intros H; discriminate].
  - apply still_link; [assumption|assumption|vm_compute; reflexivity].
  - vm_compute. reflexivity.
Qed.

(** Without the limit it is false: a write is refused and its data comes late.  The data is
    taken for requests, the next request for their data, and in the end the program has been
    told that its read is accepted and waits for the bytes, while the bridge waits for a
    request. *)
Definition stuck_program : program := Do (WriteBlock 0x02 0x11 [0x40; 0x00; 0x40]) (fun _ => Do (ReadBlock 0x02 0x11 2) (fun _ => Finished)).
Definition stuck_ins : list br_in :=
  let c := i2c_bridge 4 false true in
  let l := at_rate 9 [0x04; 4; 0x11] ++ repeat rx0 150 in
  l ++ with_device c released (state c l) (at_rate 9 [0x40; 0x00; 0x40] ++ repeat rx0 150 ++ at_rate 9 [0x04; 1; 0x11] ++ at_rate 9 [0x05; 2] ++ repeat rx0 500).
Theorem C150_ends_refuted :
  exists ins, let run := cycles 4 false true ins in
    program_ok 8 stuck_program /\ (forall n, bytes_in (run n) /\ driven_by 8 stuck_program (run n) /\ no_stretching false true (run n)) /\
    link_works 8 stuck_program ins run /\ forall n, ended 8 stuck_program (handed_back (run n)) = false.
Proof.
  exists (then_idle stuck_ins). cbv zeta.
  assert (HS : cnext (i2c_bridge 4 false true) (state (i2c_bridge 4 false true) stuck_ins) rx0 = state (i2c_bridge 4 false true) stuck_ins) by (vm_compute; reflexivity).
  assert (HX : b_tx (state (i2c_bridge 4 false true) stuck_ins) = []) by (vm_compute; reflexivity).
  split; [cbn; repeat split; try lia; repeat (apply Forall_cons || apply Forall_nil); unfold I2cbus_props.is_byte; lia|]. split; [|split].
  - intros n. split; [apply still_bytes; [assumption|apply bytes_inb; vm_compute; reflexivity]|].
    split; [apply still_driven; [assumption|apply drivenb_ok; vm_compute; reflexivity]|intros H; discriminate].
  - apply still_link; [assumption|assumption|vm_compute; reflexivity].
  - intros n. destruct (still_prefix 4 false true stuck_ins HS n) as (k & u & E).
    assert (X : handed_back (trace (i2c_bridge 4 false true) stuck_ins) = handed_back (cycles 4 false true (then_idle stuck_ins) n) ++ handed_back u).
    { rewrite <- (still_back 4 false true stuck_ins HX k), E. unfold handed_back, emitted. now rewrite map_app, flat_map_app, map_app. }
    replace (handed_back (trace (i2c_bridge 4 false true) stuck_ins)) with [1; 0; 0] in X by (vm_compute; reflexivity).
    destruct (handed_back (cycles 4 false true (then_idle stuck_ins) n)) as [|x [|y [|z [|w r]]]]; [reflexivity| | | |destruct r; discriminate]; injection X as; subst; vm_compute; reflexivity.
Qed.

Print Assumptions C150_ends_partial.
Print Assumptions C150_done_partial.
Print Assumptions C150_ends_refuted.
