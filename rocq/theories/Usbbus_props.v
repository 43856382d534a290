(** C153: a program on the PC that uses I2CBus over the USB bridge. *)
From Verif Require Import Stream Bits I2c_model I2cstream_model I2cstream_spec I2cproto_model I2cproto_spec I2cbus_model I2cbus_props
  Serial_model Bridge_model Bridge_spec Bridge_proofs Link_model Link_spec Link_proofs Link_props Session_spec Session_proofs Session_props
  Usbbus_model Usbbus_spec Usbbus_proofs.
From Coq Require Import Lia.

Definition link_evs (t : list lk_obs) : list ev := flat_map ev_of (map lo_link t).

(** The program over packets and the same program over bytes. *)
Lemma usb_facts width period stretch oe p ins : 0 <= width -> 1 <= period -> program_ok width p ->
  let t := trace (i2c_link period stretch oe) ins in
  let got := map bdata (emitted (map lo_link t)) in let pk := packets (emitted (map lo_link t)) in
  good_link (36 * (period / 4 + 1) - 1) t -> causal width p (link_evs t) ->
  usb_written width p pk = written width p got /\ usb_history width p pk = history width p got /\ usb_ended width p pk = ended width p got /\
  (ended width p got = true -> usb_unread width p pk = []) /\ exact_reads (usb_reads width p pk) /\
  exists groups cur fut, snd (link_view t) = concat groups ++ cur /\
    Forall2 (fun h g => told width (fst h) (snd h) g) (history width p got) groups /\
    written width p got = map bdata (accepted (map lo_link t)) ++ fut /\ in_time_for (fst (link_view t)) fut /\
    (ended width p got = true -> cur = [] /\ fst (link_view t) = HIdle) /\
    (ended width p got = false -> fut = [] -> waiting (fst (link_view t))).
Proof.
  intros HW HP HO t got pk G HC. pose proof (C151_bridge_partial period stretch oe ins HP) as K. cbv zeta in K. fold t in K. specialize (K G).
  assert (HL : fst (link_view t) <> HLost) by (destruct (link_view t); exact (proj1 K)). clear K.
  destruct (view_evs (map lo_link t) HL) as (E1 & E2 & E3). change (host_view (map lo_link t)) with (link_view t) in E1. fold (link_evs t) in E1, E2, E3.
  pose proof (link_marked period stretch oe ins HP) as M. cbv zeta in M. fold t in M. specialize (M G). destruct M as [M1 M2].
  assert (HL' : fst (evs_view (link_evs t) (HIdle, [])) <> HLost) by (rewrite <- E1; exact HL).
  destruct (session_main width HW p (link_evs t) [] HO HC HL') as (gs & cur & fut & L & F & W & T & N & A & C1 & C2).
  destruct (answers (link_evs t) [] HL') as (new & A1 & A2). rewrite <- E1 in L, T, N, A, C2, A1, A2. rewrite E3 in F, W, N, A, A2. rewrite E2 in W. fold got in F, W, N, A. cbn [app] in L, A1. rewrite L in A1, M2. subst new.
  assert (EG : got = map bdata (concat (map answer (concat gs ++ cur)) ++ partial_answer (fst (link_view t)))) by (unfold got; now rewrite A2).
  assert (EK : pk = flat_map pks (concat gs ++ cur) ++ pks_open (fst (link_view t))) by (unfold pk; rewrite A2; now apply packets_view).
  destruct (usb_same width HW p gs cur (fst (link_view t)) HO) as (S1 & S2 & S3 & S4 & S5); try assumption; try (rewrite <- EG; assumption).
  rewrite <- EG, <- EK in *. do 5 (split; [assumption|]). exists gs, cur, fut. auto 10.
Qed.

Lemma usb_good width period stretch oe p : 0 <= width -> 1 <= period -> program_ok width p -> forall ins,
  let t := trace (i2c_link period stretch oe) ins in let limit := 36 * (period / 4 + 1) - 1 in
  link_bytes t -> link_in_time limit t -> driven_usb width p t -> good_link limit t /\ causal width p (link_evs t).
Proof.
  intros HW HP HO ins. cbv zeta. induction ins as [|i ins IH] using rev_ind.
  { intros _ _ _. split; [intros t1 o t2 E; destruct t1; discriminate|intros e1 b e2 E; destruct e1; discriminate]. }
  rewrite trace_app. cbn [trace_from]. set (t := trace _ ins) in *. set (o := cout _ _ _). intros HB HT HD.
  destruct IH as [G HC].
  { apply Forall_app in HB. tauto. }
  { intros u1 q u2 E. apply (HT u1 q (u2 ++ [o])). now rewrite E, <- app_assoc. }
  { intros t1 q t2 E A. apply (HD t1 q (t2 ++ [o])); [now rewrite E, <- app_assoc|exact A]. }
  pose proof (usb_facts width period stretch oe p ins HW HP HO) as K. cbv zeta in K. fold t in K. destruct (K G HC) as (S1 & _ & _ & _ & _ & gs & cur & fut & _ & _ & W & T & _). clear K.
  assert (NEXT : cvalid (o_sink (lo_link o)) && o_sready (lo_link o) = true -> exists later,
            fut = bdata (cbeat (o_sink (lo_link o))) :: later /\ map bdata (accepted (map lo_link t)) ++ bdata (cbeat (o_sink (lo_link o))) :: later = written width p (map bdata (emitted (map lo_link t)))).
  { intros A. destruct (HD t o [] eq_refl A) as (later & L). exists later. rewrite S1 in L. split; [|exact L]. rewrite W in L. apply app_inv_head in L. auto. }
  split.
  - intros t1 q t2 E. assert (C : t2 = [] /\ t1 = t /\ q = o \/ exists t3, t = t1 ++ q :: t3).
    { destruct (list_case t2) as [->|(t3 & x & ->)]; [left|right].
      - apply app_inj_tail in E. destruct E as [<- <-]. auto.
      - exists t3. apply app_inj_tail with (a := o) (b := x). now rewrite E, <- app_assoc. }
    destruct C as [(-> & -> & ->)|(t3 & E3)]; [|exact (G t1 q t3 E3)].
    split; [apply Forall_app in HB; destruct HB as [_ HB]; inversion HB; auto|]. split; [|apply (HT t o []); reflexivity].
    intros A. destruct (NEXT A) as (later & -> & _). exact (T ltac:(discriminate)).
  - intros e1 b e2 E. unfold link_evs in E. rewrite map_app, flat_map_app in E. cbn [map flat_map] in E. rewrite app_nil_r in E. fold (link_evs t) in E.
    destruct (list_case e2) as [->|(e3 & x & ->)].
    + pose proof (ev_len (lo_link o)) as LE. destruct (ev_of (lo_link o)) as [|x [|? ?]] eqn:EV; [| |cbn in LE; lia].
      * rewrite app_nil_r in E. exact (HC e1 b [] E).
      * apply app_inj_tail in E. destruct E as [<- ->].
        pose proof (C151_bridge_partial period stretch oe ins HP) as K. cbv zeta in K. fold t in K. specialize (K G).
        assert (HL : fst (link_view t) <> HLost) by (destruct (link_view t); exact (proj1 K)). clear K.
        destruct (view_evs (map lo_link t) HL) as (_ & E2 & E3). fold (link_evs t) in E2, E3. rewrite E2, E3.
        unfold ev_of, xfer in EV. destruct (cvalid (o_sink (lo_link o)) && o_sready (lo_link o)) eqn:A; [|destruct (cvalid (o_src (lo_link o)) && o_rready (lo_link o)); discriminate].
        destruct (cvalid (o_src (lo_link o)) && o_rready (lo_link o)); [discriminate|]. injection EV as <-.
        destruct (NEXT eq_refl) as (later & _ & L). eauto.
    + pose proof (ev_len (lo_link o)) as LE. destruct (ev_of (lo_link o)) as [|y [|? ?]] eqn:EV; [| |cbn in LE; lia].
      * rewrite app_nil_r in E. exact (HC e1 b _ E).
      * change (e1 ++ Sent b :: e3 ++ [x]) with (e1 ++ (Sent b :: e3) ++ [x]) in E. rewrite app_assoc in E. apply app_inj_tail in E. destruct E as [E _]. exact (HC e1 b e3 E).
Qed.

(** C153: whatever a program does with the bus and whatever the devices answer, each call that
    has returned has made exactly the transaction on the I2C bus that it should and returned
    what happened there, in order; every read has got exactly as many bytes as it asked for;
    once the program has ended nothing else is on the bus and no answer is left unread. *)
Theorem C153_session_partial : forall width period stretch oe p ins,
  0 <= width -> 1 <= period -> program_ok width p ->
  let t := trace (i2c_link period stretch oe) ins in
  link_bytes t -> link_in_time (36 * (period / 4 + 1) - 1) t -> driven_usb width p t ->
  let pk := packets (emitted (map lo_link t)) in
  Forall (fun r => Z.of_nat (length (snd r)) = fst r) (usb_reads width p pk) /\
  exists groups beats data,
    Forall2 (fun h g => explained width (fst h) (snd h) (fst g) (snd g)) (usb_history width p pk) groups /\
    served (link_i2c t) = concat (map fst groups) ++ beats /\
    emitted (map so_io (link_i2c t)) = concat (map snd groups) ++ data /\
    (usb_ended width p pk = true -> beats = [] /\ data = [] /\ usb_unread width p pk = []).
Proof.
  intros width period stretch oe p ins HW HP HO t HB HT HD pk.
  destruct (usb_good width period stretch oe p HW HP HO ins HB HT HD) as [G HC]. fold t in G, HC.
  destruct (usb_facts width period stretch oe p ins HW HP HO G HC) as (_ & S2 & S3 & S4 & S5 & gs & cur & fut & L & F & _ & _ & N & _). fold t in S2, S3, S4, S5, L, F, N. fold pk in S2, S3, S4, S5.
  split; [exact S5|]. rewrite S2, S3.
  pose proof (C151_bridge_partial period stretch oe ins HP) as K. cbv zeta in K. fold t in K. specialize (K G). destruct (link_view t) as [hs log]. cbn [fst snd] in *. subst log.
  destruct K as (_ & later & segs & beats & data & K1 & _ & K3 & K4 & K5). rewrite <- !app_assoc in K1. apply Forall2_app_inv_l in K1. destruct K1 as (s1 & s2 & K1 & K2 & ->).
  destruct (told_all _ _ _ F _ K1) as (gs' & G1 & G2 & G3). rewrite !map_app, !concat_app, <- !app_assoc in K3, K4.
  exists gs', (concat (map fst s2) ++ beats), (concat (map snd s2) ++ data). rewrite G2, G3. split; [exact G1|]. split; [exact K3|]. split; [exact K4|].
  intros HE. destruct (N HE) as [-> ->]. destruct (K5 eq_refl) as (-> & -> & ->). inversion K2; subst. auto.
Qed.

(** C153: over a link that carries bytes in packets the program is told the same as over one
    that carries bytes: reading packets or reading bytes makes no difference. *)
Theorem C153_as_bytes_partial : forall width period stretch oe p ins,
  0 <= width -> 1 <= period -> program_ok width p ->
  let t := trace (i2c_link period stretch oe) ins in
  link_bytes t -> link_in_time (36 * (period / 4 + 1) - 1) t -> driven_usb width p t ->
  let pk := packets (emitted (map lo_link t)) in let got := map bdata (emitted (map lo_link t)) in
  usb_written width p pk = written width p got /\ usb_history width p pk = history width p got /\ usb_ended width p pk = ended width p got.
Proof.
  intros width period stretch oe p ins HW HP HO t HB HT HD pk got.
  destruct (usb_good width period stretch oe p HW HP HO ins HB HT HD) as [G HC]. fold t in G, HC.
  destruct (usb_facts width period stretch oe p ins HW HP HO G HC) as (S1 & S2 & S3 & _). auto.
Qed.

(** ** Checking runs. *)
Fixpoint driven_usbb (width : Z) (p : program) (sent : list Z) (got : list (beat Z)) (t : list lk_obs) : bool :=
  match t with
  | [] => true
  | o :: r => (negb (cvalid (o_sink (lo_link o)) && o_sready (lo_link o)) || prefixb (sent ++ [bdata (cbeat (o_sink (lo_link o)))]) (usb_written width p (packets got))) &&
      driven_usbb width p (sent ++ map bdata (accepted [lo_link o])) (got ++ emitted [lo_link o]) r
  end.
Lemma driven_usbb_ok width p t : driven_usbb width p [] [] t = true -> driven_usb width p t.
Proof.
  assert (G : forall t t0, driven_usbb width p (map bdata (accepted (map lo_link t0))) (emitted (map lo_link t0)) t = true ->
    forall t1 o t2, t = t1 ++ o :: t2 -> cvalid (o_sink (lo_link o)) && o_sready (lo_link o) = true ->
    exists later, map bdata (accepted (map lo_link (t0 ++ t1))) ++ bdata (cbeat (o_sink (lo_link o))) :: later = usb_written width p (packets (emitted (map lo_link (t0 ++ t1))))).
  2: { intros H t1 o t2 E A. exact (G t [] H t1 o t2 E A). }
  clear. induction t as [|o t IH]; intros t0 H t1 q t2 E A; [destruct t1; discriminate|]. cbn [driven_usbb] in H. apply andb_true_iff in H. destruct H as [H1 H2].
  destruct t1 as [|q1 t1]; cbn [app] in E; injection E as -> E.
  - rewrite app_nil_r. rewrite A in H1. cbn [negb orb] in H1. destruct (prefixb_ok _ _ H1) as (c & C). exists c. rewrite <- app_assoc in C. exact C.
  - replace (t0 ++ q1 :: t1) with ((t0 ++ [q1]) ++ t1) by (now rewrite <- app_assoc). apply IH with (t2 := t2); auto.
    unfold accepted, emitted in *. rewrite !map_app, !flat_map_app, !map_app. exact H2.
Qed.
Fixpoint link_timeb (limit : Z) (st : (host * list exchange) * Z) (t : list lk_obs) : bool :=
  match t with [] => true | o :: r => ((snd st <=? limit) || cvalid (o_sink (lo_link o))) && link_timeb limit (link_waited_step st o) r end.
Lemma link_timeb_ok limit t : link_timeb limit ((HIdle, []), 0) t = true -> link_in_time limit t.
Proof.
  intros H t1 o t2 ->. unfold link_waited. revert H. generalize (((HIdle, []), 0) : (host * list exchange) * Z). induction t1 as [|x t1 IH]; intros st H L; cbn [app link_timeb fold_left] in *; apply andb_true_iff in H; destruct H as [H1 H2].
  - apply orb_true_iff in H1. destruct H1 as [H1|H1]; [lia|exact H1].
  - exact (IH _ H2 L).
Qed.
Lemma link_bytesb t : forallb (fun o => (0 <=? bdata (cbeat (o_sink (lo_link o)))) && (bdata (cbeat (o_sink (lo_link o))) <? 256)) t = true -> link_bytes t.
Proof. intros H. apply Forall_forall. intros o Ho. rewrite forallb_forall in H. specialize (H o Ho). lia. Qed.

(** The program of C148 (a write, a read, another device asked for): the device acknowledges
    but is gone at the end. *)
Definition usb_demo : list lk_in :=
  lk_phase nobody [0xaa; 0] 150 (lk_phase lk_released [0x21; 2] 250 (lk_phase lk_released [0x20; 1; 0x11] 170 (lk_phase lk_released [0x20; 3; 0x11; 0x22; 0x33] 320 []))).
Example C153_nonvacuous :
  let t := trace (i2c_link 4 false true) usb_demo in let pk := packets (emitted (map lo_link t)) in
  program_ok 8 demo_program /\ link_bytes t /\ link_in_time (36 * (4 / 4 + 1) - 1) t /\ driven_usb 8 demo_program t /\
  usb_history 8 demo_program pk =
    [(WriteBlock 0x10 0x11 [0x22; 0x33], Written (Some 2)); (ReadBlock 0x10 0x11 2, Block (Some [0xff; 0xff])); (Probe 0x55, Present false)] /\
  pk = [[0]; [0]; [0]; [0xff; 0xff]; [1]] /\ usb_ended 8 demo_program pk = true.
Proof.
  cbv zeta. split; [exact (proj1 C148_nonvacuous)|]. split; [apply link_bytesb; vm_compute; reflexivity|].
  split; [apply link_timeb_ok; vm_compute; reflexivity|]. split; [apply driven_usbb_ok; vm_compute; reflexivity|]. vm_compute. auto.
Qed.

(** Without the limit it is false: the data of a refused write comes late, is taken for a
    request, and a transaction is made that the program never asked for; the answer to it
    stays unread and will be taken for the answer to the next call. *)
Definition late_write : program := Do (WriteBlock 0x10 0x30 [0; 0x30]) (fun _ => Finished).
Theorem C153_session_refuted :
  exists ins, let t := trace (i2c_link 4 false true) ins in let pk := packets (emitted (map lo_link t)) in
    program_ok 8 late_write /\ link_bytes t /\ driven_usb 8 late_write t /\
    usb_history 8 late_write pk = [(WriteBlock 0x10 0x30 [0; 0x30], Written None)] /\ usb_ended 8 late_write pk = true /\
    usb_unread 8 late_write pk = [[1]] /\
    commands (map so_i2c (link_i2c t)) = [CStart; CWrite 0x20; CStop; CStart; CWrite 0x30; CStop].
Proof.
  exists (run_fed 4 nobody 1 100 [0x20; 3; 0x30; 0; 0x30] 450). cbv zeta. split; [repeat (split || constructor); unfold is_byte; cbn; lia|].
  split; [apply link_bytesb; vm_compute; reflexivity|]. split; [apply driven_usbb_ok; vm_compute; reflexivity|]. vm_compute. auto.
Qed.

(** C153: discover_queue does not work over USB.  The 128 answers come as 128 packets of one
    byte; its only read gets the first one: no address but 0 can be reported, and the other 127
    answers stay unread. *)
Theorem C153_discover_queue_refuted : forall answers, length answers = 128%nat -> Forall (fun b => blast b = true) answers ->
  let q := usb_discover_queue (packets answers) in
  (u_result q = inl [] \/ u_result q = inl [0]) /\ length (u_left q) = 127%nat /\
  u_reads q = [(128, [bdata (hd (Beat false false 0) answers)])] /\
  c_result (discover_queue (map bdata answers)) =
    inl (map (fun x => Z.of_nat (fst x)) (filter (fun x => snd x =? 0) (combine (seq 0 128) (map bdata answers)))).
Proof.
  intros answers HL HF. assert (E : packets answers = map (fun b => [bdata b]) answers).
  { clear HL. unfold packets. induction HF as [|b l H HF IH]; [reflexivity|]. cbn. rewrite H. now rewrite IH. }
  assert (B : bytearray (flat_map (fun a => [Z.lor (Z.shiftl (Z.of_nat a) 1) 0; 0]) (seq 0 128)) = Some (flat_map (fun a => [Z.lor (Z.shiftl (Z.of_nat a) 1) 0; 0]) (seq 0 128))) by (vm_compute; reflexivity).
  cbv zeta. rewrite E. unfold usb_discover_queue, discover_queue. rewrite B. destruct answers as [|b l]; [discriminate|]. cbn [map recv u_result u_left u_reads c_result hd].
  replace (firstn (Z.to_nat 128) [bdata b]) with [bdata b] by reflexivity.
  split; [|split; [|split]].
  - change (combine (seq 0 128) [bdata b]) with [(0%nat, bdata b)]. cbn [filter snd]. destruct (bdata b =? 0); auto.
  - rewrite map_length. cbn in HL. lia.
  - reflexivity.
  - rewrite firstn_all2; [reflexivity|]. cbn [length] in *. rewrite map_length. lia.
Qed.
(** Such answers: the first requests of discover_queue, sent without waiting. *)
Example C153_discover_queue_nonvacuous :
  let t := trace (i2c_link 4 false true) (run_fed 4 nobody 1 1 [0; 0; 2; 0; 4; 0; 6; 0] 400) in
  emitted (map lo_link t) = repeat (Beat false true 1) 4.
Proof. vm_compute. reflexivity. Qed.

Print Assumptions C153_session_partial.
Print Assumptions C153_as_bytes_partial.
Print Assumptions C153_session_refuted.
Print Assumptions C153_discover_queue_refuted.
