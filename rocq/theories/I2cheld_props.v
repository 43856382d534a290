(** Theorems C175: what the I2C cores and a program on the PC see when a device holds SCL low
    for ever and the core obeys clock stretching. *)
From Verif Require Import Stream Bits I2c_model I2c_spec I2c_proofs I2c_props I2cstream_model I2cstream_spec I2cstream_proofs
  I2cproto_model I2cproto_spec I2cproto_props I2cbus_model I2cbus_props Serial_model Bridge_model Bridge_spec Bridge_props
  I2cwriter_props I2cinit_model I2cinit_props I2clive_props I2cinitlive_props
  Link_model Link_spec Link_props Session_spec Usbbus_model Usbbus_spec I2cempty_proofs I2cempty_props Emptyprog_props I2cheld_proofs.
From Coq Require Import Lia.

(** The level of the SCL wire is 0. *)
Definition clock_low (o : i2c_obs) : Prop := ii_scl_pad (io_in o) = false.

Lemma two_held period s i j : ii_scl_pad i = false -> ii_scl_pad j = false ->
  held (i2c_next period true true (i2c_next period true true s i) j).
Proof. intros A B. unfold held, i2c_next. repeat match goal with |- context [let '(_, _) := ?e in _] => destruct e end. cbn. auto. Qed.

(** The state two cycles later, and the rest of the run from there. *)
Lemma two_later {I O} (c : circuit I O) ins t1 a b t2 : trace c ins = t1 ++ a :: b :: t2 ->
  exists x i j y, ins = x ++ i :: j :: y /\ a = cout c (state c x) i /\ b = cout c (cnext c (state c x) i) j /\
    t2 = trace_from c (state c (x ++ [i; j])) y /\ state c (x ++ [i; j]) = cnext c (cnext c (state c x) i) j.
Proof.
  intros H. apply trace_split_from in H. destruct H as (x & i & r & -> & _ & -> & H). destruct r as [|j y]; [discriminate|]. cbn [trace_from] in H. injection H as -> ->.
  exists x, i, j, y. unfold state. rewrite state_from_app. auto 6.
Qed.

(** C175: once SCL has been low for two cycles and stays low, an I2CInitiator takes at most one
    more command, and from then on it is busy and takes nothing. *)
Theorem C175_initiator : forall period ins t1 a b t2,
  4 <= period -> trace (i2c_initiator period true true) ins = t1 ++ a :: b :: t2 ->
  Forall clock_low (a :: b :: t2) ->
  (length (commands t2) <= 1)%nat /\
  forall u o v, t2 = u ++ o :: v -> io_cmd o <> None -> Forall (fun o => io_busy o = true /\ io_cmd o = None) v.
Proof.
  intros period ins t1 a b t2 HP H HL. apply two_later in H. destruct H as (x & i & j & y & -> & -> & -> & -> & E).
  inversion HL as [|? ? L1 HL1]; subst. inversion HL1 as [|? ? L2 L3]; subst.
  apply held_trace; auto.
  - rewrite E. now apply two_held.
  - apply shape_run.
  - clear - L3. revert L3. generalize (state (i2c_initiator period true true) (x ++ [i; j])). induction y as [|q y IH]; intros s H; [constructor|]. inversion H; subst. constructor; eauto.
Qed.

(** C175: an I2CProto then sends at most one more byte; none at all if SCL is low from the start. *)
Lemma plow_of period s ins : Forall clock_low (map so_i2c (map po_i2c (trace_from (i2c_proto period true true) s ins))) -> Forall plow ins.
Proof. revert s. induction ins as [|[[k r] p] ins IH]; intros s H; [constructor|]. inversion H as [|? ? H1 H2]; subst. constructor; [exact H1|eapply IH; exact H2]. Qed.
Theorem C175_core : forall period ins t1 a b t2,
  4 <= period -> trace (i2c_proto period true true) ins = t1 ++ a :: b :: t2 ->
  Forall clock_low (map so_i2c (map po_i2c (a :: b :: t2))) ->
  (length (emitted (map po_io t2)) <= 1)%nat.
Proof.
  intros period ins t1 a b t2 HP H HL. apply two_later in H. destruct H as (x & i & j & y & -> & -> & -> & -> & E).
  cbn [map] in HL. inversion HL as [|? ? L1 HL1]; subst. inversion HL1 as [|? ? L2 L3]; subst.
  apply one_trace; [exact HP|apply pr_ok_run| |eapply plow_of; exact L3].
  rewrite E. set (s := state _ x) in *. clearbody s. destruct i as [[k r] p], j as [[k' r'] p']. cbn [i2c_proto cnext]. rewrite !step_i. unfold ist_next. cbn [is_i]. now apply two_held.
Qed.
Theorem C175_core_never : forall period ins,
  4 <= period ->
  let t := trace (i2c_proto period true true) ins in
  Forall clock_low (map so_i2c (map po_i2c t)) -> emitted (map po_io t) = [].
Proof. intros period ins HP t HL. apply none_trace; [exact HP|]. eapply plow_of; exact HL. Qed.

(** C175: an I2CWriterStream then takes at most one more byte. *)
Theorem C175_writer : forall period ins t1 a b t2,
  4 <= period -> trace (i2c_writer period true true) ins = t1 ++ a :: b :: t2 ->
  Forall clock_low (map wo_i2c (a :: b :: t2)) -> (length (bytes_of t2) <= 1)%nat.
Proof.
  intros period ins t1 a b t2 HP H HL. pose proof (proj1 (iw_sub period true true ins)) as EB. rewrite H in EB at 1. rewrite map_app in EB. cbn [map] in EB. symmetry in EB.
  destruct (C175_initiator period _ _ _ _ _ HP EB HL) as [A _]. etransitivity; [|exact A]. apply iw_bytes_cmds.
  pose proof (iw_take_cmd period true true ins) as F. rewrite H in F. apply Forall_app in F. destruct F as [_ F]. inversion F as [|? ? _ F1]; subst. now inversion F1.
Qed.
Lemma writer_powerup period ins : 4 <= period ->
  let t := trace (i2c_writer period true true) ins in
  Forall clock_low (map wo_i2c t) -> (length (bytes_of t) <= 1)%nat.
Proof.
  intros HP t HL. destruct t as [|a [|b t2]] eqn:E; [cbn; lia| |].
  - unfold bytes_of. rewrite map_length. unfold accepted. cbn [map flat_map]. rewrite app_nil_r. unfold xfer. destruct (_ && _); cbn; lia.
  - pose proof (C175_writer period ins [] a b t2 HP E HL) as A. unfold t in E. destruct ins as [|[k p] [|[k' p'] ins]]; try discriminate.
    unfold trace in E. cbn [trace_from] in E. injection E as Ea Eb E2.
    unfold bytes_of in *. rewrite map_length in *. unfold accepted in *. cbn [map flat_map]. rewrite !app_length.
    assert (Ra : wo_ready a = false) by (rewrite <- Ea; reflexivity). assert (Rb : wo_ready b = false) by (rewrite <- Eb; reflexivity).
    unfold xfer at 1 2. cbn [wo_io o_sink o_sready]. rewrite Ra, Rb, !andb_false_r. cbn [length plus]. exact A.
Qed.

(** C175: with SCL held low from power-up an I2CRegisterInit never says that it is done. *)
Theorem C175_init : forall addr regs expose period ins,
  4 <= period -> regs <> [] ->
  let t := trace (reg_init addr regs expose period true true) ins in
  Forall clock_low (map wo_i2c (map ri_w t)) -> Forall (fun o => ri_done o = false) t.
Proof.
  intros addr regs expose period ins HP HR t HL. apply Forall_forall. intros o Ho. apply in_split in Ho. destruct Ho as (t1 & t2 & H).
  destruct (ri_done o) eqn:D; [exfalso|reflexivity]. apply (C77_done addr regs expose period true true ins t1 o t2 HR H) in D.
  unfold t in *. rewrite H in HL. do 2 rewrite map_app in HL. apply Forall_app in HL. destruct HL as [HL _].
  apply trace_one in H. destruct H as (x & i & y & _ & <- & _).
  pose proof (ri_w_trace addr regs expose period true true x) as EW. cbv zeta in EW. rewrite EW in HL, D.
  pose proof (writer_powerup period _ HP HL) as L.
  assert (3 <= length (init_bytes addr regs))%nat; [|lia]. clear - HR. destruct regs as [|[r v] l]; [contradiction|]. cbn. lia.
Qed.

(** ** Programs on the PC. *)
Lemma bridge_silent period ins : 4 <= period ->
  let t := trace (i2c_bridge period true true) ins in
  bytes_in t -> Forall clock_low (map so_i2c (i2c_of t)) -> emitted (map uart t) = [].
Proof.
  intros HP t HB HT. pose proof (proj1 (C122_core period true true ins)) as E. cbv zeta in E. fold t in E. unfold i2c_of in HT.
  rewrite E in HT. pose proof (C175_core_never period _ HP HT) as HC. rewrite <- E in HC.
  set (c := i2c_bridge period true true) in *. set (i := BrIn false 0 false (true, true)).
  assert (H : trace c (ins ++ [i]) = t ++ cout c (state c ins) i :: []) by (now rewrite trace_app).
  destruct (C122_carried period true true _ t _ _ H) as (going & coming & _ & _ & _ & EM & _).
  { apply Forall_app. split; [exact HB|]. constructor; [|constructor]. cbn. lia. }
  rewrite HC in EM. symmetry in EM. apply app_eq_nil in EM. tauto.
Qed.
Lemma link_silent period ins : 4 <= period ->
  let t := trace (i2c_link period true true) ins in
  link_bytes t -> Forall clock_low (map so_i2c (link_i2c t)) -> emitted (map lo_link t) = [].
Proof.
  intros HP t HB HT. pose proof (proj1 (C151_core period true true ins)) as E. cbv zeta in E. fold t in E. unfold link_i2c in HT.
  rewrite E in HT. pose proof (C175_core_never period _ HP HT) as HC. rewrite <- E in HC.
  set (c := i2c_link period true true) in *. set (i := LkIn (Chan false (Beat false false 0)) false (true, true)).
  assert (H : trace c (ins ++ [i]) = t ++ cout c (state c ins) i :: []) by (now rewrite trace_app).
  destruct (C151_carried period true true _ t _ _ H) as (going & coming & _ & _ & _ & EM & _).
  { apply Forall_app. split; [exact HB|]. constructor; [|constructor]. cbn. lia. }
  rewrite HC in EM. symmetry in EM. apply app_eq_nil in EM. tauto.
Qed.

(** C175: with SCL held low from power-up the first call a program makes never returns, over the
    UART or over USB, whatever reaches the bridge. *)
Theorem C175_uart : forall width period call rest ins,
  4 <= period ->
  let t := trace (i2c_bridge period true true) ins in
  bytes_in t -> Forall clock_low (map so_i2c (i2c_of t)) ->
  let got := map bdata (emitted (map uart t)) in
  history width (Do call rest) got = [] /\ ended width (Do call rest) got = false.
Proof.
  intros width period call rest ins HP t HB HT got. unfold got, t. rewrite (bridge_silent period ins HP HB HT). cbn [map history ended].
  assert (E : snd (call_so_far width call []) = None); [|now rewrite E].
  destruct call as [a g d|a g n|a]; cbn [call_so_far snd]; unfold write_block_data, read_block_data; cbn [discover_loop]; unfold request;
    destruct (bytearray _); reflexivity.
Qed.
Theorem C175_usb : forall width period call rest ins,
  4 <= period ->
  let t := trace (i2c_link period true true) ins in
  link_bytes t -> Forall clock_low (map so_i2c (link_i2c t)) ->
  let got := packets (emitted (map lo_link t)) in
  usb_history width (Do call rest) got = [] /\ usb_ended width (Do call rest) got = false /\
  u_result (usb_discover_queue got) = inr Waiting.
Proof.
  intros width period call rest ins HP t HB HT got. unfold got, t. rewrite (link_silent period ins HP HB HT). cbn [packets packets_from usb_history usb_ended].
  assert (E : snd (usb_so_far width call []) = None).
  { destruct call as [a g d|a g n|a]; cbn [usb_so_far snd]; unfold usb_write_block_data, usb_read_block_data, usb_probe, usb_request;
      destruct (bytearray _); reflexivity. }
  change (packets []) with (@nil (list Z)). rewrite E. split; [reflexivity|]. split; [reflexivity|]. vm_compute. reflexivity.
Qed.

(** ** SCL held low from any moment on: the calls that still return. *)
Lemma request_uses buf input ok : c_result (request buf input) = inl ok ->
  exists s, input = s :: c_left (request buf input) /\ forall more, c_result (request buf (s :: more)) = inl ok /\ c_left (request buf (s :: more)) = more.
Proof. unfold request. destruct (bytearray buf) as [b|]; [|discriminate]. destruct input as [|s l]; [discriminate|]. cbn. intros E. injection E as <-. exists s. auto. Qed.
(** A call that returns has used some bytes, and the bytes behind them do not matter to it. *)
Lemma call_uses width call input r rest : snd (call_so_far width call input) = Some (r, rest) ->
  exists used, input = used ++ rest /\ used <> [] /\ forall more, snd (call_so_far width call (used ++ more)) = Some (r, more).
Proof.
  intros E. destruct call as [a g d|a g n|a]; cbn [call_so_far snd] in E |- *.
  - unfold write_block_data in *. cbn [c_result c_left] in *. set (buf := _ :: _ :: _) in *. destruct (c_result (request buf input)) as [ok|] eqn:R; [|discriminate].
    destruct (request_uses buf input ok R) as (s & E1 & E2). exists [s]. destruct ok; injection E as <- <-; split; [exact E1| |exact E1|]; (split; [discriminate|]); intros more; cbn [app]; destruct (E2 more) as [-> ->]; reflexivity.
  - unfold read_block_data in *. set (buf := _ :: _ :: _) in *. destruct (c_result (request buf input)) as [ok|] eqn:R; [|discriminate].
    destruct (request_uses buf input ok R) as (s & E1 & E2). destruct ok.
    + set (buf2 := [_; _]) in *. destruct (c_result (request buf2 (c_left (request buf input)))) as [ok2|] eqn:R2; [|discriminate].
      destruct (request_uses buf2 _ ok2 R2) as (s2 & E3 & E4). destruct ok2.
      * cbn [c_result c_left] in E. set (l := c_left (request buf2 _)) in *. destruct (Z.of_nat (length (firstn (Z.to_nat n) l)) =? n) eqn:N; [|discriminate]. injection E as <- <-.
        exists (s :: s2 :: firstn (Z.to_nat n) l). split; [cbn [app]; rewrite firstn_skipn, <- E3; exact E1|]. split; [discriminate|]. intros more. cbn [app].
        destruct (E2 (s2 :: firstn (Z.to_nat n) l ++ more)) as [-> ->]. destruct (E4 (firstn (Z.to_nat n) l ++ more)) as [-> ->]. cbn [c_result c_left].
        apply Z.eqb_eq in N. assert (L : length (firstn (Z.to_nat n) l) = Z.to_nat n) by lia.
        assert (F : firstn (Z.to_nat n) (firstn (Z.to_nat n) l ++ more) = firstn (Z.to_nat n) l).
        { rewrite firstn_app, L, Nat.sub_diag, firstn_O, app_nil_r. apply firstn_all2. lia. }
        rewrite F. rewrite (proj2 (Z.eqb_eq _ _)) by lia. do 3 f_equal. rewrite skipn_app, L, Nat.sub_diag. cbn [skipn]. now rewrite skipn_all2 by lia.
      * cbn [c_result c_left] in E. injection E as <- <-. exists [s; s2]. split; [cbn [app]; rewrite <- E3; exact E1|]. split; [discriminate|]. intros more. cbn [app].
        destruct (E2 (s2 :: more)) as [-> ->]. destruct (E4 more) as [-> ->]. reflexivity.
    + cbn [c_result c_left] in E. injection E as <- <-. exists [s]. split; [exact E1|]. split; [discriminate|]. intros more. cbn [app]. destruct (E2 more) as [-> ->]. reflexivity.
  - cbn [discover_loop] in *. set (buf := [_; _]) in *. destruct (c_result (request buf input)) as [ok|] eqn:R; [|discriminate].
    destruct (request_uses buf input ok R) as (s & E1 & E2). exists [s]. cbn [c_result c_left] in *. injection E as <- <-. split; [exact E1|]. split; [discriminate|]. intros more. cbn [app]. destruct (E2 more) as [-> ->]. reflexivity.
Qed.
Lemma history_bytes width p : forall input, (length (history width p input) <= length input)%nat.
Proof.
  induction p as [|call k IH]; intros input; cbn [history]; [cbn; lia|]. destruct (snd (call_so_far width call input)) as [[r rest]|] eqn:E; [|cbn; lia].
  destruct (call_uses width call input r rest E) as (used & -> & N & _). specialize (IH r rest). rewrite app_length. cbn [length]. destruct used; [congruence|]. cbn [length]. lia.
Qed.
Lemma history_more width p : forall input more, (length (history width p (input ++ more)) <= length (history width p input) + length more)%nat.
Proof.
  induction p as [|call k IH]; intros input more; cbn [history]; [cbn; lia|]. destruct (snd (call_so_far width call (input ++ more))) as [[r rest]|] eqn:E; [|cbn; lia].
  destruct (call_uses width call _ r rest E) as (used & E1 & N & U). destruct (Nat.le_gt_cases (length used) (length input)) as [L|L].
  - assert (F : input = used ++ skipn (length used) input).
    { rewrite <- (firstn_skipn (length used) input) at 1. f_equal. apply (f_equal (firstn (length used))) in E1. rewrite firstn_app, firstn_app in E1.
      replace (length used - length input)%nat with 0%nat in E1 by lia. rewrite Nat.sub_diag, !firstn_O, !app_nil_r, firstn_all in E1. exact E1. }
    pose proof (U (skipn (length used) input)) as V. rewrite <- F in V. rewrite V. cbn [length].
    assert (G : rest = skipn (length used) input ++ more).
    { rewrite F, <- app_assoc in E1. now apply app_inv_head in E1. }
    rewrite G. specialize (IH r (skipn (length used) input) more). lia.
  - pose proof (history_bytes width (k r) rest) as B. apply (f_equal (@length _)) in E1. rewrite !app_length in E1. cbn [length]. lia.
Qed.

(** C175: whenever SCL goes low for good, a program over the UART gets at most 33 more bytes (32
    may be waiting in the transmit FIFO) and at most 33 more of its calls return. *)
Theorem C175_uart_soon : forall period ins t1 a b t2,
  4 <= period -> trace (i2c_bridge period true true) ins = t1 ++ a :: b :: t2 ->
  bytes_in (t1 ++ a :: b :: t2) -> Forall clock_low (map so_i2c (i2c_of (a :: b :: t2))) ->
  (length (emitted (map uart t2)) <= 33)%nat /\
  forall width p, let got t := map bdata (emitted (map uart t)) in
    (length (history width p (got (t1 ++ a :: b :: t2))) <= length (history width p (got (t1 ++ [a; b]))) + 33)%nat.
Proof.
  intros period ins t1 a b t2 HP H HB HL.
  assert (A : (length (emitted (map uart t2)) <= 33)%nat).
  { destruct t2 as [|o t3]; [cbn; lia|].
    pose proof (proj1 (C122_core period true true ins)) as E. cbv zeta in E. rewrite H in E at 1. do 1 rewrite map_app in E at 1. cbn [map] in E. symmetry in E.
    pose proof (C175_core period _ _ _ _ _ HP E HL) as HC.
    set (c := i2c_bridge period true true) in *. set (i := BrIn false 0 false (true, true)).
    assert (H1 : trace c ins = (t1 ++ [a; b]) ++ o :: t3) by (rewrite <- app_assoc; exact H).
    destruct (C122_carried period true true _ _ _ _ H1) as (g1 & c1 & _ & _ & _ & EM1 & L1 & _).
    { rewrite <- app_assoc. exact HB. }
    assert (H2 : trace c (ins ++ [i]) = (t1 ++ a :: b :: o :: t3) ++ cout c (state c ins) i :: []) by (rewrite trace_app, H; reflexivity).
    destruct (C122_carried period true true _ _ _ _ H2) as (g2 & c2 & _ & _ & _ & EM2 & _).
    { apply Forall_app. split; [exact HB|]. constructor; [|constructor]. cbn. lia. }
    change (t1 ++ a :: b :: o :: t3) with (t1 ++ [a; b] ++ (o :: t3)) in EM2. set (q := [a; b]) in *. set (v := o :: t3) in *.
    apply (f_equal (@length _)) in EM1, EM2. rewrite ?map_app, ?emitted_app, ?app_length in EM1. rewrite ?map_app, ?emitted_app, ?app_length in EM2.
    change (map po_io (bo_pr o :: map bo_pr t3)) with (map po_io (map bo_pr v)) in HC. lia. }
  split; [exact A|]. intros width p got. unfold got. change (t1 ++ a :: b :: t2) with (t1 ++ [a; b] ++ t2). rewrite app_assoc, (map_app uart (t1 ++ [a; b]) t2), emitted_app, map_app.
  pose proof (history_more width p (map bdata (emitted (map uart (t1 ++ [a; b])))) (map bdata (emitted (map uart t2)))) as B. rewrite (map_length bdata (emitted (map uart t2))) in B. lia.
Qed.

(** The same over USB: a call that returns has used some packets. *)
Lemma usb_request_uses buf pk ok : u_result (usb_request buf pk) = inl ok ->
  exists s, pk = s :: u_left (usb_request buf pk) /\ forall more, u_result (usb_request buf (s :: more)) = inl ok /\ u_left (usb_request buf (s :: more)) = more.
Proof.
  unfold usb_request, recv. destruct (bytearray buf) as [b|]; [|discriminate]. destruct pk as [|s l]; [discriminate|]. change (Z.to_nat 1) with 1%nat.
  destruct s as [|x y]; cbn [firstn]; [discriminate|]. intros E. exists (x :: y). split; [reflexivity|]. intros more. cbn [firstn]. split; [exact E|reflexivity].
Qed.
Lemma usb_uses width call input r rest : snd (usb_so_far width call input) = Some (r, rest) ->
  exists used, input = used ++ rest /\ used <> [] /\ forall more, snd (usb_so_far width call (used ++ more)) = Some (r, more).
Proof.
  intros E. destruct call as [a g d|a g n|a]; cbn [usb_so_far snd] in E |- *.
  - unfold usb_write_block_data in *. cbn [u_result u_left] in *. set (buf := _ :: _ :: _) in *. destruct (u_result (usb_request buf input)) as [ok|] eqn:R; [|discriminate].
    destruct (usb_request_uses buf input ok R) as (s & E1 & E2). exists [s]. destruct ok; injection E as <- <-; split; [exact E1| |exact E1|]; (split; [discriminate|]); intros more; cbn [app]; destruct (E2 more) as [-> ->]; reflexivity.
  - unfold usb_read_block_data in *. set (buf := _ :: _ :: _) in *. destruct (u_result (usb_request buf input)) as [ok|] eqn:R; [|discriminate].
    destruct (usb_request_uses buf input ok R) as (s & E1 & E2). destruct ok.
    + set (buf2 := [_; _]) in *. destruct (u_result (usb_request buf2 (u_left (usb_request buf input)))) as [ok2|] eqn:R2; [|discriminate].
      destruct (usb_request_uses buf2 _ ok2 R2) as (s2 & E3 & E4). destruct ok2.
      * unfold recv in *. destruct (u_left (usb_request buf2 _)) as [|q l] eqn:Q; [discriminate|]. cbn [u_result u_left] in E. injection E as <- <-.
        exists [s; s2; q]. split; [cbn [app]; rewrite <- E3; exact E1|]. split; [discriminate|]. intros more. cbn [app].
        destruct (E2 (s2 :: q :: more)) as [-> ->]. destruct (E4 (q :: more)) as [-> ->]. reflexivity.
      * cbn [u_result u_left] in E. injection E as <- <-. exists [s; s2]. split; [cbn [app]; rewrite <- E3; exact E1|]. split; [discriminate|]. intros more. cbn [app].
        destruct (E2 (s2 :: more)) as [-> ->]. destruct (E4 more) as [-> ->]. reflexivity.
    + cbn [u_result u_left] in E. injection E as <- <-. exists [s]. split; [exact E1|]. split; [discriminate|]. intros more. cbn [app]. destruct (E2 more) as [-> ->]. reflexivity.
  - unfold usb_probe in *. set (buf := [_; _]) in *. destruct (u_result (usb_request buf input)) as [ok|] eqn:R; [|discriminate].
    destruct (usb_request_uses buf input ok R) as (s & E1 & E2). exists [s]. cbn [u_result u_left] in *. injection E as <- <-. split; [exact E1|]. split; [discriminate|]. intros more. cbn [app]. destruct (E2 more) as [-> ->]. reflexivity.
Qed.
Lemma usb_history_packets width p : forall input, (length (usb_history width p input) <= length input)%nat.
Proof.
  induction p as [|call k IH]; intros input; cbn [usb_history]; [cbn; lia|]. destruct (snd (usb_so_far width call input)) as [[r rest]|] eqn:E; [|cbn; lia].
  destruct (usb_uses width call input r rest E) as (used & -> & N & _). specialize (IH r rest). rewrite app_length. cbn [length]. destruct used; [congruence|]. cbn [length]. lia.
Qed.
Lemma usb_history_more width p : forall input more, (length (usb_history width p (input ++ more)) <= length (usb_history width p input) + length more)%nat.
Proof.
  induction p as [|call k IH]; intros input more; cbn [usb_history]; [cbn; lia|]. destruct (snd (usb_so_far width call (input ++ more))) as [[r rest]|] eqn:E; [|cbn; lia].
  destruct (usb_uses width call _ r rest E) as (used & E1 & N & U). destruct (Nat.le_gt_cases (length used) (length input)) as [L|L].
  - assert (F : input = used ++ skipn (length used) input).
    { rewrite <- (firstn_skipn (length used) input) at 1. f_equal. apply (f_equal (firstn (length used))) in E1. rewrite firstn_app, firstn_app in E1.
      replace (length used - length input)%nat with 0%nat in E1 by lia. rewrite Nat.sub_diag, !firstn_O, !app_nil_r, firstn_all in E1. exact E1. }
    pose proof (U (skipn (length used) input)) as V. rewrite <- F in V. rewrite V. cbn [length].
    assert (G : rest = skipn (length used) input ++ more).
    { rewrite F, <- app_assoc in E1. now apply app_inv_head in E1. }
    rewrite G. specialize (IH r (skipn (length used) input) more). lia.
  - pose proof (usb_history_packets width (k r) rest) as B. apply (f_equal (@length _)) in E1. rewrite !app_length in E1. cbn [length]. lia.
Qed.
Lemma packets_more x y : exists more, packets (x ++ y) = packets x ++ more /\ (length more <= length y)%nat.
Proof.
  unfold packets. generalize (@nil Z). induction x as [|b x IH]; intros open.
  - exists (packets_from open y). split; [reflexivity|]. revert open. induction y as [|b y IH]; intros open; cbn [packets_from]; [auto|]. destruct (blast b); cbn [length]; [specialize (IH [])|specialize (IH (open ++ [bdata b]))]; lia.
  - cbn [app packets_from]. destruct (blast b); [|apply IH]. destruct (IH []) as (m & -> & L). exists m. auto.
Qed.

Theorem C175_usb_soon : forall period ins t1 a b t2,
  4 <= period -> trace (i2c_link period true true) ins = t1 ++ a :: b :: t2 ->
  link_bytes (t1 ++ a :: b :: t2) -> Forall clock_low (map so_i2c (link_i2c (a :: b :: t2))) ->
  (length (emitted (map lo_link t2)) <= 33)%nat /\
  forall width p, let got t := packets (emitted (map lo_link t)) in
    (length (usb_history width p (got (t1 ++ a :: b :: t2))) <= length (usb_history width p (got (t1 ++ [a; b]))) + 33)%nat.
Proof.
  intros period ins t1 a b t2 HP H HB HL.
  assert (A : (length (emitted (map lo_link t2)) <= 33)%nat).
  { destruct t2 as [|o t3]; [cbn; lia|].
    pose proof (proj1 (C151_core period true true ins)) as E. cbv zeta in E. rewrite H in E at 1. do 1 rewrite map_app in E at 1. cbn [map] in E. symmetry in E.
    pose proof (C175_core period _ _ _ _ _ HP E HL) as HC.
    set (c := i2c_link period true true) in *. set (i := LkIn (Chan false (Beat false false 0)) false (true, true)).
    assert (H1 : trace c ins = (t1 ++ [a; b]) ++ o :: t3) by (rewrite <- app_assoc; exact H).
    destruct (C151_carried period true true _ _ _ _ H1) as (g1 & c1 & _ & _ & _ & EM1 & L1 & _).
    { rewrite <- app_assoc. exact HB. }
    assert (H2 : trace c (ins ++ [i]) = (t1 ++ a :: b :: o :: t3) ++ cout c (state c ins) i :: []) by (rewrite trace_app, H; reflexivity).
    destruct (C151_carried period true true _ _ _ _ H2) as (g2 & c2 & _ & _ & _ & EM2 & _).
    { apply Forall_app. split; [exact HB|]. constructor; [|constructor]. cbn. lia. }
    change (t1 ++ a :: b :: o :: t3) with (t1 ++ [a; b] ++ (o :: t3)) in EM2. set (q := [a; b]) in *. set (v := o :: t3) in *.
    apply (f_equal (@length _)) in EM1, EM2. rewrite ?map_app, ?emitted_app, ?app_length in EM1. rewrite ?map_app, ?emitted_app, ?app_length in EM2.
    change (map po_io (lo_pr o :: map lo_pr t3)) with (map po_io (map lo_pr v)) in HC. lia. }
  split; [exact A|]. intros width p got. unfold got. change (t1 ++ a :: b :: t2) with (t1 ++ [a; b] ++ t2). rewrite app_assoc, (map_app lo_link (t1 ++ [a; b]) t2), emitted_app.
  destruct (packets_more (emitted (map lo_link (t1 ++ [a; b]))) (emitted (map lo_link t2))) as (more & -> & L).
  pose proof (usb_history_more width p (packets (emitted (map lo_link (t1 ++ [a; b])))) more) as B. lia.
Qed.

(** Runs: SCL is pulled low in the middle of a write, then for ever. *)
Definition clock_lowb (o : i2c_obs) : bool := negb (ii_scl_pad (io_in o)).
Lemma clock_lowb_ok l : forallb clock_lowb l = true -> Forall clock_low l.
Proof. intros H. apply Forall_forall. intros o Ho. rewrite forallb_forall in H. apply H in Ho. now apply negb_true_iff. Qed.
Definition hold_pr : list (chan Z * bool * pads) :=
  let c := i2c_proto 4 true true in
  let b x := (Chan true (Beat false false x), true, (false, true)) in
  fed c (fun s '(k, r, p) => (k, r, (false, snd p && d_scl (s_d (is_i (p_i s)))))) (creset c)
    ([b 0x21; b 3] ++ repeat (Chan false (Beat false false 0), false, (false, true)) 200 ++
     repeat (Chan false (Beat false false 0), false, (false, false)) 2 ++ repeat (Chan true (Beat false false 5), true, (false, false)) 300).
Example C175_nonvacuous :
  let t := trace (i2c_proto 4 true true) hold_pr in
  Forall clock_low (map so_i2c (map po_i2c (skipn 202 t))) /\
  length (emitted (map po_io (skipn 204 t))) = 1%nat /\ commands (map so_i2c (map po_i2c t)) = [CStart; CWrite 0x21; CRead true] /\
  forallb (fun o => io_busy (so_i2c (po_i2c o))) (skipn 230 t) = true.
Proof.
  cbv zeta. split; [apply clock_lowb_ok; vm_compute; reflexivity|]. split; [vm_compute; reflexivity|]. split; vm_compute; reflexivity.
Qed.
Definition hold_uart := let c := i2c_bridge 4 true true in
  fed c (fun s i => BrIn (bi_rx_rdy i) (bi_rx_data i) (bi_tx_rdy i) (d_sda (s_d (is_i (p_i (b_pr s)))), false)) (creset c) in_bridge.
Example C175_nonvacuous_uart :
  let t := trace (i2c_bridge 4 true true) hold_uart in
  bytes_in t /\ Forall clock_low (map so_i2c (i2c_of t)) /\ commands (map so_i2c (i2c_of t)) = [CStart].
Proof.
  cbv zeta. split; [apply bytes_inb_ok; vm_compute; reflexivity|]. split; [apply clock_lowb_ok; vm_compute; reflexivity|]. vm_compute. reflexivity.
Qed.
(** SCL goes low for good after the answers to two requests. *)
Definition hold_later := let c := i2c_bridge 4 true true in
  let hold x i := BrIn (bi_rx_rdy i) (bi_rx_data i) (bi_tx_rdy i) (true, x) in
  fed c (fun s i => BrIn (bi_rx_rdy i) (bi_rx_data i) (bi_tx_rdy i) (d_sda (s_d (is_i (p_i (b_pr s)))), snd (bi_pads i) && d_scl (s_d (is_i (p_i (b_pr s)))))) (creset c)
    (map (hold true) (firstn 200 in_bridge ++ repeat rx0 200) ++ map (hold false) (skipn 200 in_bridge)).
Example C175_nonvacuous_later :
  let t := trace (i2c_bridge 4 true true) hold_later in
  bytes_in t /\ Forall clock_low (map so_i2c (i2c_of (skipn 400 t))) /\
  history 8 probing (map bdata (emitted (map uart t))) = [(WriteBlock 0x10 0x30 [1], Written None); (ReadBlock 0x11 7 3, Block None)] /\
  commands (map so_i2c (i2c_of t)) = [CStart; CWrite 0x20; CStop; CStart; CWrite 0x22; CStop; CStart].
Proof.
  cbv zeta. split; [apply bytes_inb_ok; vm_compute; reflexivity|]. split; [apply clock_lowb_ok; vm_compute; reflexivity|]. split; vm_compute; reflexivity.
Qed.
(** Without clock stretching the core takes no notice of SCL: the same requests are answered. *)
Definition hold_uart_fast := let c := i2c_bridge 4 false true in
  fed c (fun s i => BrIn (bi_rx_rdy i) (bi_rx_data i) (bi_tx_rdy i) (d_sda (s_d (is_i (p_i (b_pr s)))), false)) (creset c) in_bridge.
Example C175_nonvacuous_fast :
  let t := trace (i2c_bridge 4 false true) hold_uart_fast in
  Forall clock_low (map so_i2c (i2c_of t)) /\ map bdata (emitted (map uart t)) = [1; 1; 1].
Proof. cbv zeta. split; [apply clock_lowb_ok; vm_compute; reflexivity|]. vm_compute. reflexivity. Qed.

Print Assumptions C175_initiator.
Print Assumptions C175_core.
Print Assumptions C175_core_never.
Print Assumptions C175_writer.
Print Assumptions C175_init.
Print Assumptions C175_uart.
Print Assumptions C175_usb.
Print Assumptions C175_uart_soon.
Print Assumptions C175_usb_soon.
