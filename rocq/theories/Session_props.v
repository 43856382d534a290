(** C148: a program on the PC that uses I2CBus over the UART bridge. *)
From Verif Require Import Stream Bits I2c_model I2cstream_model I2cstream_spec I2cproto_model I2cproto_spec I2cbus_model I2cbus_props
  Serial_model Bridge_model Bridge_spec Bridge_proofs Bridge_props Session_spec Session_proofs.
From Coq Require Import Lia.

(** ** From cycles to events. *)
Definition ev_of (o : obs Z Z) : list ev :=
  match xfer (o_sink o) (o_sready o), xfer (o_src o) (o_rready o) with
  | [b], [] => [Sent (bdata b)] | [], [a] => [Got a] | _, _ => [] end.
Lemma step_lost st o : fst st = HLost -> fst (host_step st o) = HLost.
Proof. destruct st as [h g]. cbn. intros ->. unfold host_step. destruct (xfer (o_sink o) (o_sready o)) as [|b [|? ?]], (xfer (o_src o) (o_rready o)) as [|a [|? ?]]; reflexivity. Qed.
Lemma steps_lost l : forall st, fst st = HLost -> fst (fold_left host_step l st) = HLost.
Proof. induction l as [|o l IH]; intros st H; cbn; auto. apply IH, step_lost, H. Qed.
Lemma view_evs l : fst (host_view l) <> HLost ->
  host_view l = evs_view (flat_map ev_of l) (HIdle, []) /\ sent_of (flat_map ev_of l) = map bdata (accepted l) /\ got_of (flat_map ev_of l) = emitted l.
Proof.
  induction l as [|o l IH] using rev_ind; [cbn; auto|]. unfold host_view. rewrite fold_left_app. fold (host_view l). cbn [fold_left]. intros H.
  assert (H0 : fst (host_view l) <> HLost) by (intros E; apply H, step_lost, E). destruct (IH H0) as (E1 & E2 & E3).
  unfold accepted, emitted in *. rewrite !flat_map_app, !map_app, sent_app, got_app, E2, E3, view_app, <- E1. cbn [flat_map]. rewrite !app_nil_r.
  unfold host_step, ev_of in *. destruct (xfer (o_sink o) (o_sready o)) as [|b [|? ?]], (xfer (o_src o) (o_rready o)) as [|a [|? ?]]; cbn in *; auto; congruence.
Qed.
Lemma prefix_live l1 l2 : fst (host_view (l1 ++ l2)) <> HLost -> fst (host_view l1) <> HLost.
Proof. unfold host_view. rewrite fold_left_app. intros H E. apply H, steps_lost, E. Qed.
Lemma flat_split {A B} (f : A -> list B) l : (forall a, (length (f a) <= 1)%nat) -> forall e1 x e2, flat_map f l = e1 ++ x :: e2 ->
  exists l1 a l2, l = l1 ++ a :: l2 /\ flat_map f l1 = e1 /\ f a = [x].
Proof.
  intros HF. induction l as [|a l IH]; intros e1 x e2 E; [destruct e1; discriminate|]. cbn in E. pose proof (HF a) as La.
  destruct (f a) as [|y [|? ?]] eqn:F; [| |cbn in La; lia].
  - destruct (IH _ _ _ E) as (l1 & b & l2 & -> & K2 & K3). exists (a :: l1), b, l2. cbn. rewrite F. auto.
  - destruct e1 as [|z e1]; cbn in E; injection E as -> E.
    + exists [], a, l. auto.
    + destruct (IH _ _ _ E) as (l1 & b & l2 & -> & K2 & K3). exists (a :: l1), b, l2. cbn. rewrite F, K2. auto.
Qed.
Lemma ev_len o : (length (ev_of o) <= 1)%nat.
Proof. unfold ev_of. destruct (xfer (o_sink o) (o_sready o)) as [|b [|? ?]], (xfer (o_src o) (o_rready o)) as [|a [|? ?]]; cbn; lia. Qed.

(** ** The program's bytes come when the bridge expects them. *)
Lemma driven_causal width p t : driven_by width p t -> fst (uart_view t) <> HLost -> causal width p (flat_map ev_of (map uart t)).
Proof.
  intros HD HL e1 b e2 E. destruct (flat_split ev_of (map uart t) ev_len e1 _ e2 E) as (l1 & o' & l2 & K1 & K2 & K3).
  apply map_eq_app in K1. destruct K1 as (t1 & t2 & -> & <- & K1). apply map_eq_cons in K1. destruct K1 as (o & t3 & -> & <- & <-).
  unfold ev_of in K3. destruct (xfer (o_sink (uart o)) (o_sready (uart o))) as [|x [|? ?]] eqn:X, (xfer (o_src (uart o)) (o_rready (uart o))) as [|y [|? ?]]; try discriminate. injection K3 as <-.
  unfold xfer in X. unfold uart in X at 1 2. cbn [o_sink o_sready cvalid cbeat] in X. destruct (uo_rx_rdy (bo_us o) && uo_rx_ack (bo_us o)) eqn:A; [|discriminate]. injection X as <-.
  destruct (HD t1 o t3 eq_refl A) as (later & L). exists later.
  unfold uart_view in HL. rewrite map_app in HL. pose proof (prefix_live _ _ HL) as H1. destruct (view_evs _ H1) as (_ & S1 & G1).
  rewrite <- K2, S1, G1. exact L.
Qed.
Lemma driven_prefix width p t u : driven_by width p (t ++ u) -> driven_by width p t.
Proof. intros H t1 o t2 -> A. apply (H t1 o (t2 ++ u)); [now rewrite <- app_assoc|exact A]. Qed.

Lemma driven_good width p period stretch oe : 0 <= width -> 1 <= period -> program_ok width p -> forall ins,
  let t := trace (i2c_bridge period stretch oe) ins in let limit := 36 * (period / 4 + 1) - 1 in
  bytes_in t -> in_time limit t -> driven_by width p t -> good_user limit t.
Proof.
  intros HW HP HO ins. cbv zeta. induction ins as [|i ins IH] using rev_ind; [intros _ _ _ t1 o t2 E; destruct t1; discriminate|].
  rewrite trace_app. cbn [trace_from]. set (t := trace _ ins) in *. set (o := cout _ _ _). intros HB HT HD.
  assert (G : good_user (36 * (period / 4 + 1) - 1) t).
  { apply IH; [apply Forall_app in HB; tauto|intros u1 u2 E; apply (HT u1 (u2 ++ [o])); now rewrite E, app_assoc|exact (driven_prefix _ _ _ _ HD)]. }
  pose proof (C122_bridge_partial period stretch oe ins HP) as K. cbv zeta in K. fold t in K. specialize (K G).
  intros t1 q t2 E. assert (C : t2 = [] /\ t1 = t /\ q = o \/ exists t3, t = t1 ++ q :: t3).
  { destruct (list_case t2) as [->|(t3 & x & ->)]; [left|right].
    - apply app_inj_tail in E. destruct E as [<- <-]. auto.
    - exists t3. apply app_inj_tail with (a := o) (b := x). now rewrite E, <- app_assoc. }
  destruct C as [(-> & -> & ->)|(t3 & E3)]; [|exact (G t1 q t3 E3)].
  split; [apply Forall_app in HB; destruct HB as [_ HB]; inversion HB; auto|]. split; [|apply (HT t [o]); reflexivity].
  intros A. assert (HL : fst (uart_view t) <> HLost) by (destruct (uart_view t); exact (proj1 K)).
  destruct (view_evs (map uart t) HL) as (E1 & E2 & E3).
  pose proof (driven_causal width p t (driven_prefix _ _ _ _ HD) HL) as HC.
  destruct (session_main width HW p (flat_map ev_of (map uart t)) [] HO HC) as (gs & cur & fut & _ & _ & W & T & _); [rewrite <- E1; exact HL|].
  rewrite <- E1 in T. rewrite E2, E3 in W. change (host_view (map uart t)) with (uart_view t) in T.
  destruct (HD t o [] eq_refl A) as (later & L). rewrite W in L. apply app_inv_head in L.
  unfold in_time_for in T. rewrite <- L in T. specialize (T ltac:(discriminate)). exact T.
Qed.

(** ** From exchanges to the bus. *)
Lemma told_explained width c r xs segs : told width c r xs -> Forall2 (fun e g => executed e (fst g) (snd g)) xs segs ->
  explained width c r (concat (map fst segs)) (concat (map snd segs)).
Proof.
  intros T F. destruct T as [a g d x|a x|a g n x X|a g n x y X Y|a g n x y l X Y].
  - inversion F as [|? s ? l' E F']; subst. inversion F'; subst. cbn. rewrite !app_nil_r. destruct s as [bs ds]. cbn in *. inversion E; subst; [constructor|]. cbn. eapply written_refused; eauto.
  - inversion F as [|? s ? l' E F']; subst. inversion F'; subst. cbn. rewrite !app_nil_r. destruct s as [bs ds]. cbn in *. inversion E as [| ? ? b good rest W| |]; subst; [constructor|].
    cbn in W. destruct good as [|z good]; [|destruct good; discriminate]. injection W as <- _. constructor.
  - inversion F as [|? s ? l' E F']; subst. inversion F'; subst. cbn. rewrite !app_nil_r. destruct s as [bs ds]. cbn in *. inversion E; subst; [cbn in X; congruence|]. eapply read_reg_refused; eauto.
  - inversion F as [|? s ? l' E F']; subst. inversion F' as [|? s2 ? l'' E2 F'']; subst. inversion F''; subst. cbn. rewrite !app_nil_r. destruct s as [bs ds], s2 as [b2 d2]. cbn in *.
    inversion E; subst; [|cbn in X; congruence]. inversion E2; subst; [cbn in Y; congruence|]. cbn. constructor.
  - inversion F as [|? s ? l' E F']; subst. inversion F' as [|? s2 ? l'' E2 F'']; subst. inversion F''; subst. cbn. rewrite !app_nil_r. destruct s as [bs ds], s2 as [b2 d2]. cbn in *.
    inversion E; subst; [|cbn in X; congruence]. inversion E2; subst; [|cbn in Y; congruence]. cbn. constructor. assumption.
Qed.
Lemma told_all width hist groups : Forall2 (fun h g => told width (fst h) (snd h) g) hist groups -> forall segs,
  Forall2 (fun e g => executed e (fst g) (snd g)) (concat groups) segs ->
  exists gs, Forall2 (fun h g => explained width (fst h) (snd h) (fst g) (snd g)) hist gs /\ concat (map fst gs) = concat (map fst segs) /\ concat (map snd gs) = concat (map snd segs).
Proof.
  induction 1 as [|h g hist groups H F IH]; intros segs E; [inversion E; subst; exists []; auto|].
  cbn in E. apply Forall2_app_inv_l in E. destruct E as (s1 & s2 & E1 & E2 & ->). destruct (IH _ E2) as (gs & G1 & G2 & G3).
  exists ((concat (map fst s1), concat (map snd s1)) :: gs). split; [constructor; auto; cbn; eapply told_explained; eauto|]. cbn. rewrite !map_app, !concat_app, G2, G3. auto.
Qed.

(** C148: whatever a program does with the bus and whatever the devices answer, each call that
    has returned has made exactly the transaction on the I2C bus that it should and returned
    what happened there, in order, and once the program has ended nothing else is on the bus. *)
Theorem C148_session_partial : forall width period stretch oe p ins,
  0 <= width -> 1 <= period -> program_ok width p ->
  let t := trace (i2c_bridge period stretch oe) ins in
  bytes_in t -> in_time (36 * (period / 4 + 1) - 1) t -> driven_by width p t ->
  let got := map bdata (emitted (map uart t)) in
  exists groups beats data,
    Forall2 (fun h g => explained width (fst h) (snd h) (fst g) (snd g)) (history width p got) groups /\
    served (i2c_of t) = concat (map fst groups) ++ beats /\
    emitted (map so_io (i2c_of t)) = concat (map snd groups) ++ data /\
    (ended width p got = true -> beats = [] /\ data = []).
Proof.
  intros width period stretch oe p ins HW HP HO t HB HT HD got.
  pose proof (driven_good width p period stretch oe HW HP HO ins HB HT HD) as G.
  pose proof (C122_bridge_partial period stretch oe ins HP) as K. cbv zeta in K. fold t in K, G. specialize (K G).
  assert (HL : fst (uart_view t) <> HLost) by (destruct (uart_view t); exact (proj1 K)).
  destruct (view_evs (map uart t) HL) as (E1 & E2 & E3). change (host_view (map uart t)) with (uart_view t) in E1.
  destruct (session_main width HW p (flat_map ev_of (map uart t)) [] HO (driven_causal width p t HD HL)) as (gs & cur & fut & L & F & _ & _ & N & _); [rewrite <- E1; exact HL|].
  rewrite <- E1 in L, N. rewrite E3 in F, N. fold got in F, N. destruct (uart_view t) as [hs log]. cbn [fst snd app] in *. subst log.
  destruct K as (_ & later & segs & beats & data & K1 & _ & K3 & K4 & K5). rewrite <- !app_assoc in K1. apply Forall2_app_inv_l in K1. destruct K1 as (s1 & s2 & K1 & K2 & ->).
  destruct (told_all _ _ _ F _ K1) as (gs' & G1 & G2 & G3). rewrite !map_app, !concat_app, <- !app_assoc in K3, K4.
  exists gs', (concat (map fst s2) ++ beats), (concat (map snd s2) ++ data). rewrite G2, G3. split; [exact G1|]. split; [exact K3|]. split; [exact K4|].
  intros HE. destruct (N HE) as [-> ->]. destruct (K5 eq_refl) as (-> & -> & ->). inversion K2; subst. auto.
Qed.

(** The calls that have returned are a beginning of the program's; [discover] is such a program. *)
Fixpoint discover_program (addrs : list Z) : program := match addrs with [] => Finished | a :: r => Do (Probe a) (fun _ => discover_program r) end.
Theorem C148_discover : forall width addrs acks, Forall (fun a => 0 <= a < 128) addrs -> length acks = length addrs ->
  let input := map (fun ok : bool => if ok then 0 else 1) acks in
  concat (c_written (discover_loop addrs input)) = written width (discover_program addrs) input /\
  history width (discover_program addrs) input = map (fun x => (Probe (fst x), Present (snd x))) (combine addrs acks) /\
  c_result (discover_loop addrs input) = inl (map fst (filter snd (combine addrs acks))) /\ ended width (discover_program addrs) input = true.
Proof.
  intros width addrs. induction addrs as [|a r IH]; intros acks HA HL; [destruct acks; [cbn; auto|discriminate]|].
  destruct acks as [|k acks]; [discriminate|]. injection HL as HL. inversion HA as [|? ? H1 H2]; subst. destruct (IH acks H2 HL) as (I1 & I2 & I3 & I4).
  cbv zeta. cbn [map]. cbn [discover_program written history ended]. rewrite so_far_probe by exact H1. cbn [fst snd]. rewrite I2, I4.
  cbn [discover_loop]. rewrite hdr_write, request_buf by (repeat constructor; unfold is_byte; lia). cbn [c_result c_left c_written]. rewrite I3. cbn [c_written c_result].
  rewrite concat_app, I1. cbn [combine map filter fst snd]. replace ((if k then 0 else 1) =? 0) with k by (destruct k; reflexivity). destruct k; auto.
Qed.

(** C148: write_byte_data and read_byte_data are such calls too: the bytes they write, the bytes
    they use and the moment they return are those of the block calls; what they return follows. *)
Theorem C148_byte_helpers : forall width a g x input, 0 <= width ->
  (call_ok width (WriteBlock a g [x]) ->
   let q := write_byte_data width a g x input in
   fst (call_so_far width (WriteBlock a g [x]) input) = concat (c_written q) /\
   match snd (call_so_far width (WriteBlock a g [x]) input) with
   | Some (Written _, rest) => c_result q = inl tt /\ c_left q = rest
   | Some _ => False
   | None => c_result q = inr IndexError
   end) /\
  (call_ok width (ReadBlock a g 1) ->
   let q := read_byte_data width a g input in
   fst (call_so_far width (ReadBlock a g 1) input) = concat (c_written q) /\
   match snd (call_so_far width (ReadBlock a g 1) input) with
   | Some (Block (Some l), rest) => (exists b, l = [b] /\ c_result q = inl b) /\ c_left q = rest
   | Some (Block None, rest) => c_result q = inr TypeError /\ c_left q = rest
   | Some _ => False
   | None => c_result q = inr IndexError
   end).
Proof.
  intros width a g x input HW. split.
  - intros (HA & HD & HF). destruct (wr_bytes width a g [x] HW HA HD HF) as [B L]. unfold call_so_far, write_byte_data, write_block_data.
    rewrite hdr_write, reg_array_big_endian, L. change (big_endian _ g) with (reg_bytes width g). fold (wr_buf width a g [x]). rewrite request_buf by exact B.
    destruct input as [|s r]; cbn [c_result c_written c_left fst snd]; [auto|]. destruct (s =? 0); auto.
  - intros (HA & HF & _). assert (HF0 : width / 8 + Z.of_nat (length (@nil Z)) < 256) by (cbn; lia).
    destruct (wr_bytes width a g [] HW HA (Forall_nil _) HF0) as [B L]. unfold call_so_far, read_byte_data, read_block_data.
    rewrite hdr_write, hdr_read, reg_array_big_endian. cbn [length] in L. rewrite app_nil_r, Z.add_0_r in L. unfold wr_buf in B. rewrite app_nil_r in B. change (big_endian _ g) with (reg_bytes width g).
    rewrite L, request_buf by exact B. destruct input as [|s r]; cbn [c_result c_written c_left fst snd]; [auto|].
    destruct (s =? 0); cbn [c_result c_written c_left fst snd]; [|auto].
    rewrite request_buf by (repeat constructor; unfold is_byte; lia). destruct r as [|s2 r]; cbn [c_result c_written c_left fst snd]; [auto|].
    destruct (s2 =? 0); cbn [c_result c_written c_left fst snd]; [|auto].
    change (Z.to_nat 1) with 1%nat. destruct r as [|b r]; cbn [firstn skipn length].
    + split; reflexivity.
    + split; [reflexivity|]. cbn. eauto.
Qed.

(** Checking runs. *)
Fixpoint prefixb (a b : list Z) : bool :=
  match a, b with [], _ => true | x :: a, y :: b => (x =? y) && prefixb a b | _, _ => false end.
Lemma prefixb_ok a : forall b, prefixb a b = true -> exists c, a ++ c = b.
Proof.
  induction a as [|x a IH]; intros b H; [exists b; reflexivity|]. destruct b as [|y b]; [discriminate|]. cbn in H. apply andb_true_iff in H. destruct H as [H1 H2].
  apply Z.eqb_eq in H1. destruct (IH b H2) as (c & <-). exists c. cbn. congruence.
Qed.
Fixpoint drivenb (width : Z) (p : program) (sent got : list Z) (t : list br_obs) : bool :=
  match t with
  | [] => true
  | o :: r => (negb (uo_rx_rdy (bo_us o) && uo_rx_ack (bo_us o)) || prefixb (sent ++ [uo_rx_data (bo_us o)]) (written width p got)) &&
      drivenb width p (sent ++ map bdata (accepted [uart o])) (got ++ map bdata (emitted [uart o])) r
  end.
Lemma drivenb_ok width p t : drivenb width p [] [] t = true -> driven_by width p t.
Proof.
  assert (G : forall t t0, drivenb width p (map bdata (accepted (map uart t0))) (map bdata (emitted (map uart t0))) t = true ->
    forall t1 o t2, t = t1 ++ o :: t2 -> uo_rx_rdy (bo_us o) && uo_rx_ack (bo_us o) = true ->
    exists later, map bdata (accepted (map uart (t0 ++ t1))) ++ uo_rx_data (bo_us o) :: later = written width p (map bdata (emitted (map uart (t0 ++ t1))))).
  2: { intros H t1 o t2 E A. exact (G t [] H t1 o t2 E A). }
  clear. induction t as [|o t IH]; intros t0 H t1 q t2 E A; [destruct t1; discriminate|]. cbn [drivenb] in H. apply andb_true_iff in H. destruct H as [H1 H2].
  destruct t1 as [|q1 t1]; cbn [app] in E; injection E as -> E.
  - rewrite app_nil_r. rewrite A in H1. cbn [negb orb] in H1. destruct (prefixb_ok _ _ H1) as (c & C). exists c. rewrite <- app_assoc in C. exact C.
  - replace (t0 ++ q1 :: t1) with ((t0 ++ [q1]) ++ t1) by (now rewrite <- app_assoc). apply IH with (t2 := t2); auto.
    unfold accepted, emitted in *. rewrite !map_app, !flat_map_app, !map_app. exact H2.
Qed.
Fixpoint in_timeb (limit : Z) (st : (host * list exchange) * Z) (t : list br_obs) : bool :=
  (snd st <=? limit) && match t with [] => true | o :: r => in_timeb limit (waited_step st o) r end.
Lemma in_timeb_ok limit t : in_timeb limit ((HIdle, []), 0) t = true -> in_time limit t.
Proof.
  intros H t1 t2 ->. unfold waited. revert H. generalize (((HIdle, []), 0) : (host * list exchange) * Z). induction t1 as [|o t1 IH]; intros st H.
  - destruct t2; cbn in H; apply andb_true_iff in H; cbn; lia.
  - cbn [app in_timeb] in H. apply andb_true_iff in H. cbn [fold_left]. apply IH. tauto.
Qed.
Lemma bytes_inb t : forallb (fun o => (0 <=? uo_rx_data (bo_us o)) && (uo_rx_data (bo_us o) <? 256)) t = true -> bytes_in t.
Proof. intros H. apply Forall_forall. intros o Ho. rewrite forallb_forall in H. specialize (H o Ho). lia. Qed.

(** A program that writes a register of a device, reads it back if that was accepted, and asks
    for another device; the one device leaves the bus before that. *)
Definition demo_program : program :=
  Do (WriteBlock 0x10 0x11 [0x22; 0x33]) (fun r => match r with
    | Written (Some _) => Do (ReadBlock 0x10 0x11 2) (fun _ => Do (Probe 0x55) (fun _ => Finished))
    | _ => Finished end).
Definition demo_ins : list br_in :=
  let c := i2c_bridge 4 false true in
  with_device c released (creset c)
    (at_rate 9 [0x20; 3; 0x11; 0x22; 0x33] ++ repeat rx0 320 ++ at_rate 9 [0x20; 1; 0x11] ++ repeat rx0 200 ++ at_rate 9 [0x21; 2] ++ repeat rx0 400) ++
  at_rate 9 [0xaa; 0] ++ repeat rx0 150.
Example C148_nonvacuous :
  let t := trace (i2c_bridge 4 false true) demo_ins in
  program_ok 8 demo_program /\ bytes_in t /\ in_time (36 * (4 / 4 + 1) - 1) t /\ driven_by 8 demo_program t /\
  history 8 demo_program (map bdata (emitted (map uart t))) =
    [(WriteBlock 0x10 0x11 [0x22; 0x33], Written (Some 2)); (ReadBlock 0x10 0x11 2, Block (Some [0xff; 0xff])); (Probe 0x55, Present false)] /\
  ended 8 demo_program (map bdata (emitted (map uart t))) = true /\
  commands (map so_i2c (i2c_of t)) =
    [CStart; CWrite 0x20; CWrite 0x11; CWrite 0x22; CWrite 0x33; CStop;
     CStart; CWrite 0x20; CWrite 0x11; CStop; CStart; CWrite 0x21; CRead true; CRead false; CStop; CStart; CWrite 0xaa; CStop].
Proof.
  cbv zeta. split; [repeat (split || constructor || intros [[]|[]|[]]); unfold is_byte; try (cbn; lia); try exact I|].
  split; [apply bytes_inb; vm_compute; reflexivity|]. split; [apply in_timeb_ok; vm_compute; reflexivity|]. split; [apply drivenb_ok; vm_compute; reflexivity|]. vm_compute. auto.
Qed.

(** Without the limit it is false, at the rates of the example (100 MHz, 3 Mbaud, I2C at
    400 kHz): a program that writes ten bytes to a device that is absent makes two more
    transactions, addressed to a device it never mentioned. *)
Definition lost_write : program := Do (WriteBlock 0x10 0x0030 [0; 0x30; 0; 0x30; 0; 0x30; 0; 0x30; 0; 0x30]) (fun _ => Finished).
Theorem C148_session_refuted :
  exists ins, let t := trace (i2c_bridge 250 false true) ins in
    program_ok 16 lost_write /\ bytes_in t /\ driven_by 16 lost_write t /\
    history 16 lost_write (map bdata (emitted (map uart t))) = [(WriteBlock 0x10 0x0030 [0; 0x30; 0; 0x30; 0; 0x30; 0; 0x30; 0; 0x30], Written None)] /\
    ended 16 lost_write (map bdata (emitted (map uart t))) = true /\
    commands (map so_i2c (i2c_of t)) = [CStart; CWrite 0x20; CStop; CStart; CWrite 0x30; CStop; CStart; CWrite 0x30; CStop].
Proof.
  destruct C122_refused_write_refuted as (ins & E & _ & C & M). exists ins. cbv zeta. split; [repeat (split || constructor); unfold is_byte; try (cbn; lia)|].
  rewrite M. split; [|split; [|split; [vm_compute; reflexivity|split; [vm_compute; reflexivity|exact C]]]].
  - subst ins. apply bytes_inb. vm_compute. reflexivity.
  - subst ins. apply drivenb_ok. vm_compute. reflexivity.
Qed.

Print Assumptions C148_session_partial.
Print Assumptions C148_discover.
Print Assumptions C148_byte_helpers.
Print Assumptions C148_session_refuted.
