(** Theorems C174: what the bridges and a program on the PC see on an I2C bus with no device on
    it, and on one whose SDA is stuck low, whatever is sent to the bridge and whenever. *)
From Verif Require Import Stream Bits I2c_model I2c_spec I2c_props I2cstream_model I2cstream_spec I2cstream_proofs
  I2cproto_model I2cproto_spec I2cproto_props I2cbus_model I2cbus_props Serial_model Bridge_model Bridge_spec Bridge_props
  I2cwriter_props I2cinit_model I2cinit_props I2clive_props I2cinitlive_props
  Link_model Link_spec Link_props Session_spec Usbbus_model Usbbus_spec I2cempty_proofs I2cempty_props.
From Coq Require Import Lia.

(** ** The core. *)
Section Core.
  Context (period : Z) (stretch oe : bool) (g : bool -> bool) (HP : 4 <= period).
  Let P := i2c_proto period stretch oe.
  Let tied (o : pr_obs) : Prop := ii_sda_pad (io_in (so_i2c (po_i2c o))) = g (io_sda (so_i2c (po_i2c o))).

  Definition answers_only (x : bool) (s : pr_state) : Prop :=
    match p_f s with
    | PHeader | PLength | PAddr => True
    | PStatus => p_status s = if x then 1 else 0
    | PError => x = true
    | POk | PRead | PFlush | PWrite => x = false
    end.

  Lemma proto_stream t1 o t2 ins : trace P ins = t1 ++ o :: t2 -> Forall tied t1 ->
    (forall x, xfer (o_sink (so_io (po_i2c o))) (o_sready (so_io (po_i2c o))) = [x] -> fst (bdata x) = false -> so_error (po_i2c o) = g true) /\
    (cvalid (o_src (so_io (po_i2c o))) = true -> bdata (cbeat (o_src (so_io (po_i2c o)))) = if g true then 255 else 0).
  Proof using HP.
    intros H HT. pose proof (C51_bus period stretch oe ins) as HB. cbv zeta in HB. fold P in HB. rewrite H in HB. rewrite map_app in HB at 1. cbn [map] in HB. symmetry in HB.
    eapply stream_tied; [exact HP|exact HB|]. rewrite !Forall_map. exact HT.
  Qed.

  Lemma proto_only ins : Forall tied (trace P ins) -> answers_only (g true) (state P ins).
  Proof using HP.
    induction ins as [|i ins IH] using rev_ind; [intros _; exact I|]. intros HT. pose proof HT as HT0. rewrite trace_app in HT. apply Forall_app in HT. destruct HT as [HT _].
    specialize (IH HT). unfold state. rewrite state_from_app. fold (state P ins).
    assert (E : trace P (ins ++ [i]) = trace P ins ++ cout P (state P ins) i :: []) by (now rewrite trace_app).
    destruct (proto_stream _ _ _ _ E HT) as [A _]. set (s := state P ins) in *. clearbody s. clear - IH A.
    destruct i as [[k r] p]. cbn [P i2c_proto cout cnext po_i2c i2c_stream so_io so_error o_sink o_sready state_from] in *.
    unfold answers_only, pr_next, pr_go in *. destruct s as [f h l u j]. cbn [p_f p_header p_length p_status p_i] in *.
    destruct f; cbn [p_f p_status] in *.
    - destruct (cvalid k); exact I.
    - destruct (cvalid k); exact I.
    - set (b := Beat false (l =? 0) (false, h)) in *. unfold pr_isink in *. cbn [p_f p_header p_length] in *. fold b in A |- *. unfold xfer in A. cbn [cvalid cbeat andb] in A.
      destruct (ist_rdy j (Chan true b)); [|exact I]. rewrite (A b eq_refl eq_refl).
      destruct (g true); [reflexivity|]. destruct (Z.testbit h 0); [reflexivity|]. destruct (1 <=? l); reflexivity.
    - destruct r; exact IH.
    - destruct (ist_rdy _ _); [destruct (l =? 1)|]; exact IH.
    - destruct (_ && _); [exact I|exact IH].
    - set (b := Beat false (l =? 1) (false, bdata (cbeat k))) in *. unfold pr_isink in *. cbn [p_f p_header p_length] in *. fold b in A |- *. unfold xfer in A. cbn [cvalid cbeat andb] in A.
      destruct (ist_rdy j (Chan true b)); [|exact IH]. rewrite (A b eq_refl eq_refl), IH. destruct (l =? 1); [rewrite ?IH|]; reflexivity.
    - destruct (1 <=? l); cbn [p_f p_status]; [exact IH|]. now rewrite IH.
    - destruct r; [exact I|exact IH].
  Qed.

  Lemma proto_bytes ins : Forall tied (trace P ins) ->
    Forall (fun b => bdata b = if g true then 1 else 0) (emitted (map po_io (trace P ins))).
  Proof using HP.
    intros HT. apply Forall_forall. intros b Hb. unfold emitted in Hb. apply in_flat_map in Hb. destruct Hb as (q & Hq & Hb). apply in_map_iff in Hq. destruct Hq as (o & <- & Ho).
    apply in_split in Ho. destruct Ho as (t1 & t2 & H). pose proof HT as HT0. rewrite H in HT. apply Forall_app in HT. destruct HT as [HT _].
    destruct (proto_stream _ _ _ _ H HT) as [_ A]. pose proof H as E. apply trace_one in E. destruct E as (a & i & c & _ & E2 & E3).
    rewrite <- E2 in HT. pose proof (proto_only a HT) as S. set (s := state P a) in *. clearbody s.
    unfold xfer in Hb. destruct (cvalid (o_src (po_io o)) && _) eqn:V; [|destruct Hb]. apply andb_true_iff in V. destruct V as [V _]. destruct Hb as [<-|[]].
    subst o. destruct i as [[k r] p]. cbn [P i2c_proto cout po_i2c po_io i2c_stream so_io o_src] in *. unfold answers_only, pr_src in *.
    destruct (p_f s); cbn [cvalid cbeat bdata] in *; try discriminate V; try exact S; rewrite S in *; auto.
  Qed.
End Core.

(** C174: with nobody on the bus the only byte an I2CProto ever sends is 1; with SDA stuck low
    the only byte is 0.  Whatever the host sends and however it pauses. *)
Theorem C174_core_nobody : forall period stretch oe ins,
  4 <= period ->
  let t := trace (i2c_proto period stretch oe) ins in
  Forall alone (map so_i2c (map po_i2c t)) -> Forall (fun b => bdata b = 1) (emitted (map po_io t)).
Proof. intros period stretch oe ins HP t HT. rewrite !Forall_map in HT. exact (proto_bytes period stretch oe (fun b => b) HP ins HT). Qed.
Theorem C174_core_stuck : forall period stretch oe ins,
  4 <= period ->
  let t := trace (i2c_proto period stretch oe) ins in
  Forall stuck_low (map so_i2c (map po_i2c t)) -> Forall (fun b => bdata b = 0) (emitted (map po_io t)).
Proof. intros period stretch oe ins HP t HT. rewrite !Forall_map in HT. exact (proto_bytes period stretch oe (fun _ => false) HP ins HT). Qed.

(** ** The bridges. *)
Lemma in_front {A} (l a b : list A) (Q : A -> Prop) : l = a ++ b -> Forall Q l -> Forall Q a.
Proof. intros -> H. apply Forall_app in H. tauto. Qed.

Lemma bridge_bytes period stretch oe g x ins :
  let t := trace (i2c_bridge period stretch oe) ins in
  bytes_in t -> Forall g (map so_i2c (i2c_of t)) ->
  (forall ins, let t := trace (i2c_proto period stretch oe) ins in Forall g (map so_i2c (map po_i2c t)) -> Forall (fun b => bdata b = x) (emitted (map po_io t))) ->
  Forall (fun b => b = x) (map bdata (emitted (map uart t))).
Proof.
  intros t HB HT HC. pose proof (proj1 (C122_core period stretch oe ins)) as E. cbv zeta in E. fold t in E. unfold i2c_of in HT.
  rewrite E in HT. specialize (HC _ HT). rewrite <- E in HC.
  set (c := i2c_bridge period stretch oe) in *. set (i := BrIn false 0 false (true, true)).
  assert (H : trace c (ins ++ [i]) = t ++ cout c (state c ins) i :: []) by (now rewrite trace_app).
  destruct (C122_carried period stretch oe _ t _ _ H) as (going & coming & _ & _ & _ & EM & _).
  { apply Forall_app. split; [exact HB|]. constructor; [|constructor]. cbn. lia. }
  rewrite Forall_map. exact (in_front _ _ _ _ EM HC).
Qed.

Lemma link_bytes_are period stretch oe g x ins :
  let t := trace (i2c_link period stretch oe) ins in
  link_bytes t -> Forall g (map so_i2c (link_i2c t)) ->
  (forall ins, let t := trace (i2c_proto period stretch oe) ins in Forall g (map so_i2c (map po_i2c t)) -> Forall (fun b => bdata b = x) (emitted (map po_io t))) ->
  Forall (fun b => bdata b = x) (emitted (map lo_link t)).
Proof.
  intros t HB HT HC. pose proof (proj1 (C151_core period stretch oe ins)) as E. cbv zeta in E. fold t in E. unfold link_i2c in HT.
  rewrite E in HT. specialize (HC _ HT). rewrite <- E in HC.
  set (c := i2c_link period stretch oe) in *. set (i := LkIn (Chan false (Beat false false 0)) false (true, true)).
  assert (H : trace c (ins ++ [i]) = t ++ cout c (state c ins) i :: []) by (now rewrite trace_app).
  destruct (C151_carried period stretch oe _ t _ _ H) as (going & coming & _ & _ & _ & EM & _).
  { apply Forall_app. split; [exact HB|]. constructor; [|constructor]. cbn. lia. }
  exact (in_front _ _ _ _ EM HC).
Qed.

(** ** What the calls of I2CBus make of such bytes. *)
Definition nothing_there (e : bus_call * bus_result) : Prop :=
  match e with
  | (WriteBlock _ _ _, r) => r = Written None
  | (ReadBlock _ _ _, r) => r = Block None
  | (Probe _, r) => r = Present false
  end.
Definition all_there (e : bus_call * bus_result) : Prop :=
  match e with
  | (WriteBlock _ _ d, r) => r = Written (Some (Z.of_nat (length d)))
  | (ReadBlock _ _ n, r) => r = Block (Some (repeat 0 (Z.to_nat n)))
  | (Probe _, r) => r = Present true
  end.

Lemma request_all x buf input r : Forall (fun b => b = x) input -> c_result (request buf input) = inl r ->
  r = (x =? 0) /\ Forall (fun b => b = x) (c_left (request buf input)).
Proof.
  intros H. unfold request. destruct (bytearray buf) as [bb|]; [|discriminate]. destruct H as [|s l -> H]; [discriminate|]. cbn. intros E. injection E as <-. auto.
Qed.
Lemma skipn_all {A} (Q : A -> Prop) n l : Forall Q l -> Forall Q (skipn n l).
Proof. intros H. rewrite <- (firstn_skipn n l) in H. apply Forall_app in H. tauto. Qed.
Lemma firstn_all0 {A} (Q : A -> Prop) n l : Forall Q l -> Forall Q (firstn n l).
Proof. intros H. rewrite <- (firstn_skipn n l) in H. apply Forall_app in H. tauto. Qed.
Lemma all_repeat (l : list Z) x : Forall (fun b => b = x) l -> l = repeat x (length l).
Proof. induction 1 as [|b l -> H IH]; cbn; congruence. Qed.

Lemma call_all x width c input r rest : x = 0 \/ x = 1 -> Forall (fun b => b = x) input ->
  snd (call_so_far width c input) = Some (r, rest) ->
  (if x =? 0 then all_there else nothing_there) (c, r) /\ Forall (fun b => b = x) rest.
Proof.
  intros HX H E. destruct c as [a g d|a g n|a]; cbn [call_so_far snd] in E.
  - unfold write_block_data in E. cbn [c_result c_left] in E. set (buf := _ :: _ :: _) in E.
    destruct (c_result (request buf input)) as [ok|] eqn:R; [|discriminate]. destruct (request_all x buf input ok H R) as [-> L].
    destruct HX as [-> | ->]; cbn in E |- *; injection E as <- <-; auto.
  - unfold read_block_data in E. set (buf := _ :: _ :: _) in E.
    destruct (c_result (request buf input)) as [ok|] eqn:R; [|discriminate]. destruct (request_all x buf input ok H R) as [-> L].
    destruct HX as [-> | ->]; cbn [Z.eqb] in E |- *; [|cbn in E; injection E as <- <-; split; [reflexivity|assumption]].
    set (buf2 := [_; _]) in E. destruct (c_result (request buf2 (c_left (request buf input)))) as [ok|] eqn:R2; [|discriminate].
    destruct (request_all 0 buf2 _ ok L R2) as [-> L2]. cbn [Z.eqb c_result c_left] in E.
    destruct (Z.of_nat (length _) =? n) eqn:N; [|discriminate]. injection E as <- <-. apply Z.eqb_eq in N. split; [|now apply skipn_all].
    cbn. do 2 f_equal. rewrite (all_repeat _ 0 (firstn_all0 _ (Z.to_nat n) _ L2)) at 1. f_equal. lia.
  - cbn [discover_loop] in E. set (buf := [_; _]) in E. destruct (c_result (request buf input)) as [ok|] eqn:R; [|discriminate]. destruct (request_all x buf input ok H R) as [-> L].
    cbn [c_result c_left] in E. destruct HX as [-> | ->]; cbn in E |- *; injection E as <- <-; auto.
Qed.
Lemma history_all x width p : x = 0 \/ x = 1 -> forall input, Forall (fun b => b = x) input ->
  Forall (if x =? 0 then all_there else nothing_there) (history width p input).
Proof.
  intros HX. induction p as [|c k IH]; intros input H; [constructor|]. cbn [history].
  destruct (snd (call_so_far width c input)) as [[r rest]|] eqn:E; [|constructor]. destruct (call_all x width c input r rest HX H E). constructor; auto.
Qed.

(** C174: a program over the UART bridge on a bus with nobody on it is told by every call that
    there is nothing; on a bus with SDA stuck low, that every write was done and that every
    read gave zeros: whatever else reaches the bridge, whatever the timing. *)
Theorem C174_uart_nobody : forall width period stretch oe p ins,
  4 <= period ->
  let t := trace (i2c_bridge period stretch oe) ins in
  bytes_in t -> Forall alone (map so_i2c (i2c_of t)) ->
  Forall nothing_there (history width p (map bdata (emitted (map uart t)))).
Proof.
  intros width period stretch oe p ins HP t HB HT. apply (history_all 1 width p); [auto|].
  apply (bridge_bytes period stretch oe alone 1 ins HB HT). intros i. now apply C174_core_nobody.
Qed.
Theorem C174_uart_stuck : forall width period stretch oe p ins,
  4 <= period ->
  let t := trace (i2c_bridge period stretch oe) ins in
  bytes_in t -> Forall stuck_low (map so_i2c (i2c_of t)) ->
  Forall all_there (history width p (map bdata (emitted (map uart t)))).
Proof.
  intros width period stretch oe p ins HP t HB HT. apply (history_all 0 width p); [auto|].
  apply (bridge_bytes period stretch oe stuck_low 0 ins HB HT). intros i. now apply C174_core_stuck.
Qed.

Lemma discover_all x addrs : x = 0 \/ x = 1 -> forall input r, Forall (fun b => b = x) input ->
  c_result (discover_loop addrs input) = inl r -> r = if x =? 0 then addrs else [].
Proof.
  intros HX. induction addrs as [|a l IH]; intros input r H E; [cbn in E; injection E as <-; destruct (x =? 0); reflexivity|].
  cbn [discover_loop] in E. set (buf := [_; _]) in E. destruct (c_result (request buf input)) as [ok|] eqn:R; [|discriminate].
  destruct (request_all x buf input ok H R) as [-> L]. cbn [c_result] in E.
  destruct (c_result (discover_loop l _)) as [f|] eqn:F; [|discriminate]. apply IH in F; [|exact L]. injection E as <-. subst f.
  destruct (x =? 0); reflexivity.
Qed.

Lemma discover_only x input r : x = 0 \/ x = 1 -> Forall (fun b => b = x) input -> c_result (discover input) = inl r ->
  r = if x =? 0 then map Z.of_nat (seq 0 128) else [].
Proof. intros HX. apply (discover_all x (map Z.of_nat (seq 0 128)) HX). Qed.

(** C174: discover over the UART bridge, if it returns (each probe is answered by its own
    byte), lists no address on an empty bus and all 128 on a bus with SDA stuck low. *)
Theorem C174_uart_discover : forall period stretch oe ins found,
  4 <= period ->
  let t := trace (i2c_bridge period stretch oe) ins in
  bytes_in t -> c_result (discover (map bdata (emitted (map uart t)))) = inl found ->
  (Forall alone (map so_i2c (i2c_of t)) -> found = []) /\
  (Forall stuck_low (map so_i2c (i2c_of t)) -> found = map Z.of_nat (seq 0 128)).
Proof.
  intros period stretch oe ins found HP t HB HF. split; intros HT.
  - apply (discover_only 1 (map bdata (emitted (map uart t)))); [auto| |exact HF].
    apply (bridge_bytes period stretch oe alone 1 ins HB HT). intros i. now apply C174_core_nobody.
  - apply (discover_only 0 (map bdata (emitted (map uart t)))); [auto| |exact HF].
    apply (bridge_bytes period stretch oe stuck_low 0 ins HB HT). intros i. now apply C174_core_stuck.
Qed.

(** ** Over USB. *)
Lemma packets_all x l : Forall (fun b => bdata b = x) l -> Forall (fun q => q <> [] /\ Forall (fun b => b = x) q) (packets l).
Proof.
  unfold packets. assert (G : forall l open, Forall (fun b => b = x) open -> Forall (fun b => bdata b = x) l -> Forall (fun q => q <> [] /\ Forall (fun b => b = x) q) (packets_from open l)).
  { clear l. induction l as [|b l IH]; intros open HO H; [constructor|]. inversion H; subst. cbn [packets_from].
    assert (O : Forall (fun b0 => b0 = bdata b) (open ++ [bdata b])) by (apply Forall_app; auto).
    destruct (blast b); [constructor; [|now apply IH]|now apply IH]. split; [destruct open; discriminate|exact O]. }
  intros H. apply G; [constructor|exact H].
Qed.
Definition only (x : Z) (pk : list (list Z)) : Prop := Forall (fun q => q <> [] /\ Forall (fun b => b = x) q) pk.
Lemma usb_request_all x buf pk r : only x pk -> u_result (usb_request buf pk) = inl r -> r = (x =? 0) /\ only x (u_left (usb_request buf pk)).
Proof.
  intros H. unfold usb_request, recv. destruct (bytearray buf) as [bb|]; [|discriminate]. destruct H as [|q l [H1 H2] H]; [discriminate|].
  destruct H2 as [|s q -> H2]; [congruence|]. change (Z.to_nat 1) with 1%nat. cbn [firstn]. cbn. intros E. injection E as <-. auto.
Qed.

(** A read over USB takes one packet, of whatever length. *)
Definition all_there_usb (e : bus_call * bus_result) : Prop :=
  match e with
  | (ReadBlock _ _ _, r) => exists l, r = Block (Some l) /\ Forall (fun x => x = 0) l
  | _ => all_there e
  end.
Lemma usb_call_all x width c pk r rest : x = 0 \/ x = 1 -> only x pk ->
  snd (usb_so_far width c pk) = Some (r, rest) ->
  (if x =? 0 then all_there_usb else nothing_there) (c, r) /\ only x rest.
Proof.
  intros HX H E. destruct c as [a g d|a g n|a]; cbn [usb_so_far snd] in E.
  - unfold usb_write_block_data in E. cbn [u_result u_left] in E. set (buf := _ :: _ :: _) in E.
    destruct (u_result (usb_request buf pk)) as [ok|] eqn:R; [|discriminate]. destruct (usb_request_all x buf pk ok H R) as [-> L].
    destruct HX as [-> | ->]; cbn in E |- *; injection E as <- <-; auto.
  - unfold usb_read_block_data in E. set (buf := _ :: _ :: _) in E.
    destruct (u_result (usb_request buf pk)) as [ok|] eqn:R; [|discriminate]. destruct (usb_request_all x buf pk ok H R) as [-> L].
    destruct HX as [-> | ->]; cbn [Z.eqb] in E |- *; [|cbn in E; injection E as <- <-; split; [reflexivity|assumption]].
    set (buf2 := [_; _]) in E. destruct (u_result (usb_request buf2 (u_left (usb_request buf pk)))) as [ok|] eqn:R2; [|discriminate].
    destruct (usb_request_all 0 buf2 _ ok L R2) as [-> L2]. cbn [Z.eqb u_result u_left] in E. unfold recv in E.
    destruct L2 as [|q l [_ H2] L2]; [discriminate|]. cbn in E. injection E as <- <-. split; [|exact L2]. cbn. eexists. split; [reflexivity|]. now apply firstn_all0.
  - unfold usb_probe in E. set (buf := [_; _]) in E. destruct (u_result (usb_request buf pk)) as [ok|] eqn:R; [|discriminate]. destruct (usb_request_all x buf pk ok H R) as [-> L].
    destruct HX as [-> | ->]; cbn in E |- *; injection E as <- <-; auto.
Qed.
Lemma usb_history_all x width p : x = 0 \/ x = 1 -> forall pk, only x pk -> Forall (if x =? 0 then all_there_usb else nothing_there) (usb_history width p pk).
Proof.
  intros HX. induction p as [|c k IH]; intros pk H; [constructor|]. cbn [usb_history].
  destruct (snd (usb_so_far width c pk)) as [[r rest]|] eqn:E; [|constructor]. destruct (usb_call_all x width c pk r rest HX H E). constructor; auto.
Qed.
Lemma queue_found x q : Forall (fun b => b = x) q -> forall k, map fst (filter (fun y => snd y =? 0) (combine (seq k 128) q)) = if x =? 0 then firstn (length q) (seq k 128) else [].
Proof.
  generalize 128%nat. intros n H. revert n. induction H as [|b q -> H IH]; intros n k; [destruct n; cbn; destruct (x =? 0); reflexivity|].
  destruct n as [|n]; [cbn; destruct (x =? 0); reflexivity|]. cbn [seq combine filter snd]. destruct (x =? 0) eqn:E; cbn [map fst length firstn]; rewrite IH; reflexivity.
Qed.

(** C174: the same over the USB bridge; and discover_queue finds nothing on an empty bus. *)
Theorem C174_usb_nobody : forall width period stretch oe p ins,
  4 <= period ->
  let t := trace (i2c_link period stretch oe) ins in
  link_bytes t -> Forall alone (map so_i2c (link_i2c t)) ->
  let pk := packets (emitted (map lo_link t)) in
  Forall nothing_there (usb_history width p pk) /\
  (u_result (usb_discover_queue pk) = inl [] \/ u_result (usb_discover_queue pk) = inr Waiting).
Proof.
  intros width period stretch oe p ins HP t HB HT pk.
  assert (O : only 1 pk).
  { apply packets_all. apply (link_bytes_are period stretch oe alone 1 ins HB HT). intros i. now apply C174_core_nobody. }
  split; [apply (usb_history_all 1); auto|]. unfold usb_discover_queue. set (buf := flat_map _ _).
  assert (B : bytearray buf = Some buf) by (vm_compute; reflexivity). rewrite B. unfold recv. destruct O as [|q l [_ H2] O]; [right; reflexivity|left].
  cbn [u_result]. rewrite <- (map_map fst Z.of_nat), (queue_found 1); [reflexivity|]. now apply firstn_all0.
Qed.
Theorem C174_usb_stuck : forall width period stretch oe p ins,
  4 <= period ->
  let t := trace (i2c_link period stretch oe) ins in
  link_bytes t -> Forall stuck_low (map so_i2c (link_i2c t)) ->
  Forall all_there_usb (usb_history width p (packets (emitted (map lo_link t)))).
Proof.
  intros width period stretch oe p ins HP t HB HT. apply (usb_history_all 0 width p); [auto|]. apply packets_all.
  apply (link_bytes_are period stretch oe stuck_low 0 ins HB HT). intros i. now apply C174_core_stuck.
Qed.

(** C174: an I2CRegisterInit on a bus with SDA stuck low says that it is done, as if the device
    were there (on an empty bus it never does, C172). *)
Theorem C174_init_stuck : forall addr regs expose period stretch oe ins,
  4 <= period -> regs <> [] ->
  let t := trace (reg_init addr regs expose period stretch oe) ins in
  let bound := (19 * (3 * length regs + 1) * cmd_bound period)%nat in
  Forall (fun o => scl_follows stretch oe (wo_i2c (ri_w o))) t ->
  Forall stuck_low (map wo_i2c (map ri_w t)) -> (bound < length t)%nat ->
  exists t1 o t2, t = t1 ++ o :: t2 /\ ri_done o = true /\ (length t1 <= bound)%nat.
Proof.
  intros addr regs expose period stretch oe ins HP HR t bound HS HT HL. apply C112_init_completes; auto.
  intros t1 o t2 E ((x & R1) & R2 & R3). fold t in E.
  pose proof (ri_w_trace addr regs expose period stretch oe ins) as EW. cbv zeta in EW. fold t in EW.
  pose proof (C49_bus period stretch oe (map (fun o => (wo_sink o, (ii_sda_pad (io_in (wo_i2c o)), ii_scl_pad (io_in (wo_i2c o))))) (map ri_w t))) as EB.
  cbv zeta in EB. rewrite <- EW in EB. rewrite E in EB at 1. do 2 rewrite map_app in EB at 1. cbn [map] in EB.
  rewrite E in HT. do 2 rewrite map_app in HT. apply Forall_app in HT. destruct HT as [HT _].
  symmetry in EB. destruct (C172_stuck period stretch oe _ _ _ _ HP EB HT R2) as [K _]. rewrite (K x R1) in R3. discriminate.
Qed.

(** Runs: SDA has the level the bridge asks for, or 0. *)
Fixpoint fed {I O} (c : circuit I O) (f : cst c -> I -> I) (s : cst c) (l : list I) : list I :=
  match l with [] => [] | i :: r => f s i :: fed c f (cnext c s (f s i)) r end.
Definition probing : program :=
  Do (WriteBlock 0x10 0x30 [1]) (fun r => match r with
    | Written None => Do (ReadBlock 0x11 7 3) (fun _ => Do (Probe 5) (fun _ => Finished))
    | _ => Do (ReadBlock 0x12 7 2) (fun _ => Finished) end).
Definition in_bridge : list br_in := at_rate 6 [0x20; 2; 0x30; 1] ++ repeat rx0 100 ++ at_rate 6 [0x22; 1; 7] ++ repeat rx0 100 ++ at_rate 6 [0x0a; 0] ++ repeat rx0 100.
Definition uart_alone := let c := i2c_bridge 4 false true in
  fed c (fun s i => BrIn (bi_rx_rdy i) (bi_rx_data i) (bi_tx_rdy i) (d_sda (s_d (is_i (p_i (b_pr s)))), true)) (creset c) in_bridge.
Definition bytes_inb (t : list br_obs) : bool := forallb (fun o => (0 <=? uo_rx_data (bo_us o)) && (uo_rx_data (bo_us o) <? 256)) t.
Lemma bytes_inb_ok t : bytes_inb t = true -> bytes_in t.
Proof. intros H. apply Forall_forall. intros o Ho. unfold bytes_inb in H. rewrite forallb_forall in H. apply H in Ho. lia. Qed.
Example C174_nonvacuous :
  let t := trace (i2c_bridge 4 false true) uart_alone in
  bytes_in t /\ Forall alone (map so_i2c (i2c_of t)) /\
  history 8 probing (map bdata (emitted (map uart t))) =
    [(WriteBlock 0x10 0x30 [1], Written None); (ReadBlock 0x11 7 3, Block None); (Probe 5, Present false)] /\
  commands (map so_i2c (i2c_of t)) = [CStart; CWrite 0x20; CStop; CStart; CWrite 0x22; CStop; CStart; CWrite 0x0a; CStop].
Proof.
  cbv zeta. split; [apply bytes_inb_ok; vm_compute; reflexivity|]. split; [apply aloneb_ok; vm_compute; reflexivity|]. split; vm_compute; reflexivity.
Qed.

(** The data of the refused write come late: they are taken for requests, and answered by 1 too. *)
Definition uart_late := let c := i2c_bridge 4 false true in
  fed c (fun s i => BrIn (bi_rx_rdy i) (bi_rx_data i) (bi_tx_rdy i) (d_sda (s_d (is_i (p_i (b_pr s)))), true)) (creset c)
    (at_rate 120 [0x20; 4; 0x30; 0; 0x32; 0] ++ repeat rx0 100).
Example C174_nonvacuous_late :
  let t := trace (i2c_bridge 4 false true) uart_late in
  bytes_in t /\ Forall alone (map so_i2c (i2c_of t)) /\ map bdata (emitted (map uart t)) = [1; 1; 1].
Proof.
  cbv zeta. split; [apply bytes_inb_ok; vm_compute; reflexivity|]. split; [apply aloneb_ok; vm_compute; reflexivity|]. vm_compute. reflexivity.
Qed.

(** All 128 probes of discover on an empty bus: it returns, with nothing. *)
Definition uart_probes := let c := i2c_bridge 4 false true in
  fed c (fun s i => BrIn (bi_rx_rdy i) (bi_rx_data i) (bi_tx_rdy i) (d_sda (s_d (is_i (p_i (b_pr s)))), true)) (creset c)
    (at_rate 120 (flat_map (fun a => [2 * Z.of_nat a; 0]) (seq 0 128)) ++ repeat rx0 100).
Example C174_nonvacuous_discover :
  let t := trace (i2c_bridge 4 false true) uart_probes in
  bytes_in t /\ Forall alone (map so_i2c (i2c_of t)) /\ c_result (discover (map bdata (emitted (map uart t)))) = inl [].
Proof.
  cbv zeta. split; [apply bytes_inb_ok; vm_compute; reflexivity|]. split; [apply aloneb_ok; vm_compute; reflexivity|]. vm_compute. reflexivity.
Qed.

Definition lk1 (b : Z) : lk_in := LkIn (Chan true (Beat false false b)) true (false, true).
Definition lk0 : lk_in := LkIn (Chan false (Beat false false 0)) true (false, true).
Definition usb_low : list lk_in := map lk1 [0x20; 2; 0x30; 1] ++ repeat lk0 300 ++ map lk1 [0x24; 1; 7] ++ repeat lk0 300 ++ map lk1 [0x25; 2] ++ repeat lk0 600.
Definition link_bytesb (t : list lk_obs) : bool := forallb (fun o => (0 <=? bdata (cbeat (o_sink (lo_link o)))) && (bdata (cbeat (o_sink (lo_link o))) <? 256)) t.
Lemma link_bytesb_ok t : link_bytesb t = true -> link_bytes t.
Proof. intros H. apply Forall_forall. intros o Ho. unfold link_bytesb in H. rewrite forallb_forall in H. apply H in Ho. lia. Qed.
Example C174_nonvacuous_stuck :
  let t := trace (i2c_link 4 false true) usb_low in
  link_bytes t /\ Forall stuck_low (map so_i2c (link_i2c t)) /\
  usb_history 8 probing (packets (emitted (map lo_link t))) =
    [(WriteBlock 0x10 0x30 [1], Written (Some 1)); (ReadBlock 0x12 7 2, Block (Some [0; 0]))].
Proof.
  cbv zeta. split; [apply link_bytesb_ok; vm_compute; reflexivity|]. split; [apply lowb_ok; vm_compute; reflexivity|]. vm_compute. reflexivity.
Qed.

Definition init_low : list (chan Z * pads) := repeat (Chan false (Beat false false 0), (false, true)) (Z.to_nat 18000).
Example C174_nonvacuous_init :
  let t := trace (reg_init 0x3c [(1, 0x23)] false 4 false true) init_low in
  Forall (fun o => scl_follows false true (wo_i2c (ri_w o))) t /\ Forall stuck_low (map wo_i2c (map ri_w t)) /\
  (19 * (3 * length [(1, 0x23)] + 1) * cmd_bound 4 < length t)%nat.
Proof.
  cbv zeta. split; [apply Forall_forall; intros o _; discriminate|]. split; [apply lowb_ok; vm_compute; reflexivity|]. apply Nat.ltb_lt. vm_compute. reflexivity.
Qed.

Print Assumptions C174_core_nobody.
Print Assumptions C174_core_stuck.
Print Assumptions C174_uart_nobody.
Print Assumptions C174_uart_stuck.
Print Assumptions C174_uart_discover.
Print Assumptions C174_usb_nobody.
Print Assumptions C174_usb_stuck.
Print Assumptions C174_init_stuck.
