(** USB glue: C103 endpoints, C104 descriptors, C105 PHY reset, C106 device search. *)
From Verif Require Import Stream Fifo_model Fifo_proofs Fifo_props Usb_model.

(** ** C103 *)
(** What crosses an endpoint: the byte and its last flag. *)
Definition byte_last (b : beat Z) : bool * Z := (blast b, bdata b).
Lemma byte_last_ep b : byte_last (ep_beat b) = byte_last b.
Proof. reflexivity. Qed.
(** Without clock domain crossing: wires. *)
Theorem C103_sync : forall ins, let t := strace sync_endpoint ins in
  map byte_last (emitted t) = map byte_last (accepted t) /\ Forall (fun b => bfirst b = false) (emitted t) /\
  Forall (fun o => cvalid (o_src o) = cvalid (o_sink o) /\ o_sready o = o_rready o) t.
Proof.
  intros ins. cbv zeta. unfold strace, trace. generalize (creset (scirc sync_endpoint)) as s. induction ins as [|[c r] ins IH]; intros s; [repeat split; constructor|].
  cbn [trace_from]. specialize (IH (cnext (scirc sync_endpoint) s (c, r))). destruct IH as (I1 & I2 & I3).
  unfold emitted, accepted in *. cbn [flat_map]. rewrite !map_app, I1. cbn [o_sink o_src o_sready o_rready scirc cout sync_endpoint src rdy st]. unfold xfer, ep_chan. cbn [cvalid cbeat fst snd].
  destruct (cvalid c && r) eqn:E; cbn [map app]; (split; [|split]); try reflexivity; auto; constructor; auto.
Qed.

Definition async_raw (e : af_event) : af_event := match e with AfWrite c n => AfWrite (ep_chan c) n | r => r end.
Lemma async_out_trace ev : trace async_out_endpoint ev = trace (async_fifo 8 8) (map async_raw ev).
Proof.
  unfold trace. change (creset async_out_endpoint) with (creset (async_fifo 8 8)). generalize (creset (async_fifo 8 8)) as s.
  induction ev as [|e ev IH]; intros s; [reflexivity|]. cbn [trace_from map]. rewrite <- IH. destruct e; reflexivity.
Qed.
Lemma async_in_trace ev : trace async_in_endpoint ev =
  map (fun o => AfObs (af_wr o) (map ep_beat (af_rdo o)) (option_map ep_chan (af_source o)) (af_level o)) (trace (async_fifo 8 8) ev).
Proof.
  unfold trace. change (creset async_in_endpoint) with (creset (async_fifo 8 8)). generalize (creset (async_fifo 8 8)) as s.
  induction ev as [|e ev IH]; intros s; [reflexivity|]. cbn [trace_from map]. rewrite <- IH. reflexivity.
Qed.
(** Across the clock domains, OUT: what LUNA delivered and the FIFO took is what the user gets, in order, at most 8 bytes
    behind; the user never sees first. *)
Theorem C103_async_out : forall events, let t := trace async_out_endpoint events in
  Forall (fun b => 0 <= bdata b < 256) (af_accepted t) ->
  exists held, map byte_last (af_accepted t) = map byte_last (af_emitted t) ++ held /\ (length held <= 8)%nat /\
    Forall (fun b => bfirst b = false) (af_emitted t).
Proof.
  intros ev t H. unfold t in *. rewrite async_out_trace in *.
  destruct (C19_async_fifo_lossless 8 8 (map async_raw ev) ltac:(lia) H) as (held & E & L). change (2 ^ Z.log2_up (Z.max 8 8)) with 8 in L. exists (map byte_last held).
  rewrite E, map_app, map_length. split; [reflexivity|]. split; [lia|].
  assert (F : Forall (fun b => bfirst b = false) (af_accepted (trace (async_fifo 8 8) (map async_raw ev)))).
  { clear. unfold trace. generalize (creset (async_fifo 8 8)) as s. induction ev as [|e ev IH]; intros s; [constructor|]. cbn [map trace_from]. unfold af_accepted in *. cbn [flat_map].
    apply Forall_app. split; [|apply IH]. destruct e as [c n|r n]; cbn [async_raw cout async_fifo async_words af_wr]; [|constructor].
    unfold xfer. destruct (cvalid (ep_chan c) && _); constructor; [reflexivity|constructor]. }
  rewrite E in F. apply Forall_app in F. apply F.
Qed.
Theorem C103_async_in : forall events, let t := trace async_in_endpoint events in
  Forall (fun b => 0 <= bdata b < 256) (af_accepted t) ->
  exists held, map byte_last (af_accepted t) = map byte_last (af_emitted t) ++ held /\ (length held <= 8)%nat /\
    Forall (fun b => bfirst b = false) (af_emitted t).
Proof.
  intros ev t H. unfold t in *. rewrite async_in_trace in *. set (u := trace (async_fifo 8 8) ev) in *.
  assert (A : af_accepted (map (fun o => AfObs (af_wr o) (map ep_beat (af_rdo o)) (option_map ep_chan (af_source o)) (af_level o)) u) = af_accepted u).
  { clearbody u. clear. unfold af_accepted. induction u as [|o u IH]; [reflexivity|]. cbn. now rewrite IH. }
  assert (B : af_emitted (map (fun o => AfObs (af_wr o) (map ep_beat (af_rdo o)) (option_map ep_chan (af_source o)) (af_level o)) u) = map ep_beat (af_emitted u)).
  { clearbody u. clear. unfold af_emitted. induction u as [|o u IH]; [reflexivity|]. cbn. now rewrite IH, map_app. }
  rewrite A in *. rewrite B. destruct (C19_async_fifo_lossless 8 8 ev ltac:(lia) H) as (held & E & L). change (2 ^ Z.log2_up (Z.max 8 8)) with 8 in L. fold u in E. exists (map byte_last held).
  rewrite E, map_app, map_length. split; [f_equal; rewrite map_map; reflexivity|]. split; [lia|].
  clear. induction (af_emitted u); cbn; constructor; auto.
Qed.
Example C103_nonvacuous :
  let t := trace async_out_endpoint [AfWrite (Chan true (Beat true false 1)) 0; AfWrite (Chan true (Beat false true 2)) 0; AfRead true 2; AfRead true 2] in
  af_emitted t = [Beat false false 1; Beat false true 2].
Proof. reflexivity. Qed.

(** ** C104 *)
(** USB: bit 7 of an endpoint address is the direction, the number is 1..15. *)
Definition ep_address (e : hw_ep) : Z := match h_dir e with EpOut => h_num e | EpIn => 128 + h_num e end.
(** The endpoints the user asked for: pair k (from 0) is endpoint number k + 1, size 0 meaning none. *)
Definition wanted (sizes : list (Z * Z)) (e : hw_ep) : Prop :=
  exists k, nth_error sizes k = Some (match h_dir e with EpIn => (h_size e, snd (nth k sizes (0, 0))) | EpOut => (fst (nth k sizes (0, 0)), h_size e) end) /\
    h_size e <> 0 /\ h_num e = Z.of_nat k + 1 /\ h_stream e = Z.of_nat k.
Lemma gd_endpoints_In k sizes e : In e (gd_endpoints k sizes) <->
  exists j i o, nth_error sizes j = Some (i, o) /\ h_num e = k + Z.of_nat j + 1 /\ h_stream e = k + Z.of_nat j /\
    h_size e <> 0 /\ h_size e = match h_dir e with EpIn => i | EpOut => o end.
Proof.
  revert k. induction sizes as [|[i o] r IH]; intros k; cbn [gd_endpoints].
  - split; [intros []|intros (j & i & o & H & _); destruct j; discriminate].
  - rewrite !in_app_iff, IH. split.
    + intros [H|[H|(j & i' & o' & H1 & H2 & H3 & H4 & H5)]].
      * destruct (Z.eqb_spec o 0) as [|N]; [destruct H|]. destruct H as [<-|[]]. exists 0%nat, i, o. cbn [h_dir h_num h_size h_stream nth_error]. change (Z.of_nat 0) with 0. repeat split; auto; lia.
      * destruct (Z.eqb_spec i 0) as [|N]; [destruct H|]. destruct H as [<-|[]]. exists 0%nat, i, o. cbn [h_dir h_num h_size h_stream nth_error]. change (Z.of_nat 0) with 0. repeat split; auto; lia.
      * exists (S j), i', o'. repeat split; auto; lia.
    + intros (j & i' & o' & H1 & H2 & H3 & H4 & H5). destruct j as [|j].
      * cbn in H1. injection H1 as -> ->. destruct e as [d n sz st]. cbn [h_dir h_num h_size h_stream] in *. rewrite Z.add_0_r in *. replace n with (1 + k) by lia. subst st.
        destruct d.
        -- left. subst sz. destruct (Z.eqb_spec o' 0); [contradiction|]. now left.
        -- right; left. subst sz. destruct (Z.eqb_spec i' 0); [contradiction|]. now left.
      * right; right. exists j, i', o'. cbn in H1. repeat split; auto; lia.
Qed.
Lemma lor_128 n : 0 <= n < 128 -> Z.lor 128 n = 128 + n.
Proof.
  intros H. assert (D : Z.land 128 n = 0); [|rewrite Z.add_nocarry_lxor, Z.lxor_lor by exact D; reflexivity].
  change 128 with (Z.shiftl 1 7).
  apply Z.bits_inj'. intros j Hj. rewrite Z.land_spec, Z.shiftl_spec, Z.bits_0 by lia. destruct (Z.eq_dec j 7) as [->|N].
  - rewrite (Z.bits_above_log2 n 7); [apply andb_false_r|lia|]. destruct (Z.eq_dec n 0) as [->|]; [cbn; lia|]. apply Z.log2_lt_pow2; lia.
  - destruct (Z_lt_le_dec j 7); [rewrite Z.testbit_neg_r by lia; reflexivity|]. rewrite (Z.bits_above_log2 1 (j - 7)) by (cbn; lia). reflexivity.
Qed.
Lemma gd_desc_hw k sizes : 0 <= k -> k + Z.of_nat (length sizes) < 128 ->
  gd_descriptors k sizes = map (fun e => (ep_address e, h_size e)) (gd_endpoints k sizes).
Proof.
  revert k. induction sizes as [|[i o] r IH]; intros k H1 H2; [reflexivity|]. cbn [length] in H2. cbn [gd_descriptors gd_endpoints]. rewrite !map_app, <- IH by lia. f_equal.
  - destruct (o =? 0); reflexivity.
  - f_equal. destruct (i =? 0); [reflexivity|]. cbn [negb map h_size]. unfold ep_address. cbn [h_dir h_num]. rewrite lor_128 by lia. reflexivity.
Qed.
(** The endpoints of the gateware are exactly the wanted ones, each once, and the descriptors advertise exactly them. *)
Theorem C104_endpoints_partial : forall sizes, (length sizes <= 15)%nat ->
  gd_descriptors 0 sizes = map (fun e => (ep_address e, h_size e)) (gd_endpoints 0 sizes) /\
  (forall e, In e (gd_endpoints 0 sizes) <-> wanted sizes e) /\
  NoDup (map fst (gd_descriptors 0 sizes)) /\
  (forall e, In e (gd_endpoints 0 sizes) -> 1 <= h_num e <= 15).
Proof.
  intros sizes L. split; [apply gd_desc_hw; lia|]. split; [|split].
  - intros e. rewrite gd_endpoints_In. unfold wanted. split.
    + intros (j & i & o & H1 & H2 & H3 & H4 & H5). exists j. rewrite H1, (nth_error_nth sizes j (0, 0) H1). cbn [fst snd].
      split; [destruct (h_dir e); congruence|]. split; [exact H4|]. lia.
    + intros (k & H1 & H2 & H3 & H4). pose proof (nth_error_nth sizes k (0, 0) H1) as X.
      destruct (h_dir e) eqn:D.
      * eexists k, _, _. split; [exact H1|]. repeat split; auto; lia.
      * eexists k, _, _. split; [exact H1|]. repeat split; auto; lia.
  - rewrite gd_desc_hw by lia. rewrite map_map. cbn [fst].
    assert (G : forall sizes k, NoDup (map ep_address (gd_endpoints k sizes)) /\ 0 <= k /\ k + Z.of_nat (length sizes) < 128 \/ ~ (0 <= k /\ k + Z.of_nat (length sizes) < 128)).
    { clear. induction sizes as [|[i o] r IH]; intros k.
      - cbn. destruct (Z_lt_le_dec k 0); [right; lia|]. destruct (Z_lt_le_dec k 128); [left; split; [constructor|lia]|right; lia].
      - cbn [length gd_endpoints]. destruct (Z_lt_le_dec k 0); [right; lia|]. destruct (Z_lt_le_dec (k + Z.of_nat (S (length r))) 128); [left|right; lia].
        split; [|lia]. destruct (IH (k + 1)) as [[I _]|I]; [|lia].
        assert (N : forall d e, In e (gd_endpoints (k + 1) r) -> d = k + 1 \/ d = 128 + (k + 1) -> ep_address e <> d).
        { intros d e He Hd. apply gd_endpoints_In in He. destruct He as (j & i' & o' & H1 & H2 & _).
          assert (J : (j < length r)%nat) by (apply nth_error_Some; congruence). unfold ep_address. destruct (h_dir e); lia. }
        assert (NI : forall d, d = k + 1 \/ d = 128 + (k + 1) -> ~ In d (map ep_address (gd_endpoints (k + 1) r))).
        { intros d Hd X. apply in_map_iff in X. destruct X as (e & E & X). apply (N d e X Hd E). }
        rewrite !map_app.
        unfold ep_address in *. destruct (o =? 0), (i =? 0); cbn [negb map app h_dir h_num].
        + exact I.
        + constructor; [apply NI; lia|exact I].
        + constructor; [apply NI; lia|exact I].
        + constructor; [|constructor; [apply NI; lia|exact I]]. intros [X|X]; [lia|]. revert X. apply NI. lia. }
    destruct (G sizes 0) as [[X _]|X]; [exact X|lia].
  - intros e He. apply gd_endpoints_In in He. destruct He as (j & i & o & H1 & H2 & _). assert (J : (j < length sizes)%nat) by (apply nth_error_Some; congruence). lia.
Qed.
(** More than 15 pairs are accepted and give illegal endpoint numbers; 128 pairs give the same address twice. *)
Theorem C104_limit_refuted :
  (exists e, In e (gd_endpoints 0 (gd_sizes None 16 512)) /\ h_num e = 16) /\
  ~ NoDup (map fst (gd_descriptors 0 (gd_sizes None 128 512))).
Proof.
  split.
  - exists (HwEp EpOut 16 512 15). split; [|reflexivity]. vm_compute. tauto.
  - intros N. assert (X : exists a b c d, map fst (gd_descriptors 0 (gd_sizes None 128 512)) = a ++ d :: b ++ d :: c).
    { exists (firstn 254 (map fst (gd_descriptors 0 (gd_sizes None 128 512)))), [], [], 128. vm_compute. reflexivity. }
    destruct X as (a & b & c & d & E). rewrite E in N. apply NoDup_remove_2 in N. apply N. apply in_app_iff. right. apply in_app_iff. right. now left.
Qed.
(** Without explicit sizes: ep_pairs pairs of the maximum packet size. *)
Theorem C104_default_sizes : forall pairs mps e, (pairs <= 15)%nat -> mps <> 0 ->
  In e (gd_endpoints 0 (gd_sizes None pairs mps)) <-> h_size e = mps /\ 1 <= h_num e <= Z.of_nat pairs /\ h_stream e = h_num e - 1.
Proof.
  intros pairs mps e L M. rewrite gd_endpoints_In. cbn [gd_sizes]. split.
  - intros (j & i & o & H1 & H2 & H3 & H4 & H5). assert (J : (j < pairs)%nat) by (rewrite <- (repeat_length (mps, mps) pairs); apply nth_error_Some; congruence).
    apply nth_error_In, repeat_spec in H1. injection H1 as -> ->. split; [destruct (h_dir e); exact H5|]. lia.
  - intros (H1 & H2 & H3). exists (Z.to_nat (h_num e - 1)), mps, mps. split.
    + rewrite (nth_error_nth' _ (mps, mps)) by (rewrite repeat_length; lia). f_equal. apply nth_repeat.
    + repeat split; try lia. destruct (h_dir e); exact H1.
Qed.
Example C104_nonvacuous : gd_descriptors 0 [(512, 512); (0, 64)] = [(1, 512); (129, 512); (2, 64)].
Proof. reflexivity. Qed.

(** ** C105 *)
(** The PHY reset is up in exactly the first 119 cycles; the data bus is driven exactly while the PHY does not own it. *)
Theorem C105_reset_partial : forall dirs, trace utmi_por dirs =
  map (fun x => UtObs (snd x) (negb (snd x)) (Z.of_nat (fst x) <? 119)) (combine (seq 0 (length dirs)) dirs).
Proof.
  intros dirs. unfold trace. change (creset utmi_por) with (Z.max 0 (119 - Z.of_nat 0)). generalize 0%nat as k.
  induction dirs as [|d dirs IH]; intros k; [reflexivity|]. cbn [trace_from length seq combine map fst snd]. f_equal.
  - cbn [cout utmi_por]. f_equal. destruct (Z.ltb_spec 0 (Z.max 0 (119 - Z.of_nat k))), (Z.ltb_spec (Z.of_nat k) 119); reflexivity || lia.
  - rewrite <- IH. f_equal. cbn [cnext utmi_por]. destruct (Z.ltb_spec 0 (Z.max 0 (119 - Z.of_nat k))); [|lia].
    assert (P : por_cycles = 120) by reflexivity. rewrite trunc_range_small by (rewrite P; lia). lia.
Qed.
(** 2 us at 60 MHz are 120 cycles. *)
Theorem C105_refuted : exists dirs o, trace utmi_por (dirs ++ [false]) = trace utmi_por dirs ++ [o] /\ (length dirs < 120)%nat /\ uto_rst o = false.
Proof. exists (repeat false 119), (UtObs false true false). vm_compute. repeat split; auto. Qed.
Example C105_nonvacuous : trace utmi_por [true; false] = [UtObs true false true; UtObs false true true].
Proof. reflexivity. Qed.

(** ** C106 *)
(** The device opened is the idx-th (from 0) of those with the wanted identifiers; failure exactly when there are not
    that many. *)
Definition matching (vid pid : Z) (l : list (Z * Z)) : list nat :=
  map fst (filter (fun x => (fst (snd x) =? vid) && (snd (snd x) =? pid)) (combine (seq 0 (length l)) l)).
Theorem C106_search : forall vid pid idx l, 0 <= idx -> dev_open vid pid idx l = nth_error (matching vid pid l) (Z.to_nat idx).
Proof.
  intros vid pid idx l H. unfold dev_open, matching.
  assert (G : forall l index k, 0 <= index <= idx -> dev_search vid pid idx index k l =
    nth_error (map fst (filter (fun x => (fst (snd x) =? vid) && (snd (snd x) =? pid)) (combine (seq k (length l)) l))) (Z.to_nat (idx - index))).
  { clear. induction l as [|[v p] l IH]; intros index k H; cbn [dev_search length seq combine filter map fst snd].
    - now destruct (Z.to_nat (idx - index)).
    - destruct ((v =? vid) && (p =? pid)); [|apply IH; lia]. cbn [map fst]. destruct (Z.eqb_spec index idx) as [E|E].
      + subst. rewrite Z.sub_diag. reflexivity.
      + rewrite IH by lia. replace (Z.to_nat (idx - index)) with (S (Z.to_nat (idx - (index + 1)))) by lia. reflexivity. }
  rewrite G by lia. now rewrite Z.sub_0_r.
Qed.
Theorem C106_identifiers : forall vid pid idx l n, dev_open vid pid idx l = Some n -> nth_error l n = Some (vid, pid).
Proof.
  intros vid pid idx l n. unfold dev_open.
  assert (G : forall l index k, dev_search vid pid idx index k l = Some n -> (k <= n)%nat /\ nth_error l (n - k) = Some (vid, pid)).
  { clear. induction l as [|[v p] l IH]; intros index k; cbn [dev_search]; [discriminate|].
    destruct (Z.eqb_spec v vid) as [Ev|_]; [destruct (Z.eqb_spec p pid) as [Ep|_]|]; cbn [andb].
    2,3: intros H; apply IH in H; destruct H as [H1 H2]; split; [lia|]; replace (n - k)%nat with (S (n - S k)) by lia; exact H2.
    destruct (index =? idx).
    - intros [= ->]. split; [lia|]. rewrite Nat.sub_diag. cbn. congruence.
    - intros H; apply IH in H; destruct H as [H1 H2]; split; [lia|]; replace (n - k)%nat with (S (n - S k)) by lia; exact H2. }
  intros H. apply G in H. rewrite Nat.sub_0_r in H. apply H.
Qed.
Example C106_nonvacuous : dev_open 1 2 1 [(1, 2); (3, 4); (1, 2)] = Some 2%nat.
Proof. reflexivity. Qed.

Print Assumptions C103_sync.
Print Assumptions C103_async_out.
Print Assumptions C103_async_in.
Print Assumptions C104_endpoints_partial.
Print Assumptions C104_limit_refuted.
Print Assumptions C104_default_sizes.
Print Assumptions C105_reset_partial.
Print Assumptions C105_refuted.
Print Assumptions C106_search.
Print Assumptions C106_identifiers.

(** The activity output of a stream is high in exactly the cycles in which a byte moves. *)
Theorem C103_activity : forall ins, Forall (fun o =>
    length (xfer (o_sink o) (o_sready o)) = (if gd_activity (cvalid (o_sink o)) (o_sready o) then 1 else 0)%nat /\
    length (xfer (o_src o) (o_rready o)) = (if gd_activity (cvalid (o_src o)) (o_rready o) then 1 else 0)%nat) (strace sync_endpoint ins).
Proof.
  intros ins. apply Forall_forall. intros o _. unfold gd_activity, xfer. destruct (cvalid (o_sink o)), (o_sready o), (cvalid (o_src o)), (o_rready o); auto.
Qed.
Print Assumptions C103_activity.
