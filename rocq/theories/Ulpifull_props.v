(** C142, C143: DirectULPI from the user's streams to the bus. *)
From Verif Require Import Stream Bits Fifo_model Fifo_proofs Fifo_props Cdcconv_model Cdcconv_props Ulpi_model Ulpi_props Ulpifull_model.

(** ** Vocabulary *)
(** Beats the user gave to the sink and took from the source. *)
Definition user_sent (t : list fu_obs) : list (beat Z) := flat_map (fun o => match o with FoSync k r _ _ => xfer k r | _ => [] end) t.
Definition user_got (t : list fu_obs) : list (beat Z) := flat_map (fun o => match o with FoSync _ _ c r => xfer c r | _ => [] end) t.
(** What happened at the edges of the PHY's clock. *)
Definition bus (t : list fu_obs) : list di_obs := flat_map (fun o => match o with FoUlpi d _ => [d] | _ => [] end) t.
(** Received beats that found room in the receive FIFO. *)
Definition stored (t : list fu_obs) : list (beat Z) := flat_map (fun o => match o with FoUlpi d room => xfer (dio_rx d) room | _ => [] end) t.
(** The depth of a FIFO asked to hold [d] beats. *)
Definition capacity (d : Z) : Z := 2 ^ Z.log2_up (Z.max d 8).
(** The bytes on the user's sink and on the data pins are bytes. *)
Definition bytes_in (ev : list fu_event) : Prop :=
  Forall (fun e => match e with FuSync k _ _ _ => 0 <= bdata (cbeat k) < 256 | FuUlpi p _ _ => 0 <= ph_data p < 256 end) ev.

Section Full.
  Context (n2 n4 nt rxd txd : Z).
  Notation c := (direct_ulpi n2 n4 nt rxd txd).
  Notation Ft := (async_words 8 (async_depth txd)).
  Notation Fr := (async_words 8 (async_depth rxd)).
  Lemma full_split ev : exists dins txe rxe,
    fu_di (state c ev) = state (direct nt) dins /\ fu_tx (state c ev) = state Ft txe /\ fu_rx (state c ev) = state Fr rxe /\
    bus (trace c ev) = trace (direct nt) dins /\
    af_accepted (trace Ft txe) = user_sent (trace c ev) /\ af_emitted (trace Ft txe) = di_accepted (bus (trace c ev)) /\
    af_accepted (trace Fr rxe) = stored (trace c ev) /\ af_emitted (trace Fr rxe) = user_got (trace c ev).
  Proof.
    induction ev as [|e ev IH] using rev_ind; [exists [], [], []; repeat split|].
    destruct IH as (dins & txe & rxe & S1 & S2 & S3 & B & A1 & E1 & A2 & E2).
    rewrite trace_snoc, state_snoc. set (s := state c ev) in *. unfold bus, user_sent, stored, user_got, di_accepted, af_accepted, af_emitted in *.
    rewrite !flat_map_app. destruct e as [k sr r sw|p sw sr].
    - exists dins, (txe ++ [AfWrite k sr]), (rxe ++ [AfRead r sw]).
      rewrite !trace_snoc, !state_snoc, !flat_map_app, <- S2, <- S3, A1, E1, A2, E2, B.
      cbn [cout cnext direct_ulpi flat_map fu_di fu_tx fu_rx async_words af_wr af_rdo]. rewrite ?app_nil_r. repeat split; try reflexivity; assumption.
    - set (i := fu_di_in n2 n4 s p sw). exists (dins ++ [i]), (txe ++ [AfRead (o_sready (dio_tx (fu_ulpi n2 n4 nt s p sw))) sw]), (rxe ++ [AfWrite (dio_rx (fu_ulpi n2 n4 nt s p sw)) sr]).
      rewrite !trace_snoc, !state_snoc, !flat_map_app, <- S1, <- S2, <- S3, A1, E1, A2, E2, B, map_app.
      cbn [cout cnext direct_ulpi flat_map fu_di fu_tx fu_rx async_words af_wr af_rdo]. rewrite ?app_nil_r. repeat split; try reflexivity.
      rewrite accepted_app. cbn [map]. rewrite accepted_1. reflexivity.
  Qed.

  (** Bytes stay bytes. *)
  Definition di_bytes (s : di_state) : Prop :=
    0 <= rx_data (x_src (di_xc s)) < 256 /\ (forall d, p_buf (di_sp s) = Some d -> 0 <= d < 256) /\ 0 <= bdata (cbeat (p_src (di_sp s))) < 256.
  Lemma bytes_run ev : bytes_in ev -> di_bytes (fu_di (state c ev)) /\
    Forall (fun b => 0 <= bdata b < 2 ^ 8) (user_sent (trace c ev)) /\ Forall (fun b => 0 <= bdata b < 2 ^ 8) (stored (trace c ev)).
  Proof.
    change (2 ^ 8) with 256. induction ev as [|e ev IH] using rev_ind; intros H.
    { split; [|split; constructor]. repeat split; cbn; try lia; discriminate. }
    apply Forall_app in H. destruct H as [H He]. apply Forall_cons_iff in He. destruct He as [He _]. destruct (IH H) as ((D1 & D2 & D3) & U & S).
    rewrite trace_snoc, state_snoc. unfold user_sent, stored in *. rewrite !flat_map_app, !Forall_app. set (s := state c ev) in *.
    destruct e as [k sr r sw|p sw sr]; cbn [cout cnext direct_ulpi flat_map fu_di].
    - split; [exact (conj D1 (conj D2 D3))|]. split; [|split; [exact S|constructor]]. split; [exact U|]. rewrite app_nil_r. unfold xfer. destruct (_ && _); repeat constructor; apply He.
    - split.
      + unfold di_bytes. cbn [direct cnext di_xc di_sp]. split; [|split].
        * unfold xc_next. cbn [x_src]. destruct (_ && _); cbn [rx_data]; [exact He|exact D1].
        * assert (Ev : 0 <= rx_data (di_ev (fu_di s)) < 256) by (unfold di_ev; destruct (di_fsm _); cbn; lia || exact D1).
          unfold sp_next. destruct (rx_valid _); [|exact D2]. destruct (negb _); [cbn [p_buf]; intros d Hd; injection Hd as <-; exact Ev|].
          destruct (_ =? _); [|exact D2]. destruct (p_buf _); discriminate.
        * unfold sp_next, sp_idle. destruct (p_buf _) as [d|] eqn:Eb; [pose proof (D2 d eq_refl)|];
            repeat (match goal with |- context [if ?b then _ else _] => destruct b end); cbn [p_src cbeat bdata]; auto.
      + split; [split; [exact U|constructor]|]. split; [exact S|]. unfold fu_ulpi. cbn [cout direct dio_rx]. rewrite app_nil_r.
        unfold xfer. destruct (_ && _); repeat constructor; apply D3.
  Qed.
End Full.

(** ** C142: receiving *)
(** What the user has got is, but for at most the FIFO's depth of beats on their way, the
    beats that found room in the FIFO, in order; and every received beat is offered to the
    FIFO exactly once, at some edge of the PHY's clock. *)
Theorem C142_received_partial : forall n2 n4 nt rxd txd ev, bytes_in ev ->
  let t := trace (direct_ulpi n2 n4 nt rxd txd) ev in
  (exists held, stored t = user_got t ++ held /\ Z.of_nat (length held) <= capacity rxd) /\
  rx_stream_ok (di_events (bus t)) (di_received (bus t)).
Proof.
  intros n2 n4 nt rxd txd ev Hb t. destruct (full_split n2 n4 nt rxd txd ev) as (dins & txe & rxe & S1 & S2 & S3 & B & A1 & E1 & A2 & E2).
  destruct (bytes_run n2 n4 nt rxd txd ev Hb) as (_ & _ & R). fold t in B, A1, E1, A2, E2, R. split.
  - destruct (af_lossless 8 (async_depth rxd) ltac:(lia) (async_depth_pos rxd) rxe) as (held & E & L); [now rewrite A2|].
    exists held. rewrite <- A2, <- E2. split; [exact E|]. unfold capacity. rewrite <- async_depth_max. exact L.
  - rewrite B. apply C94_received.
Qed.

(** No byte is lost as long as, at each edge of the PHY's clock, the beats received so far
    less the beats known to have been read are fewer than the FIFO's depth; then the user
    gets the packets received since the set-up. *)
Theorem C142_kept_partial : forall n2 n4 nt rxd txd ev, bytes_in ev ->
  let c := direct_ulpi n2 n4 nt rxd txd in
  (forall ev1 p sw sr ev2, ev = ev1 ++ FuUlpi p sw sr :: ev2 ->
     Z.of_nat (length (di_received (bus (trace c ev1)))) - Z.min sr (Z.of_nat (length (user_got (trace c ev1)))) < capacity rxd) ->
  let t := trace c ev in
  exists held, Z.of_nat (length held) <= capacity rxd /\ rx_stream_ok (di_events (bus t)) (user_got t ++ held).
Proof.
  intros n2 n4 nt rxd txd ev Hb c Hr t. destruct (C142_received_partial n2 n4 nt rxd txd ev Hb) as ((held & E & L) & O). fold c t in E, L, O.
  exists held. split; [exact L|]. rewrite <- E. replace (stored t) with (di_received (bus t)); [exact O|]. unfold t. clear E L O t held.
  induction ev as [|e ev IH] using rev_ind; [reflexivity|].
  apply Forall_app in Hb. destruct Hb as [Hb _]. specialize (IH Hb).
  assert (I : di_received (bus (trace c ev)) = stored (trace c ev)).
  { apply IH. intros ev1 p sw sr ev2 E. apply (Hr ev1 p sw sr (ev2 ++ [e])). rewrite E, <- app_assoc. reflexivity. }
  clear IH. rewrite trace_snoc. unfold bus, stored, di_received. rewrite !flat_map_app. fold (bus (trace c ev)). fold (di_received (bus (trace c ev))). fold (stored (trace c ev)). rewrite I.
  f_equal. destruct e as [k sr r sw|p sw sr]; [reflexivity|]. specialize (Hr ev p sw sr [] eq_refl).
  cbn [cout c direct_ulpi flat_map app]. rewrite !app_nil_r. unfold xfer.
  enough (W : af_wrdy (async_depth rxd) (fu_rx (state c ev)) sr = true) by (rewrite W, andb_true_r; reflexivity).
  destruct (full_split n2 n4 nt rxd txd ev) as (dins & txe & rxe & _ & _ & S3 & _ & _ & _ & A2 & E2). fold c in S3, A2, E2.
  destruct (bytes_run n2 n4 nt rxd txd ev Hb) as (_ & _ & R). fold c in R. rewrite <- A2 in R.
  destruct (af_inv_run 8 (async_depth rxd) ltac:(lia) (async_depth_pos rxd) rxe R) as (H1 & H2 & H3 & H4 & H5 & H6). rewrite <- S3 in *.
  set (s := fu_rx (state c ev)) in *.
  assert (HL : length (af_mem s) = length (stored (trace c ev))) by (rewrite <- A2, H5, map_length; reflexivity).
  assert (HE : Z.of_nat (length (user_got (trace c ev))) = af_rd s) by (rewrite <- E2, H6, firstn_length, A2; lia).
  unfold af_wrdy, clampup. apply Z.ltb_lt. rewrite I in Hr. unfold capacity in Hr. rewrite <- async_depth_max in Hr. lia.
Qed.

(** A slow user, rx_depth = 8.  The PHY sends a packet of nine bytes, 1 to 9; then the user
    takes what there is; then the PHY sends a packet of one byte, 20. *)
Definition fu_none : chan Z := Chan false (Beat false false 0).
Definition fu_wait : fu_event := FuUlpi (Phy false false 0) 100 100.
Definition fu_next : fu_event := FuUlpi (Phy false true 0) 100 100.
Definition fu_up : list fu_event :=
  repeat (FuSync fu_none 0 false 0) 6 ++ [fu_wait; fu_next; fu_next] ++ repeat fu_wait 4 ++ [fu_next; fu_next; fu_wait].
Definition fu_rx_packet (l : list Z) : list fu_event :=
  [FuUlpi (Phy true true 0) 100 100] ++ map (fun d => FuUlpi (Phy true true d) 100 100) l ++ [FuUlpi (Phy true false 0) 100 100; fu_wait; fu_wait; fu_wait].
Definition fu_slow : list fu_event :=
  fu_up ++ fu_rx_packet [1; 2; 3; 4; 5; 6; 7; 8; 9] ++ repeat (FuSync fu_none 0 true 100) 10 ++ fu_rx_packet [20] ++ repeat (FuSync fu_none 0 true 100) 3.
Theorem C142_refuted : let t := trace (direct_ulpi 1 1 1 8 8) fu_slow in bytes_in fu_slow /\
  di_received (bus t) = map (Beat false false) [1; 2; 3; 4; 5; 6; 7; 8] ++ [Beat false true 9; Beat false true 20] /\
  user_got t = map (Beat false false) [1; 2; 3; 4; 5; 6; 7; 8] ++ [Beat false true 20].
Proof. split; [repeat constructor; cbn; lia|]. vm_compute. auto. Qed.
(** With a user that keeps up, both packets arrive. *)
Definition fu_fast : list fu_event :=
  fu_up ++ fu_rx_packet [1; 2; 3; 4; 5] ++ repeat (FuSync fu_none 0 true 100) 6 ++ fu_rx_packet [20] ++ repeat (FuSync fu_none 0 true 100) 3.
Fixpoint keeps_up (c : circuit fu_event fu_obs) (cap : Z) (done rest : list fu_event) : bool :=
  match rest with
  | [] => true
  | e :: r => match e with
              | FuUlpi _ _ sr => Z.of_nat (length (di_received (bus (trace c done)))) - Z.min sr (Z.of_nat (length (user_got (trace c done)))) <? cap
              | _ => true end && keeps_up c cap (done ++ [e]) r
  end.
Lemma keeps_up_ok c cap rest : forall done, keeps_up c cap done rest = true -> forall ev1 p sw sr ev2, rest = ev1 ++ FuUlpi p sw sr :: ev2 ->
  Z.of_nat (length (di_received (bus (trace c (done ++ ev1))))) - Z.min sr (Z.of_nat (length (user_got (trace c (done ++ ev1))))) < cap.
Proof.
  induction rest as [|e r IH]; intros done H ev1 p sw sr ev2 E; [destruct ev1; discriminate|]. cbn [keeps_up] in H. apply andb_prop in H. destruct H as [H1 H2].
  destruct ev1 as [|e' ev1]; cbn [app] in E; injection E as -> E.
  - rewrite app_nil_r. now apply Z.ltb_lt.
  - specialize (IH _ H2 ev1 p sw sr ev2 E). rewrite <- app_assoc in IH. exact IH.
Qed.
Example C142_nonvacuous : let c := direct_ulpi 1 1 1 8 8 in bytes_in fu_fast /\
  (forall ev1 p sw sr ev2, fu_fast = ev1 ++ FuUlpi p sw sr :: ev2 ->
     Z.of_nat (length (di_received (bus (trace c ev1)))) - Z.min sr (Z.of_nat (length (user_got (trace c ev1)))) < capacity 8) /\
  user_got (trace c fu_fast) = map (Beat false false) [1; 2; 3; 4] ++ [Beat false true 5; Beat false true 20].
Proof.
  split; [repeat constructor; cbn; lia|]. split; [|vm_compute; reflexivity].
  intros ev1 p sw sr ev2 E. apply (keeps_up_ok _ (capacity 8) fu_fast []) with (ev2 := ev2) (p := p) (sw := sw); [vm_compute; reflexivity|exact E].
Qed.

(** ** C143: sending *)
(** The bytes the PHY takes: it says next while the link drives the bus and is not stopping. *)
Definition phy_takes (o : xc_obs) : bool := xo_oe o && negb (xo_stp o) && ph_nxt (xo_phy o).
Definition on_bus (b : list di_obs) : list Z := flat_map (fun o => if phy_takes (dio_xc o) then [xo_data_o (dio_xc o)] else []) b.

(** The user's bytes go to the bus in order and framed, each packet starting with a transmit
    command, after the four set-up bytes; at most the FIFO's depth of beats are on their way. *)
Theorem C143_bytes_partial : forall n2 n4 nt rxd txd ev, bytes_in ev ->
  let t := trace (direct_ulpi n2 n4 nt rxd txd) ev in
  exists taken held, user_sent t = taken ++ held /\ Z.of_nat (length held) <= capacity txd /\
    ((exists k, di_sent (bus t) = firstn k phy_init /\ taken = []) \/ plain (di_sent (bus t)) = plain phy_init ++ tagged true taken).
Proof.
  intros n2 n4 nt rxd txd ev Hb t. destruct (full_split n2 n4 nt rxd txd ev) as (dins & txe & rxe & S1 & S2 & S3 & B & A1 & E1 & A2 & E2).
  destruct (bytes_run n2 n4 nt rxd txd ev Hb) as (_ & R & _). fold t in B, A1, E1, A2, E2, R.
  destruct (af_lossless 8 (async_depth txd) ltac:(lia) (async_depth_pos txd) txe) as (held & E & L); [now rewrite A1|].
  exists (di_accepted (bus t)), held. rewrite <- A1, <- E1. split; [exact E|]. split; [unfold capacity; rewrite <- async_depth_max; exact L|].
  rewrite E1, B. apply C79_init_first.
Qed.

(** Once the set-up is over, a byte that the PHY takes is the next one of the user, if the
    FIFO shows it; otherwise it is 0, a byte nobody sent. *)
Theorem C143_edge : forall n2 n4 nt rxd txd ev p sw sr o room, bytes_in ev ->
  let c := direct_ulpi n2 n4 nt rxd txd in let t := trace c ev in
  trace c (ev ++ [FuUlpi p sw sr]) = t ++ [FoUlpi o room] ->
  (4 <= length (di_sent (bus t)))%nat -> phy_takes (dio_xc o) = true ->
  let n := length (di_accepted (bus t)) in
  (Z.of_nat n < Z.min sw (Z.of_nat (length (user_sent t))) -> cvalid (o_sink (dio_tx o)) = true) /\
  if cvalid (o_sink (dio_tx o)) then
    nth_error (tagged true (user_sent t)) n = Some (xo_data_o (dio_xc o), blast (cbeat (xo_sink (dio_xc o)))) /\
    di_accepted (bus t ++ [o]) = firstn (S n) (user_sent t)
  else xo_data_o (dio_xc o) = 0 /\ di_accepted (bus t ++ [o]) = di_accepted (bus t).
Proof.
  intros n2 n4 nt rxd txd ev p sw sr o room Hb c t Ho H4 Hp n.
  destruct (full_split n2 n4 nt rxd txd ev) as (dins & txe & rxe & S1 & S2 & S3 & B & A1 & E1 & A2 & E2).
  destruct (bytes_run n2 n4 nt rxd txd ev Hb) as (_ & R & _). fold c in S1, S2, S3. fold c t in B, A1, E1, R.
  destruct (af_inv_run 8 (async_depth txd) ltac:(lia) (async_depth_pos txd) txe ltac:(now rewrite A1)) as (H1 & H2 & H3 & H5 & H6 & H7). rewrite <- S2 in H1, H2, H3, H5, H6, H7.
  destruct (di_inv nt dins) as [D1 D2]. rewrite <- S1, <- B in D1, D2.
  assert (Up : di_fsm (fu_di (state c ev)) = DiUp).
  { destruct (di_fsm (fu_di (state c ev))) eqn:Ef; [..|reflexivity]; unfold di_taken in D1; rewrite Ef in D1; destruct D1 as [D1 _]; rewrite D1, firstn_length in H4; cbn [length phy_init] in H4; lia. }
  rewrite A1 in H6, H7. rewrite E1 in H7. set (s := state c ev) in *. set (f := fu_tx s) in *.
  assert (HL : length (af_mem f) = length (user_sent t)) by (rewrite H6, map_length; reflexivity).
  assert (HN : Z.of_nat n = af_rd f) by (unfold n; rewrite H7, firstn_length; lia).
  unfold t in Ho. rewrite trace_snoc in Ho. apply app_inv_head in Ho. cbn [cout c direct_ulpi] in Ho. fold c s in Ho. injection Ho as Ho _.
  assert (K : o_sink (dio_tx o) = cv_out 8 f sw) by (rewrite <- Ho; reflexivity).
  assert (RD : xc_ready (di_xc (fu_di s)) p = true) by (rewrite <- Ho in Hp; exact Hp).
  assert (RS : o_sready (dio_tx o) = true).
  { rewrite <- Ho. change (di_se_ready (fu_di s) p = true). unfold di_se_ready. now rewrite Up. }
  assert (X : xo_sink (dio_xc o) = src sender (di_se (fu_di s)) (cv_out 8 f sw)).
  { rewrite <- Ho. change (di_sink (fu_di s) (cv_out 8 f sw) = src sender (di_se (fu_di s)) (cv_out 8 f sw)). unfold di_sink. now rewrite Up. }
  assert (DO : xo_data_o (dio_xc o) = if cvalid (xo_sink (dio_xc o)) then bdata (cbeat (xo_sink (dio_xc o))) else 0).
  { rewrite <- Ho. change (xc_data_o (di_xc (fu_di s)) p (xo_sink (dio_xc (fu_ulpi n2 n4 nt s p sw))) = if cvalid (xo_sink (dio_xc (fu_ulpi n2 n4 nt s p sw))) then bdata (cbeat (xo_sink (dio_xc (fu_ulpi n2 n4 nt s p sw)))) else 0).
    unfold xc_data_o. unfold xc_ready in RD. apply andb_prop in RD. destruct RD as [RD _]. now rewrite RD. }
  assert (AC : di_accepted (bus t ++ [o]) = di_accepted (bus t) ++ xfer (cv_out 8 f sw) true).
  { unfold di_accepted. rewrite map_app, accepted_app. cbn [map]. rewrite accepted_1, K, RS. reflexivity. }
  assert (VS : forall k, cvalid (src sender (di_se (fu_di s)) k) = cvalid k) by (intros k; cbn [src sender]; destruct (di_se (fu_di s)); reflexivity).
  rewrite X, VS in DO. rewrite K, X. split.
  - intros Hn. cbn [cv_out cvalid]. unfold af_rrdy, clampup. apply Z.ltb_lt. lia.
  - rewrite AC. unfold xfer. rewrite andb_true_r. destruct (cvalid (cv_out 8 f sw)) eqn:V; [|now rewrite app_nil_r].
    cbn [cv_out cvalid] in V. unfold af_rrdy, clampup in V. apply Z.ltb_lt in V.
    destruct (nth_error (user_sent t) n) as [b|] eqn:Nb; [|apply nth_error_None in Nb; lia].
    assert (KB : cbeat (cv_out 8 f sw) = b).
    { cbn [cv_out cbeat]. rewrite H6. replace (Z.to_nat (af_rd f)) with n by lia. rewrite (nth_error_nth _ n 0 (map_nth_error (fifo_pack 8) _ _ Nb)).
      apply pack_unpack; [lia|]. rewrite Forall_forall in R. apply R. eapply nth_error_In; eauto. }
    assert (FN : di_accepted (bus t) = firstn n (user_sent t)) by (replace n with (Z.to_nat (af_rd f)) by lia; exact H7).
    split.
    + assert (T : forall l st k b, nth_error l k = Some b -> nth_error (tagged st l) k = Some (if fold_left (fun _ b => blast b) (firstn k l) st then 64 + bdata b mod 16 else bdata b, blast b)).
      { clear. induction l as [|x l IH]; intros st [|k] b E; try discriminate; cbn [nth_error tagged firstn fold_left] in *; [injection E as ->; reflexivity|]. apply IH, E. }
      rewrite (T _ true n b Nb). rewrite DO. cbn [src sender]. rewrite D2. unfold at_start. rewrite FN.
      destruct (fold_left _ _ _); cbn [cbeat bdata blast]; rewrite ?KB; unfold sender_tag; [rewrite Z.add_comm|]; reflexivity.
    + rewrite KB, FN. symmetry. apply firstn_snoc_nth. exact Nb.
Qed.

(** If after the set-up the PHY finds a byte of the user each time it takes one, what it takes
    is what the user sent. *)
Theorem C143_whole_partial : forall n2 n4 nt rxd txd ev1 ev2, bytes_in (ev1 ++ ev2) ->
  let c := direct_ulpi n2 n4 nt rxd txd in
  di_sent (bus (trace c ev1)) = phy_init -> di_accepted (bus (trace c ev1)) = [] ->
  (forall u p sw sr v o room, ev2 = u ++ FuUlpi p sw sr :: v -> let t := trace c (ev1 ++ u) in
     trace c ((ev1 ++ u) ++ [FuUlpi p sw sr]) = t ++ [FoUlpi o room] -> phy_takes (dio_xc o) = true ->
     Z.of_nat (length (di_accepted (bus t))) < Z.min sw (Z.of_nat (length (user_sent t)))) ->
  let t := trace c (ev1 ++ ev2) in
  exists b2, bus t = bus (trace c ev1) ++ b2 /\
    on_bus b2 = firstn (length (on_bus b2)) (map fst (tagged true (user_sent t))) /\ length (on_bus b2) = length (di_accepted (bus t)).
Proof.
  intros n2 n4 nt rxd txd ev1 ev2 Hb c HS HA. revert Hb. induction ev2 as [|e ev2 IH] using rev_ind; intros Hb Hv t.
  { exists []. unfold t. rewrite !app_nil_r, HA. auto. }
  unfold t. clear t. rewrite app_assoc in *. apply Forall_app in Hb as Hb'. destruct Hb' as [Hb1 _].
  destruct IH as (b2 & E1 & E2 & E3); [exact Hb1| |].
  { intros u p sw sr v o room E. apply (Hv u p sw sr (v ++ [e])). rewrite E, <- app_assoc. reflexivity. }
  set (t := trace c (ev1 ++ ev2)) in *.
  assert (PF : forall l l', map fst (tagged true (l ++ l')) = map fst (tagged true l) ++ map fst (tagged (at_start l) l')).
  { clear. unfold at_start. intros l. generalize true. induction l as [|x l IH]; intros st l'; [reflexivity|]. cbn [app tagged map fold_left]. now rewrite IH. }
  assert (FX : forall n (l x : list Z), (n <= length l)%nat -> firstn n l = firstn n (l ++ x)) by (intros; rewrite firstn_app; replace (n - length l)%nat with 0%nat by lia; now rewrite firstn_O, app_nil_r).
  assert (LT : forall l st, length (map fst (tagged st l)) = length l) by (clear; induction l; intros; cbn; auto).
  assert (LE : (length (on_bus b2) <= length (user_sent t))%nat).
  { apply (f_equal (@length _)) in E2. rewrite firstn_length, LT in E2. lia. }
  rewrite trace_snoc. fold t. set (o := cout c (state c (ev1 ++ ev2)) e). assert (US : user_sent (t ++ [o]) = user_sent t ++ user_sent [o]) by apply flat_map_app. rewrite US. clear US.
  destruct e as [k sr r sw|p sw sr].
  - exists b2. assert (B : bus (t ++ [o]) = bus t) by (unfold bus; rewrite flat_map_app; apply app_nil_r). rewrite B. split; [exact E1|]. split; [|exact E3].
    rewrite PF. rewrite <- FX by (rewrite LT; exact LE). exact E2.
  - assert (Eo : exists d room, o = FoUlpi d room) by (eexists _, _; reflexivity). destruct Eo as (d & room & Eo).
    assert (B : bus (t ++ [o]) = bus t ++ [d]) by (unfold bus; rewrite flat_map_app, Eo; reflexivity). rewrite B. exists (b2 ++ [d]).
    split; [rewrite E1, <- app_assoc; reflexivity|].
    assert (TR : trace c ((ev1 ++ ev2) ++ [FuUlpi p sw sr]) = t ++ [FoUlpi d room]) by (rewrite trace_snoc; fold t o; now rewrite Eo).
    assert (U : user_sent [o] = []) by (rewrite Eo; reflexivity).
    rewrite U, app_nil_r. clear U. unfold on_bus. rewrite flat_map_app. fold (on_bus b2). cbn [flat_map]. rewrite app_nil_r.
    destruct (phy_takes (dio_xc d)) eqn:Pt.
    + assert (H4 : (4 <= length (di_sent (bus t)))%nat) by (rewrite E1; unfold di_sent; rewrite flat_map_app, app_length; fold (di_sent (bus (trace c ev1))); rewrite HS; cbn [length phy_init]; lia).
      destruct (C143_edge n2 n4 nt rxd txd (ev1 ++ ev2) p sw sr d room Hb1 TR H4 Pt) as [Q1 Q2]. fold c t in Q1, Q2.
      specialize (Hv ev2 p sw sr [] d room eq_refl). cbv zeta in Hv. fold t in Hv. specialize (Hv TR Pt). rewrite (Q1 Hv) in Q2. destruct Q2 as [Q2 Q3].
      rewrite app_length. cbn [length]. rewrite Nat.add_1_r. split.
      * rewrite E2 at 1. rewrite <- E3 in Q2. symmetry. apply firstn_snoc_nth. rewrite nth_error_map, Q2. reflexivity.
      * rewrite Q3, firstn_length. lia.
    + rewrite app_nil_r. split; [exact E2|]. rewrite E3. unfold di_accepted. rewrite map_app, accepted_app. cbn [map]. rewrite accepted_1.
      enough (Z : xfer (o_sink (dio_tx d)) (o_sready (dio_tx d)) = []) by (now rewrite Z, app_nil_r).
      assert (SR : o_sready (dio_tx d) = false).
      { unfold o in Eo. cbn [cout c direct_ulpi] in Eo. injection Eo as Eo _. rewrite <- Eo in Pt |- *. set (s := state c (ev1 ++ ev2)) in *.
        change (xc_ready (di_xc (fu_di s)) p = false) in Pt. change (di_se_ready (fu_di s) p = false). unfold di_se_ready. destruct (di_fsm _); auto. }
      rewrite SR. unfold xfer. now rewrite andb_false_r.
Qed.

(** The user is late with the second byte of a packet: the PHY takes a byte 0 in its middle. *)
Definition fu_give (d : Z) (l : bool) : fu_event := FuSync (Chan true (Beat false l d)) 100 false 0.
Definition fu_late : list fu_event := fu_up ++ [fu_give 0xC3 false; fu_next; fu_next; fu_give 0x11 true; fu_next; fu_wait; fu_wait].
Theorem C143_refuted : let t := trace (direct_ulpi 1 1 1 8 8) fu_late in bytes_in fu_late /\
  user_sent t = [Beat false false 0xC3; Beat false true 0x11] /\
  on_bus (bus t) = [0x84; 0x60; 0x8A; 0] ++ [0x43; 0; 0x11].
Proof. split; [repeat constructor; cbn; lia|]. vm_compute. auto. Qed.

(** The PHY takes the bus for a packet of its own after the first byte of the user's packet.
    The rest of the user's packet is then sent on its own, without a transmit command. *)
Definition fu_turned : list fu_event :=
  fu_up ++ [fu_give 0xC3 false; fu_give 0x11 false; fu_give 0x22 true; fu_next] ++ fu_rx_packet [7] ++ [fu_next; fu_next; fu_wait].
Theorem C143_turn_refuted : let c := direct_ulpi 1 1 1 8 8 in bytes_in fu_turned /\
  user_sent (trace c fu_turned) = [Beat false false 0xC3; Beat false false 0x11; Beat false true 0x22] /\
  bus (trace c fu_turned) = bus (trace c (firstn 20 fu_turned)) ++ skipn 11 (bus (trace c fu_turned)) /\
  on_bus (bus (trace c (firstn 20 fu_turned))) = [0x84; 0x60; 0x8A; 0] ++ [0x43] /\
  on_bus (skipn 11 (bus (trace c fu_turned))) = [0x11; 0x22] /\
  di_received (bus (trace c fu_turned)) = [Beat false true 7].
Proof. split; [repeat constructor; cbn; lia|]. vm_compute. repeat split. Qed.

(** A packet given in time. *)
Definition fu_timely : list fu_event := [fu_give 0xC3 false; fu_wait; fu_give 0x11 false; fu_next; fu_give 0x22 true; fu_next; fu_next; fu_wait; fu_wait].
Fixpoint in_time (c : circuit fu_event fu_obs) (done rest : list fu_event) : bool :=
  match rest with
  | [] => true
  | e :: r => match e, cout c (state c done) e with
              | FuUlpi _ sw _, FoUlpi o _ => negb (phy_takes (dio_xc o)) || (Z.of_nat (length (di_accepted (bus (trace c done)))) <? Z.min sw (Z.of_nat (length (user_sent (trace c done)))))
              | _, _ => true end && in_time c (done ++ [e]) r
  end.
Lemma in_time_ok c rest : forall done, in_time c done rest = true -> forall u p sw sr v o room, rest = u ++ FuUlpi p sw sr :: v ->
  let t := trace c (done ++ u) in trace c ((done ++ u) ++ [FuUlpi p sw sr]) = t ++ [FoUlpi o room] -> phy_takes (dio_xc o) = true ->
  Z.of_nat (length (di_accepted (bus t))) < Z.min sw (Z.of_nat (length (user_sent t))).
Proof.
  induction rest as [|e r IH]; intros done H u p sw sr v o room E t Ht Hp; [destruct u; discriminate|]. cbn [in_time] in H. apply andb_prop in H. destruct H as [H1 H2].
  destruct u as [|e' u]; cbn [app] in E; injection E as -> E; unfold t in *; clear t.
  - rewrite app_nil_r in *. rewrite trace_snoc in Ht. apply app_inv_head in Ht. injection Ht as Ht. rewrite Ht, Hp in H1. now apply Z.ltb_lt.
  - specialize (IH _ H2 u p sw sr v o room E). rewrite <- !app_assoc in IH. rewrite <- app_assoc in Ht. exact (IH Ht Hp).
Qed.
Example C143_nonvacuous : let c := direct_ulpi 1 1 1 8 8 in bytes_in (fu_up ++ fu_timely) /\
  di_sent (bus (trace c fu_up)) = phy_init /\ di_accepted (bus (trace c fu_up)) = [] /\
  (forall u p sw sr v o room, fu_timely = u ++ FuUlpi p sw sr :: v -> let t := trace c (fu_up ++ u) in
     trace c ((fu_up ++ u) ++ [FuUlpi p sw sr]) = t ++ [FoUlpi o room] -> phy_takes (dio_xc o) = true ->
     Z.of_nat (length (di_accepted (bus t))) < Z.min sw (Z.of_nat (length (user_sent t)))) /\
  on_bus (bus (trace c (fu_up ++ fu_timely))) = [0x84; 0x60; 0x8A; 0] ++ [0x43; 0x11; 0x22].
Proof.
  split; [repeat constructor; cbn; lia|]. split; [vm_compute; reflexivity|]. split; [vm_compute; reflexivity|]. split; [|vm_compute; reflexivity].
  apply in_time_ok. vm_compute. reflexivity.
Qed.

Print Assumptions C142_received_partial.
Print Assumptions C142_kept_partial.
Print Assumptions C142_refuted.
Print Assumptions C143_bytes_partial.
Print Assumptions C143_edge.
Print Assumptions C143_whole_partial.
Print Assumptions C143_refuted.
Print Assumptions C143_turn_refuted.
