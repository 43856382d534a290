(** SPI to Wishbone: C126, C127. *)
From Verif Require Import Stream Bits Fifo_model I2cstream_proofs Spistream_model Spimaster_model Spislave_model Spislave_props Spirate_props Spilink_model Spilink_spec Spilink_proofs Spilink_props Spibridge_model Spibridge_props Spiwb_model.

Section Wb.
  Context (cpol cpha : bool) (width bw : Z) (stages : list Z) (A : Z).
  Notation c := (spi_wb cpol cpha width bw stages A).
  Notation slave := (spi_slave cpol cpha width bw true stages).
  Notation wb := (bridge width A).

  Definition sl_back (o : sl_obs) : sl_in := SlIn (so_pins o) (so_sink o) (o_rready (so_fifo o)).
  Definition br_back (o : br_obs) : br_in := BrIn (o_sink (bo_io o)) (o_rready (bo_io o)) (bo_ack o) (bo_dat_r o).
  Lemma wb_slave ins : exists sins, map wo_slave (trace c ins) = trace slave sins.
  Proof.
    eexists. exact (proj1 (part_trace c slave sl_back fst (fun s i => wb_sin cpol cpha width stages (fst s) (snd s) i) wo_slave
      ltac:(intros ? [? ? ?]; reflexivity) eq_refl ltac:(reflexivity) ltac:(reflexivity) ins)).
  Qed.
  Lemma wb_bridge ins : exists bins, map wo_bridge (trace c ins) = trace wb bins /\ snd (state c ins) = state wb bins.
  Proof.
    eexists. exact (part_trace c wb br_back snd (fun s i => wb_bin cpol cpha width stages (fst s) i) wo_bridge
      ltac:(intros ? [? ? ? ?]; reflexivity) eq_refl ltac:(reflexivity) ltac:(reflexivity) ins).
  Qed.
  (** The bridge takes what leaves the slave's FIFO. *)
  Lemma wb_taken ins : br_taken (map wo_bridge (trace c ins)) = map (wb_split width) (map bdata (emitted (map so_fifo (map wo_slave (trace c ins))))).
  Proof.
    apply (run_inv c (fun t _ => br_taken (map wo_bridge t) = map (wb_split width) (map bdata (emitted (map so_fifo (map wo_slave t)))))); [reflexivity|].
    intros t s i IH. rewrite !map_app. cbn [map]. rewrite br_taken_snoc, emitted_app, emitted_1, !map_app, IH. f_equal.
    cbn [cout spi_wb wo_bridge wo_slave bridge bo_io o_sink o_sready spi_slave so_fifo o_src o_rready wb_bin bi_sink wb_sin sl_rready].
    unfold xfer. cbn [wb_chan cvalid]. destruct (cvalid (src _ _ _)), (br_ready _ _); reflexivity.
  Qed.

  Context (Hok : stages_ok width bw stages) (HW : 8 <= width) (HA : 0 < A <= width) (Hal : 2 ^ (width - A) = width / 8).
  Lemma wb_words ins : let t := trace c ins in
    dq_ok bw (map wo_slave t) ->
    Forall (fun o => so_push o <> None -> o_sready (so_fifo o) = true) (map wo_slave t) ->
    exists held, map fst (pushes (map wo_slave t)) = br_taken (map wo_bridge t) ++ held /\ (length held <= 8)%nat.
  Proof.
    intros t Hd Hr. unfold t in *. destruct (wb_slave ins) as [sins E]. rewrite wb_taken. rewrite E in *.
    destruct (C55_delivered cpol cpha width bw true stages sins Hok Hd Hr) as (held & X & L).
    exists (map (wb_split width) held). split; [|now rewrite map_length]. rewrite <- map_app, <- X, map_map.
    destruct Hok as (Hb & Hst & Hs). pose proof (sl_push_ok cpol cpha width bw true stages Hb Hst Hs sins Hd) as P.
    clear -P HW. assert (0 < 2 ^ width) by (apply Z.pow_pos_nonneg; lia). induction P as [|o u P1 P IH]; [reflexivity|].
    change (pushes (o :: u)) with (match so_push o with Some w => [w] | None => [] end ++ pushes u). rewrite !map_app, IH. f_equal.
    unfold push_ok in P1. destruct (so_push o) as [[[d l] e]|]; [|reflexivity]. cbn [map fst snd] in *. destruct P1 as (_ & P1 & P2).
    unfold wb_split. rewrite (Z.mul_comm (2 ^ width)), Z.mod_add, Z.div_add, Z.mod_small, Z.div_small by lia. reflexivity.
  Qed.
  Lemma wb_range ins : let t := trace c ins in
    dq_ok bw (map wo_slave t) ->
    Forall (fun o => so_push o <> None -> o_sready (so_fifo o) = true) (map wo_slave t) ->
    br_ok width (map wo_bridge t).
  Proof.
    intros t Hd Hr. destruct (wb_words ins Hd Hr) as (held & X & _). fold t in X. unfold br_ok.
    assert (P : Forall (fun w => 0 <= fst w < 2 ^ width /\ 0 <= snd w <= width) (map fst (pushes (map wo_slave t)))).
    { unfold t in *. destruct (wb_slave ins) as [sins E]. rewrite E in *. destruct Hok as (Hb & Hst & Hs).
      pose proof (sl_push_ok cpol cpha width bw true stages Hb Hst Hs sins Hd) as P. clear -P. induction P as [|o u P1 P IH]; [constructor|].
      change (pushes (o :: u)) with (match so_push o with Some w => [w] | None => [] end ++ pushes u). rewrite map_app. apply Forall_app. split; [|exact IH].
      unfold push_ok in P1. destruct (so_push o) as [w|]; [|constructor]. constructor; [|constructor]. apply P1. }
    rewrite X in P. apply Forall_app in P. apply P.
  Qed.
  Lemma wb_ops ins : let t := trace c ins in
    dq_ok bw (map wo_slave t) ->
    Forall (fun o => so_push o <> None -> o_sready (so_fifo o) = true) (map wo_slave t) ->
    exists held l,
      map fst (pushes (map wo_slave t)) = br_taken (map wo_bridge t) ++ held /\ (length held <= 8)%nat /\
      asked width A (br_taken (map wo_bridge t)) = bus_ops (map wo_bridge t) ++ l /\
      (forall op, In op l -> exists adr last, op = Rd adr last).
  Proof.
    intros t Hd Hr. destruct (wb_words ins Hd Hr) as (held & X & Lh). pose proof (wb_range ins Hd Hr) as R. fold t in X, R.
    unfold t in *. destruct (wb_bridge ins) as (bins & E & _). rewrite E in *.
    destruct (C61_bursts width A bins HW HA Hal R) as (l & Y & Z). exists held, l. auto.
  Qed.
End Wb.

(** C126: the Wishbone cycles are those asked for by the words received on the pins, in
    order, each once; of the words received at most 8 are still in the FIFO, and only
    reads can be unfinished. *)
Theorem C126_operations : forall cpol cpha width bw stages addr_width ins,
  stages_ok width bw stages -> 8 <= width -> 0 < addr_width <= width -> 2 ^ (width - addr_width) = width / 8 ->
  let t := trace (spi_wb cpol cpha width bw stages addr_width) ins in
  let u := map wo_slave t in let v := map wo_bridge t in
  Forall (fun o => 0 <= p_dq (so_pins o) < 2 ^ bw) u ->
  Forall (fun o => so_push o <> None -> o_sready (so_fifo o) = true) u ->
  exists words pending held l,
    sampled cpol cpha low (looked_at u) = concat words ++ pending /\
    Forall2 (fun ds w => snd w = bw * Z.of_nat (length ds) /\ fst w mod 2 ^ snd w = value bw ds) words (br_taken v ++ held) /\
    (length held <= 8)%nat /\
    asked width addr_width (br_taken v) = bus_ops v ++ l /\
    (forall op, In op l -> exists adr last, op = Rd adr last).
Proof.
  intros cpol cpha width bw stages A ins Hok HW HA Hal t u v Hd Hr.
  destruct (wb_ops cpol cpha width bw stages A Hok HW HA Hal ins Hd Hr) as (held & l & X1 & X2 & X3 & X4). fold t u v in X1, X3.
  destruct (wb_slave cpol cpha width bw stages A ins) as [sins E]. fold t u in E. rewrite E in *.
  destruct (C55_received cpol cpha width bw true stages sins Hok Hd) as (words & pending & Y1 & Y2 & _).
  exists words, pending, held, l. split; [exact Y1|]. split; [|auto]. rewrite <- X1. clear -Y2. induction Y2; constructor; auto.
Qed.

Lemma asked_app width A a b : asked width A (a ++ b) = asked width A a ++ snd (parse_all width A (fst (parse_all width A PCommand a)) b).
Proof. unfold asked. now rewrite parse_all_app. Qed.

(** The bus acknowledges a write within [L] cycles. *)
Definition acks_within (L : Z) (v : list br_obs) : Prop :=
  forall t1 seg t2, v = t1 ++ seg ++ t2 -> Z.of_nat (length seg) = L -> exists o, In o seg /\ (bo_stb o && negb (bo_ack o)) = false.

Section Host.
  Context (width bw div delay : Z) (cpol cpha : bool) (A L : Z).
  Context (Hdiv : 0 <= div < 256) (Hbw : In bw [1; 2; 4; 8]) (Hn : (bw | width)) (Hw : 8 <= width <= 256) (Hm : cpol = cpha).
  Context (HA : 0 < A <= width) (Hal : 2 ^ (width - A) = width / 8) (HL : 0 < L <= 2 * (width / bw)).
  Notation c := (spi_wb cpol cpha width bw [width] A).
  Notation host := (spi_host width bw div delay).

  Lemma wb_bw : 0 < bw.
  Proof. cbn [In] in Hbw. lia. Qed.
  Lemma wb_stages : stages_ok width bw [width].
  Proof. pose proof wb_bw. split; [assumption|]. split; [discriminate|]. constructor; [|constructor]. split; [lia|exact Hn]. Qed.
  Lemma watches_prefix (u u' : list sl_obs) t : watches (u ++ u') t -> watches u t.
  Proof. intros [r E]. rewrite map_app, changes_app in E. unfold watches. rewrite E, <- app_assoc. eauto. Qed.

  (** Only writes so far. *)
  Definition only_writes (v : list br_obs) : Prop := Forall (fun o => bo_cyc o = true -> bo_we o = true) v.
  Lemma wb_link ins sins : let t := trace host ins in let u := trace c sins in
    Forall (fun b => 0 <= bdata b < 2 ^ width) (sent t) -> watches (map wo_slave u) t ->
    acks_within L (map wo_bridge u) -> only_writes (map wo_bridge u) ->
    dq_ok bw (map wo_slave u) /\
    Forall (fun o => so_push o <> None -> o_sready (so_fifo o) = true) (map wo_slave u) /\
    exists held rest, map (fun b => (bdata b, width)) (sent t) = br_taken (map wo_bridge u) ++ held ++ rest /\
      map fst (pushes (map wo_slave u)) = br_taken (map wo_bridge u) ++ held.
  Proof.
    intros t u HF HWt HK HO. pose proof wb_bw as B0.
    assert (Hq : width = bw * Z.of_nat (Z.to_nat (width / bw))).
    { destruct Hn as [q ->]. rewrite Z.div_mul by lia. rewrite Z2Nat.id by nia. lia. }
    destruct (wb_slave cpol cpha width bw [width] A sins) as [ss E]. fold u in E.
    assert (D : dq_ok bw (map wo_slave u)).
    { rewrite E in *. exact (slave_dq width bw div delay cpol cpha true (Z.to_nat (width / bw)) Hbw ins ss HWt). }
    assert (FL : Forall (fun w => snd (fst w) = width) (pushes (map wo_slave u)) /\ exists rest, map bdata (sent t) = map (fun w => fst (fst w)) (pushes (map wo_slave u)) ++ rest).
    { rewrite E in *. exact (C117_words width bw div delay cpol cpha true ins ss Hdiv Hbw Hn ltac:(lia) Hm HF HWt). }
    destruct FL as [FL [rest RS]].
    assert (TW : taken_within L (map so_fifo (map wo_slave u))).
    { intros t1 seg t2 E' Hs. rewrite map_map in E'. apply map_eq_app in E'. destruct E' as (u1 & u23 & E1 & <- & E2). symmetry in E2. apply eq_sym, map_eq_app in E2.
      destruct E2 as (u2 & u3 & -> & <- & <-). rewrite map_length in Hs.
      destruct (HK (map wo_bridge u1) (map wo_bridge u2) (map wo_bridge u3)) as (b & Hin & Hb).
      { now rewrite E1, !map_app. }
      { now rewrite map_length. }
      apply in_map_iff in Hin. destruct Hin as (o & <- & Hin). exists (so_fifo (wo_slave o)). split; [apply in_map_iff; exists o; auto|].
      assert (Ho : In o u) by (rewrite E1; apply in_or_app; right; apply in_or_app; now left).
      assert (We : bo_cyc (wo_bridge o) = true -> bo_we (wo_bridge o) = true).
      { unfold only_writes in HO. rewrite Forall_forall in HO. apply HO. apply in_map_iff. eauto. }
      apply in_split in Ho. destruct Ho as (a & b & Eo). unfold u in Eo. apply trace_one in Eo. destruct Eo as (i1 & i & i2 & _ & _ & ->).
      set (s := state c i1) in *. clearbody s. revert Hb We. clear.
      cbn [cout spi_wb wo_bridge wo_slave bridge bo_stb bo_cyc bo_we bo_ack spi_slave so_fifo wb_bin bi_ack].
      unfold stalled. cbn [o_src o_rready wb_sin sl_rready]. unfold br_stb, br_ready. cbn [bi_sink wb_bin wb_chan cvalid bi_ack].
      destruct (bf (snd s)); [intros; now rewrite andb_false_r|intros; now rewrite andb_false_r|].
      destruct (b_write (snd s)); cbn [andb]; [|intros _ X; discriminate (X eq_refl)].
      intros X _. exact X. }
    assert (R : Forall (fun o => so_push o <> None -> o_sready (so_fifo o) = true) (map wo_slave u)).
    { rewrite E in *. apply (C55_no_overrun cpol cpha width bw true [width] ss (width / bw) L wb_stages D); [|exact HL|exact TW].
      eapply Forall_impl; [|exact FL]. cbn beta. intros w ->. destruct Hn as [q ->]. rewrite Z.div_mul by lia. lia. }
    split; [exact D|]. split; [exact R|].
    destruct (wb_words cpol cpha width bw [width] A wb_stages ltac:(lia) sins D R) as (held & X & _). fold u in X.
    exists held, (map (fun d => (d, width)) rest). split; [|exact X]. rewrite app_assoc, <- X.
    rewrite <- (map_map bdata (fun d => (d, width))), RS, map_app. f_equal.
    clear -FL. induction FL as [|[[d l] e] ws H FL IH]; [reflexivity|]. cbn [map fst snd] in *. now rewrite IH, H.
  Qed.

  Lemma rd_in v p l : p = PCommand -> forall x, asked width A v = x ++ l -> (exists a b, In (Rd a b) l) -> exists a b, In (Rd a b) (asked width A v).
  Proof. intros _ x E (a & b & H). exists a, b. rewrite E. apply in_or_app. now right. Qed.

  (** The words asked for contain no read: the bridge never starts one. *)
  Lemma wb_only_writes ins sins : let t := trace host ins in let u := trace c sins in
    Forall (fun b => 0 <= bdata b < 2 ^ width) (sent t) -> watches (map wo_slave u) t ->
    acks_within L (map wo_bridge u) ->
    (forall a l, ~ In (Rd a l) (asked width A (map (fun b => (bdata b, width)) (sent t)))) ->
    only_writes (map wo_bridge u).
  Proof.
    intros t u HF HWt HK HR.
    refine (proj2 (run_inv_hyp c (fun u => watches (map wo_slave u) t /\ acks_within L (map wo_bridge u))
      (fun u s => (exists sins, u = trace c sins /\ s = state c sins) /\ only_writes (map wo_bridge u)) _ _ _ sins (conj HWt HK))).
    - intros a b [H1 H2]. rewrite map_app in H1, H2. split; [eapply watches_prefix; exact H1|].
      intros t1 seg t2 E. apply (H2 t1 seg (t2 ++ map wo_bridge b)). now rewrite E, <- !app_assoc.
    - split; [exists []; auto|constructor].
    - clear sins u HWt HK. intros u s i [H1 H2] ((sins & -> & ->) & IH).
      split; [exists (sins ++ [i]); unfold state; rewrite trace_app, state_from_app; now split|].
      assert (HWt : watches (map wo_slave (trace c sins)) t) by (rewrite map_app in H1; eapply watches_prefix; exact H1).
      assert (HK : acks_within L (map wo_bridge (trace c sins))).
      { rewrite map_app in H2. intros t1 seg t2 E. apply (H2 t1 seg (t2 ++ map wo_bridge [cout c (state c sins) i])). now rewrite E, <- !app_assoc. }
      destruct (wb_link ins sins HF HWt HK IH) as (D & R & held & rest & E & _). fold t in E.
      rewrite map_app. cbn [map]. apply Forall_app. split; [exact IH|]. constructor; [|constructor].
      destruct (bo_we _) eqn:W; [auto|]. intros C. exfalso.
      pose proof (wb_range cpol cpha width bw [width] A wb_stages ltac:(lia) sins D R) as OKr.
      destruct (wb_bridge cpol cpha width bw [width] A sins) as (bins & Eb & Es). rewrite Eb in OKr.
      destruct (br_run width A ltac:(lia) HA Hal bins OKr) as (_ & _ & p & l & Ep & Hs).
      rewrite <- Es in Hs. cbn [cout spi_wb wo_bridge bridge bo_cyc bo_we] in C, W.
      destruct (bf (snd (state c sins))); try discriminate C. cbn [andb] in W. rewrite W in Hs. destruct Hs as [_ Hl].
      rewrite E, Eb in HR. rewrite asked_app in HR. unfold asked in HR. rewrite Ep in HR. cbn [snd] in HR.
      set (ba := b_addr (snd (state c sins))) in *. set (nw := words_of width (b_count (snd (state c sins)))) in *.
      apply (HR (word_adr width A ba 0) (0 =? nw - 1)). apply in_or_app. left. apply in_or_app. right.
      rewrite Hl. unfold reads. assert (1 <= nw) by (unfold nw, words_of; lia). apply in_map_iff. exists 0%nat. split; [reflexivity|]. apply in_seq. lia.
  Qed.
End Host.

(** C126, from host to bus: a host that only asks for writes, and a bus that acknowledges
    each within the time a word takes on the wire.  Every write is carried out, in order,
    once, with the address and data sent; nothing else happens on the bus. *)
Theorem C126_host_writes : forall width bw div delay cpol cpha addr_width L ins sins,
  0 <= div < 256 -> In bw [1; 2; 4; 8] -> (bw | width) -> 8 <= width <= 256 -> cpol = cpha ->
  0 < addr_width <= width -> 2 ^ (width - addr_width) = width / 8 -> 0 < L <= 2 * (width / bw) ->
  let t := trace (spi_host width bw div delay) ins in
  let u := trace (spi_wb cpol cpha width bw [width] addr_width) sins in
  let ws := map (fun b => (bdata b, width)) (sent t) in
  Forall (fun b => 0 <= bdata b < 2 ^ width) (sent t) -> watches (map wo_slave u) t ->
  (forall adr last, ~ In (Rd adr last) (asked width addr_width ws)) ->
  acks_within L (map wo_bridge u) ->
  (exists held rest, ws = br_taken (map wo_bridge u) ++ held ++ rest /\ (length held <= 8)%nat /\
     (caught_up (map wo_slave u) t -> p_cs_n (last (map pins_of t) low) = true -> rest = [])) /\
  asked width addr_width (br_taken (map wo_bridge u)) = bus_ops (map wo_bridge u) /\
  exists later, asked width addr_width ws = bus_ops (map wo_bridge u) ++ later.
Proof.
  intros width bw div delay cpol cpha A L ins sins Hdiv Hbw Hn Hw Hm HA Hal HL t u ws HF HWt HR HK.
  assert (HO := wb_only_writes width bw div delay cpol cpha A L Hdiv Hbw Hn Hw Hm HA Hal HL ins sins HF HWt HK HR).
  destruct (wb_link width bw div delay cpol cpha A L Hdiv Hbw Hn Hw Hm HA Hal HL ins sins HF HWt HK HO) as (D & R & held0 & rest0 & E0 & P0).
  fold t u ws in E0, P0. fold u in D, R.
  assert (ST : stages_ok width bw [width]) by (unfold stages_ok; assert (0 < bw) by (cbn [In] in Hbw; lia); split; [assumption|]; split; [discriminate|]; constructor; [|constructor]; split; [lia|exact Hn]).
  destruct (wb_ops cpol cpha width bw [width] A ST ltac:(lia) HA Hal sins D R) as (held & l & X1 & X2 & X3 & X4). fold u in X1, X3.
  rewrite P0 in X1. apply app_inv_head in X1. subst held0.
  assert (Hl : l = []).
  { destruct l as [|op l]; [reflexivity|exfalso]. destruct (X4 op (or_introl eq_refl)) as (a & b & ->). apply (HR a b).
    rewrite E0, asked_app, X3. apply in_or_app. left. apply in_or_app. right. now left. }
  rewrite Hl, app_nil_r in X3. split; [|split; [exact X3|]].
  - exists held, rest0. split; [exact E0|]. split; [exact X2|]. intros HC Hcs.
    destruct (wb_slave cpol cpha width bw [width] A sins) as [ss Es]. fold u in Es. rewrite Es in *.
    pose proof (C117_complete width bw div delay cpol cpha true ins ss Hdiv Hbw Hn ltac:(lia) Hm HF HWt HC Hcs) as CM. fold t in CM.
    apply (f_equal (@length _)) in CM. rewrite !map_length in CM. apply (f_equal (@length _)) in E0. apply (f_equal (@length _)) in P0.
    unfold ws in E0. rewrite app_assoc, app_length, <- P0, !map_length in E0. destruct rest0; [reflexivity|]. cbn [length] in E0. lia.
  - rewrite E0, asked_app, X3. eauto.
Qed.

(** One byte per word: two writes in two packets, on two lines; then a read of one word
    with one dummy word to clock the answer out, and a write.  The bus acknowledges at
    once; the slave's clock is twice as fast as the host's. *)
Fixpoint wb_feed (n : nat) (s : cst (spi_host 8 2 0 0)) (ws : list (beat Z)) : list host_in :=
  match n with
  | O => []
  | S n' =>
      let i := HostIn (match ws with [] => nobeat | b :: _ => Chan true b end) 0 true in
      let o := cout (spi_host 8 2 0 0) s i in
      i :: wb_feed n' (cnext (spi_host 8 2 0 0) s i) (if o_sready (so_tx (ho_app o)) then tl ws else ws)
  end.
Definition wb_ex_host (ws : list (beat Z)) : list host_in := wb_feed (24 * length ws) (creset (spi_host 8 2 0 0)) ws.
Definition wb_ex_ins (dat_r : Z) (t : list host_obs) : list wb_in :=
  flat_map (fun o => let i := WbIn (pins_of o) true dat_r in [i; i]) t.
Definition packet (l : list Z) (e : Z) : list (beat Z) := map (fun d => Beat false false d) l ++ [Beat false true e].
Lemma acked_at_once cpol cpha width bw stages A (ins : list wb_in) : forallb wi_ack ins = true ->
  acks_within 1 (map wo_bridge (trace (spi_wb cpol cpha width bw stages A) ins)).
Proof.
  intros H t1 seg t2 E HL. destruct seg as [|o seg]; [discriminate HL|]. exists o. split; [now left|].
  assert (X : Forall (fun o => bo_ack o = true) (map wo_bridge (trace (spi_wb cpol cpha width bw stages A) ins))).
  { apply Forall_forall. intros b Hb. apply in_map_iff in Hb. destruct Hb as (x & <- & Hx). apply in_split in Hx. destruct Hx as (a & b & Ex).
    apply trace_one in Ex. destruct Ex as (i1 & i & i2 & -> & _ & ->). rewrite forallb_app in H. cbn [forallb] in H.
    apply andb_prop in H. destruct H as [_ H]. apply andb_prop in H. destruct H as [H _]. exact H. }
  rewrite E in X. apply Forall_app in X. destruct X as [_ X]. inversion X as [|? ? Y]. now rewrite Y, andb_false_r.
Qed.

Example C126_nonvacuous :
  let t := trace (spi_host 8 2 0 0) (wb_ex_host (packet [5; 0x30] 0xab ++ packet [9; 0x40; 0x12] 0x34)) in
  let sins := wb_ex_ins 0 t in
  let u := trace (spi_wb true true 8 2 [8] 8) sins in
  let ws := map (fun b => (bdata b, 8)) (sent t) in
  map bdata (sent t) = [5; 0x30; 0xab; 9; 0x40; 0x12; 0x34] /\
  watches (map wo_slave u) t /\ acks_within 1 (map wo_bridge u) /\
  caught_up (map wo_slave u) t /\ p_cs_n (last (map pins_of t) low) = true /\
  asked 8 8 ws = [Wr 0x30 0xab; Wr 0x40 0x12; Wr 0x41 0x34] /\
  bus_ops (map wo_bridge u) = [Wr 0x30 0xab; Wr 0x40 0x12; Wr 0x41 0x34].
Proof.
  cbv zeta. split; [vm_compute; reflexivity|]. split; [exists []; vm_compute; reflexivity|].
  split; [apply acked_at_once; vm_compute; reflexivity|]. split; [vm_compute; reflexivity|].
  split; [vm_compute; reflexivity|]. split; vm_compute; reflexivity.
Qed.

(** What a host wants that clocks one dummy word for every word it reads: the dummy
    words mean nothing. *)
Fixpoint wanted_from (width A : Z) (p : parse) (dummies : nat) (ws : list (Z * Z)) : list bus_op :=
  match ws, dummies with
  | [], _ => []
  | _ :: ws', S k => wanted_from width A p k ws'
  | w :: ws', O => let r := parse_word width A p w in
      snd r ++ wanted_from width A (fst r) (length (filter (fun op => match op with Rd _ _ => true | Wr _ _ => false end) (snd r))) ws'
  end.
Definition wanted (width A : Z) (ws : list (Z * Z)) : list bus_op := wanted_from width A PCommand 0 ws.

(** C127 is false: the dummy words stay in the slave's FIFO during the read and are
    taken for commands after it. *)
Theorem C127_reads_then_commands_refuted : ~ (forall ins sins,
  let t := trace (spi_host 8 2 0 0) ins in
  let u := trace (spi_wb true true 8 2 [8] 8) sins in
  let ws := map (fun b => (bdata b, 8)) (sent t) in
  Forall (fun b => 0 <= bdata b < 2 ^ 8) (sent t) -> watches (map wo_slave u) t -> acks_within 1 (map wo_bridge u) ->
  Forall (fun o => so_push o <> None -> o_sready (so_fifo o) = true) (map wo_slave u) ->
  exists later, wanted 8 8 ws = bus_ops (map wo_bridge u) ++ later).
Proof.
  intros H.
  pose (ins := wb_ex_host (packet [4; 0x30] 0 ++ packet [5; 0x31] 0xcd)).
  pose (sins := wb_ex_ins 0x77 (trace (spi_host 8 2 0 0) ins)).
  specialize (H ins sins). cbv zeta in H.
  destruct H as [later E].
  - assert (X : forallb (fun b => (0 <=? bdata b) && (bdata b <? 256)) (sent (trace (spi_host 8 2 0 0) ins)) = true) by (vm_compute; reflexivity).
    rewrite forallb_forall in X. apply Forall_forall. intros b Hb. apply X in Hb. change (2 ^ 8) with 256. lia.
  - exists []. vm_compute. reflexivity.
  - apply acked_at_once. vm_compute. reflexivity.
  - assert (X : forallb (fun o => o_sready (so_fifo o)) (map wo_slave (trace (spi_wb true true 8 2 [8] 8) sins)) = true) by (vm_compute; reflexivity).
    rewrite forallb_forall in X. apply Forall_forall. intros o Ho _. exact (X o Ho).
  - assert (B : bus_ops (map wo_bridge (trace (spi_wb true true 8 2 [8] 8) sins)) = [Rd 0x30 true; Rd 5 true]) by (vm_compute; reflexivity).
    assert (W : wanted 8 8 (map (fun b => (bdata b, 8)) (sent (trace (spi_host 8 2 0 0) ins))) = [Rd 0x30 true; Wr 0x31 0xcd]) by (vm_compute; reflexivity).
    rewrite B, W in E. discriminate E.
Qed.

(** What does hold: a word read on the bus is, in that cycle, loaded into the slave, and
    the following update edges put it on the pins, most significant bits first. *)
Theorem C127_read_answer_partial : forall cpol cpha width bw stages addr_width ins t1 o t2 o' t3,
  0 < bw -> 0 < width -> (bw | width) ->
  trace (spi_wb cpol cpha width bw stages addr_width) ins = t1 ++ o :: t2 ++ o' :: t3 ->
  bo_stb (wo_bridge o) = true -> bo_ack (wo_bridge o) = true -> bo_we (wo_bridge o) = false ->
  let p := last (looked_at (map wo_slave (t1 ++ [o]))) low in
  let after := skipn (length (t1 ++ [o])) (looked_at (map wo_slave (t1 ++ o :: t2))) in
  Forall (fun q => p_cs_n q = false) after ->
  let k := updates cpol cpha p after in
  bw * k <= width ->
  (0 < k -> so_dq_o (wo_slave o') = Z.shiftr (bo_dat_r (wo_bridge o)) (width - bw * k) mod 2 ^ bw) /\
  (bw * k < width -> bo_we (wo_bridge o') = false -> bo_stb (wo_bridge o') = false).
Proof.
  intros cpol cpha width bw stages A ins t1 o t2 o' t3 Hb Hw Hd E S1 S2 S3 p after HC k HK.
  destruct (wb_slave cpol cpha width bw stages A ins) as [sins Es].
  assert (E' := Es). rewrite E, !map_app in E'. cbn [map] in E'. rewrite map_app in E'. cbn [map] in E'. symmetry in E'.
  assert (O : cvalid (so_sink (wo_slave o)) = true /\ so_sready (wo_slave o) = true /\ bdata (cbeat (so_sink (wo_slave o))) = (bo_dat_r (wo_bridge o), width)).
  { apply trace_one in E. destruct E as (i1 & i & i2 & _ & _ & ->). revert S1 S2 S3. clear. set (s := state _ i1). clearbody s.
    cbn [cout spi_wb wo_bridge wo_slave bridge bo_stb bo_we bo_ack bo_dat_r spi_slave so_sink so_sready wb_sin sl_sink wb_bin bi_ack bi_dat_r].
    unfold br_stb, br_src. cbn [bi_sink bi_rready wb_bin bi_ack bi_dat_r]. destruct (bf (snd s)); [discriminate..|].
    cbn [andb]. intros S1 S2 S3. rewrite S3 in *. cbn [cvalid cbeat bdata]. auto. }
  destruct O as (O1 & O2 & O3).
  assert (O4 : bo_we (wo_bridge o') = false -> bo_stb (wo_bridge o') = true -> so_sready (wo_slave o') = true).
  { rewrite app_comm_cons, app_assoc in E. apply trace_one in E. destruct E as (i1 & i & i2 & _ & _ & ->). clear. set (s := state _ i1). clearbody s.
    cbn [cout spi_wb wo_bridge wo_slave bridge bo_stb bo_we spi_slave so_sready]. unfold br_stb. cbn [bi_rready wb_bin].
    destruct (bf (snd s)); [discriminate..|]. cbn [andb]. intros ->. auto. }
  assert (LE : length (map wo_slave t1 ++ [wo_slave o]) = length (t1 ++ [o])) by now rewrite !app_length, map_length.
  pose proof (C92_update_edges_partial cpol cpha width bw true stages sins _ _ _ _ _ Hb Hw E' O1 O2) as Y. rewrite O3, LE in Y. cbn [fst snd] in Y.
  revert HC HK. unfold k, p, after. rewrite !map_app. cbn [map]. intros HC HK.
  destruct (Y ltac:(lia) Hd HC HK) as [Y1 Y2]. split; [exact Y1|].
  intros Hk W. destruct (bo_stb (wo_bridge o')) eqn:B; [|reflexivity]. rewrite (O4 W eq_refl) in Y2. discriminate (Y2 Hk).
Qed.

Example C127_nonvacuous :
  let t := trace (spi_host 8 2 0 0) (wb_ex_host (packet [4; 0x30] 0 ++ packet [5; 0x31] 0xcd)) in
  let u := trace (spi_wb true true 8 2 [8] 8) (wb_ex_ins 0xe4 t) in
  exists o o', u = firstn 42 u ++ o :: firstn 7 (skipn 43 u) ++ o' :: skipn 51 u /\
    bo_stb (wo_bridge o) = true /\ bo_ack (wo_bridge o) = true /\ bo_we (wo_bridge o) = false /\
    forallb (fun q => negb (p_cs_n q)) (skipn 43 (looked_at (map wo_slave (firstn 50 u)))) = true /\
    updates true true (last (looked_at (map wo_slave (firstn 43 u))) low) (skipn 43 (looked_at (map wo_slave (firstn 50 u)))) = 2 /\
    so_dq_o (wo_slave o') = 2.
Proof.
  cbv zeta. do 2 eexists. split; [vm_compute; reflexivity|]. split; [vm_compute; reflexivity|]. split; [vm_compute; reflexivity|].
  split; [vm_compute; reflexivity|]. split; [vm_compute; reflexivity|]. split; vm_compute; reflexivity.
Qed.

Print Assumptions C126_operations.
Print Assumptions C126_host_writes.
Print Assumptions C127_reads_then_commands_refuted.
Print Assumptions C127_read_answer_partial.
