(** SPI host to SPI slave: C117. *)
From Verif Require Import Stream Bits Fifo_model Fifo_proofs Fifo_props Timer_model Spiclk_model I2cstream_proofs Spistream_model Spistream_props Spimaster_model Spimaster_props Spislave_model Spislave_props Spilink_model Spilink_spec Spilink_proofs.

Section Link.
  Context (width bw div delay : Z) (cpol cpha with_len : bool) (n : nat).
  Context (Hdiv : 0 <= div < 256) (Hbw : In bw [1; 2; 4; 8]) (Hn : width = bw * Z.of_nat n) (Hw : 0 < width <= 256) (Hm : cpol = cpha).
  Notation host := (spi_host width bw div delay).
  Notation slave := (spi_slave cpol cpha width bw with_len [width]).

  Lemma bw_pos : 0 < bw.
  Proof. cbn [In] in Hbw. lia. Qed.
  Lemma bw_div : (bw | width).
  Proof. exists (Z.of_nat n). lia. Qed.
  Lemma n_pos : (0 < n)%nat.
  Proof. pose proof bw_pos. destruct n; [|lia]. cbn in Hn. lia. Qed.
  Lemma n_div : Z.to_nat (width / bw) = n.
  Proof. pose proof bw_pos. rewrite Hn, Z.mul_comm, Z.div_mul by lia. lia. Qed.
  Lemma mode : Bool.eqb cpol cpha = true.
  Proof. rewrite Hm. apply Bool.eqb_reflx. Qed.
  Definition cut (b : beat Z) : list Z := groups (MWord (bdata b) bw true width).

  Lemma host_prefix ins : exists r, concat (map cut (sent (trace host ins))) = map fst (rises false (map ho_phy (trace host ins))) ++ r.
  Proof.
    pose proof (host_legal width bw div delay Hbw bw_div Hw ins) as L. destruct (host_phy width bw div delay ins) as [E _].
    pose proof (C59_transfers width bw div delay (map phy_back (map ho_phy (trace host ins))) Hdiv) as X. cbv zeta in X. rewrite <- E in X.
    destruct (X L) as (ws & gs & pend & cur & late & W & P1 & R & F & P2 & _). clear X.
    assert (G : concat (map cut (sent (trace host ins))) = concat (map (fun w => groups (fst w)) (words (map ho_phy (trace host ins))))).
    { rewrite host_words, map_map. reflexivity. }
    assert (FW : map fst (concat gs) = concat (map (fun w => groups (fst w)) ws)).
    { clear -F. induction F as [|w g ws gs H]; [reflexivity|]. cbn [concat map]. now rewrite map_app, IHF, H. }
    rewrite G, W, R, map_app, concat_app, map_app, <- FW.
    destruct pend as [|w pend]; [subst cur; exists []; cbn; now rewrite !app_nil_r|].
    destruct P2 as [P2 _]. rewrite P2. exists (skipn (length cur) (groups (fst w)) ++ concat (map (fun w => groups (fst w)) pend)).
    rewrite <- app_assoc. f_equal. cbn [map concat]. rewrite app_assoc, firstn_skipn. reflexivity.
  Qed.
  Lemma cut_len b : length (cut b) = n.
  Proof. unfold cut. rewrite groups_len by apply bw_pos. apply n_div. Qed.
  Lemma cuts_len l : Forall (fun x => length x = n) (map cut l).
  Proof. apply Forall_forall. intros x Hin. apply in_map_iff in Hin. destruct Hin as (b & <- & _). apply cut_len. Qed.
  Lemma host_framed ins : framed cpol cpha n (map pins_of (trace host ins)).
  Proof.
    intros a b E Hc. apply map_eq_app in E. destruct E as (ta & tb & E & <- & <-).
    destruct ta as [|x ta] using rev_ind; [discriminate Hc|]. clear IHta. rewrite <- app_assoc in E. cbn [app] in E.
    apply trace_one in E. destruct E as (i1 & i & i2 & -> & <- & ->). rewrite map_app in *. cbn [map] in *. rewrite last_last in Hc.
    destruct (host_sampled width bw div delay Hdiv Hbw bw_div Hw cpol cpha mode i1) as [_ X]. destruct (X i Hc) as (gs & Y & _).
    destruct (host_sampled width bw div delay Hdiv Hbw bw_div Hw cpol cpha mode (i1 ++ [i])) as [Z1 _].
    rewrite (proj1 (host_snoc width bw div delay i1 i)), map_app in Z1. cbn [map] in Z1. rewrite Z1.
    rewrite (proj1 (host_snoc width bw div delay i1 i)) in Y. rewrite Y.
    change (fun b0 : beat Z => groups (MWord (bdata b0) bw true width)) with cut.
    exists (length gs). rewrite (concat_len n) by apply cuts_len. rewrite map_length. lia.
  Qed.

  Lemma changes_in p l q : In q l -> q = p \/ In q (changes p l).
  Proof.
    revert p. induction l as [|x l IH]; intros p [].
    - subst x. cbn [changes]. destruct (pins_eqb p q) eqn:E; [left; symmetry; now apply pins_eqb_eq|right; now left].
    - cbn [changes]. destruct (pins_eqb p x) eqn:E; [auto|]. destruct (IH x H) as [->|G]; right; [now left|now right].
  Qed.
  Lemma in_changes p l q : In q (changes p l) -> In q l.
  Proof. revert p. induction l as [|x l IH]; intros p; [auto|]. cbn [changes]. destruct (pins_eqb p x); intros H; [right; eauto|]. destruct H; [now left|right; eauto]. Qed.
  Lemma slave_dq ins sins : watches (trace slave sins) (trace host ins) -> dq_ok bw (trace slave sins).
  Proof.
    intros [r E]. unfold dq_ok. apply Forall_forall. intros o Ho. assert (0 < 2 ^ bw) by (apply Z.pow_pos_nonneg; pose proof bw_pos; lia).
    destruct (changes_in low (map so_pins (trace slave sins)) (so_pins o) (in_map _ _ _ Ho)) as [->|G]; [cbn; lia|].
    assert (G' : In (so_pins o) (changes low (map pins_of (trace host ins)))) by (rewrite E; apply in_or_app; now left).
    apply in_changes, in_map_iff in G'. destruct G' as (h & <- & Hin). apply in_split in Hin. destruct Hin as (t1 & t2 & E'). apply trace_one in E'.
    destruct E' as (a & i & b & -> & _ & ->). cbn [p_dq pins_of].
    change (mo_dq_o (ho_phy (cout host (state host a) i))) with (ms_dq_o width bw (snd (state host a))). unfold ms_dq_o.
    destruct (ms_case _); [apply trunc_range; pose proof bw_pos; lia|lia].
  Qed.
  Lemma watches_looked ins sins : watches (trace slave sins) (trace host ins) ->
    exists r, changes low (map pins_of (trace host ins)) = changes low (looked_at (trace slave sins)) ++ r.
  Proof.
    intros [r E]. set (u := trace slave sins) in *.
    assert (X : low :: low :: map so_pins u = looked_at u ++ skipn (length u) (low :: low :: map so_pins u)) by (symmetry; apply firstn_skipn).
    assert (Y : changes low (low :: low :: map so_pins u) = changes low (map so_pins u)) by reflexivity.
    rewrite X, changes_app in Y. rewrite E, <- Y, <- app_assoc. eexists. reflexivity.
  Qed.

  (** The words pushed by the slave are the first words sent, if it has sampled the first data. *)
  Lemma link_sampled ins sins : let t := trace host ins in let u := trace slave sins in
    Forall (fun b => 0 <= bdata b < 2 ^ width) (sent t) -> dq_ok bw u -> framed cpol cpha n (looked_at u) ->
    (exists r, sampled cpol cpha low (map pins_of t) = sampled cpol cpha low (looked_at u) ++ r) ->
    Forall (fun w => snd (fst w) = width) (pushes u) /\
    exists rest pend r, sent t = firstn (length (pushes u)) (sent t) ++ rest /\
      map (fun w => fst (fst w)) (pushes u) = map bdata (firstn (length (pushes u)) (sent t)) /\
      concat (map cut rest) = pend ++ r /\
      (p_cs_n (last (looked_at u) low) = true -> pend = []) /\
      sampled cpol cpha low (looked_at u) = concat (map cut (firstn (length (pushes u)) (sent t))) ++ pend.
  Proof.
    intros t u Hd Hdq FR SP. pose proof bw_pos as B0.
    destruct (host_sampled width bw div delay Hdiv Hbw bw_div Hw cpol cpha mode ins) as [X _]. fold t in X. rewrite X in SP. clear X.
    assert (FL := slave_full cpol cpha width bw with_len n B0 ltac:(lia) Hn sins Hdq FR). fold u in FL. split; [exact FL|].
    destruct (C55_received cpol cpha width bw with_len [width] sins (slave_ok width bw n B0 ltac:(lia) Hn) Hdq) as (chs & pend & S & F & _ & _ & EP).
    fold u in S, F, EP.
    assert (CH := full_chunks width bw n ltac:(lia) Hn chs (pushes u) F FL).
    destruct SP as [r' SP]. destruct (host_prefix ins) as [r2 HP]. fold t in HP. rewrite SP, S, <- !app_assoc in HP.
    destruct (concat_prefix n _ _ _ n_pos (cuts_len (sent t)) CH HP) as [zs Z].
    assert (LC : length chs = length (pushes u)) by (clear -F; induction F; cbn [length]; congruence).
    assert (C1 : chs = map cut (firstn (length (pushes u)) (sent t))).
    { rewrite <- firstn_map, Z, <- LC, firstn_app, Nat.sub_diag, firstn_O, app_nil_r. symmetry. apply firstn_all. }
    assert (C2 : zs = map cut (skipn (length (pushes u)) (sent t))).
    { rewrite <- (firstn_skipn (length (pushes u)) (sent t)), map_app, <- C1 in Z. now apply app_inv_head in Z. }
    exists (skipn (length (pushes u)) (sent t)), pend, (r' ++ r2). split; [symmetry; apply firstn_skipn|]. split; [|split; [|split; [exact EP|now rewrite S, C1]]].
    - pose proof (sl_push_ok cpol cpha width bw with_len [width] B0 ltac:(discriminate) (proj2 (proj2 (slave_ok width bw n B0 ltac:(lia) Hn))) sins Hdq) as PO.
      fold u in PO. assert (PR : Forall (fun w => 0 <= fst (fst w) < 2 ^ width) (pushes u)).
      { clear -PO. induction u as [|o u IH]; [constructor|]. apply Forall_cons_iff in PO. destruct PO as [P1 P2].
        change (pushes (o :: u)) with (match so_push o with Some w => [w] | None => [] end ++ pushes u). apply Forall_app. split; [|auto].
        unfold push_ok in P1. destruct (so_push o); repeat constructor; apply P1. }
      assert (Hd' : Forall (fun b => 0 <= bdata b < 2 ^ width) (firstn (length (pushes u)) (sent t))).
      { rewrite <- (firstn_skipn (length (pushes u)) (sent t)) in Hd. apply Forall_app in Hd. apply Hd. }
      clear -F C1 PR Hd' FL Hn B0 Hw. revert C1. generalize dependent (firstn (length (pushes u)) (sent t)). intros l. clear t. revert l. induction F as [|ds w chs ws [_ F1] F IH]; intros l Hd' C1.
      + destruct l; [reflexivity|discriminate].
      + destruct l as [|b l]; [discriminate|]. cbn [map] in *. injection C1 as E1 C1. apply Forall_cons_iff in PR, Hd', FL. destruct PR as [R1 R2], Hd' as [D1 D2], FL as [L1 L2].
        rewrite (IH L2 R2 l D2 C1). f_equal. rewrite L1 in F1. rewrite Z.mod_small in F1 by lia. rewrite F1, E1. unfold cut. rewrite (value_groups width bw (bdata b) n B0 Hn).
        apply Z.mod_small. lia.
    - rewrite C1, <- (firstn_skipn (length (pushes u)) (sent t)) in HP. rewrite map_app, concat_app in HP.
      rewrite firstn_app, firstn_firstn, Nat.min_id in HP.
      rewrite firstn_length in HP. 
      assert (X : (length (pushes u) <= length (sent t))%nat).
      { pose proof (f_equal (@length _) Z) as LZ. rewrite map_length, app_length in LZ. lia. }
      replace (length (pushes u) - Nat.min (length (pushes u)) (length (sent t)))%nat with 0%nat in HP by lia. rewrite firstn_O, app_nil_r in HP.
      apply app_inv_head in HP. exact HP.
  Qed.

  (** The words pushed by the slave are the first words sent. *)
  Lemma link_received ins sins : let t := trace host ins in let u := trace slave sins in
    Forall (fun b => 0 <= bdata b < 2 ^ width) (sent t) -> watches u t ->
    Forall (fun w => snd (fst w) = width) (pushes u) /\
    exists rest pend r, sent t = firstn (length (pushes u)) (sent t) ++ rest /\
      map (fun w => fst (fst w)) (pushes u) = map bdata (firstn (length (pushes u)) (sent t)) /\
      concat (map cut rest) = pend ++ r /\
      (p_cs_n (last (looked_at u) low) = true -> pend = []) /\
      sampled cpol cpha low (looked_at u) = concat (map cut (firstn (length (pushes u)) (sent t))) ++ pend.
  Proof.
    intros t u Hd Hwt. destruct (watches_looked ins sins Hwt) as [r E]. fold t u in E.
    apply link_sampled; [exact Hd|exact (slave_dq ins sins Hwt)|eapply framed_changes; [apply host_framed|exact E]|].
    rewrite sampled_changes. fold t u. rewrite E, sampled_app, <- sampled_changes. eexists. reflexivity.
  Qed.

  (** The host with its chip select released has put whole words on the wire, all of them. *)
  Lemma took_selected s i : took (cout host s i) <> [] -> ms_cs_en width (snd s) = true /\ fst s = SsTxRx.
  Proof.
    unfold took, xfer. assert (E : o_sready (so_tx (ho_app (cout host s i))) = ms_load width div (snd s) (host_phy_in width bw (fst s) i) && ss_tx_en (fst s)) by reflexivity.
    rewrite E. destruct (cvalid _); [|intros H; now contradict H]. cbn [andb].
    destruct (ms_load _ _ _ _) eqn:L; [|intros H; now contradict H]. unfold ms_load, ms_xfr_en in L. apply andb_prop in L. destruct L as [_ L].
    apply andb_prop in L. destruct L as [L _]. apply andb_prop in L. destruct L as [L _]. rewrite L.
    destruct (fst s); [intros H; now contradict H|auto|intros H; now contradict H].
  Qed.
  Lemma host_all ins : p_cs_n (last (map pins_of (trace host ins)) low) = true ->
    sampled cpol cpha low (map pins_of (trace host ins)) = concat (map cut (sent (trace host ins))).
  Proof.
    destruct ins as [|i ins _] using rev_ind; [discriminate|]. intros Hc.
    destruct (host_sampled width bw div delay Hdiv Hbw bw_div Hw cpol cpha mode ins) as [_ X].
    destruct (host_sampled width bw div delay Hdiv Hbw bw_div Hw cpol cpha mode (ins ++ [i])) as [Y _]. rewrite Y. clear Y.
    rewrite (proj1 (host_snoc width bw div delay ins i)), map_app in Hc. cbn [map] in Hc. rewrite last_last in Hc.
    destruct (X i Hc) as (gs & -> & ->). rewrite (proj1 (host_snoc width bw div delay ins i)).
    unfold sent. rewrite map_app. cbn [map]. rewrite tx_in_snoc.
    assert (N : took (cout host (state host ins) i) = []).
    { destruct (took (cout host (state host ins) i)) eqn:T; [reflexivity|]. exfalso.
      destruct (took_selected (state host ins) i) as [H _]; [now rewrite T|].
      change (p_cs_n (pins_of (cout host (state host ins) i))) with (negb (ms_cs_en width (snd (state host ins)))) in Hc. rewrite H in Hc. discriminate. }
    unfold took in N. rewrite N, app_nil_r. reflexivity.
  Qed.
  Lemma link_complete ins sins : let t := trace host ins in let u := trace slave sins in
    Forall (fun b => 0 <= bdata b < 2 ^ width) (sent t) -> watches u t -> caught_up u t -> p_cs_n (last (map pins_of t) low) = true ->
    length (pushes u) = length (sent t).
  Proof.
    intros t u Hd Hwt Hc Hl. destruct (link_received ins sins Hd Hwt) as (_ & rest & pend & r & E1 & _ & _ & E4 & E5). fold t u in E1, E4, E5.
    assert (L : p_cs_n (last (looked_at u) low) = true) by (rewrite <- changes_last, Hc, changes_last; exact Hl).
    rewrite (E4 L), app_nil_r in E5. rewrite sampled_changes, Hc, <- sampled_changes in E5. unfold t in E5 at 1. rewrite (host_all ins Hl) in E5. fold t in E5.
    apply (f_equal (@length _)) in E5. rewrite !(concat_len n) in E5 by apply cuts_len. rewrite !map_length, firstn_length in E5.
    pose proof n_pos. assert (length (sent t) = Nat.min (length (pushes u)) (length (sent t))) by nia.
    assert (X : (length (pushes u) <= length (sent t))%nat).
    { destruct (link_received ins sins Hd Hwt) as (_ & _ & _ & _ & _ & X & _). fold t u in X. apply (f_equal (@length _)) in X. rewrite !map_length, firstn_length in X. lia. }
    lia.
  Qed.
  (** In the middle of a packet the chip select stays asserted. *)
  Lemma host_mid ins : whole_packets (sent (trace host ins)) \/ (ms_cs_en width (snd (state host ins)) = true /\ fst (state host ins) <> SsIdle).
  Proof.
    induction ins as [|i ins IH] using rev_ind; [left; now left|].
    destruct (host_snoc width bw div delay ins i) as [E1 E2]. pose proof (host_ss width bw div delay Hdiv Hbw bw_div Hw (ins ++ [i])) as SS.
    set (s := state host ins) in *.
    destruct (fst (state host (ins ++ [i]))) eqn:F.
    { left. destruct SS as [_ [SS|[S' SS]]]; [left; now apply map_eq_nil in SS|right].
      fold (sent (trace host (ins ++ [i]))) in SS. apply map_eq_app in SS. destruct SS as (ws & l & E & _ & El). apply map_eq_cons in El.
      destruct El as (w & l' & -> & Hl & El). apply map_eq_nil in El. subst l'. exists ws, w. auto. }
    all: rewrite E2; assert (N : m_tim _ (snd (cnext host s i)) = wt_next (delay + 1) (m_tim _ (snd s)) (match fst s with SsIdle => false | _ => true end)) by reflexivity;
      assert (K : ms_cs_en width (snd s) = true -> fst s <> SsIdle -> ms_cs_en width (snd (cnext host s i)) = true)
        by (unfold ms_cs_en; rewrite N; intros D Hs; unfold wt_next; destruct (fst s); [congruence| |]; rewrite D; cbn [negb]; exact D);
      destruct (took (cout host s i)) as [|w l] eqn:T;
      [ destruct IH as [IH|[H1 H2]]; [left; rewrite E1; unfold sent in *; rewrite map_app; cbn [map]; rewrite tx_in_snoc; unfold took in T; rewrite T, app_nil_r; exact IH|right; split; [now apply K|discriminate]]
      | destruct (took_selected s i ltac:(rewrite T; discriminate)) as [H1 H2]; right; split; [apply K; [exact H1|congruence]|discriminate] ].
  Qed.
End Link.

(** C117: whatever the schedule of the words given to the host, of the clocks and of the
    slave's reader, the words received by the slave are the words given to the host, in
    order and whole: none is lost, repeated, split or joined. *)
Theorem C117_words : forall width bw div delay cpol cpha with_len ins sins,
  0 <= div < 256 -> In bw [1; 2; 4; 8] -> (bw | width) -> 0 < width <= 256 -> cpol = cpha ->
  let t := trace (spi_host width bw div delay) ins in
  let u := trace (spi_slave cpol cpha width bw with_len [width]) sins in
  Forall (fun b => 0 <= bdata b < 2 ^ width) (sent t) -> watches u t ->
  Forall (fun w => snd (fst w) = width) (pushes u) /\
  exists rest, map bdata (sent t) = map (fun w => fst (fst w)) (pushes u) ++ rest.
Proof.
  intros width bw div delay cpol cpha wl ins sins Hd Hb [q Hq] Hw Hm t u HF HW.
  assert (B : 0 < bw) by (cbn [In] in Hb; lia). assert (Hn : width = bw * Z.of_nat (Z.to_nat q)) by (rewrite Z2Nat.id by nia; lia).
  destruct (link_received width bw div delay cpol cpha wl (Z.to_nat q) Hd Hb Hn Hw Hm ins sins HF HW) as (H & rest & pend & r & E1 & E2 & _).
  fold t u in H, E1, E2. split; [exact H|]. exists (map bdata rest). rewrite E2, <- map_app, <- E1. reflexivity.
Qed.

(** Once the host has released its chip select and the slave has seen it, the slave has
    received every word given to the host. *)
Theorem C117_complete : forall width bw div delay cpol cpha with_len ins sins,
  0 <= div < 256 -> In bw [1; 2; 4; 8] -> (bw | width) -> 0 < width <= 256 -> cpol = cpha ->
  let t := trace (spi_host width bw div delay) ins in
  let u := trace (spi_slave cpol cpha width bw with_len [width]) sins in
  Forall (fun b => 0 <= bdata b < 2 ^ width) (sent t) -> watches u t ->
  caught_up u t -> p_cs_n (last (map pins_of t) low) = true ->
  map (fun w => fst (fst w)) (pushes u) = map bdata (sent t).
Proof.
  intros width bw div delay cpol cpha wl ins sins Hd Hb [q Hq] Hw Hm t u HF HW HC HL.
  assert (B : 0 < bw) by (cbn [In] in Hb; lia). assert (Hn : width = bw * Z.of_nat (Z.to_nat q)) by (rewrite Z2Nat.id by nia; lia).
  destruct (link_received width bw div delay cpol cpha wl (Z.to_nat q) Hd Hb Hn Hw Hm ins sins HF HW) as (_ & rest & pend & r & _ & E2 & _).
  pose proof (link_complete width bw div delay cpol cpha wl (Z.to_nat q) Hd Hb Hn Hw Hm ins sins HF HW HC HL) as L.
  fold t u in E2, L. rewrite E2, L, firstn_all. reflexivity.
Qed.

(** What the slave's reader gets, when the slave's FIFO is ready at every push: the
    words given to the host, up to those still on their way. *)
Theorem C117_delivered : forall width bw div delay cpol cpha ins sins,
  0 <= div < 256 -> In bw [1; 2; 4; 8] -> (bw | width) -> 0 < width <= 256 -> cpol = cpha ->
  let t := trace (spi_host width bw div delay) ins in
  let u := trace (spi_slave cpol cpha width bw false [width]) sins in
  Forall (fun b => 0 <= bdata b < 2 ^ width) (sent t) -> watches u t ->
  Forall (fun o => so_push o <> None -> o_sready (so_fifo o) = true) u ->
  exists held coming, map bdata (sent t) = map bdata (emitted (map so_fifo u)) ++ held ++ coming /\ (length held <= 8)%nat /\
    (caught_up u t -> p_cs_n (last (map pins_of t) low) = true -> coming = []).
Proof.
  intros width bw div delay cpol cpha ins sins Hd Hb Hq Hw Hm t u HF HW HR.
  destruct (C117_words width bw div delay cpol cpha false ins sins Hd Hb Hq Hw Hm HF HW) as (_ & rest & E). fold t u in E.
  assert (B : 0 < bw) by (cbn [In] in Hb; lia). assert (Hn := Hq). destruct Hn as [q Hn].
  assert (Hn' : width = bw * Z.of_nat (Z.to_nat q)) by (rewrite Z2Nat.id by nia; lia).
  destruct (C55_delivered cpol cpha width bw false [width] sins (slave_ok width bw (Z.to_nat q) B ltac:(lia) Hn')
     (slave_dq width bw div delay cpol cpha false (Z.to_nat q) Hb ins sins HW) HR) as (held & E' & L).
  fold u in E'. cbv beta iota in E'. exists held, rest. rewrite E, E', <- app_assoc. split; [reflexivity|]. split; [exact L|].
  intros HC HL. pose proof (C117_complete width bw div delay cpol cpha false ins sins Hd Hb Hq Hw Hm HF HW HC HL) as X. fold t u in X. rewrite X in E.
  rewrite <- (app_nil_r (map bdata (sent t))) in E at 1. apply app_inv_head in E. auto.
Qed.

(** The chip select of the host frames packets: it is released only when every word
    given to the host has been answered and the last packet was complete. *)
Theorem C117_frames : forall width bw div delay ins t1 o t2,
  0 <= div < 256 -> In bw [1; 2; 4; 8] -> (bw | width) -> 0 < width <= 256 ->
  trace (spi_host width bw div delay) ins = t1 ++ o :: t2 -> p_cs_n (pins_of o) = true ->
  whole_packets (sent t1) /\ map blast (rx_out (map ho_app t1)) = map blast (sent t1) /\ took o = [].
Proof.
  intros width bw div delay ins t1 o t2 Hd Hb Hq Hw E Hc. apply trace_one in E. destruct E as (a & i & b & -> & <- & ->).
  set (c := spi_host width bw div delay) in *.
  change (negb (ms_cs_en width (snd (state c a))) = true) in Hc. destruct (ms_cs_en width (snd (state c a))) eqn:En; [discriminate|].
  split; [|split].
  - assert (Hn := Hq). destruct Hn as [q Hn]. assert (B : 0 < bw) by (cbn [In] in Hb; lia).
    assert (Hn' : width = bw * Z.of_nat (Z.to_nat q)) by (rewrite Z2Nat.id by nia; lia).
    destruct (host_mid width bw div delay (Z.to_nat q) Hd Hb Hn' Hw a) as [H|[H _]]; [exact H|]. fold c in H. congruence.
  - destruct (host_back width bw div delay Hd Hb Hq Hw a i) as [l L].
    assert (N : ~ (length (rx_out (map ho_app (trace c a))) < length (tx_in (map ho_app (trace c a))))%nat).
    { intros H. apply (host_selected width bw div delay Hd Hb Hq Hw) in H. fold c in H. congruence. }
    fold c in L. destruct (host_snoc width bw div delay a i) as [X _]. fold c in X. rewrite X, map_app in L. cbn [map] in L. rewrite rx_out_snoc, map_app, <- app_assoc in L.
    unfold sent. rewrite L. set (z := map blast (xfer _ _) ++ l) in *.
    assert (z = []) as ->. { apply (f_equal (@length _)) in L. rewrite app_length, !map_length in L. destruct z; [reflexivity|cbn [length] in L; lia]. }
    now rewrite app_nil_r.
  - destruct (took (cout c (state c a) i)) eqn:T; [reflexivity|]. destruct (took_selected width bw div delay (state c a) i) as [H _]; [fold c; rewrite T; discriminate|]. congruence.
Qed.

(** Between two packets the chip select is released. *)
Theorem C117_apart : forall width bw div delay ins t1 a t2 b t3, 0 <= delay ->
  trace (spi_host width bw div delay) ins = t1 ++ a :: t2 ++ b :: t3 ->
  (exists w, took a = [w] /\ blast w = true) -> took b <> [] ->
  exists o, In o t2 /\ p_cs_n (pins_of o) = true.
Proof.
  intros width bw div delay ins t1 a t2 b t3 Hdl E (w & Ta & Hl) Tb. set (c := spi_host width bw div delay) in *.
  apply (trace_seg c ins t1 (a :: t2 ++ [b]) t3) in E || (replace (t1 ++ a :: t2 ++ b :: t3) with (t1 ++ (a :: t2 ++ [b]) ++ t3) in E by (cbn [app]; now rewrite <- app_assoc); apply trace_seg in E).
  destruct E as (ia & ib & ic & -> & _ & E & _). destruct ib as [|i ib]; [discriminate|]. cbn [trace_from] in E.
  apply cons_inv in E. destruct E as [Ea E]. 
  apply trace_split_from in E. destruct E as (ja & j & jb & -> & Et & Eb & _).
  set (s := state c ia) in *.
  assert (S1 : fst (cnext c s i) = SsRx).
  { assert (T : took (cout c s i) <> []) by (rewrite Ea, Ta; discriminate). destruct (took_selected width bw div delay s i T) as [_ F].
    rewrite <- Ea in Ta. unfold took, xfer in Ta.
    assert (N : fst (cnext c s i) = if cvalid (o_sink (so_tx (ho_app (cout c s i)))) && o_sready (so_tx (ho_app (cout c s i))) && blast (cbeat (o_sink (so_tx (ho_app (cout c s i))))) then SsRx else SsTxRx).
    { unfold c. cbn [cnext cout spi_host fst]. rewrite F. reflexivity. }
    rewrite N. destruct (cvalid _ && _); [|discriminate]. apply cons_inv in Ta. destruct Ta as [Ta _]. rewrite Ta, Hl. reflexivity. }
  assert (I : forall v r, let s' := r in
     (fst s' = SsRx \/ fst s' = SsIdle \/ ms_cs_en width (snd s') = false \/ exists o, In o v /\ p_cs_n (pins_of o) = true) ->
     forall k, fst (cnext c s' k) = SsRx \/ fst (cnext c s' k) = SsIdle \/ ms_cs_en width (snd (cnext c s' k)) = false \/
       exists o, In o (v ++ [cout c s' k]) /\ p_cs_n (pins_of o) = true).
  { intros v r s' H k. destruct H as [H|[H|[H|(o & Ho & Hc)]]].
    - unfold c. cbn [cnext spi_host fst]. rewrite H. destruct (cnext (spi_stream width bw) SsRx _) eqn:X; auto.
      exfalso. cbn [cnext spi_stream] in X. destruct (_ && _ && _) in X; discriminate.
    - right. right. left. unfold ms_cs_en.
      assert (N : m_tim _ (snd (cnext c s' k)) = wt_next (delay + 1) (m_tim _ (snd s')) (match fst s' with SsIdle => false | _ => true end)) by reflexivity.
      rewrite N, H. unfold wt_next, wt_done. apply Z.eqb_neq. lia.
    - right. right. right. exists (cout c s' k). split; [apply in_or_app; right; now left|].
      change (negb (ms_cs_en width (snd s')) = true). now rewrite H.
    - right. right. right. exists o. split; [apply in_or_app; now left|exact Hc]. }
  pose proof (run_inv_from c (fun v r => fst r = SsRx \/ fst r = SsIdle \/ ms_cs_en width (snd r) = false \/ exists o, In o v /\ p_cs_n (pins_of o) = true) []
     (cnext c s i) (or_introl S1) (fun v r k H => I v r H k) ja) as H. cbn [app] in H. rewrite Et in H.
  rewrite Eb in Tb. destruct (took_selected width bw div delay _ j Tb) as [T1 T2].
  destruct H as [H|[H|[H|H]]]; [fold c in T2; congruence|fold c in T2; congruence|fold c in T1; congruence|exact H].
Qed.

(** Two packets (two words, then one word) sent on two lines; the slave's clock is
    twice as fast. *)
Definition link_ex : list host_in :=
  let i x := HostIn x 0 true in
  repeat (i (Chan true (Beat true false 0xa5))) 3 ++ repeat (i (Chan true (Beat false true 0x3c))) 8 ++
  repeat (i (Chan true (Beat true true 0x81))) 14 ++ repeat (i nobeat) 20.
Definition link_sins (t : list host_obs) : list sl_in :=
  flat_map (fun o => let i := SlIn (pins_of o) no_word true in [i; i]) t.
Example C117_nonvacuous :
  let t := trace (spi_host 8 2 0 0) link_ex in let u := trace (spi_slave true true 8 2 false [8]) (link_sins t) in
  map (fun b => (blast b, bdata b)) (sent t) = [(false, 0xa5); (true, 0x3c); (true, 0x81)] /\
  watches u t /\ caught_up u t /\ p_cs_n (last (map pins_of t) low) = true /\
  Forall (fun o => so_push o <> None -> o_sready (so_fifo o) = true) u /\
  pushes u = [(0xa5, 8, false); (0x3c, 8, false); (0x81, 8, false)] /\ map bdata (emitted (map so_fifo u)) = [0xa5; 0x3c; 0x81].
Proof.
  cbv zeta. split; [vm_compute; reflexivity|]. split; [exists []; vm_compute; reflexivity|]. split; [vm_compute; reflexivity|].
  split; [vm_compute; reflexivity|]. split; [|split; vm_compute; reflexivity].
  apply Forall_forall. intros o Ho _. revert o Ho. apply Forall_forall.
  match goal with |- Forall _ ?l => assert (X : forallb (fun o => o_sready (so_fifo o)) l = true) by (vm_compute; reflexivity) end.
  rewrite forallb_forall in X. apply Forall_forall. exact X.
Qed.

Print Assumptions C117_words.
Print Assumptions C117_complete.
Print Assumptions C117_delivered.
Print Assumptions C117_frames.
Print Assumptions C117_apart.
