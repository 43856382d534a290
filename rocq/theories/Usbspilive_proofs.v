(** Proofs for C155: a program that uses exchange over the SPI bridge comes to its end. *)
From Verif Require Import Stream Bits Fifo_model Timer_model Spiclk_model I2cstream_proofs Spistream_model Spistream_props Spimaster_model Spimaster_props Progress Spilive_props Spislave_model Spislave_props Spilink_model Spilink_spec Spilink_proofs Spilink_props Spihostlive_props Spixchg_props Usbspi_model Usbspi_spec Usbspi_props.

Lemma in_packets_more zlp size m : forall l open, exists q, in_packets zlp size open (l ++ m) = in_packets zlp size open l ++ q.
Proof.
  induction l as [|b l IH]; intros open; [eexists; reflexivity|]. cbn [app in_packets].
  destruct (IH []) as [q ->]. destruct (IH (open ++ [bdata b])) as [q' ->].
  destruct (blast b), (_ =? size); destruct zlp; eexists; reflexivity.
Qed.
Lemma bulk_in_more size len y : forall pk acc r pk', bulk_in size len acc pk = Some (r, pk') -> bulk_in size len acc (pk ++ y) = Some (r, pk' ++ y).
Proof.
  induction pk as [|q pk IH]; intros acc r pk' H; [discriminate|]. cbn [app bulk_in] in *.
  destruct (_ || _); [injection H as <- <-; reflexivity|]. now apply IH.
Qed.

(** A call takes one short packet at most, and every transfer is answered with one, if the
    endpoints mark every packet and send empty ones. *)
Definition shorts (size : Z) (pk : list (list Z)) : nat := length (filter (fun q => Z.of_nat (length q) <? size) pk).
Definition lasts (l : list (beat Z)) : nat := length (filter blast l).
Lemma shorts_cons size q pk : shorts size (q :: pk) = ((if (Z.of_nat (length q) <? size)%Z then 1 else 0) + shorts size pk)%nat.
Proof. unfold shorts. cbn [filter]. destruct (_ <? size); reflexivity. Qed.
Lemma lasts_cons b l : lasts (b :: l) = ((if blast b then 1 else 0) + lasts l)%nat.
Proof. unfold lasts. cbn [filter]. destruct (blast b); reflexivity. Qed.
Lemma in_shorts size : 0 < size -> forall l open, Z.of_nat (length open) < size -> shorts size (in_packets true size open l) = lasts l.
Proof.
  intros Hs. induction l as [|b l IH]; intros open H; [reflexivity|]. cbn [in_packets]. rewrite lasts_cons.
  assert (L : Z.of_nat (length (open ++ [bdata b])) = Z.of_nat (length open) + 1) by (rewrite app_length; cbn [length]; lia).
  destruct (blast b); [rewrite shorts_cons|]; rewrite ?L; destruct (Z.eqb_spec (Z.of_nat (length open) + 1) size) as [E|E]; cbn [andb app]; rewrite ?shorts_cons, ?L.
  - assert (Q : Z.of_nat (length open) + 1 <? size = false) by (apply Z.ltb_ge; lia). rewrite Q. cbn [length Z.of_nat].
    assert (Q' : 0 <? size = true) by (apply Z.ltb_lt; lia). rewrite Q', IH by (cbn [length]; lia). reflexivity.
  - assert (Q : Z.of_nat (length open) + 1 <? size = true) by (apply Z.ltb_lt; lia). rewrite Q, IH by (cbn [length]; lia). reflexivity.
  - assert (Q : Z.of_nat (length open) + 1 <? size = false) by (apply Z.ltb_ge; lia). rewrite Q, IH by (cbn [length]; lia). reflexivity.
  - rewrite IH by lia. reflexivity.
Qed.
Lemma out_lasts size : forall d room, d <> [] -> (1 <= lasts (out_beats true size room d))%nat.
Proof.
  induction d as [|x d IH]; intros room H; [congruence|]. cbn [out_beats]. rewrite lasts_cons. cbn [blast].
  destruct d as [|y d]; [destruct (room =? 1); lia|]. specialize (IH (if room =? 1 then size else room - 1) ltac:(discriminate)). lia.
Qed.
Lemma bulk_shorts size len : forall pk acc, match bulk_in size len acc pk with None => shorts size pk = 0%nat | Some (_, pk') => (shorts size pk <= 1 + shorts size pk')%nat end.
Proof.
  induction pk as [|q pk IH]; intros acc; [reflexivity|]. cbn [bulk_in]. rewrite shorts_cons. destruct (_ <? size); cbn [orb]; [lia|].
  destruct (len <=? _); [lia|]. specialize (IH (acc ++ q)). destruct (bulk_in _ _ _ pk) as [[? ?]|]; lia.
Qed.
Lemma run_shorts size p : all_some p -> forall pk, snd (xrun true size p pk) = false -> (shorts size pk < lasts (fst (fst (xrun true size p pk))))%nat.
Proof.
  induction p as [|d k IH]; intros HA pk E; [discriminate|]. destruct HA as [H1 H2]. cbn [xrun] in *. pose proof (bulk_shorts size (Z.of_nat (length d)) pk []) as B. pose proof (out_lasts size d size H1) as O.
  destruct (bulk_in _ _ [] pk) as [[r pk']|]; [|cbn [fst]; lia].
  specialize (IH r (H2 r) pk'). destruct (xrun true size (k r) pk') as [[w h] e]. cbn [fst snd] in *. specialize (IH E).
  unfold lasts in *. rewrite filter_app, app_length. lia.
Qed.

Section Live.
  Context (every zlp : bool) (size bw div delay : Z) (p : xprogram) (ins : nat -> host_in).
  Context (Hs : 0 < size) (Hdiv : 0 <= div < 256) (Hbw : In bw [1; 2; 4; 8]) (Hdl : 0 <= delay) (HF : all_some p).
  Let B := spi_host 8 bw div delay.
  Let T := host_cycles bw div delay ins.
  Let St (n : nat) := state B (map ins (seq 0 n)).
  Context (HD : forall n, xdriven every zlp size p (T n)) (HW : xusb_works every zlp size p ins T).
  Let ob (n : nat) : host_obs := cout B (St n) (ins n).
  Lemma Hq : (bw | 8).
  Proof using Hbw. clear - Hbw; cbn [In] in Hbw; destruct Hbw as [<-|[<-|[<-|[<-|[]]]]]; [exists 8|exists 4|exists 2|exists 1]; reflexivity. Qed.
  Lemma H8 : 0 < 8 <= 256. Proof. lia. Qed.
  Lemma T_S n : T (S n) = T n ++ [ob n].
  Proof. unfold T, host_cycles, ob, St. rewrite seq_S, map_app, trace_app. reflexivity. Qed.
  Lemma St_S n : St (S n) = cnext B (St n) (ins n).
  Proof. unfold St, state. rewrite seq_S, map_app, state_from_app. reflexivity. Qed.

  Let mv (n : nat) : nat := (length (sent (T n)) + length (returned (T n)))%nat.
  Definition gave (o : host_obs) : list (beat Z) := xfer (o_src (so_rx (ho_app o))) (o_rready (so_rx (ho_app o))).
  Let quiet (n : nat) : Prop := took (ob n) = [] /\ gave (ob n) = [].
  Lemma sent_S n : sent (T (S n)) = sent (T n) ++ took (ob n).
  Proof. rewrite T_S. unfold sent. rewrite map_app. cbn [map]. rewrite tx_in_snoc. reflexivity. Qed.
  Lemma returned_S n : returned (T (S n)) = returned (T n) ++ gave (ob n).
  Proof. rewrite T_S. unfold returned. rewrite map_app. cbn [map]. rewrite rx_out_snoc. reflexivity. Qed.
  Lemma mv_S n : (mv (S n) > mv n)%nat \/ quiet n /\ sent (T (S n)) = sent (T n) /\ returned (T (S n)) = returned (T n) /\ mv (S n) = mv n.
  Proof.
    unfold mv, quiet. rewrite sent_S, returned_S, !app_length.
    destruct (took (ob n)), (gave (ob n)); cbn [length]; rewrite ?app_nil_r; [right; repeat split; lia|left; lia..].
  Qed.

  (** Cycles until the bridge is at rest, as long as no byte is moved. *)
  Definition pending (f : list Z * option Z) : bool := match f with (_ :: _, None) => true | _ => false end.
  Definition phi (s : ss_state * ms_state 8) : Z :=
    (match fst s with SsIdle => delay + 2 | _ => m_tim _ (snd s) end) +
    (if m_run _ (snd s) then 4 * clk_left 8 div (snd s) + 4 else 0) + (if m_fv _ (snd s) then 2 else 0) + (if pending (m_fifo _ (snd s)) then 1 else 0).
  Definition at_rest (s : ss_state * ms_state 8) : Prop :=
    m_run _ (snd s) = false /\ m_fv _ (snd s) = false /\ pending (m_fifo _ (snd s)) = false /\ (fst s = SsIdle \/ m_tim _ (snd s) = 0).

  Lemma minv n : m_inv 8 bw div (map ho_phy (T n)) (snd (St n)).
  Proof using Hdiv Hbw. apply (host_inv 8 bw div delay Hdiv Hbw Hq H8). Qed.
  Lemma ssinv n : ss_inv (map ho_app (T n)) (fst (St n)).
  Proof using Hdiv Hbw. apply (host_ss 8 bw div delay Hdiv Hbw Hq H8). Qed.
  Lemma clk_nonneg n : m_run _ (snd (St n)) = true -> 0 <= clk_left 8 div (snd (St n)).
  Proof using Hdiv Hbw.
    intros R. destruct (minv n) as (ws & gs & pend & cur & _ & _ & _ & _ & PH & _). unfold clk_left.
    destruct PH as [q Hrun Hc | q w cur cnt Hrun Hc Hcnt HO HI HLg | w cur Hrun Hc HO HI HLg Hfv | w cur cnt Hrun Hc Hcnt HO HI HLg Hne0 | cnt Hrun Hc Hcnt Ho]; [congruence| | | |].
    all: rewrite Hc; cbn [ck_clk ck_cnt].
    4: { rewrite Ho. nia. }
    all: assert (0 <= m_ocnt _ (snd (St n))); [|nia].
    all: destruct HO as (_ & _ & _ & ->); destruct (legal_groups _ _ _ HLg) as [G1 G2]; destruct (legal_case _ _ _ HLg); destruct HI as (_ & HI2 & _);
      set (W1 := mw_width (fst w)) in *; set (NN := mw_len (fst w) / W1) in *; rewrite G1 in *; assert (Z.of_nat (length cur) < NN) by nia; nia.
  Qed.
  Lemma tim_n n : 0 <= m_tim _ (snd (St n)) <= delay + 1.
  Proof using Hdl. apply (tim_range 8 bw div delay Hdl). Qed.
  Lemma phi_pos n : 0 <= phi (St n).
  Proof using Hdiv Hbw Hdl.
    pose proof (tim_n n). pose proof (clk_nonneg n). unfold phi.
    destruct (fst (St n)), (m_run _ (snd (St n))), (m_fv _ (snd (St n))), (pending (m_fifo _ (snd (St n)))); lia.
  Qed.

  Lemma phi_step n : quiet n ->
    (fst (St n) <> SsIdle -> fst (St (S n)) = fst (St n)) /\
    (at_rest (St n) /\ (fst (St n) = SsIdle -> cvalid (hi_sink (ins n)) = false) /\ m_fifo _ (snd (St (S n))) = m_fifo _ (snd (St n)) /\ at_rest (St (S n)) /\ fst (St (S n)) = fst (St n) \/
     phi (St (S n)) < phi (St n)).
  Proof using Hdiv Hbw Hdl.
    intros [Q1 Q2]. pose proof (minv n) as HI. pose proof (clk_nonneg n) as CN. pose proof (clk_nonneg (S n)) as CN'. pose proof (tim_n n) as TN.
    rewrite St_S in *. unfold ob in Q1, Q2. set (s := St n) in *. set (i := ins n) in *.
    set (j := host_phy_in 8 bw (fst s) i).
    assert (L : ms_load 8 div (snd s) j = false).
    { unfold took, xfer in Q1. change (o_sready (so_tx (ho_app (cout B s i)))) with (ms_load 8 div (snd s) j && ss_tx_en (fst s)) in Q1.
      change (o_sink (so_tx (ho_app (cout B s i)))) with (hi_sink i) in Q1.
      destruct (ms_load 8 div (snd s) j) eqn:E; [exfalso|reflexivity].
      unfold ms_load, ms_xfr_en in E. apply andb_prop in E. destruct E as [_ E]. apply andb_prop in E. destruct E as [E _]. apply andb_prop in E. destruct E as [_ E].
      change (cvalid (hi_sink i) && ss_tx_en (fst s) = true) in E. apply andb_prop in E. destruct E as [E1 E2]. rewrite E1, E2 in Q1. discriminate. }
    set (re := ss_pready (fst s) (hi_ready i)).
    assert (NP : snd (m_fifo _ (snd s)) <> None -> re = false).
    { intros X. unfold gave, xfer in Q2. change (o_rready (so_rx (ho_app (cout B s i)))) with (hi_ready i) in Q2.
      change (cvalid (o_src (so_rx (ho_app (cout B s i))))) with (match snd (m_fifo _ (snd s)) with None => false | _ => true end && ss_rx_en (fst s)) in Q2.
      unfold re, ss_pready. destruct (snd (m_fifo _ (snd s))); [|congruence]. destruct (ss_rx_en (fst s)), (hi_ready i); try reflexivity. discriminate. }
    assert (EF : m_fifo _ (snd (cnext B s i)) = wf_next (sync_fifo_buffered 8) (m_fifo _ (snd s)) (m_fv _ (snd s)) (fifo_pack 8 (Beat false (m_fl _ (snd s)) (m_si _ (snd s)))) re) by reflexivity.
    assert (EV : m_fv _ (snd (cnext B s i)) = ms_in_end 8 (snd s)) by reflexivity.
    assert (ER : m_run _ (snd (cnext B s i)) = if ms_out_end 8 div (snd s) then false else m_run _ (snd s)).
    { cbn [B spi_host cnext snd spi_master m_run]. fold j. rewrite L. reflexivity. }
    assert (ET : m_tim _ (snd (cnext B s i)) = wt_next (delay + 1) (m_tim _ (snd s)) (match fst s with SsIdle => false | _ => true end)) by reflexivity.
    assert (ES : fst (cnext B s i) = match fst s with SsIdle => if cvalid (hi_sink i) then SsTxRx else SsIdle | x => x end).
    { change (fst (cnext B s i)) with (cnext (spi_stream 8 bw) (fst s) (host_app_in 8 bw div delay (fst s) (snd s) i)). destruct (fst s) eqn:F; [reflexivity| |].
      - assert (X : si_pready (host_app_in 8 bw div delay SsTxRx (snd s) i) = false) by exact L. cbn [cnext spi_stream]. unfold ss_dready. rewrite X. cbn [andb]. now rewrite andb_false_r.
      - cbn [cnext spi_stream]. change (cvalid (si_psink (host_app_in 8 bw div delay SsRx (snd s) i))) with (match snd (m_fifo _ (snd s)) with None => false | _ => true end).
        change (ss_pready SsRx (si_dready (host_app_in 8 bw div delay SsRx (snd s) i))) with re. destruct (snd (m_fifo _ (snd s))); [rewrite NP by discriminate|]; reflexivity. }
    (* the clock, whether or not the answers are taken *)
    assert (CK : m_run _ (snd s) = true -> m_run _ (snd (cnext B s i)) = true -> clk_left 8 div (snd (cnext B s i)) <= clk_left 8 div (snd s) - 1).
    { intros R1 R2. set (j' := MsIn (mi_cs j) (mi_sink j) (mi_dq j) true).
      pose proof (rx_left_step 8 bw div delay Hdiv _ (snd s) j' HI eq_refl L) as X. unfold rx_left in X. rewrite R1 in X.
      change (m_run 8 (cnext (spi_master 8 bw div delay) (snd s) j')) with (m_run _ (snd (cnext B s i))) in X. rewrite R2 in X.
      change (clk_left 8 div (cnext (spi_master 8 bw div delay) (snd s) j')) with (clk_left 8 div (snd (cnext B s i))) in X.
      specialize (CN R1). specialize (CN' R2). lia. }
    assert (IE : m_run _ (snd s) = false -> ms_in_end 8 (snd s) = false).
    { intros R. destruct HI as (ws & gs & pend & cur & _ & _ & _ & _ & PH & _). destruct PH; try congruence. unfold ms_in_end, ms_posedge_reg. now rewrite H0. }
    assert (DD : (match fst (cnext B s i) with SsIdle => delay + 2 | _ => m_tim _ (snd (cnext B s i)) end) <= (match fst s with SsIdle => delay + 2 | _ => m_tim _ (snd s) end) /\
      ((match fst (cnext B s i) with SsIdle => delay + 2 | _ => m_tim _ (snd (cnext B s i)) end) = (match fst s with SsIdle => delay + 2 | _ => m_tim _ (snd s) end) ->
       fst (cnext B s i) = fst s /\ (fst s = SsIdle /\ cvalid (hi_sink i) = false \/ m_tim _ (snd s) = 0 /\ m_tim _ (snd (cnext B s i)) = 0))).
    { rewrite ES, ET. unfold wt_next, wt_done. destruct (fst s).
      - destruct (cvalid (hi_sink i)); cbn [fst]; [destruct (delay + 1 =? 0) eqn:Z0|]; try (rewrite Z.eqb_eq in Z0); split; intros; try lia; auto.
      - destruct (Z.eqb_spec (m_tim _ (snd s)) 0) as [Z0|Z0]; cbn [negb]; [rewrite Z0; auto with zarith|rewrite trunc_range_small by lia; split; intros; lia].
      - destruct (Z.eqb_spec (m_tim _ (snd s)) 0) as [Z0|Z0]; cbn [negb]; [rewrite Z0; auto with zarith|rewrite trunc_range_small by lia; split; intros; lia]. }
    destruct DD as [D1 D2].
    split; [intros X; rewrite ES; destruct (fst s); congruence|].
    destruct (m_run _ (snd s)) eqn:R.
    - right. unfold phi. rewrite R. specialize (CN eq_refl). specialize (CK eq_refl).
      destruct (m_run _ (snd (cnext B s i))); [specialize (CK eq_refl); specialize (CN' eq_refl)|]; destruct (m_fv _ (snd (cnext B s i))), (pending (m_fifo _ (snd (cnext B s i)))), (m_fv _ (snd s)), (pending (m_fifo _ (snd s))); lia.
    - rewrite (IE eq_refl) in EV. assert (R' : m_run _ (snd (cnext B s i)) = false) by (rewrite ER; destruct (ms_out_end _ _ _); reflexivity).
      unfold phi. rewrite R, R', EV. clear CK CN CN' IE.
      destruct (m_fv _ (snd s)) eqn:FV; [right; destruct (pending (m_fifo _ (snd (cnext B s i)))), (pending (m_fifo _ (snd s))); lia|].
      destruct (pending (m_fifo _ (snd s))) eqn:PE.
      + right. assert (pending (m_fifo _ (snd (cnext B s i))) = false); [|rewrite H; lia]. rewrite EF. destruct (m_fifo _ (snd s)) as [[|x q] [r|]]; try discriminate. destruct q; reflexivity.
      + assert (FE : m_fifo _ (snd (cnext B s i)) = m_fifo _ (snd s)).
        { rewrite EF. destruct (m_fifo _ (snd s)) as [q [r|]]; cbn [snd] in *.
          - rewrite NP by discriminate. cbn. now rewrite app_nil_r.
          - destruct q; [reflexivity|discriminate]. }
        rewrite FE, PE. destruct (Z.eq_dec (match fst (cnext B s i) with SsIdle => delay + 2 | _ => m_tim _ (snd (cnext B s i)) end) (match fst s with SsIdle => delay + 2 | _ => m_tim _ (snd s) end)) as [E|E]; [left|right; lia].
        destruct (D2 E) as [X Y]. unfold at_rest. rewrite R, R', FV, EV, FE, PE, X. repeat split; auto; destruct Y as [[Y1 Y2]|[Y1 Y2]]; auto.
        intros F. rewrite F in E, X. rewrite ES in X. rewrite F in X. destruct (cvalid (hi_sink i)); [discriminate|reflexivity].
  Qed.

  (** Without a byte moved, the bridge comes to rest. *)
  Lemma quiet_end k : forall n, phi (St n) <= Z.of_nat k -> exists m, (n <= m)%nat /\
    ((mv n < mv m)%nat \/ sent (T m) = sent (T n) /\ returned (T m) = returned (T n) /\ at_rest (St m) /\ (fst (St n) <> SsIdle -> fst (St m) = fst (St n))).
  Proof using Hdiv Hbw Hdl.
    induction k as [|k IH]; intros n HK.
    all: destruct (mv_S n) as [M|(Q & G & H & M)]; [exists (S n); split; [lia|left; exact M]|].
    all: destruct (phi_step n Q) as [F [(R & _)|D]]; [exists n; split; [lia|]; right; auto|].
    - pose proof (phi_pos (S n)). lia.
    - destruct (IH (S n)) as (m & L & C); [lia|]. exists m. split; [lia|]. rewrite M, G, H in C. destruct C as [C|(C1 & C2 & C3 & C4)]; [auto|right].
      repeat split; auto; try apply C3. intros X. rewrite C4; [auto|]. rewrite F; auto.
  Qed.

  (** Received and given back. *)
  Lemma counts n : (length (returned (T n)) <= length (sent (T n)))%nat /\
    (at_rest (St n) -> snd (m_fifo _ (snd (St n))) = None -> length (returned (T n)) = length (sent (T n))) /\
    (length (returned (T n)) = length (sent (T n)) -> ms_level 8 (snd (St n)) = 0).
  Proof using Hdiv Hbw.
    assert (L : (length (returned (T n)) <= length (sent (T n)))%nat).
    { pose proof (ssinv n) as SS. unfold ss_inv in SS. unfold returned, sent. destruct (fst (St n)).
      - destruct SS as [SS _]. apply (f_equal (@length _)) in SS. rewrite !map_length in SS. lia.
      - destruct SS as (? & ? & ? & _ & _ & SS & _). apply (f_equal (@length _)) in SS. rewrite app_length, !map_length in SS. lia.
      - destruct SS as (? & ? & ? & _ & _ & SS & _). apply (f_equal (@length _)) in SS. rewrite app_length, !map_length in SS. lia. }
    split; [exact L|]. split.
    - intros (R & V & P & _) E.
      destruct (Nat.lt_ge_cases (length (returned (T n))) (length (sent (T n)))) as [X|X]; [exfalso|lia].
      apply (rx_left_pos 8 bw div delay Hdiv Hbw Hq H8) in X. fold B in X. change (state B (map ins (seq 0 n))) with (St n) in X. unfold rx_left in X. rewrite R, V in X.
      unfold fifo_left in X. destruct (m_fifo _ (snd (St n))) as [[|x q] r]; cbn [fst snd] in *; subst r; [cbn in X; lia|discriminate].
    - intros E. pose proof (host_count 8 bw div delay Hdiv Hbw Hq H8 (map ins (seq 0 n))) as C. fold B in C. change (state B (map ins (seq 0 n))) with (St n) in C. change (trace B (map ins (seq 0 n))) with (T n) in C.
      pose proof (rx_len 8 bw div delay (map ins (seq 0 n))) as RL. fold B in RL. change (trace B (map ins (seq 0 n))) with (T n) in RL.
      destruct (minv n) as (ws & gs & pend & cur & W & _ & _ & FA & _). apply answers_lasts in FA. apply (f_equal (@length _)) in FA. rewrite !map_length, app_length in FA.
      apply (f_equal (@length _)) in W. pose proof (host_words 8 bw div delay (map ins (seq 0 n))) as HWd. fold B in HWd. change (trace B (map ins (seq 0 n))) with (T n) in HWd. rewrite HWd, map_length, app_length in W.
      unfold returned in E. unfold sent in E. assert (0 <= ms_level 8 (snd (St n))) by (unfold ms_level; cbn [sync_fifo_buffered wf_level]; destruct (snd (m_fifo _ (snd (St n)))); lia). lia.
  Qed.

  Lemma rest_answers d : forall n, at_rest (St n) -> snd (m_fifo _ (snd (St n))) <> None -> hi_ready (ins (n + d)) = true -> exists m, (n <= m)%nat /\ (mv n < mv m)%nat.
  Proof using Hdiv Hbw Hdl.
    induction d as [|d IH]; intros n R X H; (destruct (mv_S n) as [M|(Q & G & Hb & M)]; [exists (S n); split; [lia|exact M]|]).
    - exfalso. rewrite Nat.add_0_r in H. destruct Q as [_ Q]. unfold gave, xfer, ob in Q.
      change (o_rready (so_rx (ho_app (cout B (St n) (ins n))))) with (hi_ready (ins n)) in Q.
      change (cvalid (o_src (so_rx (ho_app (cout B (St n) (ins n)))))) with (match snd (m_fifo _ (snd (St n))) with None => false | _ => true end && ss_rx_en (fst (St n))) in Q.
      rewrite H in Q. destruct (snd (m_fifo _ (snd (St n)))) eqn:E; [|congruence].
      destruct (fst (St n)) eqn:F; try discriminate Q.
      pose proof (ssinv n) as SS. rewrite F in SS. destruct SS as [SS _]. destruct (counts n) as (_ & _ & C).
      assert (L : length (returned (T n)) = length (sent (T n))) by (apply (f_equal (@length _)) in SS; rewrite !map_length in SS; symmetry; exact SS).
      specialize (C L). unfold ms_level in C. cbn [sync_fifo_buffered wf_level] in C. rewrite E in C. lia.
    - destruct (phi_step n Q) as [F [(R1 & R2 & R3 & R4 & R5)|D]].
      + destruct (IH (S n)) as (m & L & M'); [exact R4|rewrite R3; exact X|rewrite Nat.add_succ_r in H; exact H|]. exists m. split; lia.
      + exfalso. pose proof (ssinv n) as SS. destruct R as (R1 & R2 & R3 & R4).
        destruct (fst (St n)) eqn:Fs.
        * destruct SS as [SS _]. destruct (counts n) as (_ & _ & C).
          assert (L : length (returned (T n)) = length (sent (T n))) by (apply (f_equal (@length _)) in SS; rewrite !map_length in SS; symmetry; exact SS).
          specialize (C L). unfold ms_level in C. cbn [sync_fifo_buffered wf_level] in C. destruct (snd (m_fifo _ (snd (St n)))); [lia|congruence].
        * destruct R4 as [|R4]; [discriminate|]. pose proof (phi_pos (S n)). unfold phi in D at 2. rewrite Fs, R1, R2, R3, R4 in D. lia.
        * destruct R4 as [|R4]; [discriminate|]. pose proof (phi_pos (S n)). unfold phi in D at 2. rewrite Fs, R1, R2, R3, R4 in D. lia.
  Qed.

  (** The program has more to write when everything written was answered. *)
  Lemma program_n n : xended every zlp size p (T n) = false -> length (returned (T n)) = length (sent (T n)) -> xwritten every zlp size p (T n) <> sent (T n).
  Proof using Hs Hdiv Hbw HF HD.
    intros E L X. assert (HA : every && zlp = true \/ all_fit every zlp size p).
    { destruct (every && zlp) eqn:EZ; [auto|right]. clear - HF EZ. induction p as [|d k IH]; [exact I|]. destruct HF as [H1 H2]. split; [split; [exact H1|congruence]|intros r; apply IH, H2]. }
    destruct (host_pins bw div delay (map ins (seq 0 n)) Hdiv Hbw) as (s1 & s2 & gs & cur & E1 & E2 & E3 & E4 & E5). fold B in E1, E2, E3, E4. change (trace B (map ins (seq 0 n))) with (T n) in *.
    assert (LL : length (returned (T n)) = length s1) by (apply (f_equal (@length _)) in E4; now rewrite !map_length in E4).
    assert (P : map blast (returned (T n)) = firstn (length (returned (T n))) (map blast (sent (T n)))).
    { rewrite E1, map_app, firstn_app, map_length, LL, Nat.sub_diag. cbn [firstn]. rewrite app_nil_r, firstn_all2 by (rewrite map_length; lia). exact E4. }
    destruct HA as [HA|HA].
    { apply andb_prop in HA. destruct HA as [HA1 HA2]. unfold xended, xwritten, got in E, X. rewrite HA1, HA2 in E, X.
      pose proof (run_shorts size p HF _ E) as Y. rewrite X, in_shorts in Y by (cbn [length]; lia).
      rewrite firstn_all2 in P by (rewrite map_length; lia).
      assert (G : forall l, lasts l = length (filter (fun b => b) (map blast l))) by (clear; induction l as [|b l IH]; [reflexivity|]; rewrite lasts_cons, IH; cbn [map filter]; destruct (blast b); reflexivity).
      rewrite !G, P in Y. lia. }
    pose proof (session every zlp size Hs p (sent (T n)) (returned (T n)) HA P ltac:(lia) (HD n)) as S.
    unfold xended, xwritten, got in E, X, S. destruct (xrun every size p (in_packets zlp size [] (returned (T n)))) as [[w h] e]. cbn [fst snd] in *.
    destruct S as (d2 & r2 & S1 & S2 & S3 & _ & S5). destruct (S5 E) as [Y|(b & Y1 & Y2)].
    - assert (LC : length (concat (map fst h)) = length (concat (map snd h))).
      { clear - S3. induction h as [|x h IH]; [reflexivity|]. apply Forall_cons_iff in S3. destruct S3 as [A C]. cbn [map concat]. rewrite !app_length, A, IH by exact C. reflexivity. }
      apply (f_equal (@length _)) in S1, S2. rewrite app_length, map_length in S1, S2. lia.
    - rewrite X in Y1. rewrite <- (app_nil_r (sent (T n))) in Y1 at 1. apply app_inv_head in Y1. congruence.
  Qed.

  Lemma fst_written n m : returned (T m) = returned (T n) -> xwritten every zlp size p (T m) = xwritten every zlp size p (T n) /\ xended every zlp size p (T m) = xended every zlp size p (T n).
  Proof. intros E. unfold xwritten, xended, got. rewrite E. auto. Qed.

  (** At rest with nothing outstanding, the next byte is taken, or, from the idle state, the chip
      select is asserted. *)
  Lemma rest_moves d : forall n, at_rest (St n) -> length (returned (T n)) = length (sent (T n)) -> xended every zlp size p (T n) = false ->
    cvalid (hi_sink (ins (n + d))) = true \/ xwritten every zlp size p (T (n + d)) = sent (T (n + d)) ->
    exists m, (n <= m)%nat /\ ((mv n < mv m)%nat \/ fst (St n) = SsIdle /\ fst (St m) = SsTxRx /\ sent (T m) = sent (T n) /\ returned (T m) = returned (T n)).
  Proof using Hs Hdiv Hbw Hdl HF HD.
    induction d as [|d IH]; intros n R L N H.
    - rewrite Nat.add_0_r in H. destruct H as [H|H]; [|exfalso; now apply (program_n n)].
      exists (S n). split; [lia|]. destruct (mv_S n) as [M|(Q & G & Hb & M)]; [auto|right].
      pose proof (ssinv n) as SS. destruct (counts n) as (_ & _ & C). specialize (C L).
      destruct (fst (St n)) eqn:F.
      + repeat split; auto. rewrite St_S.
        change (fst (cnext B (St n) (ins n))) with (cnext (spi_stream 8 bw) (fst (St n)) (host_app_in 8 bw div delay (fst (St n)) (snd (St n)) (ins n))). rewrite F.
        cbn [cnext spi_stream]. change (si_dsink (host_app_in 8 bw div delay SsIdle (snd (St n)) (ins n))) with (hi_sink (ins n)). now rewrite H.
      + exfalso. destruct Q as [Q _]. unfold took, xfer, ob in Q.
        change (o_sready (so_tx (ho_app (cout B (St n) (ins n))))) with (ms_load 8 div (snd (St n)) (host_phy_in 8 bw (fst (St n)) (ins n)) && ss_tx_en (fst (St n))) in Q.
        change (o_sink (so_tx (ho_app (cout B (St n) (ins n))))) with (hi_sink (ins n)) in Q. rewrite H, F in Q.
        destruct R as (R1 & R2 & R3 & [R4|R4]); [congruence|].
        assert (LD : ms_load 8 div (snd (St n)) (host_phy_in 8 bw SsTxRx (ins n)) = true).
        { unfold ms_load, ms_xfr_en, ms_cs_en, wt_done, ms_full. rewrite R1, R4, C. change (cvalid (mi_sink (host_phy_in 8 bw SsTxRx (ins n)))) with (cvalid (hi_sink (ins n)) && true). rewrite H. reflexivity. }
        rewrite LD in Q. discriminate.
      + exfalso. destruct SS as (S0 & x & l & _ & _ & SS & _ & NE). apply (f_equal (@length _)) in SS. rewrite app_length, !map_length in SS. unfold returned, sent in L. destruct l; [congruence|cbn [length] in SS; lia].
    - destruct (mv_S n) as [M|(Q & G & Hb & M)]; [exists (S n); split; [lia|auto]|].
      destruct (fst_written n (S n) Hb) as [W1 W2].
      destruct (phi_step n Q) as [F [(R1 & R2 & R3 & R4 & R5)|D]].
      + destruct (IH (S n)) as (m & Lm & [C|(C1 & C2 & C3 & C4)]); [exact R4|rewrite Hb, G; exact L|rewrite W2; exact N|rewrite Nat.add_succ_r in H; exact H| |].
        * exists m. split; [lia|left; lia].
        * exists m. split; [lia|right]. rewrite <- R5, C3, C4. auto.
      + exists (S n). split; [lia|right].
        destruct R as (R1 & R2 & R3 & R4). pose proof (phi_pos (S n)) as PP.
        assert (FI : fst (St n) = SsIdle).
        { destruct R4 as [R4|R4]; [exact R4|]. unfold phi in D at 2. rewrite R1, R2, R3, R4 in D. destruct (fst (St n)); [reflexivity|lia|lia]. }
        repeat split; auto. assert (X : fst (St (S n)) = SsIdle \/ fst (St (S n)) = SsTxRx).
        { rewrite St_S. change (fst (cnext B (St n) (ins n))) with (cnext (spi_stream 8 bw) (fst (St n)) (host_app_in 8 bw div delay (fst (St n)) (snd (St n)) (ins n))). rewrite FI. cbn [cnext spi_stream]. match goal with |- context [if ?b then _ else _] => destruct b end; [right|left]; reflexivity. }
        destruct X as [X|X]; [exfalso|exact X]. 
        assert (RN : m_run _ (snd (St (S n))) = false /\ m_fv _ (snd (St (S n))) = false).
        { unfold phi in D. rewrite FI, X, R1, R2, R3 in D. pose proof (clk_nonneg (S n)) as CN.
          destruct (m_run _ (snd (St (S n)))); [specialize (CN eq_refl)|]; destruct (m_fv _ (snd (St (S n)))), (pending (m_fifo _ (snd (St (S n))))); split; auto; lia. }
        unfold phi in D. destruct RN as [RN1 RN2]. rewrite FI, X, R1, R2, R3, RN1, RN2 in D. destruct (pending (m_fifo _ (snd (St (S n))))); lia.
  Qed.

  Lemma moves n : xended every zlp size p (T n) = false -> exists m, (n <= m)%nat /\ (mv n < mv m)%nat.
  Proof using Hs Hdiv Hbw Hdl HF HD HW.
    intros N.
    assert (A : forall n, xended every zlp size p (T n) = false -> fst (St n) <> SsIdle -> exists m, (n <= m)%nat /\ (mv n < mv m)%nat).
    { clear n N. intros n N NI. destruct (quiet_end (Z.to_nat (phi (St n))) n) as (m & L & [M|(G & H & R & F)]); [pose proof (phi_pos n); lia|eauto|].
      assert (M : mv m = mv n) by (unfold mv; rewrite G, H; reflexivity). destruct (fst_written n m H) as [_ W2]. specialize (F NI).
      assert (X : exists q, (m <= q)%nat /\ (mv m < mv q)%nat).
      { destruct (snd (m_fifo _ (snd (St m)))) eqn:E.
        - destruct (proj2 HW m) as (q & Lq & Rq). apply (rest_answers (q - m)); [exact R|rewrite E; discriminate|]. replace (m + (q - m))%nat with q by lia. exact Rq.
        - destruct (counts m) as (_ & C & _). specialize (C R E). destruct (proj1 HW m) as (q & Lq & Rq).
          destruct (rest_moves (q - m) m R C) as (z & Lz & [Mz|(Z1 & _)]); [rewrite W2; exact N|replace (m + (q - m))%nat with q by lia; exact Rq|eauto|]. congruence. }
      destruct X as (q & L' & M'). exists q. split; lia. }
    destruct (fst (St n)) eqn:F; [|apply A; [exact N|congruence]|apply A; [exact N|congruence]].
    destruct (quiet_end (Z.to_nat (phi (St n))) n) as (m & L & [M|(G & H & R & _)]); [pose proof (phi_pos n); lia|eauto|].
    assert (M : mv m = mv n) by (unfold mv; rewrite G, H; reflexivity). destruct (fst_written n m H) as [_ W2].
    assert (X : exists q, (m <= q)%nat /\ (mv m < mv q)%nat).
    { destruct (snd (m_fifo _ (snd (St m)))) eqn:E.
      - destruct (proj2 HW m) as (q & Lq & Rq). apply (rest_answers (q - m)); [exact R|rewrite E; discriminate|]. replace (m + (q - m))%nat with q by lia. exact Rq.
      - destruct (counts m) as (_ & C & _). specialize (C R E). destruct (proj1 HW m) as (q & Lq & Rq).
        destruct (rest_moves (q - m) m R C) as (z & Lz & [Mz|(Z1 & Z2 & Z3 & Z4)]); [rewrite W2; exact N|replace (m + (q - m))%nat with q by lia; exact Rq|eauto|].
        destruct (fst_written m z Z4) as [_ W3]. destruct (A z) as (y & Ly & My); [rewrite W3, W2; exact N|congruence|].
        exists y. split; [lia|]. assert (mv z = mv m) by (unfold mv; rewrite Z3, Z4; reflexivity). lia. }
    destruct X as (q & L' & M'). exists q. split; lia.
  Qed.

  Lemma got_app n d : exists y, got zlp size (T (n + d)) = got zlp size (T n) ++ y.
  Proof.
    assert (E : exists l, returned (T (n + d)) = returned (T n) ++ l).
    { induction d as [|d (l & E)]; [exists []; now rewrite Nat.add_0_r, app_nil_r|]. rewrite Nat.add_succ_r, returned_S, E, <- app_assoc. eauto. }
    destruct E as [l E]. unfold got. rewrite E. apply in_packets_more.
  Qed.

  Lemma finish p' : forall pre r n0,
    (forall y, fst (fst (xrun every size p (got zlp size (T n0) ++ y))) = pre ++ fst (fst (xrun every size p' (r ++ y)))) ->
    (forall y, snd (xrun every size p (got zlp size (T n0) ++ y)) = snd (xrun every size p' (r ++ y))) -> exists n, xended every zlp size p (T n) = true.
  Proof using Hs Hdiv Hbw Hdl HF HD HW.
    induction p' as [|d k IH]; intros pre r n0 Wr En.
    - exists n0. specialize (En []). rewrite app_nil_r in En. exact En.
    - set (K := (length pre + length d)%nat).
      assert (X : forall j n, (n0 <= n)%nat -> (2 * K < mv n + j)%nat ->
        exists m y, (n0 <= m)%nat /\ got zlp size (T m) = got zlp size (T n0) ++ y /\ bulk_in size (Z.of_nat (length d)) [] (r ++ y) <> None).
      { induction j as [|j IHj]; intros n L LJ.
        all: destruct (got_app n0 (n - n0)) as (y & Ey); replace (n0 + (n - n0))%nat with n in Ey by lia.
        all: destruct (bulk_in size (Z.of_nat (length d)) [] (r ++ y)) as [z|] eqn:EC; [exists n, y; rewrite EC; repeat split; [lia|exact Ey|discriminate]|].
        - exfalso. destruct (HD n) as [later Wn]. unfold xwritten in Wn. rewrite Ey, Wr in Wn. cbn [xrun] in Wn. rewrite EC in Wn. cbn [fst] in Wn.
          apply (f_equal (@length _)) in Wn. rewrite !app_length, out_length in Wn. destruct (counts n) as (C & _). unfold mv in LJ. unfold K in *. lia.
        - assert (N : xended every zlp size p (T n) = false) by (unfold xended; rewrite Ey, En; cbn [xrun]; rewrite EC; reflexivity).
          destruct (moves n N) as (m & Lm & Mm). apply (IHj m); lia. }
      destruct (X (S (2 * K)) n0 (le_n _) ltac:(lia)) as (m & y & Lm & Ey & EC).
      destruct (bulk_in size (Z.of_nat (length d)) [] (r ++ y)) as [[res rest']|] eqn:E; [clear EC|congruence].
      apply (IH res (pre ++ out_beats every size size d) rest' m).
      + intros z. rewrite Ey, <- app_assoc, Wr, app_assoc. cbn [xrun]. rewrite (bulk_in_more size _ z _ _ _ _ E). destruct (xrun every size (k res) (rest' ++ z)) as [[w h] e]. cbn [fst]. now rewrite app_assoc.
      + intros z. rewrite Ey, <- app_assoc, En, app_assoc. cbn [xrun]. rewrite (bulk_in_more size _ z _ _ _ _ E). destruct (xrun every size (k res) (rest' ++ z)) as [[w h] e]. reflexivity.
  Qed.
  Lemma ends : exists n, xended every zlp size p (T n) = true.
  Proof using Hs Hdiv Hbw Hdl HF HD HW. destruct (finish p [] [] 0%nat) as (n & E); [intros y; reflexivity..|]. eauto. Qed.
End Live.
