(** The SPI host never gets stuck, C137. *)
From Verif Require Import Stream Bits Fifo_model Timer_model Spiclk_model I2cstream_proofs Spistream_model Spistream_props Spimaster_model Spimaster_props Progress Spilive_props Spislave_model Spislave_props Spilink_model Spilink_spec Spilink_proofs Spilink_props.

Section Down.
  Context (width bo div delay : Z) (Hdiv : 0 <= div < 256).
  Notation c := (spi_master width bo div delay).
  (** Cycles left of the word under way. *)
  Definition clk_left (s : ms_state width) : Z :=
    2 * (div + 1) * m_ocnt _ s + (if ck_clk (m_ck _ s) then div - ck_cnt (m_ck _ s) else 2 * div + 1 - ck_cnt (m_ck _ s)).
  (** Cycles to empty the receive FIFO. *)
  Definition fifo_left (f : list Z * option Z) : Z := 2 * Z.of_nat (length (fst f)) + match snd f with None => 0 | _ => 1 end.
  Definition rx_left (s : ms_state width) : nat :=
    Z.to_nat (if m_run _ s then clk_left s + 40 else fifo_left (m_fifo _ s) + (if m_fv _ s then 3 else 0)).

  Lemma fifo_left_step f we wd : fifo_left (wf_next (sync_fifo_buffered 8) f we wd true) <= Z.max 0 (fifo_left f - 1) + (if we then 2 else 0).
  Proof.
    destruct f as [q r]. cbn [sync_fifo_buffered wf_next fst snd].
    set (push := if we && negb (Z.of_nat (length q) =? 8 - 1) then [wd] else []).
    assert (Hp : Z.of_nat (length push) <= if we then 1 else 0) by (unfold push; destruct we; cbn [andb]; [destruct (negb _)|]; cbn [length]; lia).
    clearbody push. unfold fifo_left. cbn [fst snd].
    destruct r as [r|], q as [|w q]; cbn [fst snd length]; rewrite ?app_length; cbn [length]; destruct we; lia.
  Qed.

  Lemma rx_left_step t s i : m_inv width bo div t s -> mi_rready i = true -> ms_load width div s i = false ->
    (0 < rx_left s)%nat -> (1 + rx_left (cnext c s i) <= rx_left s)%nat.
  Proof.
    intros (ws & gs & pend & cur & _ & _ & _ & _ & PH & LV & FI & _) Hr Hld Hpos.
    set (n := cnext c s i).
    assert (N1 : m_ck _ n = ck_next div (m_ck _ s) (m_run _ s)) by reflexivity.
    assert (N2 : m_ocnt _ n = if ms_negedge width div s && negb (m_ocnt _ s =? 0) then trunc 8 (m_ocnt _ s - m_w _ s) else m_ocnt _ s).
    { unfold n. cbn [spi_master cnext m_ocnt]. rewrite Hld. reflexivity. }
    assert (N8 : m_run _ n = if ms_out_end width div s then false else m_run _ s).
    { unfold n. cbn [spi_master cnext m_run]. rewrite Hld. reflexivity. }
    assert (N9 : m_fv _ n = ms_in_end width s) by reflexivity.
    assert (NF : fifo_left (m_fifo _ n) <= Z.max 0 (fifo_left (m_fifo _ s) - 1) + (if m_fv _ s then 2 else 0)).
    { pose proof (fifo_left_step (m_fifo _ s) (m_fv _ s) (fifo_pack width (Beat false (m_fl _ s) (m_si _ s)))) as D. rewrite <- Hr in D. exact D. }
    assert (FB : 0 <= fifo_left (m_fifo _ s) <= 16).
    { unfold ms_level in LV. cbn [sync_fifo_buffered wf_level] in LV. unfold fifo_left. destruct (snd (m_fifo _ s)); lia. }
    assert (FP : 0 <= fifo_left (m_fifo _ n)) by (unfold fifo_left; destruct (snd (m_fifo _ n)); lia).
    clearbody n. unfold rx_left in *.
    destruct PH as [p Hrun Hc | p w cur cnt Hrun Hc Hcnt HO HI HLg | w cur Hrun Hc HO HI HLg Hfv | w cur cnt Hrun Hc Hcnt HO HI HLg Hne0 | cnt Hrun Hc Hcnt Ho].
    - (* not running *)
      assert (Hoe : ms_out_end width div s = false) by (unfold ms_out_end, ms_negedge, ck_negedge; rewrite Hc; cbn [ck_clk]; now rewrite andb_false_r).
      assert (Hie : ms_in_end width s = false) by (unfold ms_in_end, ms_posedge_reg; now rewrite Hc).
      rewrite Hrun in *. rewrite N8, Hoe, N9, Hie. destruct (m_fv _ s); lia.
    - (* clock low *)
      assert (Hne : ms_negedge width div s = false) by (unfold ms_negedge, ck_negedge; rewrite Hc; apply andb_false_iff; left; apply andb_false_r).
      assert (Hoe : ms_out_end width div s = false) by (unfold ms_out_end; now rewrite Hne).
      rewrite Hne in N2. cbn [andb] in N2. rewrite Hoe, Hrun in N8. rewrite Hrun, Hc in N1. unfold ck_next, ck_posedge in N1. cbn [ck_cnt ck_clk ck_pr negb andb] in N1.
      assert (0 <= m_ocnt _ s).
      { destruct HO as (_ & _ & _ & ->). destruct (legal_groups _ _ _ HLg) as [G1 G2]. destruct (legal_case _ _ _ HLg). destruct HI as (_ & HI2 & _).
        set (W1 := mw_width (fst w)) in *. set (NN := mw_len (fst w) / W1) in *. rewrite G1 in *. assert (Z.of_nat (length cur) < NN) by nia. nia. }
      unfold clk_left. rewrite N8, Hrun, N2, N1, Hc. destruct (Z.ltb_spec cnt div) as [Hlt|Hge]; cbn [ck_clk ck_cnt negb]; [rewrite trunc_small by (change (2 ^ 8) with 256; lia)|]; nia.
    - (* rising edge *)
      assert (HOC : m_ocnt _ s = 0 \/ m_w _ s <= m_ocnt _ s < 256 /\ 0 < m_w _ s).
      { destruct HO as (-> & _ & _ & ->). destruct (legal_groups _ _ _ HLg) as [G1 G2]. destruct (legal_case _ _ _ HLg). destruct HI as (_ & HI2 & _). destruct HLg as (_ & _ & _ & HL1 & HL2).
        set (W1 := mw_width (fst w)) in *. set (NN := mw_len (fst w) / W1) in *. rewrite G1 in *. assert (Z.of_nat (length cur) < NN) by nia.
        destruct (Z.eq_dec (Z.of_nat (length cur) + 1) NN) as [<-|]; [left; lia|right]. split; [|lia]. nia. }
      assert (Hne : ms_negedge width div s = (0 =? div)) by (unfold ms_negedge, ck_negedge; rewrite Hc, Hrun; reflexivity).
      rewrite Hrun, Hc in N1. unfold ck_next, ck_posedge in N1. cbn [ck_cnt ck_clk ck_pr negb andb] in N1.
      unfold clk_left. rewrite Hrun, Hc. cbn [ck_clk ck_cnt]. unfold ms_out_end in N8. rewrite Hne in N2, N8.
      destruct (Z.ltb_spec 0 div) as [Hlt|Hge].
      + destruct (Z.eqb_spec 0 div); [lia|]. cbn [andb] in N2, N8. rewrite N8, Hrun, N2, N1. cbn [ck_clk ck_cnt]. rewrite trunc_small by (change (2 ^ 8) with 256; lia). nia.
      + destruct (Z.eqb_spec 0 div); [|lia]. cbn [andb] in N2, N8. destruct (Z.eqb_spec (m_ocnt _ s) 0) as [E|E]; cbn [negb] in N2; rewrite N8.
        * rewrite N9. destruct (ms_in_end width s), (m_fv _ s); nia.
        * rewrite Hrun, N2, N1. cbn [ck_clk ck_cnt]. rewrite trunc_small by (change (2 ^ 8) with 256; lia). nia.
    - (* clock high *)
      assert (HOC : m_w _ s <= m_ocnt _ s < 256 /\ 0 < m_w _ s).
      { destruct HO as (-> & _ & _ & ->). destruct (legal_groups _ _ _ HLg) as [G1 G2]. destruct (legal_case _ _ _ HLg). destruct HI as (_ & HI2 & _). destruct HLg as (_ & _ & _ & HL1 & HL2).
        set (W1 := mw_width (fst w)) in *. set (NN := mw_len (fst w) / W1) in *. rewrite G1 in *. assert (Z.of_nat (length cur) < NN) by nia.
        assert (0 < Z.of_nat (length cur)) by (destruct cur; [congruence|cbn [length]; lia]). split; [|lia]. nia. }
      assert (Hne : ms_negedge width div s = (cnt =? div)) by (unfold ms_negedge, ck_negedge; rewrite Hc, Hrun; reflexivity).
      rewrite Hrun, Hc in N1. unfold ck_next, ck_posedge in N1. cbn [ck_cnt ck_clk ck_pr negb andb] in N1.
      unfold clk_left. rewrite Hrun, Hc. cbn [ck_clk ck_cnt]. unfold ms_out_end in N8. rewrite Hne in N2, N8.
      destruct (Z.eqb_spec (m_ocnt _ s) 0); [lia|]. rewrite andb_false_r in N8. rewrite N8, Hrun.
      destruct (Z.ltb_spec cnt div) as [Hlt|Hge].
      + destruct (Z.eqb_spec cnt div); [lia|]. cbn [andb] in N2. rewrite N2, N1. cbn [ck_clk ck_cnt]. rewrite trunc_small by (change (2 ^ 8) with 256; lia). nia.
      + destruct (Z.eqb_spec cnt div); [|lia]. cbn [andb negb] in N2. rewrite N2, N1. cbn [ck_clk ck_cnt negb]. rewrite trunc_small by (change (2 ^ 8) with 256; lia). nia.
    - (* clock high, word done *)
      assert (Hne : ms_negedge width div s = (cnt =? div)) by (unfold ms_negedge, ck_negedge; rewrite Hc, Hrun; reflexivity).
      rewrite Hrun, Hc in N1. unfold ck_next, ck_posedge in N1. cbn [ck_cnt ck_clk ck_pr negb andb] in N1.
      unfold clk_left. rewrite Hrun, Hc. cbn [ck_clk ck_cnt]. unfold ms_out_end in N8. rewrite Hne, Ho in N2, N8. rewrite andb_false_r in N2. rewrite andb_true_r in N8. rewrite N8, Ho.
      destruct (Z.ltb_spec cnt div) as [Hlt|Hge].
      + destruct (Z.eqb_spec cnt div); [lia|]. rewrite Hrun, N2, N1. cbn [ck_clk ck_cnt]. rewrite trunc_small by (change (2 ^ 8) with 256; lia). nia.
      + destruct (Z.eqb_spec cnt div); [|lia]. rewrite N9. destruct (ms_in_end width s), (m_fv _ s); nia.
  Qed.
  Lemma rx_left_bound t s : m_inv width bo div t s -> (rx_left s <= Z.to_nat (512 * (div + 1) + 40))%nat.
  Proof.
    intros H. pose proof (spl_bound width bo div Hdiv t s H) as B. unfold spl_m in B. unfold rx_left, clk_left.
    destruct H as (ws & gs & pend & cur & _ & _ & _ & _ & _ & LV & _).
    destruct (m_run _ s); [lia|]. unfold ms_level in LV. cbn [sync_fifo_buffered wf_level] in LV. unfold fifo_left.
    destruct (m_fv _ s), (snd (m_fifo _ s)); lia.
  Qed.
End Down.

Section Host.
  Context (width bw div delay : Z).
  Notation c := (spi_host width bw div delay).
  Context (Hdiv : 0 <= div < 256) (Hbw : In bw [1; 2; 4; 8]) (Hdw : (bw | width)) (Hw : 0 < width <= 256) (Hdl : 0 <= delay).
  Definition ready_src (o : host_obs) : Prop := o_rready (so_rx (ho_app o)) = true.

  Lemma snoc a i : trace c (a ++ [i]) = trace c a ++ [cout c (state c a) i] /\ state c (a ++ [i]) = cnext c (state c a) i.
  Proof. apply host_snoc. Qed.

  (** The receive FIFO holds the words received and not yet given back. *)
  Lemma host_count ins : Z.of_nat (length (received (map ho_phy (trace c ins)))) =
    Z.of_nat (length (rx_in (map ho_app (trace c ins)))) + ms_level width (snd (state c ins)).
  Proof.
    assert (H : Forall (fun o => cvalid (o_sink (mo_fifo o)) = true -> o_sready (mo_fifo o) = true) (map ho_phy (trace c ins))).
    { destruct (host_inv width bw div delay Hdiv Hbw Hdw Hw ins) as (? & ? & ? & ? & _ & _ & _ & _ & _ & _ & _ & H). exact H. }
    revert H. apply (run_inv c (fun t s => Forall (fun o => cvalid (o_sink (mo_fifo o)) = true -> o_sready (mo_fifo o) = true) (map ho_phy t) ->
      Z.of_nat (length (received (map ho_phy t))) = Z.of_nat (length (rx_in (map ho_app t))) + ms_level width (snd s))); [reflexivity|].
    clear ins. intros t s i IH H. rewrite map_app in H. apply Forall_app in H. destruct H as [H1 H2]. specialize (IH H1). cbn [map] in H2.
    apply Forall_cons_iff in H2. destruct H2 as [H2 _].
    rewrite !(map_app _ t [_]). cbn [map]. rewrite received_snoc, app_length, Nat2Z.inj_add, IH.
    unfold rx_in in *. rewrite (map_app so_rx (map ho_app t)), accepted_app. cbn [map]. rewrite accepted_1, app_length, Nat2Z.inj_add.
    set (o := cout c s i) in *. destruct s as [a m]. cbn [fst snd] in *.
    assert (E1 : o_sink (mo_fifo (ho_phy o)) = ms_fsink width m) by reflexivity.
    assert (E2 : o_sready (mo_fifo (ho_phy o)) = negb (Z.of_nat (length (fst (m_fifo _ m))) =? 8 - 1)) by reflexivity.
    assert (E3 : cvalid (o_sink (so_rx (ho_app o))) = match snd (m_fifo _ m) with None => false | _ => true end) by reflexivity.
    assert (E4 : m_fifo _ (snd (cnext c (a, m) i)) = wf_next (sync_fifo_buffered 8) (m_fifo _ m) (m_fv _ m) (fifo_pack width (Beat false (m_fl _ m) (m_si _ m))) (o_sready (so_rx (ho_app o)))) by reflexivity.
    rewrite E1, E2 in H2. rewrite E1. unfold ms_level. rewrite E4. unfold xfer. rewrite E3. clear E1 E2 E3 E4 IH H1.
    change (wrapper_depth 8) with 8.
    generalize dependent (o_sready (so_rx (ho_app o))). intros re. clearbody o. unfold ms_fsink in *. cbn [cvalid] in *.
    destruct (m_fifo _ m) as [q r]. cbn [sync_fifo_buffered wf_next wf_level fst snd] in *.
    destruct (m_fv _ m); [rewrite H2 by reflexivity|]; destruct r, re, q; cbn [fst snd length andb]; rewrite ?app_length; cbn [length]; lia.
  Qed.

  Lemma rx_len ins : length (rx_out (map ho_app (trace c ins))) = length (rx_in (map ho_app (trace c ins))).
  Proof. pose proof (f_equal (@length _) (rx_lasts width bw div delay ins)) as R. now rewrite !map_length in R. Qed.

  (** While an answer is missing, something is under way. *)
  Lemma rx_left_pos ins : (length (rx_out (map ho_app (trace c ins))) < length (sent (trace c ins)))%nat -> (0 < rx_left width div (snd (state c ins)))%nat.
  Proof.
    intros H. destruct (Nat.eq_0_gt_0_cases (rx_left width div (snd (state c ins)))) as [E|]; [exfalso|assumption].
    rewrite rx_len in H. unfold sent in H.
    destruct (host_inv width bw div delay Hdiv Hbw Hdw Hw ins) as (ws & gs & pend & cur & W & _ & _ & FA & PH & LV & _).
    pose proof (host_count ins) as C. apply answers_lasts in FA. apply (f_equal (@length _)) in FA. rewrite !map_length, app_length in FA.
    apply (f_equal (@length _)) in W. rewrite host_words, map_length, app_length in W.
    assert (OC : m_run _ (snd (state c ins)) = true -> 0 <= clk_left width div (snd (state c ins))).
    { intros R. pose proof (host_inv width bw div delay Hdiv Hbw Hdw Hw ins) as HI.
      clear - PH Hdiv R. unfold clk_left.
      destruct PH as [p Hrun Hc | p w cur cnt Hrun Hc Hcnt HO HI HLg | w cur Hrun Hc HO HI HLg Hfv | w cur cnt Hrun Hc Hcnt HO HI HLg Hne0 | cnt Hrun Hc Hcnt Ho]; [congruence| | | |].
      all: rewrite Hc; cbn [ck_clk ck_cnt].
      4: { rewrite Ho. nia. }
      all: assert (0 <= m_ocnt _ (snd (state c ins))); [|nia].
      all: destruct HO as (_ & _ & _ & ->); destruct (legal_groups _ _ _ HLg) as [G1 G2]; destruct (legal_case _ _ _ HLg); destruct HI as (_ & HI2 & _);
        set (W1 := mw_width (fst w)) in *; set (NN := mw_len (fst w) / W1) in *; rewrite G1 in *; assert (Z.of_nat (length cur) < NN) by nia; nia. }
    unfold rx_left in E. destruct (m_run _ (snd (state c ins))) eqn:R; [specialize (OC eq_refl); lia|].
    assert (pend = None) as ->. { destruct PH; congruence. }
    unfold fifo_left in E. unfold ms_level in C. cbn [sync_fifo_buffered wf_level] in C. unfold late in FA.
    destruct (m_fv _ (snd (state c ins))); [destruct (snd (m_fifo _ (snd (state c ins)))); lia|].
    cbn [opt length] in *. destruct (snd (m_fifo _ (snd (state c ins)))); lia.
  Qed.

  (** Waiting for the answers. *)
  Lemma rx_step a i : fst (state c a) = SsRx -> ready_src (cout c (state c a) i) ->
    (1 + rx_left width div (snd (cnext c (state c a) i)) <= rx_left width div (snd (state c a)))%nat /\
    took (cout c (state c a) i) = [] /\ (fst (cnext c (state c a) i) = SsRx \/ fst (cnext c (state c a) i) = SsIdle).
  Proof.
    intros F R. pose proof (host_ss width bw div delay Hdiv Hbw Hdw Hw a) as SS. rewrite F in SS. cbn [ss_inv] in SS.
    destruct SS as (S0 & x & l & _ & _ & SS & _ & NE).
    assert (P : (0 < rx_left width div (snd (state c a)))%nat).
    { apply rx_left_pos. unfold sent. apply (f_equal (@length _)) in SS. rewrite app_length, !map_length in SS. destruct l; [congruence|cbn [length] in SS; lia]. }
    pose proof (host_inv width bw div delay Hdiv Hbw Hdw Hw a) as HI. set (s := state c a) in *. destruct s as [f m]. cbn [fst snd] in *. subst f.
    assert (L : ms_load width div m (host_phy_in width bw SsRx i) = false).
    { assert (V : cvalid (mi_sink (host_phy_in width bw SsRx i)) = false) by (cbn; apply andb_false_r). unfold ms_load, ms_xfr_en. rewrite V, andb_false_r. cbn [andb]. apply andb_false_r. }
    split; [|split].
    - apply (rx_left_step width bw div delay Hdiv _ m (host_phy_in width bw SsRx i) HI); auto.
      unfold ready_src in R. cbn in R. cbn. unfold ss_pready. rewrite R. reflexivity.
    - unfold took, xfer. change (o_sready (so_tx (ho_app (cout c (SsRx, m) i)))) with (ms_load width div m (host_phy_in width bw SsRx i) && false). now rewrite !andb_false_r.
    - cbn. destruct (_ && _); auto.
  Qed.
  Lemma rx_run b : forall a, fst (state c a) = SsRx -> Forall ready_src (trace_from c (state c a) b) ->
    (rx_left width div (snd (state c a)) < length b)%nat ->
    exists x y, b = x ++ y /\ (length x <= rx_left width div (snd (state c a)))%nat /\ sent (trace c (a ++ x)) = sent (trace c a) /\ fst (state c (a ++ x)) = SsIdle.
  Proof.
    induction b as [|i b IH]; intros a F R L; [cbn in L; lia|]. cbn [trace_from] in R. apply Forall_cons_iff in R. destruct R as [R1 R2].
    destruct (rx_step a i F R1) as (S1 & S2 & S3). destruct (snoc a i) as [E1 E2]. rewrite <- E2 in S1, S3, R2.
    assert (E3 : sent (trace c (a ++ [i])) = sent (trace c a)).
    { rewrite E1. unfold sent. rewrite map_app. cbn [map]. rewrite tx_in_snoc. fold (took (cout c (state c a) i)). rewrite S2. apply app_nil_r. }
    destruct S3 as [S3|S3].
    - destruct (IH (a ++ [i]) S3 R2) as (x & y & -> & X1 & X2 & X3); [cbn [length] in L; lia|].
      exists (i :: x), y. rewrite <- (app_assoc a [i] x) in X2, X3. cbn [app] in X2, X3. cbn [length]. rewrite X2, E3. repeat split; auto. lia.
    - exists [i], b. cbn [length]. repeat split; auto. lia.
  Qed.

  (** Cycles until a word is taken. *)
  Definition take_left (s : ss_state * ms_state width) : nat :=
    let B := Z.to_nat (512 * (div + 1) + 21) in
    match fst s with
    | SsTxRx => if ms_cs_en width (snd s) then spl_m width div (snd s) else (Z.to_nat (m_tim _ (snd s)) + B)%nat
    | SsIdle => (Z.to_nat (delay + 2) + B)%nat
    | SsRx => (rx_left width div (snd s) + Z.to_nat (delay + 2) + B)%nat
    end.
  Lemma tim_range ins : 0 <= m_tim _ (snd (state c ins)) <= delay + 1.
  Proof.
    apply (run_inv c (fun _ s => 0 <= m_tim _ (snd s) <= delay + 1)); [cbn; lia|]. intros t s i H.
    change (m_tim _ (snd (cnext c s i))) with (wt_next (delay + 1) (m_tim _ (snd s)) (match fst s with SsIdle => false | _ => true end)).
    unfold wt_next, wt_done. destruct (match fst s with SsIdle => false | _ => true end); [|lia]. destruct (Z.eqb_spec (m_tim _ (snd s)) 0); cbn [negb]; [lia|].
    rewrite trunc_range_small by lia. lia.
  Qed.
  Definition offered (o : host_obs) : Prop := cvalid (o_sink (so_tx (ho_app o))) = true.
  Lemma take_step a i : let o := cout c (state c a) i in offered o -> ready_src o -> took o = [] ->
    (1 + take_left (cnext c (state c a) i) <= take_left (state c a))%nat.
  Proof.
    intros o V R T. pose proof (host_inv width bw div delay Hdiv Hbw Hdw Hw a) as HI.
    destruct (snoc a i) as [_ E2]. pose proof (host_inv width bw div delay Hdiv Hbw Hdw Hw (a ++ [i])) as HI2. rewrite E2 in HI2.
    apply (spl_bound width bw div Hdiv) in HI2.
    pose proof (tim_range a) as TR. pose proof (rx_step a i) as RS.
    assert (TM : m_tim _ (snd (cnext c (state c a) i)) = wt_next (delay + 1) (m_tim _ (snd (state c a))) (match fst (state c a) with SsIdle => false | _ => true end)) by reflexivity.
    set (s := state c a) in *. destruct (fst s) eqn:F.
    - (* idle *)
      assert (N : fst (cnext c s i) = SsTxRx).
      { change (fst (cnext c s i)) with (cnext (spi_stream width bw) (fst s) (host_app_in width bw div delay (fst s) (snd s) i)). rewrite F. cbn. unfold offered in V. change (cvalid (hi_sink i) = true) in V. now rewrite V. }
      unfold take_left. rewrite F, N. unfold ms_cs_en. rewrite TM. unfold wt_next, wt_done. destruct (Z.eqb_spec (delay + 1) 0); lia.
    - (* sending *)
      assert (Rm : mi_rready (host_phy_in width bw (fst s) i) = true).
      { unfold ready_src in R. change (hi_ready i = true) in R. rewrite F. cbn. unfold ss_pready. now rewrite R. }
      assert (Vm : cvalid (mi_sink (host_phy_in width bw (fst s) i)) = true).
      { unfold offered in V. change (cvalid (hi_sink i) = true) in V. rewrite F. cbn. now rewrite V. }
      assert (Lm : ms_load width div (snd s) (host_phy_in width bw (fst s) i) = false).
      { unfold took, xfer in T. unfold offered in V. rewrite V in T. change (o_sready (so_tx (ho_app o))) with (ms_load width div (snd s) (host_phy_in width bw (fst s) i) && ss_tx_en (fst s)) in T.
        rewrite F in T at 2. cbn [ss_tx_en] in T. rewrite andb_true_r in T. destruct (ms_load _ _ _ _); [discriminate|reflexivity]. }
      assert (N : fst (cnext c s i) = SsTxRx).
      { change (fst (cnext c s i)) with (if cvalid (o_sink (so_tx (ho_app o))) && o_sready (so_tx (ho_app o)) && blast (cbeat (o_sink (so_tx (ho_app o)))) then SsRx else SsTxRx) || idtac.
        change (fst (cnext c s i)) with (cnext (spi_stream width bw) (fst s) (host_app_in width bw div delay (fst s) (snd s) i)).
        assert (X : si_pready (host_app_in width bw div delay (fst s) (snd s) i) = false) by exact Lm.
        rewrite F in *. cbn [cnext spi_stream]. unfold ss_dready. rewrite X. cbn [andb]. now rewrite andb_false_r. }
      unfold take_left. rewrite F, N. unfold ms_cs_en. rewrite TM. unfold wt_next, wt_done. destruct (Z.eqb_spec (m_tim _ (snd s)) 0) as [Z0|Z0]; cbn [negb].
      + rewrite Z0. cbn [Z.eqb].
        apply (spl_step width bw div delay Hdiv _ (snd s) (host_phy_in width bw (fst s) i) HI); auto. unfold ms_cs_en. now rewrite Z0.
      + rewrite trunc_range_small by lia. destruct (Z.eqb_spec (m_tim _ (snd s) - 1) 0); lia.
    - (* waiting for the answers *)
      destruct (RS eq_refl R) as (S1 & _ & [S3|S3]); unfold take_left; rewrite F, S3; lia.
  Qed.
  Lemma take_bound a : (take_left (state c a) <= Z.to_nat (1024 * (div + 1) + delay + 63))%nat.
  Proof.
    pose proof (host_inv width bw div delay Hdiv Hbw Hdw Hw a) as HI. pose proof (spl_bound width bw div Hdiv _ _ HI). pose proof (rx_left_bound width bw div Hdiv _ _ HI).
    pose proof (tim_range a). unfold take_left. destruct (fst (state c a)); [| destruct (ms_cs_en width (snd (state c a)))|]; lia.
  Qed.
  Lemma mid_rx a : whole_packets (sent (trace c a)) -> (length (rx_out (map ho_app (trace c a))) < length (sent (trace c a)))%nat -> fst (state c a) = SsRx.
  Proof.
    intros W L. pose proof (host_ss width bw div delay Hdiv Hbw Hdw Hw a) as SS. unfold sent in *. destruct (fst (state c a)); [| |reflexivity]; exfalso; cbn [ss_inv] in SS.
    - destruct SS as [SS _]. apply (f_equal (@length _)) in SS. rewrite !map_length in SS. lia.
    - destruct SS as (S0 & x & l & E1 & F & E2 & E3).
      assert (x = []).
      { destruct W as [W|(w' & w & W & Wl)]; [rewrite W in L; cbn in L; lia|]. rewrite W, map_app in E1. cbn [map] in E1. rewrite Wl in E1.
        destruct x as [|y x] using rev_ind; [reflexivity|]. rewrite app_assoc in E1. apply app_inj_tail in E1. destruct E1 as [_ <-].
        unfold all_false in F. apply Forall_app in F. destruct F as [_ F]. apply Forall_cons_iff in F. destruct F as [F _]. discriminate. }
      subst x. rewrite app_nil_r in E1. apply (f_equal (@length _)) in E1. rewrite !map_length in *. lia.
  Qed.
End Host.

(** A word offered to the host and kept there is taken, as long as the words that come
    back are taken: within the time of two words and of the chip select. *)
Theorem C137_accepts : forall width bw div delay ins t1 t2,
  0 <= div < 256 -> In bw [1; 2; 4; 8] -> (bw | width) -> 0 < width <= 256 -> 0 <= delay ->
  let bound := Z.to_nat (1024 * (div + 1) + delay + 63) in
  trace (spi_host width bw div delay) ins = t1 ++ t2 ->
  Forall (fun o => cvalid (o_sink (so_tx (ho_app o))) = true /\ o_rready (so_rx (ho_app o)) = true) t2 ->
  (bound < length t2)%nat ->
  exists u o v, t2 = u ++ o :: v /\ took o <> [] /\ (length u <= bound)%nat.
Proof.
  intros width bw div delay ins t1 t2 Hd Hb Hq Hw Hl bound E HF HN. set (c := spi_host width bw div delay) in *.
  apply trace_cut_from in E. destruct E as (a & b & -> & <- & <-). change (state_from c (creset c) a) with (state c a) in *. rewrite trace_from_length in HN.
  pose proof (take_bound width bw div delay Hd Hb Hq Hw Hl a) as TB. fold bound c in TB.
  destruct (run_progress c (fun t s => exists x, t = trace c x /\ s = state c x)
    (fun o => cvalid (o_sink (so_tx (ho_app o))) = true /\ o_rready (so_rx (ho_app o)) = true)
    (fun o => match took o with [] => false | _ => true end) (take_left width div delay)) with (b := b) (a := a) as (u & o & v & E1 & E2 & E3); auto.
  - intros t s i o (x & -> & ->) (H1 & H2) H3. apply (take_step width bw div delay Hd Hb Hq Hw Hl x i); auto. fold c. fold o. destruct (took o); [reflexivity|discriminate].
  - intros x y _. eauto.
  - lia.
  - exists u, o, v. split; [exact E1|]. split; [intros X; rewrite X in E2; discriminate|lia].
Qed.

(** Once the last word of a packet has been taken, and as long as the words that come
    back are taken, all its words are answered within the time of a word, and the chip
    select is then released. *)
Theorem C137_answered : forall width bw div delay ins t1 t2,
  0 <= div < 256 -> In bw [1; 2; 4; 8] -> (bw | width) -> 0 < width <= 256 -> 0 <= delay ->
  let bound := Z.to_nat (512 * (div + 1) + 40) in
  trace (spi_host width bw div delay) ins = t1 ++ t2 ->
  whole_packets (sent t1) -> (length (rx_out (map ho_app t1)) < length (sent t1))%nat ->
  Forall (fun o => o_rready (so_rx (ho_app o)) = true) t2 -> (bound < length t2)%nat ->
  exists u v, t2 = u ++ v /\ (length u <= bound)%nat /\ sent (t1 ++ u) = sent t1 /\
    map blast (rx_out (map ho_app (t1 ++ u))) = map blast (sent t1) /\
    (forall o1 o2 v', v = o1 :: o2 :: v' -> p_cs_n (pins_of o2) = true).
Proof.
  intros width bw div delay ins t1 t2 Hd Hb Hq Hw Hl bound E HW HS HF HN. set (c := spi_host width bw div delay) in *.
  apply trace_cut_from in E. destruct E as (a & b & -> & <- & <-). change (trace_from c (creset c) a) with (trace c a) in *. change (state_from c (creset c) a) with (state c a) in *. rewrite trace_from_length in HN.
  pose proof (mid_rx width bw div delay Hd Hb Hq Hw a HW HS) as F. fold c in F.
  pose proof (rx_left_bound width bw div Hd _ _ (host_inv width bw div delay Hd Hb Hq Hw a)) as B. fold bound c in B.
  destruct (rx_run width bw div delay Hd Hb Hq Hw b a F HF ltac:(fold c; lia)) as (x & y & -> & X1 & X2 & X3). fold c in X1, X2, X3.
  rewrite trace_from_app. exists (trace_from c (state c a) x), (trace_from c (state_from c (state c a) x) y).
  assert (T : trace c (a ++ x) = trace c a ++ trace_from c (state c a) x) by apply trace_app.
  assert (S : state c (a ++ x) = state_from c (state c a) x) by (unfold state; apply state_from_app).
  rewrite <- T, <- S. split; [reflexivity|]. split; [rewrite trace_from_length; lia|]. split; [exact X2|]. split.
  - pose proof (host_ss width bw div delay Hd Hb Hq Hw (a ++ x)) as SS. fold c in SS. rewrite X3 in SS. cbn [ss_inv] in SS. rewrite <- X2. symmetry. apply SS.
  - intros o1 o2 v' Ev. destruct y as [|i1 [|i2 y]]; [discriminate|discriminate|]. cbn [trace_from] in Ev. injection Ev as _ <- _.
    change (negb (wt_done (m_tim _ (snd (cnext c (state c (a ++ x)) i1)))) = true).
    change (m_tim _ (snd (cnext c (state c (a ++ x)) i1))) with (wt_next (delay + 1) (m_tim _ (snd (state c (a ++ x)))) (match fst (state c (a ++ x)) with SsIdle => false | _ => true end)).
    rewrite X3. unfold wt_next, wt_done. destruct (Z.eqb_spec (delay + 1) 0); [lia|reflexivity].
Qed.

(** A packet of two words is offered; once both are taken nothing more is offered: both
    answers come back.  Then a word is offered for long enough to be taken. *)
Example C137_nonvacuous :
  let off l d := HostIn (Chan true (Beat false l d)) 2 true in
  let none := HostIn (Chan false (Beat false false 0)) 2 true in
  let ins := repeat (off false 0xA5) 4 ++ repeat (off true 0x3C) 17 in
  let t1 := trace (spi_host 8 1 0 0) ins in
  map bdata (sent t1) = [0xA5; 0x3C] /\ whole_packets (sent t1) /\ (length (rx_out (map ho_app t1)) < 2)%nat /\
  length (rx_out (map ho_app (trace (spi_host 8 1 0 0) (ins ++ repeat none 24)))) = 2%nat /\
  exists o, last (map Some (trace (spi_host 8 1 0 0) (ins ++ repeat none 26))) None = Some o /\ p_cs_n (pins_of o) = true /\
  Forall (fun o => cvalid (o_sink (so_tx (ho_app o))) = true /\ o_rready (so_rx (ho_app o)) = true)
    (trace (spi_host 8 1 0 0) (repeat (off true 0x3C) 1100)).
Proof.
  cbv zeta. split; [vm_compute; reflexivity|]. split; [right; eexists [_], _; split; [vm_compute; reflexivity|reflexivity]|].
  split; [vm_compute; lia|]. split; [vm_compute; reflexivity|]. eexists. split; [vm_compute; reflexivity|]. split; [reflexivity|].
  set (i := HostIn (Chan true (Beat false true 0x3C)) 2 true). generalize 1100%nat. intros n. unfold trace. generalize (creset (spi_host 8 1 0 0)).
  induction n as [|n IH]; intros s; [constructor|]. cbn [repeat trace_from]. constructor; [split; reflexivity|apply IH].
Qed.

Print Assumptions C137_accepts.
Print Assumptions C137_answered.
