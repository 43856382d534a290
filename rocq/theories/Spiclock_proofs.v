(** Lemmas for C158. *)
From Verif Require Import Stream Bits Fifo_model Timer_model Spiclk_model I2cstream_proofs Spistream_model Spistream_props Spimaster_model Spimaster_props Spislave_model Spislave_props Spilink_model Spilink_spec Spilink_proofs Spiclock_spec.

Section Host.
  Context (width bw div delay : Z).
  Context (Hdiv : 0 <= div < 256) (Hbw : In bw [1; 2; 4; 8]) (Hdw : (bw | width)) (Hw : 0 < width <= 256).
  Notation c := (spi_host width bw div delay).
  Notation phy ins := (snd (state c ins)).
  Notation clk ins := (ck_clk (m_ck _ (phy ins))).
  Notation cnt ins := (ck_cnt (m_ck _ (phy ins))).

  Lemma level_step (f : list Z * option Z) we wd re :
    let F := sync_fifo_buffered 8 in
    wf_level F (wf_next F f we wd re) + Z.b2z (wf_rrdy F f && re) = wf_level F f + Z.b2z (we && wf_wrdy F f).
  Proof.
    destruct f as [q [r|]]; cbn [sync_fifo_buffered wf_level wf_next wf_rrdy wf_wrdy fst snd andb].
    - destruct re, (we && negb (Z.of_nat (length q) =? 8 - 1)), q; cbn [fst snd length Z.b2z app]; rewrite ?app_length; cbn [length]; lia.
    - destruct (we && negb (Z.of_nat (length q) =? 8 - 1)), q; cbn [fst snd length Z.b2z app]; rewrite ?app_length; cbn [length]; lia.
  Qed.

  (** The words received by the PHY are those given back and those in its FIFO. *)
  Lemma host_level ins : Z.of_nat (length (received (map ho_phy (trace c ins)))) =
    Z.of_nat (length (rx_in (map ho_app (trace c ins)))) + ms_level width (phy ins).
  Proof.
    induction ins as [|i ins IH] using rev_ind; [reflexivity|].
    pose proof (host_inv width bw div delay Hdiv Hbw Hdw Hw (ins ++ [i])) as (_ & _ & _ & _ & _ & _ & _ & _ & _ & _ & _ & RD).
    rewrite host_received. destruct (host_snoc width bw div delay ins i) as [E1 E2]. rewrite E1, E2 in *.
    set (s := state c ins) in *.
    rewrite map_app in RD. apply Forall_app in RD. destruct RD as [_ RD]. cbn [map] in RD. apply Forall_cons_iff in RD. destruct RD as [RD _].
    unfold rx_in in *. rewrite !map_app, accepted_app. cbn [map]. rewrite accepted_1, !app_length, !Nat2Z.inj_add, IH.
    set (r := o_sready (so_rx (host_probe width bw (fst s) i))).
    pose proof (level_step (m_fifo _ (snd s)) (m_fv _ (snd s)) (fifo_pack width (cbeat (ms_fsink width (snd s)))) r) as L. cbv zeta in L.
    assert (N : ms_level width (snd (cnext c s i)) = wf_level (sync_fifo_buffered 8) (wf_next (sync_fifo_buffered 8) (m_fifo _ (snd s)) (m_fv _ (snd s)) (fifo_pack width (cbeat (ms_fsink width (snd s)))) r)) by reflexivity.
    change (wf_level (sync_fifo_buffered 8) (m_fifo _ (snd s))) with (ms_level width (snd s)) in L.
    rewrite N. 
    assert (X : Z.of_nat (length (xfer (o_sink (so_rx (ho_app (cout c s i)))) (o_sready (so_rx (ho_app (cout c s i)))))) = Z.b2z (wf_rrdy (sync_fifo_buffered 8) (m_fifo _ (snd s)) && r)).
    { unfold xfer. change (o_sready (so_rx (ho_app (cout c s i)))) with r.
      change (cvalid (o_sink (so_rx (ho_app (cout c s i))))) with (wf_rrdy (sync_fifo_buffered 8) (m_fifo _ (snd s))).
      destruct (_ && _); reflexivity. }
    assert (Y : Z.of_nat (length (late width (snd s))) = Z.b2z (m_fv _ (snd s) && wf_wrdy (sync_fifo_buffered 8) (m_fifo _ (snd s)))).
    { change (m_fv _ (snd s) = true -> wf_wrdy (sync_fifo_buffered 8) (m_fifo _ (snd s)) = true) in RD.
      unfold late. destruct (m_fv _ (snd s)); [rewrite RD by reflexivity; reflexivity|reflexivity]. }
    rewrite X, Y. lia.
  Qed.

  Lemma answers_length {A B C} (R : A -> B -> C -> Prop) l1 l2 l3 : Forall3 R l1 l2 l3 -> length l3 = length l1.
  Proof. induction 1; cbn [length]; congruence. Qed.

  (** Words not given back yet. *)
  Definition owed (ins : list host_in) : Z :=
    Z.of_nat (length (tx_in (map ho_app (trace c ins)))) - Z.of_nat (length (rx_out (map ho_app (trace c ins)))).
  Lemma owed_is ins ws gs pend cur : words (map ho_phy (trace c ins)) = ws ++ opt pend ->
    Forall3 answer ws gs (received (map ho_phy (trace c ins)) ++ late width (phy ins)) ->
    phase width bw div (phy ins) (last_clk (map ho_phy (trace c ins))) pend cur ->
    owed ins = ms_level width (phy ins) + Z.of_nat (length (late width (phy ins))) + Z.of_nat (length (opt pend)).
  Proof.
    intros W FA _. apply answers_length in FA. rewrite app_length in FA.
    assert (L : length (tx_in (map ho_app (trace c ins))) = (length ws + length (opt pend))%nat).
    { rewrite host_words in W. apply (f_equal (@length _)) in W. rewrite map_length, app_length in W. exact W. }
    assert (R : length (rx_out (map ho_app (trace c ins))) = length (rx_in (map ho_app (trace c ins)))).
    { pose proof (f_equal (@length _) (rx_lasts width bw div delay ins)) as R. now rewrite !map_length in R. }
    pose proof (host_level ins). unfold owed. lia.
  Qed.
  Lemma level_pos ins : 0 <= ms_level width (phy ins).
  Proof. unfold ms_level. change (wrapper_depth 8) with 8. cbn [sync_fifo_buffered wf_level]. destruct (snd (m_fifo _ (phy ins))); lia. Qed.

  (** A word under way in the high phase of the clock, and how far its answer can be. *)
  Lemma high_ages ins : clk ins = true ->
    (cnt ins = 0 -> ck_pr (m_ck _ (phy ins)) = true) /\
    (cnt ins = 1 -> m_fv _ (phy ins) = true \/ m_ocnt _ (phy ins) <> 0) /\
    (cnt ins = 2 -> fst (m_fifo _ (phy ins)) <> [] \/ m_ocnt _ (phy ins) <> 0) /\
    (cnt ins = 3 -> 1 <= ms_level width (phy ins) \/ m_ocnt _ (phy ins) <> 0).
  Proof.
    induction ins as [|i ins IH] using rev_ind; [discriminate|].
    destruct (host_inv width bw div delay Hdiv Hbw Hdw Hw ins) as (ws & gs & pend & cur & _ & _ & _ & _ & PH & LV & FI & _).
    rewrite (proj2 (host_snoc width bw div delay ins i)). set (s := state c ins) in *. set (j := host_phy_in width bw (fst s) i).
    assert (C' : m_ck _ (snd (cnext c s i)) = ck_next div (m_ck _ (snd s)) (m_run _ (snd s))) by reflexivity.
    assert (F' : m_fv _ (snd (cnext c s i)) = ms_in_end width (snd s)) by reflexivity.
    assert (O' : m_ocnt _ (snd (cnext c s i)) = if ms_negedge width div (snd s) && negb (m_ocnt _ (snd s) =? 0) then trunc 8 (m_ocnt _ (snd s) - m_w _ (snd s))
             else if ms_load width div (snd s) j then trunc 8 (mw_len (bdata (cbeat (mi_sink j))) - mw_width (bdata (cbeat (mi_sink j)))) else m_ocnt _ (snd s)) by reflexivity.
    assert (Q' : m_fifo _ (snd (cnext c s i)) = wf_next (sync_fifo_buffered 8) (m_fifo _ (snd s)) (m_fv _ (snd s)) (fifo_pack width (cbeat (ms_fsink width (snd s)))) (mi_rready j)) by reflexivity.
    assert (NL : m_run _ (snd s) = true -> ck_clk (m_ck _ (snd s)) = true -> ck_cnt (m_ck _ (snd s)) < div -> m_ocnt _ (snd (cnext c s i)) = m_ocnt _ (snd s)).
    { intros H1 H2 H3. rewrite O'. unfold ms_load, ms_out_end, ms_negedge, ck_negedge. rewrite H1, H2.
      destruct (Z.eqb_spec (ck_cnt (m_ck _ (snd s))) div); [lia|]. reflexivity. }
    rewrite C'. unfold ck_next. intros HC.
    inversion PH as [p Hr Hc|p w cu k Hr Hc Hk HO HI HL|w cu Hr Hc HO HI HL Hf|w cu k Hr Hc Hk HO HI HL Hne|k Hr Hc Hk Ho]; subst; rewrite Hr in *; rewrite Hc in *; cbn [ck_cnt ck_clk ck_pr ck_pr2] in *; try discriminate.
    - destruct (Z.ltb_spec k div); cbn [ck_cnt ck_clk ck_pr] in *; [discriminate|].
      unfold ck_posedge. cbn [ck_clk ck_cnt negb andb]. destruct (Z.eqb_spec k div); [|lia]. repeat split; lia.
    - destruct (Z.ltb_spec 0 div) as [Hlt|]; cbn [ck_cnt ck_clk ck_pr] in *; [|discriminate]. rewrite trunc_small by (change (2 ^ 8) with 256; lia).
      split; [lia|]. split; [|split; lia]. intros _. rewrite F', NL; [|reflexivity|reflexivity|lia].
      unfold ms_in_end, ms_posedge_reg. rewrite Hc. cbn [ck_pr andb]. destruct HO as (_ & _ & _ & O4), HI as (_ & _ & I3 & _).
      destruct (Z.eqb_spec (m_icnt _ (snd s)) 0); [now left|right; lia].
    - destruct (Z.ltb_spec k div) as [Hlt|]; cbn [ck_cnt ck_clk ck_pr] in *; [|discriminate]. rewrite trunc_small by (change (2 ^ 8) with 256; lia).
      rewrite NL; [|reflexivity|reflexivity|lia]. destruct HO as (_ & _ & _ & O4), HI as (_ & I2 & _).
      assert (m_ocnt _ (snd s) <> 0) by lia. split; [lia|]. auto.
    - destruct (Z.ltb_spec k div) as [Hlt|]; cbn [ck_cnt ck_clk ck_pr] in *; [|discriminate]. rewrite trunc_small by (change (2 ^ 8) with 256; lia).
      destruct (IH eq_refl) as (K0 & K1 & K2 & _). split; [lia|]. split; [|split].
      + intros E. assert (k = 0) by lia. subst k. discriminate (K0 eq_refl).
      + intros E. left. destruct (K1 ltac:(lia)) as [K|K]; [|congruence]. rewrite Q', K. unfold late in LV. rewrite K in LV. cbn [length] in LV.
        unfold ms_level in LV. change (wrapper_depth 8) with 8 in LV. destruct (m_fifo _ (snd s)) as [q r]. cbn [sync_fifo_buffered wf_next wf_level fst snd andb] in *.
        assert (Hq : (Z.of_nat (length q) =? 8 - 1) = false) by (apply Z.eqb_neq; destruct r as [r|]; [lia|specialize (FI eq_refl); lia]).
        rewrite Hq. cbn [negb]. destruct r as [r|]; [destruct (mi_rready j)|]; [destruct q|destruct q|destruct q]; cbn [fst app]; try discriminate; try (intros E'; apply app_eq_nil in E'; destruct E'; discriminate).
      + intros E. left. destruct (K2 ltac:(lia)) as [K|K]; [|congruence]. unfold ms_level. rewrite Q'. change (wrapper_depth 8) with 8.
        destruct (m_fifo _ (snd s)) as [q r]. cbn [sync_fifo_buffered wf_next wf_level fst snd] in *. destruct q as [|x q]; [congruence|].
        destruct r as [r|]; [destruct (mi_rready j)|]; cbn [fst snd app length]; try lia.
  Qed.
  Lemma high_owed ins : clk ins = true -> cnt ins <= 3 -> 1 <= owed ins.
  Proof.
    intros HC Hn. destruct (high_ages ins HC) as (K0 & K1 & K2 & K3).
    destruct (host_inv width bw div delay Hdiv Hbw Hdw Hw ins) as (ws & gs & pend & cur & W & _ & _ & FA & PH & _).
    rewrite (owed_is ins ws gs pend cur W FA PH). pose proof (level_pos ins).
    destruct pend as [w|]; [cbn [opt length]; lia|].
    inversion PH as [p Hr Hc| | | |k Hr Hc Hk Ho]; subst; rewrite Hc in *; [discriminate|]. cbn [ck_cnt ck_clk ck_pr] in *.
    assert (D : k = 0 \/ k = 1 \/ k = 2 \/ k = 3) by lia. destruct D as [D|[D|[D|D]]].
    - discriminate (K0 D).
    - destruct (K1 D) as [K|K]; [|congruence]. unfold late. rewrite K. cbn [length]. lia.
    - destruct (K2 D) as [K|K]; [|congruence]. unfold ms_level. cbn [sync_fifo_buffered wf_level]. change (wrapper_depth 8) with 8 in *.
      cbn [sync_fifo_buffered wf_level]. destruct (fst (m_fifo _ (phy ins))); [congruence|]. cbn [length]. destruct (snd (m_fifo _ (phy ins))); lia.
    - destruct (K3 D) as [K|K]; [|congruence]. lia.
  Qed.
  Lemma ck_range ins : 0 <= cnt ins <= div.
  Proof.
    destruct (host_inv width bw div delay Hdiv Hbw Hdw Hw ins) as (ws & gs & pend & cur & _ & _ & _ & _ & PH & _).
    inversion PH as [p Hr Hc|p w cu k Hr Hc Hk HO HI HL|w cu Hr Hc HO HI HL Hf|w cu k Hr Hc Hk HO HI HL Hne|k Hr Hc Hk Ho]; rewrite Hc; cbn [ck_cnt]; lia.
  Qed.

  (** The pins of the next cycle. *)
  Notation dq ins := (ms_dq_o width bw (phy ins)).
  Lemma low_step ins i : clk ins = false ->
    (clk (ins ++ [i]) = false /\ cnt (ins ++ [i]) <= cnt ins + 1) \/ (clk (ins ++ [i]) = true /\ cnt (ins ++ [i]) = 0 /\ cnt ins = div).
  Proof.
    intros H. pose proof (ck_range ins) as R. rewrite (proj2 (host_snoc width bw div delay ins i)). set (s := state c ins) in *.
    assert (C' : m_ck _ (snd (cnext c s i)) = ck_next div (m_ck _ (snd s)) (m_run _ (snd s))) by reflexivity. rewrite C'. unfold ck_next. rewrite H.
    destruct (m_run _ (snd s)); cbn [ck_cnt ck_clk]; [|left; lia]. destruct (Z.ltb_spec (ck_cnt (m_ck _ (snd s))) div); cbn [ck_cnt ck_clk negb].
    - left. split; [reflexivity|]. rewrite trunc_small by (change (2 ^ 8) with 256; lia). lia.
    - right. repeat split. lia.
  Qed.
  Lemma high_run ins : clk ins = true -> m_run _ (phy ins) = true.
  Proof.
    intros H. destruct (host_inv width bw div delay Hdiv Hbw Hdw Hw ins) as (ws & gs & pend & cur & _ & _ & _ & _ & PH & _).
    inversion PH as [p Hr Hc|p w cu k Hr Hc Hk HO HI HL|w cu Hr Hc HO HI HL Hf|w cu k Hr Hc Hk HO HI HL Hne|k Hr Hc Hk Ho]; rewrite Hc in H; cbn [ck_clk] in H; congruence.
  Qed.
  Lemma high_step ins i : clk ins = true ->
    (clk (ins ++ [i]) = true /\ cnt (ins ++ [i]) = cnt ins + 1 /\ dq (ins ++ [i]) = dq ins) \/
    (clk (ins ++ [i]) = false /\ cnt (ins ++ [i]) = 0 /\ cnt ins = div).
  Proof.
    intros H. pose proof (ck_range ins) as R. pose proof (high_run ins H) as Hr. rewrite (proj2 (host_snoc width bw div delay ins i)). set (s := state c ins) in *. set (j := host_phy_in width bw (fst s) i).
    assert (C' : m_ck _ (snd (cnext c s i)) = ck_next div (m_ck _ (snd s)) (m_run _ (snd s))) by reflexivity. rewrite C'. unfold ck_next. rewrite H, Hr.
    destruct (Z.ltb_spec (ck_cnt (m_ck _ (snd s))) div); cbn [ck_cnt ck_clk negb].
    - left. split; [reflexivity|]. split; [rewrite trunc_small by (change (2 ^ 8) with 256; lia); lia|].
      assert (NE : ms_negedge width div (snd s) = false) by (unfold ms_negedge, ck_negedge; rewrite H, Hr; apply Z.eqb_neq; lia).
      assert (LD : ms_load width div (snd s) j = false) by (unfold ms_load, ms_out_end; rewrite NE, Hr; reflexivity).
      assert (W' : m_w _ (snd (cnext c s i)) = m_w _ (snd s)).
      { change (m_w _ (snd (cnext c s i))) with (if ms_load width div (snd s) j then mw_width (bdata (cbeat (mi_sink j))) else m_w _ (snd s)). now rewrite LD. }
      assert (S' : m_so _ (snd (cnext c s i)) = m_so _ (snd s)).
      { change (m_so _ (snd (cnext c s i))) with (if ms_load width div (snd s) j then trunc width (Z.shiftl (mw_data (bdata (cbeat (mi_sink j)))) (width - mw_len (bdata (cbeat (mi_sink j)))))
             else if ms_negedge width div (snd s) && ms_case (m_w _ (snd s)) then trunc width (2 ^ m_w _ (snd s) * m_so _ (snd s)) else m_so _ (snd s)). now rewrite LD, NE. }
      unfold ms_dq_o. now rewrite W', S'.
    - right. repeat split. lia.
  Qed.
  Lemma high_before ins : clk ins = true -> last_clk (map ho_phy (trace c ins)) = negb (cnt ins =? 0).
  Proof.
    intros H. destruct (high_ages ins H) as (K0 & _).
    destruct (host_inv width bw div delay Hdiv Hbw Hdw Hw ins) as (ws & gs & pend & cur & _ & _ & _ & _ & PH & _).
    inversion PH as [p Hr Hc|p w cu k Hr Hc Hk HO HI HL|w cu Hr Hc HO HI HL Hf|w cu k Hr Hc Hk HO HI HL Hne|k Hr Hc Hk Ho]; rewrite Hc in *; cbn [ck_clk ck_cnt ck_pr] in *; try discriminate; try reflexivity;
      destruct (Z.eqb_spec k 0) as [E|E]; try reflexivity; discriminate (K0 E).
  Qed.
  (** In the first five cycles of the high phase the chip select is asserted. *)
  Lemma high_selected ins : clk ins = true -> cnt ins <= 4 -> ms_cs_en width (phy ins) = true.
  Proof.
    intros H Hn. destruct (Z_le_gt_dec (cnt ins) 3) as [D|D].
    { apply (host_selected width bw div delay Hdiv Hbw Hdw Hw). pose proof (high_owed ins H D) as O. unfold owed in O. lia. }
    destruct ins as [|i ins _] using rev_ind; [discriminate|].
    destruct (clk ins) eqn:E; [|destruct (low_step ins i E) as [[X _]|(_ & X & _)]; [congruence|lia]].
    destruct (high_step ins i E) as [(_ & X & _)|(X & _)]; [|congruence].
    pose proof (high_owed ins E ltac:(lia)) as O. unfold owed in O.
    assert (S1 : ms_cs_en width (phy ins) = true) by (apply (host_selected width bw div delay Hdiv Hbw Hdw Hw); lia).
    pose proof (host_ss width bw div delay Hdiv Hbw Hdw Hw ins) as SS.
    assert (S2 : fst (state c ins) <> SsIdle).
    { intros Es. rewrite Es in SS. cbn [ss_inv] in SS. destruct SS as [SS _]. apply (f_equal (@length bool)) in SS. rewrite !map_length in SS. lia. }
    rewrite (proj2 (host_snoc width bw div delay ins i)). set (s := state c ins) in *.
    assert (N : m_tim _ (snd (cnext c s i)) = wt_next (delay + 1) (m_tim _ (snd s)) (match fst s with SsIdle => false | _ => true end)) by reflexivity.
    unfold ms_cs_en in *. rewrite N. unfold wt_next. destruct (fst s); [congruence| |]; rewrite S1; cbn [negb]; exact S1.
  Qed.
End Host.
