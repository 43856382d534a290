(** SPIPHYMaster: bounded response and output enable, C114. *)
From Verif Require Import Stream Bits Fifo_model Timer_model Timer_props Spiclk_model Spimaster_model Spimaster_props Progress.

(** The output enable flag is that of the last word accepted. *)
Theorem C114_output_enable : forall width bo div delay ins t1 o t2,
  trace (spi_master width bo div delay) ins = t1 ++ o :: t2 ->
  mo_oe o = fold_left (fun _ w => mw_oe (fst w)) (words t1) false.
Proof.
  intros width bo div delay ins t1 o t2 H. apply trace_one in H. destruct H as (a & i & b & -> & <- & ->).
  change (mo_oe (cout (spi_master width bo div delay) (state (spi_master width bo div delay) a) i)) with (m_oe width (state (spi_master width bo div delay) a)).
  apply (run_inv (spi_master width bo div delay) (fun t s => m_oe width s = fold_left (fun _ w => mw_oe (fst w)) (words t) false)); [reflexivity|].
  intros t s j IH. rewrite words_snoc, fold_left_app, <- IH.
  change (mo_sink (cout (spi_master width bo div delay) s j)) with (mi_sink j).
  change (mo_sready (cout (spi_master width bo div delay) s j)) with (ms_load width div s j).
  change (m_oe width (cnext (spi_master width bo div delay) s j)) with (if ms_load width div s j then mw_oe (bdata (cbeat (mi_sink j))) else m_oe width s).
  destruct (ms_load width div s j) eqn:L; [|now rewrite andb_false_r].
  assert (V : cvalid (mi_sink j) = true).
  { unfold ms_load, ms_xfr_en in L. apply andb_prop in L. destruct L as [_ L]. apply andb_prop in L. destruct L as [L _]. apply andb_prop in L. apply L. }
  rewrite V. reflexivity.
Qed.

Section Live.
  Context (width bo div delay : Z) (Hdiv : 0 <= div < 256).
  Notation c := (spi_master width bo div delay).
  (** Cycles until the next word can be loaded, at most. *)
  Definition spl_m (s : ms_state width) : nat :=
    Z.to_nat (if m_run _ s then 2 * (div + 1) * m_ocnt _ s + (if ck_clk (m_ck _ s) then div - ck_cnt (m_ck _ s) else 2 * div + 1 - ck_cnt (m_ck _ s)) + 21
              else ms_level width s + (if m_fv _ s then 2 else 0)).

  Lemma fifo_drain (f : list Z * option Z) we wd : (snd f = None -> (length (fst f) <= 1)%nat) ->
    let F := sync_fifo_buffered 8 in 6 < wf_level F f ->
    wf_level F (wf_next F f we wd true) <= wf_level F f - 1 + (if we then 1 else 0).
  Proof.
    intros H F. cbn [F sync_fifo_buffered wf_next wf_level]. clear F. destruct f as [q r]. cbn [fst snd] in *. intros HL.
    set (push := if we && negb (Z.of_nat (length q) =? 8 - 1) then [wd] else []).
    assert (Hp : Z.of_nat (length push) <= if we then 1 else 0) by (unfold push; destruct we; cbn [andb]; [destruct (negb _)|]; cbn [length]; lia).
    clearbody push. destruct r as [r|]; [|specialize (H eq_refl); lia].
    destruct q as [|w q]; cbn [fst snd length] in *; [lia|]. rewrite app_length. lia.
  Qed.

  Lemma spl_step t s i : m_inv width bo div t s -> ms_cs_en width s = true -> cvalid (mi_sink i) = true -> mi_rready i = true ->
    ms_load width div s i = false -> (1 + spl_m (cnext c s i) <= spl_m s)%nat.
  Proof.
    intros (ws & gs & pend & cur & _ & _ & _ & _ & PH & LV & FI & _) Hcs Hv Hr Hl.
    unfold ms_load, ms_xfr_en in Hl. rewrite Hcs, Hv in Hl. cbn [andb] in Hl.
    set (n := cnext c s i).
    assert (Hld : ms_load width div s i = false) by (unfold ms_load, ms_xfr_en; rewrite Hcs, Hv; exact Hl).
    assert (N1 : m_ck _ n = ck_next div (m_ck _ s) (m_run _ s)) by reflexivity.
    assert (N2 : m_ocnt _ n = if ms_negedge width div s && negb (m_ocnt _ s =? 0) then trunc 8 (m_ocnt _ s - m_w _ s) else m_ocnt _ s).
    { unfold n. cbn [spi_master cnext m_ocnt]. rewrite Hld. reflexivity. }
    assert (N8 : m_run _ n = if ms_out_end width div s then false else m_run _ s).
    { unfold n. cbn [spi_master cnext m_run]. rewrite Hld. reflexivity. }
    assert (N9 : m_fv _ n = ms_in_end width s) by reflexivity.
    assert (NL : ms_level width n <= ms_level width s + (if m_fv _ s then 1 else 0)).
    { exact (proj1 (fifo_step (m_fifo _ s) (m_fv _ s) (fifo_pack width (Beat false (m_fl _ s) (m_si _ s))) (mi_rready i) FI)). }
    assert (ND : 6 < ms_level width s -> ms_level width n <= ms_level width s - 1 + (if m_fv _ s then 1 else 0)).
    { pose proof (fifo_drain (m_fifo _ s) (m_fv _ s) (fifo_pack width (Beat false (m_fl _ s) (m_si _ s))) FI) as D. cbv zeta in D.
      rewrite <- Hr in D. exact D. }
    assert (LP : 0 <= ms_level width n).
    { unfold ms_level. cbn [sync_fifo_buffered wf_level]. destruct (snd (m_fifo width n)); lia. }
    assert (LL : Z.of_nat (length (late width s)) = if m_fv _ s then 1 else 0) by (unfold late; destruct (m_fv _ s); reflexivity).
    clearbody n.
    destruct PH as [p Hrun Hc | p w cur cnt Hrun Hc Hcnt HO HI HLg | w cur Hrun Hc HO HI HLg Hfv | w cur cnt Hrun Hc Hcnt HO HI HLg Hne0 | cnt Hrun Hc Hcnt Ho].
    - (* not running *)
      rewrite Hrun in Hl. cbn [negb orb andb] in Hl. apply negb_false_iff in Hl. unfold ms_full in Hl. change (wrapper_depth 8 - 2) with 6 in Hl. apply Z.ltb_lt in Hl.
      specialize (ND Hl). unfold spl_m. rewrite N8, Hrun.
      assert (Hie : ms_in_end width s = false) by (unfold ms_in_end, ms_posedge_reg; now rewrite Hc). rewrite N9, Hie.
      destruct (ms_out_end width div s), (m_fv _ s); lia.
    - (* clock low *)
      assert (Hne : ms_negedge width div s = false) by (unfold ms_negedge, ck_negedge; rewrite Hc; apply andb_false_iff; left; apply andb_false_r).
      assert (Hoe : ms_out_end width div s = false) by (unfold ms_out_end; now rewrite Hne).
      rewrite Hne in N2. cbn [andb] in N2. rewrite Hoe, Hrun in N8. rewrite Hrun, Hc in N1. unfold ck_next, ck_posedge in N1. cbn [ck_cnt ck_clk ck_pr negb andb] in N1.
      assert (0 <= m_ocnt _ s).
      { destruct HO as (_ & _ & _ & ->). destruct (legal_groups _ _ _ HLg) as [G1 G2]. destruct (legal_case _ _ _ HLg). destruct HI as (_ & HI2 & _).
        set (W1 := mw_width (fst w)) in *. set (NN := mw_len (fst w) / W1) in *. rewrite G1 in *. assert (Z.of_nat (length cur) < NN) by nia. nia. }
      unfold spl_m. rewrite N8, Hrun, N2, N1, Hc. destruct (Z.ltb_spec cnt div) as [Hlt|Hge]; cbn [ck_clk ck_cnt negb]; [rewrite trunc_small by (change (2 ^ 8) with 256; lia)|]; nia.
    - (* rising edge *)
      assert (HOC : m_ocnt _ s = 0 \/ m_w _ s <= m_ocnt _ s < 256 /\ 0 < m_w _ s).
      { destruct HO as (-> & _ & _ & ->). destruct (legal_groups _ _ _ HLg) as [G1 G2]. destruct (legal_case _ _ _ HLg). destruct HI as (_ & HI2 & _). destruct HLg as (_ & _ & _ & HL1 & HL2).
        set (W1 := mw_width (fst w)) in *. set (NN := mw_len (fst w) / W1) in *. rewrite G1 in *. assert (Z.of_nat (length cur) < NN) by nia.
        destruct (Z.eq_dec (Z.of_nat (length cur) + 1) NN) as [<-|]; [left; lia|right]. split; [|lia]. nia. }
      assert (Hne : ms_negedge width div s = (0 =? div)) by (unfold ms_negedge, ck_negedge; rewrite Hc, Hrun; reflexivity).
      rewrite Hrun, Hc in N1. unfold ck_next, ck_posedge in N1. cbn [ck_cnt ck_clk ck_pr negb andb] in N1.
      unfold spl_m. rewrite Hrun, Hc. cbn [ck_clk ck_cnt]. unfold ms_out_end in N8. rewrite Hne in N2, N8.
      destruct (Z.ltb_spec 0 div) as [Hlt|Hge].
      + destruct (Z.eqb_spec 0 div); [lia|]. cbn [andb] in N2, N8. rewrite N8, Hrun, N2, N1. cbn [ck_clk ck_cnt]. rewrite trunc_small by (change (2 ^ 8) with 256; lia). nia.
      + destruct (Z.eqb_spec 0 div); [|lia]. cbn [andb] in N2, N8. destruct (Z.eqb_spec (m_ocnt _ s) 0) as [E|E]; cbn [negb] in N2; rewrite N8.
        * rewrite N9. destruct (ms_in_end width s), (m_fv _ s); nia.
        * rewrite Hrun, N2, N1. cbn [ck_clk ck_cnt]. rewrite trunc_small by (change (2 ^ 8) with 256; lia). nia.
    - (* clock high *)
      assert (HOC : m_w _ s <= m_ocnt _ s < 256 /\ 0 < m_w _ s).
      { destruct HO as (-> & _ & _ & ->). destruct (legal_groups _ _ _ HLg) as [G1 G2]. destruct (legal_case _ _ _ HLg). destruct HI as (_ & HI2 & _). destruct HLg as (_ & _ & _ & HL1 & HL2).
        set (W1 := mw_width (fst w)) in *. set (NN := mw_len (fst w) / W1) in *. rewrite G1 in *. assert (Z.of_nat (length cur) < NN) by nia.
        assert (0 < Z.of_nat (length cur)) by (destruct cur; [congruence|cbn [length]; lia]). split; [|lia]. nia. }
      assert (Hne : ms_negedge width div s = (cnt =? div)) by (unfold ms_negedge, ck_negedge; rewrite Hc, Hrun; reflexivity).
      rewrite Hrun, Hc in N1. unfold ck_next, ck_posedge in N1. cbn [ck_cnt ck_clk ck_pr negb andb] in N1.
      unfold spl_m. rewrite Hrun, Hc. cbn [ck_clk ck_cnt]. unfold ms_out_end in N8. rewrite Hne in N2, N8.
      destruct (Z.eqb_spec (m_ocnt _ s) 0); [lia|]. rewrite andb_false_r in N8. rewrite N8, Hrun.
      destruct (Z.ltb_spec cnt div) as [Hlt|Hge].
      + destruct (Z.eqb_spec cnt div); [lia|]. cbn [andb] in N2. rewrite N2, N1. cbn [ck_clk ck_cnt]. rewrite trunc_small by (change (2 ^ 8) with 256; lia). nia.
      + destruct (Z.eqb_spec cnt div); [|lia]. cbn [andb negb] in N2. rewrite N2, N1. cbn [ck_clk ck_cnt negb]. rewrite trunc_small by (change (2 ^ 8) with 256; lia). nia.
    - (* clock high, word done *)
      assert (Hne : ms_negedge width div s = (cnt =? div)) by (unfold ms_negedge, ck_negedge; rewrite Hc, Hrun; reflexivity).
      rewrite Hrun, Hc in N1. unfold ck_next, ck_posedge in N1. cbn [ck_cnt ck_clk ck_pr negb andb] in N1.
      unfold spl_m. rewrite Hrun, Hc. cbn [ck_clk ck_cnt]. unfold ms_out_end in N8. rewrite Hne, Ho in N2, N8. rewrite andb_false_r in N2. rewrite andb_true_r in N8. rewrite N8, Ho.
      destruct (Z.ltb_spec cnt div) as [Hlt|Hge].
      + destruct (Z.eqb_spec cnt div); [lia|]. rewrite Hrun, N2, N1. cbn [ck_clk ck_cnt]. rewrite trunc_small by (change (2 ^ 8) with 256; lia). nia.
      + destruct (Z.eqb_spec cnt div); [|lia]. rewrite N9. destruct (ms_in_end width s), (m_fv _ s); nia.
  Qed.

  Lemma spl_bound t s : m_inv width bo div t s -> (spl_m s <= Z.to_nat (512 * (div + 1) + 21))%nat.
  Proof.
    intros (ws & gs & pend & cur & _ & _ & _ & _ & PH & LV & FI & _). unfold spl_m.
    assert (LL : Z.of_nat (length (late width s)) = if m_fv _ s then 1 else 0) by (unfold late; destruct (m_fv _ s); reflexivity).
    assert (HOC : forall (w : mword * bool) (cur : list (Z * Z)) k, legal width bo (fst w) -> k <= Z.of_nat (length cur) -> 0 <= k ->
       mw_width (fst w) * Z.of_nat (length cur) < mw_len (fst w) -> 0 <= mw_len (fst w) - mw_width (fst w) * (k + 1) < 256).
    { clear - Hdiv. intros w cur k HLg Hk1 Hk2 HI2. destruct (legal_groups _ _ _ HLg) as [G1 G2]. destruct (legal_case _ _ _ HLg). destruct HLg as (_ & _ & _ & HL1 & HL2).
      set (W1 := mw_width (fst w)) in *. set (NN := mw_len (fst w) / W1) in *. rewrite G1 in *. assert (Z.of_nat (length cur) < NN) by nia. nia. }
    destruct PH as [p Hrun Hc | p w cur cnt Hrun Hc Hcnt HO HI HLg | w cur Hrun Hc HO HI HLg Hfv | w cur cnt Hrun Hc Hcnt HO HI HLg Hne0 | cnt Hrun Hc Hcnt Ho];
      rewrite Hrun.
    - destruct (m_fv _ s); lia.
    - destruct HO as (_ & _ & _ & ->). pose proof (HOC w cur (Z.of_nat (length cur)) HLg ltac:(lia) ltac:(lia) ltac:(apply HI)). rewrite Hc. cbn [ck_clk ck_cnt]. nia.
    - destruct HO as (_ & _ & _ & ->). pose proof (HOC w cur (Z.of_nat (length cur)) HLg ltac:(lia) ltac:(lia) ltac:(apply HI)). rewrite Hc. cbn [ck_clk ck_cnt]. nia.
    - destruct HO as (_ & _ & _ & ->). assert (0 < Z.of_nat (length cur)) by (destruct cur; [congruence|cbn [length]; lia]).
      pose proof (HOC w cur (Z.of_nat (length cur) - 1) HLg ltac:(lia) ltac:(lia) ltac:(apply HI)). rewrite Hc. cbn [ck_clk ck_cnt]. nia.
    - rewrite Ho, Hc. cbn [ck_clk ck_cnt]. nia.
  Qed.
End Live.

(** While chip select is low, a word is kept offered and received words are taken, a
    word is accepted within the time of the longest word. *)
Theorem C114_accepts : forall width bo div delay ins t1 t2, 0 <= div < 256 ->
  let bound := Z.to_nat (512 * (div + 1) + 21) in
  trace (spi_master width bo div delay) ins = t1 ++ t2 ->
  Forall (fun w => legal width bo (fst w)) (words (t1 ++ t2)) ->
  Forall (fun o => mo_cs_n o = false /\ cvalid (mo_sink o) = true /\ o_rready (mo_fifo o) = true) t2 ->
  (bound < length t2)%nat ->
  exists u o v, t2 = u ++ o :: v /\ mo_sready o = true /\ (length u <= bound)%nat.
Proof.
  intros width bo div delay ins t1 t2 Hd bound E HL HF HN. rewrite <- E in HL. set (c := spi_master width bo div delay) in *.
  apply trace_cut_from in E. destruct E as (a & b & -> & <- & <-).
  change (state_from c (creset c) a) with (state c a) in *. rewrite trace_from_length in HN.
  assert (HI : forall x y, b = x ++ y -> m_inv width bo div (trace c (a ++ x)) (state c (a ++ x))).
  { intros x y ->. apply m_run_inv; auto. unfold ok. rewrite app_assoc, trace_app in HL. unfold words in HL |- *. rewrite flat_map_app in HL.
    apply Forall_app in HL. apply HL. }
  pose proof (HI [] b eq_refl) as H0. rewrite app_nil_r in H0. apply (spl_bound width bo div Hd) in H0. fold bound in H0.
  destruct (run_progress c (m_inv width bo div)
    (fun o => mo_cs_n o = false /\ cvalid (mo_sink o) = true /\ o_rready (mo_fifo o) = true) mo_sready (spl_m width div)) with (b := b) (a := a)
    as (u & o & v & E1 & E2 & E3); auto.
  - intros t s i o HP (H1 & H2 & H3) H4. apply (spl_step width bo div delay Hd t); auto.
    unfold o in H1. cbn [c spi_master cout mo_cs_n] in H1. now apply negb_false_iff in H1.
  - lia.
  - exists u, o, v. split; [exact E1|]. split; [exact E2|lia].
Qed.

(** Back-to-back words of 8 bits, the source always taken. *)
Example C114_nonvacuous :
  let i := MsIn true (Chan true (Beat false true (MWord 0xA5 1 true 8))) 2 true in
  let t := trace (spi_master 8 1 1 0) (repeat i 1200) in
  let t2 := skipn 3 t in
  Forall (fun o => mo_cs_n o = false /\ cvalid (mo_sink o) = true /\ o_rready (mo_fifo o) = true) t2 /\
  (Z.to_nat (512 * (1 + 1) + 21) < length t2)%nat /\
  words t = repeat (MWord 0xA5 1 true 8, true) (length (words t)) /\ (30 < length (words t))%nat /\
  legal 8 1 (MWord 0xA5 1 true 8) /\ mo_oe (nth 20 t (cout (spi_master 8 1 1 0) (creset (spi_master 8 1 1 0)) i)) = true.
Proof.
  cbv zeta. split.
  - apply Forall_forall. intros o Ho.
    assert (forallb (fun o => negb (mo_cs_n o) && cvalid (mo_sink o) && o_rready (mo_fifo o)) (skipn 3 (trace (spi_master 8 1 1 0)
      (repeat (MsIn true (Chan true (Beat false true (MWord 0xA5 1 true 8))) 2 true) 1200))) = true) by (vm_compute; reflexivity).
    rewrite forallb_forall in H. specialize (H o Ho). apply andb_prop in H. destruct H as [H H3]. apply andb_prop in H. destruct H as [H1 H2].
    apply negb_true_iff in H1. auto.
  - split; [apply Nat.ltb_lt; vm_compute; reflexivity|]. split; [vm_compute; reflexivity|]. split; [apply Nat.ltb_lt; vm_compute; reflexivity|].
    split; [|vm_compute; reflexivity]. unfold legal. cbn. repeat split; try lia. exists 8. reflexivity.
Qed.

Print Assumptions C114_output_enable.
Print Assumptions C114_accepts.
