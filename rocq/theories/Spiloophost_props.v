(** C168: the words a host gets back from a looped slave. *)
From Verif Require Import Stream Bits Fifo_model Timer_model Spiclk_model I2cstream_proofs Spistream_model Spistream_props Spimaster_model Spimaster_props Spislave_model Spislave_props Spimiso_props Spilink_model Spilink_spec Spilink_proofs Spilink_props Spixchg_props Spipair_model Spipair_proofs Spipair_props Spiloop_model Spiloop_spec Spiloop_props Spiloophost_model.

Lemma one_in : In 1 [1; 2; 4; 8]. Proof. now left. Qed.
Lemma one_div width : (1 | width). Proof. apply Z.divide_1_l. Qed.

(** ** The host holds its clock *)
Section Host.
  Context (width div delay : Z) (Hdiv : 3 <= div < 256) (Hwd : 0 < width <= 256).
  Notation h := (spi_host width 1 div delay).
  Implicit Types (s : cst h).
  Local Lemma d256 : 0 <= div < 256. Proof. lia. Qed.
  Notation fifo s := (m_fifo width (snd s)).

  (** The words received and not yet taken are in the FIFO. *)
  Lemma fifo_exact (f : list Z * option Z) we wd re : (we = true -> Z.of_nat (length (fst f)) <> 7) -> let F := sync_fifo_buffered 8 in
    wf_level F (wf_next F f we wd re) = wf_level F f + (if we then 1 else 0) - (if wf_rrdy F f && re then 1 else 0).
  Proof.
    intros H. cbn [sync_fifo_buffered wf_next wf_level wf_rrdy]. destruct f as [q r]. cbn [fst snd] in *.
    set (push := if we && negb (Z.of_nat (length q) =? 8 - 1) then [wd] else []).
    assert (P : Z.of_nat (length push) = if we then 1 else 0).
    { unfold push. destruct we; [|reflexivity]. specialize (H eq_refl). destruct (Z.eqb_spec (Z.of_nat (length q)) (8 - 1)); [lia|]. reflexivity. }
    clearbody push. destruct r as [r|]; [destruct re; [destruct q as [|w q]|]|destruct q as [|w q]]; cbn [fst snd length andb]; rewrite ?app_length; cbn [length]; destruct we; lia.
  Qed.
  Lemma host_level ins : Z.of_nat (length (received (map ho_phy (trace h ins)))) =
    Z.of_nat (length (emitted (map mo_fifo (map ho_phy (trace h ins))))) + ms_level width (snd (state h ins)).
  Proof.
    induction ins as [|i ins IH] using rev_ind; [reflexivity|].
    pose proof (host_inv width 1 div delay d256 one_in (one_div width) Hwd (ins ++ [i])) as INV.
    rewrite host_received, (proj2 (host_snoc width 1 div delay ins i)).
    rewrite (proj1 (host_snoc width 1 div delay ins i)) in *. rewrite !map_app in *. cbn [map] in *. set (s := state h ins) in *.
    destruct INV as (ws & gs & pend & cur & _ & _ & _ & _ & _ & _ & _ & FR). apply Forall_app in FR. destruct FR as [_ FR]. apply Forall_cons_iff in FR. destruct FR as [FR _].
    unfold emitted. rewrite flat_map_app. fold (emitted (map mo_fifo (map ho_phy (trace h ins)))). rewrite !app_length. set (o := ho_phy (cout h s i)) in *.
    assert (O1 : cvalid (o_sink (mo_fifo o)) = m_fv _ (snd s)) by reflexivity.
    assert (O2 : o_sready (mo_fifo o) = negb (Z.of_nat (length (fst (fifo s))) =? 8 - 1)) by reflexivity.
    assert (O3 : cvalid (o_src (mo_fifo o)) = wf_rrdy (sync_fifo_buffered 8) (fifo s)) by reflexivity.
    assert (NX : fifo (cnext h s i) = wf_next (sync_fifo_buffered 8) (fifo s) (m_fv _ (snd s)) (fifo_pack width (Beat false (m_fl _ (snd s)) (m_si _ (snd s)))) (o_rready (mo_fifo o))) by reflexivity.
    rewrite O1, O2 in FR.
    assert (H7 : m_fv _ (snd s) = true -> Z.of_nat (length (fst (fifo s))) <> 7).
    { intros V E. specialize (FR V). rewrite E in FR. discriminate. }
    pose proof (fifo_exact (fifo s) (m_fv _ (snd s)) (fifo_pack width (Beat false (m_fl _ (snd s)) (m_si _ (snd s)))) (o_rready (mo_fifo o)) H7) as X. cbv zeta in X.
    change (ms_level width (snd (cnext h s i))) with (wf_level (sync_fifo_buffered 8) (fifo (cnext h s i))). rewrite NX, X.
    change (wf_level (sync_fifo_buffered 8) (fifo s)) with (ms_level width (snd s)). unfold late. 
    cbn [flat_map]. rewrite app_nil_r. unfold xfer. rewrite O3. destruct (m_fv _ (snd s)), (wf_rrdy (sync_fifo_buffered 8) (fifo s) && o_rready (mo_fifo o)); cbn [length]; lia.
  Qed.
  (** A word that is late or in the FIFO keeps the chip select low. *)
  Lemma full_selected ins : m_fv _ (snd (state h ins)) = true \/ fifo (state h ins) <> ([], None) -> ms_cs_en width (snd (state h ins)) = true.
  Proof.
    intros H. apply (host_selected width 1 div delay d256 one_in (one_div width) Hwd).
    destruct (host_inv width 1 div delay d256 one_in (one_div width) Hwd ins) as (ws & gs & pend & cur & W & _ & _ & FA & _).
    pose proof (host_level ins) as LV. rewrite (host_echo width 1 div delay) in LV.
    apply answers_lasts in FA. apply (f_equal (@length bool)) in FA. rewrite !map_length, app_length in FA.
    rewrite (host_words width 1 div delay) in W. apply (f_equal (@length _)) in W. rewrite map_length, app_length in W.
    assert (R : length (rx_out (map ho_app (trace h ins))) = length (rx_in (map ho_app (trace h ins)))).
    { pose proof (f_equal (@length _) (rx_lasts width 1 div delay ins)) as R. now rewrite !map_length in R. }
    assert (L : 0 < ms_level width (snd (state h ins)) + Z.of_nat (length (late width (snd (state h ins))))).
    { unfold late. destruct H as [H|H].
      - rewrite H. cbn [length]. unfold ms_level. cbn [sync_fifo_buffered wf_level]. destruct (snd (fifo (state h ins))); lia.
      - assert (0 < ms_level width (snd (state h ins))); [|lia]. unfold ms_level. cbn [sync_fifo_buffered wf_level]. destruct (fifo (state h ins)) as [[|a q] [r|]]; cbn [fst snd length]; try lia. congruence. }
    lia.
  Qed.

  Lemma behind_selected ins : (length (received (map ho_phy (trace h ins))) < length (words (map ho_phy (trace h ins))))%nat -> ms_cs_en width (snd (state h ins)) = true.
  Proof.
    intros H. apply (host_selected width 1 div delay d256 one_in (one_div width) Hwd).
    pose proof (host_level ins) as LV. rewrite (host_echo width 1 div delay) in LV.
    rewrite (host_words width 1 div delay), map_length in H.
    assert (R : length (rx_out (map ho_app (trace h ins))) = length (rx_in (map ho_app (trace h ins)))).
    { pose proof (f_equal (@length _) (rx_lasts width 1 div delay ins)) as R. now rewrite !map_length in R. }
    assert (0 <= ms_level width (snd (state h ins))); [|lia]. unfold ms_level. cbn [sync_fifo_buffered wf_level]. destruct (snd (fifo (state h ins))); lia.
  Qed.
  Notation ck s := (m_ck width (snd s)).
  Lemma high_step s i : ck_clk (ck s) = true -> 0 <= ck_cnt (ck s) < div -> m_run _ (snd s) = true ->
    ck_clk (ck (cnext h s i)) = true /\ ck_cnt (ck (cnext h s i)) = ck_cnt (ck s) + 1 /\ m_run _ (snd (cnext h s i)) = true /\ ck_pr (ck (cnext h s i)) = false.
  Proof.
    intros K C R. assert (N : ck (cnext h s i) = ck_next div (ck s) (m_run _ (snd s))) by reflexivity.
    assert (NR : m_run _ (snd (cnext h s i)) = if ms_load width div (snd s) (host_phy_in width 1 (fst s) i) then true else if ms_out_end width div (snd s) then false else m_run _ (snd s)) by reflexivity.
    rewrite N, NR, R. unfold ms_out_end, ms_negedge, ck_negedge, ck_next, ck_posedge. rewrite R, K.
    replace (ck_cnt (ck s) =? div) with false by (symmetry; apply Z.eqb_neq; lia). replace (ck_cnt (ck s) <? div) with true by (symmetry; apply Z.ltb_lt; lia).
    cbn [andb ck_clk ck_cnt ck_pr negb]. rewrite trunc_small by (change (2 ^ 8) with 256; lia). destruct (ms_load _ _ _ _); auto.
  Qed.
  Lemma fv_next s i : m_fv _ (snd (cnext h s i)) = ck_pr (ck s) && (m_icnt _ (snd s) =? 0). Proof. reflexivity. Qed.
  Lemma fifo_next s i : exists wd re, fifo (cnext h s i) = wf_next (sync_fifo_buffered 8) (fifo s) (m_fv _ (snd s)) wd re.
  Proof. eexists _, _. reflexivity. Qed.
  Lemma words_grow ins i : (length (words (map ho_phy (trace h ins))) <= length (words (map ho_phy (trace h (ins ++ [i])))))%nat.
  Proof. rewrite (proj1 (host_snoc width 1 div delay ins i)), map_app. unfold words. rewrite flat_map_app, app_length. lia. Qed.
  Lemma room ins : m_fv _ (snd (state h ins)) = true -> Z.of_nat (length (fst (fifo (state h ins)))) <> 7.
  Proof.
    intros V E.
    pose proof (host_inv width 1 div delay d256 one_in (one_div width) Hwd (ins ++ [HostIn (Chan false (Beat false false 0)) 0 false])) as INV.
    rewrite (proj1 (host_snoc width 1 div delay ins _)), map_app in INV.
    destruct INV as (ws & gs & pend & cur & _ & _ & _ & _ & _ & _ & _ & FR). apply Forall_app in FR. destruct FR as [_ FR]. apply Forall_cons_iff in FR. destruct FR as [FR _].
    specialize (FR V). change (negb (Z.of_nat (length (fst (fifo (state h ins)))) =? 8 - 1) = true) in FR. rewrite E in FR. discriminate.
  Qed.

  (** After a rising edge of the clock pin. *)
  Lemma hold_three ins i js : last_clk (map ho_phy (trace h ins)) = false -> ck_clk (ck (state h ins)) = true -> (length js <= 2)%nat ->
    let s := state h (ins ++ i :: js) in ck_clk (ck s) = true /\ ms_cs_en width (snd s) = true.
  Proof.
    intros L K Hj. destruct (host_inv width 1 div delay d256 one_in (one_div width) Hwd ins) as (ws & gs & pend & cur & W & _ & _ & FA & PH & _).
    assert (SN := host_snoc width 1 div delay).
    inversion PH as [p Hr Hc|p w cu cnt Hr Hc Hcnt|w cu Hr Hc O I LG V|w cu cnt Hr Hc Hcnt|cnt Hr Hc Hcnt]; subst; try (rewrite Hc in K; discriminate); try congruence.
    set (s0 := state h ins) in *.
    assert (P0 : ck_pr (ck s0) = true) by (rewrite Hc; reflexivity).
    assert (C0 : ck_cnt (ck s0) = 0) by (rewrite Hc; reflexivity).
    destruct (high_step s0 i K ltac:(lia) Hr) as (K1 & C1 & R1 & P1).
    assert (W0 : (length (received (map ho_phy (trace h ins))) < length (words (map ho_phy (trace h ins))))%nat).
    { apply answers_lasts in FA. apply (f_equal (@length bool)) in FA. rewrite !map_length, app_length in FA. rewrite W, app_length. cbn [opt length]. lia. }
    pose proof (words_grow ins i) as G1.
    pose proof (host_received width 1 div delay ins i) as RC1. fold s0 in RC1. unfold late in RC1. rewrite V, app_nil_r in RC1.
    assert (E1 : state h (ins ++ [i]) = cnext h s0 i) by apply SN.
    assert (B1 : ms_cs_en width (snd (state h (ins ++ [i]))) = true) by (apply behind_selected; rewrite RC1; lia).
    destruct js as [|j1 js]; [cbv zeta; rewrite E1 in *; auto|]. cbn [length] in Hj.
    replace (ins ++ i :: j1 :: js) with ((ins ++ [i]) ++ j1 :: js) by (rewrite <- app_assoc; reflexivity).
    set (s1 := cnext h s0 i) in *.
    destruct (high_step s1 j1 K1 ltac:(lia) R1) as (K2 & C2 & R2 & P2).
    assert (E2 : state h ((ins ++ [i]) ++ [j1]) = cnext h s1 j1) by (rewrite (proj2 (SN _ _)), E1; reflexivity).
    set (s2 := cnext h s1 j1) in *.
    assert (V2 : m_fv _ (snd s2) = false) by (unfold s2; rewrite fv_next, P1; reflexivity).
    assert (B : ms_cs_en width (snd s2) = true /\ forall j2, ms_cs_en width (snd (cnext h s2 j2)) = true).
    { assert (F1 : m_fv _ (snd s1) = (m_icnt _ (snd s0) =? 0)) by (unfold s1; rewrite fv_next, P0; reflexivity).
      destruct (m_icnt _ (snd s0) =? 0).
      - (* the word is complete *)
        destruct (fifo_next s1 j1) as (wd & re & FN). fold s2 in FN. rewrite F1 in FN.
        pose proof (room (ins ++ [i])) as RM. rewrite E1, F1 in RM. specialize (RM eq_refl).
        assert (NE : fst (fifo s2) <> []).
        { rewrite FN. cbn [sync_fifo_buffered wf_next andb]. replace (Z.of_nat (length (fst (fifo s1))) =? 8 - 1) with false by (symmetry; apply Z.eqb_neq; lia). cbn [negb].
          destruct (match snd (fifo s1) with None => true | _ => re end); [destruct (fst (fifo s1)) as [|x q]|]; cbn [fst]; intros X; try discriminate; apply app_eq_nil in X; destruct X; discriminate. }
        split.
        + rewrite <- E2. apply full_selected. right. rewrite E2. intros X. rewrite X in NE. now apply NE.
        + intros j2. assert (E3 : state h (((ins ++ [i]) ++ [j1]) ++ [j2]) = cnext h s2 j2) by (rewrite (proj2 (SN _ _)), E2; reflexivity).
          rewrite <- E3. apply full_selected. right. rewrite E3. destruct (fifo_next s2 j2) as (wd2 & re2 & FN2). rewrite FN2, V2.
          cbn [sync_fifo_buffered wf_next andb]. destruct (fst (fifo s2)) as [|x q]; [congruence|].
          destruct (match snd (fifo s2) with None => true | _ => re2 end); rewrite ?app_nil_r; discriminate.
      - (* it is not *)
        pose proof (words_grow (ins ++ [i]) j1) as G2. pose proof (host_received width 1 div delay (ins ++ [i]) j1) as RC2. rewrite E1 in RC2. unfold late in RC2. rewrite F1, app_nil_r in RC2.
        split.
        + rewrite <- E2. apply behind_selected. rewrite RC2, RC1. lia.
        + intros j2. assert (E3 : state h (((ins ++ [i]) ++ [j1]) ++ [j2]) = cnext h s2 j2) by (rewrite (proj2 (SN _ _)), E2; reflexivity).
          pose proof (words_grow ((ins ++ [i]) ++ [j1]) j2) as G3. pose proof (host_received width 1 div delay ((ins ++ [i]) ++ [j1]) j2) as RC3. rewrite E2 in RC3. unfold late in RC3. rewrite V2, app_nil_r in RC3.
          rewrite <- E3. apply behind_selected. rewrite RC3, RC2, RC1. lia. }
    destruct B as [B2 B3]. destruct js as [|j2 js]; [cbv zeta; rewrite E2; auto|]. destruct js; [|cbn [length] in Hj; lia].
    replace ((ins ++ [i]) ++ [j1; j2]) with (((ins ++ [i]) ++ [j1]) ++ [j2]) by (rewrite <- app_assoc; reflexivity). cbv zeta. rewrite (proj2 (SN _ _)), E2.
    destruct (high_step s2 j2 K2 ltac:(lia) R2) as (K3 & _). auto.
  Qed.

  Lemma host_held cpol ins : held 3 cpol cpol (low :: map pins_of (trace h ins)).
  Proof.
    intros a p q b E Es.
    assert (X : exists t1 o t2, trace h ins = t1 ++ o :: t2 /\ q = pins_of o /\ b = map pins_of t2 /\ p = last (map pins_of t1) low).
    { destruct a as [|x a]; cbn [app] in E; apply cons_inv in E; destruct E as [<- E].
      - apply map_eq_cons in E. destruct E as (o & t2 & E & <- & <-). exists [], o, t2. auto.
      - apply map_eq_app in E. destruct E as (t1 & t2 & E & <- & E2). apply map_eq_cons in E2. destruct E2 as (y & t3 & -> & <- & E2). apply map_eq_cons in E2. destruct E2 as (o & t4 & -> & <- & <-).
        exists (t1 ++ [y]), o, t4. rewrite <- app_assoc. split; [exact E|]. split; [reflexivity|]. split; [reflexivity|]. rewrite map_app. cbn [map]. now rewrite last_last. }
    destruct X as (t1 & o & t2 & Et & -> & -> & ->). unfold sample_edge in Es. rewrite Bool.eqb_reflx, last_map_clk in Es.
    apply andb_prop in Es. destruct Es as [_ Es]. apply andb_prop in Es. destruct Es as [Es1 Es2]. apply negb_true_iff in Es1.
    rewrite Es2. apply Forall_forall. intros r Hr. apply (In_nth _ _ low) in Hr. destruct Hr as (k & Hk & <-). rewrite firstn_length in Hk.
    assert (Hk3 : (k < 3)%nat) by lia. assert (Hkl : (k < length (map pins_of t2))%nat) by lia. clear Hk.
    assert (NF : nth k (firstn 3 (map pins_of t2)) low = nth k (map pins_of t2) low).
    { rewrite <- (firstn_skipn 3 (map pins_of t2)) at 2. rewrite app_nth1; [reflexivity|]. rewrite firstn_length. lia. }
    rewrite NF. rewrite map_length in Hkl. destruct (nth_split t2 o Hkl) as (ta & tb & Ek & La).
    assert (NN : nth k (map pins_of t2) low = pins_of (nth k t2 o)).
    { rewrite <- (map_nth pins_of). apply nth_indep. now rewrite map_length. }
    rewrite NN. set (y := nth k t2 o) in *. rewrite Ek in Et.
    replace (t1 ++ o :: ta ++ y :: tb) with ((t1 ++ o :: ta) ++ y :: tb) in Et by (rewrite <- app_assoc; reflexivity).
    apply trace_one in Et. destruct Et as (ia & j & ib & -> & Ea & Ey).
    pose proof (f_equal (@length _) Ea) as LE. rewrite trace_length, app_length in LE. cbn [length] in LE.
    apply trace_one in Ea. destruct Ea as (i1 & i & js & -> & E1 & Eo).
    assert (Lj : (length js <= 2)%nat).
    { pose proof (trace_length h i1) as L1. rewrite E1 in L1. rewrite app_length in LE. cbn [length] in LE. lia. }
    rewrite <- E1 in Es1. rewrite Eo in Es2. destruct (hold_three i1 i js Es1 Es2 Lj) as [H1 H2]. rewrite Ey. split; [exact H1|].
    change (negb (ms_cs_en width (snd (state h (i1 ++ i :: js)))) = false). now rewrite H2.
  Qed.
  Lemma dq_range ins : Forall (fun o => 0 <= mo_dq_o (ho_phy o) < 2 ^ 1) (trace h ins).
  Proof.
    apply (run_inv h (fun t _ => Forall _ t)); [constructor|]. intros t s i H. apply Forall_app. split; [exact H|]. constructor; [|constructor].
    change (mo_dq_o (ho_phy (cout h s i))) with (ms_dq_o width 1 (snd s)). unfold ms_dq_o. destruct (ms_case _); [|change (2 ^ 1) with 2; lia].
    unfold trunc. apply Z.mod_pos_bound. reflexivity.
  Qed.
  Lemma host_whole cpol ins : whole_words cpol cpol (Z.to_nat (width / 1)) (map pins_of (trace h ins)).
  Proof.
    intros a p b E Hc. assert (FR : framed cpol cpol (Z.to_nat (width / 1)) (map pins_of (trace h ins))) by (apply host_framed; [exact d256|exact one_in|rewrite Z.div_1_r; lia|exact Hwd|reflexivity]).
    specialize (FR (a ++ [p]) b). rewrite <- app_assoc in FR. specialize (FR E). rewrite last_last in FR. specialize (FR Hc).
    rewrite sampled_app in FR. cbn [sampled] in FR. unfold sample_edge at 1 in FR. rewrite Hc in FR. cbn [negb andb app] in FR. rewrite app_nil_r in FR. exact FR.
  Qed.
End Host.

Lemma held_prefix k cpol cpha l m : held k cpol cpha (l ++ m) -> held k cpol cpha l.
Proof.
  intros H a p q b -> Es. specialize (H a p q (b ++ m)). rewrite <- app_assoc in H. specialize (H eq_refl Es).
  rewrite firstn_app in H. now apply Forall_app in H.
Qed.
Lemma whole_prefix n cpol cpha l m : whole_words cpol cpha n (l ++ m) -> whole_words cpol cpha n l.
Proof. intros H a p b -> Es. apply (H a p (b ++ m)); [now rewrite <- app_assoc|exact Es]. Qed.

(** ** The words *)
Lemma app_split {A} (a b c d : list A) : length a = length c -> a ++ b = c ++ d -> a = c /\ b = d.
Proof.
  revert c. induction a as [|x a IH]; intros [|y c] L E; try discriminate; [now split|]. cbn [app] in E. apply cons_inv in E. destruct E as [-> E].
  cbn [length] in L. destruct (IH c ltac:(lia) E) as [-> ->]. now split.
Qed.
Lemma number_repeat x n : (x = 0 \/ x = 1) -> number 1 (repeat x n) = x * (2 ^ Z.of_nat n - 1).
Proof.
  intros _. induction n as [|n IH]; [cbn; lia|]. replace (S n) with (n + 1)%nat by lia. rewrite repeat_app. cbn [repeat]. unfold number in *. rewrite fold_left_app. cbn [fold_left]. rewrite IH.
  rewrite Nat2Z.inj_add, Z.pow_add_r by lia. change (2 ^ 1) with 2. change (2 ^ Z.of_nat 1) with 2. ring.
Qed.
Lemma late_words width : 0 < width -> forall ws gs rs, Forall3 (exchanged width 1) ws gs rs -> forall p, length p = Z.to_nat width ->
  let r := map (sample 1) (map snd (concat gs)) in r = firstn (length r) (p ++ map fst (concat gs)) ->
  map bdata rs = firstn (length ws) (number 1 p :: map (fun w => bdata w mod 2 ^ width) ws).
Proof.
  intros Hw ws gs rs X. induction X as [|w g r ws gs rs (H1 & H2 & H3) X IH]; intros p Lp sm E; [reflexivity|].
  assert (Lg : length g = Z.to_nat width).
  { apply (f_equal (@length _)) in H1. rewrite map_length in H1. rewrite H1. unfold msb_first. rewrite map_length, seq_length, Z.div_1_r. reflexivity. }
  unfold sm in E. clear sm. cbn [concat] in E. rewrite !map_app in E. set (sg := map (sample 1) (map snd g)) in *.
  assert (Ls : length sg = length p) by (unfold sg; rewrite !map_length; lia).
  rewrite app_length, firstn_app, firstn_all2 in E by lia. replace (length sg + _ - length p)%nat with (length (map (sample 1) (map snd (concat gs)))) in E by lia.
  assert (sg = p /\ map (sample 1) (map snd (concat gs)) = firstn (length (map (sample 1) (map snd (concat gs)))) (map fst g ++ map fst (concat gs))) as [Eg Er].
  { apply app_split; [exact Ls|exact E]. }
  specialize (IH (map fst g) ltac:(now rewrite map_length) Er).
  assert (Ew : number 1 (map fst g) = bdata w mod 2 ^ width).
  { rewrite H1, <- msb_groups by (try apply one_div; lia). apply (value_groups width 1 (bdata w) (Z.to_nat width)); lia. }
  cbn [map length firstn]. f_equal; [now rewrite H2, Eg|]. rewrite IH, Ew. reflexivity.
Qed.

Lemma sampled_rises cpol p t :
  Forall (fun o => so_pins (po_slave o) = pins_of (po_host o)) t -> Forall (fun o => p_cs_n (so_pins (po_slave o)) = false) t ->
  sampled cpol cpol p (map so_pins (map po_slave t)) = map fst (rises (p_clk p) (map ho_phy (map po_host t))).
Proof.
  intros HW HC. revert p. induction t as [|o t IH]; intros p; [reflexivity|].
  apply Forall_cons_iff in HW, HC. destruct HW as [W1 HW], HC as [HC1 HC]. cbn [map rises sampled].
  rewrite map_app. change (mo_clk (ho_phy (po_host o))) with (p_clk (pins_of (po_host o))). rewrite <- W1, (IH HW HC). f_equal.
  unfold sample_edge. rewrite Bool.eqb_reflx, HC1. cbn [negb andb]. destruct (negb (p_clk p) && p_clk (so_pins (po_slave o))); [|reflexivity].
  rewrite W1. reflexivity.
Qed.

Section Pair.
  Context (width div delay : Z) (cpol cpha with_len : bool).
  Notation c := (spi_loop_host width div delay cpol cpha with_len).
  Notation host := (spi_host width 1 div delay).
  Notation slave := (spi_echo cpol cpha width 1 with_len).
  Lemma loop_host ins : map po_host (trace c ins) = trace host (map host_back (map po_host (trace c ins))) /\
    fst (state c ins) = state host (map host_back (map po_host (trace c ins))).
  Proof.
    apply (part_trace c host host_back (fun s => fst s) (fun s i => lh_host_in width cpol cpha with_len (snd s) i)); try reflexivity.
    intros s [? ? ?]. reflexivity.
  Qed.
  Lemma loop_slave ins : map po_slave (trace c ins) = trace slave (map so_pins (map po_slave (trace c ins))) /\
    snd (state c ins) = state slave (map so_pins (map po_slave (trace c ins))).
  Proof.
    apply (part_trace c slave so_pins (fun s => snd s) (fun s i => lh_pins width div delay cpol cpha with_len s i)); reflexivity.
  Qed.
  Lemma loop_wires ins : Forall (fun o => so_pins (po_slave o) = pins_of (po_host o) /\ mo_dq_i (ho_phy (po_host o)) = 2 * so_dq_o (po_slave o)) (trace c ins).
  Proof.
    apply (run_inv c (fun t _ => Forall _ t)); [constructor|]. intros t s i H. apply Forall_app. split; [exact H|]. constructor; [|constructor]. split; reflexivity.
  Qed.
End Pair.

(** ** C168: in a frame of the host, with a clock of at most an eighth of the system
    clock, the host gets back one word for each it sent: first a word of no meaning, all
    zeros or all ones, then its own words, the last one excepted. *)
Theorem C168_echo : forall width div delay cpol cpha with_len ins t0 z f y t1,
  3 <= div < 256 -> div < delay -> 0 < width <= 256 -> cpol = cpha ->
  trace (spi_loop_host width div delay cpol cpha with_len) ins = t0 ++ z :: f ++ y :: t1 ->
  p_cs_n (pins_of (po_host z)) = true -> p_cs_n (pins_of (po_host y)) = true ->
  Forall (fun o => p_cs_n (pins_of (po_host o)) = false) f ->
  exists out back x,
    sent (map po_host (t0 ++ z :: f)) = sent (map po_host t0) ++ out /\
    returned (map po_host (t0 ++ z :: f)) = returned (map po_host t0) ++ back /\
    map blast back = map blast out /\
    map bdata back = firstn (length out) (x :: map (fun w => bdata w mod 2 ^ width) out) /\
    (x = 0 \/ x = 2 ^ width - 1).
Proof.
  intros width div delay cpol cpha wl ins t0 z f y t1 Hd Hdl Hw Hm E Hz Hy HF.
  pose proof (loop_wires width div delay cpol cpha wl ins) as WI.
  destruct (loop_host width div delay cpol cpha wl ins) as [PH _]. destruct (loop_slave width div delay cpol cpha wl ins) as [PS _].
  set (hi := map host_back _) in PH. set (si := map so_pins _) in PS.
  assert (PINS : map so_pins (map po_slave (trace (spi_loop_host width div delay cpol cpha wl) ins)) = map pins_of (trace (spi_host width 1 div delay) hi)).
  { rewrite <- PH, !map_map. apply map_ext_in. intros o Ho. rewrite Forall_forall in WI. apply WI, Ho. }
  clearbody hi si. pose proof (host_held width div delay Hd Hw cpol hi) as HELD. pose proof (host_whole width div delay Hd Hw cpol hi) as WHOLE.
  assert (DQ : Forall (fun p => 0 <= p_dq p < 2 ^ 1) (map pins_of (trace (spi_host width 1 div delay) hi))).
  { rewrite Forall_map. exact (dq_range width div delay hi). }
  rewrite <- PINS in HELD, WHOLE, DQ. clear PINS.
  rewrite E in PH, PS, WI, HELD, WHOLE, DQ.
  replace (t0 ++ z :: f ++ y :: t1) with ((t0 ++ z :: f) ++ y :: t1) in HELD, WHOLE, DQ by (rewrite <- app_assoc; reflexivity).
  rewrite (map_app po_slave (t0 ++ z :: f)), (map_app so_pins (map po_slave (t0 ++ z :: f))) in HELD, WHOLE, DQ. rewrite app_comm_cons in HELD. apply held_prefix in HELD. apply whole_prefix in WHOLE. apply Forall_app in DQ. destruct DQ as [DQ _].
  rewrite !map_app in PH, PS. cbn [map] in PH, PS. rewrite !map_app in PH, PS. cbn [map] in PH, PS.
  symmetry in PH, PS.
  set (T0 := map po_host t0) in *. set (F := map po_host f) in *.
  assert (WF : Forall (fun o => so_pins (po_slave o) = pins_of (po_host o) /\ mo_dq_i (ho_phy (po_host o)) = 2 * so_dq_o (po_slave o)) f /\ so_pins (po_slave z) = pins_of (po_host z)).
  { apply Forall_app in WI. destruct WI as [_ WI]. apply Forall_cons_iff in WI. destruct WI as [WZ WI]. apply Forall_app in WI. split; [apply WI|apply WZ]. }
  destruct WF as [WF WZ].
  assert (Hd' : 0 <= div < 256) by lia.
  rewrite map_app. cbn [map]. fold T0 F.
  (* everything exchanged at z and y *)
  destruct (C139_complete width 1 div delay hi T0 (po_host z) (F ++ po_host y :: map po_host t1) Hd' one_in (one_div width) Hw PH Hz) as (gs0 & E0 & X0).
  destruct (C139_complete width 1 div delay hi (T0 ++ po_host z :: F) (po_host y) (map po_host t1) Hd' one_in (one_div width) Hw) as (gs & E1 & X1).
  { rewrite PH, <- app_assoc. reflexivity. }
  { exact Hy. }
  rewrite sent_app in X1 |- *. rewrite returned_app in X1 |- *. set (out := sent (po_host z :: F)) in *.
  destruct (Forall3_app _ _ _ _ _ X1) as (g1 & g2 & r1 & r2 & -> & Er & Y1 & Y2).
  assert (r1 = returned T0 /\ r2 = returned (po_host z :: F)) as [-> ->].
  { destruct (Forall3_length _ _ _ _ X0) as [L0 _]. destruct (Forall3_length _ _ _ _ Y1) as [L1 _]. clear - Er L0 L1.
    assert (L : length (returned T0) = length r1) by lia. clear - Er L. revert r1 Er L. induction (returned T0) as [|a l IH]; intros r1 Er L; destruct r1; try discriminate; [now split|].
    cbn [app] in Er. apply cons_inv in Er. destruct Er as [-> Er]. cbn [length] in L. destruct (IH r1 Er ltac:(lia)) as [-> ->]. now split. }
  set (back := returned (po_host z :: F)) in *.
  exists out, back.
  assert (LB : map blast back = map blast out).
  { clear - Y2. induction Y2 as [|w g r ws gs rs (_ & _ & H) _ IH]; [reflexivity|]. cbn [map]. now rewrite H, IH. }
  (* the pulses of the frame *)
  rewrite edges_app, concat_app in E1. set (e := rises (last_clk (map ho_phy T0)) (map ho_phy (po_host z :: F))) in *.
  assert (EG : e = concat g2).
  { rewrite E0 in E1. assert (L : length (concat gs0) = length (concat g1)) by now rewrite (exchanged_len _ _ _ _ _ X0), (exchanged_len _ _ _ _ _ Y1).
    clear - E1 L. revert E1 L. generalize (concat gs0) (concat g1). induction l as [|a l IH]; intros l0 E1 L; destruct l0; try discriminate; [exact E1|].
    cbn [app] in E1. apply cons_inv in E1. destruct E1 as [_ E1]. apply (IH l0 E1). cbn [length] in L. lia. }
  assert (FC : Forall (fun o => p_cs_n (so_pins (po_slave o)) = false) f).
  { clear - HF WF. induction f as [|o f IH]; constructor; apply Forall_cons_iff in HF, WF; [destruct WF as [[-> _] _]; apply HF|apply IH; [apply HF|apply WF]]. }
  (* no rising edge of the clock while the chip select is high *)
  assert (ZR : e = rises (p_clk (pins_of (po_host z))) (map ho_phy F)).
  { unfold e. cbn [map rises]. change (mo_clk (ho_phy (po_host z))) with (p_clk (pins_of (po_host z))).
    destruct (negb (last_clk (map ho_phy T0)) && p_clk (pins_of (po_host z))) eqn:Q; [|reflexivity]. exfalso. apply andb_prop in Q. destruct Q as [Q1 Q2]. apply negb_true_iff in Q1.
    rewrite <- last_map_clk in Q1.
    rewrite (C139_selected width 1 div delay hi T0 (po_host z) (F ++ po_host y :: map po_host t1) Hd' one_in (one_div width) Hw PH Q1 Q2) in Hz. discriminate. }
  pose proof (reads_rises cpol cpha (so_pins (po_slave z)) f Hm WF FC) as RR. fold F in RR. rewrite WZ in RR at 1. rewrite <- ZR in RR.
  assert (SR : sampled cpol cpha (so_pins (po_slave z)) (map so_pins (map po_slave f)) = map fst e).
  { subst cpha. rewrite sampled_rises, WZ; [rewrite ZR; reflexivity| |exact FC]. eapply Forall_impl; [|exact WF]. intros ? [H _]. exact H. }
  (* the clock is slow enough *)
  assert (SLOW : slow cpol cpha (po_slave z :: map po_slave f)).
  { destruct f as [|f0 f']; [intros u q o v Eu _; destruct u as [|? [|? ?]]; discriminate|]. set (f := f0 :: f') in *.
    assert (SL : hslow (po_host z :: F)).
    { change (T0 ++ po_host z :: F ++ po_host y :: map po_host t1) with (T0 ++ (po_host z :: F) ++ po_host y :: map po_host t1) in PH.
      apply trace_seg in PH. destruct PH as (ia & ib & ic & -> & _ & PH & _). destruct ib as [|i ib]; [discriminate|]. cbn [trace_from] in PH.
      apply cons_inv in PH. destruct PH as [PZ PF]. set (hc := spi_host width 1 div delay) in *.
      assert (CE : ms_cs_en width (snd (state hc ia)) = false).
      { rewrite <- PZ in Hz. change (negb (ms_cs_en width (snd (state hc ia))) = true) in Hz. now apply negb_true_iff. }
      assert (CN : ms_cs_en width (snd (cnext hc (state hc ia) i)) = true).
      { destruct ib as [|j ib]; [discriminate|]. cbn [trace_from] in PF. unfold F, f in PF. cbn [map] in PF. apply cons_inv in PF. destruct PF as [PF _].
        apply Forall_cons_iff in HF. destruct HF as [HF0 _]. rewrite <- PF in HF0.
        change (negb (ms_cs_en width (snd (cnext hc (state hc ia) i))) = false) in HF0. now apply negb_false_iff. }
      destruct (start_low width div delay Hd' Hw ia i Hdl CE CN) as (S1 & S2 & S3).
      rewrite <- PF. apply frame_slow; auto; lia. }
    intros u q o v Eu Se. change (po_slave z :: map po_slave f) with (map po_slave (z :: f)) in Eu.
    apply map_eq_app in Eu. destruct Eu as (lu & l2 & El & Eu1 & E2). apply map_eq_cons in E2. destruct E2 as (q' & l3 & -> & Eq & E2).
    apply map_eq_cons in E2. destruct E2 as (o' & lv & -> & Eo & Ev). subst q o.
    assert (WA : Forall (fun o => so_pins (po_slave o) = pins_of (po_host o)) (z :: f)).
    { constructor; [exact WZ|]. eapply Forall_impl; [|exact WF]. intros ? [H _]; exact H. }
    rewrite El in WA. apply Forall_app in WA. destruct WA as [WA1 WA2]. apply Forall_cons_iff in WA2. destruct WA2 as [Wq WA2]. apply Forall_cons_iff in WA2. destruct WA2 as [Wo _].
    unfold sample_edge in Se. subst cpha. rewrite Bool.eqb_reflx in Se. apply andb_prop in Se. destruct Se as [_ Se]. apply andb_prop in Se. destruct Se as [Se1 Se2]. apply negb_true_iff in Se1.
    destruct (SL (map po_host lu) (po_host q') (po_host o') (map po_host lv)) as (u' & x1 & x2 & Eu' & L1 & L2).
    + unfold F. change (po_host z :: map po_host f) with (map po_host (z :: f)). rewrite El, map_app. reflexivity.
    + unfold oclk. now rewrite <- Wq.
    + unfold oclk. now rewrite <- Wo.
    + apply map_eq_app in Eu'. destruct Eu' as (lu' & l4 & -> & _ & E4). apply map_eq_cons in E4. destruct E4 as (y1 & l5 & -> & Ey1 & E4). apply map_eq_cons in E4. destruct E4 as (y2 & l6 & -> & Ey2 & E4).
      apply map_eq_nil in E4. subst l6 x1 x2. apply Forall_app in WA1. destruct WA1 as [_ WA1]. apply Forall_cons_iff in WA1. destruct WA1 as [Wy1 WA1]. apply Forall_cons_iff in WA1. destruct WA1 as [Wy2 _].
      exists (map po_slave lu'), (po_slave y1), (po_slave y2). split; [rewrite <- Eu1, map_app; reflexivity|]. rewrite Se1, Wy1, Wy2. auto. }
  (* what the slave sends back *)
  rewrite map_app in HELD, WHOLE, DQ. cbn [map] in HELD, WHOLE, DQ.
  destruct (C167_echo cpol cpha width 1 wl si (map po_slave t0) (po_slave z) (map po_slave f) (po_slave y :: map po_slave t1) ltac:(lia) ltac:(lia) (one_div width) PS) as [x EC].
  { exact DQ. } { subst cpha. exact HELD. } { subst cpha. exact WHOLE. } { now rewrite WZ. } { now rewrite Forall_map. } { exact SLOW. }
  rewrite SR in EC. set (r := master_reads cpol cpha (so_pins (po_slave z)) (map po_slave f)) in *.
  assert (B01 : x mod 2 = 0 \/ x mod 2 = 1) by (pose proof (Z.mod_pos_bound x 2 ltac:(lia)); lia).
  assert (FB : map (fun d => d mod 2) (map fst e) = map fst e).
  { rewrite EG. clear - Y2. induction Y2 as [|w g q ws gs rs (H & _) _ IH]; [reflexivity|]. cbn [concat]. rewrite !map_app, IH, H. f_equal. unfold msb_first. rewrite map_map. apply map_ext. intros k. change (2 ^ 1) with 2. apply Z.mod_mod. lia. }
  set (n := Z.to_nat width).
  assert (FIN : map (sample 1) (map snd e) = firstn (length (map (sample 1) (map snd e))) (repeat (x mod 2) n ++ map fst e)).
  { rewrite RR, map_length. rewrite EC at 1. rewrite <- firstn_map, map_app, FB. f_equal. f_equal. rewrite Z.div_1_r. fold n. clear. induction n; cbn [repeat map]; congruence. }
  rewrite EG in FIN.
  pose proof (late_words width ltac:(lia) _ _ _ Y2 (repeat (x mod 2) n) (repeat_length _ _) FIN) as LW.
  rewrite number_repeat in LW by exact B01. unfold n in LW. rewrite Z2Nat.id in LW by lia.
  eexists. split; [reflexivity|]. split; [reflexivity|]. split; [exact LB|]. split; [exact LW|].
  destruct B01 as [-> | ->]; [left|right]; ring.
Qed.

(** A frame of three words. *)
Definition lh_word (l : bool) (d : Z) : chan Z * bool := (Chan true (Beat true l d), true).
Definition lh_ex (k : nat) : list (chan Z * bool) :=
  repeat (lh_word false 0xa5) 8 ++ repeat (lh_word false 0x3c) k ++ repeat (lh_word true 0x81) k ++ repeat (Chan false (Beat false false 0), true) (2 * k + 40).
Definition lh_trace (div : Z) (k : nat) : list pair_obs := trace (spi_loop_host 8 div (div + 1) false false true) (lh_ex k).
(** The run of this host with divisor [div] has, from its cycle [a + 1], a frame of [n]
    cycles in which it sends these three words and gets back [back]. *)
Definition lh_case (div : Z) (k a n : nat) (back : list Z) : Prop := exists t0 z f y t1,
  lh_trace div k = t0 ++ z :: f ++ y :: t1 /\ length t0 = a /\ length f = n /\
  p_cs_n (pins_of (po_host z)) = true /\ p_cs_n (pins_of (po_host y)) = true /\
  Forall (fun o => p_cs_n (pins_of (po_host o)) = false) f /\
  map bdata (sent (map po_host t0)) = [] /\ map bdata (sent (map po_host (t0 ++ z :: f))) = [0xa5; 0x3c; 0x81] /\
  map bdata (returned (map po_host t0)) = [] /\ map bdata (returned (map po_host (t0 ++ z :: f))) = back.
Definition lh_cs (o : pair_obs) : bool := p_cs_n (pins_of (po_host o)).
Definition lh_caseb (div : Z) (k a n : nat) (back : list Z) : bool :=
  let t := lh_trace div k in
  match skipn a t, skipn n (skipn (S a) t) with
  | z :: _, y :: _ => Nat.eqb (length (firstn a t)) a && Nat.eqb (length (firstn n (skipn (S a) t))) n && lh_cs z && lh_cs y && forallb (fun o => negb (lh_cs o)) (firstn n (skipn (S a) t)) &&
      (if list_eq_dec Z.eq_dec (map bdata (sent (map po_host (firstn a t)))) [] then true else false) &&
      (if list_eq_dec Z.eq_dec (map bdata (sent (map po_host (firstn a t ++ z :: firstn n (skipn (S a) t))))) [0xa5; 0x3c; 0x81] then true else false) &&
      (if list_eq_dec Z.eq_dec (map bdata (returned (map po_host (firstn a t)))) [] then true else false) &&
      (if list_eq_dec Z.eq_dec (map bdata (returned (map po_host (firstn a t ++ z :: firstn n (skipn (S a) t))))) back then true else false)
  | _, _ => false
  end.
Lemma lh_case_ok div k a n back : lh_caseb div k a n back = true -> lh_case div k a n back.
Proof.
  unfold lh_caseb, lh_case. set (t := lh_trace div k). clearbody t. intros H.
  destruct (skipn a t) as [|z r] eqn:Ea; [discriminate|]. destruct (skipn n (skipn (S a) t)) as [|y t1] eqn:En; [discriminate|].
  assert (Er : skipn (S a) t = r) by (clear - Ea; revert t Ea; induction a as [|a IH]; intros [|x t] Ea; try discriminate; [cbn in Ea; now apply cons_inv in Ea|exact (IH t Ea)]).
  apply andb_prop in H; destruct H as [H H9]. apply andb_prop in H; destruct H as [H H8]. apply andb_prop in H; destruct H as [H H7]. apply andb_prop in H; destruct H as [H H6].
  apply andb_prop in H; destruct H as [H H5]. apply andb_prop in H; destruct H as [H H4]. apply andb_prop in H; destruct H as [H H3]. apply andb_prop in H; destruct H as [H1 H2].
  exists (firstn a t), z, (firstn n (skipn (S a) t)), y, t1. split.
  { rewrite <- En, firstn_skipn, Er, <- Ea, firstn_skipn. reflexivity. }
  split; [now apply Nat.eqb_eq|]. split; [now apply Nat.eqb_eq|]. split; [exact H3|]. split; [exact H4|]. split.
  { apply Forall_forall. intros o Ho. rewrite forallb_forall in H5. specialize (H5 o Ho). now apply negb_true_iff in H5. }
  destruct (list_eq_dec Z.eq_dec _ _) as [G6|] in H6; [|discriminate]. destruct (list_eq_dec Z.eq_dec _ _) as [G7|] in H7; [|discriminate].
  destruct (list_eq_dec Z.eq_dec _ _) as [G8|] in H8; [|discriminate]. destruct (list_eq_dec Z.eq_dec _ _) as [G9|] in H9; [|discriminate]. auto.
Qed.
Example C168_nonvacuous : lh_case 3 64 5 194 [0; 0xa5; 0x3c].
Proof. apply lh_case_ok. vm_compute. reflexivity. Qed.

(** A divisor of 2 is not enough: the same words come back one bit late, and the word
    0x52 is neither all zeros, nor all ones, nor a word sent. *)
Theorem C168_divisor_needed : lh_case 2 48 4 147 [0; 0x52; 0x9e].
Proof. apply lh_case_ok. vm_compute. reflexivity. Qed.

Print Assumptions C168_echo.
Print Assumptions C168_divisor_needed.
