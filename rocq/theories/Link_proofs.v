(** Proofs about the I2C bridge over a stream (C151). *)
From Verif Require Import Stream Bits I2c_model I2c_proofs I2cstream_model I2cstream_spec I2cstream_proofs I2cproto_model I2cproto_spec I2cproto_proofs
  I2ctime_props Fifo_model Fifo_proofs Bridge_model Bridge_spec Bridge_proofs Link_model Link_spec.
From Coq Require Import Lia.

Lemma link_waited_fst t : fst (fold_left link_waited_step t ((HIdle, []), 0)) = link_view t.
Proof. induction t as [|o t IH] using rev_ind; [reflexivity|]. unfold link_view. rewrite fold_left_app, map_app. cbn [fold_left map]. rewrite host_snoc. unfold link_waited_step at 1. cbn [fst]. now rewrite IH. Qed.
Lemma lview_snoc t o : link_view (t ++ [o]) = host_step (link_view t) (lo_link o).
Proof. unfold link_view. rewrite map_app. apply host_snoc. Qed.
Lemma link_waited_snoc t o : link_waited (t ++ [o]) = if is_data (fst (link_view t)) && is_data (fst (link_view (t ++ [o]))) then link_waited t + 1 else 0.
Proof. unfold link_waited. rewrite fold_left_app. cbn [fold_left]. unfold link_waited_step at 1. cbn [snd]. rewrite link_waited_fst, lview_snoc. reflexivity. Qed.
Lemma link_waited_nonneg t : 0 <= link_waited t.
Proof. induction t as [|o t IH] using rev_ind; [cbn; lia|]. rewrite link_waited_snoc. destruct (_ && _); lia. Qed.
Lemma link_prefix limit t u : good_link limit (t ++ u) -> good_link limit t.
Proof. intros H t1 o t2 ->. apply (H t1 o (t2 ++ u)). now rewrite <- app_assoc. Qed.

Section Bridge.
  Context (period : Z) (stretch oe : bool) (HP : 1 <= period).
  Let B := i2c_link period stretch oe.
  Let P := i2c_proto period stretch oe.
  Let N := 36 * (period / 4 + 1).
  Let limit := N - 1.

  Record linv (t : list lk_obs) (s : lk_state) : Prop := {
    w_good : good_host (map lo_pr t);
    w_pr : exists ins, map lo_pr t = trace P ins /\ l_pr s = state P ins;
    w_q : exists rxb txb, l_rx s = map pack8 rxb /\ Forall byte rxb /\ (length rxb <= 32)%nat /\
          l_tx s = map pack8 txb /\ Forall byte txb /\ (length txb <= 32)%nat /\
          rel (host_view (map po_io (map lo_pr t))) (link_view t) rxb txb /\
          (p_f (l_pr s) = PWrite \/ p_f (l_pr s) = PError -> is_data (fst (host_view (map po_io (map lo_pr t)))) = true ->
             rxb <> [] /\ (is_data (fst (link_view t)) = true -> limit < link_waited t));
    w_lost : fst (link_view t) <> HLost;
    w_zero : forall h n, fst (link_view t) = HStatusR h n -> n <> 0;
    w_time : p_f (l_pr s) = PAddr -> is_data (fst (link_view t)) = true -> N <= link_waited t + answer_in period (l_pr s) }.

  Lemma link_step t s i : good_link limit (t ++ [cout B s i]) -> linv t s -> linv (t ++ [cout B s i]) (cnext B s i).
  Proof using HP.
    intros HU [V1 (pins & V2 & V2') (rxb & txb & Q1 & Q2 & Q3 & Q4 & Q5 & Q6 & Q7 & Q8) V5 V6 V7].
    set (o := cout B s i) in *.
    destruct (HU t o [] eq_refl) as (U1 & U2 & U3).
    destruct (pr_both_run period stretch oe pins) as [PI PA]; [fold P; rewrite <- V2; exact V1|]. fold P in PI, PA. rewrite <- V2, <- V2' in PI, PA.
    pose proof (pr_noaddr_run period stretch oe pins) as PN. fold P in PN. rewrite <- V2, <- V2' in PN. specialize (PN V1).
    destruct (pr_inner period stretch oe pins) as (ia & IA & IR). fold P in IA, IR. rewrite <- V2' in IA, IR.
    pose proof (upright_run period stretch oe HP ia) as UP. pose proof (counted_run period stretch oe ia) as CN. pose proof (fresh_run period stretch oe HP ia) as FR.
    rewrite <- IA in UP, CN, FR.
    pose proof (src_byte period stretch oe pins) as SB. fold P in SB. rewrite <- V2' in SB.
    set (pv := host_view (map po_io (map lo_pr t))) in *. set (lv := link_view t) in *.
    assert (PH : exists xs xd, pr_phase (l_pr s) (fst pv) xs xd) by (destruct PI as (segs & xs & xd & _ & _ & _ & PH); eauto).
    destruct PH as (xs & xd & PH).
    (* what moves in this cycle *)
    set (a := xfer (o_sink (lo_link o)) (o_sready (lo_link o))). set (e := xfer (o_src (lo_link o)) (o_rready (lo_link o))).
    set (b := xfer (lk_rx s) (pr_rdy (l_pr s) (lk_rx s))). set (c := xfer (pr_src (l_pr s)) (lk_tx_rdy s)).
    assert (EL : link_view (t ++ [o]) = hstep lv a e) by (rewrite lview_snoc, host_step_xfer; reflexivity).
    assert (EP : host_view (map po_io (map lo_pr (t ++ [o]))) = hstep pv b c) by (rewrite !map_app; cbn [map]; rewrite host_snoc, host_step_xfer; reflexivity).
    assert (La : (length a <= 1)%nat) by apply xfer_len. assert (Lb : (length b <= 1)%nat) by apply xfer_len.
    assert (Lc : (length c <= 1)%nat) by apply xfer_len. assert (Le : (length e <= 1)%nat) by apply xfer_len.
    assert (SEND : a <> [] -> sending (fst lv)).
    { intros NA. unfold a, xfer in NA. destruct (cvalid (o_sink (lo_link o)) && o_sready (lo_link o)); [|congruence].
      specialize (U2 eq_refl). unfold sending. destruct (fst lv); auto. }
    (* the queues *)
    destruct (fifo_cycle txb (pr_src (l_pr s)) (li_rready i) Q5 SB Q6) as (x0 & TX1 & TX2 & TX3 & TX4).
    assert (KB : cvalid (li_source i) = true -> byte (cbeat (li_source i))) by (intros _; exact U1).
    destruct (fifo_cycle rxb (li_source i) (pr_rdy (l_pr s) (lk_rx s)) Q2 KB Q3) as (y0 & RX1 & RX2 & RX3 & RX4).
    rewrite <- Q4 in TX1, TX2, TX3, TX4. rewrite <- Q1 in RX1, RX2, RX3, RX4. fold (lk_tx s) in TX1. fold (lk_rx s) in RX1. fold (lk_rx_rdy s) in RX2, RX3, RX4. fold (lk_tx_rdy s) in TX2, TX3, TX4.
    change (xfer (lk_tx s) (li_rready i)) with e in TX1. fold b in RX1. fold c in TX2, TX3, TX4.
    change (xfer (li_source i) (lk_rx_rdy s)) with a in RX2, RX3, RX4.
    (* host and core in step *)
    assert (GH : good_host (map lo_pr (t ++ [o]))).
    { intros t1 q t2 E. rewrite map_app in E. cbn [map] in E.
      destruct (list_case t2) as [->|(t2' & z & ->)].
      - apply app_inj_tail in E. destruct E as [<- <-]. fold pv.
        change (o_sink (po_io (lo_pr o))) with (lk_rx s).
        assert (EB : lk_rx s = match rxb with [] => Chan false (fifo_unpack 8 0) | x :: _ => Chan true x end) by (unfold lk_rx; rewrite Q1; now apply fifo_src).
        rewrite EB. split.
        + destruct rxb as [|x rxb]; [cbn; lia|]. inversion Q2; subst. assumption.
        + destruct (fst pv) as [|h|h ds n|h ds|h n|h n g l|] eqn:EH; auto.
          * intros AD. assert (PF : p_f (l_pr s) = PWrite \/ p_f (l_pr s) = PError).
            { unfold pr_phase in PH. destruct (p_f (l_pr s)) eqn:F; auto; exfalso.
              - destruct PH as (PH & _). discriminate.
              - destruct PH as (PH & _). discriminate.
              - rewrite (PN (or_intror F)) in AD. discriminate.
              - destruct PH as (_ & PH & _). discriminate.
              - destruct PH as (? & ? & PH & _). discriminate.
              - destruct PH as (? & PH & _). discriminate.
              - destruct PH as (_ & _ & PH). destruct (is_read _); [destruct PH as (? & PH & _)|destruct PH as (? & PH & _)]; discriminate. }
            destruct (Q8 PF eq_refl) as [D1 _]. destruct rxb as [|x rxb]; [congruence|reflexivity].
          * assert (LV : lv = pv /\ rxb = []).
            { destruct Q7 as [[_ R]|[R1 R]].
              - destruct rxb as [|z q]; [auto|exfalso].
                assert (S : sending (fst pv)) by (apply (sents_sending (map bdata (z :: q))); [discriminate|rewrite <- R; exact V5]). rewrite EH in S. exact S.
              - destruct txb as [|z txb]; [cbn in R; auto|exfalso]. destruct (gots_not_data (z :: txb) lv ltac:(discriminate)) as (_ & _ & G).
                apply (G h n). now rewrite <- R. }
            destruct LV as [LV RX]. rewrite RX. split; [reflexivity|]. apply (V6 h n). now rewrite LV.
      - change (t1 ++ q :: t2' ++ [z]) with (t1 ++ (q :: t2') ++ [z]) in E. rewrite app_assoc in E. apply app_inj_tail in E. destruct E as [E _]. apply (V1 t1 q t2'). exact E. }
    assert (PV : exists ins, map lo_pr (t ++ [o]) = trace P ins /\ l_pr (cnext B s i) = state P ins).
    { exists (pins ++ [lk_pr_in s i]). rewrite map_app, V2, trace_app. cbn [map]. unfold state. rewrite state_from_app. fold (state P pins). rewrite <- V2'. split; reflexivity. }
    assert (PL : fst (hstep pv b c) <> HLost).
    { destruct PV as (ins & E & _). pose proof (pr_inv_run period stretch oe ins) as K. fold P in K. rewrite <- E in K. specialize (K GH).
      destruct K as (sg & ys & yd & _ & _ & _ & K). rewrite <- EP. intros L. rewrite L in K. revert K. unfold pr_phase. clear.
      destruct (p_f _); intros K.
      - destruct K as (K & _). discriminate.
      - destruct K as (K & _). discriminate.
      - destruct K as (K & _). destruct (is_read _); [|destruct (_ =? 0)]; discriminate.
      - destruct K as (_ & K & _). discriminate.
      - destruct K as (? & ? & K & _). discriminate.
      - destruct K as (? & K & _). discriminate.
      - destruct K as (? & _ & K & _). discriminate.
      - destruct K as (_ & _ & _ & K). destruct (is_read _); destruct K as (? & K & _); [discriminate|]. destruct (_ =? 0); discriminate.
      - destruct K as (_ & _ & K). destruct (is_read _); destruct K as (? & K & _); discriminate. }
    assert (RS : rel (hstep pv b c) (hstep lv a e) (y0 ++ a) (x0 ++ c) /\ fst (hstep lv a e) <> HLost).
    { apply rel_step; auto. rewrite <- RX1, <- TX1. exact Q7. }
    destruct RS as [RS LL].
    (* before the address is answered nothing is exchanged with the core *)
    assert (ADDR : p_f (l_pr s) = PAddr -> b = [] /\ c = []).
    { intros F. unfold b, c, xfer, pr_rdy, pr_src. rewrite F. cbn. rewrite andb_false_r. auto. }
    (* while the core waits for data, the host can only have sent it all *)
    assert (PAST : is_data (fst pv) = true -> past_length (fst lv) /\ txb = []).
    { intros D. destruct Q7 as [[R1 R]|[R1 R]].
      - split; [|exact R1]. rewrite R. apply sents_past. destruct (fst pv); try discriminate. exact I.
      - destruct txb as [|z txb]; [|exfalso; destruct (gots_not_data (z :: txb) lv ltac:(discriminate)) as [G _]; rewrite <- R in G; congruence].
        cbn in R. rewrite <- R. split; [|reflexivity]. destruct (fst pv); try discriminate. exact I. }
    assert (QUIET : is_data (fst pv) = true -> is_data (fst lv) = false -> a = [] /\ e = []).
    { intros D1 D2. destruct (PAST D1) as [PL1 TX]. split.
      - destruct a as [|x a']; [reflexivity|]. specialize (SEND ltac:(discriminate)). exfalso. destruct (fst lv); cbn in *; try contradiction; discriminate.
      - rewrite TX in TX1. symmetry in TX1. apply app_eq_nil in TX1. apply TX1. }
    assert (FULL : is_data (fst lv) = true -> limit < link_waited t -> y0 ++ a <> []).
    { intros D L E0. specialize (U3 L). apply app_eq_nil in E0. destruct E0 as [-> E0]. unfold a, xfer in E0. rewrite U3 in E0. cbn [andb] in E0.
      change (o_sready (lo_link o)) with (lk_rx_rdy s) in E0. destruct (lk_rx_rdy s) eqn:R; [discriminate|]. unfold lk_rx_rdy in R. rewrite Q1, fifo_rdy in R.
      apply negb_false_iff, Z.eqb_eq in R. rewrite RX1, app_nil_r in R. lia. }
    assert (LATE : is_data (fst pv) = true -> is_data (fst (hstep pv b c)) = true -> (is_data (fst lv) = true -> limit < link_waited t) ->
      y0 ++ a <> [] /\ (is_data (fst (hstep lv a e)) = true -> limit < link_waited (t ++ [o]))).
    { intros D1 D1' L. destruct (is_data (fst lv)) eqn:D2.
      - specialize (L eq_refl). split; [now apply FULL|]. intros D'. rewrite link_waited_snoc, EL. fold lv. rewrite D2, D'. cbn [andb]. lia.
      - destruct (QUIET D1 eq_refl) as [A E]. rewrite A, E in *. split; [|intros D'; cbn [hstep] in D'; congruence]. intros E0. rewrite E0 in RS. cbn [hstep] in RS.
        destruct RS as [[_ R]|[_ R]].
        + cbn in R. rewrite R in D2. congruence.
        + destruct (x0 ++ c) as [|z q]; [cbn in R; rewrite R in D1'; congruence|]. destruct (gots_not_data (z :: q) lv ltac:(discriminate)) as [G _]. rewrite <- R in G. congruence. }
    assert (NXT : l_pr (cnext B s i) = pr_next period stretch oe (l_pr s) (lk_rx s) (lk_tx_rdy s) (li_pads i)) by reflexivity.
    assert (SERVED : p_f (l_pr s) = PAddr -> pr_go (l_pr s) (lk_rx s) = true -> is_data (fst lv) = true -> limit < link_waited t).
    { intros F G D. specialize (V7 F D).
      unfold pr_go, ist_rdy, ist_rd, pr_isink in G. rewrite F in G. cbn [cvalid cbeat bdata fst] in G. rewrite andb_false_r in G. cbn [orb] in G.
      apply andb_prop in G. destruct G as [G1 G2]. unfold answer_in in V7.
      assert (W : is_f (p_i (l_pr s)) = IsWWrite) by (unfold ist_is in G1; destruct (is_f (p_i (l_pr s))); discriminate || reflexivity).
      rewrite W in V7. unfold ist_idle in G2. apply negb_true_iff in G2. pose proof (idle_f (is_i (p_i (l_pr s))) (proj1 IR) G2) as ID.
      unfold rest in V7. rewrite ID in V7. unfold limit. lia. }
    constructor.
    - exact GH.
    - exact PV.
    - exists (y0 ++ a), (x0 ++ c). rewrite EP, EL. do 7 (split; [solve [auto]|]). intros PF D.
      assert (DP : is_data (fst pv) = true /\ (is_data (fst lv) = true -> limit < link_waited t)); [|destruct DP; now apply LATE].
      rewrite NXT in PF. unfold pr_next in PF. clear - PF D PH Q8 SERVED ADDR.
      assert (K : p_f (l_pr s) = PWrite \/ p_f (l_pr s) = PError -> is_data (fst pv) = true /\ (is_data (fst lv) = true -> limit < link_waited t)).
      { intros F. assert (DP : is_data (fst pv) = true); [|split; [exact DP|apply Q8; assumption]].
        destruct (is_data (fst pv)) eqn:E; [reflexivity|exfalso]. destruct (data_from pv b c D E) as (h & x & H & _). rewrite H in PH. unfold pr_phase in PH.
        destruct F as [F|F]; rewrite F in PH.
        - destruct PH as (? & _ & PH & _). discriminate.
        - destruct PH as (_ & _ & _ & PH). destruct (is_read _); destruct PH as (? & PH & _); [discriminate|]. destruct (_ =? 0); discriminate. }
      destruct (p_f (l_pr s)) eqn:F; auto.
      + destruct (cvalid _); cbn [p_f] in PF; destruct PF; discriminate.
      + destruct (cvalid _); cbn [p_f] in PF; destruct PF; discriminate.
      + destruct (ADDR eq_refl) as [E1 E2]. rewrite E1, E2 in D. destruct (pr_go _ _); [auto|]. cbn [p_f] in PF; destruct PF; discriminate.
      + destruct (lk_tx_rdy s); cbn [p_f] in PF; destruct PF; discriminate.
      + destruct (pr_go _ _); [destruct (_ =? _)|]; cbn [p_f] in PF; destruct PF; discriminate.
      + destruct (_ && _); cbn [p_f] in PF; destruct PF; discriminate.
      + destruct (lk_tx_rdy s); cbn [p_f] in PF; destruct PF; discriminate.
    - rewrite EL. exact LL.
    - rewrite EL. intros h n E. clear - E V6 U2 EL.
      assert (U2' : a <> [] -> match fst lv with HHeader h => is_read h = true -> forall x, a = [x] -> bdata x <> 0 | _ => True end).
      { unfold a, xfer. intros NA. destruct (cvalid (o_sink (lo_link o)) && o_sready (lo_link o)); [|congruence].
        specialize (U2 eq_refl). destruct (fst lv); auto. intros R x EX. injection EX as <-. exact (U2 R). }
      clearbody a e lv. clear U2. destruct lv as [hl g]. cbn [fst] in *. unfold hstep in E. destruct a as [|x [|? ?]], e as [|z [|? ?]]; try discriminate.
      + apply (V6 _ _ E).
      + cbn in E. destruct hl; try discriminate; [destruct (bdata z =? 0)|destruct (left =? 1)]; discriminate.
      + cbn in E. specialize (U2' ltac:(discriminate)). destruct hl; try discriminate.
        * destruct (is_read _) eqn:R; [|destruct (bdata x =? 0); discriminate]. injection E as <- <-. now apply (U2' eq_refl x).
        * destruct (left =? 1); discriminate.
    - rewrite EL. intros F' D'. pose proof (link_waited_nonneg (t ++ [o])) as WN.
      set (s' := l_pr (cnext B s i)) in *.
      destruct (ist_is (p_i s') IsWWrite) eqn:W'.
      2: { unfold answer_in. unfold ist_is in W'. destruct (is_f (p_i s')); try discriminate; lia. }
      assert (W : is_f (p_i s') = IsWWrite) by (unfold ist_is in W'; destruct (is_f (p_i s')); discriminate || reflexivity).
      assert (IS : p_i s' = ist_next period stretch oe (p_i (l_pr s)) (pr_isink (l_pr s) (lk_rx s)) (pr_irdy (l_pr s) (lk_tx_rdy s)) (li_pads i)).
      { rewrite NXT. unfold pr_next. destruct (p_f (l_pr s)); repeat match goal with |- context [if ?x then _ else _] => destruct x end; reflexivity. }
      assert (FF : p_f (l_pr s) = PAddr).
      { rewrite NXT in F'. unfold pr_next in F'. clear - F' W PH IS.
        destruct (p_f (l_pr s)) eqn:F; auto; exfalso.
        - destruct (cvalid _); discriminate.
        - unfold pr_phase in PH. rewrite F in PH. destruct PH as (_ & _ & _ & PH). rewrite IS in W. cbn [is_f ist_next] in W. unfold ist_fnext in W.
          destruct PH as [PH|[PH|PH]]; rewrite PH in W; [|discriminate|]; match type of W with context [if ?x then _ else _] => destruct x end; discriminate.
        - destruct (lk_tx_rdy s); discriminate.
        - destruct (pr_go _ _); [destruct (_ =? _)|]; discriminate.
        - destruct (_ && _); discriminate.
        - destruct (pr_go _ _); [destruct (ist_err _); [|destruct (_ =? _)]|]; discriminate.
        - destruct (_ <=? _); discriminate.
        - destruct (lk_tx_rdy s); discriminate. }
      assert (DL : is_data (fst lv) = true).
      { destruct (is_data (fst lv)) eqn:E; [reflexivity|exfalso]. destruct (data_from lv a e D' E) as (h & x & H & _).
        assert (PH' : is_data (fst pv) = true \/ ~ sending (fst pv) /\ fst pv <> HLost /\ fst pv <> HHeader h).
        { unfold pr_phase in PH. rewrite FF in PH. destruct PH as (PH & _). rewrite PH. destruct (is_read _); [|destruct (_ =? 0)]; cbn; auto; right; repeat split; auto; discriminate. }
        destruct PH' as [PH'|(P1 & P2 & P3)].
        - destruct (PAST PH') as [PA' _]. rewrite H in PA'. exact PA'.
        - destruct Q7 as [[_ R]|[_ R]].
          + destruct rxb as [|z q]; [cbn in R; congruence|]. apply P1. apply (sents_sending (map bdata (z :: q))); [discriminate|]. rewrite <- R. exact V5.
          + destruct txb as [|z q]; [cbn in R; congruence|]. apply (gots_waiting (z :: q) lv); [discriminate|congruence|rewrite H; exact I]. }
      specialize (V7 FF DL). rewrite link_waited_snoc, EL. fold lv. rewrite DL, D'. cbn [andb].
      enough (answer_in period (l_pr s) <= answer_in period s' + 1) by lia.
      unfold answer_in. rewrite W, IS. rewrite IS in W. cbn [ist_next is_f] in W. cbn [ist_next is_i].
      unfold ist_fnext in W. set (j := ist_in _ _ _) in *. set (q := is_i (p_i (l_pr s))) in *.
      destruct (is_f (p_i (l_pr s))) eqn:FI; try discriminate.
      + destruct (_ && _) in W; discriminate.
      + destruct (ist_idle _) in W; discriminate.
      + (* the address is offered *) unfold ist_rdy_i in IR. rewrite FI in IR. fold q in IR. destruct IR as [_ [I1 I2]].
        assert (CT : cmd_taken q j = Some (CWrite (p_header (l_pr s)))).
        { unfold cmd_taken, j, ist_in, ist_wr, ist_rd, ist_is, pr_isink. rewrite I1, FI, FF. cbn. reflexivity. }
        destruct (rest_after period stretch oe HP q j (CWrite (p_header (l_pr s))) UP CN FR CT ltac:(discriminate) ltac:(discriminate)) as (R1 & R2 & R3).
        rewrite R1. unfold N. lia.
      + destruct (idle_dec (s_f q)) as [ID|ID].
        * assert (R0 : rest period q = 0) by (unfold rest; rewrite ID; reflexivity). rewrite R0.
          pose proof (rest_nonneg period HP (i2c_next period stretch oe q j)) as RN.
          specialize (RN (upright_step period stretch oe HP q j UP) (counted_step period stretch oe q j CN)). lia.
        * apply (rest_step period stretch oe HP q j UP CN ID).
      + destruct (_ && _) in W; [destruct (is_last _)|]; discriminate.
      + destruct (ist_idle _) in W; discriminate.
  Qed.

  Lemma link_run ins : good_link limit (trace B ins) -> linv (trace B ins) (state B ins).
  Proof using HP.
    apply (run_inv_hyp B (good_link limit) linv).
    - intros t u. apply link_prefix.
    - constructor; cbn; try discriminate; try lia.
      + intros [|? ?] ? ? E; discriminate.
      + exists []. split; reflexivity.
      + exists [], []. do 2 (split; [reflexivity|]; split; [apply Forall_nil|]; split; [apply Nat.le_0_l|]). split; [left; split; reflexivity|]. intros [X|X]; discriminate.
    - intros t s i H1 H2. now apply link_step.
  Qed.
End Bridge.
