(** Lemmas for the SPI host and the SPI link (C117). *)
From Verif Require Import Stream Bits Fifo_model Timer_model Spiclk_model I2cstream_proofs Spistream_model Spistream_props Spimaster_model Spimaster_props Spislave_model Spislave_props Spilink_model Spilink_spec.

(** ** The two cores inside the host *)
Section Host.
  Context (width bw div delay : Z).
  Notation c := (spi_host width bw div delay).
  Notation app := (spi_stream width bw).
  Notation phy := (spi_master width bw div delay).

  Definition app_back (o : ss_obs) : ss_in := SsIn (o_sink (so_tx o)) (o_rready (so_tx o)) (o_sink (so_rx o)) (o_rready (so_rx o)).
  Definition phy_back (o : ms_obs) : ms_in := MsIn (mo_cs o) (mo_sink o) (mo_dq_i o) (o_rready (mo_fifo o)).

  Lemma host_app ins : map ho_app (trace c ins) = trace app (map app_back (map ho_app (trace c ins))) /\
    fst (state c ins) = state app (map app_back (map ho_app (trace c ins))).
  Proof.
    apply (part_trace c app app_back (fun s => fst s) (fun s i => host_app_in width bw div delay (fst s) (snd s) i)); try reflexivity.
    intros s [? ? ? ?]. reflexivity.
  Qed.
  Lemma host_phy ins : map ho_phy (trace c ins) = trace phy (map phy_back (map ho_phy (trace c ins))) /\
    snd (state c ins) = state phy (map phy_back (map ho_phy (trace c ins))).
  Proof.
    apply (part_trace c phy phy_back (fun s => snd s) (fun s i => host_phy_in width bw (fst s) i)); try reflexivity.
    intros s [? ? ? ?]. reflexivity.
  Qed.
  (** The wiring between them. *)
  Lemma host_wires ins : Forall (fun o =>
      mo_cs (ho_phy o) = so_cs (ho_app o) /\
      mo_sink (ho_phy o) = Chan (cvalid (o_src (so_tx (ho_app o)))) (to_mword (cbeat (o_src (so_tx (ho_app o))))) /\
      mo_sready (ho_phy o) = o_rready (so_tx (ho_app o)) /\
      o_src (mo_fifo (ho_phy o)) = o_sink (so_rx (ho_app o)) /\
      o_rready (mo_fifo (ho_phy o)) = o_sready (so_rx (ho_app o))) (trace c ins).
  Proof.
    apply (run_inv c (fun t _ => Forall _ t)); [constructor|]. intros t s i H. apply Forall_app. split; [exact H|]. constructor; [|constructor].
    repeat split.
  Qed.

  (** The words accepted by the PHY are those taken by the SPIStream. *)
  Lemma host_step_words s i : let o := cout c s i in
    (if cvalid (mo_sink (ho_phy o)) && mo_sready (ho_phy o) then [(bdata (cbeat (mo_sink (ho_phy o))), blast (cbeat (mo_sink (ho_phy o))))] else []) =
    map (fun b => (MWord (bdata b) bw true width, blast b)) (xfer (o_sink (so_tx (ho_app o))) (o_sready (so_tx (ho_app o)))).
  Proof.
    intros o.
    assert (E1 : mo_sink (ho_phy o) = Chan (cvalid (hi_sink i) && ss_tx_en (fst s))
       (Beat false (blast (cbeat (hi_sink i))) (MWord (bdata (cbeat (hi_sink i))) bw true width))) by reflexivity.
    assert (E2 : o_sink (so_tx (ho_app o)) = hi_sink i) by reflexivity.
    assert (E3 : o_sready (so_tx (ho_app o)) = ss_dready (fst s) (mo_sready (ho_phy o))) by reflexivity.
    rewrite E1, E2, E3. unfold xfer, ss_dready. cbn [cvalid cbeat bdata blast].
    destruct (cvalid (hi_sink i)), (ss_tx_en (fst s)), (mo_sready (ho_phy o)); reflexivity.
  Qed.
  Lemma host_words ins : words (map ho_phy (trace c ins)) =
    map (fun b => (MWord (bdata b) bw true width, blast b)) (tx_in (map ho_app (trace c ins))).
  Proof.
    apply (run_inv c (fun t _ => words (map ho_phy t) = map (fun b => (MWord (bdata b) bw true width, blast b)) (tx_in (map ho_app t)))); [reflexivity|].
    intros t s i IH. rewrite !(map_app _ t [_]). cbn [map]. rewrite words_snoc, tx_in_snoc, map_app, IH. f_equal. apply host_step_words.
  Qed.
  (** The words delivered by the PHY are those taken by the SPIStream. *)
  Lemma host_echo ins : emitted (map mo_fifo (map ho_phy (trace c ins))) = rx_in (map ho_app (trace c ins)).
  Proof.
    pose proof (host_wires ins) as H. unfold rx_in. induction (trace c ins) as [|o t IH]; [reflexivity|].
    apply Forall_cons_iff in H. destruct H as [(_ & _ & _ & E1 & E2) H]. cbn [map]. unfold emitted, accepted in *. cbn [flat_map]. rewrite (IH H), E1, E2. reflexivity.
  Qed.
  Lemma rx_lasts ins : map blast (rx_out (map ho_app (trace c ins))) = map blast (rx_in (map ho_app (trace c ins))).
  Proof.
    apply (run_inv c (fun t _ => map blast (rx_out (map ho_app t)) = map blast (rx_in (map ho_app t)))); [reflexivity|].
    intros t s i IH. rewrite !(map_app _ t [_]). cbn [map]. unfold rx_in in *. rewrite (map_app so_rx (map ho_app t)), accepted_app. cbn [map]. rewrite accepted_1.
    rewrite rx_out_snoc, !map_app, IH. f_equal. set (o := cout c s i).
    assert (E1 : o_src (so_rx (ho_app o)) = Chan (cvalid (o_sink (so_rx (ho_app o))) && ss_rx_en (fst s)) (Beat false (blast (cbeat (o_sink (so_rx (ho_app o))))) (trunc width (bdata (cbeat (o_sink (so_rx (ho_app o)))))))) by reflexivity.
    assert (E2 : o_sready (so_rx (ho_app o)) = ss_pready (fst s) (o_rready (so_rx (ho_app o)))) by reflexivity.
    rewrite E1, E2. unfold xfer, ss_pready. cbn [cvalid cbeat].
    destruct (cvalid (o_sink (so_rx (ho_app o)))), (ss_rx_en (fst s)), (o_rready (so_rx (ho_app o))); reflexivity.
  Qed.

  Context (Hdiv : 0 <= div < 256) (Hbw : In bw [1; 2; 4; 8]) (Hdw : (bw | width)) (Hw : 0 < width <= 256).
  Lemma host_legal ins : Forall (fun w => legal width bw (fst w)) (words (map ho_phy (trace c ins))).
  Proof.
    rewrite host_words. apply Forall_forall. intros w Hin. apply in_map_iff in Hin. destruct Hin as (b & <- & _).
    unfold legal. cbn [fst mw_width mw_len]. split; [exact Hbw|]. split; [lia|]. split; [exact Hdw|]. lia.
  Qed.
  (** The state of the transfers: the words sent, those answered, those under way. *)
  Lemma host_inv ins : m_inv width bw div (map ho_phy (trace c ins)) (snd (state c ins)).
  Proof.
    destruct (host_phy ins) as [E1 E2].
    pose proof (m_run_inv width bw div delay Hdiv (map phy_back (map ho_phy (trace c ins)))) as X.
    rewrite <- E1, <- E2 in X. apply X. apply host_legal.
  Qed.
  Lemma host_snoc ins i : trace c (ins ++ [i]) = trace c ins ++ [cout c (state c ins) i] /\ state c (ins ++ [i]) = cnext c (state c ins) i.
  Proof. rewrite trace_app. unfold state. rewrite state_from_app. split; reflexivity. Qed.

  (** The PHY answers each word, later, with its last flag. *)
  Lemma answers_lasts ws gs rs : Forall3 answer ws gs rs -> map snd rs = map snd ws.
  Proof. induction 1 as [|w g r l1 l2 l3 [_ H]]; [reflexivity|]. cbn [map]. now rewrite H, IHForall3. Qed.
  Lemma host_received ins i : received (map ho_phy (trace c (ins ++ [i]))) = received (map ho_phy (trace c ins)) ++ late width (snd (state c ins)).
  Proof.
    rewrite (proj1 (host_snoc ins i)), map_app. cbn [map]. rewrite received_snoc. f_equal.
  Qed.
  Lemma host_emitted ins : exists held, received (map ho_phy (trace c ins)) = map (fun b => (bdata b, blast b)) (rx_in (map ho_app (trace c ins))) ++ held.
  Proof.
    destruct (host_phy ins) as [E1 E2].
    pose proof (C59_delivered width bw div delay (map phy_back (map ho_phy (trace c ins))) Hdiv ltac:(lia)) as X.
    cbv zeta in X. rewrite <- E1 in X. destruct (X (host_legal ins)) as (held & E & _). exists held. now rewrite E, host_echo.
  Qed.
  Lemma host_back ins i : exists l, map blast (tx_in (map ho_app (trace c ins))) = map blast (rx_out (map ho_app (trace c (ins ++ [i])))) ++ l.
  Proof.
    destruct (host_inv ins) as (ws & gs & pend & cur & W & _ & _ & FA & _).
    destruct (host_emitted (ins ++ [i])) as [held E]. rewrite host_received in E.
    apply answers_lasts in FA. rewrite E in FA. rewrite map_app, map_map in FA. cbn [snd] in FA.
    rewrite rx_lasts. exists (map snd held ++ map snd (opt pend)). rewrite app_assoc.
    change (fun x : beat Z => blast x) with (@blast Z) in FA. rewrite FA, <- map_app, <- W, host_words, map_map. reflexivity.
  Qed.
  Lemma host_echoes ins : echoes (map ho_app (trace c ins)).
  Proof.
    intros t1 o t2 E. apply map_eq_app in E. destruct E as (u1 & u2 & Eu & <- & E). destruct u2 as [|x u2]; [discriminate|].
    injection E as <- <-. apply trace_one in Eu. destruct Eu as (a & i & b & -> & <- & ->).
    rewrite <- (proj1 (host_snoc a i)) || idtac.
    assert (X : map ho_app (trace c a) ++ [ho_app (cout c (state c a) i)] = map ho_app (trace c (a ++ [i]))) by (rewrite (proj1 (host_snoc a i)), map_app; reflexivity).
    rewrite X. apply host_back.
  Qed.
  Lemma host_ss ins : ss_inv (map ho_app (trace c ins)) (fst (state c ins)).
  Proof.
    destruct (host_app ins) as [E1 E2]. pose proof (ss_run width bw (map app_back (map ho_app (trace c ins)))) as X.
    rewrite <- E1, <- E2 in X. apply X. apply host_echoes.
  Qed.

  (** While a word is outstanding, the PHY is selected. *)
  Lemma host_selected ins : (length (rx_out (map ho_app (trace c ins))) < length (tx_in (map ho_app (trace c ins))))%nat ->
    ms_cs_en width (snd (state c ins)) = true.
  Proof.
    induction ins as [|i ins IH] using rev_ind; [cbn; lia|].
    pose proof (host_ss ins) as SS. destruct (host_snoc ins i) as [E1 E2]. rewrite E1, E2. rewrite map_app. cbn [map]. rewrite rx_out_snoc, tx_in_snoc, !app_length.
    set (s := state c ins) in *. set (o := cout c s i) in *. intros H.
    assert (N : m_tim _ (snd (cnext c s i)) = wt_next (delay + 1) (m_tim _ (snd s)) (match fst s with SsIdle => false | _ => true end)) by reflexivity.
    assert (K : ms_cs_en width (snd s) = true -> fst s <> SsIdle -> ms_cs_en width (snd (cnext c s i)) = true).
    { unfold ms_cs_en. rewrite N. intros D Hs. unfold wt_next. destruct (fst s); [congruence| |]; rewrite D; cbn [negb]; exact D. }
    destruct (Nat.lt_ge_cases (length (rx_out (map ho_app (trace c ins)))) (length (tx_in (map ho_app (trace c ins))))) as [Hlt|Hge].
    - apply K; [now apply IH|]. intros Es. rewrite Es in SS. cbn [ss_inv] in SS. destruct SS as [SS _].
      apply (f_equal (@length bool)) in SS. rewrite !map_length in SS. lia.
    - assert (X : xfer (o_sink (so_tx (ho_app o))) (o_sready (so_tx (ho_app o))) <> []) by (intros X; rewrite X in H; cbn [length] in H; lia).
      assert (X1 : o_sready (so_tx (ho_app o)) = true) by (unfold xfer in X; destruct (o_sready (so_tx (ho_app o))); [reflexivity|rewrite andb_false_r in X; congruence]).
      assert (X2 : o_sready (so_tx (ho_app o)) = ms_load width div (snd s) (host_phy_in width bw (fst s) i) && ss_tx_en (fst s)) by reflexivity.
      rewrite X2 in X1. apply andb_prop in X1. destruct X1 as [X1 X3]. apply K.
      + unfold ms_load, ms_xfr_en in X1. apply andb_prop in X1. destruct X1 as [_ X1]. apply andb_prop in X1. destruct X1 as [X1 _]. apply andb_prop in X1. apply X1.
      + intros Es. rewrite Es in X3. discriminate.
  Qed.
  Lemma host_pending ins ws gs w cur : words (map ho_phy (trace c ins)) = ws ++ [w] ->
    Forall3 answer ws gs (received (map ho_phy (trace c ins)) ++ late width (snd (state c ins))) ->
    phase width bw div (snd (state c ins)) (last_clk (map ho_phy (trace c ins))) (Some w) cur ->
    ms_cs_en width (snd (state c ins)) = true.
  Proof.
    intros W FA _. apply host_selected. destruct (host_emitted ins) as [held E].
    apply answers_lasts in FA. apply (f_equal (@length bool)) in FA. rewrite !map_length, app_length, E, app_length, map_length in FA.
    assert (L : length (tx_in (map ho_app (trace c ins))) = S (length ws)).
    { rewrite host_words in W. apply (f_equal (@length _)) in W. rewrite map_length, app_length in W. cbn [length] in W. lia. }
    assert (R : length (rx_out (map ho_app (trace c ins))) = length (rx_in (map ho_app (trace c ins)))).
    { pose proof (f_equal (@length _) (rx_lasts ins)) as R. now rewrite !map_length in R. }
    lia.
  Qed.

  Notation P ins := (map pins_of (trace c ins)).
  Lemma last_map_clk (t : list host_obs) : p_clk (last (map pins_of t) low) = last_clk (map ho_phy t).
  Proof.
    induction t as [|o t IH] using rev_ind; [reflexivity|]. rewrite !map_app. cbn [map]. now rewrite last_last, last_clk_snoc.
  Qed.
  Context (cpol cpha : bool) (Hm : Bool.eqb cpol cpha = true).
  (** What a slave sampling on rising edges sees, and: when it is not selected, only whole words. *)
  Lemma host_sampled ins :
    sampled cpol cpha low (P ins) = map fst (rises false (map ho_phy (trace c ins))) /\
    (forall i, p_cs_n (pins_of (cout c (state c ins) i)) = true ->
       exists gs, map fst (rises false (map ho_phy (trace c (ins ++ [i])))) = concat (map (fun b => groups (MWord (bdata b) bw true width)) gs) /\
                  gs = tx_in (map ho_app (trace c ins))).
  Proof.
    assert (FW : forall ws (gs : list (list (Z * Z))), Forall2 on_wire ws gs -> map fst (concat gs) = concat (map (fun w => groups (fst w)) ws)).
    { induction 1 as [|w g ws gs H]; [reflexivity|]. cbn [concat map]. now rewrite map_app, IHForall2, H. }
    assert (NR : forall a i, let o := cout c (state c a) i in
      (negb (last_clk (map ho_phy (trace c a))) && mo_clk (ho_phy o) = true -> p_cs_n (pins_of o) = false) /\
      (p_cs_n (pins_of o) = true -> negb (last_clk (map ho_phy (trace c a))) && mo_clk (ho_phy o) = false /\
         exists ws gs, words (map ho_phy (trace c a)) = ws /\ rises false (map ho_phy (trace c a)) = concat gs /\ Forall2 on_wire ws gs)).
    { intros a i o. destruct (host_inv a) as (ws & gs & pend & cur & W & R & F & FA & PH & _).
      assert (C : mo_clk (ho_phy o) = ck_clk (m_ck _ (snd (state c a)))) by reflexivity.
      assert (N : p_cs_n (pins_of o) = negb (ms_cs_en width (snd (state c a)))) by reflexivity.
      destruct pend as [w|].
      - rewrite (host_pending a ws gs w cur W FA PH) in N. rewrite N. split; [reflexivity|discriminate].
      - assert (X : negb (last_clk (map ho_phy (trace c a))) && mo_clk (ho_phy o) = false /\ cur = []).
        { rewrite C. inversion PH as [p Hr Hc| | | |cnt Hr Hc Hcnt Ho]; subst.
          - rewrite Hc. cbn [ck_clk]. rewrite andb_false_r. auto.
          - auto. }
        destruct X as [X ->]. rewrite X. split; [discriminate|]. intros _. split; [reflexivity|]. exists ws, gs.
        rewrite W, R. cbn [opt]. rewrite !app_nil_r. auto. }
    induction ins as [|i ins [IH _]] using rev_ind.
    - split; [reflexivity|]. intros i Hc. exists []. split; [|reflexivity]. destruct (NR [] i) as [_ N]. destruct (N Hc) as (N1 & _).
      rewrite (proj1 (host_snoc [] i)), map_app. cbn [map]. rewrite rises_snoc. fold (last_clk (map ho_phy (trace c []))). rewrite N1. reflexivity.
    - split.
      + rewrite (proj1 (host_snoc ins i)), !map_app. cbn [map]. rewrite sampled_snoc, rises_snoc, IH, map_app. f_equal.
        fold (last_clk (map ho_phy (trace c ins))). destruct (NR ins i) as [N _]. unfold sample_edge. rewrite Hm, last_map_clk.
        change (p_clk (pins_of (cout c (state c ins) i))) with (mo_clk (ho_phy (cout c (state c ins) i))).
        destruct (negb (last_clk (map ho_phy (trace c ins))) && mo_clk (ho_phy (cout c (state c ins) i))) eqn:E; [|now rewrite andb_false_r].
        rewrite (N eq_refl). reflexivity.
      + intros j Hc. destruct (NR (ins ++ [i]) j) as [_ N]. destruct (N Hc) as (N1 & ws & gs & W & R & F).
        eexists. split; [|reflexivity].
        rewrite (proj1 (host_snoc (ins ++ [i]) j)), map_app. cbn [map]. rewrite rises_snoc. fold (last_clk (map ho_phy (trace c (ins ++ [i])))). rewrite N1, app_nil_r, R.
        rewrite (FW ws gs F), <- W, host_words, map_map. reflexivity.
  Qed.
End Host.

(** ** The pins as seen by the slave *)
Lemma pins_eqb_eq p q : pins_eqb p q = true -> p = q.
Proof.
  destruct p, q. unfold pins_eqb. cbn. intros H. apply andb_prop in H. destruct H as [H H3]. apply andb_prop in H. destruct H as [H1 H2].
  apply Bool.eqb_prop in H1, H2. apply Z.eqb_eq in H3. now subst.
Qed.
Lemma changes_last p l : last (changes p l) p = last l p.
Proof.
  assert (D : forall (x p q : pins) l, last (x :: l) p = last (x :: l) q) by (intros; apply last_dflt).
  assert (C : forall (x p : pins) l, last (x :: l) p = last l x) by (intros x p' [|y l']; [reflexivity|]; change (last (x :: y :: l') p') with (last (y :: l') p'); apply D).
  revert p. induction l as [|q l IH]; intros p; [reflexivity|]. cbn [changes]. rewrite C.
  destruct (pins_eqb p q) eqn:E; [apply pins_eqb_eq in E; subst; apply IH|]. rewrite C. apply IH.
Qed.
Lemma changes_app p a b : changes p (a ++ b) = changes p a ++ changes (last a p) b.
Proof.
  revert p. induction a as [|q a IH]; intros p; [reflexivity|]. cbn [app changes].
  assert (C : last (q :: a) p = last a q) by (destruct a as [|y l']; [reflexivity|]; change (last (q :: y :: l') p) with (last (y :: l') p); apply last_dflt).
  rewrite C. destruct (pins_eqb p q) eqn:E; [apply pins_eqb_eq in E; subst; apply IH|]. cbn [app]. now rewrite IH.
Qed.
Lemma changes_cut p l c d : changes p l = c ++ d -> exists a b, l = a ++ b /\ changes p a = c.
Proof.
  revert p c. induction l as [|q l IH]; intros p c E; cbn [changes] in E.
  - destruct c; [|discriminate]. exists [], []. auto.
  - destruct c as [|x c]; [exists [], (q :: l); auto|].
    destruct (pins_eqb p q) eqn:Q.
    + destruct (IH p (x :: c) E) as (a & b & -> & Ha). exists (q :: a), b. split; [reflexivity|]. cbn [changes]. now rewrite Q.
    + cbn [app] in E. injection E as -> E. destruct (IH x c E) as (a & b & -> & Ha). exists (x :: a), b. split; [reflexivity|]. cbn [changes]. now rewrite Q, Ha.
Qed.
Lemma sampled_changes cpol cpha p l : sampled cpol cpha p l = sampled cpol cpha p (changes p l).
Proof.
  revert p. induction l as [|q l IH]; intros p; [reflexivity|]. cbn [changes]. destruct (pins_eqb p q) eqn:E.
  - apply pins_eqb_eq in E. subst. cbn [sampled]. rewrite <- IH.
    assert (X : sample_edge cpol cpha q q = false) by (unfold sample_edge; destruct (Bool.eqb cpol cpha), (p_clk q), (p_cs_n q); reflexivity). now rewrite X.
  - cbn [sampled]. now rewrite IH.
Qed.

(** Whenever the slave is not selected, a multiple of [n] values have been sampled. *)
Definition framed (cpol cpha : bool) (n : nat) (l : list pins) : Prop :=
  forall a b, l = a ++ b -> p_cs_n (last a low) = true -> Nat.divide n (length (sampled cpol cpha low a)).
Lemma framed_changes cpol cpha n l m r : framed cpol cpha n l -> changes low l = changes low m ++ r -> framed cpol cpha n m.
Proof.
  intros F E a b -> Hc. rewrite changes_app, <- app_assoc in E. destruct (changes_cut _ _ _ _ E) as (a' & b' & -> & E').
  rewrite sampled_changes, <- E', <- sampled_changes. apply (F a' b' eq_refl). now rewrite <- changes_last, E', changes_last.
Qed.
Lemma sampled_app cpol cpha p a b : sampled cpol cpha p (a ++ b) = sampled cpol cpha p a ++ sampled cpol cpha (last a p) b.
Proof.
  revert p. induction a as [|q a IH]; intros p; [reflexivity|]. cbn [app sampled]. rewrite IH, app_assoc. f_equal. f_equal.
  destruct a as [|y l']; [reflexivity|]. change (last (q :: y :: l') p) with (last (y :: l') p). apply last_dflt.
Qed.

(** ** The slave cuts its words where the host did *)
Section Slave.
  Context (cpol cpha : bool) (width bw : Z) (with_len : bool) (n : nat).
  Context (Hbw : 0 < bw) (Hw : 0 < width) (Hn : width = bw * Z.of_nat n).
  Notation c := (spi_slave cpol cpha width bw with_len [width]).
  Lemma slave_ok : stages_ok width bw [width].
  Proof. split; [exact Hbw|]. split; [discriminate|]. repeat constructor; try lia. exists (Z.of_nat n). lia. Qed.
  Lemma slave_snoc ins i : trace c (ins ++ [i]) = trace c ins ++ [cout c (state c ins) i] /\ state c (ins ++ [i]) = cnext c (state c ins) i.
  Proof. rewrite trace_app. unfold state. rewrite state_from_app. split; reflexivity. Qed.
  Lemma looked_prefix t u : exists r, looked_at (t ++ u) = looked_at t ++ r.
  Proof.
    unfold looked_at. rewrite app_length, map_app.
    exists (skipn (length t) (firstn (length t + length u) (low :: low :: map so_pins t ++ map so_pins u))).
    rewrite <- (firstn_skipn (length t) (firstn (length t + length u) _)) at 1. f_equal.
    rewrite firstn_firstn. replace (Nat.min (length t) (length t + length u)) with (length t) by lia.
    change (low :: low :: map so_pins t ++ map so_pins u) with ((low :: low :: map so_pins t) ++ map so_pins u).
    rewrite firstn_app. cbn [length]. rewrite map_length. replace (length t - S (S (length t)))%nat with 0%nat by lia.
    now rewrite firstn_O, app_nil_r.
  Qed.
  Lemma full_chunks (chs : list (list Z)) (ws : list (Z * Z * bool)) :
    Forall2 (fun ds w => snd (fst w) = bw * Z.of_nat (length ds) /\ fst (fst w) mod 2 ^ (snd (fst w)) = value bw ds) chs ws ->
    Forall (fun w => snd (fst w) = width) ws -> Forall (fun ds => length ds = n) chs.
  Proof.
    induction 1 as [|ds w chs ws [H1 _] H IH]; intros F; constructor; apply Forall_cons_iff in F; destruct F as [F1 F2]; [nia|auto].
  Qed.
  Lemma concat_len (chs : list (list Z)) : Forall (fun ds => length ds = n) chs -> length (concat chs) = (n * length chs)%nat.
  Proof. induction 1 as [|ds chs H F IH]; cbn [concat length]; [lia|]. rewrite app_length. nia. Qed.
  Lemma slave_full ins : dq_ok bw (trace c ins) -> framed cpol cpha n (looked_at (trace c ins)) ->
    Forall (fun w => snd (fst w) = width) (pushes (trace c ins)).
  Proof.
    induction ins as [|i ins IH] using rev_ind; [constructor|]. intros Hd Hf.
    destruct (C55_received cpol cpha width bw with_len [width] (ins ++ [i]) slave_ok Hd) as (chs & pend & S & F & G & _ & E).
    destruct (slave_snoc ins i) as [T _]. set (s := state c ins) in *. rewrite T in *.
    destruct (looked_prefix (trace c ins) [cout c s i]) as [r L].
    assert (Hd' : dq_ok bw (trace c ins)) by (unfold dq_ok in *; apply Forall_app in Hd; apply Hd).
    assert (IH' := IH Hd' ltac:(intros a b Eq; apply (Hf a (b ++ r)); now rewrite L, Eq, app_assoc)). clear IH.
    rewrite pushes_snoc in *. apply Forall_app. split; [exact IH'|].
    destruct (so_push (cout c s i)) as [[[d len] e]|] eqn:PU; [|constructor]. constructor; [|constructor]. cbn [fst snd].
    apply staged_snoc in G. destruct G as [_ G]. cbn [staged] in G. destruct G as (G1 & G2 & _).
    assert (Hs : forall k, nth k [width] 0 <= width) by (intros [|[|k]]; cbn [nth]; lia).
    specialize (Hs (stage_after (length [width]) 0 (pushes (trace c ins)))).
    assert (Hk : stage_after (length [width]) 0 (pushes (trace c ins)) = 0%nat).
    { assert (X : forall k ws, (k = 0)%nat -> stage_after 1 k ws = 0%nat).
      { intros k ws. revert k. induction ws as [|[[? ?] []] ws IHw]; intros k ->; cbn [stage_after]; auto. }
      apply X. reflexivity. }
    rewrite Hk in *. cbn [nth] in *. destruct e; [|apply G2; reflexivity].
    (* the word was ended by chip select *)
    assert (HC : p_cs_n (last (looked_at (trace c ins ++ [cout c s i])) low) = true).
    { destruct (sl_run cpol cpha width bw with_len [width] Hbw ltac:(discriminate) (proj2 (proj2 slave_ok)) ins Hd') as (E1 & _).
      fold s in E1. destruct (looked_snoc (trace c ins) (cout c s i) _ _ E1) as [E2 _]. rewrite E2, last_last.
      assert (Q : so_push (cout c s i) = if sl_pushing cpol cpha width with_len [width] s then Some (l_reg _ _ s, l_cnt _ _ s, sl_end _ _ s) else None) by reflexivity.
      rewrite Q in PU. destruct (sl_pushing _ _ _ _ _ s); [|discriminate]. injection PU as _ _ PU. unfold sl_end, sl_en in PU.
      apply andb_prop in PU. destruct PU as [_ PU]. now rewrite negb_involutive in PU. }
    specialize (E HC). subst pend. rewrite app_nil_r in S.
    destruct (Hf _ [] (eq_sym (app_nil_r _)) HC) as [q Hq]. rewrite S in Hq.
    apply Forall2_app_inv_r in F. destruct F as (c1 & c2 & F1 & F2 & ->).
    rewrite concat_app, app_length, (concat_len c1 (full_chunks _ _ F1 IH')) in Hq.
    destruct c2 as [|x c2]; [inversion F2|]. assert (X1 : len = bw * Z.of_nat (length x) /\ Forall2 (fun ds w => snd (fst w) = bw * Z.of_nat (length ds) /\ fst (fst w) mod 2 ^ (snd (fst w)) = value bw ds) c2 []) by (inversion F2 as [|? ? ? ? Hx Hy]; split; [exact (proj1 Hx)|exact Hy]).
    destruct X1 as [X1 F3]. destruct c2; [|inversion F3]. cbn [concat fst snd] in *. rewrite app_nil_r in Hq.
    assert (0 < Z.of_nat (length x)) by nia. assert (Z.of_nat (length x) <= Z.of_nat n) by nia.
    assert (length x = n).
    { apply (f_equal Z.of_nat) in Hq. rewrite Nat2Z.inj_add, !Nat2Z.inj_mul in Hq. set (K := Z.of_nat (length c1)) in *. set (Q := Z.of_nat q) in *. set (N := Z.of_nat n) in *. set (X := Z.of_nat (length x)) in *.
      assert ((Q - K) * N = X) by lia. assert (1 <= Q - K) by nia. assert (N <= X) by nia. lia. }
    rewrite X1, H1, Hn. reflexivity.
  Qed.
End Slave.

(** ** Words and groups *)
Lemma groups_len width bw d : 0 < bw -> length (groups (MWord d bw true width)) = Z.to_nat (width / bw).
Proof. intros. unfold groups. cbn [mw_width mw_len mw_data]. now rewrite map_length, seq_length. Qed.
Lemma value_groups width bw d n : 0 < bw -> width = bw * Z.of_nat n -> value bw (groups (MWord d bw true width)) = d mod 2 ^ width.
Proof.
  intros Hb ->. unfold groups. cbn [mw_width mw_len mw_data]. rewrite Z.mul_comm, Z.div_mul, Nat2Z.id by lia.
  assert (G : forall k, (k <= n)%nat -> value bw (map (fun j => Z.shiftr d (Z.of_nat n * bw - bw * (Z.of_nat j + 1)) mod 2 ^ bw) (seq 0 k)) =
     Z.shiftr d (bw * (Z.of_nat n - Z.of_nat k)) mod 2 ^ (bw * Z.of_nat k)).
  { induction k as [|k IH]; intros Hk; [rewrite Z.mul_0_r, Z.mod_1_r; reflexivity|].
    rewrite seq_S, map_app. cbn [map]. rewrite value_snoc, IH by lia. rewrite Nat.add_0_l. replace (Z.of_nat (S k)) with (Z.of_nat k + 1) by lia.
    set (K := Z.of_nat k). set (N := Z.of_nat n). assert (K + 1 <= N) by lia. assert (0 <= K) by lia.
    set (x := Z.shiftr d (bw * (N - (K + 1)))).
    assert (E1 : Z.shiftr d (bw * (N - K)) = x / 2 ^ bw).
    { unfold x. rewrite <- Z.shiftr_div_pow2, Z.shiftr_shiftr by nia. f_equal. lia. }
    assert (E2 : Z.shiftr d (N * bw - bw * (K + 1)) = x) by (unfold x; f_equal; lia).
    rewrite E1, E2. replace (bw * (K + 1)) with (bw + bw * K) by lia. rewrite Z.pow_add_r by nia.
    rewrite Z.rem_mul_r; [lia|apply Z.pow_nonzero; lia|apply Z.pow_pos_nonneg; nia]. }
  specialize (G n ltac:(lia)). replace (bw * (Z.of_nat n - Z.of_nat n)) with 0 in G by lia. rewrite Z.shiftr_0_r in G.
  rewrite (Z.mul_comm bw (Z.of_nat n)) in G. exact G.
Qed.
Lemma concat_prefix {A} (n : nat) (xs ys : list (list A)) r : (0 < n)%nat ->
  Forall (fun x => length x = n) xs -> Forall (fun y => length y = n) ys -> concat xs = concat ys ++ r -> exists zs, xs = ys ++ zs.
Proof.
  intros Hn. revert xs. induction ys as [|y ys IH]; intros xs Fx Fy E; [now exists xs|].
  apply Forall_cons_iff in Fy. destruct Fy as [Ly Fy]. destruct xs as [|x xs].
  - apply (f_equal (@length A)) in E. cbn [concat] in E. rewrite !app_length in E. cbn [length] in E. lia.
  - apply Forall_cons_iff in Fx. destruct Fx as [Lx Fx]. cbn [concat] in E. rewrite <- app_assoc in E.
    destruct (prefix_split _ _ _ _ E ltac:(lia)) as (e & Ey & E').
    assert (e = []) by (apply (f_equal (@length A)) in Ey; rewrite app_length in Ey; destruct e; [reflexivity|cbn [length] in Ey; lia]). subst e.
    rewrite app_nil_r in Ey. cbn [app] in E'. subst y. destruct (IH xs Fx Fy E') as [zs ->]. exists zs. reflexivity.
Qed.
