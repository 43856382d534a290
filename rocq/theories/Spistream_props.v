(** SPIStream: C60. *)
From Verif Require Import Stream Spistream_model.

(** Words transferred on the four streams. *)
Definition tx_in (t : list ss_obs) : list (beat Z) := accepted (map so_tx t).
Definition tx_out (t : list ss_obs) : list (beat phy_word) := emitted (map so_tx t).
Definition rx_in (t : list ss_obs) : list (beat Z) := accepted (map so_rx t).
Definition rx_out (t : list ss_obs) : list (beat Z) := emitted (map so_rx t).

Lemma tx_in_snoc t o : tx_in (t ++ [o]) = tx_in t ++ xfer (o_sink (so_tx o)) (o_sready (so_tx o)).
Proof. unfold tx_in. rewrite map_app, accepted_app. cbn [map]. now rewrite accepted_1. Qed.
Lemma rx_out_snoc t o : rx_out (t ++ [o]) = rx_out t ++ xfer (o_src (so_rx o)) (o_rready (so_rx o)).
Proof. unfold rx_out. rewrite map_app, emitted_app. cbn [map]. now rewrite emitted_1. Qed.

(** Every word passes unchanged, in order, without delay, both ways. *)
Theorem C60_words : forall width bw ins, 0 < width ->
  let t := trace (spi_stream width bw) ins in
  Forall (fun b => 0 <= bdata b < 2 ^ width) (rx_in t) ->
  tx_out t = map (fun b => Beat false (blast b) (PhyWord (bdata b) bw true width)) (tx_in t) /\
  rx_out t = map (fun b => Beat false (blast b) (bdata b)) (rx_in t).
Proof.
  intros width bw ins Hw t. unfold t. clear t. unfold tx_out, tx_in, rx_out, rx_in, trace.
  generalize (creset (spi_stream width bw)). induction ins as [|i ins IH]; intros s H; [split; reflexivity|].
  cbn [trace_from map] in *. set (l := map so_tx _) in *. set (m := map so_rx _) in *.
  unfold accepted, emitted in *. cbn [flat_map] in *. fold (@accepted Z phy_word) (@accepted Z Z) (@emitted Z phy_word) (@emitted Z Z) in *.
  rewrite !map_app. apply Forall_app in H. destruct H as [H1 H2]. destruct (IH _ H2) as [I1 I2]. unfold l, m. rewrite I1, I2.
  cbn [spi_stream cout so_tx so_rx o_sink o_sready o_src o_rready] in *. unfold xfer in *. cbn [cvalid cbeat] in *.
  unfold ss_dready, ss_pready in *. split; f_equal.
  - destruct (cvalid (si_dsink i)), (si_pready i), (ss_tx_en s); reflexivity.
  - destruct (cvalid (si_psink i)), (si_dready i), (ss_rx_en s); try reflexivity. cbn [andb map] in *.
    apply Forall_cons_iff in H1. destruct H1 as [H1 _]. now rewrite trunc_small.
Qed.

(** cs is high in every cycle with a transfer, in either direction. *)
Theorem C60_cs_transfers : forall width bw ins o, In o (trace (spi_stream width bw) ins) ->
  xfer (o_src (so_tx o)) (o_rready (so_tx o)) <> [] \/ xfer (o_sink (so_rx o)) (o_sready (so_rx o)) <> [] ->
  so_cs o = true.
Proof.
  intros width bw ins o Ho. apply in_split in Ho. destruct Ho as (t1 & t2 & E). apply trace_one in E.
  destruct E as (a & i & b & -> & _ & ->). cbn [spi_stream cout so_tx so_rx so_cs o_src o_rready o_sink o_sready].
  fold (spi_stream width bw). destruct (state (spi_stream width bw) a); [|reflexivity|reflexivity].
  unfold xfer, ss_pready. cbn. rewrite !andb_false_r. intros [H|H]; now contradict H.
Qed.

(** The PHY gives one word back for each word it was sent, later, with its last
    flag (as the SPI master does, C59). *)
Definition echoes (t : list ss_obs) : Prop :=
  forall t1 o t2, t = t1 ++ o :: t2 -> exists l, map blast (tx_in t1) = map blast (rx_out (t1 ++ [o])) ++ l.

Definition all_false (l : list bool) : Prop := Forall (fun b => b = false) l.
Definition ss_inv (t : list ss_obs) (s : ss_state) : Prop :=
  let S := map blast (tx_in t) in let R := map blast (rx_out t) in
  match s with
  | SsIdle => S = R /\ (S = [] \/ exists S', S = S' ++ [true])
  | SsTxRx => exists S0 a l, S = S0 ++ a /\ all_false a /\ S = R ++ l /\ (length S0 <= length R)%nat
  | SsRx => exists S0 a l, S = S0 ++ a ++ [true] /\ all_false a /\ S = R ++ l /\ (length S0 <= length R)%nat /\ l <> []
  end.

Lemma prefix_split {A} (a b c d : list A) : a ++ b = c ++ d -> (length a <= length c)%nat -> exists e, c = a ++ e /\ b = e ++ d.
Proof.
  revert c. induction a as [|x a IH]; intros [|y c]; cbn [app length]; intros E H; try (now exists []); try lia.
  - exists (y :: c). auto.
  - injection E as -> E. destruct (IH c E ltac:(lia)) as (e & -> & ->). exists e. auto.
Qed.

Lemma ss_run width bw ins : echoes (trace (spi_stream width bw) ins) ->
  ss_inv (trace (spi_stream width bw) ins) (state (spi_stream width bw) ins).
Proof.
  revert ins. apply (run_inv_hyp (spi_stream width bw) echoes ss_inv).
  - intros t u H t1 o t2 E. subst t. apply (H t1 o (t2 ++ u)). now rewrite <- app_assoc.
  - cbn. auto.
  - intros t s i He IH. set (o := cout (spi_stream width bw) s i) in *.
    assert (O1 : o_sink (so_tx o) = si_dsink i) by reflexivity.
    assert (O2 : o_sready (so_tx o) = ss_dready s (si_pready i)) by reflexivity.
    assert (O3 : o_src (so_rx o) = Chan (cvalid (si_psink i) && ss_rx_en s) (Beat false (blast (cbeat (si_psink i))) (trunc width (bdata (cbeat (si_psink i)))))) by reflexivity.
    assert (O4 : o_rready (so_rx o) = si_dready i) by reflexivity.
    destruct (He t o [] eq_refl) as [l0 L]. clearbody o. clear He. unfold ss_inv in *.
    rewrite rx_out_snoc in L. rewrite tx_in_snoc, rx_out_snoc. rewrite O1, O2, O3, O4 in *. clear O1 O2 O3 O4. rewrite !map_app in *.
    set (S := map blast (tx_in t)) in *. set (R := map blast (rx_out t)) in *. clearbody S R.
    unfold xfer, ss_dready in *. cbn [cnext spi_stream cvalid cbeat] in *. unfold ss_dready, ss_pready.
    destruct s; cbn [ss_tx_en ss_rx_en] in *; rewrite ?andb_false_r, ?andb_true_r in *; cbn [andb map] in *; rewrite ?app_nil_r in *.
    + destruct IH as [-> Hp]. clear L. destruct (cvalid (si_dsink i)).
      * exists R, [], []. rewrite !app_nil_r. repeat split; auto. constructor.
      * auto.
    + destruct IH as (S0 & a & l & Es & Ha & El & Hl).
      set (g := map blast (if cvalid (si_psink i) && si_dready i then _ else [])) in *. clearbody g.
      assert (Hl' : (length S0 <= length (R ++ g))%nat) by (rewrite app_length; lia).
      destruct (cvalid (si_dsink i) && si_pready i) eqn:Ed; cbn [andb map].
      * destruct (blast (cbeat (si_dsink i))) eqn:Eb.
        -- exists S0, a, (l0 ++ [true]). split; [now rewrite Es, <- app_assoc|]. split; [assumption|].
           split; [now rewrite app_assoc, <- L|]. split; [assumption|]. destruct l0; discriminate.
        -- exists S0, (a ++ [false]), (l0 ++ [false]). split; [now rewrite Es, <- app_assoc|]. split; [apply Forall_app; split; [assumption|repeat constructor]|].
           split; [now rewrite app_assoc, <- L|assumption].
      * exists S0, a, l0. rewrite app_nil_r. auto.
    + destruct IH as (S0 & a & l & Es & Ha & El & Hl & Hne).
      destruct (cvalid (si_psink i) && si_dready i) eqn:Er; cbn [andb map] in *.
      * destruct (blast (cbeat (si_psink i))) eqn:Eb; cbn [blast] in *.
        -- assert (l0 = []) as ->.
           { destruct (list_eq_dec Bool.bool_dec l0 []) as [|Hn]; [assumption|]. exfalso.
             destruct (exists_last Hn) as (l1 & b & ->).
             assert (X : S0 ++ a = R ++ [true] ++ l1).
             { rewrite L, !app_assoc in Es. apply app_inj_tail in Es. destruct Es as [Es _]. now rewrite <- Es, <- app_assoc. }
             destruct (prefix_split _ _ _ _ X Hl) as (e & -> & ->). apply Forall_app in Ha. destruct Ha as [_ Ha].
             apply Forall_app in Ha. destruct Ha as [Ha _]. inversion Ha; discriminate. }
           rewrite app_nil_r in L. split; [exact L|]. right. eauto.
        -- exists S0, a, l0. do 2 (split; [assumption|]). split; [assumption|]. split; [rewrite app_length; lia|].
           intros ->. rewrite app_nil_r in L. rewrite L, app_assoc in Es. apply app_inj_tail in Es. destruct Es; discriminate.
      * exists S0, a, l. rewrite app_nil_r. auto.
Qed.

(** Whenever cs is low, every word sent has come back and been delivered, and the
    last packet was complete: cs covers whole packets. *)
Theorem C60_cs_low : forall width bw ins t1 o t2,
  trace (spi_stream width bw) ins = t1 ++ o :: t2 -> echoes t1 -> so_cs o = false ->
  map blast (rx_out t1) = map blast (tx_in t1) /\
  (tx_in t1 = [] \/ exists ws w, tx_in t1 = ws ++ [w] /\ blast w = true).
Proof.
  intros width bw ins t1 o t2 E He Hc. apply trace_one in E. destruct E as (a & i & b & -> & <- & ->).
  pose proof (ss_run width bw a He) as H. cbn [spi_stream cout so_cs] in Hc. fold (spi_stream width bw) in Hc.
  destruct (state (spi_stream width bw) a); try discriminate. destruct H as [H1 H2]. split; [auto|].
  destruct H2 as [H2|[S' H2]].
  - left. now apply map_eq_nil in H2.
  - right. apply map_eq_app in H2. destruct H2 as (ws & l & E & _ & El). apply map_eq_cons in El. destruct El as (w & l' & -> & Hw & El).
    apply map_eq_nil in El. subst l'. exists ws, w. auto.
Qed.

(** The first word of a packet is not passed on before everything of the earlier
    packets has been delivered. *)
Theorem C60_packets_apart : forall width bw ins t1 o t2,
  trace (spi_stream width bw) ins = t1 ++ o :: t2 -> echoes t1 ->
  (tx_in t1 = [] \/ exists ws w, tx_in t1 = ws ++ [w] /\ blast w = true) ->
  cvalid (o_src (so_tx o)) = true ->
  map blast (rx_out t1) = map blast (tx_in t1).
Proof.
  intros width bw ins t1 o t2 E He Hb Hv. apply trace_one in E. destruct E as (a & i & b & -> & <- & ->).
  pose proof (ss_run width bw a He) as H. cbn [spi_stream cout so_tx o_src cvalid] in Hv. fold (spi_stream width bw) in Hv.
  apply andb_prop in Hv. destruct Hv as [_ Hv]. destruct (state (spi_stream width bw) a); try discriminate.
  destruct H as (S0 & f & l & Es & Hf & El & Hl).
  assert (f = []) as ->.
  { destruct Hb as [Hb|(ws & w & Hb & Hw)]; rewrite Hb in Es.
    - destruct S0; [|discriminate]. destruct f; [reflexivity|discriminate].
    - destruct (list_eq_dec Bool.bool_dec f []) as [|Hn]; [assumption|]. exfalso. destruct (exists_last Hn) as (f' & x & ->).
      rewrite map_app, app_assoc in Es. apply app_inj_tail in Es. destruct Es as [_ Es]. apply Forall_app in Hf. destruct Hf as [_ Hf].
      inversion Hf; subst. congruence. }
  rewrite app_nil_r in Es. rewrite El in Es. subst S0. rewrite app_length in Hl. destruct l; [now rewrite app_nil_r in El|cbn in Hl; lia].
Qed.

(** A waiting word raises cs in the next cycle, and cs only falls after the last
    received word of a packet. *)
Theorem C60_cs_edges : forall width bw ins t1 o o' t2,
  trace (spi_stream width bw) ins = t1 ++ o :: o' :: t2 ->
  (so_cs o = false -> so_cs o' = cvalid (o_sink (so_tx o))) /\
  (so_cs o = true -> so_cs o' = false ->
   exists b, xfer (o_src (so_rx o)) (o_rready (so_rx o)) = [b] /\ blast b = true).
Proof.
  intros width bw ins t1 o o' t2 E. apply trace_two in E. destruct E as (a & i & i' & b & -> & _ & -> & ->).
  cbn [spi_stream cout cnext so_cs so_tx so_rx o_sink o_src o_rready]. fold (spi_stream width bw).
  destruct (state (spi_stream width bw) a); split; try discriminate; intros _.
  - now destruct (cvalid (si_dsink i)).
  - now destruct (_ && _).
  - unfold ss_pready, xfer. cbn [ss_rx_en cvalid cbeat]. rewrite !andb_true_r.
    destruct (cvalid (si_psink i) && si_dready i) eqn:Er; cbn [andb]; [|discriminate].
    destruct (blast (cbeat (si_psink i))) eqn:Eb; [|discriminate]. intros _. eexists. split; [reflexivity|]. reflexivity.
Qed.

(** A packet of two words echoed by the PHY, then cs falls. *)
Definition ss_run_ex : list ss_in :=
  let n := Chan false (Beat false false 0) in
  let a := Chan true (Beat true false 5) in let b := Chan true (Beat false true 6) in
  let x := Chan true (Beat false false 7) in let y := Chan true (Beat false true 8) in
  [SsIn a true n true; SsIn a true n true; SsIn b false x true; SsIn b true n true; SsIn n true y false; SsIn n true y true; SsIn n true n true].
Example C60_nonvacuous :
  let t := trace (spi_stream 8 1) ss_run_ex in
  map so_cs t = [false; true; true; true; true; true; false] /\ echoes t /\ length (rx_out t) = 2%nat.
Proof.
  split; [reflexivity|]. split; [|reflexivity].
  intros t1 o t2 E. assert (L := f_equal (@length _) E). rewrite app_length in L. cbn [length] in L.
  change (length (trace (spi_stream 8 1) ss_run_ex)) with 7%nat in L.
  assert (E1 : t1 ++ [o] = firstn (S (length t1)) (trace (spi_stream 8 1) ss_run_ex)).
  { rewrite E. change (t1 ++ o :: t2) with (t1 ++ [o] ++ t2). rewrite app_assoc, firstn_app.
    rewrite app_length, Nat.add_1_r, Nat.sub_diag, firstn_O, app_nil_r, firstn_all2; [reflexivity|rewrite app_length; cbn; lia]. }
  assert (E2 : t1 = firstn (length t1) (trace (spi_stream 8 1) ss_run_ex)).
  { rewrite E, firstn_app, Nat.sub_diag, firstn_O, app_nil_r, firstn_all. reflexivity. }
  rewrite E1. rewrite E2. rewrite firstn_length. change (length (trace (spi_stream 8 1) ss_run_ex)) with 7%nat.
  clear E E1 E2 o. assert (Hn : (length t1 <= 6)%nat) by lia. clear L t2. set (n := length t1) in *. clearbody n.
  do 7 (destruct n as [|n]; [cbn; eexists; reflexivity|]). lia.
Qed.

Print Assumptions C60_words.
Print Assumptions C60_cs_transfers.
Print Assumptions C60_cs_low.
Print Assumptions C60_packets_apart.
Print Assumptions C60_cs_edges.
