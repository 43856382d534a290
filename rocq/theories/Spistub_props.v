(** C170: an SPI master whose data pins are connected to themselves. *)
From Verif Require Import Stream Bits Timer_model Spiclk_model I2cstream_proofs Spistream_model Spistream_props Spimaster_model Spimaster_props Spislave_model Spislave_props Spilink_model Spilink_spec Spilink_proofs Spilink_props Spixchg_props Spilive_props Spistub_model.

(** A word and its last flag. *)
Definition content (b : beat Z) : Z * bool := (bdata b, blast b).
Definition cut (width : Z) (b : beat Z) : Z * bool := (bdata b mod 2 ^ width, blast b).

Section Stub.
  Context (width bw div delay : Z) (Hdiv : 0 <= div < 256) (Hbw : In bw [1; 2; 4; 8]) (Hdw : (bw | width)) (Hwd : 0 < width <= 256).
  Notation c := (spi_stub_loop width bw div delay).
  Notation host := (spi_host width bw div delay).
  Definition hback (o : host_obs) : host_in := HostIn (o_sink (so_tx (ho_app o))) (mo_dq_i (ho_phy o)) (o_rready (so_rx (ho_app o))).
  Lemma stub_host ins : trace c ins = trace host (map hback (trace c ins)) /\ state c ins = state host (map hback (trace c ins)).
  Proof.
    pose proof (part_trace c host hback (fun s => s) (fun s i => stub_in width bw div delay s i) (fun o => o)) as P.
    rewrite <- (map_id (trace c ins)) at 1. rewrite <- (map_id (trace c ins)) at 2 3. apply P; try reflexivity. intros s [? ? ?]. reflexivity.
  Qed.
  (** The lines the master reads at a rising edge of its clock are those it drives. *)
  Lemma stub_oe ins : (words (map ho_phy (trace host ins)) <> []) -> m_oe width (snd (state host ins)) = true.
  Proof.
    intros N. destruct (host_phy width bw div delay ins) as [E1 E2].
    rewrite (host_words width bw div delay) in N.
    assert (O : m_oe width (snd (state host ins)) = fold_left (fun _ w => mw_oe (fst w)) (words (map ho_phy (trace host ins))) false).
    { remember (map phy_back (map ho_phy (trace host ins))) as p eqn:Ep. clear Ep. rewrite E2, E1.
      pose proof (C114_output_enable width bw div delay (p ++ [MsIn false (Chan false (Beat false false (MWord 0 0 false 0))) 0 false]) (trace (spi_master width bw div delay) p)) as X.
      rewrite trace_app in X. specialize (X _ [] eq_refl). exact X. }
    rewrite O, (host_words width bw div delay). clear - N. destruct (tx_in _) as [|b l]; [now destruct N|]. clear N. cbn [map fold_left fst mw_oe]. induction l as [|x l IH]; [reflexivity|exact IH].
  Qed.
  Lemma stub_dq_range s : 0 <= ms_dq_o width bw s < 2 ^ bw.
  Proof.
    assert (P : 0 < 2 ^ bw) by (cbn [In] in Hbw; apply Z.pow_pos_nonneg; lia).
    unfold ms_dq_o. destruct (ms_case _); [|lia]. unfold trunc. now apply Z.mod_pos_bound.
  Qed.
  Lemma stub_pulses ins : Forall (fun p => sample bw (snd p) = fst p) (edges (trace c ins)).
  Proof.
    induction ins as [|i ins IH] using rev_ind; [constructor|].
    rewrite trace_app. cbn [trace_from]. fold (state c ins). unfold edges in *. rewrite map_app. cbn [map]. rewrite rises_snoc. apply Forall_app. split; [exact IH|].
    fold (last_clk (map ho_phy (trace c ins))). set (o := cout c (state c ins) i).
    destruct (negb (last_clk (map ho_phy (trace c ins))) && mo_clk (ho_phy o)) eqn:Q; [|constructor]. constructor; [|constructor]. cbn [fst snd].
    apply andb_prop in Q. destruct Q as [Q1 Q2]. apply negb_true_iff in Q1.
    destruct (stub_host ins) as [E1 E2]. set (hi := map hback (trace c ins)) in *.
    assert (OE : m_oe width (snd (state host hi)) = true).
    { apply stub_oe. destruct (host_inv width bw div delay Hdiv Hbw Hdw Hwd hi) as (ws & gs & pend & cur & W & R & F & FA & PH & _).
      destruct pend as [w|]; [rewrite W; destruct ws; discriminate|]. exfalso. rewrite E1 in Q1.
      change (ck_clk (m_ck _ (snd (state c ins))) = true) in Q2. rewrite E2 in Q2.
      inversion PH as [p Hr Hck| | | |cnt Hr Hck Hcnt Ho]; subst; [rewrite Hck in Q2; discriminate|congruence]. }
    change (mo_dq_i (ho_phy o)) with (stub_dq width bw div delay (state c ins)). change (mo_dq_o (ho_phy o)) with (ms_dq_o width bw (snd (state c ins))).
    rewrite <- E2 in OE. pose proof (stub_dq_range (snd (state c ins))) as RG. unfold stub_dq, sample. destruct (bw =? 1) eqn:B.
    - apply Z.eqb_eq in B. rewrite B in RG. change 1 with (Z.succ 0) at 1. rewrite Z.double_bits_succ, Z.bit0_mod. change (2 ^ 1) with 2 in RG. apply Z.mod_small. rewrite B. lia.
    - rewrite OE. now apply Z.mod_small.
  Qed.
  Lemma same_words ws gs rs : Forall3 (exchanged width bw) ws gs rs -> Forall (fun p => sample bw (snd p) = fst p) (concat gs) ->
    map content rs = map (cut width) ws.
  Proof.
    assert (B : 0 < bw) by (cbn [In] in Hbw; lia).
    induction 1 as [|w g r ws gs rs (H1 & H2 & H3) X IH]; intros P; [reflexivity|]. cbn [concat] in P. apply Forall_app in P. destruct P as [P1 P2]. cbn [map]. rewrite (IH P2). f_equal.
    unfold content, cut. rewrite H3, H2. f_equal.
    assert (G : map (sample bw) (map snd g) = map fst g) by (clear - P1; induction P1 as [|p g H _ IH]; [reflexivity|]; cbn [map]; now rewrite H, IH).
    rewrite G, H1, <- msb_groups by (auto; lia). destruct Hdw as [q Hq]. apply (value_groups width bw (bdata w) (Z.to_nat q)); [lia|]. rewrite Z2Nat.id by nia. lia.
  Qed.
End Stub.

(** ** C170: the words come back unchanged and in order, with their last flags (the bits
    above the word width are not sent); at most ten are on their way; ... *)
Theorem C170_unchanged : forall width bw div delay ins,
  0 <= div < 256 -> In bw [1; 2; 4; 8] -> (bw | width) -> 0 < width <= 256 ->
  let t := trace (spi_stub_loop width bw div delay) ins in
  exists rest, map (cut width) (sent t) = map content (returned t) ++ rest /\ (length rest <= 10)%nat.
Proof.
  intros width bw div delay ins Hd Hb Hq Hw t. destruct (stub_host width bw div delay ins) as [E _]. fold t in E. set (hi := map hback t) in E.
  destruct (C139_exchange width bw div delay hi Hd Hb Hq Hw) as (ws & gs & pend & cur & held & S & LP & R & F & LH & _). rewrite <- E in S, R, F.
  pose proof (stub_pulses width bw div delay Hd Hb Hq Hw ins) as P. fold t in P. rewrite R in P. apply Forall_app in P. destruct P as [P _].
  pose proof (same_words width bw Hb Hq Hw _ _ _ F P) as X. rewrite map_app in X.
  exists (map content held ++ map (cut width) pend). rewrite S, map_app, <- X, <- app_assoc. split; [reflexivity|]. rewrite app_length, !map_length. lia.
Qed.
(** ... and all of them are back whenever the chip select is high. *)
Theorem C170_complete : forall width bw div delay ins t1 o t2,
  0 <= div < 256 -> In bw [1; 2; 4; 8] -> (bw | width) -> 0 < width <= 256 ->
  trace (spi_stub_loop width bw div delay) ins = t1 ++ o :: t2 -> p_cs_n (pins_of o) = true ->
  map content (returned t1) = map (cut width) (sent t1).
Proof.
  intros width bw div delay ins t1 o t2 Hd Hb Hq Hw E Hc. destruct (stub_host width bw div delay ins) as [EH _].
  pose proof (stub_pulses width bw div delay Hd Hb Hq Hw) as P. assert (E1 := E). apply trace_one in E1. destruct E1 as (a & i & b & _ & E1 & _). specialize (P a). rewrite E1 in P.
  rewrite EH in E at 1. destruct (C139_complete width bw div delay _ t1 o t2 Hd Hb Hq Hw E Hc) as (gs & R & F). rewrite R in P. exact (same_words width bw Hb Hq Hw _ _ _ F P).
Qed.

(** Four lines, the divisor of the bench (spi_clk_freq = sys_clk_freq / 2): three words in two
    packets, the receiver ready every third cycle. *)
Definition stub_ex : list (chan Z * bool) :=
  map (fun x => (snd x, Nat.eqb (Nat.modulo (fst x) 3) 0)) (combine (seq 0 60)
    (repeat (Chan true (Beat true false 0xa5)) 4 ++ repeat (Chan true (Beat false true 0x3c)) 4 ++ repeat (Chan true (Beat true true 0x81)) 14 ++ repeat nobeat 38)).
Example C170_nonvacuous : let t := trace (spi_stub_loop 8 4 0 0) stub_ex in
  map content (sent t) = [(0xa5, false); (0x3c, true); (0x81, true)] /\ map content (returned t) = [(0xa5, false); (0x3c, true); (0x81, true)] /\
  p_cs_n (last (map pins_of t) low) = true.
Proof. vm_compute. repeat split; reflexivity. Qed.

Print Assumptions C170_unchanged.
Print Assumptions C170_complete.
