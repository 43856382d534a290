(** What an SPI host exchanges at its pins, C139. *)
From Verif Require Import Stream Bits Fifo_model Timer_model Spiclk_model I2cstream_proofs Spistream_model Spistream_props Spimaster_model Spimaster_props Spislave_model Spislave_props Spilink_model Spilink_spec Spilink_proofs Spilink_props.

(** ** Vocabulary *)
(** The words given back by the host, in order. *)
Definition returned (t : list host_obs) : list (beat Z) := rx_out (map ho_app t).
(** The lines driven and the lines read, at each rising edge of the clock pin. *)
Definition edges (t : list host_obs) : list (Z * Z) := rises false (map ho_phy t).
(** A word of [width] bits in groups of [bw], most significant first. *)
Definition msb_first (width bw d : Z) : list Z :=
  map (fun k => d / 2 ^ (width - bw * (Z.of_nat k + 1)) mod 2 ^ bw) (seq 0 (Z.to_nat (width / bw))).
(** Word [w], the pulses of the clock during which it was exchanged, and the word returned for it. *)
Definition exchanged (width bw : Z) (w : beat Z) (pulses : list (Z * Z)) (r : beat Z) : Prop :=
  map fst pulses = msb_first width bw (bdata w) /\
  bdata r = number bw (map (sample bw) (map snd pulses)) /\ blast r = blast w.

(** ** Proofs *)
Lemma msb_groups width bw d : 0 < bw -> (bw | width) -> 0 < width -> groups (MWord d bw true width) = msb_first width bw d.
Proof.
  intros Hb [q Hq] Hw. unfold groups, msb_first. cbn [mw_data mw_len mw_width]. apply map_ext_in. intros k Hk. apply in_seq in Hk.
  rewrite Hq, Z.div_mul in Hk by lia. rewrite Z.shiftr_div_pow2 by nia. reflexivity.
Qed.
Lemma Forall3_map {A A' B C} (f : A -> A') (R : A' -> B -> C -> Prop) la lb lc :
  Forall3 R (map f la) lb lc <-> Forall3 (fun a => R (f a)) la lb lc.
Proof.
  revert lb lc. induction la as [|a la IH]; intros lb lc; cbn [map]; split; intros H; inversion H; subst; constructor; auto; now apply IH.
Qed.
Lemma Forall3_map3 {A B C C'} (f : C -> C') (R : A -> B -> C' -> Prop) la lb lc :
  Forall3 (fun a b c => R a b (f c)) la lb lc -> Forall3 R la lb (map f lc).
Proof. induction 1; constructor; auto. Qed.
Lemma Forall3_impl {A B C} (R S : A -> B -> C -> Prop) la lb lc : (forall a b c, R a b c -> S a b c) -> Forall3 R la lb lc -> Forall3 S la lb lc.
Proof. intros H. induction 1; constructor; auto. Qed.
Lemma Forall3_and2 {A B C} (R : A -> B -> Prop) (S : A -> B -> C -> Prop) la lb lc :
  Forall2 R la lb -> Forall3 S la lb lc -> Forall3 (fun a b c => R a b /\ S a b c) la lb lc.
Proof. intros H1 H2. revert H1. induction H2; intros H1; constructor; inversion H1; subst; auto. Qed.
Lemma Forall3_length {A B C} (R : A -> B -> C -> Prop) la lb lc : Forall3 R la lb lc -> length la = length lc /\ length la = length lb.
Proof. induction 1 as [|a b c la lb lc _ _ [H1 H2]]; cbn [length]; lia. Qed.

Section Host.
  Context (width bw div delay : Z) (Hdiv : 0 <= div < 256) (Hbw : In bw [1; 2; 4; 8]) (Hdw : (bw | width)) (Hwd : 0 < width <= 256).
  Notation c := (spi_host width bw div delay).

  Lemma rx_words ins : returned (trace c ins) = map (fun b => Beat false (blast b) (bdata b mod 2 ^ width)) (rx_in (map ho_app (trace c ins))).
  Proof.
    unfold returned.
    apply (run_inv c (fun t _ => rx_out (map ho_app t) = map (fun b => Beat false (blast b) (bdata b mod 2 ^ width)) (rx_in (map ho_app t)))); [reflexivity|].
    intros t s i IH. rewrite !(map_app _ t [_]). cbn [map]. unfold rx_in in *. rewrite (map_app so_rx (map ho_app t)), accepted_app. cbn [map]. rewrite accepted_1.
    rewrite rx_out_snoc, map_app, IH. f_equal. set (o := cout c s i).
    assert (E1 : o_src (so_rx (ho_app o)) = Chan (cvalid (o_sink (so_rx (ho_app o))) && ss_rx_en (fst s)) (Beat false (blast (cbeat (o_sink (so_rx (ho_app o))))) (trunc width (bdata (cbeat (o_sink (so_rx (ho_app o)))))))) by reflexivity.
    assert (E2 : o_sready (so_rx (ho_app o)) = ss_pready (fst s) (o_rready (so_rx (ho_app o)))) by reflexivity.
    rewrite E1, E2. unfold xfer, ss_pready. cbn [cvalid cbeat].
    destruct (cvalid (o_sink (so_rx (ho_app o)))), (ss_rx_en (fst s)), (o_rready (so_rx (ho_app o))); reflexivity.
  Qed.

  Lemma exchange_inv ins : exists ws gs pend cur held,
    sent (trace c ins) = ws ++ pend /\ (length pend <= 1)%nat /\
    edges (trace c ins) = concat gs ++ cur /\
    Forall3 (exchanged width bw) ws gs (returned (trace c ins) ++ held) /\ (length held <= 9)%nat /\
    match pend with [] => cur = [] | w :: _ => map fst cur = firstn (length cur) (msb_first width bw (bdata w)) /\ (length cur < length (msb_first width bw (bdata w)))%nat end.
  Proof.
    assert (B : 0 < bw) by (cbn [In] in Hbw; lia).
    destruct (host_phy width bw div delay ins) as [E1 E2].
    pose proof (C59_transfers width bw div delay (map phy_back (map ho_phy (trace c ins))) Hdiv) as X. cbv zeta in X. rewrite <- E1 in X.
    destruct (X (host_legal width bw div delay Hbw Hdw Hwd ins)) as (ws & gs & pend & cur & lt & W & LP & R & FW & P & FA & LL). clear X.
    pose proof (C59_delivered width bw div delay (map phy_back (map ho_phy (trace c ins))) Hdiv ltac:(lia)) as X. cbv zeta in X. rewrite <- E1 in X.
    destruct (X (host_legal width bw div delay Hbw Hdw Hwd ins)) as (held & E & LH). clear X.
    rewrite host_words in W. rewrite host_echo in E. apply map_eq_app in W. destruct W as (ws' & pend' & W & <- & <-).
    exists ws', gs, pend', cur, (map (fun r => Beat false (snd r) (fst r mod 2 ^ width)) (held ++ lt)).
    split; [exact W|]. rewrite map_length in LP. split; [exact LP|]. split; [exact R|]. split; [|split].
    - rewrite rx_words. rewrite E, <- app_assoc in FA. revert FA. set (rest := held ++ lt). intros FA.
      replace (map (fun b : beat Z => Beat false (blast b) (bdata b mod 2 ^ width)) (rx_in (map ho_app (trace c ins))) ++ map (fun r : Z * bool => Beat false (snd r) (fst r mod 2 ^ width)) rest)
        with (map (fun r : Z * bool => Beat false (snd r) (fst r mod 2 ^ width)) (map (fun b => (bdata b, blast b)) (rx_in (map ho_app (trace c ins))) ++ rest)) by (rewrite map_app, map_map; reflexivity).
      apply Forall3_map3. apply (Forall3_and2 on_wire) in FA; [|exact FW]. apply Forall3_map in FA.
      revert FA. apply Forall3_impl. intros w g r [H1 [H2 H3]]. unfold on_wire in H1. cbn [fst snd mw_len mw_width] in *. unfold exchanged. cbn [bdata blast].
      rewrite H1, msb_groups by (auto; lia). auto.
    - rewrite map_length, app_length. lia.
    - destruct pend' as [|w pend']; cbn [map fst] in P; [exact P|]. rewrite msb_groups in P by (auto; lia). exact P.
  Qed.
End Host.

(** ** C139: at every moment the pulses seen on the clock pin fall into one run per
    word sent: on the driven lines the word, most significant bits first; the word
    returned is made of the lines read at the same edges and has the last flag of the
    word sent.  At most one word is under way and nine more are held. *)
Theorem C139_exchange : forall width bw div delay ins,
  0 <= div < 256 -> In bw [1; 2; 4; 8] -> (bw | width) -> 0 < width <= 256 ->
  let t := trace (spi_host width bw div delay) ins in
  exists ws gs pend cur held,
    sent t = ws ++ pend /\ (length pend <= 1)%nat /\
    edges t = concat gs ++ cur /\
    Forall3 (exchanged width bw) ws gs (returned t ++ held) /\ (length held <= 9)%nat /\
    match pend with
    | [] => cur = []
    | w :: _ => map fst cur = firstn (length cur) (msb_first width bw (bdata w)) /\ (length cur < length (msb_first width bw (bdata w)))%nat
    end.
Proof. intros width bw div delay ins Hd Hb Hq Hw t. apply exchange_inv; auto. Qed.

(** When the chip select is high, everything sent has been exchanged and returned,
    and nothing else has happened on the wire. *)
Theorem C139_complete : forall width bw div delay ins t1 o t2,
  0 <= div < 256 -> In bw [1; 2; 4; 8] -> (bw | width) -> 0 < width <= 256 ->
  trace (spi_host width bw div delay) ins = t1 ++ o :: t2 -> p_cs_n (pins_of o) = true ->
  exists gs, edges t1 = concat gs /\ Forall3 (exchanged width bw) (sent t1) gs (returned t1).
Proof.
  intros width bw div delay ins t1 o t2 Hd Hb Hq Hw E Hc.
  destruct (C117_frames width bw div delay ins t1 o t2 Hd Hb Hq Hw E Hc) as (_ & L & _).
  apply trace_one in E. destruct E as (a & i & b & -> & <- & ->).
  destruct (exchange_inv width bw div delay Hd Hb Hq Hw a) as (ws & gs & pend & cur & held & S & LP & R & F & LH & P).
  apply (f_equal (@length _)) in L. rewrite !map_length in L.
  destruct (Forall3_length _ _ _ _ F) as [L1 _]. rewrite S in L. rewrite app_length in L, L1. unfold returned in L1.
  assert (pend = []) as -> by (destruct pend; [reflexivity|cbn [length] in L; lia]). subst cur.
  assert (held = []) as -> by (destruct held; [reflexivity|cbn [length] in *; lia]).
  rewrite app_nil_r in *. exists gs. split; [exact R|]. now rewrite S.
Qed.

(** Every rising edge of the clock happens with the chip select asserted. *)
Theorem C139_selected : forall width bw div delay ins t1 o t2,
  0 <= div < 256 -> In bw [1; 2; 4; 8] -> (bw | width) -> 0 < width <= 256 ->
  trace (spi_host width bw div delay) ins = t1 ++ o :: t2 ->
  p_clk (last (map pins_of t1) low) = false -> p_clk (pins_of o) = true -> p_cs_n (pins_of o) = false.
Proof.
  intros width bw div delay ins t1 o t2 Hd Hb Hq Hw E H1 H2. apply trace_one in E. destruct E as (a & i & b & -> & <- & ->).
  set (c := spi_host width bw div delay) in *.
  destruct (host_inv width bw div delay Hd Hb Hq Hw a) as (ws & gs & pend & cur & W & R & F & FA & PH & _). fold c in W, R, FA, PH.
  change (p_clk (pins_of (cout c (state c a) i))) with (ck_clk (m_ck _ (snd (state c a)))) in H2.
  change (p_cs_n (pins_of (cout c (state c a) i))) with (negb (ms_cs_en width (snd (state c a)))).
  rewrite last_map_clk in H1.
  destruct pend as [w|].
  - pose proof (host_pending width bw div delay Hd Hb Hq Hw a ws gs w cur W FA PH) as X. fold c in X. now rewrite X.
  - inversion PH as [p Hr Hck| | | |cnt Hr Hck Hcnt Ho]; subst; [rewrite Hck in H2; discriminate|congruence].
Qed.

(** Two packets on a single line, the data input changing in between. *)
Definition xchg_ex : list host_in :=
  let i x m := HostIn x m true in
  repeat (i (Chan true (Beat true false 0xa5)) 2) 3 ++ repeat (i (Chan true (Beat false true 0x3c)) 2) 7 ++ repeat (i (Chan true (Beat false true 0x3c)) 0) 10 ++
  repeat (i (Chan true (Beat true true 0x81)) 0) 22 ++ repeat (i nobeat 2) 30.
Example C139_nonvacuous :
  let t := trace (spi_host 8 1 0 0) xchg_ex in
  map (fun b => (blast b, bdata b)) (sent t) = [(false, 0xa5); (true, 0x3c); (true, 0x81)] /\
  map fst (edges t) = [1;0;1;0;0;1;0;1; 0;0;1;1;1;1;0;0; 1;0;0;0;0;0;0;1] /\
  map (fun b => (blast b, bdata b)) (returned t) = [(false, 0xe0); (true, 0); (true, 0xff)] /\
  p_cs_n (last (map pins_of t) low) = true.
Proof. vm_compute. repeat split; reflexivity. Qed.

Print Assumptions C139_exchange.
Print Assumptions C139_complete.
Print Assumptions C139_selected.
