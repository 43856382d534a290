(** An SPI slave with a clock of its own: C158. *)
From Verif Require Import Stream Bits Fifo_model Fifo_proofs Fifo_props Timer_model Spiclk_model I2cstream_proofs Spistream_model Spistream_props Spimaster_model Spimaster_props Spislave_model Spislave_props Spilink_model Spilink_spec Spilink_proofs Spilink_props Spiclock_spec Spiclock_proofs.

(** ** The pins at the edges of the slave's clock *)
Lemma found_snoc t o ks k : length ks = length t -> found (t ++ [o]) (ks ++ [k]) = found t ks ++ repeat (pins_of o) k.
Proof.
  intros L. unfold found. assert (C : combine (t ++ [o]) (ks ++ [k]) = combine t ks ++ [(o, k)]).
  { revert ks L. induction t as [|x t IH]; intros [|y ks] L; try discriminate; [reflexivity|]. cbn [combine app]. rewrite IH by (cbn [length] in L; lia). reflexivity. }
  rewrite C, flat_map_app. cbn [flat_map fst snd]. now rewrite app_nil_r.
Qed.
Lemma sampled_again cpol cpha p k : sampled cpol cpha p (repeat p k) = [].
Proof.
  induction k as [|k IH]; [reflexivity|]. cbn [repeat sampled]. rewrite IH, app_nil_r.
  assert (X : sample_edge cpol cpha p p = false) by (unfold sample_edge; destruct (Bool.eqb cpol cpha), (p_clk p), (p_cs_n p); reflexivity). now rewrite X.
Qed.
Lemma sampled_repeat cpol cpha p l q k : sampled cpol cpha p (l ++ repeat q (S k)) =
  sampled cpol cpha p l ++ (if sample_edge cpol cpha (last l p) q then [p_dq q] else []).
Proof. rewrite sampled_app. cbn [repeat sampled]. now rewrite sampled_again, app_nil_r. Qed.
Lemma last_repeat {A} (l : list A) (q d : A) k : last (l ++ repeat q (S k)) d = q.
Proof.
  assert (E : repeat q (S k) = repeat q k ++ [q]) by (clear; induction k as [|k IH]; [reflexivity|]; cbn [repeat app] in *; now rewrite <- IH).
  now rewrite E, app_assoc, last_last.
Qed.

(** The slave's clock has had no edge in the last [n] cycles. *)
Definition idle (ks : list nat) (n : Z) : Prop := exists a, ks = a ++ repeat 0%nat (Z.to_nat n).
Lemma idle_often w ks n : often w ks -> idle ks n -> (0 < w)%nat -> n < Z.of_nat w.
Proof.
  intros O [a ->] Hw. destruct (Z_lt_le_dec n (Z.of_nat w)) as [|G]; [assumption|]. exfalso.
  destruct (O (a ++ repeat 0%nat (Z.to_nat n - w)) (repeat 0%nat w) []) as (k & Hin & Hk).
  - rewrite app_nil_r, <- app_assoc, <- repeat_app. do 2 f_equal. lia.
  - apply repeat_length.
  - apply repeat_spec in Hin. lia.
Qed.
Lemma idle_more ks n m : idle ks n -> m <= n + 1 -> idle (ks ++ [0%nat]) m.
Proof.
  intros [a ->] H. assert (E : forall x, repeat 0%nat x ++ [0%nat] = repeat 0%nat (S x)) by (induction x as [|x IH]; [reflexivity|]; cbn [repeat app] in *; now rewrite IH).
  rewrite <- app_assoc, E. exists (a ++ repeat 0%nat (S (Z.to_nat n) - Z.to_nat m)). rewrite <- app_assoc, <- repeat_app. do 2 f_equal. lia.
Qed.
Lemma idle_0 ks n : n <= 0 -> idle ks n.
Proof. intros H. exists ks. replace (Z.to_nat n) with 0%nat by lia. now rewrite app_nil_r. Qed.
Lemma often_app w a b : often w (a ++ b) -> often w a.
Proof. intros O x y z E L. apply (O x y (z ++ b)); [|exact L]. now rewrite E, <- !app_assoc. Qed.

Section Clock.
  Context (width bw div delay : Z) (cpol cpha with_len : bool) (n : nat) (w : nat).
  Context (Hdiv : 0 <= div < 256) (Hbw : In bw [1; 2; 4; 8]) (Hn : width = bw * Z.of_nat n) (Hw : 0 < width <= 256) (Hm : cpol = cpha).
  Context (Hw1 : (0 < w)%nat) (Hw2 : Z.of_nat w <= div + 1) (Hw3 : (w <= 5)%nat).
  Notation host := (spi_host width bw div delay).
  Notation slave := (spi_slave cpol cpha width bw with_len [width]).
  Notation phy ins := (snd (state host ins)).
  Notation clk ins := (ck_clk (m_ck _ (phy ins))).
  Notation cnt ins := (ck_cnt (m_ck _ (phy ins))).
  Notation P ins := (map pins_of (trace host ins)).
  Notation Q ins ks := (found (trace host ins) ks).
  Notation smp := (sampled cpol cpha low).

  Lemma edge_is p q : sample_edge cpol cpha p q = negb (p_cs_n q) && (negb (p_clk p) && p_clk q).
  Proof. unfold sample_edge. rewrite Hm, Bool.eqb_reflx. reflexivity. Qed.

  Definition seen (ins : list host_in) (ks : list nat) : Prop :=
    (if clk ins
     then (cnt ins <> 0 /\ p_clk (last (Q ins ks) low) = true /\ smp (P ins) = smp (Q ins ks)) \/
          (idle ks (cnt ins) /\ p_clk (last (Q ins ks) low) = false /\
           smp (P ins) = smp (Q ins ks) ++ (if cnt ins =? 0 then [] else [ms_dq_o width bw (phy ins)]))
     else smp (P ins) = smp (Q ins ks) /\ (p_clk (last (Q ins ks) low) = false \/ idle ks (cnt ins))) /\
    (forall a k, ks = a ++ [S k] -> smp (P ins) = smp (Q ins ks) /\ last (Q ins ks) low = last (P ins) low) /\
    (p_cs_n (last (P ins) low) = true -> smp (P ins) = smp (Q ins ks)) /\
    (exists r, smp (P ins) = smp (Q ins ks) ++ r).

  Lemma seen_run ins : forall ks, length ks = length ins -> often w ks -> seen ins ks.
  Proof.
    assert (Hdw : (bw | width)) by (exists (Z.of_nat n); lia).
    induction ins as [|i ins IH] using rev_ind; intros ks L O.
    { destruct ks; [|discriminate]. split; [cbn; auto|]. split; [intros [|? a] k E; discriminate|]. split; [discriminate|exists []; reflexivity]. }
    destruct ks as [|k ks _] using rev_ind; [rewrite app_length in L; cbn [length] in L; lia|]. rewrite !app_length in L. cbn [length] in L.
    assert (L' : length ks = length ins) by lia. specialize (IH ks L' (often_app _ _ _ O)). destruct IH as [IH _].
    pose proof (ck_range width bw div delay Hdiv Hbw Hdw Hw ins) as R.
    destruct (host_snoc width bw div delay ins i) as [E1 _].
    set (p := pins_of (cout host (state host ins) i)) in *.
    assert (EP : P (ins ++ [i]) = P ins ++ [p]) by (rewrite E1, map_app; reflexivity).
    assert (EQ : Q (ins ++ [i]) (ks ++ [k]) = Q ins ks ++ repeat p k) by (rewrite E1; apply found_snoc; now rewrite trace_length).
    assert (Pc : p_clk p = clk ins) by reflexivity.
    assert (Pn : p_cs_n p = negb (ms_cs_en width (phy ins))) by reflexivity.
    assert (Pd : p_dq p = ms_dq_o width bw (phy ins)) by reflexivity.
    assert (HL := last_map_clk). specialize (HL (trace host ins)).
    (* what the new cycle adds, whatever the number of edges *)
    assert (G : (if clk ins
                 then smp (P (ins ++ [i])) = smp (Q (ins ++ [i]) (ks ++ [k])) /\ p_clk (last (Q (ins ++ [i]) (ks ++ [k])) low) = true \/
                      idle (ks ++ [k]) (cnt ins + 1) /\ p_clk (last (Q (ins ++ [i]) (ks ++ [k])) low) = false /\ (k = 0%nat /\ p_cs_n p = false) /\
                      smp (P (ins ++ [i])) = smp (Q (ins ++ [i]) (ks ++ [k])) ++ [ms_dq_o width bw (phy ins)]
                 else smp (P (ins ++ [i])) = smp (Q (ins ++ [i]) (ks ++ [k])) /\
                      (p_clk (last (Q (ins ++ [i]) (ks ++ [k])) low) = false \/ idle (ks ++ [k]) (cnt ins + 1)))).
    { rewrite EP, EQ. rewrite sampled_snoc, edge_is, Pc, Pn, Pd, HL.
      destruct (clk ins) eqn:C.
      - rewrite (high_before width bw div delay Hdiv Hbw Hdw Hw ins C), !negb_involutive, andb_true_r.
        destruct IH as [(A1 & A2 & A3)|(A1 & A2 & A3)].
        + left. destruct (Z.eqb_spec (cnt ins) 0) as [|_]; [contradiction|]. rewrite andb_false_r, app_nil_r, A3.
          destruct k as [|k]; [cbn [repeat]; rewrite app_nil_r; auto|].
          rewrite sampled_repeat, last_repeat, edge_is, A2. cbn [negb andb]. rewrite andb_false_r, app_nil_r, Pc. auto.
        + pose proof (idle_often w ks (cnt ins) (often_app _ _ _ O) A1 Hw1) as B.
          rewrite (high_selected width bw div delay Hdiv Hbw Hdw Hw ins C ltac:(lia)) in *. cbn [negb andb].
          assert (A4 : smp (P ins) ++ (if cnt ins =? 0 then [ms_dq_o width bw (phy ins)] else []) = smp (Q ins ks) ++ [ms_dq_o width bw (phy ins)]).
          { rewrite A3. destruct (cnt ins =? 0); now rewrite ?app_nil_r. }
          rewrite A4. destruct k as [|k].
          * right. cbn [repeat]. rewrite app_nil_r. split; [eapply idle_more; [exact A1|lia]|]. auto.
          * left. rewrite sampled_repeat, last_repeat, edge_is, A2, Pc, Pn, Pd. cbn [negb andb]. auto.
      - rewrite !andb_false_r, app_nil_r. destruct IH as [A1 A2]. rewrite A1. destruct k as [|k].
        + cbn [repeat]. rewrite app_nil_r. split; [reflexivity|]. destruct A2 as [A2|A2]; [now left|right]. eapply idle_more; [exact A2|lia].
        + rewrite sampled_repeat, last_repeat, edge_is, Pc, !andb_false_r, app_nil_r. auto. }
    split; [|split; [|split]].
    - destruct (clk ins) eqn:C.
      + destruct (high_step width bw div delay Hdiv Hbw Hdw Hw ins i C) as [(D1 & D2 & D3)|(D1 & D2 & D3)]; rewrite D1.
        * rewrite D2. destruct G as [[G1 G2]|(G1 & G2 & _ & G3)]; [left; split; [lia|auto]|right]. split; [exact G1|]. split; [exact G2|].
          destruct (Z.eqb_spec (cnt ins + 1) 0); [lia|]. now rewrite D3.
        * destruct G as [[G1 G2]|(G1 & G2 & _ & G3)].
          -- split; [exact G1|]. right. apply idle_0. lia.
          -- exfalso. pose proof (idle_often w _ _ O G1 Hw1). lia.
      + destruct (low_step width bw div delay Hdiv Hbw Hdw Hw ins i C) as [(D1 & D2)|(D1 & D2 & D3)]; rewrite D1; destruct G as [G1 G2].
        * split; [exact G1|]. destruct G2 as [G2|[a G2]]; [now left|right]. pose proof (ck_range width bw div delay Hdiv Hbw Hdw Hw (ins ++ [i])) as R'.
          exists (a ++ repeat 0%nat (Z.to_nat (cnt ins + 1) - Z.to_nat (cnt (ins ++ [i])))). rewrite G2, <- app_assoc, <- repeat_app. do 2 f_equal. lia.
        * right. rewrite D2. split; [apply idle_0; lia|]. destruct G2 as [G2|G2]; [|exfalso; pose proof (idle_often w _ _ O G2 Hw1); lia].
          split; [exact G2|]. rewrite G1. cbn [Z.eqb]. now rewrite app_nil_r.
    - intros a k' E. apply app_inj_tail in E. destruct E as [_ ->]. split.
      + destruct (clk ins); [destruct G as [[G _]|(_ & _ & [G _] & _)]; [exact G|discriminate]|exact (proj1 G)].
      + now rewrite EP, EQ, last_repeat, last_last.
    - rewrite EP at 1. rewrite last_last. intros Hc. destruct (clk ins); [destruct G as [[G _]|(_ & _ & [_ G] & _)]; [exact G|congruence]|exact (proj1 G)].
    - destruct (clk ins); [destruct G as [[G _]|(_ & _ & _ & G)]|destruct G as [G _]]; rewrite G; [exists []; now rewrite app_nil_r|eexists; reflexivity|exists []; now rewrite app_nil_r].
  Qed.

  Lemma often_last ks k m : often w (ks ++ [k]) -> often w (ks ++ [S m]).
  Proof.
    intros O a b d E L. destruct d as [|x d _] using rev_ind.
    - rewrite app_nil_r in E. destruct b as [|y b _] using rev_ind; [cbn in L; lia|]. rewrite app_assoc in E. apply app_inj_tail in E. destruct E as [_ <-].
      exists (S m). split; [apply in_or_app; right; now left|lia].
    - rewrite !app_assoc in E. apply app_inj_tail in E. destruct E as [E _]. apply (O a b (d ++ [k])); [|exact L]. rewrite E, <- !app_assoc. reflexivity.
  Qed.
  Lemma found_framed ins : forall ks, length ks = length ins -> often w ks -> framed cpol cpha n (Q ins ks).
  Proof.
    induction ins as [|i ins IH] using rev_ind; intros ks L O.
    { destruct ks; [|discriminate]. intros a b E Hc. destruct a; [discriminate Hc|discriminate]. }
    destruct ks as [|k ks _] using rev_ind; [rewrite app_length in L; cbn [length] in L; lia|]. rewrite !app_length in L. cbn [length] in L.
    assert (L' : length ks = length ins) by lia. specialize (IH ks L' (often_app _ _ _ O)). intros a b E Hc.
    destruct (host_snoc width bw div delay ins i) as [E1 _].
    rewrite E1, found_snoc in E by now rewrite trace_length. set (p := pins_of (cout host (state host ins) i)) in *.
    apply app_eq_app in E. destruct E as (l & [[Ea Eb]|[Ea Eb]]).
    - exact (IH a l Ea Hc).
    - apply repeat_eq_app in Eb. destruct Eb as [El _]. destruct l as [|x l].
      { rewrite app_nil_r in Ea. subst a. apply (IH _ [] (eq_sym (app_nil_r _)) Hc). }
      cbn [length] in El. rewrite <- El in Ea. clear x El. set (m := length l) in *. clearbody m.
      assert (F : a = Q (ins ++ [i]) (ks ++ [S m])) by (rewrite E1, found_snoc by (now rewrite trace_length); exact Ea).
      assert (X : seen (ins ++ [i]) (ks ++ [S m])) by (apply seen_run; [rewrite !app_length; cbn [length]; lia|eapply often_last; exact O]).
      destruct X as (_ & X & _). destruct (X ks m eq_refl) as [X1 X2]. rewrite F in *. rewrite <- X1. rewrite X2 in Hc.
      apply (host_framed width bw div delay cpol cpha n Hdiv Hbw Hn Hw Hm (ins ++ [i]) _ [] (eq_sym (app_nil_r _)) Hc).
  Qed.

  Lemma low_twice l : smp (low :: low :: l) = smp l.
  Proof. cbn [sampled]. rewrite !edge_is. reflexivity. Qed.
  Lemma looked_framed u l : map so_pins u = l -> framed cpol cpha n l -> framed cpol cpha n (looked_at u).
  Proof.
    intros E F a b Ea Hc. unfold looked_at in Ea. rewrite E in Ea.
    assert (X : low :: low :: l = a ++ (b ++ skipn (length u) (low :: low :: l))) by (rewrite app_assoc, <- Ea; symmetry; apply firstn_skipn).
    destruct a as [|x a]; [discriminate Hc|]. injection X as <- X. destruct a as [|y a]; [discriminate Hc|]. injection X as <- X.
    rewrite low_twice. apply (F a _ X). destruct a; [discriminate Hc|]. exact Hc.
  Qed.
  Lemma clock_dq ins sins ks : map so_pins (trace slave sins) = Q ins ks -> dq_ok bw (trace slave sins).
  Proof.
    clear - Hbw. intros E. unfold dq_ok. apply Forall_forall. intros o Ho. assert (B : 0 < bw) by (cbn [In] in Hbw; lia).
    assert (0 < 2 ^ bw) by (apply Z.pow_pos_nonneg; lia).
    apply (in_map so_pins) in Ho. rewrite E in Ho. unfold found in Ho. apply in_flat_map in Ho. destruct Ho as ([h k] & Hin & Ho).
    apply repeat_spec in Ho. cbn [fst] in Ho. rewrite Ho. apply in_combine_l in Hin.
    apply in_split in Hin. destruct Hin as (t1 & t2 & E'). apply trace_one in E'. destruct E' as (a & i & b & -> & _ & ->).
    cbn [p_dq pins_of]. change (mo_dq_o (ho_phy (cout host (state host a) i))) with (ms_dq_o width bw (snd (state host a))). unfold ms_dq_o.
    destruct (ms_case _); [apply trunc_range; lia|lia].
  Qed.
  Lemma clock_received ins sins ks : let t := trace host ins in let u := trace slave sins in
    Forall (fun b => 0 <= bdata b < 2 ^ width) (sent t) -> clocked w ks u t ->
    Forall (fun x => snd (fst x) = width) (pushes u) /\
    exists rest pend r, sent t = firstn (length (pushes u)) (sent t) ++ rest /\
      map (fun x => fst (fst x)) (pushes u) = map bdata (firstn (length (pushes u)) (sent t)) /\
      concat (map (cut width bw) rest) = pend ++ r /\
      (p_cs_n (last (looked_at u) low) = true -> pend = []) /\
      smp (looked_at u) = concat (map (cut width bw) (firstn (length (pushes u)) (sent t))) ++ pend.
  Proof.
    intros t u Hd (L & O & E). unfold t in L. rewrite trace_length in L.
    destruct (seen_run ins ks L O) as (_ & _ & _ & r & S).
    apply (link_sampled width bw div delay cpol cpha with_len n Hdiv Hbw Hn Hw Hm ins sins Hd).
    - exact (clock_dq ins sins ks E).
    - eapply looked_framed; [exact E|now apply found_framed].
    - fold t u in S |- *. rewrite S, <- (low_twice (found t ks)), <- E.
      rewrite <- (firstn_skipn (length u) (low :: low :: map so_pins u)). fold (looked_at u). rewrite sampled_app, <- app_assoc. eexists. reflexivity.
  Qed.
  Lemma clock_complete ins sins ks : let t := trace host ins in let u := trace slave sins in
    Forall (fun b => 0 <= bdata b < 2 ^ width) (sent t) -> clocked w ks u t ->
    forall v p, p = last (map pins_of t) low -> p_cs_n p = true -> map so_pins u = v ++ [p; p; p] ->
    length (pushes u) = length (sent t).
  Proof.
    intros t u Hd HC v p Hp Hc Hv. destruct (clock_received ins sins ks Hd HC) as (_ & rest & pend & r & E1 & E2 & _ & E4 & E5). fold t u in E1, E2, E4, E5.
    destruct HC as (L & O & E). unfold t in L. rewrite trace_length in L.
    destruct (seen_run ins ks L O) as (_ & _ & SE & _). fold t in SE. rewrite <- Hp in SE. specialize (SE Hc).
    assert (LA : looked_at u = low :: low :: v ++ [p]).
    { unfold looked_at. rewrite Hv. assert (Lu : length u = S (S (S (length v)))) by (rewrite <- (map_length so_pins), Hv, app_length; cbn [length]; lia).
      rewrite Lu. change (firstn (S (S (S (length v)))) (low :: low :: v ++ [p; p; p])) with (low :: low :: firstn (S (length v)) (v ++ [p; p; p])). do 2 f_equal. change [p; p; p] with ([p] ++ [p; p]). rewrite app_assoc, firstn_app, app_length. cbn [length].
      replace (S (length v) - (length v + 1))%nat with 0%nat by lia. rewrite firstn_O, app_nil_r. apply firstn_all2. rewrite app_length. cbn [length]. lia. }
    assert (LL : p_cs_n (last (looked_at u) low) = true).
    { rewrite LA. change (low :: low :: v ++ [p]) with ((low :: low :: v) ++ [p]). now rewrite last_last. }
    assert (LS : smp (looked_at u) = smp (map pins_of t)).
    { rewrite LA, low_twice, SE, <- E, Hv. change [p; p; p] with ([p] ++ repeat p 2). rewrite app_assoc, (sampled_app _ _ _ (v ++ [p])), last_last, sampled_again. now rewrite app_nil_r. }
    rewrite (E4 LL), app_nil_r, LS in E5. unfold t in E5 at 1.
    rewrite (host_all width bw div delay cpol cpha n Hdiv Hbw Hn Hw Hm ins) in E5 by (fold t; rewrite <- Hp; exact Hc). fold t in E5.
    apply (f_equal (@length _)) in E5. rewrite !(concat_len n) in E5 by (apply cuts_len; auto). rewrite !map_length, firstn_length in E5.
    pose proof (n_pos width bw n Hbw Hn Hw). assert (length (sent t) = Nat.min (length (pushes u)) (length (sent t))) by nia.
    apply (f_equal (@length _)) in E2. rewrite !map_length, firstn_length in E2. lia.
  Qed.

End Clock.

(** C158: the slave's clock need not follow the host's: if it has an edge in every
    min(div+1, 5) cycles of the host's clock, whatever its phase and its jitter, the
    words received by the slave are the words given to the host, in order and whole. *)
Theorem C158_words_partial : forall width bw div delay cpol cpha with_len ins sins ks w,
  0 <= div < 256 -> In bw [1; 2; 4; 8] -> (bw | width) -> 0 < width <= 256 -> cpol = cpha ->
  let t := trace (spi_host width bw div delay) ins in
  let u := trace (spi_slave cpol cpha width bw with_len [width]) sins in
  Forall (fun b => 0 <= bdata b < 2 ^ width) (sent t) ->
  (0 < w)%nat -> Z.of_nat w <= Z.min (div + 1) 5 -> clocked w ks u t ->
  Forall (fun x => snd (fst x) = width) (pushes u) /\
  exists rest, map bdata (sent t) = map (fun x => fst (fst x)) (pushes u) ++ rest.
Proof.
  intros width bw div delay cpol cpha wl ins sins ks w Hd Hb [q Hq] Hw Hm t u HF W1 W2 HW.
  assert (B : 0 < bw) by (cbn [In] in Hb; lia). assert (Hn : width = bw * Z.of_nat (Z.to_nat q)) by (rewrite Z2Nat.id by nia; lia).
  destruct (clock_received width bw div delay cpol cpha wl (Z.to_nat q) w Hd Hb Hn Hw Hm W1 ltac:(lia) ltac:(lia) ins sins ks HF HW) as (H & rest & pend & r & E1 & E2 & _).
  fold t u in H, E1, E2. split; [exact H|]. exists (map bdata rest). rewrite E2, <- map_app, <- E1. reflexivity.
Qed.

(** Once the host has released its chip select and the slave has had three more edges,
    the slave has received every word given to the host. *)
Theorem C158_complete : forall width bw div delay cpol cpha with_len ins sins ks w v p,
  0 <= div < 256 -> In bw [1; 2; 4; 8] -> (bw | width) -> 0 < width <= 256 -> cpol = cpha ->
  let t := trace (spi_host width bw div delay) ins in
  let u := trace (spi_slave cpol cpha width bw with_len [width]) sins in
  Forall (fun b => 0 <= bdata b < 2 ^ width) (sent t) ->
  (0 < w)%nat -> Z.of_nat w <= Z.min (div + 1) 5 -> clocked w ks u t ->
  p = last (map pins_of t) low -> p_cs_n p = true -> map so_pins u = v ++ [p; p; p] ->
  map (fun x => fst (fst x)) (pushes u) = map bdata (sent t).
Proof.
  intros width bw div delay cpol cpha wl ins sins ks w v p Hd Hb [q Hq] Hw Hm t u HF W1 W2 HW Hp Hc Hv.
  assert (B : 0 < bw) by (cbn [In] in Hb; lia). assert (Hn : width = bw * Z.of_nat (Z.to_nat q)) by (rewrite Z2Nat.id by nia; lia).
  destruct (clock_received width bw div delay cpol cpha wl (Z.to_nat q) w Hd Hb Hn Hw Hm W1 ltac:(lia) ltac:(lia) ins sins ks HF HW) as (_ & rest & pend & r & _ & E2 & _).
  pose proof (clock_complete width bw div delay cpol cpha wl (Z.to_nat q) w Hd Hb Hn Hw Hm W1 ltac:(lia) ltac:(lia) ins sins ks HF HW v p Hp Hc Hv) as L.
  fold t u in E2, L. rewrite E2, L, firstn_all. reflexivity.
Qed.

(** What the slave's reader gets, when the slave's FIFO is ready at every push. *)
Theorem C158_delivered : forall width bw div delay cpol cpha ins sins ks w,
  0 <= div < 256 -> In bw [1; 2; 4; 8] -> (bw | width) -> 0 < width <= 256 -> cpol = cpha ->
  let t := trace (spi_host width bw div delay) ins in
  let u := trace (spi_slave cpol cpha width bw false [width]) sins in
  Forall (fun b => 0 <= bdata b < 2 ^ width) (sent t) ->
  (0 < w)%nat -> Z.of_nat w <= Z.min (div + 1) 5 -> clocked w ks u t ->
  Forall (fun o => so_push o <> None -> o_sready (so_fifo o) = true) u ->
  exists held coming, map bdata (sent t) = map bdata (emitted (map so_fifo u)) ++ held ++ coming /\ (length held <= 8)%nat.
Proof.
  intros width bw div delay cpol cpha ins sins ks w Hd Hb Hq Hw Hm t u HF W1 W2 HW HR.
  destruct (C158_words_partial width bw div delay cpol cpha false ins sins ks w Hd Hb Hq Hw Hm HF W1 W2 HW) as (_ & rest & E). fold t u in E.
  assert (B : 0 < bw) by (cbn [In] in Hb; lia). assert (Hn := Hq). destruct Hn as [q Hn].
  assert (Hn' : width = bw * Z.of_nat (Z.to_nat q)) by (rewrite Z2Nat.id by nia; lia).
  destruct (C55_delivered cpol cpha width bw false [width] sins (slave_ok width bw (Z.to_nat q) B ltac:(lia) Hn')
     (clock_dq width bw div delay cpol cpha false Hb ins sins ks (proj2 (proj2 HW))) HR) as (held & E' & L).
  fold u in E'. cbv beta iota in E'. exists held, rest. rewrite E, E', <- app_assoc. split; [reflexivity|exact L].
Qed.

(** One byte, the SPI clock at a sixteenth of the host's clock (div = 7). *)
Definition slow_ex : list host_in :=
  repeat (HostIn (Chan true (Beat true true 0xa5)) 0 true) 4 ++ repeat (HostIn nobeat 0 true) 196.
(** An edge of the slave's clock every [m] cycles, the first after [p] cycles. *)
Definition every (m p len : nat) : list nat := map (fun j => if Nat.eqb (Nat.modulo j m) p then 1%nat else 0%nat) (seq 0 len).
Definition slow_sins (t : list host_obs) (ks : list nat) : list sl_in := map (fun p => SlIn p no_word true) (found t ks).

Fixpoint zeros_below (w z : nat) (ks : list nat) : bool :=
  match ks with [] => true | 0%nat :: ks' => Nat.ltb (S z) w && zeros_below w (S z) ks' | S _ :: ks' => zeros_below w 0 ks' end.
Lemma zeros_often w : (0 < w)%nat -> forall ks z, (z < w)%nat -> zeros_below w z ks = true -> often w (repeat 0%nat z ++ ks).
Proof.
  intros Hw. assert (R : forall z, often w (repeat 0%nat z) <-> (z < w)%nat).
  { intros z. split.
    - intros O. destruct (Nat.lt_ge_cases z w) as [|G]; [assumption|]. destruct (O [] (repeat 0%nat w) (repeat 0%nat (z - w))) as (k & Hin & Hk); [|apply repeat_length|apply repeat_spec in Hin; lia].
      cbn [app]. rewrite <- repeat_app. f_equal. lia.
    - intros H a b d E L. apply (f_equal (@length nat)) in E. rewrite repeat_length, !app_length in E. lia. }
  induction ks as [|k ks IH]; intros z Hz H; [rewrite app_nil_r; now apply R|].
  destruct k as [|k]; cbn [zeros_below] in H.
  - apply andb_prop in H. destruct H as [H1 H2]. apply Nat.ltb_lt in H1. specialize (IH (S z) H1 H2).
    replace (repeat 0%nat z ++ 0%nat :: ks) with (repeat 0%nat (S z) ++ ks); [exact IH|].
    clear. induction z as [|z IH]; [reflexivity|]. cbn [repeat app] in *. now rewrite <- IH.
  - specialize (IH 0%nat Hw H). cbn [repeat app] in IH. intros a b d E L. apply app_eq_app in E. destruct E as (l & [[Ea Eb]|[Ea Eb]]).
    + (* b begins inside the zeros *)
      assert (Hl : (length l < w)%nat) by (apply (f_equal (@length nat)) in Ea; rewrite repeat_length, app_length in Ea; lia).
      apply app_eq_app in Eb. destruct Eb as (m & [[E1 E2]|[E1 E2]]).
      * exists (S k). split; [|lia]. rewrite E1. apply in_or_app. right. destruct m as [|y m]; [exfalso; apply (f_equal (@length nat)) in E1; rewrite app_length in E1; cbn [length] in E1; lia|].
        injection E2 as <- _. now left.
      * exfalso. apply (f_equal (@length nat)) in E1. rewrite app_length in E1. lia.
    + destruct l as [|y l].
      * cbn [app] in Eb. destruct b as [|y b]; [cbn in L; lia|]. injection Eb as <- _. exists (S k). split; [now left|lia].
      * injection Eb as _ Eb. exact (IH l b d Eb L).
Qed.

(** Twice the SPI clock is not enough (here the slave has an edge every 6 cycles, and
    each phase of the SPI clock lasts 8): the host releases its chip select before the
    last falling edge of its clock, as soon as the last answer has been taken, and the
    slave, whose next edge comes later, misses the last bit. *)
Theorem C158_words_refuted : exists ins ks,
  let t := trace (spi_host 8 1 7 0) ins in
  let u := trace (spi_slave false false 8 1 false [8]) (slow_sins t ks) in
  Forall (fun b => 0 <= bdata b < 2 ^ 8) (sent t) /\ clocked 6 ks u t /\
  map bdata (sent t) = [0xa5] /\ pushes u = [(0x52, 7, true)].
Proof.
  exists slow_ex, (every 6 2 200). cbv zeta. split; [vm_compute; repeat constructor; discriminate|]. split; [|split; vm_compute; reflexivity].
  split; [reflexivity|]. split; [|vm_compute; reflexivity]. apply (zeros_often 6 ltac:(lia) _ 0%nat ltac:(lia)). vm_compute. reflexivity.
Qed.

(** The same with an edge every five cycles. *)
Example C158_nonvacuous :
  let t := trace (spi_host 8 1 7 0) slow_ex in let ks := every 5 4 200 in
  let u := trace (spi_slave false false 8 1 false [8]) (slow_sins t ks) in
  Forall (fun b => 0 <= bdata b < 2 ^ 8) (sent t) /\ clocked 5 ks u t /\ Z.of_nat 5 <= Z.min (7 + 1) 5 /\
  map bdata (sent t) = [0xa5] /\ p_cs_n (last (map pins_of t) low) = true /\
  (exists v, map so_pins u = v ++ repeat (last (map pins_of t) low) 3) /\ pushes u = [(0xa5, 8, true)] /\ map bdata (emitted (map so_fifo u)) = [0xa5].
Proof.
  cbv zeta. split; [vm_compute; repeat constructor; discriminate|]. split.
  { split; [reflexivity|]. split; [|vm_compute; reflexivity]. apply (zeros_often 5 ltac:(lia) _ 0%nat ltac:(lia)). vm_compute. reflexivity. }
  split; [cbn; lia|]. split; [vm_compute; reflexivity|]. split; [vm_compute; reflexivity|]. split; [|split; vm_compute; reflexivity].
  exists (firstn 37 (map so_pins (trace (spi_slave false false 8 1 false [8]) (slow_sins (trace (spi_host 8 1 7 0) slow_ex) (every 5 4 200))))). vm_compute. reflexivity.
Qed.

Print Assumptions C158_words_partial.
Print Assumptions C158_complete.
Print Assumptions C158_delivered.
Print Assumptions C158_words_refuted.
