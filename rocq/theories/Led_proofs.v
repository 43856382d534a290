From Verif Require Import Stream Bits Led_model Led_spec.

Section P.
  Context (T0H T1H T TRST width : Z).
  Hypothesis H0 : 0 <= T0H <= T.
  Hypothesis H1 : 0 <= T1H <= T.
  Hypothesis HT : T <= TRST.
  Hypothesis Hw : 1 <= width.

  Let wave := bit_wave T0H T1H T.
  Definition tail_bits (d idx : Z) : list bool :=
    map (fun i => Z.testbit d (width - 1 - Z.of_nat i)) (seq (Z.to_nat idx) (Z.to_nat (width - idx))).
  Let rst (l : bool) := if l then repeat false (Z.to_nat (TRST + 1)) else @nil bool.

  Lemma skipn_repeat {X} (x : X) a n : skipn a (repeat x n) = repeat x (n - a).
  Proof. revert n; induction a; intros [|n]; simpl; auto. Qed.

  Lemma wave_skip b c : 0 <= c <= T ->
    skipn (Z.to_nat c) (wave b) = (c <? (if b then T1H else T0H)) :: skipn (Z.to_nat (c + 1)) (wave b).
  Proof.
    intros Hc. unfold wave, bit_wave. rewrite !skipn_app, !skipn_repeat, !repeat_length.
    assert (Hh : 0 <= (if b then T1H else T0H) <= T) by (destruct b; lia).
    generalize dependent (if b then T1H else T0H). intros h Hh.
    destruct (Z.ltb_spec c h).
    - replace (Z.to_nat h - Z.to_nat c)%nat with (S (Z.to_nat h - Z.to_nat (c + 1))) by lia. simpl repeat.
      rewrite <- app_comm_cons. f_equal. f_equal. f_equal. lia.
    - replace (Z.to_nat h - Z.to_nat c)%nat with 0%nat by lia. replace (Z.to_nat h - Z.to_nat (c + 1))%nat with 0%nat by lia.
      cbn [repeat app].
      replace (Z.to_nat (T + 1 - h) - (Z.to_nat c - Z.to_nat h))%nat with (S (Z.to_nat (T + 1 - h) - (Z.to_nat (c+1) - Z.to_nat h))) by lia.
      reflexivity.
  Qed.

  Lemma wave_end b : skipn (Z.to_nat (T + 1)) (wave b) = [].
  Proof.
    unfold wave, bit_wave. apply skipn_all2. rewrite app_length, !repeat_length. destruct b; lia.
  Qed.

  Lemma wave_nonempty b : wave b <> [].
  Proof.
    intros E. pose proof (wave_skip b 0 ltac:(lia)) as H. rewrite E in H. discriminate.
  Qed.

  Definition R (s : ws_state) (w : list bool) : Prop :=
    match ws_st s with
    | WsIdle => w = []
    | WsTransmit => exists d, 0 <= d < 2 ^ width /\ 0 <= ws_idx s < width /\
        (forall j, 0 <= j < width -> Z.testbit (ws_sreg s) j = if j <? ws_idx s then false else Z.testbit d (j - ws_idx s)) /\
        0 <= ws_cycs s <= T /\
        w = skipn (Z.to_nat (ws_cycs s)) (wave (ws_bit width s)) ++
            flat_map wave (tail_bits d (ws_idx s + 1)) ++ rst (ws_last s)
    | WsReset => 0 <= ws_cycs s <= TRST /\ w = repeat false (Z.to_nat (TRST + 1 - ws_cycs s))
    end.

  Lemma tail_bits_cons d idx : 0 <= idx < width ->
    tail_bits d idx = Z.testbit d (width - 1 - idx) :: tail_bits d (idx + 1).
  Proof.
    intros. unfold tail_bits. replace (Z.to_nat (width - idx)) with (S (Z.to_nat (width - (idx + 1)))) by lia.
    cbn [seq map]. rewrite Z2Nat.id by lia. f_equal. f_equal. f_equal. lia.
  Qed.

  Lemma refine ins : Forall (fun c => 0 <= bdata (cbeat c) < 2 ^ width) ins ->
    trace (ws2812b_core T0H T1H T TRST width) ins = trace (ws_player T0H T1H T TRST width) ins.
  Proof.
    apply (trace_refine (ws2812b_core T0H T1H T TRST width) (ws_player T0H T1H T TRST width) R).
    - reflexivity.
    - intros s w c HR Hc. cbn [ws2812b_core ws_player cout cnext cst] in *.
      destruct s as [st sreg cycs last idx]. unfold R in HR. cbn [ws_st] in HR. destruct st; cbn [ws_idx ws_cycs ws_last ws_sreg] in HR.
      + subst w. split; [reflexivity|]. unfold ws_next, ws_inc. cbn [ws_st ws_sreg ws_last ws_idx].
        destruct (cvalid c); [|reflexivity]. unfold R. cbn [ws_st ws_idx ws_cycs ws_last ws_sreg].
        exists (bdata (cbeat c)). rewrite (trunc_small width) by auto.
        repeat split; try lia.
        * intros j Hj. destruct (Z.ltb_spec j 0); [lia|]. f_equal. lia.
        * unfold pixel_wave, msb_first. change (map _ (seq 0 (Z.to_nat width))) with (map (fun i => Z.testbit (bdata (cbeat c)) (width - 1 - Z.of_nat i)) (seq (Z.to_nat 0) (Z.to_nat width))).
          replace (Z.to_nat width) with (Z.to_nat (width - 0)) at 1 by lia.
          change (map (fun i => Z.testbit (bdata (cbeat c)) (width - 1 - Z.of_nat i)) (seq (Z.to_nat 0) (Z.to_nat (width - 0)))) with (tail_bits (bdata (cbeat c)) 0).
          rewrite tail_bits_cons by lia. cbn [flat_map]. rewrite <- app_assoc. f_equal.
          unfold ws_bit. cbn [ws_sreg]. rewrite Z.sub_0_r. reflexivity.
      + destruct HR as (d & Hd & Hidx & Hs & Hcy & ->).
        assert (Hb : ws_bit width (Ws WsTransmit sreg cycs last idx) = Z.testbit d (width - 1 - idx)).
        { unfold ws_bit. cbn [ws_sreg]. rewrite Hs by lia. destruct (Z.ltb_spec (width - 1) idx); [lia|]. reflexivity. }
        rewrite wave_skip by lia. rewrite <- app_comm_cons. cbn [cout cnext].
        set (s := Ws WsTransmit sreg cycs last idx) in *. set (b := ws_bit width s) in *.
        assert (Hhigh : ws_high T0H T1H width s = (cycs <? (if b then T1H else T0H))).
        { unfold ws_high. fold b. cbn [ws_cycs s]. destruct b; cbn [negb andb orb]; [reflexivity|apply orb_false_r]. }
        split.
        { unfold ws_ready, ws_pin. cbn [ws_st s]. rewrite Hhigh. reflexivity. }
        assert (Hinc : ws_inc T0H T1H T width s = (cycs <? T)).
        { unfold ws_inc. cbn [ws_st s]. rewrite Hhigh. cbn [ws_cycs s]. destruct b;
          destruct (Z.ltb_spec cycs T), (Z.ltb_spec cycs T1H), (Z.ltb_spec cycs T0H); try reflexivity; lia. }
        unfold ws_next. rewrite Hinc. cbn [ws_st s]. cbn [ws_idx s ws_last ws_sreg ws_cycs].
        destruct (Z.ltb_spec cycs T).
        * unfold R. cbn [ws_st ws_idx ws_cycs ws_last ws_sreg]. rewrite trunc_range_small by lia.
          exists d. repeat split; try lia; auto.
        * assert (cycs = T) by lia. subst cycs. rewrite wave_end. cbn [app].
          destruct (Z.ltb_spec idx (width - 1)).
          -- unfold R. cbn [ws_st ws_idx ws_cycs ws_last ws_sreg].
             rewrite trunc_range_small by lia. exists d.
             assert (Hs' : forall j, 0 <= j < width -> Z.testbit (trunc width (cat 1 0 sreg)) j = if j <? idx + 1 then false else Z.testbit d (j - (idx + 1))).
             { intros j Hj. unfold trunc. rewrite Z.mod_pow2_bits_low by lia. rewrite cat_testbit by lia.
               rewrite Z.testbit_0_l. destruct (Z.ltb_spec j 1).
               - destruct (Z.ltb_spec j (idx + 1)); [reflexivity|lia].
               - rewrite Hs by lia. destruct (Z.ltb_spec (j - 1) idx), (Z.ltb_spec j (idx + 1)); try lia; auto. f_equal. lia. }
             repeat split; try lia; auto.
             rewrite tail_bits_cons by lia. cbn [flat_map]. rewrite <- app_assoc. cbn [Z.to_nat skipn]. f_equal.
             unfold ws_bit. cbn [ws_sreg]. rewrite Hs' by lia. destruct (Z.ltb_spec (width - 1) (idx + 1)); [lia|]. f_equal.
          -- assert (idx + 1 = width) by lia.
             replace (tail_bits d (idx + 1)) with (@nil bool) by (unfold tail_bits; now replace (Z.to_nat (width - (idx + 1))) with 0%nat by lia).
             cbn [flat_map app]. destruct last; unfold R, rst; cbn [ws_st ws_cycs]; auto. split; [lia|]. f_equal. lia.
      + destruct HR as [Hcy ->]. replace (Z.to_nat (TRST + 1 - cycs)) with (S (Z.to_nat (TRST - cycs))) by lia.
        cbn [repeat]. split; [reflexivity|]. unfold ws_next, ws_inc. cbn [ws_st ws_cycs ws_sreg ws_last ws_idx].
        destruct (Z.leb_spec TRST cycs); unfold R; cbn [ws_st ws_cycs].
        * replace (Z.to_nat (TRST - cycs)) with 0%nat by lia. reflexivity.
        * rewrite trunc_range_small by lia. split; [lia|]. f_equal. lia.
  Qed.
End P.

(** What a player does with one waveform. *)
Lemma player_wave T0H T1H T TRST width w ins :
  map (fun o => (wo_ready o, wo_pin o)) (firstn (length w) (trace_from (ws_player T0H T1H T TRST width) w ins)) =
  map (fun p => (false, p)) (firstn (length ins) w) /\
  (forall n, (length w <= n)%nat ->
     forall i, nth_error ins n = Some i -> state_from (ws_player T0H T1H T TRST width) w (firstn (length w) ins) = []).
Proof.
  revert ins. induction w as [|p w IH]; intros ins.
  - split; [destruct (length ins); reflexivity|reflexivity].
  - destruct ins as [|i ins]; [split; [reflexivity|intros [|n] ? ? E; discriminate]|].
    destruct (IH ins) as [A B]. split.
    + cbn. f_equal. exact A.
    + intros [|n] Hn j E; cbn in Hn; [lia|]. cbn in E. cbn. exact (B n ltac:(lia) j E).
Qed.
