(** An SPI slave with a clock of its own that samples the pins as they change: C162. *)
From Verif Require Import Stream Bits Fifo_model Fifo_proofs Fifo_props Timer_model Spiclk_model I2cstream_proofs Spistream_model Spistream_props Spimaster_model Spimaster_props Spislave_model Spislave_props Spilink_model Spilink_spec Spilink_proofs Spilink_props Spiclock_spec Spiclock_proofs Spiclock_props Spiblur_spec.

Lemma glimpsed_snoc t o gs g : length gs = length t -> glimpsed (t ++ [o]) (gs ++ [g]) = glimpsed t gs ++ g_found o g.
Proof.
  intros L. unfold glimpsed. assert (C : combine (t ++ [o]) (gs ++ [g]) = combine t gs ++ [(o, g)]).
  { revert gs L. induction t as [|x t IH]; intros [|y gs] L; try discriminate; [reflexivity|]. cbn [combine app]. rewrite IH by (cbn [length] in L; lia). reflexivity. }
  rewrite C, flat_map_app. cbn [flat_map fst snd]. now rewrite app_nil_r.
Qed.
Lemma blurred_snoc bw t o gs g : length gs = length t -> blurred bw (t ++ [o]) (gs ++ [g]) ->
  blurred bw t gs /\ (forall q, g_blur g = Some q -> mixed bw (last (map pins_of t) (pins_of o)) (pins_of o) q).
Proof.
  intros L B. split.
  - intros b o' a gb g' ga q Et Eg El Eq. apply (B b o' (a ++ [o]) gb g' (ga ++ [g]) q); [rewrite Et|rewrite Eg| |]; rewrite <- ?app_assoc; auto.
  - intros q Eq. apply (B t o [] gs g [] q); auto.
Qed.
Lemma le_length (l l' : list nat) : Forall2 le l l' -> length l = length l'.
Proof. induction 1; cbn [length]; congruence. Qed.
Lemma often_more w ks ks' : often w ks -> Forall2 le ks ks' -> often w ks'.
Proof.
  intros O F a b d E L. rewrite E in F. apply Forall2_app_inv_r in F. destruct F as (a0 & r & _ & F & Er). apply Forall2_app_inv_r in F. destruct F as (b0 & d0 & F & _ & Er').
  destruct (O a0 b0 d0) as (k & Hk & P); [now rewrite Er, Er'|rewrite <- L; now apply le_length|].
  clear - F Hk P. induction F as [|x y l l' H F IH]; [destruct Hk|]. destruct Hk as [->|Hk]; [exists y; split; [now left|lia]|]. destruct (IH Hk) as (z & Z1 & Z2). exists z. split; [now right|exact Z2].
Qed.

Section Blur.
  Context (width bw div delay : Z) (cpol cpha with_len : bool) (n : nat) (w : nat).
  Context (Hdiv : 0 <= div < 256) (Hbw : In bw [1; 2; 4; 8]) (Hn : width = bw * Z.of_nat n) (Hw : 0 < width <= 256) (Hm : cpol = cpha).
  Context (Hw1 : (0 < w)%nat) (Hw2 : Z.of_nat w <= div + 1) (Hw3 : (w <= 5)%nat).
  Notation host := (spi_host width bw div delay).
  Notation slave := (spi_slave cpol cpha width bw with_len [width]).
  Notation phy ins := (snd (state host ins)).
  Notation clk ins := (ck_clk (m_ck _ (phy ins))).
  Notation cnt ins := (ck_cnt (m_ck _ (phy ins))).
  Notation P ins := (map pins_of (trace host ins)).
  Notation Q ins ks := (found (trace host ins) ks).
  Notation smp := (sampled cpol cpha low).
  Notation sm := (sampled cpol cpha).
  Notation dq ins := (ms_dq_o width bw (phy ins)).
  Notation cse ins := (ms_cs_en width (phy ins)).
  Let Hdw : (bw | width). Proof. exists (Z.of_nat n). lia. Qed.

  (** The cycle before the clock rises. *)
  Lemma rise_before ins i : clk ins = false -> clk (ins ++ [i]) = true -> cse ins = true /\ dq (ins ++ [i]) = dq ins.
  Proof.
    intros H H'. destruct (host_inv width bw div delay Hdiv Hbw Hdw Hw ins) as (ws & gs & pend & cur & W & _ & _ & FA & PH & _).
    rewrite (proj2 (host_snoc width bw div delay ins i)) in *. 
    assert (O : m_run _ (phy ins) = true -> 1 <= owed width bw div delay ins).
    { intros Hr'. rewrite (owed_is width bw div delay Hdiv Hbw Hdw Hw ins ws gs pend cur W FA PH). pose proof (level_pos width bw div delay ins).
      destruct pend as [x|]; [cbn [opt length]; lia|].
      inversion PH as [p Hr Hc| | | |k Hr Hc Hk Ho]; subst; rewrite Hc in *; [congruence|discriminate]. }
    clear PH FA W. set (s := state host ins) in *. set (j := host_phy_in width bw (fst s) i).
    assert (C' : m_ck _ (snd (cnext host s i)) = ck_next div (m_ck _ (snd s)) (m_run _ (snd s))) by reflexivity. rewrite C' in H'. unfold ck_next in H'. rewrite H in H'.
    destruct (m_run _ (snd s)) eqn:Hr; cbn [ck_clk] in H'; [|discriminate]. specialize (O eq_refl). unfold owed in O. split.
    - apply (host_selected width bw div delay Hdiv Hbw Hdw Hw). lia.
    - assert (NE : ms_negedge width div (snd s) = false) by (unfold ms_negedge, ck_negedge; rewrite H; rewrite ?andb_false_r; reflexivity).
      assert (LD : ms_load width div (snd s) j = false) by (unfold ms_load, ms_out_end; rewrite NE, Hr; reflexivity).
      assert (W' : m_w _ (snd (cnext host s i)) = m_w _ (snd s)).
      { change (m_w _ (snd (cnext host s i))) with (if ms_load width div (snd s) j then mw_width (bdata (cbeat (mi_sink j))) else m_w _ (snd s)). now rewrite LD. }
      assert (S' : m_so _ (snd (cnext host s i)) = m_so _ (snd s)).
      { change (m_so _ (snd (cnext host s i))) with (if ms_load width div (snd s) j then trunc width (Z.shiftl (mw_data (bdata (cbeat (mi_sink j)))) (width - mw_len (bdata (cbeat (mi_sink j)))))
             else if ms_negedge width div (snd s) && ms_case (m_w _ (snd s)) then trunc width (2 ^ m_w _ (snd s) * m_so _ (snd s)) else m_so _ (snd s)). now rewrite LD, NE. }
      unfold ms_dq_o. now rewrite W', S'.
  Qed.
  (** In the first five cycles of the high phase, the chip select and the data lines
      are as in the cycle before. *)
  Lemma high_stable ins i : clk (ins ++ [i]) = true -> cnt (ins ++ [i]) <= 4 -> cse ins = true /\ dq (ins ++ [i]) = dq ins.
  Proof.
    intros H Hc. destruct (clk ins) eqn:E; [|now apply rise_before].
    destruct (high_step width bw div delay Hdiv Hbw Hdw Hw ins i E) as [(_ & X & Y)|(X & _)]; [|congruence]. split; [|exact Y].
    apply (high_selected width bw div delay Hdiv Hbw Hdw Hw ins E). lia.
  Qed.
  (** When the clock has fallen, the slave had seen it high. *)
  Lemma fall_seen ins i ks : length ks = length (ins ++ [i]) -> often w ks -> clk ins = true -> clk (ins ++ [i]) = false ->
    p_clk (last (Q (ins ++ [i]) ks) low) = true.
  Proof.
    intros L O H H'. destruct ks as [|k ks _] using rev_ind; [rewrite app_length in L; cbn [length] in L; lia|]. rewrite !app_length in L. cbn [length] in L.
    assert (L' : length ks = length ins) by lia.
    rewrite (proj1 (host_snoc width bw div delay ins i)), found_snoc by now rewrite trace_length.
    destruct k as [|k]; [|rewrite last_repeat; exact H]. cbn [repeat]. rewrite app_nil_r.
    destruct (seen_run width bw div delay cpol cpha n w Hdiv Hbw Hn Hw Hm Hw1 Hw2 Hw3 ins ks L' (often_app _ _ _ O)) as [S _]. rewrite H in S.
    destruct S as [(_ & S & _)|(S & _)]; [exact S|exfalso].
    destruct (high_step width bw div delay Hdiv Hbw Hdw Hw ins i H) as [(X & _)|(_ & _ & X)]; [congruence|].
    pose proof (idle_often w _ _ O (idle_more ks (cnt ins) (cnt ins + 1) S ltac:(lia)) Hw1). lia.
  Qed.

  Lemma sm_clk p p' l : p_clk p = p_clk p' -> sm p l = sm p' l.
  Proof. destruct l as [|q l]; [reflexivity|]. intros E. cbn [sampled]. rewrite !(edge_is cpol cpha Hm), E. reflexivity. Qed.
  (** The slave finds the same samples as one without uncertainty. *)
  Definition cleared (ins : list host_in) (gs : list glimpse) (ks : list nat) : Prop :=
    Forall2 le (map g_clear gs) ks /\ smp (glimpsed (trace host ins) gs) = smp (Q ins ks) /\
    p_clk (last (glimpsed (trace host ins) gs) low) = p_clk (last (Q ins ks) low) /\
    framed cpol cpha n (glimpsed (trace host ins) gs).
  Lemma cleared_run ins : forall gs, length gs = length ins -> often w (map g_clear gs) -> blurred bw (trace host ins) gs ->
    exists ks, cleared ins gs ks.
  Proof.
    induction ins as [|i ins IH] using rev_ind; intros gs L O B.
    { destruct gs; [|discriminate]. exists []. split; [constructor|]. split; [reflexivity|]. split; [reflexivity|]. intros a b E Hc. destruct a; [discriminate Hc|discriminate]. }
    destruct gs as [|g gs _] using rev_ind; [rewrite app_length in L; cbn [length] in L; lia|]. rewrite !app_length in L. cbn [length] in L.
    assert (L' : length gs = length ins) by lia. assert (LT : length gs = length (trace host ins)) by (rewrite trace_length; exact L').
    rewrite map_app in O. cbn [map] in O.
    destruct (host_snoc width bw div delay ins i) as [E1 _]. rewrite E1 in B. apply blurred_snoc in B; [|exact LT]. destruct B as [B1 B2].
    destruct (IH gs L' (often_app _ _ _ O) B1) as (ks & F & SQ & C & FR).
    assert (LK : length ks = length ins) by (rewrite <- (le_length _ _ F), map_length; exact L').
    assert (OK : forall k, (g_clear g <= k)%nat -> often w (ks ++ [k])) by (intros k Hk; eapply often_more; [exact O|apply Forall2_app; [exact F|constructor; [exact Hk|constructor]]]).
    assert (OS : forall m, often w (ks ++ [S m])) by (intros m; eapply often_last; [..|apply (OK (g_clear g)); lia]; auto).
    assert (O0 : often w ks) by (apply (often_app w ks [g_clear g]); apply OK; lia).
    set (t := trace host ins) in *. set (p := pins_of (cout host (state host ins) i)) in *.
    set (l := glimpsed t gs) in *.
    assert (EL : glimpsed (trace host (ins ++ [i])) (gs ++ [g]) = l ++ g_found (cout host (state host ins) i) g) by (rewrite E1; apply glimpsed_snoc; exact LT).
    assert (EQ : forall k, Q (ins ++ [i]) (ks ++ [k]) = Q ins ks ++ repeat p k) by (intros k; rewrite E1; apply found_snoc; unfold t; now rewrite trace_length). fold t in EQ.
    assert (EP : P (ins ++ [i]) = P ins ++ [p]) by (rewrite E1, map_app; reflexivity).
    assert (SN : seen width bw div delay cpol cpha ins ks) by (apply (seen_run width bw div delay cpol cpha n w); auto).
    (* prefixes ending with clear edges of this cycle *)
    assert (SR : forall m, smp (l ++ repeat p m) = smp (Q (ins ++ [i]) (ks ++ [m]))).
    { intros m. rewrite EQ, !sampled_app, SQ. f_equal. apply sm_clk. exact C. }
    assert (FC : forall a m, smp a = smp (Q (ins ++ [i]) (ks ++ [S m])) -> p_cs_n p = true -> exists j, length (smp a) = (j * n)%nat).
    { intros a m E Hc. rewrite E.
      assert (X : framed cpol cpha n (Q (ins ++ [i]) (ks ++ [S m]))) by (apply (found_framed width bw div delay cpol cpha n w Hdiv Hbw Hn Hw Hm Hw1 Hw2 Hw3); [rewrite !app_length; cbn [length]; lia|apply OS]).
      apply (X _ [] (eq_sym (app_nil_r _))). rewrite EQ, last_repeat. exact Hc. }
    destruct (g_blur g) as [q|] eqn:Eb.
    2: { (* no uncertain edge *)
      assert (EG : g_found (cout host (state host ins) i) g = repeat p (g_clear g)) by (unfold g_found; rewrite Eb; reflexivity).
      exists (ks ++ [g_clear g]). unfold cleared. rewrite map_app, EL, EG. cbn [map]. split; [apply Forall2_app; [exact F|repeat constructor]|].
      split; [apply SR|]. split.
      - rewrite EQ. destruct (g_clear g) as [|k]; [cbn [repeat]; now rewrite !app_nil_r|now rewrite !last_repeat].
      - intros a b E Hc. apply app_eq_app in E. destruct E as (x & [[Ea Ex]|[Ea Ex]]); [exact (FR a x Ea Hc)|].
        apply repeat_eq_app in Ex. destruct Ex as [Ex _]. destruct x as [|y x]; [rewrite app_nil_r in Ea; subst a; apply (FR _ [] (eq_sym (app_nil_r _)) Hc)|].
        cbn [length] in Ex. rewrite <- Ex in Ea. rewrite Ea, last_repeat in Hc. apply (FC a (length x)); [rewrite Ea; apply SR|exact Hc]. }
    specialize (B2 q eq_refl). fold p in B2. destruct B2 as (Mc & Ms & Md & _).
    assert (EG : g_found (cout host (state host ins) i) g = [q] ++ repeat p (g_clear g)) by (unfold g_found; rewrite Eb; reflexivity).
    (* a prefix ending with the uncertain edge, not selected *)
    assert (FQ : p_cs_n q = true -> exists j, length (smp (l ++ [q])) = (j * n)%nat).
    { intros Hc. assert (E0 : smp (l ++ [q]) = smp (Q ins ks)).
      { rewrite sampled_snoc, (edge_is cpol cpha Hm), Hc. cbn [negb andb]. rewrite app_nil_r. exact SQ. }
      rewrite E0. destruct (p_cs_n p) eqn:Pc.
      - apply (FC (Q ins ks) 0%nat); [|reflexivity]. rewrite EQ, sampled_app. cbn [repeat sampled]. rewrite (edge_is cpol cpha Hm), Pc. cbn [negb andb app]. now rewrite app_nil_r.
      - destruct SN as (_ & _ & S3 & _). destruct Ms as [Ms|Ms]; [|congruence]. rewrite Hc in Ms.
        assert (X : p_cs_n (last (P ins) low) = true).
        { fold t. clear - Ms Pc. revert Ms. generalize (map pins_of t). intros r Ms. destruct r as [|y r _] using rev_ind; [cbn [last] in Ms; congruence|]. rewrite last_last in *. congruence. }
        rewrite <- (S3 X). apply (host_framed width bw div delay cpol cpha n Hdiv Hbw Hn Hw Hm ins _ [] (eq_sym (app_nil_r _)) X). }
    assert (FRM : (forall m, smp (l ++ [q] ++ repeat p (S m)) = smp (Q (ins ++ [i]) (ks ++ [S m]))) -> framed cpol cpha n (l ++ [q] ++ repeat p (g_clear g))).
    { intros SB a b E Hc. apply app_eq_app in E. destruct E as (x & [[Ea Ex]|[Ea Ex]]); [exact (FR a x Ea Hc)|].
      destruct x as [|y x]; [rewrite app_nil_r in Ea; subst a; apply (FR _ [] (eq_sym (app_nil_r _)) Hc)|]. injection Ex as <- Ex.
      apply repeat_eq_app in Ex. destruct Ex as [Ex _]. destruct x as [|y x]; [rewrite Ea, last_last in Hc; rewrite Ea; exact (FQ Hc)|].
      cbn [length] in Ex. rewrite <- Ex in Ea. rewrite Ea in Hc. change (q :: repeat p (S (length x))) with ([q] ++ repeat p (S (length x))) in Hc, Ea.
      rewrite app_assoc, last_repeat in Hc. apply (FC a (length x)); [rewrite Ea; apply SB|exact Hc]. }
    assert (Pc : p_clk p = clk ins) by reflexivity.
    assert (Pn : p_cs_n p = negb (cse ins)) by reflexivity.
    assert (Pd : p_dq p = dq ins) by reflexivity.
    destruct (Bool.bool_dec (p_clk q) (p_clk p)) as [EK|EK].
    - (* the clock pin is found new *)
      assert (ED : negb (p_clk (last l low)) && p_clk p = true -> p_cs_n p = false /\ p_cs_n q = false /\ p_dq q = p_dq p).
      { intros H. apply andb_prop in H. destruct H as [H1 H2]. apply negb_true_iff in H1. rewrite C in H1. rewrite Pc in H2.
        destruct SN as [SN _]. rewrite H2 in SN. destruct SN as [(_ & X & _)|(X & _)]; [fold t in X; congruence|].
        pose proof (idle_often w ks (cnt ins) O0 X Hw1) as K.
        rewrite Pn, (high_selected width bw div delay Hdiv Hbw Hdw Hw ins H2) by lia. split; [reflexivity|].
        clear IH. destruct ins as [|i' ins' _] using rev_ind; [discriminate H2|].
        destruct (high_stable ins' i' H2 ltac:(lia)) as [A1 A2].
        unfold t in *. rewrite (proj1 (host_snoc width bw div delay ins' i')), map_app in Ms, Md. cbn [map] in Ms, Md. rewrite last_last in Ms, Md.
        change (p_cs_n (pins_of (cout host (state host ins') i'))) with (negb (cse ins')) in Ms. change (p_dq (pins_of (cout host (state host ins') i'))) with (dq ins') in Md.
        split; [|apply Md; rewrite Pd, A2; reflexivity].
        rewrite A1 in Ms. destruct Ms as [Ms|Ms]; [exact Ms|]. rewrite Ms, Pn, (high_selected width bw div delay Hdiv Hbw Hdw Hw (ins' ++ [i']) H2) by lia. reflexivity. }
      assert (SB : forall m, smp (l ++ [q] ++ repeat p m) = smp (Q (ins ++ [i]) (ks ++ [S m]))).
      { intros m. rewrite EQ. rewrite (sampled_repeat cpol cpha low (Q ins ks)). rewrite sampled_app, SQ. f_equal. cbn [app sampled].
        rewrite (sm_clk q p) by exact EK. rewrite sampled_again, app_nil_r, !(edge_is cpol cpha Hm), EK, C.
        rewrite C in ED. fold t in ED |- *; destruct (negb (p_clk (last (found t ks) low)) && p_clk p); [|now rewrite !andb_false_r].
        destruct (ED eq_refl) as (-> & -> & ->). reflexivity. }
      exists (ks ++ [S (g_clear g)]). unfold cleared. rewrite map_app, EL, EG. cbn [map]. split; [apply Forall2_app; [exact F|constructor; [lia|constructor]]|].
      split; [apply SB|]. split.
      + rewrite EQ, last_repeat. destruct (g_clear g) as [|k]; [cbn [repeat app]; rewrite last_last; exact EK|rewrite app_assoc, last_repeat; reflexivity].
      + apply FRM. intros m. rewrite app_assoc, sampled_repeat, last_last, (edge_is cpol cpha Hm), EK.
        assert (X : negb (p_cs_n p) && (negb (p_clk p) && p_clk p) = false) by (destruct (p_clk p); cbn [negb andb]; now rewrite ?andb_false_r). rewrite X, app_nil_r.
        pose proof (SB 0%nat) as Y. cbn [repeat app] in Y. rewrite Y, !EQ, !sampled_repeat. reflexivity.
    - (* the clock pin is found old *)
      destruct Mc as [Mc|Mc]; [|contradiction].
      destruct ins as [|i' ins' _] using rev_ind; [exfalso; apply EK; rewrite Mc; reflexivity|].
      assert (EO : p_clk q = clk ins').
      { rewrite Mc. unfold t. rewrite (proj1 (host_snoc width bw div delay ins' i')), map_app. cbn [map]. rewrite last_last. reflexivity. }
      rewrite EO, Pc in EK.
      assert (X : p_clk (last (Q (ins' ++ [i']) ks) low) = p_clk q).
      { rewrite EO. destruct (clk ins') eqn:K1.
        - destruct (clk (ins' ++ [i'])) eqn:K2; [congruence|]. now apply fall_seen.
        - destruct (clk (ins' ++ [i'])) eqn:K2; [|congruence]. destruct SN as [SN _]. rewrite K2 in SN.
          destruct (low_step width bw div delay Hdiv Hbw Hdw Hw ins' i' K1) as [[X _]|(_ & X & _)]; [congruence|].
          destruct SN as [(Y & _)|(_ & Y & _)]; [congruence|exact Y]. }
      fold t in X.
      assert (SB : forall m, smp (l ++ [q] ++ repeat p m) = smp (Q ((ins' ++ [i']) ++ [i]) (ks ++ [m]))).
      { intros m. rewrite EQ, !sampled_app, SQ. f_equal. cbn [app sampled]. rewrite (edge_is cpol cpha Hm), C, X.
        assert (Y : negb (p_cs_n q) && (negb (p_clk q) && p_clk q) = false) by (destruct (p_clk q); cbn [negb andb]; now rewrite ?andb_false_r). rewrite Y. cbn [app].
        apply sm_clk. now rewrite X. }
      exists (ks ++ [g_clear g]). unfold cleared. rewrite map_app, EL, EG. cbn [map]. split; [apply Forall2_app; [exact F|repeat constructor]|].
      split; [apply SB|]. split; [|apply FRM; intros m; apply SB].
      rewrite EQ. destruct (g_clear g) as [|k]; [cbn [repeat app]; rewrite last_last, app_nil_r; now rewrite X|rewrite app_assoc, !last_repeat; reflexivity].
  Qed.

  Lemma blur_dq ins sins gs : length gs = length ins -> blurred bw (trace host ins) gs -> map so_pins (trace slave sins) = glimpsed (trace host ins) gs -> dq_ok bw (trace slave sins).
  Proof.
    clear - Hbw. intros L B E. unfold dq_ok. apply Forall_forall. intros o Ho. assert (Bp : 0 < bw) by (cbn [In] in Hbw; lia).
    assert (0 < 2 ^ bw) by (apply Z.pow_pos_nonneg; lia).
    apply (in_map so_pins) in Ho. rewrite E in Ho. unfold glimpsed in Ho. apply in_flat_map in Ho. destruct Ho as ([h g] & Hin & Ho). cbn [fst snd] in Ho.
    apply in_split in Hin. destruct Hin as (c1 & c2 & Ec).
    assert (LT : length (trace host ins) = length gs) by (rewrite trace_length; auto).
    assert (Et : trace host ins = map fst c1 ++ h :: map fst c2).
    { pose proof (f_equal (map fst) Ec) as X. rewrite map_app in X. cbn [map fst] in X. rewrite <- X. clear - LT. revert gs LT. induction (trace host ins) as [|x t IH]; intros [|y gs] LT; try discriminate; [reflexivity|]. cbn [combine map fst]. f_equal. apply IH. now injection LT. }
    assert (Eg : gs = map snd c1 ++ g :: map snd c2).
    { pose proof (f_equal (map snd) Ec) as X. rewrite map_app in X. cbn [map snd] in X. rewrite <- X. clear - LT. revert gs LT. induction (trace host ins) as [|x t IH]; intros [|y gs] LT; try discriminate; [reflexivity|]. cbn [combine map snd]. f_equal. apply IH. now injection LT. }
    unfold g_found in Ho. apply in_app_or in Ho. destruct Ho as [Ho|Ho].
    - destruct (g_blur g) as [q|] eqn:Eb; [|destruct Ho]. destruct Ho as [<-|[]].
      apply (B _ _ _ _ _ _ q Et Eg); [now rewrite !map_length|exact Eb].
    - apply repeat_spec in Ho. rewrite Ho. apply trace_one in Et. destruct Et as (a & i & b & -> & _ & ->).
      cbn [p_dq pins_of]. change (mo_dq_o (ho_phy (cout host (state host a) i))) with (ms_dq_o width bw (snd (state host a))). unfold ms_dq_o.
      destruct (ms_case _); [apply trunc_range; lia|lia].
  Qed.
  Lemma blur_received ins sins gs : let t := trace host ins in let u := trace slave sins in
    Forall (fun b => 0 <= bdata b < 2 ^ width) (sent t) -> blurry bw w gs u t ->
    Forall (fun x => snd (fst x) = width) (pushes u) /\
    exists rest pend r, sent t = firstn (length (pushes u)) (sent t) ++ rest /\
      map (fun x => fst (fst x)) (pushes u) = map bdata (firstn (length (pushes u)) (sent t)) /\
      concat (map (cut width bw) rest) = pend ++ r /\
      (p_cs_n (last (looked_at u) low) = true -> pend = []) /\
      smp (looked_at u) = concat (map (cut width bw) (firstn (length (pushes u)) (sent t))) ++ pend.
  Proof.
    intros t u Hd (L & O & B & E). unfold t in L. rewrite trace_length in L.
    destruct (cleared_run ins gs L O B) as (ks & F & SQ & C & FR).
    assert (LK : length ks = length ins) by (rewrite <- (le_length _ _ F), map_length; exact L).
    destruct (seen_run width bw div delay cpol cpha n w Hdiv Hbw Hn Hw Hm Hw1 Hw2 Hw3 ins ks LK (often_more w _ _ O F)) as (_ & _ & _ & r & X).
    apply (link_sampled width bw div delay cpol cpha with_len n Hdiv Hbw Hn Hw Hm ins sins Hd).
    - exact (blur_dq ins sins gs L B E).
    - eapply (looked_framed cpol cpha n Hm); [exact E|exact FR].
    - fold t u in X, SQ |- *. rewrite X, <- SQ, <- (low_twice cpol cpha Hm (glimpsed t gs)), <- E.
      rewrite <- (firstn_skipn (length u) (low :: low :: map so_pins u)). fold (looked_at u). rewrite sampled_app, <- app_assoc. eexists. reflexivity.
  Qed.
  Lemma blur_complete ins sins gs : let t := trace host ins in let u := trace slave sins in
    Forall (fun b => 0 <= bdata b < 2 ^ width) (sent t) -> blurry bw w gs u t ->
    forall v p, p = last (map pins_of t) low -> p_cs_n p = true -> map so_pins u = v ++ [p; p; p] ->
    length (pushes u) = length (sent t).
  Proof.
    intros t u Hd HC v p Hp Hc Hv. destruct (blur_received ins sins gs Hd HC) as (_ & rest & pend & r & E1 & E2 & _ & E4 & E5). fold t u in E1, E2, E4, E5.
    destruct HC as (L & O & B & E). unfold t in L. rewrite trace_length in L.
    destruct (cleared_run ins gs L O B) as (ks & F & SQ & C & FR).
    assert (LK : length ks = length ins) by (rewrite <- (le_length _ _ F), map_length; exact L).
    destruct (seen_run width bw div delay cpol cpha n w Hdiv Hbw Hn Hw Hm Hw1 Hw2 Hw3 ins ks LK (often_more w _ _ O F)) as (_ & _ & SE & _). fold t in SE, SQ. rewrite <- Hp in SE. specialize (SE Hc). rewrite <- SQ in SE.
    assert (LA : looked_at u = low :: low :: v ++ [p]).
    { unfold looked_at. rewrite Hv. assert (Lu : length u = S (S (S (length v)))) by (rewrite <- (map_length so_pins), Hv, app_length; cbn [length]; lia).
      rewrite Lu. change (firstn (S (S (S (length v)))) (low :: low :: v ++ [p; p; p])) with (low :: low :: firstn (S (length v)) (v ++ [p; p; p])). do 2 f_equal. change [p; p; p] with ([p] ++ [p; p]). rewrite app_assoc, firstn_app, app_length. cbn [length].
      replace (S (length v) - (length v + 1))%nat with 0%nat by lia. rewrite firstn_O, app_nil_r. apply firstn_all2. rewrite app_length. cbn [length]. lia. }
    assert (LL : p_cs_n (last (looked_at u) low) = true).
    { rewrite LA. change (low :: low :: v ++ [p]) with ((low :: low :: v) ++ [p]). now rewrite last_last. }
    assert (LS : smp (looked_at u) = smp (map pins_of t)).
    { rewrite LA, (low_twice cpol cpha Hm), SE, <- E, Hv. change [p; p; p] with ([p] ++ repeat p 2). rewrite app_assoc, (sampled_app _ _ _ (v ++ [p])), last_last, sampled_again. now rewrite app_nil_r. }
    rewrite (E4 LL), app_nil_r, LS in E5. unfold t in E5 at 1.
    rewrite (host_all width bw div delay cpol cpha n Hdiv Hbw Hn Hw Hm ins) in E5 by (fold t; rewrite <- Hp; exact Hc). fold t in E5.
    apply (f_equal (@length _)) in E5. rewrite !(concat_len n) in E5 by (apply cuts_len; auto). rewrite !map_length, firstn_length in E5.
    pose proof (n_pos width bw n Hbw Hn Hw). assert (length (sent t) = Nat.min (length (pushes u)) (length (sent t))) by nia.
    apply (f_equal (@length _)) in E2. rewrite !map_length, firstn_length in E2. lia.
  Qed.
End Blur.

(** C162: edges of the slave's clock that fall on a change of the pins, and find each pin
    old or new, do no harm: if there is a clear edge in every min(div+1, 5) cycles of the
    host's clock, the words received by the slave are the words given to the host, in
    order and whole. *)
Theorem C162_words_partial : forall width bw div delay cpol cpha with_len ins sins gs w,
  0 <= div < 256 -> In bw [1; 2; 4; 8] -> (bw | width) -> 0 < width <= 256 -> cpol = cpha ->
  let t := trace (spi_host width bw div delay) ins in
  let u := trace (spi_slave cpol cpha width bw with_len [width]) sins in
  Forall (fun b => 0 <= bdata b < 2 ^ width) (sent t) ->
  (0 < w)%nat -> Z.of_nat w <= Z.min (div + 1) 5 -> blurry bw w gs u t ->
  Forall (fun x => snd (fst x) = width) (pushes u) /\
  exists rest, map bdata (sent t) = map (fun x => fst (fst x)) (pushes u) ++ rest.
Proof.
  intros width bw div delay cpol cpha wl ins sins gs w Hd Hb [q Hq] Hw Hm t u HF W1 W2 HW.
  assert (B : 0 < bw) by (cbn [In] in Hb; lia). assert (Hn : width = bw * Z.of_nat (Z.to_nat q)) by (rewrite Z2Nat.id by nia; lia).
  destruct (blur_received width bw div delay cpol cpha wl (Z.to_nat q) w Hd Hb Hn Hw Hm W1 ltac:(lia) ltac:(lia) ins sins gs HF HW) as (H & rest & pend & r & E1 & E2 & _).
  fold t u in H, E1, E2. split; [exact H|]. exists (map bdata rest). rewrite E2, <- map_app, <- E1. reflexivity.
Qed.

(** Once the host has released its chip select and the slave has had three more edges,
    the slave has received every word given to the host. *)
Theorem C162_complete : forall width bw div delay cpol cpha with_len ins sins gs w v p,
  0 <= div < 256 -> In bw [1; 2; 4; 8] -> (bw | width) -> 0 < width <= 256 -> cpol = cpha ->
  let t := trace (spi_host width bw div delay) ins in
  let u := trace (spi_slave cpol cpha width bw with_len [width]) sins in
  Forall (fun b => 0 <= bdata b < 2 ^ width) (sent t) ->
  (0 < w)%nat -> Z.of_nat w <= Z.min (div + 1) 5 -> blurry bw w gs u t ->
  p = last (map pins_of t) low -> p_cs_n p = true -> map so_pins u = v ++ [p; p; p] ->
  map (fun x => fst (fst x)) (pushes u) = map bdata (sent t).
Proof.
  intros width bw div delay cpol cpha wl ins sins gs w v p Hd Hb [q Hq] Hw Hm t u HF W1 W2 HW Hp Hc Hv.
  assert (B : 0 < bw) by (cbn [In] in Hb; lia). assert (Hn : width = bw * Z.of_nat (Z.to_nat q)) by (rewrite Z2Nat.id by nia; lia).
  destruct (blur_received width bw div delay cpol cpha wl (Z.to_nat q) w Hd Hb Hn Hw Hm W1 ltac:(lia) ltac:(lia) ins sins gs HF HW) as (_ & rest & pend & r & _ & E2 & _).
  pose proof (blur_complete width bw div delay cpol cpha wl (Z.to_nat q) w Hd Hb Hn Hw Hm W1 ltac:(lia) ltac:(lia) ins sins gs HF HW v p Hp Hc Hv) as L.
  fold t u in E2, L. rewrite E2, L, firstn_all. reflexivity.
Qed.

(** What the slave's reader gets, when the slave's FIFO is ready at every push. *)
Theorem C162_delivered : forall width bw div delay cpol cpha ins sins gs w,
  0 <= div < 256 -> In bw [1; 2; 4; 8] -> (bw | width) -> 0 < width <= 256 -> cpol = cpha ->
  let t := trace (spi_host width bw div delay) ins in
  let u := trace (spi_slave cpol cpha width bw false [width]) sins in
  Forall (fun b => 0 <= bdata b < 2 ^ width) (sent t) ->
  (0 < w)%nat -> Z.of_nat w <= Z.min (div + 1) 5 -> blurry bw w gs u t ->
  Forall (fun o => so_push o <> None -> o_sready (so_fifo o) = true) u ->
  exists held coming, map bdata (sent t) = map bdata (emitted (map so_fifo u)) ++ held ++ coming /\ (length held <= 8)%nat.
Proof.
  intros width bw div delay cpol cpha ins sins gs w Hd Hb Hq Hw Hm t u HF W1 W2 HW HR.
  destruct (C162_words_partial width bw div delay cpol cpha false ins sins gs w Hd Hb Hq Hw Hm HF W1 W2 HW) as (_ & rest & E). fold t u in E.
  assert (B : 0 < bw) by (cbn [In] in Hb; lia). assert (Hn := Hq). destruct Hn as [q Hn].
  assert (Hn' : width = bw * Z.of_nat (Z.to_nat q)) by (rewrite Z2Nat.id by nia; lia).
  destruct HW as (L & O & Bl & EW). unfold t in L. rewrite trace_length in L.
  destruct (C55_delivered cpol cpha width bw false [width] sins (slave_ok width bw (Z.to_nat q) B ltac:(lia) Hn')
     (blur_dq width bw div delay cpol cpha false Hb ins sins gs L Bl EW) HR) as (held & E' & Lh).
  fold u in E'. cbv beta iota in E'. exists held, rest. rewrite E, E', <- app_assoc. split; [reflexivity|exact Lh].
Qed.

(** A way to check [blurred] on a given run. *)
Definition mixedb (bw : Z) (old new q : pins) : bool :=
  (Bool.eqb (p_clk q) (p_clk old) || Bool.eqb (p_clk q) (p_clk new)) &&
  (Bool.eqb (p_cs_n q) (p_cs_n old) || Bool.eqb (p_cs_n q) (p_cs_n new)) &&
  (negb (p_dq old =? p_dq new) || (p_dq q =? p_dq new)) && ((0 <=? p_dq q) && (p_dq q <? 2 ^ bw)).
Fixpoint blurredb (bw : Z) (p : pins) (t : list host_obs) (gs : list glimpse) : bool :=
  match t, gs with
  | o :: t', g :: gs' => (match g_blur g with Some q => mixedb bw p (pins_of o) q | None => true end) && blurredb bw (pins_of o) t' gs'
  | _, _ => true
  end.
Lemma mixedb_ok bw old new q : mixedb bw old new q = true -> mixed bw old new q.
Proof.
  unfold mixedb, mixed. rewrite !andb_true_iff, !orb_true_iff, !Bool.eqb_true_iff, negb_true_iff, Z.eqb_neq, Z.eqb_eq, Z.leb_le, Z.ltb_lt. intuition congruence.
Qed.
Lemma blurredb_from bw : forall t gs p, blurredb bw p t gs = true ->
  forall before o after gb g ga q, t = before ++ o :: after -> gs = gb ++ g :: ga -> length gb = length before ->
  g_blur g = Some q -> mixed bw (last (map pins_of before) p) (pins_of o) q.
Proof.
  induction t as [|o t IH]; intros gs p H before o' after gb g ga q Et Eg El Eq; [destruct before; discriminate|].
  destruct gs as [|g0 gs]; [destruct gb; discriminate|]. cbn [blurredb] in H. apply andb_prop in H. destruct H as [H1 H2].
  destruct before as [|b before], gb as [|g1 gb]; try discriminate.
  - injection Et as <- _. injection Eg as <- _. rewrite Eq in H1. cbn [map last]. now apply mixedb_ok.
  - injection Et as <- Et. injection Eg as <- Eg. injection El as El. pose proof (IH gs (pins_of o) H2 before o' after gb g ga q Et Eg El Eq) as X.
    destruct before as [|b' before]; [exact X|]. cbn [map] in X |- *. change (last (pins_of o :: pins_of b' :: map pins_of before) p) with (last (pins_of b' :: map pins_of before) p). rewrite (last_dflt _ _ p (pins_of o)). exact X.
Qed.
Lemma blurredb_ok bw o t gs : blurredb bw (pins_of o) (o :: t) gs = true -> blurred bw (o :: t) gs.
Proof.
  intros H before o' after gb g ga q Et Eg El Eq. pose proof (blurredb_from bw _ gs (pins_of o) H before o' after gb g ga q Et Eg El Eq) as X.
  destruct before as [|b before]; [|cbn [map] in X |- *; rewrite (last_dflt _ _ (pins_of o') (pins_of o)); exact X]. injection Et as -> _. exact X.
Qed.

(** An edge on every change of the pins, that finds the chip select new and the clock and
    the data lines old, besides the clear ones. *)
Fixpoint smear (p : pins) (t : list host_obs) (ks : list nat) : list glimpse :=
  match t, ks with
  | o :: t', k :: ks' => Glimpse (if pins_eqb p (pins_of o) then None else Some (Pins (p_clk p) (p_cs_n (pins_of o)) (p_dq p))) k :: smear (pins_of o) t' ks'
  | _, _ => []
  end.
Definition blur_run : list host_obs := trace (spi_host 8 1 7 0) slow_ex.
Definition blur_gs : list glimpse := smear (pins_of (hd (cout (spi_host 8 1 7 0) (creset _) (HostIn nobeat 0 true)) blur_run)) blur_run (every 5 4 200).
Definition blur_sins (t : list host_obs) (gs : list glimpse) : list sl_in := map (fun p => SlIn p no_word true) (glimpsed t gs).
(** Only edges on changes of the clock. *)
Fixpoint dim (p : pins) (t : list host_obs) (ks : list nat) : list glimpse :=
  match t, ks with
  | o :: t', k :: ks' => Glimpse (match k with 0%nat => None | _ => Some (Pins (p_clk p && p_clk (pins_of o)) (p_cs_n (pins_of o)) (p_dq (pins_of o))) end) 0 :: dim (pins_of o) t' ks'
  | _, _ => []
  end.
Definition dim_ex : list host_in := repeat (HostIn (Chan true (Beat true true 0xa5)) 0 true) 4 ++ repeat (HostIn nobeat 0 true) 76.
Definition dim_run : list host_obs := trace (spi_host 8 1 1 0) dim_ex.
Definition dim_gs (p : nat) : list glimpse := dim (pins_of (hd (cout (spi_host 8 1 1 0) (creset _) (HostIn nobeat 0 true)) dim_run)) dim_run (every 2 p 80).

(** The uncertain edges cannot be relied on: here the slave's clock has an edge in every
    two cycles of the host's, where each phase of the SPI clock lasts two, but every one
    of them falls on a change of the SPI clock and finds it low; the word is lost. *)
Theorem C162_words_refuted : exists ins gs,
  let t := trace (spi_host 8 1 1 0) ins in
  let u := trace (spi_slave false false 8 1 false [8]) (blur_sins t gs) in
  Forall (fun b => 0 <= bdata b < 2 ^ 8) (sent t) /\
  length gs = length t /\ often 2 (map g_edges gs) /\ blurred 1 t gs /\ map so_pins u = glimpsed t gs /\
  map bdata (sent t) = [0xa5] /\ p_cs_n (last (map so_pins u) low) = true /\ pushes u = [].
Proof.
  exists dim_ex, (dim_gs 1). cbv zeta. split; [vm_compute; repeat constructor; discriminate|]. split; [vm_compute; reflexivity|]. split.
  { apply (zeros_often 2 ltac:(lia) _ 0%nat ltac:(lia)). vm_compute. reflexivity. }
  split; [|split; [|split; [|split]]; vm_compute; reflexivity].
  change (trace (spi_host 8 1 1 0) dim_ex) with dim_run.
  assert (E : dim_run = cout (spi_host 8 1 1 0) (creset _) (hd (HostIn nobeat 0 true) dim_ex) :: tl dim_run) by reflexivity. rewrite E.
  apply blurredb_ok. vm_compute. reflexivity.
Qed.

Example C162_nonvacuous :
  let u := trace (spi_slave false false 8 1 false [8]) (blur_sins blur_run blur_gs) in
  Forall (fun b => 0 <= bdata b < 2 ^ 8) (sent blur_run) /\ blurry 1 5 blur_gs u blur_run /\ Z.of_nat 5 <= Z.min (7 + 1) 5 /\
  length (filter (fun g => match g_blur g with Some _ => true | None => false end) blur_gs) = 19%nat /\
  map bdata (sent blur_run) = [0xa5] /\ p_cs_n (last (map pins_of blur_run) low) = true /\
  (exists v, map so_pins u = v ++ repeat (last (map pins_of blur_run) low) 3) /\ pushes u = [(0xa5, 8, true)] /\
  Forall (fun o => so_push o <> None -> o_sready (so_fifo o) = true) u /\ map bdata (emitted (map so_fifo u)) = [0xa5].
Proof.
  cbv zeta. split; [vm_compute; repeat constructor; discriminate|]. split.
  { split; [reflexivity|]. split; [|split; [|vm_compute; reflexivity]].
    - apply (zeros_often 5 ltac:(lia) _ 0%nat ltac:(lia)). vm_compute. reflexivity.
    - assert (E : blur_run = cout (spi_host 8 1 7 0) (creset _) (hd (HostIn nobeat 0 true) slow_ex) :: tl blur_run) by reflexivity. rewrite E.
      apply blurredb_ok. vm_compute. reflexivity. }
  split; [cbn; lia|]. do 3 (split; [vm_compute; reflexivity|]). split; [|split; [vm_compute; reflexivity|split; [|vm_compute; reflexivity]]].
  - exists (firstn 56 (map so_pins (trace (spi_slave false false 8 1 false [8]) (blur_sins blur_run blur_gs)))). vm_compute. reflexivity.
  - apply Forall_forall. intros o Ho Hp.
    assert (X : forallb (fun o => match so_push o with None => true | Some _ => o_sready (so_fifo o) end) (trace (spi_slave false false 8 1 false [8]) (blur_sins blur_run blur_gs)) = true) by (vm_compute; reflexivity).
    rewrite forallb_forall in X. specialize (X o Ho). destruct (so_push o); [exact X|congruence].
Qed.

Print Assumptions C162_words_partial.
Print Assumptions C162_complete.
Print Assumptions C162_delivered.
Print Assumptions C162_words_refuted.
