(** C140: the answers of the slave board reach the host board one bit late. *)
From Verif Require Import Stream Bits Fifo_model Timer_model Spiclk_model I2cstream_proofs Spistream_model Spistream_props Spimaster_model Spimaster_props Spislave_model Spislave_props Spimiso_props Spilink_model Spilink_spec Spilink_proofs Spilink_props Spixchg_props Spipair_model Spipair_proofs.

(** ** C92, for a slave that always has a word to send: over a whole frame that starts
    with the clock low, and with a slow clock, a master that samples on the rising edges
    reads first whatever the line was, and then the words taken by the slave during
    this frame, most significant bits first, without gaps. *)
Theorem C92_words_partial : forall cpol cpha width bw stages ins t0 z f t1,
  cpol = cpha -> 0 < bw -> 0 < width -> (bw | width) ->
  trace (spi_slave cpol cpha width bw false stages) ins = t0 ++ z :: f ++ t1 ->
  p_cs_n (so_pins z) = true -> p_clk (so_pins z) = false ->
  Forall (fun o => p_cs_n (so_pins o) = false /\ cvalid (so_sink o) = true) f ->
  slow cpol cpha (z :: f) ->
  let r := master_reads cpol cpha (so_pins z) f in
  exists x, r = firstn (length r) (x :: concat (map (msb_first width bw) (taken (skipn 2 f)))).
Proof.
  intros cpol cpha width bw stages ins t0 z f t1 Hm Hb Hw [q Hq] E Hz1 Hz2 HF HS r.
  set (c := spi_slave cpol cpha width bw false stages) in *.
  replace (t0 ++ z :: f ++ t1) with (t0 ++ (z :: f) ++ t1) in E by reflexivity.
  apply trace_seg in E. destruct E as (ia & ib & ic & -> & _ & E & _). destruct ib as [|i ib]; [discriminate|]. cbn [trace_from] in E.
  apply cons_inv in E. destruct E as [Ez Ef]. set (s := state c ia) in *.
  assert (Hn : width = bw * Z.of_nat (Z.to_nat q)) by (rewrite Z2Nat.id by nia; lia).
  assert (Hp : l_p1 _ _ (cnext c s i) = so_pins z).
  { destruct (out_next cpol cpha width bw stages s i) as (N1 & _). fold c in N1. rewrite N1, <- Ez. reflexivity. }
  pose proof (frame_run cpol cpha width bw stages (Z.to_nat q) ltac:(subst; apply Bool.eqb_reflx) Hb ltac:(nia) Hn z Hz1 Hz2 (cnext c s i) ib Hp) as X.
  fold c in X. rewrite Ef in X. specialize (X HF HS).
  assert (GG : forall ws, G width bw (Z.to_nat q) ws = concat (map (msb_first width bw) ws)).
  { intros ws. unfold G. f_equal. apply map_ext. intros w. unfold grp, msb_first. rewrite <- seq_shift, map_map, Hq, Z.div_mul by lia.
    apply map_ext_in. intros k Hk. apply in_seq in Hk. unfold nth_group. rewrite Z.shiftr_div_pow2 by nia. do 3 f_equal. lia. }
  destruct f as [|a [|b f]].
  - exists 0. reflexivity.
  - exists 0. destruct X as (_ & _ & X). unfold r. rewrite X. reflexivity.
  - destruct X as (t' & a' & b' & x & _ & _ & _ & _ & X). cbv zeta in X. destruct X as (_ & _ & X & _). exists x. rewrite <- GG. exact X.
Qed.

(** ** The clock of the host inside a frame *)
Section Wave.
  Context (width div delay : Z) (Hdiv : 0 <= div < 256) (Hwd : 0 < width <= 256).
  Notation h := (spi_host width 1 div delay).
  Local Lemma one_in : In 1 [1; 2; 4; 8]. Proof. now left. Qed.
  Local Lemma one_div : (1 | width). Proof. apply Z.divide_1_l. Qed.
  Notation hclk s := (ck_clk (m_ck _ (snd s))).
  Notation hcnt s := (ck_cnt (m_ck _ (snd s))).
  Implicit Types (s : cst h).

  Lemma clk_next s i : m_ck _ (snd (cnext h s i)) = ck_next div (m_ck _ (snd s)) (m_run _ (snd s)).
  Proof. reflexivity. Qed.
  Lemma tim_next s i : m_tim _ (snd (cnext h s i)) = wt_next (delay + 1) (m_tim _ (snd s)) (match fst s with SsIdle => false | _ => true end).
  Proof. reflexivity. Qed.

  (** The chip select comes back only after [delay] cycles, so not before the last falling edge. *)
  Lemma tim_range ins : 0 <= delay -> 0 <= m_tim _ (snd (state h ins)) <= delay + 1.
  Proof.
    intros Hdl. apply (run_inv h (fun _ s => 0 <= m_tim _ (snd s) <= delay + 1)); [cbn; lia|].
    intros _ s i H. rewrite tim_next. unfold wt_next. destruct (match fst s with SsIdle => false | _ => true end); [|lia].
    unfold wt_done. destruct (Z.eqb_spec (m_tim _ (snd s)) 0); cbn [negb]; [lia|]. rewrite trunc_range_small; lia.
  Qed.
  Lemma wait_fall ins : 0 <= delay -> let s := state h ins in
    ms_cs_en width (snd s) = false -> hclk s = true -> delay + 1 <= m_tim _ (snd s) + hcnt s.
  Proof.
    intros Hdl. cbv zeta. induction ins as [|i ins IH] using rev_ind; [discriminate|].
    pose proof (tim_range ins Hdl) as TR.
    destruct (host_snoc width 1 div delay ins i) as [_ E]. rewrite E. set (s := state h ins) in *. clear E.
    assert (Hd : 0 <= div < 256) by lia.
    destruct (host_inv width 1 div delay Hd one_in one_div Hwd ins) as (ws & gs & pend & cur & W & R & F & FA & PH & _). fold s in FA, PH.
    unfold ms_cs_en in *. rewrite tim_next, clk_next. unfold wt_next, wt_done. 
    assert (Hc : 0 <= hcnt s <= div).
    { inversion PH as [p Hr Hk|p w cu cnt Hr Hk Hcnt|w cu Hr Hk|w cu cnt Hr Hk Hcnt|cnt Hr Hk Hcnt]; subst; rewrite Hk; cbn [ck_cnt]; lia. }
    assert (Hcn : 0 <= ck_cnt (ck_next div (m_ck width (snd s)) (m_run width (snd s)))).
    { unfold ck_next. destruct (m_run _ _); cbn [ck_cnt]; [|lia]. destruct (_ <? _); cbn [ck_cnt]; [apply trunc_range|]; lia. }
    destruct (match fst s with SsIdle => false | _ => true end); [|lia].
    destruct (Z.eqb_spec (m_tim _ (snd s)) 0) as [H0|H0]; cbn [negb]; [rewrite H0; discriminate|]. rewrite trunc_range_small by lia.
    intros He Hk. destruct (hclk s) eqn:Ek.
    - specialize (IH ltac:(unfold wt_done; now apply Z.eqb_neq) eq_refl).
      unfold ck_next in Hk |- *. rewrite Ek in Hk |- *. destruct (m_run _ _); [|discriminate].
      destruct (Z.ltb_spec (hcnt s) div); cbn [ck_clk negb] in Hk; [|discriminate]. cbn [ck_cnt]. rewrite trunc_small by (change (2 ^ 8) with 256; lia). lia.
    - exfalso. destruct pend as [w|].
      + pose proof (host_pending width 1 div delay Hd one_in one_div Hwd ins ws gs w cur W FA PH) as X. fold s in X. unfold ms_cs_en, wt_done in X. apply Z.eqb_eq in X. contradiction.
      + inversion PH as [p Hr Hc'| | | |cnt Hr Hc' Hcnt Ho]; subst; [|rewrite Hc' in Ek; discriminate].
        unfold ck_next in Hk. rewrite Hr in Hk. discriminate.
  Qed.

  (** At the last cycle before the chip select falls, the clock is low and stopped. *)
  Lemma start_low ins i : div < delay -> ms_cs_en width (snd (state h ins)) = false -> ms_cs_en width (snd (cnext h (state h ins) i)) = true ->
    hclk (state h ins) = false /\ hclk (cnext h (state h ins) i) = false /\ hcnt (cnext h (state h ins) i) = 0.
  Proof.
    intros Hdl E0 E1. pose proof (tim_range ins ltac:(lia)) as TR. pose proof (wait_fall ins ltac:(lia)) as WF. cbv zeta in WF. specialize (WF E0). set (s := state h ins) in *.
    assert (Hd : 0 <= div < 256) by lia.
    destruct (host_inv width 1 div delay Hd one_in one_div Hwd ins) as (ws & gs & pend & cur & W & R & F & FA & PH & _). fold s in FA, PH.
    destruct pend as [w|].
    { pose proof (host_pending width 1 div delay Hd one_in one_div Hwd ins ws gs w cur W FA PH) as X. fold s in X. congruence. }
    inversion PH as [p Hr Hc| | | |cnt Hr Hc Hcnt Ho]; subst.
    - rewrite clk_next, Hr, Hc. split; [reflexivity|]. split; reflexivity.
    - exfalso. rewrite Hc in WF. cbn [ck_clk ck_cnt] in WF. specialize (WF eq_refl).
      unfold ms_cs_en in E1. rewrite tim_next in E1. unfold ms_cs_en, wt_done, wt_next in *. apply Z.eqb_neq in E0. apply Z.eqb_eq in E1.
      destruct (match fst s with SsIdle => false | _ => true end); [|lia].
      unfold wt_done in E1. destruct (Z.eqb_spec (m_tim _ (snd s)) 0); cbn [negb] in E1; [contradiction|]. rewrite trunc_range_small in E1 by lia. lia.
  Qed.

  Definition oclk (o : host_obs) : bool := p_clk (pins_of o).
  Definition hslow (l : list host_obs) : Prop :=
    forall u y o v, l = u ++ y :: o :: v -> oclk y = false -> oclk o = true ->
      exists u' x1 x2, u = u' ++ [x1; x2] /\ oclk x1 = false /\ oclk x2 = false.
  Lemma frame_slow z s0 ins : 2 <= div -> hclk s0 = false -> hcnt s0 = 0 -> hslow (z :: trace_from h s0 ins).
  Proof.
    intros Hd2 K0 C0.
    enough (X : let t := trace_from h s0 ins in let s := state_from h s0 ins in
      hslow (z :: t) /\ 0 <= hcnt s <= div /\
      exists t' r, t = t' ++ r /\ Z.of_nat (length r) = hcnt s /\ Forall (fun o => oclk o = hclk s) r /\
        (hclk s = true -> r = [] -> exists t2 r2, t = t2 ++ r2 /\ Z.of_nat (length r2) = div + 1 /\ Forall (fun o => oclk o = false) r2)) by apply X.
    apply (run_inv_from h (fun t s => hslow (z :: t) /\ 0 <= hcnt s <= div /\
      exists t' r, t = t' ++ r /\ Z.of_nat (length r) = hcnt s /\ Forall (fun o => oclk o = hclk s) r /\
        (hclk s = true -> r = [] -> exists t2 r2, t = t2 ++ r2 /\ Z.of_nat (length r2) = div + 1 /\ Forall (fun o => oclk o = false) r2)) [] s0).
    - split; [|split; [lia|]].
      + intros u y o v E. destruct u as [|? [|? ?]]; discriminate.
      + exists [], []. rewrite C0. repeat split; auto. intros H. congruence.
    - clear s0 K0 C0 ins. intros t s i (SL & Hc & t' & r & -> & Lr & Fr & Rise).
      set (o := cout h s i). assert (Oc : oclk o = hclk s) by reflexivity. clearbody o. rewrite clk_next. split; [|split].
      + intros u y o' v E Hy Ho. destruct v as [|v0 v _] using rev_ind.
        2:{ apply (SL u y o' v); auto. replace (u ++ y :: o' :: v ++ [v0]) with ((u ++ y :: o' :: v) ++ [v0]) in E by (rewrite <- app_assoc; reflexivity).
            change (z :: (t' ++ r) ++ [o]) with ((z :: t' ++ r) ++ [o]) in E. apply app_inj_tail in E. apply E. }
        replace (u ++ [y; o']) with ((u ++ [y]) ++ [o']) in E by (rewrite <- app_assoc; reflexivity).
        change (z :: (t' ++ r) ++ [o]) with ((z :: t' ++ r) ++ [o]) in E. apply app_inj_tail in E. destruct E as [E <-].
        rewrite Oc in Ho. destruct r as [|q r _] using rev_ind.
        2:{ exfalso. rewrite app_assoc, app_comm_cons in E. apply app_inj_tail in E. destruct E as [_ <-]. apply Forall_app in Fr. destruct Fr as [_ Fr].
            apply Forall_cons_iff in Fr. destruct Fr as [Fr _]. congruence. }
        destruct (Rise Ho eq_refl) as (t2 & r2 & Et & L2 & F2). rewrite Et in E.
        destruct r2 as [|q0 r2 _] using rev_ind; [cbn [length] in L2; lia|]. rewrite app_length in L2. cbn [length] in L2.
        destruct r2 as [|q1 r2 _] using rev_ind; [cbn [length] in L2; lia|]. rewrite app_length in L2. cbn [length] in L2.
        destruct r2 as [|q2 r2 _] using rev_ind; [cbn [length] in L2; lia|].
        rewrite !app_assoc, !app_comm_cons in E. apply app_inj_tail in E. destruct E as [E _].
        exists (z :: t2 ++ r2), q2, q1. split.
        * rewrite <- E. rewrite !app_comm_cons. rewrite <- app_assoc. reflexivity.
        * apply Forall_app in F2. destruct F2 as [F2 _]. apply Forall_app in F2. destruct F2 as [F2 X1]. apply Forall_app in F2. destruct F2 as [_ X2].
          apply Forall_cons_iff in X1, X2. split; [apply X2|apply X1].
      + unfold ck_next. destruct (m_run _ _); cbn [ck_cnt]; [|lia]. destruct (Z.ltb_spec (hcnt s) div); cbn [ck_cnt]; [rewrite trunc_small by (change (2 ^ 8) with 256; lia)|]; lia.
      + unfold ck_next. destruct (m_run _ _); [destruct (Z.ltb_spec (hcnt s) div) as [Hlt|Hge]|]; cbn [ck_cnt ck_clk].
        * exists t', (r ++ [o]). rewrite trunc_small by (change (2 ^ 8) with 256; lia). split; [now rewrite app_assoc|]. split; [rewrite app_length; cbn [length]; lia|].
          split; [apply Forall_app; split; [exact Fr|constructor; [exact Oc|constructor]]|]. intros _ X. destruct r; discriminate.
        * exists ((t' ++ r) ++ [o]), []. split; [now rewrite app_nil_r|]. split; [reflexivity|]. split; [constructor|]. intros X _.
          exists t', (r ++ [o]). split; [now rewrite app_assoc|]. apply negb_true_iff in X. rewrite X in *. split; [rewrite app_length; cbn [length]; lia|].
          apply Forall_app; split; [exact Fr|constructor; [exact Oc|constructor]].
        * exists ((t' ++ r) ++ [o]), []. split; [now rewrite app_nil_r|]. split; [reflexivity|]. split; [constructor|]. discriminate.
  Qed.
End Wave.

(** ** The answers, word by word *)
Lemma msb_number bw ds : 0 < bw -> Forall (fun d => 0 <= d < 2 ^ bw) ds ->
  msb_first (bw * Z.of_nat (length ds)) bw (number bw ds) = ds.
Proof.
  intros Hb. induction ds as [|d ds IH] using rev_ind; intros H.
  { unfold msb_first. cbn [length]. rewrite Z.mul_0_r. reflexivity. }
  apply Forall_app in H. destruct H as [H Hd]. apply Forall_cons_iff in Hd. destruct Hd as [Hd _]. specialize (IH H).
  rewrite app_length. cbn [length]. rewrite Nat.add_1_r. set (N := length ds) in *.
  assert (En : number bw (ds ++ [d]) = 2 ^ bw * number bw ds + d) by (unfold number; now rewrite fold_left_app).
  rewrite En. unfold msb_first in *. rewrite (Z.mul_comm bw (Z.of_nat N)), Z.div_mul, Nat2Z.id in IH by lia.
  rewrite (Z.mul_comm bw (Z.of_nat (S N))), Z.div_mul, Nat2Z.id by lia.
  assert (P : 0 < 2 ^ bw) by (apply Z.pow_pos_nonneg; lia).
  rewrite seq_S, map_app. cbn [map]. f_equal.
  - etransitivity; [|exact IH]. apply map_ext_in. intros k Hk. apply in_seq in Hk. f_equal.
    replace (Z.of_nat (S N) * bw - bw * (Z.of_nat k + 1)) with (bw + (Z.of_nat N * bw - bw * (Z.of_nat k + 1))) by lia.
    rewrite Z.pow_add_r by nia. rewrite <- Z.div_div by (try apply Z.pow_pos_nonneg; nia).
    rewrite (Z.mul_comm (2 ^ bw)), Z.div_add_l, (Z.div_small d) by lia. now rewrite Z.add_0_r.
  - replace (Z.of_nat (S N) * bw - bw * (Z.of_nat (0 + N) + 1)) with 0 by (rewrite Nat.add_0_l; lia). rewrite Z.pow_0_r, Z.div_1_r.
    rewrite (Z.mul_comm (2 ^ bw)), Z.add_comm, Z.mod_add, Z.mod_small by lia. reflexivity.
Qed.
Lemma Forall3_app {A B C} (R : A -> B -> C -> Prop) la1 la2 lb lc : Forall3 R (la1 ++ la2) lb lc ->
  exists lb1 lb2 lc1 lc2, lb = lb1 ++ lb2 /\ lc = lc1 ++ lc2 /\ Forall3 R la1 lb1 lc1 /\ Forall3 R la2 lb2 lc2.
Proof.
  revert lb lc. induction la1 as [|a la1 IH]; intros lb lc H; cbn [app] in H.
  - exists [], lb, [], lc. repeat split; auto. constructor.
  - inversion H as [|? b c ? lb' lc' Hr Hf]; subst. destruct (IH _ _ Hf) as (lb1 & lb2 & lc1 & lc2 & -> & -> & F1 & F2).
    exists (b :: lb1), lb2, (c :: lc1), lc2. repeat split; auto. now constructor.
Qed.
Lemma edges_app t1 t2 : edges (t1 ++ t2) = edges t1 ++ rises (last_clk (map ho_phy t1)) (map ho_phy t2).
Proof.
  unfold edges, last_clk. rewrite map_app. generalize (map ho_phy t1) (map ho_phy t2) false. clear. intros a b.
  induction a as [|o a IH]; intros p; [reflexivity|]. cbn [app rises fold_left]. now rewrite IH, app_assoc.
Qed.
Lemma sent_app t1 t2 : sent (t1 ++ t2) = sent t1 ++ sent t2.
Proof. unfold sent, tx_in, accepted. now rewrite !map_app, flat_map_app. Qed.
Lemma returned_app t1 t2 : returned (t1 ++ t2) = returned t1 ++ returned t2.
Proof. unfold returned, rx_out, emitted. now rewrite !map_app, flat_map_app. Qed.
Lemma exchanged_len width bw ws gs rs : Forall3 (exchanged width bw) ws gs rs -> length (concat gs) = (Z.to_nat (width / bw) * length ws)%nat.
Proof.
  induction 1 as [|w g r ws gs rs (H & _) F IH]; [cbn; lia|]. cbn [concat length]. rewrite app_length, IH.
  apply (f_equal (@length _)) in H. rewrite map_length in H. unfold msb_first in H. rewrite map_length, seq_length in H. rewrite Nat.mul_succ_r. lia.
Qed.

(** The bits of a word of [width] bits, most significant first. *)
Definition bits (width : Z) (d : Z) : list Z := msb_first width 1 d.
Lemma exchanged_bits width ws gs rs : 0 < width -> Forall3 (exchanged width 1) ws gs rs ->
  concat (map (bits width) (map bdata rs)) = map (sample 1) (map snd (concat gs)).
Proof.
  intros Hw. induction 1 as [|w g r ws gs rs (H1 & H2 & _) F IH]; [reflexivity|]. cbn [concat map]. rewrite !map_app, IH. f_equal.
  unfold bits. rewrite H2. set (ds := map (sample 1) (map snd g)).
  assert (L : width = 1 * Z.of_nat (length ds)).
  { apply (f_equal (@length _)) in H1. unfold msb_first in H1. rewrite !map_length, seq_length, Z.div_1_r in H1. unfold ds. rewrite !map_length. lia. }
  rewrite L. apply msb_number; [lia|]. apply Forall_forall. intros d Hd. unfold ds in Hd. apply in_map_iff in Hd. destruct Hd as (q & <- & _).
  unfold sample. change (1 =? 1) with true. cbv iota. change (2 ^ 1) with 2. destruct (Z.testbit q 1); cbn [Z.b2z]; lia.
Qed.

Section Pair.
  Context (width div delay : Z) (cpol cpha : bool) (stages : list Z).
  Notation c := (spi_pair width div delay cpol cpha stages).
  Notation host := (spi_host width 1 div delay).
  Notation slave := (spi_slave cpol cpha width 1 false stages).
  Definition host_back (o : host_obs) : host_in := HostIn (o_sink (so_tx (ho_app o))) (mo_dq_i (ho_phy o)) (o_rready (so_rx (ho_app o))).
  Definition slave_back (o : sl_obs) : sl_in := SlIn (so_pins o) (so_sink o) (o_rready (so_fifo o)).
  Lemma pair_host ins : map po_host (trace c ins) = trace host (map host_back (map po_host (trace c ins))) /\
    fst (state c ins) = state host (map host_back (map po_host (trace c ins))).
  Proof.
    apply (part_trace c host host_back (fun s => fst s) (fun s i => pair_host_in width cpol cpha stages (snd s) i)); try reflexivity.
    intros s [? ? ?]. reflexivity.
  Qed.
  Lemma pair_slave ins : map po_slave (trace c ins) = trace slave (map slave_back (map po_slave (trace c ins))) /\
    snd (state c ins) = state slave (map slave_back (map po_slave (trace c ins))).
  Proof.
    apply (part_trace c slave slave_back (fun s => snd s) (fun s i => pair_slave_in width div delay cpol cpha stages s i)); try reflexivity.
    intros s [? ? ?]. reflexivity.
  Qed.
  (** The wires. *)
  Lemma pair_wires ins : Forall (fun o => so_pins (po_slave o) = pins_of (po_host o) /\ mo_dq_i (ho_phy (po_host o)) = 2 * so_dq_o (po_slave o)) (trace c ins).
  Proof.
    apply (run_inv c (fun t _ => Forall _ t)); [constructor|]. intros t s i H. apply Forall_app. split; [exact H|]. constructor; [|constructor]. split; reflexivity.
  Qed.
End Pair.

Lemma reads_rises cpol cpha p t : cpol = cpha ->
  Forall (fun o => so_pins (po_slave o) = pins_of (po_host o) /\ mo_dq_i (ho_phy (po_host o)) = 2 * so_dq_o (po_slave o)) t ->
  Forall (fun o => p_cs_n (so_pins (po_slave o)) = false) t ->
  map (sample 1) (map snd (rises (p_clk p) (map ho_phy (map po_host t)))) = map (fun d => d mod 2) (master_reads cpol cpha p (map po_slave t)).
Proof.
  intros -> HW HC. revert p. induction t as [|o t IH]; intros p; [reflexivity|].
  apply Forall_cons_iff in HW, HC. destruct HW as [[W1 W2] HW], HC as [HC1 HC]. cbn [map rises master_reads].
  rewrite !map_app. change (mo_clk (ho_phy (po_host o))) with (p_clk (pins_of (po_host o))). rewrite <- W1, (IH HW HC). f_equal.
  unfold sample_edge. rewrite Bool.eqb_reflx, HC1. cbn [negb andb]. destruct (negb (p_clk p) && p_clk (so_pins (po_slave o))); [|reflexivity].
  cbn [map snd]. rewrite W2. unfold sample. change (1 =? 1) with true. cbv iota. change 1 with (Z.succ 0) at 1. rewrite Z.double_bits_succ, Z.bit0_mod. reflexivity.
Qed.

(** ** C140: in a frame of the host (chip select low from the cycle after [z] to the
    cycle before [y]), with a slave that always has words to send and an SPI clock of at
    most a sixth of the system clock, the host gives back one word for each it was sent,
    and the bits of these words are one bit of no meaning followed by the bits of the words
    the slave took during the frame. *)
Theorem C140_late_partial : forall width div delay cpol cpha stages ins t0 z f y t1,
  2 <= div < 256 -> div < delay -> 0 < width <= 256 -> cpol = cpha ->
  trace (spi_pair width div delay cpol cpha stages) ins = t0 ++ z :: f ++ y :: t1 ->
  p_cs_n (pins_of (po_host z)) = true -> p_cs_n (pins_of (po_host y)) = true ->
  Forall (fun o => p_cs_n (pins_of (po_host o)) = false /\ cvalid (so_sink (po_slave o)) = true) f ->
  exists out back x,
    sent (map po_host (t0 ++ z :: f)) = sent (map po_host t0) ++ out /\
    returned (map po_host (t0 ++ z :: f)) = returned (map po_host t0) ++ back /\
    map blast back = map blast out /\
    concat (map (bits width) (map bdata back)) =
      firstn (Z.to_nat width * length out) (x :: concat (map (bits width) (taken (map po_slave (skipn 2 f))))).
Proof.
  intros width div delay cpol cpha stages ins t0 z f y t1 Hd Hdl Hw Hm E Hz Hy HF.
  pose proof (pair_wires width div delay cpol cpha stages ins) as WI. rewrite E in WI.
  destruct (pair_host width div delay cpol cpha stages ins) as [PH _]. destruct (pair_slave width div delay cpol cpha stages ins) as [PS _].
  set (hi := map host_back _) in PH. set (si := map slave_back _) in PS. clearbody hi si.
  rewrite E in PH, PS. rewrite !map_app in PH, PS. cbn [map] in PH, PS. rewrite !map_app in PH, PS. cbn [map] in PH, PS.
  symmetry in PH, PS.
  set (T0 := map po_host t0) in *. set (F := map po_host f) in *.
  assert (WF : Forall (fun o => so_pins (po_slave o) = pins_of (po_host o) /\ mo_dq_i (ho_phy (po_host o)) = 2 * so_dq_o (po_slave o)) f /\ so_pins (po_slave z) = pins_of (po_host z)).
  { apply Forall_app in WI. destruct WI as [_ WI]. apply Forall_cons_iff in WI. destruct WI as [WZ WI]. apply Forall_app in WI. split; [apply WI|apply WZ]. }
  destruct WF as [WF WZ].
  assert (Hd' : 0 <= div < 256) by lia.
  rewrite map_app. cbn [map]. fold T0 F.
  (* everything exchanged at z and y *)
  destruct (C139_complete width 1 div delay hi T0 (po_host z) (F ++ po_host y :: map po_host t1) Hd' one_in (one_div width) Hw PH Hz) as (gs0 & E0 & X0).
  destruct (C139_complete width 1 div delay hi (T0 ++ po_host z :: F) (po_host y) (map po_host t1) Hd' one_in (one_div width) Hw) as (gs & E1 & X1).
  { rewrite PH, <- app_assoc. reflexivity. }
  { exact Hy. }
  rewrite sent_app in X1 |- *. rewrite returned_app in X1 |- *. set (out := sent (po_host z :: F)) in *.
  destruct (Forall3_app _ _ _ _ _ X1) as (g1 & g2 & r1 & r2 & -> & Er & Y1 & Y2).
  assert (r1 = returned T0 /\ r2 = returned (po_host z :: F)) as [-> ->].
  { destruct (Forall3_length _ _ _ _ X0) as [L0 _]. destruct (Forall3_length _ _ _ _ Y1) as [L1 _]. clear - Er L0 L1.
    assert (L : length (returned T0) = length r1) by lia. clear - Er L. revert r1 Er L. induction (returned T0) as [|a l IH]; intros r1 Er L; destruct r1; try discriminate; [now split|].
    cbn [app] in Er. apply cons_inv in Er. destruct Er as [-> Er]. cbn [length] in L. destruct (IH r1 Er ltac:(lia)) as [-> ->]. now split. }
  set (back := returned (po_host z :: F)) in *.
  exists out, back. 
  assert (LB : map blast back = map blast out).
  { clear - Y2. induction Y2 as [|w g r ws gs rs (_ & _ & H) _ IH]; [reflexivity|]. cbn [map]. now rewrite H, IH. }
  (* the pulses of the frame *)
  rewrite edges_app, concat_app in E1. set (e := rises (last_clk (map ho_phy T0)) (map ho_phy (po_host z :: F))) in *.
  assert (EG : e = concat g2).
  { rewrite E0 in E1. assert (L : length (concat gs0) = length (concat g1)) by now rewrite (exchanged_len _ _ _ _ _ X0), (exchanged_len _ _ _ _ _ Y1).
    clear - E1 L. revert E1 L. generalize (concat gs0) (concat g1). induction l as [|a l IH]; intros l0 E1 L; destruct l0; try discriminate; [exact E1|].
    cbn [app] in E1. apply cons_inv in E1. destruct E1 as [_ E1]. apply (IH l0 E1). cbn [length] in L. lia. }
  pose proof (exchanged_bits width _ _ _ ltac:(lia) Y2) as XB. rewrite <- EG in XB.
  pose proof (exchanged_len _ _ _ _ _ Y2) as LE. rewrite <- EG, Z.div_1_r in LE.
  assert (FC : Forall (fun o => p_cs_n (so_pins (po_slave o)) = false) f).
  { clear - HF WF. induction f as [|o f IH]; constructor; apply Forall_cons_iff in HF, WF; [destruct WF as [[-> _] _]; apply HF|apply IH; [apply HF|apply WF]]. }
  (* no rising edge of the clock while the chip select is high *)
  assert (ZR : e = rises (p_clk (pins_of (po_host z))) (map ho_phy F)).
  { unfold e. cbn [map rises]. change (mo_clk (ho_phy (po_host z))) with (p_clk (pins_of (po_host z))).
    destruct (negb (last_clk (map ho_phy T0)) && p_clk (pins_of (po_host z))) eqn:Q; [|reflexivity]. exfalso. apply andb_prop in Q. destruct Q as [Q1 Q2]. apply negb_true_iff in Q1.
    rewrite <- last_map_clk in Q1.
    rewrite (C139_selected width 1 div delay hi T0 (po_host z) (F ++ po_host y :: map po_host t1) Hd' one_in (one_div width) Hw PH Q1 Q2) in Hz. discriminate. }
  rewrite ZR in XB, LE. rewrite <- WZ in XB, LE.
  unfold F in XB, LE. rewrite (reads_rises cpol cpha (so_pins (po_slave z)) f Hm WF FC) in XB.
  apply (f_equal (@length _)) in XB as LX. rewrite !map_length in LX.
  assert (RR : exists x, master_reads cpol cpha (so_pins (po_slave z)) (map po_slave f) =
     firstn (length (master_reads cpol cpha (so_pins (po_slave z)) (map po_slave f))) (x :: concat (map (bits width) (taken (map po_slave (skipn 2 f)))))).
  { destruct f as [|f0 f']; [exists 0; reflexivity|]. set (f := f0 :: f') in *.
    (* the frame starts with the clock low *)
    assert (SL : p_clk (pins_of (po_host z)) = false /\ hslow (po_host z :: F)).
    { change (T0 ++ po_host z :: F ++ po_host y :: map po_host t1) with (T0 ++ (po_host z :: F) ++ po_host y :: map po_host t1) in PH.
      apply trace_seg in PH. destruct PH as (ia & ib & ic & -> & _ & PH & _). destruct ib as [|i ib]; [discriminate|]. cbn [trace_from] in PH.
      apply cons_inv in PH. destruct PH as [PZ PF]. set (hc := spi_host width 1 div delay) in *.
      assert (CE : ms_cs_en width (snd (state hc ia)) = false).
      { rewrite <- PZ in Hz. change (negb (ms_cs_en width (snd (state hc ia))) = true) in Hz. now apply negb_true_iff. }
      assert (CN : ms_cs_en width (snd (cnext hc (state hc ia) i)) = true).
      { destruct ib as [|j ib]; [discriminate|]. cbn [trace_from] in PF. unfold F, f in PF. cbn [map] in PF. apply cons_inv in PF. destruct PF as [PF _].
        apply Forall_cons_iff in HF. destruct HF as [[HF0 _] _]. rewrite <- PF in HF0.
        change (negb (ms_cs_en width (snd (cnext hc (state hc ia) i))) = false) in HF0. now apply negb_false_iff. }
      destruct (start_low width div delay Hd' Hw ia i Hdl CE CN) as (S1 & S2 & S3). split.
      - rewrite <- PZ. exact S1.
      - rewrite <- PF. apply frame_slow; auto; lia. }
    destruct SL as [ZL SL].
    destruct (C92_words_partial cpol cpha width 1 stages si (map po_slave t0) (po_slave z) (map po_slave f) (po_slave y :: map po_slave t1) Hm ltac:(lia) ltac:(lia) (one_div width) PS) as [x X].
    - now rewrite WZ.
    - now rewrite WZ.
    - clear - HF WF. induction f as [|o f IH]; cbn [map]; constructor; apply Forall_cons_iff in HF, WF; [destruct WF as [[-> _] _]; apply HF|apply IH; [apply HF|apply WF]].
    - intros u q o v Eu Se. change (po_slave z :: map po_slave f) with (map po_slave (z :: f)) in Eu.
      apply map_eq_app in Eu. destruct Eu as (lu & l2 & El & Eu1 & E2). apply map_eq_cons in E2. destruct E2 as (q' & l3 & -> & Eq & E2).
      apply map_eq_cons in E2. destruct E2 as (o' & lv & -> & Eo & Ev). subst q o.
      assert (WA : Forall (fun o => so_pins (po_slave o) = pins_of (po_host o)) (z :: f)).
      { constructor; [exact WZ|]. eapply Forall_impl; [|exact WF]. intros ? [H _]; exact H. }
      rewrite El in WA. apply Forall_app in WA. destruct WA as [WA1 WA2]. apply Forall_cons_iff in WA2. destruct WA2 as [Wq WA2]. apply Forall_cons_iff in WA2. destruct WA2 as [Wo _].
      unfold sample_edge in Se. subst cpha. rewrite Bool.eqb_reflx in Se. apply andb_prop in Se. destruct Se as [_ Se]. apply andb_prop in Se. destruct Se as [Se1 Se2]. apply negb_true_iff in Se1.
      destruct (SL (map po_host lu) (po_host q') (po_host o') (map po_host lv)) as (u' & x1 & x2 & Eu' & L1 & L2).
      + unfold F. change (po_host z :: map po_host f) with (map po_host (z :: f)). rewrite El, map_app. reflexivity.
      + unfold oclk. now rewrite <- Wq.
      + unfold oclk. now rewrite <- Wo.
      + apply map_eq_app in Eu'. destruct Eu' as (lu' & l4 & -> & _ & E4). apply map_eq_cons in E4. destruct E4 as (y1 & l5 & -> & Ey1 & E4). apply map_eq_cons in E4. destruct E4 as (y2 & l6 & -> & Ey2 & E4).
        apply map_eq_nil in E4. subst l6 x1 x2. apply Forall_app in WA1. destruct WA1 as [_ WA1]. apply Forall_cons_iff in WA1. destruct WA1 as [Wy1 WA1]. apply Forall_cons_iff in WA1. destruct WA1 as [Wy2 _].
        exists (map po_slave lu'), (po_slave y1), (po_slave y2). split; [rewrite <- Eu1, map_app; reflexivity|]. rewrite Se1, Wy1, Wy2. auto.
    - exists x. rewrite <- skipn_map. exact X. }
  destruct RR as [x RR]. exists (x mod 2). split; [reflexivity|]. split; [reflexivity|]. split; [exact LB|].
  rewrite XB, RR. set (r := master_reads cpol cpha (so_pins (po_slave z)) (map po_slave f)) in *.
  assert (LR : length r = (Z.to_nat width * length out)%nat).
  { pose proof (f_equal (@length _) (reads_rises cpol cpha (so_pins (po_slave z)) f Hm WF FC)) as LQ. rewrite !map_length in LQ.
    unfold r. rewrite <- LQ. exact LE. }
  rewrite <- LR, <- firstn_map. f_equal. cbn [map]. f_equal.
  rewrite concat_map, map_map. f_equal. apply map_ext. intros w. unfold bits, msb_first. rewrite map_map. apply map_ext. intros k. change (2 ^ 1) with 2. apply Z.mod_mod. lia.
Qed.

(** The host sends two words in a frame; the slave always answers 0x80. *)
Definition pair_ex : list pair_in :=
  let i x := PairIn x true (Chan true (Beat true true (0x80, 8))) true in
  repeat (i (Chan true (Beat true false 0xa5))) 6 ++ repeat (i (Chan true (Beat false true 0x3c))) 90 ++ repeat (i nobeat) 30.
Definition pair_frame : list pair_obs := firstn 99 (skipn 5 (trace (spi_pair 8 2 3 false false [8]) pair_ex)).
Definition csb (o : pair_obs) : bool := negb (p_cs_n (pins_of (po_host o))) && cvalid (so_sink (po_slave o)).
Lemma csb_ok f : forallb csb f = true -> Forall (fun o => p_cs_n (pins_of (po_host o)) = false /\ cvalid (so_sink (po_slave o)) = true) f.
Proof.
  intros H. apply Forall_forall. intros o Ho. rewrite forallb_forall in H. specialize (H o Ho). unfold csb in H. apply andb_prop in H. destruct H as [H1 H2].
  apply negb_true_iff in H1. now split.
Qed.

(** The words the host gives back are not those the slave took: there is a frame,
    complete and with a slave always ready to answer, in which the slave took the
    words 0x80, 0x80 and the host gave back 0x40, 0x40. *)
Theorem C140_refuted : exists ins t0 z y t1,
  trace (spi_pair 8 2 3 false false [8]) ins = t0 ++ z :: pair_frame ++ y :: t1 /\
  p_cs_n (pins_of (po_host z)) = true /\ p_cs_n (pins_of (po_host y)) = true /\
  Forall (fun o => p_cs_n (pins_of (po_host o)) = false /\ cvalid (so_sink (po_slave o)) = true) pair_frame /\
  taken (map po_slave (skipn 2 pair_frame)) = [0x80; 0x80] /\
  map bdata (sent (map po_host (z :: pair_frame))) = [0xa5; 0x3c] /\
  map bdata (returned (map po_host (z :: pair_frame))) = [0x40; 0x40].
Proof.
  exists pair_ex, (firstn 4 (trace (spi_pair 8 2 3 false false [8]) pair_ex)).
  eexists _, _, (skipn 105 (trace (spi_pair 8 2 3 false false [8]) pair_ex)).
  split; [vm_compute; reflexivity|]. split; [reflexivity|]. split; [reflexivity|]. split; [apply csb_ok; vm_compute; reflexivity|].
  split; [vm_compute; reflexivity|]. split; vm_compute; reflexivity.
Qed.
(** The same frame meets the hypotheses of [C140_late_partial]: the sixteen bits given
    back are one bit and the first fifteen of the slave's. *)
Example C140_nonvacuous :
  concat (map (bits 8) [0x40; 0x40]) = firstn 16 (0 :: concat (map (bits 8) [0x80; 0x80])) /\
  exists t0 z y t1, trace (spi_pair 8 2 3 false false [8]) pair_ex = t0 ++ z :: pair_frame ++ y :: t1 /\
    p_cs_n (pins_of (po_host z)) = true /\ p_cs_n (pins_of (po_host y)) = true /\
    Forall (fun o => p_cs_n (pins_of (po_host o)) = false /\ cvalid (so_sink (po_slave o)) = true) pair_frame /\
    length pair_frame = 99%nat.
Proof.
  split; [vm_compute; reflexivity|]. exists (firstn 4 (trace (spi_pair 8 2 3 false false [8]) pair_ex)).
  eexists _, _, (skipn 105 (trace (spi_pair 8 2 3 false false [8]) pair_ex)).
  split; [vm_compute; reflexivity|]. split; [reflexivity|]. split; [reflexivity|]. split; [apply csb_ok; vm_compute; reflexivity|reflexivity].
Qed.
(** So does the slave of that run the hypotheses of [C92_words_partial]. *)
Example C92_words_nonvacuous : exists t0 z t1,
  let f := map po_slave pair_frame in
  trace (spi_slave false false 8 1 false [8]) (map slave_back (map po_slave (trace (spi_pair 8 2 3 false false [8]) pair_ex))) = t0 ++ z :: f ++ t1 /\
  p_cs_n (so_pins z) = true /\ p_clk (so_pins z) = false /\
  Forall (fun o => p_cs_n (so_pins o) = false /\ cvalid (so_sink o) = true) f /\ slow false false (z :: f) /\
  master_reads false false (so_pins z) f = [0;1;0;0;0;0;0;0; 0;1;0;0;0;0;0;0].
Proof.
  exists (map po_slave (firstn 4 (trace (spi_pair 8 2 3 false false [8]) pair_ex))).
  eexists _, (map po_slave (skipn 104 (trace (spi_pair 8 2 3 false false [8]) pair_ex))).
  cbv zeta. split; [vm_compute; reflexivity|]. split; [reflexivity|]. split; [reflexivity|].
  split; [vm_compute; repeat constructor|]. split; [apply slowb_ok; vm_compute; reflexivity|vm_compute; reflexivity].
Qed.

Print Assumptions C92_words_partial.
Print Assumptions C140_late_partial.
Print Assumptions C140_refuted.
