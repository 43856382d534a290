(** C160: the answers of the slave board reach the host board one bit late, also when
    each board has its own clock. *)
From Verif Require Import Stream Bits Fifo_model Timer_model Spiclk_model I2cstream_proofs Spistream_model Spistream_props Spimaster_model Spimaster_props Spislave_model Spislave_props Spimiso_props Spilink_model Spilink_spec Spilink_proofs Spilink_props Spixchg_props Spipair_model Spipair_proofs Spipair_props Spiclock_spec Spiclock_proofs Spiclockback_spec Spiclockback_proofs.

Lemma taken_app a b : taken (a ++ b) = taken a ++ taken b.
Proof. unfold taken. apply flat_map_app. Qed.

(** The slave's side: what its data line shows after [k] edges of a frame. *)
Section Slave.
  Context (cpol cpha : bool) (width : Z) (stages : list Z) (Hm : Bool.eqb cpol cpha = true) (Hw : 0 < width).
  Notation c := (spi_slave cpol cpha width 1 false stages).
  Definition line (s : cst c) (js : list sl_in) (k : nat) : Z := l_dqo _ _ (state_from c s (firstn k js)).

  Lemma line_at s js e1 o e2 : trace_from c s js = e1 ++ o :: e2 -> so_dq_o o = line s js (length e1).
  Proof.
    unfold line. revert s js. induction e1 as [|a e1 IH]; intros s js E; destruct js as [|j js]; try discriminate; cbn [trace_from app] in E; injection E as E1 E2.
    - subst o. reflexivity.
    - cbn [length firstn state_from]. now apply IH.
  Qed.

  Lemma line_frame z s0 js0 jr k : p_cs_n z = true -> p_clk z = false -> l_p1 _ _ s0 = z -> Forall asked (trace_from c s0 js0) ->
    (2 <= k <= length js0)%nat ->
    let f := trace_from c s0 js0 in
    let X := line s0 js0 2 :: G width 1 (Z.to_nat width) (taken (skipn 2 f)) in
    let K := Z.to_nat (updates cpol cpha z (firstn (k - 2) (map so_pins f))) in
    line s0 (js0 ++ jr) k = nth K X 0 /\ (K < length X)%nat.
  Proof.
    intros Hz1 Hz2 H0 HF Hk f X K.
    assert (Ek : firstn k (js0 ++ jr) = firstn k js0) by (rewrite firstn_app; replace (k - length js0)%nat with 0%nat by lia; now rewrite firstn_O, app_nil_r).
    assert (Ef : f = trace_from c s0 (firstn k js0) ++ trace_from c (state_from c s0 (firstn k js0)) (skipn k js0)).
    { unfold f. rewrite <- trace_from_app. now rewrite firstn_skipn. }
    assert (Lk : length (firstn k js0) = k) by (rewrite firstn_length; lia).
    destruct (frame_value cpol cpha width 1 stages (Z.to_nat width) Hm ltac:(lia) ltac:(lia) ltac:(lia) z Hz1 Hz2 s0 (firstn k js0) H0 ltac:(lia)) as (P & a & b & EP & _ & _ & _ & SE & DQ).
    { unfold f in HF. fold f in HF. rewrite Ef in HF. apply Forall_app in HF. apply HF. }
    set (tk := trace_from c s0 (firstn k js0)) in *. set (tr := trace_from c (state_from c s0 (firstn k js0)) (skipn k js0)) in *.
    assert (Ltk : length tk = k) by (unfold tk; now rewrite trace_from_length).
    assert (EPk : firstn (k - 2) (map so_pins f) = P).
    { rewrite Ef, map_app, EP, <- app_assoc, firstn_app. assert (LP : length P = (k - 2)%nat) by (apply (f_equal (@length _)) in EP; rewrite map_length, app_length in EP; cbn [length] in EP; lia).
      rewrite LP, Nat.sub_diag, firstn_O, app_nil_r, <- LP. apply firstn_all. }
    assert (EW : exists w2, taken (skipn 2 f) = taken (skipn 2 tk) ++ w2).
    { rewrite Ef, skipn_app. rewrite taken_app. eauto. }
    destruct EW as [w2 EW]. pose proof (sending_le width 1 (Z.to_nat width) ltac:(lia) _ _ _ SE) as SL.
    unfold K, X. rewrite EPk. unfold line at 1. rewrite Ek, DQ. rewrite EW.
    assert (EG : G width 1 (Z.to_nat width) (taken (skipn 2 tk) ++ w2) = G width 1 (Z.to_nat width) (taken (skipn 2 tk)) ++ G width 1 (Z.to_nat width) w2) by (unfold G; rewrite map_app, concat_app; reflexivity).
    rewrite EG. assert (E2 : firstn 2 (firstn k js0) = firstn 2 js0) by (rewrite firstn_firstn; f_equal; lia). rewrite E2.
    assert (LG : (Z.to_nat (updates cpol cpha z P) < length (line s0 js0 2 :: G width 1 (Z.to_nat width) (taken (skipn 2 tk))))%nat).
    { cbn [length]. rewrite G_len by lia. nia. }
    rewrite !app_comm_cons. split; [|rewrite app_length; lia]. unfold line in *. rewrite app_nth1 by exact LG. reflexivity.
  Qed.
End Slave.

(** The pins are at rest for some time before a frame, and the clock is low as it begins. *)
Lemma frame_start width div delay ins T0 z x T1 : 0 <= div < 256 -> 0 < width <= 256 -> div < delay ->
  trace (spi_host width 1 div delay) ins = T0 ++ z :: x :: T1 -> p_cs_n (pins_of z) = true -> p_cs_n (pins_of x) = false ->
  p_clk (pins_of z) = false /\ p_clk (pins_of x) = false /\
  exists t r, T0 ++ [z] = t ++ r /\ Forall rests r /\ delay - div <= Z.of_nat (length r).
Proof.
  intros Hd Hw Hdl PH Hz Hx. change (T0 ++ z :: x :: T1) with (T0 ++ [z; x] ++ T1) in PH.
  apply trace_seg in PH. destruct PH as (ia & ib & ic & -> & ET & PH & _). destruct ib as [|i [|j [|? ?]]]; try discriminate. cbn [trace_from] in PH.
  apply cons_inv in PH. destruct PH as [PZ PH]. apply cons_inv in PH. destruct PH as [PX _]. set (hc := spi_host width 1 div delay) in *.
  assert (CE : ms_cs_en width (snd (state hc ia)) = false).
  { rewrite <- PZ in Hz. change (negb (ms_cs_en width (snd (state hc ia))) = true) in Hz. now apply negb_true_iff. }
  assert (CN : ms_cs_en width (snd (cnext hc (state hc ia) i)) = true).
  { rewrite <- PX in Hx. change (negb (ms_cs_en width (snd (cnext hc (state hc ia) i))) = false) in Hx. now apply negb_false_iff. }
  destruct (start_low width div delay Hd Hw ia i Hdl CE CN) as (S1 & S2 & S3). fold hc in S1, S2, S3.
  split; [rewrite <- PZ; exact S1|]. split; [rewrite <- PX; exact S2|].
  destruct (quiet_before width div delay Hd Hw ia i Hdl CE CN) as (t & r & Et & Fr & Lr).
  fold hc in Et. destruct (host_snoc width 1 div delay ia i) as [HN1 _]. fold hc in HN1. rewrite HN1, ET in Et. fold hc in PZ. rewrite PZ in Et. eauto.
Qed.
(** The slave has an edge of its clock in the time the pins are at rest before a frame. *)
Lemma rest_seen width div delay t r l0 : 0 <= div < 256 -> 0 < width <= 256 -> 2 * div + 1 <= delay ->
  map fst l0 = t ++ r -> Forall rests r -> delay - div <= Z.of_nat (length r) -> finds l0 -> edges_in 3 (Z.to_nat (div + 1)) l0 ->
  exists e zo, slave_edges l0 = e ++ [zo] /\ p_cs_n (so_pins zo) = true /\ p_clk (so_pins zo) = false.
Proof.
  intros Hd Hw Hdl E Fr Lr HF HE.
  apply map_eq_app in E. destruct E as (lt & lr & -> & <- & <-). rewrite map_length in Lr.
  destruct lr as [|x lr _] using rev_ind; [cbn [length] in Lr; lia|]. rewrite app_length in Lr. cbn [length] in Lr.
  pose proof (full_phase div Hd lr x) as FP. specialize (FP ltac:(apply (edges_in_sub _ _ lt _ []); now rewrite app_nil_r) ltac:(lia)).
  destruct (finds_app _ _ HF) as [_ HFr].
  pose proof (finds_all (fun k c => c = true /\ k = false) (lr ++ [x]) HFr) as FA.
  specialize (FA (proj1 (Forall_map fst rests _) Fr)).
  rewrite slave_edges_app. destruct (slave_edges (lr ++ [x])) as [|zo e _] using rev_ind; [cbn in FP; lia|].
  exists (slave_edges lt ++ e), zo. split; [now rewrite app_assoc|]. rewrite map_app in FA. apply Forall_app in FA. destruct FA as [_ FA]. apply Forall_cons_iff in FA. apply FA.
Qed.

(** A frame of the host, and the edges of the slave in it. *)
Lemma late_core width div delay cpol cpha stages ins sins T0 z f y T1 pre r :
  0 <= div < 256 -> div < delay -> 0 < width <= 256 -> cpol = cpha ->
  trace (spi_host width 1 div delay) ins = T0 ++ z :: map fst f ++ y :: T1 ->
  trace (spi_slave cpol cpha width 1 false stages) sins = pre ++ slave_edges f ++ r ->
  finds f -> edges_in 3 (Z.to_nat (div + 1)) f ->
  (forall g x g2, f = g ++ x :: g2 -> exists q1 o q2, slave_edges (x :: g2) ++ r = q1 ++ o :: q2 /\ (length q1 <= length (snd x))%nat /\ mo_dq_i (ho_phy (fst x)) = 2 * so_dq_o o) ->
  p_cs_n (pins_of z) = true -> p_cs_n (pins_of y) = true -> Forall (fun x => p_cs_n (pins_of (fst x)) = false) f ->
  (f <> [] -> exists e zo, pre = e ++ [zo] /\ p_cs_n (so_pins zo) = true /\ p_clk (so_pins zo) = false) ->
  Forall (fun o => cvalid (so_sink o) = true) (slave_edges f) ->
  exists out back x,
    sent (T0 ++ z :: map fst f) = sent T0 ++ out /\
    returned (T0 ++ z :: map fst f) = returned T0 ++ back /\
    map blast back = map blast out /\
    concat (map (bits width) (map bdata back)) =
      firstn (Z.to_nat width * length out) (x :: concat (map (bits width) (taken (skipn 2 (slave_edges f))))) /\
    length (concat (map (bits width) (map bdata back))) = (Z.to_nat width * length out)%nat.
Proof.
  intros Hd Hdl Hw Hm PH PS HFf' HEf HSe Hz Hy HC HZ HV.
  set (F := map fst f) in *.
  assert (O1 : In 1 [1; 2; 4; 8]) by now left. assert (O2 : (1 | width)) by apply Z.divide_1_l.
  (* everything exchanged at z and y *)
  destruct (C139_complete width 1 div delay ins T0 z (F ++ y :: T1) Hd O1 O2 Hw PH Hz) as (gs0 & E0 & X0).
  destruct (C139_complete width 1 div delay ins (T0 ++ z :: F) y (T1) Hd O1 O2 Hw) as (gs & E1 & X1).
  { rewrite PH, <- app_assoc. reflexivity. }
  { exact Hy. }
  rewrite sent_app in X1 |- *. rewrite returned_app in X1 |- *. set (out := sent (z :: F)) in *.
  destruct (Forall3_app _ _ _ _ _ X1) as (g1 & g2 & r1 & r2 & -> & Er & Y1 & Y2).
  destruct (Forall3_length _ _ _ _ X0) as [L0 _]. destruct (Forall3_length _ _ _ _ Y1) as [L1 _].
  apply app_inj_len in Er; [|lia]. destruct Er as [<- <-]. set (back := returned (z :: F)) in *.
  exists out, back.
  assert (LB : map blast back = map blast out).
  { clear - Y2. induction Y2 as [|w g r ws gs rs (_ & _ & H) _ IH]; [reflexivity|]. cbn [map]. now rewrite H, IH. }
  (* the pulses of the frame *)
  rewrite edges_app, concat_app in E1. set (e := rises (last_clk (map ho_phy T0)) (map ho_phy (z :: F))) in *.
  assert (EG : e = concat g2).
  { rewrite E0 in E1. apply app_inj_len in E1; [apply E1|]. now rewrite (exchanged_len _ _ _ _ _ X0), (exchanged_len _ _ _ _ _ Y1). }
  pose proof (exchanged_bits width _ _ _ ltac:(lia) Y2) as XB. rewrite <- EG in XB.
  pose proof (exchanged_len _ _ _ _ _ Y2) as LE. rewrite <- EG, Z.div_1_r in LE.
  assert (ZR : e = rises (p_clk (pins_of z)) (map ho_phy F)).
  { unfold e. cbn [map rises]. change (mo_clk (ho_phy z)) with (p_clk (pins_of z)).
    destruct (negb (last_clk (map ho_phy T0)) && p_clk (pins_of z)) eqn:Q; [|reflexivity]. exfalso. apply andb_prop in Q. destruct Q as [Q1 Q2]. apply negb_true_iff in Q1.
    rewrite <- last_map_clk in Q1.
    rewrite (C139_selected width 1 div delay ins T0 z (F ++ y :: T1) Hd O1 O2 Hw PH Q1 Q2) in Hz. discriminate. }
  enough (RR : exists x, map (sample 1) (map snd e) = map (fun d => d mod 2) (firstn (length e) (x :: concat (map (bits width) (taken (skipn 2 (slave_edges f))))))).
  { destruct RR as [x RR]. exists (x mod 2). split; [reflexivity|]. split; [reflexivity|]. split; [exact LB|].
    split; [|rewrite XB, !map_length; exact LE].
    rewrite XB, RR, <- firstn_map, LE. f_equal. cbn [map]. f_equal.
    rewrite concat_map, map_map. f_equal. apply map_ext. intros w. unfold bits, msb_first. rewrite map_map. apply map_ext. intros k. change (2 ^ 1) with 2. apply Z.mod_mod. lia. }
  destruct f as [|f0 f'].
  { exists 0. rewrite ZR. reflexivity. }
  set (f := f0 :: f') in *.
  (* the host at the start of the frame *)
  change (T0 ++ z :: F ++ y :: T1) with (T0 ++ (z :: F) ++ y :: T1) in PH.
  apply trace_seg in PH. destruct PH as (ia & ib & ic & -> & ET & PH & _). destruct ib as [|i ib]; [discriminate|]. cbn [trace_from] in PH.
  apply cons_inv in PH. destruct PH as [PZ PF]. set (hc := spi_host width 1 div delay) in *.
  assert (CE : ms_cs_en width (snd (state hc ia)) = false).
  { rewrite <- PZ in Hz. change (negb (ms_cs_en width (snd (state hc ia))) = true) in Hz. now apply negb_true_iff. }
  assert (CN : ms_cs_en width (snd (cnext hc (state hc ia) i)) = true).
  { destruct ib as [|j ib]; [discriminate|]. cbn [trace_from] in PF. unfold F, f in PF. cbn [map] in PF. apply cons_inv in PF. destruct PF as [PF _].
    apply Forall_cons_iff in HC. destruct HC as [HF0 _]. rewrite <- PF in HF0.
    change (negb (ms_cs_en width (snd (cnext hc (state hc ia) i))) = false) in HF0. now apply negb_false_iff. }
  destruct (start_low width div delay Hd Hw ia i ltac:(lia) CE CN) as (S1 & S2 & S3). fold hc in S1, S2, S3.
  destruct (host_snoc width 1 div delay ia i) as [HN1 HN2]. fold hc in HN1, HN2. rewrite <- HN2 in PF, S2, S3.
  rewrite ZR. replace (p_clk (pins_of z)) with false by (rewrite <- PZ; symmetry; exact S1). change (rises false (map ho_phy F)) with (pulses f).
  (* the slave at the start of the frame *)
  destruct (HZ ltac:(discriminate)) as (ez & zo & -> & Zc & Zk).
  apply trace_seg in PS. destruct PS as (a0 & js0 & jr & -> & PA & PJ & PR).
  set (sc := spi_slave cpol cpha width 1 false stages) in *. set (s0 := state sc a0) in *.
  assert (P0 : l_p1 _ _ s0 = so_pins zo).
  { destruct a0 as [|k a0 _] using rev_ind; [destruct ez; discriminate|]. unfold s0. unfold state. rewrite state_from_app. cbn [state_from].
    rewrite trace_app in PA. cbn [trace_from] in PA. apply app_inj_tail in PA. destruct PA as [_ PA].
    destruct (out_next cpol cpha width 1 stages (state_from sc (creset sc) a0) k) as (N1 & _). fold sc in N1. rewrite N1, <- PA. reflexivity. }
  assert (HA : Forall asked (slave_edges f)).
  { pose proof (finds_all (fun _ c => c = false) f HFf' HC) as FA. apply (proj1 (Forall_map so_pins (fun p => p_cs_n p = false) _)) in FA.
    apply Forall_forall. intros o Ho. split; [apply (proj1 (Forall_forall _ _) FA o Ho)|apply (proj1 (Forall_forall _ _) HV o Ho)]. }
  assert (Hm' : Bool.eqb cpol cpha = true) by (subst; apply Bool.eqb_reflx).
  assert (LJ : length js0 = length (slave_edges f)) by (rewrite <- PJ; symmetry; apply trace_from_length).
  exists (line cpol cpha width stages s0 js0 2).
  assert (GG : forall ws, concat (map (bits width) ws) = G width 1 (Z.to_nat width) ws).
  { intros ws. unfold G. f_equal. apply map_ext. intros w. unfold grp, bits, msb_first. rewrite <- seq_shift, map_map, Z.div_1_r.
    apply map_ext_in. intros k Hk. apply in_seq in Hk. unfold nth_group. rewrite Z.shiftr_div_pow2 by nia. do 3 f_equal. lia. }
  rewrite GG.
  refine (proj1 (frame_reads width div delay Hd Hw (ia ++ [i]) S2 S3 cpol cpha Hm' (so_pins zo) Zk ib f (line cpol cpha width stages s0 (js0 ++ jr)) _ _ HFf' _ HC _ _)).
  - symmetry. exact PF.
  - exact HEf.
  - intros g x g3 Eg. destruct (HSe g x g3 Eg) as (q1 & o & q2 & Q & Lq & DQ). exists (length q1). split; [exact Lq|]. rewrite DQ. f_equal.
    rewrite <- app_length. apply (line_at cpol cpha width stages s0 (js0 ++ jr) (slave_edges g ++ q1) o q2). fold sc.
    rewrite trace_from_app, PJ, PR, Eg, slave_edges_app, <- !app_assoc, Q. reflexivity.
  - intros k Hk. pose proof (line_frame cpol cpha width stages Hm' ltac:(lia) (so_pins zo) s0 js0 jr k Zc Zk P0) as LF. fold sc in LF. rewrite PJ in LF. apply LF; [exact HA|lia].
Qed.

(** ** C160.  The host and the slave have clocks of their own; the slave has at least three
    edges in every half period of the SPI clock, at any phase and with any jitter.  In a
    frame of the host (chip select low from the cycle after [z] to the cycle before [y]),
    with a slave that always has words to send, the host gives back one word for each it
    was sent, and the bits of these words are one bit of no meaning followed by the bits of
    the words the slave took during the frame. *)
Theorem C160_late : forall width div delay cpol cpha stages ins sins l l0 z f y l1,
  0 <= div < 256 -> 2 * div + 1 <= delay -> 0 < width <= 256 -> cpol = cpha ->
  map fst l = trace (spi_host width 1 div delay) ins ->
  slave_edges l = trace (spi_slave cpol cpha width 1 false stages) sins ->
  finds l -> sees l -> edges_in 3 (Z.to_nat (div + 1)) l ->
  l = l0 ++ z :: f ++ y :: l1 ->
  p_cs_n (pins_of (fst z)) = true -> p_cs_n (pins_of (fst y)) = true -> Forall (fun x => p_cs_n (pins_of (fst x)) = false) f ->
  Forall (fun o => cvalid (so_sink o) = true) (slave_edges f) ->
  slave_edges (y :: l1) <> [] ->
  exists out back x,
    sent (map fst (l0 ++ z :: f)) = sent (map fst l0) ++ out /\
    returned (map fst (l0 ++ z :: f)) = returned (map fst l0) ++ back /\
    map blast back = map blast out /\
    concat (map (bits width) (map bdata back)) =
      firstn (Z.to_nat width * length out) (x :: concat (map (bits width) (taken (skipn 2 (slave_edges f))))).
Proof.
  intros width div delay cpol cpha stages ins sins l l0 z f y l1 Hd Hdl Hw Hm PH PS HF HSe HE El Hz Hy HC HV HY.
  assert (El' : l = (l0 ++ [z]) ++ f ++ y :: l1) by (rewrite El, <- app_assoc; reflexivity).
  assert (HF' := HF). rewrite El' in HF'. destruct (finds_app _ _ HF') as [HFz HFf]. destruct (finds_app _ _ HFf) as [HFf' _].
  assert (HE' := HE). rewrite El' in HE'.
  rewrite El in PH. rewrite map_app in PH. cbn [map] in PH. rewrite map_app in PH. cbn [map] in PH. symmetry in PH.
  rewrite El', !slave_edges_app in PS. symmetry in PS.
  destruct (late_core width div delay cpol cpha stages ins sins (map fst l0) (fst z) f (fst y) (map fst l1) _ _ Hd ltac:(lia) Hw Hm PH PS HFf' (edges_in_sub _ _ (l0 ++ [z]) f (y :: l1) HE')) as (out & back & x & R1 & R2 & R3 & R4 & _).
  - intros g x g3 Eg. destruct (HSe ((l0 ++ [z]) ++ g) x (g3 ++ y :: l1)) as (o & Ho & DQ).
    + rewrite El', Eg, <- !app_assoc. reflexivity.
    + rewrite slave_edges_app. intros Q. apply app_eq_nil in Q. now destruct Q.
    + rewrite <- slave_edges_app. change ((x :: g3) ++ y :: l1) with (x :: g3 ++ y :: l1).
      change (slave_edges (x :: g3 ++ y :: l1)) with (snd x ++ slave_edges (g3 ++ y :: l1)). apply in_app_or in Ho. destruct Ho as [Ho|Ho].
      * apply in_split in Ho. destruct Ho as (q1 & q2 & ->). exists q1, o, (q2 ++ slave_edges (g3 ++ y :: l1)). split; [now rewrite <- app_assoc|]. split; [|exact DQ]. rewrite app_length. lia.
      * destruct (slave_edges (g3 ++ y :: l1)) as [|o' q2]; [destruct Ho|]. destruct Ho as [->|[]]. exists (snd x), o, q2. split; [reflexivity|]. split; [lia|exact DQ].
  - exact Hz.
  - exact Hy.
  - exact HC.
  - intros NE. destruct f as [|f0 f']; [congruence|]. cbn [map app] in PH.
    destruct (frame_start width div delay ins (map fst l0) (fst z) (fst f0) _ Hd Hw ltac:(lia) PH Hz) as (_ & _ & t & r & Et & Fr & Lr).
    { apply Forall_cons_iff in HC. apply HC. }
    rewrite <- slave_edges_app.
    apply (rest_seen width div delay t r (l0 ++ [z]) Hd Hw Hdl); auto.
    + rewrite map_app. exact Et.
    + apply (edges_in_sub _ _ [] (l0 ++ [z]) _ HE').
  - exact HV.
  - exists out, back, x. rewrite map_app. cbn [map]. auto.
Qed.

(** Runs: the host sees the level of the slave's data line at the start of its cycle. *)
Section Runs.
  Context (width div delay : Z) (w1 w2 : Z).
  Notation hc := (spi_host width 1 div delay).
  Notation sc := (spi_slave false false width 1 false [width]).
  (** The slave's words: [w1] and [w2] in turn. *)
  Definition answer_of (k : bool) : chan (Z * Z) := Chan true (Beat true true (if k then w1 else w2, width)).
  Fixpoint edges_run (n : nat) (p : pins) (k : bool) (s : cst sc) : list sl_in * list sl_obs * bool * cst sc :=
    match n with
    | O => ([], [], k, s)
    | S n' =>
        let i := SlIn p (answer_of k) true in
        let o := cout sc s i in
        let '(ii, oo, k', s') := edges_run n' p (if so_sready o then negb k else k) (cnext sc s i) in
        (i :: ii, o :: oo, k', s')
    end.
  Fixpoint both_run (ks : list nat) (l : list (beat Z)) (a : bool) (h : cst hc) (s : cst sc) : list (host_in * list sl_in) * joint :=
    match ks with
    | [] => ([], [])
    | n :: ks' =>
        let i := HostIn (match l with [] => nobeat | b :: _ => Chan true b end) (2 * l_dqo _ _ s) true in
        let o := cout hc h i in
        let '(ii, oo, a', s') := edges_run n (pins_of o) a s in
        let '(his, js) := both_run ks' (match took o with [] => l | _ => tl l end) a' (cnext hc h i) s' in
        ((i, ii) :: his, (o, oo) :: js)
    end.
End Runs.
Definition findsb (l : joint) : bool := forallb (fun x => forallb (fun o => pins_eqb (so_pins o) (pins_of (fst x))) (snd x)) l.
Lemma findsb_ok l : findsb l = true -> finds l.
Proof.
  unfold findsb, finds. rewrite forallb_forall. intros H. apply Forall_forall. intros x Hx. specialize (H x Hx). rewrite forallb_forall in H.
  apply Forall_forall. intros o Ho. specialize (H o Ho). unfold pins_eqb in H. apply andb_prop in H. destruct H as [H H3]. apply andb_prop in H. destruct H as [H1 H2].
  apply Bool.eqb_prop in H1, H2. apply Z.eqb_eq in H3. now split.
Qed.
Fixpoint seesb (l : joint) : bool :=
  match l with
  | [] => true
  | x :: l' => match slave_edges (x :: l') with [] => true | o :: _ => mo_dq_i (ho_phy (fst x)) =? 2 * so_dq_o o end && seesb l'
  end.
Lemma seesb_ok l : seesb l = true -> sees l.
Proof.
  intros H l1 x l2 -> NE. induction l1 as [|q l1 IH]; cbn [app seesb] in H; apply andb_prop in H; destruct H as [H1 H2]; [|now apply IH].
  change (slave_edges (x :: l2)) with (snd x ++ slave_edges l2) in H1.
  destruct (snd x) as [|o q]; cbn [app] in *; [destruct (slave_edges l2) as [|o q]; [congruence|]|]; apply Z.eqb_eq in H1; exists o; (split; [cbn; auto|exact H1]).
Qed.
Definition edges_inb (m w : nat) (l : joint) : bool :=
  forallb (fun k => Nat.leb m (length (slave_edges (firstn w (skipn k l))))) (seq 0 (S (length l - w))).
Lemma edges_inb_ok m w l : (w <= length l)%nat -> edges_inb m w l = true -> edges_in m w l.
Proof.
  intros Hw H a b c E Lb. unfold edges_inb in H. rewrite forallb_forall in H. specialize (H (length a)).
  assert (I : In (length a) (seq 0 (S (length l - w)))) by (apply in_seq; rewrite E, !app_length; lia). specialize (H I). apply Nat.leb_le in H.
  rewrite E, skipn_app, skipn_all, Nat.sub_diag in H. cbn [skipn app] in H. rewrite firstn_app, <- Lb, firstn_all, Nat.sub_diag, firstn_O, app_nil_r in H. exact H.
Qed.

(** Two words of four bits; three edges of the slave in any three cycles of the host. *)
Definition back_words : list (beat Z) := [Beat true false 10; Beat false true 3].
Definition back_run : list (host_in * list sl_in) * joint :=
  both_run 4 2 5 13 9 (firstn 84 (concat (repeat [2; 0; 1]%nat 28))) back_words true (creset (spi_host 4 1 2 5)) (creset (spi_slave false false 4 1 false [4])).
Definition selected (l : joint) : bool := forallb (fun x => negb (p_cs_n (pins_of (fst x)))) l.
Lemma selected_ok l : selected l = true -> Forall (fun x => p_cs_n (pins_of (fst x)) = false) l.
Proof. unfold selected. rewrite forallb_forall. intros H. apply Forall_forall. intros x Hx. apply negb_true_iff. auto. Qed.
Lemma asking_ok t : forallb (fun o => cvalid (so_sink o)) t = true -> Forall (fun o => cvalid (so_sink o) = true) t.
Proof. rewrite forallb_forall. intros H. now apply Forall_forall. Qed.
Example C160_nonvacuous : exists l0 z f y l1, let l := snd back_run in
  map fst l = trace (spi_host 4 1 2 5) (map fst (fst back_run)) /\
  slave_edges l = trace (spi_slave false false 4 1 false [4]) (concat (map snd (fst back_run))) /\
  finds l /\ sees l /\ edges_in 3 (Z.to_nat (2 + 1)) l /\
  l = l0 ++ z :: f ++ y :: l1 /\ p_cs_n (pins_of (fst z)) = true /\ p_cs_n (pins_of (fst y)) = true /\
  Forall (fun x => p_cs_n (pins_of (fst x)) = false) f /\ Forall (fun o => cvalid (so_sink o) = true) (slave_edges f) /\
  slave_edges (y :: l1) <> [] /\ length f = 51%nat /\
  map bdata (sent (map fst (z :: f))) = [10; 3] /\ taken (skipn 2 (slave_edges f)) = [9; 13] /\
  map bdata (returned (map fst (z :: f))) = [4; 14] /\
  concat (map (bits 4) [4; 14]) = firstn 8 (0 :: concat (map (bits 4) [9; 13])).
Proof.
  exists (firstn 6 (snd back_run)). eexists _. exists (firstn 51 (skipn 7 (snd back_run))). eexists _. exists (skipn 59 (snd back_run)). cbv zeta.
  split; [vm_compute; reflexivity|]. split; [vm_compute; reflexivity|].
  split; [apply findsb_ok; vm_compute; reflexivity|]. split; [apply seesb_ok; vm_compute; reflexivity|]. split; [apply edges_inb_ok; [vm_compute; lia|vm_compute; reflexivity]|].
  split; [vm_compute; reflexivity|]. split; [reflexivity|]. split; [reflexivity|].
  split; [apply selected_ok; vm_compute; reflexivity|]. split; [apply asking_ok; vm_compute; reflexivity|].
  split; [vm_compute; discriminate|]. repeat (split; [vm_compute; reflexivity|]). vm_compute; reflexivity.
Qed.

(** Three edges in each half period are needed: with two, the answer can be two bits late. *)
Definition slow_run : list (host_in * list sl_in) * joint :=
  both_run 4 2 5 13 9 (firstn 84 (concat (repeat [0; 1; 1]%nat 28))) back_words true (creset (spi_host 4 1 2 5)) (creset (spi_slave false false 4 1 false [4])).
Theorem C160_three_needed : exists l0 z f y l1, let l := snd slow_run in
  map fst l = trace (spi_host 4 1 2 5) (map fst (fst slow_run)) /\
  slave_edges l = trace (spi_slave false false 4 1 false [4]) (concat (map snd (fst slow_run))) /\
  finds l /\ sees l /\ edges_in 2 (Z.to_nat (2 + 1)) l /\
  l = l0 ++ z :: f ++ y :: l1 /\ p_cs_n (pins_of (fst z)) = true /\ p_cs_n (pins_of (fst y)) = true /\
  Forall (fun x => p_cs_n (pins_of (fst x)) = false) f /\ Forall (fun o => cvalid (so_sink o) = true) (slave_edges f) /\
  slave_edges (y :: l1) <> [] /\ length (sent (map fst (z :: f))) = 2%nat /\
  forall x, concat (map (bits 4) (map bdata (returned (map fst (z :: f))))) <> firstn 8 (x :: concat (map (bits 4) (taken (skipn 2 (slave_edges f))))).
Proof.
  exists (firstn 6 (snd slow_run)). eexists _. exists (firstn 51 (skipn 7 (snd slow_run))). eexists _. exists (skipn 59 (snd slow_run)). cbv zeta.
  split; [vm_compute; reflexivity|]. split; [vm_compute; reflexivity|].
  split; [apply findsb_ok; vm_compute; reflexivity|]. split; [apply seesb_ok; vm_compute; reflexivity|]. split; [apply edges_inb_ok; [vm_compute; lia|vm_compute; reflexivity]|].
  split; [vm_compute; reflexivity|]. split; [reflexivity|]. split; [reflexivity|].
  split; [apply selected_ok; vm_compute; reflexivity|]. split; [apply asking_ok; vm_compute; reflexivity|].
  split; [vm_compute; discriminate|]. split; [vm_compute; reflexivity|]. intros x. vm_compute. discriminate.
Qed.

Print Assumptions C160_late.
Print Assumptions C160_three_needed.
