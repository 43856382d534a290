(** Lemmas for C160. *)
From Verif Require Import Stream Bits Fifo_model Timer_model Spiclk_model I2cstream_proofs Spistream_model Spistream_props Spimaster_model Spimaster_props Spislave_model Spislave_props Spimiso_props Spilink_model Spilink_spec Spilink_proofs Spilink_props Spixchg_props Spipair_model Spipair_proofs Spipair_props Spiclock_spec Spiclock_proofs Spiclockback_spec.

Lemma one_line : In 1 [1; 2; 4; 8]. Proof. now left. Qed.
Lemma one_divides width : (1 | width). Proof. apply Z.divide_1_l. Qed.

(** ** The slave inside a frame, at any time *)
Section Slave.
  Context (cpol cpha : bool) (width bw : Z) (stages : list Z) (n : nat).
  Context (Hm : Bool.eqb cpol cpha = true) (Hbw : 0 < bw) (Hn : (0 < n)%nat) (Hw : width = bw * Z.of_nat n).
  Notation c := (spi_slave cpol cpha width bw false stages).
  Context (z : pins) (Hz1 : p_cs_n z = true) (Hz2 : p_clk z = false).

  (** After two edges or more: what the data line shows. *)
  Lemma frame_value s0 js : l_p1 _ _ s0 = z -> (2 <= length js)%nat -> Forall asked (trace_from c s0 js) ->
    exists P a b, map so_pins (trace_from c s0 js) = P ++ [a; b] /\ l_p2 _ _ (state_from c s0 js) = a /\ l_p1 _ _ (state_from c s0 js) = b /\
      l_clk_r _ _ (state_from c s0 js) = p_clk (last P z) /\
      let ws := taken (skipn 2 (trace_from c s0 js)) in
      sending width bw n (state_from c s0 js) ws (updates cpol cpha z P) /\
      l_dqo _ _ (state_from c s0 js) = nth (Z.to_nat (updates cpol cpha z P)) (l_dqo _ _ (state_from c s0 (firstn 2 js)) :: G width bw n ws) 0.
  Proof.
    intros H0. induction js as [|j js IH] using rev_ind; intros HL HF; [cbn in HL; lia|].
    rewrite trace_from_app in HF |- *. rewrite !state_from_app. cbn [trace_from state_from] in HF |- *.
    apply Forall_app in HF. destruct HF as [HF Ho]. apply Forall_cons_iff in Ho. destruct Ho as [[Ho1 Ho2] _].
    rewrite app_length in HL. cbn [length] in HL.
    destruct (Nat.eq_dec (length js) 1) as [L1|L1].
    - destruct js as [|k [|? ?]]; try (cbn [length] in L1; lia). clear IH HL L1. cbn [trace_from state_from app firstn] in *.
      set (s1 := cnext c s0 k) in *. destruct (out_next cpol cpha width bw stages s0 k) as (A1 & A2 & _). fold s1 in A1, A2.
      destruct (out_next cpol cpha width bw stages s1 j) as (B1 & B2 & B3 & B4). set (s2 := cnext c s1 j) in *.
      exists [], (sl_pins k), (sl_pins j). split; [reflexivity|]. rewrite B2, B1, A1, B3, A2, H0. split; [reflexivity|]. split; [reflexivity|]. split; [reflexivity|].
      cbv zeta. cbn [skipn taken flat_map updates].
      assert (Hen : sl_en width false s1 = false) by (unfold sl_en; now rewrite A2, H0, Hz1).
      unfold sl_load, sl_update, sl_mode, sl_fall in B4. rewrite Hm, Hen in B4. cbn [andb] in B4. injection B4 as M1 M2 M3.
      split; [|reflexivity]. left. split; [exact M1|]. split; [cbn [length]; lia|]. now rewrite B3, A2, H0, Hz2.
    - specialize (IH ltac:(lia) HF). destruct IH as (P & a & b & EP & I2 & I1 & IC & IH). cbv zeta in IH. destruct IH as [SE DQ].
      replace (firstn 2 (js ++ [j])) with (firstn 2 js) by (rewrite firstn_app; replace (2 - length js)%nat with 0%nat by lia; now rewrite firstn_O, app_nil_r).
      assert (SK : skipn 2 (trace_from c s0 js ++ [cout c (state_from c s0 js) j]) = skipn 2 (trace_from c s0 js) ++ [cout c (state_from c s0 js) j]).
      { rewrite skipn_app, trace_from_length. replace (2 - length js)%nat with 0%nat by lia. reflexivity. }
      rewrite SK. set (t := trace_from c s0 js) in *. set (x := l_dqo _ _ (state_from c s0 (firstn 2 js))) in *. set (s := state_from c s0 js) in *.
      destruct (out_next cpol cpha width bw stages s j) as (N1 & N2 & N3 & _).
      assert (Ha : p_cs_n a = false).
      { assert (X : Forall (fun p => p_cs_n p = false) (map so_pins t)) by (apply Forall_map; eapply Forall_impl; [|exact HF]; intros ? [H _]; exact H).
        rewrite EP in X. apply Forall_app in X. destruct X as [_ X]. apply Forall_cons_iff in X. apply X. }
      destruct (sending_step cpol cpha width bw stages n Hm Hbw Hn Hw s j (taken (skipn 2 t)) (updates cpol cpha z P) x ltac:(now rewrite I2) Ho2 SE DQ) as [S1 S2]. cbv zeta in S1, S2.
      exists (P ++ [a]), b, (sl_pins j). split; [rewrite map_app, EP, <- !app_assoc; reflexivity|]. rewrite N1, N2, N3, I1, I2.
      split; [reflexivity|]. split; [reflexivity|]. split; [now rewrite last_last|]. cbv zeta.
      rewrite taken_snoc, updates_snoc.
      assert (UE : update_edge cpol cpha (last P z) a = l_clk_r _ _ s && negb (p_clk (l_p2 _ _ s))).
      { unfold update_edge. rewrite Hm, Ha, IC, I2. reflexivity. }
      rewrite UE. split; [exact S1|exact S2].
  Qed.
End Slave.

Lemma app_inj_len {A} (a b c d : list A) : a ++ b = c ++ d -> length a = length c -> a = c /\ b = d.
Proof.
  revert c. induction a as [|x a IH]; intros [|y c] E L; cbn [app length] in *; try lia; [now split|].
  injection E as -> E. destruct (IH c E ltac:(lia)) as [-> ->]. now split.
Qed.
Lemma Forall_firstn' {A} (P : A -> Prop) k l : Forall P l -> Forall P (firstn k l).
Proof. intros F. revert k. induction F; intros [|k]; cbn [firstn]; constructor; auto. Qed.
Lemma firstn_snoc_nth (l : list Z) k : (k < length l)%nat -> firstn k l ++ [nth k l 0] = firstn (S k) l.
Proof.
  revert k. induction l as [|h l IH]; intros k Hk; [cbn in Hk; lia|]. destruct k; [reflexivity|]. cbn [firstn nth app]. f_equal. apply IH. cbn in Hk. lia.
Qed.

(** Rising edges of the clock among the pins found. *)
Fixpoint ups (p : bool) (l : list pins) : nat :=
  match l with [] => 0%nat | q :: l' => (if negb p && p_clk q then 1 else 0) + ups (p_clk q) l' end%nat.
Lemma ups_app p l l' : ups p (l ++ l') = (ups p l + ups (p_clk (last l (Pins p true 0))) l')%nat.
Proof.
  revert p. induction l as [|q l IH]; intros p; [reflexivity|]. cbn [app ups]. rewrite IH.
  destruct l as [|r l]; [cbn [ups last p_clk]; lia|]. change (last (q :: r :: l) (Pins p true 0)) with (last (r :: l) (Pins p true 0)).
  replace (last (r :: l) (Pins p true 0)) with (last (r :: l) (Pins (p_clk q) true 0)); [lia|]. clear. revert r. induction l as [|x l IH]; intros r; [reflexivity|]. apply (IH x).
Qed.
Lemma ups_same p l : Forall (fun q => p_clk q = p) l -> ups p l = 0%nat.
Proof. induction 1 as [|q l H _ IH]; [reflexivity|]. cbn [ups]. rewrite H, IH. now destruct p. Qed.
Lemma ups_high l : l <> [] -> Forall (fun q => p_clk q = true) l -> ups false l = 1%nat.
Proof. intros H F. destruct F as [|q l E F]; [congruence|]. cbn [ups]. rewrite E. cbn [negb andb]. now rewrite ups_same. Qed.
Lemma ups_updates cpol cpha p l : Bool.eqb cpol cpha = true -> p_clk p = false -> Forall (fun q => p_cs_n q = false) l ->
  Z.of_nat (ups false l) = updates cpol cpha p l + (if p_clk (last l p) then 1 else 0).
Proof.
  intros Hm Hp. induction l as [|q l IH] using rev_ind; intros HF; [cbn [ups updates last]; rewrite Hp; reflexivity|].
  apply Forall_app in HF. destruct HF as [HF Hq]. apply Forall_cons_iff in Hq. destruct Hq as [Hq _]. specialize (IH HF).
  rewrite ups_app, updates_snoc, last_last. unfold update_edge. rewrite Hm, Hq. cbn [negb andb ups].
  assert (E : p_clk (last l (Pins false true 0)) = p_clk (last l p)) by (destruct l as [|r l _] using rev_ind; [cbn [last p_clk]; congruence|now rewrite !last_last]).
  rewrite E. destruct (p_clk (last l p)), (p_clk q); cbn [negb andb] in *; lia.
Qed.

(** ** The host before and inside a frame *)
Section Host.
  Context (width div delay : Z) (Hdiv : 0 <= div < 256) (Hwd : 0 < width <= 256).
  Notation h := (spi_host width 1 div delay).
  Notation hclk s := (ck_clk (m_ck _ (snd s))).
  Notation hcnt s := (ck_cnt (m_ck _ (snd s))).
  Definition rests (o : host_obs) : Prop := p_cs_n (pins_of o) = true /\ p_clk (pins_of o) = false.

  (** How long the pins have been at rest when the chip select is about to fall. *)
  Lemma quiet ins : 0 <= delay -> 0 < m_tim _ (snd (state h ins)) -> hclk (state h ins) = false ->
    exists t r, trace h ins = t ++ r /\ Forall rests r /\ delay - div - m_tim _ (snd (state h ins)) <= Z.of_nat (length r).
  Proof.
    intros Hdl. induction ins as [|i ins IH] using rev_ind; intros Ht Hk.
    { exists [], []. split; [reflexivity|]. split; [constructor|]. cbn. lia. }
    pose proof (tim_range width div delay ins Hdl) as TR. pose proof (wait_fall width div delay Hdiv Hwd ins Hdl) as WF. cbv zeta in WF.
    pose proof (ck_range width 1 div delay Hdiv one_line (one_divides width) Hwd ins) as CR.
    destruct (host_snoc width 1 div delay ins i) as [E1 E2]. rewrite E1, E2 in *. clear E1 E2. set (s := state h ins) in *.
    rewrite tim_next in Ht |- *. unfold wt_next, ms_cs_en in *.
    destruct (match fst s with SsIdle => false | _ => true end).
    2:{ exists (trace h ins ++ [cout h s i]), []. split; [now rewrite app_nil_r|]. split; [constructor|]. cbn [length]. lia. }
    unfold wt_done in *. destruct (Z.eqb_spec (m_tim _ (snd s)) 0) as [H0|H0]; cbn [negb] in *; [lia|]. rewrite trunc_range_small in * by lia.
    destruct (hclk s) eqn:Ek.
    - specialize (WF eq_refl eq_refl). exists (trace h ins ++ [cout h s i]), []. split; [now rewrite app_nil_r|]. split; [constructor|]. cbn [length]. lia.
    - destruct (IH ltac:(lia) eq_refl) as (t & r & -> & F & L). exists t, (r ++ [cout h s i]). split; [now rewrite app_assoc|]. split.
      + apply Forall_app. split; [exact F|]. constructor; [|constructor]. split; [|exact Ek].
        change (negb (ms_cs_en width (snd s)) = true). apply negb_true_iff. unfold ms_cs_en, wt_done. now apply Z.eqb_neq.
      + rewrite app_length. cbn [length]. lia.
  Qed.
  (** [z] is the last cycle before the chip select falls. *)
  Lemma quiet_before ins i : div < delay -> ms_cs_en width (snd (state h ins)) = false -> ms_cs_en width (snd (cnext h (state h ins) i)) = true ->
    exists t r, trace h (ins ++ [i]) = t ++ r /\ Forall rests r /\ delay - div <= Z.of_nat (length r).
  Proof.
    intros Hdl E0 E1. destruct (start_low width div delay Hdiv Hwd ins i Hdl E0 E1) as (K & _). pose proof (tim_range width div delay ins ltac:(lia)) as TR.
    unfold ms_cs_en, wt_done in *. apply Z.eqb_neq in E0. destruct (quiet ins ltac:(lia) ltac:(lia) K) as (t & r & E & F & L).
    rewrite tim_next in E1. unfold wt_next in E1. destruct (match fst (state h ins) with SsIdle => false | _ => true end); [|apply Z.eqb_eq in E1; lia].
    unfold wt_done in E1. destruct (Z.eqb_spec (m_tim _ (snd (state h ins))) 0); cbn [negb] in E1; [contradiction|].
    rewrite trunc_range_small in E1 by lia. apply Z.eqb_eq in E1.
    destruct (host_snoc width 1 div delay ins i) as [-> _]. exists t, (r ++ [cout h (state h ins) i]). split; [rewrite E; now rewrite app_assoc|]. split.
    - apply Forall_app. split; [exact F|]. constructor; [|constructor]. split; [|exact K].
      change (negb (ms_cs_en width (snd (state h ins))) = true). apply negb_true_iff. unfold ms_cs_en, wt_done. now apply Z.eqb_neq.
    - rewrite app_length. cbn [length]. lia.
  Qed.
End Host.

(** ** Phases of the clock in a frame, as the host and as the slave see them *)
Notation hp l := (map pins_of (map fst l)).
Notation sp l := (map so_pins (slave_edges l)).
Lemma slave_edges_app l l' : slave_edges (l ++ l') = slave_edges l ++ slave_edges l'.
Proof. unfold slave_edges. now rewrite map_app, concat_app. Qed.
Lemma edges_in_sub m w a b c : edges_in m w (a ++ b ++ c) -> edges_in m w b.
Proof. intros H x y v E. apply (H (a ++ x) y (v ++ c)). rewrite E, <- !app_assoc. reflexivity. Qed.
Lemma finds_app l l' : finds (l ++ l') -> finds l /\ finds l'.
Proof. unfold finds. intros H. now apply Forall_app in H. Qed.
Lemma finds_all (R : bool -> bool -> Prop) g (P := fun p => R (p_clk p) (p_cs_n p)) : finds g -> Forall (fun x => P (pins_of (fst x))) g -> Forall P (sp g).
Proof.
  induction g as [|x g IH]; intros H F; [constructor|]. apply Forall_cons_iff in H, F. destruct H as [H1 H2], F as [F1 F2].
  change (slave_edges (x :: g)) with (snd x ++ slave_edges g). rewrite map_app. apply Forall_app. split; [|now apply IH].
  apply Forall_map. eapply Forall_impl; [|exact H1]. cbn. intros o [A B]. unfold P. rewrite A, B. exact F1.
Qed.
Lemma ups_low p l : Forall (fun q => p_clk q = false) l -> ups p l = 0%nat.
Proof. intros F. destruct F as [|q l E F]; [reflexivity|]. cbn [ups]. rewrite E, andb_false_r. now rewrite ups_same. Qed.
Lemma ups_more p l l' : Forall (fun q => p_clk q = false) l' -> ups p (l ++ l') = ups p l.
Proof. intros F. rewrite ups_app, (ups_low _ l') by exact F. lia. Qed.

Section Frame.
  Context (width div delay : Z) (Hdiv : 0 <= div < 256) (Hwd : 0 < width <= 256).
  Notation h := (spi_host width 1 div delay).
  Notation hclk s := (ck_clk (m_ck _ (snd s))).
  Notation hcnt s := (ck_cnt (m_ck _ (snd s))).
  Context (ia : list host_in) (Hia1 : hclk (state h ia) = false) (Hia2 : hcnt (state h ia) = 0).
  Notation lows l := (Forall (fun q => p_clk q = false) l).

  Lemma three (l : list pins) : (3 <= length l)%nat -> lows l -> exists p a b c, l = p ++ [a; b; c] /\ lows [a; b; c].
  Proof.
    intros L F. destruct l as [|c l _] using rev_ind; [cbn in L; lia|]. destruct l as [|b l _] using rev_ind; [cbn in L; lia|].
    destruct l as [|a l _] using rev_ind; [cbn in L; lia|]. exists l, a, b, c. rewrite <- !app_assoc in *. cbn [app] in *. split; [reflexivity|].
    apply Forall_app in F. apply F.
  Qed.
  Lemma full_phase gb x : edges_in 3 (Z.to_nat (div + 1)) (gb ++ [x]) -> div <= Z.of_nat (length gb) ->
    (3 <= length (sp (gb ++ [x])))%nat.
  Proof.
    intros H L. set (k := (length (gb ++ [x]) - Z.to_nat (div + 1))%nat).
    assert (E : gb ++ [x] = firstn k (gb ++ [x]) ++ skipn k (gb ++ [x]) ++ []) by (rewrite app_nil_r; symmetry; apply firstn_skipn).
    assert (Lk : length (skipn k (gb ++ [x])) = Z.to_nat (div + 1)) by (rewrite skipn_length; unfold k; rewrite app_length; cbn [length]; lia).
    pose proof (H _ _ _ E Lk) as X. rewrite map_length. rewrite <- (firstn_skipn k (gb ++ [x])), slave_edges_app, app_length. lia.
  Qed.

  Lemma phase_run jb : forall g, map fst g = trace_from h (state h ia) jb -> finds g -> edges_in 3 (Z.to_nat (div + 1)) g ->
    let s := state h (ia ++ jb) in
    exists ga gb, g = ga ++ gb /\ Forall (fun x => p_clk (pins_of (fst x)) = hclk s) gb /\
      ups false (hp ga) = ups false (sp ga) /\
      if hclk s then hcnt s = Z.of_nat (length gb) /\ p_clk (last (hp ga) (Pins false true 0)) = false /\
                     exists p a b c, sp ga = p ++ [a; b; c] /\ lows [a; b; c]
      else hcnt s <= Z.of_nat (length gb).
  Proof.
    induction jb as [|j jb IH] using rev_ind; intros g E HF HE.
    { cbn [trace_from] in E. apply map_eq_nil in E. subst g. cbv zeta. rewrite app_nil_r, Hia1, Hia2. exists [], []. repeat split; [constructor|cbn; lia]. }
    rewrite trace_from_app in E. cbn [trace_from] in E. apply map_eq_app in E. destruct E as (g0 & g1 & -> & E0 & E1).
    destruct g1 as [|x [|? ?]]; try discriminate. cbn [map] in E1. injection E1 as E1.
    apply finds_app in HF. destruct HF as [HF HX].
    assert (HE0 : edges_in 3 (Z.to_nat (div + 1)) g0) by (apply (edges_in_sub _ _ [] g0 [x]); exact HE).
    specialize (IH g0 E0 HF HE0). cbv zeta in IH |- *. rewrite app_assoc.
    assert (SX : state_from h (state h ia) jb = state h (ia ++ jb)) by (unfold state; now rewrite state_from_app).
    rewrite SX in E1.
    pose proof (low_step width 1 div delay Hdiv one_line (one_divides width) Hwd (ia ++ jb) j) as LS.
    pose proof (high_step width 1 div delay Hdiv one_line (one_divides width) Hwd (ia ++ jb) j) as HS.
    set (s := state h (ia ++ jb)) in *. set (s' := state h ((ia ++ jb) ++ [j])) in *.
    assert (KX : p_clk (pins_of (fst x)) = hclk s) by (rewrite E1; reflexivity).
    destruct IH as (ga & gb & -> & Fb & EU & IH).
    assert (Fb' : Forall (fun y => p_clk (pins_of (fst y)) = hclk s) (gb ++ [x])) by (apply Forall_app; split; [exact Fb|repeat constructor; exact KX]).
    assert (HFb : finds (gb ++ [x])) by (apply Forall_app; split; [apply (finds_app _ _ HF)|exact HX]).
    pose proof (finds_all (fun k _ => k = hclk s) _ HFb Fb') as Fs.
    assert (Fh : Forall (fun p => p_clk p = hclk s) (hp (gb ++ [x]))) by (apply Forall_map, Forall_map; exact Fb').
    assert (HEb : edges_in 3 (Z.to_nat (div + 1)) (gb ++ [x])) by (apply (edges_in_sub _ _ ga _ []); rewrite app_nil_r, app_assoc; exact HE).
    rewrite <- app_assoc.
    destruct (hclk s) eqn:Ek.
    - destruct IH as (Hc & Hl & p & a & b & c & Ep & Fp). destruct (HS eq_refl) as [(K' & C' & _)|(K' & C' & Cd)]; rewrite K'.
      + exists ga, (gb ++ [x]). split; [reflexivity|]. split; [exact Fb'|]. split; [exact EU|]. split; [rewrite app_length; cbn [length]; lia|]. split; [exact Hl|]. eauto 8.
      + exists (ga ++ gb ++ [x]), []. split; [now rewrite app_nil_r|]. split; [constructor|]. split; [|cbn [length]; lia].
        pose proof (full_phase gb x HEb ltac:(lia)) as L3.
        rewrite !map_app in *. rewrite slave_edges_app, map_app. rewrite <- (map_app pins_of), <- !(map_app fst) in *.
        rewrite !ups_app, EU. f_equal. rewrite Hl.
        rewrite Ep. change [a; b; c] with ([a; b] ++ [c]). rewrite app_assoc, last_last.
        assert (Fc : p_clk c = false) by (apply Forall_forall with (x := c) in Fp; [exact Fp|cbn; auto]). rewrite Fc.
        rewrite !ups_high; [reflexivity| |exact Fs| |exact Fh].
        * intros E. rewrite E in L3. cbn in L3. lia.
        * intros E. rewrite map_app in E. destruct (map fst gb); discriminate.
    - destruct (LS eq_refl) as [(K' & C')|(K' & C' & Cd)]; rewrite K'.
      + exists ga, (gb ++ [x]). split; [reflexivity|]. split; [exact Fb'|]. split; [exact EU|]. rewrite app_length. cbn [length]. lia.
      + pose proof (full_phase gb x HEb ltac:(lia)) as L3. destruct (three _ L3 Fs) as (p & a & b & c & Ep & Fp).
        exists (ga ++ gb ++ [x]), []. split; [now rewrite app_nil_r|]. split; [constructor|]. split; [|split; [cbn [length]; lia|split]].
        * rewrite slave_edges_app, !map_app, <- (map_app pins_of (map fst gb)), <- (map_app fst gb). rewrite !ups_more; auto.
        * rewrite !map_app. cbn [map]. rewrite !app_assoc, last_last. exact KX.
        * exists (sp ga ++ p), a, b, c. split; [|exact Fp]. rewrite slave_edges_app, map_app, Ep. now rewrite app_assoc.
  Qed.

  (** The bits read by the host in a frame [f]: [val k] is the level of the slave's data
      line after [k] edges of the frame. *)
  Definition pulses (g : joint) : list (Z * Z) := rises false (map ho_phy (map fst g)).
  Lemma pulses_snoc g x : pulses (g ++ [x]) = pulses g ++
    if negb (p_clk (last (hp g) (Pins false true 0))) && p_clk (pins_of (fst x)) then [(mo_dq_o (ho_phy (fst x)), mo_dq_i (ho_phy (fst x)))] else [].
  Proof.
    unfold pulses. rewrite !map_app. cbn [map].
    assert (G : forall l p o, rises p (l ++ [o]) = rises p l ++ if negb (fold_left (fun _ o => mo_clk o) l p) && mo_clk o then [(mo_dq_o o, mo_dq_i o)] else []).
    { clear. induction l as [|q l IH]; intros p o; cbn [app rises fold_left]; [now rewrite app_nil_r|]. now rewrite IH, app_assoc. }
    rewrite G. f_equal. 
    assert (L : fold_left (fun _ o => mo_clk o) (map ho_phy (map fst g)) false = p_clk (last (hp g) (Pins false true 0))).
    { destruct g as [|y g _] using rev_ind; [reflexivity|]. rewrite !map_app. cbn [map]. rewrite fold_left_app, last_last. reflexivity. }
    rewrite L. reflexivity.
  Qed.
  Lemma pulses_length g : length (pulses g) = ups false (hp g).
  Proof.
    induction g as [|x g IH] using rev_ind; [reflexivity|]. rewrite pulses_snoc, !map_app, app_length, ups_app, IH. cbn [map ups].
    destruct (negb _ && _); cbn [length]; lia.
  Qed.

  Context (cpol cpha : bool) (Hm : Bool.eqb cpol cpha = true) (z : pins) (Hz : p_clk z = false).
  Lemma no_falls p l l' : p_clk p = false -> lows l -> Forall (fun q => p_clk q = true) l' -> updates cpol cpha p (l ++ l') = 0.
  Proof.
    intros Hp F F'. revert p Hp. induction F as [|q l E F IH]; intros p Hp; cbn [app updates].
    - revert p Hp. assert (G : forall p, updates cpol cpha p l' = 0 \/ p_clk p = true /\ True); [|].
      { intros p. left. revert p. induction F' as [|q l' E F' IH]; intros p; [reflexivity|]. cbn [updates]. rewrite IH. unfold update_edge. rewrite Hm, E. cbn [negb]. now rewrite !andb_false_r. }
      intros p Hp. destruct (G p) as [G'|[G' _]]; [exact G'|congruence].
    - rewrite (IH q E). unfold update_edge. rewrite Hm, Hp. cbn [andb]. now rewrite andb_false_r.
  Qed.

  Lemma frame_reads jb f val X : map fst f = trace_from h (state h ia) jb -> finds f -> edges_in 3 (Z.to_nat (div + 1)) f ->
    Forall (fun x => p_cs_n (pins_of (fst x)) = false) f ->
    (forall g x g2, f = g ++ x :: g2 -> exists m, (m <= length (snd x))%nat /\ mo_dq_i (ho_phy (fst x)) = 2 * val (length (slave_edges g) + m)%nat) ->
    (forall k, (2 <= k <= length (slave_edges f))%nat -> let K := Z.to_nat (updates cpol cpha z (firstn (k - 2) (sp f))) in val k = nth K X 0 /\ (K < length X)%nat) ->
    map (sample 1) (map snd (pulses f)) = map (fun d => d mod 2) (firstn (length (pulses f)) X) /\ (length (pulses f) <= length X)%nat.
  Proof.
    intros E HF HE HC HV HX.
    enough (Q : forall g g2, f = g ++ g2 -> map (sample 1) (map snd (pulses g)) = map (fun d => d mod 2) (firstn (length (pulses g)) X) /\ (length (pulses g) <= length X)%nat).
    { apply (Q f []). now rewrite app_nil_r. }
    induction g as [|x g IH] using rev_ind; intros g2 Ef; [cbn; split; [reflexivity|lia]|].
    rewrite <- app_assoc in Ef. cbn [app] in Ef. destruct (IH (x :: g2) Ef) as [I1 I2]. rewrite pulses_snoc.
    destruct (negb _ && _) eqn:R; [|rewrite app_nil_r; auto]. apply andb_prop in R. destruct R as [R1 R2]. apply negb_true_iff in R1.
    (* the state before x *)
    assert (Eg : exists ja jc, jb = ja ++ jc /\ map fst g = trace_from h (state h ia) ja /\ p_clk (pins_of (fst x)) = hclk (state h (ia ++ ja))).
    { rewrite Ef, map_app in E. cbn [map] in E. set (k := length g).
      exists (firstn k jb), (skipn k jb). split; [symmetry; apply firstn_skipn|].
      rewrite <- (firstn_skipn k jb), trace_from_app in E. 
      assert (Lj : (k < length jb)%nat) by (apply (f_equal (@length _)) in E; rewrite <- trace_from_app, firstn_skipn, app_length, map_length, trace_from_length in E; cbn [length] in E; unfold k; lia).
      assert (L1 : length (map fst g) = length (trace_from h (state h ia) (firstn k jb))) by (rewrite map_length, trace_from_length, firstn_length; unfold k in *; lia).
      apply app_inj_len in E; [|exact L1]. destruct E as [E1 E2]. split; [exact E1|].
      destruct (skipn k jb) as [|j jc]; [discriminate|]. cbn [trace_from] in E2. injection E2 as E2 _. rewrite E2. unfold state. rewrite state_from_app. reflexivity. }
    destruct Eg as (ja & jc & -> & Eg & Kx). rewrite Ef in HF, HE. change (g ++ x :: g2) with (g ++ [x] ++ g2) in HF, HE.
    destruct (finds_app _ _ HF) as [HFg HFx].
    destruct (phase_run ja g Eg HFg (edges_in_sub _ _ [] g _ HE)) as (ga & gb & Eab & Fb & EU & C). rewrite R2 in Kx. rewrite <- Kx in C, Fb.
    destruct C as (Hc & Hl & p & a & b & c & Ep & Fp).
    assert (gb = []) as ->.
    { destruct gb as [|y gb _] using rev_ind; [reflexivity|]. exfalso. rewrite Eab in R1. rewrite !app_assoc, !map_app in R1. cbn [map] in R1. rewrite last_last in R1.
      apply Forall_app in Fb. destruct Fb as [_ Fb]. apply Forall_cons_iff in Fb. destruct Fb as [Fb _]. congruence. }
    rewrite app_nil_r in Eab. subst ga.
    destruct (HV g x g2 Ef) as (m & Hm' & DQ). set (k := (length (slave_edges g) + m)%nat) in *.
    assert (Lg : length (slave_edges g) = (length p + 3)%nat) by (rewrite <- (map_length so_pins), Ep, app_length; reflexivity).
    assert (Sf : sp f = sp g ++ map so_pins (snd x) ++ sp g2).
    { rewrite Ef. change (g ++ x :: g2) with (g ++ [x] ++ g2). rewrite !slave_edges_app, !map_app. do 2 f_equal. unfold slave_edges. cbn [map concat]. now rewrite app_nil_r. }
    assert (Lf : (k <= length (slave_edges f))%nat) by (rewrite <- (map_length so_pins), Sf, !app_length, !map_length; unfold k; lia).
    destruct (HX k ltac:(unfold k; lia)) as [VK KL]. cbv zeta in VK, KL.
    assert (Fx : Forall (fun q => p_clk q = true) (map so_pins (snd x))).
    { apply Forall_cons_iff in HFx. destruct HFx as [HFx _]. apply Forall_map. eapply Forall_impl; [|exact HFx]. cbn. intros o [-> _]. exact R2. }
    assert (UK : updates cpol cpha z (firstn (k - 2) (sp f)) = Z.of_nat (length (pulses g))).
    { rewrite Sf, Ep. replace ((p ++ [a; b; c]) ++ map so_pins (snd x) ++ sp g2) with ((p ++ [a]) ++ ([b; c] ++ map so_pins (snd x)) ++ sp g2) by (rewrite <- !app_assoc; reflexivity).
      rewrite firstn_app. replace (k - 2 - length (p ++ [a]))%nat with m by (rewrite app_length; cbn [length]; unfold k; lia).
      rewrite firstn_all2 by (rewrite app_length; cbn [length]; unfold k; lia).
      rewrite firstn_app. replace (m - length ([b; c] ++ map so_pins (snd x)))%nat with 0%nat by (rewrite app_length, map_length; cbn [length]; lia). rewrite firstn_O, app_nil_r.
      rewrite updates_app, last_last, firstn_app. 
      apply Forall_cons_iff in Fp. destruct Fp as [Fa Fp].
      rewrite (no_falls a); [|exact Fa|now apply Forall_firstn'|now apply Forall_firstn'].
      assert (CS : Forall (fun q => p_cs_n q = false) (p ++ [a])).
      { assert (HCg : Forall (fun x => p_cs_n (pins_of (fst x)) = false) g) by (rewrite Ef in HC; apply Forall_app in HC; apply HC).
        pose proof (finds_all (fun _ c => c = false) g HFg HCg) as Y. rewrite Ep in Y. change [a; b; c] with ([a] ++ [b; c]) in Y. rewrite app_assoc in Y. apply Forall_app in Y. apply Y. }
      pose proof (ups_updates cpol cpha z (p ++ [a]) Hm Hz CS) as UU. rewrite last_last, Fa in UU.
      rewrite pulses_length, EU, Ep. change [a; b; c] with ([a] ++ [b; c]). rewrite app_assoc, ups_more by exact Fp. lia. }
    rewrite UK, Nat2Z.id in VK, KL. rewrite !map_app, app_length. cbn [map snd length]. split; [|lia].
    rewrite I1, DQ, VK. unfold sample. change (1 =? 1) with true. cbv iota. change 1 with (Z.succ 0) at 1. rewrite Z.double_bits_succ, Z.bit0_mod.
    rewrite Nat.add_1_r. rewrite <- (firstn_snoc_nth X (length (pulses g)) KL), map_app. reflexivity.
  Qed.
End Frame.
