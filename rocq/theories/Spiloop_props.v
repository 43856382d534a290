(** C167: a slave that sends back what it receives. *)
From Verif Require Import Stream Bits Fifo_model Spislave_model Spislave_props Spimiso_props Spimaster_props Spixchg_props I2cstream_proofs Spipair_props Spiloop_model Spiloop_spec.

Section Echo.
  Context (cpol cpha : bool) (width bw : Z) (wl : bool) (n : nat).
  Context (Hbw : 0 < bw) (Hw : 0 < width) (Hn : width = bw * Z.of_nat n).
  Notation c := (spi_echo cpol cpha width bw wl).
  Notation sl := (sl_state width wl).
  Implicit Types (s : sl).
  Notation lvl := (Bool.eqb cpol cpha).

  Lemma npos : (0 < n)%nat. Proof. destruct n; lia. Qed.

  (** What is sampled in the current frame, and the level of the line. *)
  Definition estep (x : pins * list Z * Z) (q : pins) : pins * list Z * Z :=
    let '(p, gs, d) := x in
    (q, if p_cs_n q then [] else if sample_edge cpol cpha p q then gs ++ [p_dq q] else gs,
     if update_edge cpol cpha p q && Nat.leb n (length gs) then nth (length gs - n) gs 0 else d).
  Definition est (L : list pins) : pins * list Z * Z := fold_left estep L (low, [], 0).
  Definition cur (L : list pins) : list Z := snd (fst (est L)).
  Definition line (L : list pins) : Z := snd (est L).
  Lemma est_snoc L q : est (L ++ [q]) = estep (est L) q. Proof. unfold est. now rewrite fold_left_app. Qed.
  Lemma est_prev L : fst (fst (est L)) = last L low.
  Proof. destruct L as [|q L _] using rev_ind; [reflexivity|]. rewrite est_snoc, last_last. unfold estep. now destruct (est L) as [[? ?] ?]. Qed.
  Lemma cur_snoc L q : cur (L ++ [q]) = if p_cs_n q then [] else if sample_edge cpol cpha (last L low) q then cur L ++ [p_dq q] else cur L.
  Proof. unfold cur. rewrite est_snoc, <- est_prev. unfold estep. now destruct (est L) as [[? ?] ?]. Qed.
  Lemma line_snoc L q : line (L ++ [q]) =
    if update_edge cpol cpha (last L low) q && Nat.leb n (length (cur L)) then nth (length (cur L) - n) (cur L) 0 else line L.
  Proof. unfold line, cur. rewrite est_snoc, <- est_prev. unfold estep. now destruct (est L) as [[? ?] ?]. Qed.

  Definition word (ds : list Z) : Z := fifo_pack (sl_pw width wl) (Beat false false (sl_payload width wl (value bw ds) width)).
  (** One more if the last edge was an update. *)
  Definition upd (s : sl) : nat := if Bool.eqb (l_clk_r _ _ s) lvl then 0%nat else 1%nat.

  Inductive stage (L : list pins) (s : sl) : Prop :=
  | Waiting : (length (cur L) < n)%nat -> l_cnt _ _ s = bw * Z.of_nat (length (cur L)) ->
      l_reg _ _ s mod 2 ^ l_cnt _ _ s = value bw (cur L) -> l_fifo _ _ s = ([], None) -> l_cnto _ _ s = 0 -> stage L s
  | Showing pre wd ds : cur L = pre ++ wd ++ ds -> Nat.divide n (length pre) -> length wd = n -> (length ds < n)%nat ->
      l_cnt _ _ s = bw * Z.of_nat (length ds) -> l_reg _ _ s mod 2 ^ l_cnt _ _ s = value bw ds -> l_fifo _ _ s = ([], None) ->
      l_cnto _ _ s = bw * (Z.of_nat n - Z.of_nat (length ds + upd s)) ->
      l_rego _ _ s = trunc width (Z.shiftl (value bw wd) (bw * Z.of_nat (length ds + upd s))) -> stage L s
  | Moving k pre wd a p q b : cur L = pre ++ wd -> Nat.divide n (length pre) -> length wd = n ->
      low :: L = a ++ p :: q :: b -> sample_edge cpol cpha p q = true -> length b = k -> p_clk q = l_clk_r _ _ s -> l_clk_r _ _ s = lvl -> l_cnto _ _ s = 0 ->
      match k with
      | O => l_cnt _ _ s = width /\ l_reg _ _ s = value bw wd /\ l_fifo _ _ s = ([], None)
      | S O => l_cnt _ _ s = 0 /\ l_fifo _ _ s = ([word wd], None)
      | S (S O) => l_cnt _ _ s = 0 /\ l_fifo _ _ s = ([], Some (word wd))
      | _ => False
      end -> stage L s.

  Definition e_inv (t : list sl_obs) (s : sl) : Prop :=
    low :: low :: map so_pins t = looked_at t ++ [l_p2 _ _ s; l_p1 _ _ s] /\
    l_clk_r _ _ s = p_clk (last (looked_at t) low) /\ l_idx _ _ s = 0 /\ 0 <= l_reg _ _ s < 2 ^ width /\
    l_dqo _ _ s = line (looked_at t) /\
    Forall (fun d => 0 <= d < 2 ^ bw) (cur (looked_at t)) /\
    (exists m, length (sampled cpol cpha low (looked_at t)) = n * m + length (cur (looked_at t)))%nat /\
    stage (looked_at t) s.

  Definition e_hyp (t : list sl_obs) : Prop :=
    Forall (fun o => 0 <= p_dq (so_pins o) < 2 ^ bw) t /\ held 3 cpol cpha (low :: map so_pins t) /\ whole_words cpol cpha n (map so_pins t).

  Notation hfs s := (sl_fsink cpol cpha width wl [width] s).
  Lemma next_fields s p : let s' := cnext c s p in
    l_p1 _ _ s' = p /\ l_p2 _ _ s' = l_p1 _ _ s /\ l_clk_r _ _ s' = p_clk (l_p2 _ _ s) /\
    l_cnt _ _ s' = (if sl_sample cpol cpha width wl s then trunc (range_width (width + 1)) (l_cnt _ _ s + bw) else if sl_pushing cpol cpha width wl [width] s then 0 else l_cnt _ _ s) /\
    l_reg _ _ s' = (if sl_sample cpol cpha width wl s then trunc width (p_dq (l_p2 _ _ s) + 2 ^ bw * l_reg _ _ s) else l_reg _ _ s) /\
    (l_idx _ _ s = 0 -> l_idx _ _ s' = 0) /\
    l_fifo _ _ s' = nxt (sl_fifo width wl) (l_fifo _ _ s) (hfs s) (sl_load width wl s) /\
    (l_cnto _ _ s', l_rego _ _ s', l_dqo _ _ s') =
      (if sl_load width wl s then
         if cvalid (loop_sink cpol cpha width bw wl s)
         then (trunc (range_width (width + 1)) (sl_wdlen width wl (loop_sink cpol cpha width bw wl s)),
               trunc width (Z.shiftl (fst (bdata (cbeat (loop_sink cpol cpha width bw wl s)))) (width - sl_wdlen width wl (loop_sink cpol cpha width bw wl s))), l_dqo _ _ s)
         else (l_cnto _ _ s, l_rego _ _ s, l_dqo _ _ s)
       else if sl_update cpol cpha width wl s then
         (if 0 <? l_cnto _ _ s then trunc (range_width (width + 1)) (l_cnto _ _ s - bw) else l_cnto _ _ s,
          trunc width (2 ^ bw * l_rego _ _ s), trunc bw (Z.shiftr (l_rego _ _ s) (width - bw)))
       else if sl_en width wl s then (l_cnto _ _ s, l_rego _ _ s, l_dqo _ _ s) else (0, l_rego _ _ s, l_dqo _ _ s)).
  Proof.
    cbv zeta. cbn [c spi_echo cnext spi_slave loop_in sl_pins sl_sink sl_rready].
    match goal with |- context [let '(_, _) := ?x in _] => idtac end.
    destruct (sl_sample cpol cpha width wl s); [|destruct (sl_pushing cpol cpha width wl [width] s)];
      destruct (sl_load width wl s); [destruct (cvalid (loop_sink cpol cpha width bw wl s))| |destruct (cvalid (loop_sink cpol cpha width bw wl s))| |destruct (cvalid (loop_sink cpol cpha width bw wl s))|];
      try (destruct (sl_update cpol cpha width wl s); [|destruct (sl_en width wl s)]);
      cbn [l_p1 l_p2 l_clk_r l_cnt l_reg l_idx l_cnto l_rego l_dqo l_fifo]; repeat split; auto; intros Hi; rewrite Hi; destruct (sl_end width wl s); reflexivity.
  Qed.

  (** The FIFO. *)
  Lemma fifo_idle s r : l_fifo _ _ s = ([], None) -> sl_pushing cpol cpha width wl [width] s = false -> nxt (sl_fifo width wl) (l_fifo _ _ s) (hfs s) r = ([], None).
  Proof. intros H P. rewrite H. unfold sl_fsink. rewrite P. reflexivity. Qed.
  Lemma fifo_push s r : l_fifo _ _ s = ([], None) -> sl_pushing cpol cpha width wl [width] s = true ->
    nxt (sl_fifo width wl) (l_fifo _ _ s) (hfs s) r = ([fifo_pack (sl_pw width wl) (Beat false false (sl_payload width wl (l_reg _ _ s) (l_cnt _ _ s)))], None).
  Proof. intros H P. rewrite H. unfold sl_fsink. rewrite P. reflexivity. Qed.
  Lemma fifo_move s r w : l_fifo _ _ s = ([w], None) -> sl_pushing cpol cpha width wl [width] s = false -> nxt (sl_fifo width wl) (l_fifo _ _ s) (hfs s) r = ([], Some w).
  Proof. intros H P. rewrite H. unfold sl_fsink. rewrite P. reflexivity. Qed.
  Lemma fifo_take s w : l_fifo _ _ s = ([], Some w) -> sl_pushing cpol cpha width wl [width] s = false -> nxt (sl_fifo width wl) (l_fifo _ _ s) (hfs s) true = ([], None).
  Proof. intros H P. rewrite H. unfold sl_fsink. rewrite P. reflexivity. Qed.
  Lemma loop_empty s l : l_fifo _ _ s = (l, None) -> cvalid (loop_sink cpol cpha width bw wl s) = false.
  Proof. intros H. unfold loop_sink. rewrite H. reflexivity. Qed.
  Lemma value_ok ds : Forall (fun d => 0 <= d < 2 ^ bw) ds -> length ds = n -> 0 <= value bw ds < 2 ^ width.
  Proof. intros F L. rewrite Hn, <- L. apply value_range; [lia|exact F]. Qed.
  Lemma loop_word s wd : Forall (fun d => 0 <= d < 2 ^ bw) wd -> length wd = n -> l_fifo _ _ s = ([], Some (word wd)) ->
    cvalid (loop_sink cpol cpha width bw wl s) = true /\ fst (bdata (cbeat (loop_sink cpol cpha width bw wl s))) = value bw wd /\
    sl_wdlen width wl (loop_sink cpol cpha width bw wl s) = width.
  Proof.
    intros F L H. pose proof (value_ok wd F L) as V. unfold loop_sink, sl_wdlen. rewrite H.
    cbn [sl_fifo stream_sync_fifo fifo_wrapper src wf_rrdy wf_rdata sync_fifo_buffered snd fst cvalid cbeat bdata].
    assert (R : 0 <= sl_payload width wl (value bw wd) width < 2 ^ sl_pw width wl).
    { unfold sl_payload, sl_pw. destruct wl; [|exact V]. pose proof (range_width_bound (width + 1) ltac:(lia)).
      rewrite Z.pow_add_r by (pose proof (range_width_nonneg (width + 1)); lia). nia. }
    assert (E : bdata (fifo_unpack (sl_pw width wl) (word wd)) = sl_payload width wl (value bw wd) width).
    { unfold word, fifo_pack, fifo_unpack. cbn [bdata bfirst blast Z.b2z]. rewrite !Z.mul_0_r, !Z.add_0_r. apply Z.mod_small, R. }
    rewrite E. unfold sl_payload. destruct wl; cbn [fst snd bdata cbeat].
    - rewrite (Z.mul_comm (2 ^ width)), Z.mod_add, Z.div_add, Z.mod_small, Z.div_small by lia. auto.
    - rewrite Z.mod_small by lia. auto.
  Qed.
  Lemma reg_push d reg k v : 0 <= d < 2 ^ bw -> reg mod 2 ^ k = v -> 0 <= k -> k + bw <= width ->
    trunc width (d + 2 ^ bw * reg) mod 2 ^ (k + bw) = 2 ^ bw * v + d.
  Proof.
    intros Hd <- Hk Hle. unfold trunc.
    assert (Hpw : 2 ^ (k + bw) = 2 ^ bw * 2 ^ k) by (rewrite Z.add_comm, Z.pow_add_r by lia; reflexivity).
    assert (0 < 2 ^ bw) by (apply Z.pow_pos_nonneg; lia). assert (0 < 2 ^ k) by (apply Z.pow_pos_nonneg; lia).
    rewrite <- Znumtheory.Zmod_div_mod; [|lia|apply Z.pow_pos_nonneg; lia|].
    2: { exists (2 ^ (width - (k + bw))). rewrite <- Z.pow_add_r by lia. f_equal. lia. }
    rewrite Hpw, Z.rem_mul_r by lia. rewrite (Z.mul_comm (2 ^ bw) reg), Z.mod_add, Z.div_add by lia.
    rewrite (Z.mod_small d), (Z.div_small d) by lia. rewrite Z.add_0_l. lia.
  Qed.
  (** Group [k] of a word. *)
  Lemma group_of wd k : Forall (fun d => 0 <= d < 2 ^ bw) wd -> length wd = n -> (k < n)%nat ->
    trunc bw (Z.shiftr (trunc width (Z.shiftl (value bw wd) (bw * Z.of_nat k))) (width - bw)) = nth k wd 0.
  Proof.
    intros F L Hk. pose proof (chunk_step width bw (value bw wd) width (Z.of_nat k) Hbw Hw (Z.le_refl _) ltac:(lia) ltac:(nia)) as X.
    rewrite Z.sub_diag, Z.add_0_l in X. rewrite X.
    pose proof (msb_number bw wd Hbw F) as M. rewrite L in M. change (number bw wd) with (value bw wd) in M. rewrite <- Hn in M.
    rewrite <- M at 2. unfold msb_first. replace (width / bw) with (Z.of_nat n) by (rewrite Hn, (Z.mul_comm bw (Z.of_nat n)), Z.div_mul; lia). rewrite Nat2Z.id.
    assert (N : nth k (map (fun k0 => value bw wd / 2 ^ (width - bw * (Z.of_nat k0 + 1)) mod 2 ^ bw) (seq 0 n)) 0 =
                (fun k0 => value bw wd / 2 ^ (width - bw * (Z.of_nat k0 + 1)) mod 2 ^ bw) (nth k (seq 0 n) 0%nat)).
    { rewrite <- (map_nth (fun k0 => value bw wd / 2 ^ (width - bw * (Z.of_nat k0 + 1)) mod 2 ^ bw)). apply nth_indep. rewrite map_length, seq_length. exact Hk. }
    rewrite N, seq_nth by exact Hk. cbn [Nat.add]. rewrite Z.shiftr_div_pow2 by nia. reflexivity.
  Qed.

  Lemma held_low l : held 3 cpol cpha (low :: l) -> held 3 cpol cpha (low :: low :: l).
  Proof.
    intros H a p q b E Es. destruct a as [|x a]; cbn [app] in E; apply cons_inv in E; destruct E as [E1 E].
    - apply cons_inv in E. destruct E as [E2 _]. subst p q. unfold sample_edge, low in Es. cbn in Es. destruct (Bool.eqb cpol cpha); discriminate.
    - exact (H a p q b E Es).
  Qed.
  Lemma whole_low pins0 L p2 p1 : whole_words cpol cpha n pins0 -> low :: low :: pins0 = L ++ [p2; p1] -> p_cs_n p2 = true ->
    Nat.divide n (length (sampled cpol cpha low L)).
  Proof.
    intros H E Hc. destruct L as [|a L]; [cbn [app] in E; apply cons_inv in E; destruct E as [<- _]; discriminate|].
    cbn [app] in E. apply cons_inv in E. destruct E as [<- E]. destruct L as [|a L]; [cbn [app] in E; apply cons_inv in E; destruct E as [<- _]; discriminate|].
    cbn [app] in E. apply cons_inv in E. destruct E as [<- E]. specialize (H L p2 [p1] E Hc). cbn [sampled].
    assert (X : sample_edge cpol cpha low low = false) by (unfold sample_edge, low; cbn; now destruct (Bool.eqb cpol cpha)).
    rewrite X. exact H.
  Qed.

  Lemma nbits_width s : l_idx _ _ s = 0 -> sl_nbits width wl [width] s = width.
  Proof. intros H. unfold sl_nbits. rewrite H. reflexivity. Qed.
  Lemma value_full ds reg k : 0 <= reg < 2 ^ width -> k = width -> reg mod 2 ^ k = value bw ds -> reg = value bw ds.
  Proof. intros R -> <-. symmetry. now apply Z.mod_small. Qed.

  Lemma e_step t s i : e_hyp (t ++ [cout c s i]) -> e_inv t s -> e_inv (t ++ [cout c s i]) (cnext c s i).
  Proof.
    intros (D & HE & WW) (E1 & E2 & EI & ER & EQ & EG & (m & EM) & ST).
    pose proof npos as NP.
    set (o := cout c s i) in *. assert (O1 : so_pins o = i) by reflexivity. clearbody o.
    destruct (looked_snoc t o _ _ E1) as [G1 G2].
    pose proof (next_fields s i) as NF. cbv zeta in NF. set (s' := cnext c s i) in *. clearbody s'.
    destruct NF as (N1 & N2 & N3 & N4 & N5 & N6 & N7 & N8). specialize (N6 EI).
    set (L := looked_at t) in *. set (q := l_p2 _ _ s) in *.
    assert (Hq : 0 <= p_dq q < 2 ^ bw).
    { assert (0 < 2 ^ bw) by (apply Z.pow_pos_nonneg; lia).
      assert (X : Forall (fun p => 0 <= p_dq p < 2 ^ bw) (low :: low :: map so_pins t)).
      { constructor; [cbn; lia|]. constructor; [cbn; lia|]. apply Forall_map. apply Forall_app in D. apply D. }
      rewrite E1 in X. apply Forall_app in X. destruct X as [_ X]. apply Forall_cons_iff in X. apply X. }
    assert (Hsm : sl_sample cpol cpha width wl s = sample_edge cpol cpha (last L low) q).
    { unfold sl_sample, sample_edge, sl_rise, sl_fall, sl_en, sl_mode. rewrite E2. destruct (Bool.eqb cpol cpha); now rewrite !andb_assoc. }
    assert (Hup : sl_update cpol cpha width wl s = update_edge cpol cpha (last L low) q).
    { unfold sl_update, update_edge, sl_rise, sl_fall, sl_en, sl_mode. rewrite E2. destruct (Bool.eqb cpol cpha); now rewrite !andb_assoc. }
    assert (Hen : sl_en width wl s = negb (p_cs_n q)) by reflexivity.
    assert (WH : p_cs_n q = true -> Nat.divide n (length (cur L))).
    { intros Hc. assert (X : Nat.divide n (length (sampled cpol cpha low L))).
      { apply (whole_low (map so_pins t) L q (l_p1 _ _ s)); auto. intros a p b Ea Hp. apply (WW a p (b ++ [i])); [|exact Hp].
        rewrite map_app, Ea, <- app_assoc. cbn [map app]. now rewrite O1. }
      rewrite EM in X. apply (Nat.divide_add_cancel_r n (n * m)); [apply Nat.divide_factor_l|exact X]. }
    assert (HH : held 3 cpol cpha (low :: L ++ [q; l_p1 _ _ s])).
    { rewrite <- E1. apply held_low, held_low. intros a p p' b Ea Es. specialize (HE a p p' (b ++ [i])).
      apply Forall_forall. intros r Hr. rewrite map_app in HE. cbn [map] in HE. rewrite O1 in HE.
      change (low :: map so_pins t ++ [i]) with ((low :: map so_pins t) ++ [i]) in HE. rewrite Ea in HE.
      specialize (HE ltac:(now rewrite <- app_assoc) Es). rewrite Forall_forall in HE. apply HE.
      rewrite firstn_app. apply in_or_app. now left. }
    assert (SMP : sample_edge cpol cpha (last L low) q = true -> l_clk_r _ _ s = negb lvl /\ p_clk q = lvl /\ p_cs_n q = false).
    { unfold sample_edge. rewrite <- E2. destruct lvl, (l_clk_r _ _ s), (p_clk q), (p_cs_n q); cbn; intros; try discriminate; auto. }
    assert (UPD : update_edge cpol cpha (last L low) q = true -> l_clk_r _ _ s = lvl /\ p_clk q = negb lvl /\ p_cs_n q = false).
    { unfold update_edge. rewrite <- E2. destruct lvl, (l_clk_r _ _ s), (p_clk q), (p_cs_n q); cbn; intros; try discriminate; auto. }
    assert (STILL : p_cs_n q = false -> sample_edge cpol cpha (last L low) q = false -> update_edge cpol cpha (last L low) q = false -> p_clk q = l_clk_r _ _ s).
    { unfold sample_edge, update_edge. intros ->. rewrite <- E2. destruct lvl, (l_clk_r _ _ s), (p_clk q); cbn; intros; try discriminate; auto. }
    unfold e_inv. fold L in G1. rewrite G1. rewrite <- G1. rewrite G2, N1, N2, O1.
    split; [reflexivity|]. rewrite G1, last_snoc, N3. split; [reflexivity|]. split; [exact N6|].
    split. { rewrite N5. destruct (sl_sample _ _ _ _ s); [apply trunc_range; lia|exact ER]. }
    rewrite cur_snoc, line_snoc, sampled_snoc.
    rewrite Hsm in N4, N5. rewrite Hup in N8. rewrite Hen in N8.
    assert (PU : sample_edge cpol cpha (last L low) q = false -> sl_pushing cpol cpha width wl [width] s = (l_cnt _ _ s =? width) || ((0 <? l_cnt _ _ s) && p_cs_n q)).
    { intros Hf. unfold sl_pushing. rewrite Hsm, Hf, (nbits_width s EI). cbn [negb andb]. unfold sl_end. rewrite Hen, negb_involutive. reflexivity. }
    assert (PS : sample_edge cpol cpha (last L low) q = true -> sl_pushing cpol cpha width wl [width] s = false).
    { intros Hf. unfold sl_pushing. now rewrite Hsm, Hf. }
    assert (LD : sl_load width wl s = negb (p_cs_n q) && (l_cnto _ _ s =? 0)) by reflexivity.
    assert (RNG : Forall (fun d => 0 <= d < 2 ^ bw) (if p_cs_n q then [] else if sample_edge cpol cpha (last L low) q then cur L ++ [p_dq q] else cur L)).
    { destruct (p_cs_n q); [constructor|]. destruct (sample_edge _ _ _ _); [apply Forall_app; split; [exact EG|repeat constructor; lia]|exact EG]. }
    assert (MULT : exists m0, length (sampled cpol cpha low L ++ (if sample_edge cpol cpha (last L low) q then [p_dq q] else [])) =
       (n * m0 + length (if p_cs_n q then [] else if sample_edge cpol cpha (last L low) q then cur L ++ [p_dq q] else cur L))%nat).
    { destruct (p_cs_n q) eqn:Ec.
      - destruct (sample_edge cpol cpha (last L low) q) eqn:Es; [destruct (SMP eq_refl) as (_ & _ & X); congruence|].
        destruct (WH eq_refl) as [z Hz]. exists (m + z)%nat. rewrite app_nil_r, EM, Hz. cbn [length]. nia.
      - exists m. destruct (sample_edge _ _ _ _); rewrite ?app_nil_r, ?app_length; cbn [length]; lia. }
    enough (X : l_dqo _ _ s' = (if update_edge cpol cpha (last L low) q && Nat.leb n (length (cur L)) then nth (length (cur L) - n) (cur L) 0 else line L) /\ stage (L ++ [q]) s').
    { destruct X as [X1 X2]. repeat (split; [assumption|]). assumption. }
    clear RNG MULT HE WW D G1 G2 E1 N1 N2 O1 E2.
    assert (LP : exists A, low :: L = A ++ [last L low]).
    { destruct L as [|x L0 _] using rev_ind; [exists []; reflexivity|]. exists (low :: L0). now rewrite last_last. }
    destruct LP as [PA LP].
    pose proof (cur_snoc L q) as CS. set (P := last L low) in *. set (p1 := l_p1 _ _ s) in *. clearbody p1.
    assert (CW : forall k, 0 <= k <= width -> trunc (range_width (width + 1)) k = k) by (intros; apply trunc_range_small; lia).
    destruct ST as [W1 W2 W3 W4 W5|pre wd ds S1 S2 S3 S4 S5 S6 S7 S8 S9|k pre wd a p r b M1 M2 M3 M4 M5 M6 M7 M8 M9 MK].
    - (* no word yet *)
      rewrite W5, Z.eqb_refl, andb_true_r in LD. rewrite LD, (loop_empty s [] W4) in N8.
      replace (Nat.leb n (length (cur L))) with false by (symmetry; apply Nat.leb_gt; lia). rewrite andb_false_r.
      destruct (p_cs_n q) eqn:Ec; cbn [negb] in N8.
      + (* released *)
        assert (Hs : sample_edge cpol cpha P q = false) by (destruct (sample_edge cpol cpha P q) eqn:Q; [destruct (SMP eq_refl) as (_ & _ & X); congruence|reflexivity]).
        assert (Hu : update_edge cpol cpha P q = false) by (destruct (update_edge cpol cpha P q) eqn:Q; [destruct (UPD eq_refl) as (_ & _ & X); congruence|reflexivity]).
        assert (C0 : cur L = []). { destruct (WH eq_refl) as [z Hz]. destruct (cur L); [reflexivity|]. cbn [length] in *. destruct z; nia. }
        rewrite C0 in W2. cbn [length] in W2. rewrite Z.mul_0_r in W2. specialize (PU Hs). rewrite W2 in PU.
        assert (PF : sl_pushing cpol cpha width wl [width] s = false) by (rewrite PU; destruct (Z.eqb_spec 0 width); [lia|reflexivity]).
        rewrite Hu in N8. rewrite Hs, PF in N4. injection N8 as C1 _ C3. rewrite C3. split; [exact EQ|].
        apply Waiting; rewrite ?CS, ?Ec; cbn [length]; [lia|rewrite N4; lia|rewrite N4, W2; apply Z.mod_1_r| |congruence].
        rewrite N7. now apply fifo_idle.
      + injection N8 as C1 _ C3. rewrite C3. split; [exact EQ|]. rewrite ?Ec in CS.
        destruct (sample_edge cpol cpha P q) eqn:Es.
        * specialize (PS eq_refl). rewrite CW in N4 by (rewrite W2; nia).
          assert (K : l_reg _ _ s' mod 2 ^ l_cnt _ _ s' = value bw (cur L ++ [p_dq q])).
          { rewrite N4, N5, value_snoc. apply reg_push; auto; rewrite W2; nia. }
          assert (LC : l_cnt _ _ s' = bw * Z.of_nat (length (cur L ++ [p_dq q]))) by (rewrite N4, W2, app_length; cbn [length]; lia).
          destruct (Nat.eq_dec (length (cur L ++ [p_dq q])) n) as [Eq|Ne].
          -- destruct (SMP eq_refl) as (X1 & X2 & X3).
             apply (Moving _ _ 0 [] (cur L ++ [p_dq q]) PA P q []); auto; try congruence.
             ++ exists 0%nat. reflexivity.
             ++ rewrite app_comm_cons, LP, <- app_assoc. reflexivity.
             ++ assert (LW : l_cnt _ _ s' = width) by (rewrite LC, Eq; lia). split; [exact LW|]. split; [|rewrite N7; now apply fifo_idle].
                apply (value_full _ _ (l_cnt _ _ s')); auto. rewrite N5. apply trunc_range. lia.
          -- apply Waiting; rewrite ?CS; auto; [rewrite app_length in *; cbn [length] in *; lia|rewrite N7; now apply fifo_idle|congruence].
        * assert (PF : sl_pushing cpol cpha width wl [width] s = false).
          { rewrite PU by reflexivity. rewrite andb_false_r, orb_false_r. apply Z.eqb_neq. rewrite W2. nia. }
          rewrite PF in N4. apply Waiting; rewrite ?CS, ?N4, ?N5; auto; [rewrite N7; now apply fifo_idle|congruence].
    - (* a word is on its way out *)
      destruct (p_cs_n q) eqn:Ec; cbn [negb andb] in LD, N8.
      + (* released *)
        assert (Hs : sample_edge cpol cpha P q = false) by (destruct (sample_edge cpol cpha P q) eqn:Q; [destruct (SMP eq_refl) as (_ & _ & X); congruence|reflexivity]).
        assert (Hu : update_edge cpol cpha P q = false) by (destruct (update_edge cpol cpha P q) eqn:Q; [destruct (UPD eq_refl) as (_ & _ & X); congruence|reflexivity]).
        assert (C0 : ds = []).
        { destruct (WH eq_refl) as [z Hz]. destruct S2 as [y Hy]. rewrite S1, !app_length, S3, Hy in Hz. destruct ds; [reflexivity|]. cbn [length] in *.
          assert (S (length ds) = (z - y - 1) * n)%nat by nia. destruct (z - y - 1)%nat; nia. }
        rewrite C0 in S5. cbn [length] in S5. rewrite Z.mul_0_r in S5. specialize (PU Hs). rewrite S5 in PU.
        assert (PF : sl_pushing cpol cpha width wl [width] s = false) by (rewrite PU; destruct (Z.eqb_spec 0 width); [lia|reflexivity]).
        rewrite LD, Hu in N8. rewrite Hu. rewrite Hs, PF in N4. injection N8 as C1 _ C3. rewrite C3. split; [exact EQ|].
        apply Waiting; rewrite ?CS, ?Ec; cbn [length]; [lia|rewrite N4; lia|rewrite N4, S5; apply Z.mod_1_r| |congruence].
        rewrite N7. now apply fifo_idle.
      + rewrite ?Ec in CS. assert (Hl : length (cur L) = (length pre + n + length ds)%nat) by (rewrite S1, !app_length; lia).
        destruct (sample_edge cpol cpha P q) eqn:Es.
        * (* a sample *)
          specialize (PS eq_refl). destruct (SMP eq_refl) as (X1 & X2 & _).
          assert (Hu : update_edge cpol cpha P q = false) by (destruct (update_edge cpol cpha P q) eqn:Q; [destruct (UPD eq_refl) as (X & _); rewrite X1 in X; destruct lvl; discriminate|reflexivity]).
          assert (U1 : upd s = 1%nat) by (unfold upd; rewrite X1; now destruct lvl).
          assert (U2 : upd s' = 0%nat) by (unfold upd; rewrite N3, X2; now destruct lvl).
          rewrite Hu in N8 |- *. cbn [andb]. rewrite (loop_empty s [] S7) in N8.
          assert (C : (l_cnto _ _ s', l_rego _ _ s', l_dqo _ _ s') = (l_cnto _ _ s, l_rego _ _ s, l_dqo _ _ s)) by (rewrite N8; now destruct (sl_load _ _ s)).
          injection C as C1 C2 C3. rewrite C3. split; [exact EQ|]. rewrite CW in N4 by (rewrite S5; nia).
          assert (K : l_reg _ _ s' mod 2 ^ l_cnt _ _ s' = value bw (ds ++ [p_dq q])).
          { rewrite N4, N5, value_snoc. apply reg_push; auto; rewrite S5; nia. }
          assert (LC : l_cnt _ _ s' = bw * Z.of_nat (length (ds ++ [p_dq q]))) by (rewrite N4, S5, app_length; cbn [length]; lia).
          destruct (Nat.eq_dec (length (ds ++ [p_dq q])) n) as [Eq|Ne].
          -- apply (Moving _ _ 0 (pre ++ wd) (ds ++ [p_dq q]) PA P q []); auto; try congruence.
             ++ rewrite CS, S1, <- !app_assoc. reflexivity.
             ++ rewrite app_length, S3. apply Nat.divide_add_r; [exact S2|apply Nat.divide_refl].
             ++ rewrite app_comm_cons, LP, <- app_assoc. reflexivity.
             ++ rewrite C1, S8, U1. rewrite app_length in Eq. cbn [length] in Eq. replace (length ds + 1)%nat with n by lia. lia.
             ++ assert (LW : l_cnt _ _ s' = width) by (rewrite LC, Eq; lia). split; [exact LW|]. split; [|rewrite N7; now apply fifo_idle].
                apply (value_full _ _ (l_cnt _ _ s')); auto. rewrite N5. apply trunc_range. lia.
          -- apply (Showing _ _ pre wd (ds ++ [p_dq q])); auto.
             ++ rewrite CS, S1, <- !app_assoc. reflexivity.
             ++ rewrite app_length in *. cbn [length] in *. lia.
             ++ rewrite N7. now apply fifo_idle.
             ++ rewrite C1, S8, U1, U2, app_length. cbn [length]. f_equal. lia.
             ++ rewrite C2, S9, U1, U2, app_length. cbn [length]. now rewrite Nat.add_0_r.
        * assert (PF : sl_pushing cpol cpha width wl [width] s = false).
          { rewrite PU by reflexivity. rewrite andb_false_r, orb_false_r. apply Z.eqb_neq. rewrite S5. nia. }
          rewrite PF in N4. destruct (update_edge cpol cpha P q) eqn:Eu; cbn [andb].
          -- (* an update *)
             destruct (UPD eq_refl) as (X1 & X2 & _).
             assert (U1 : upd s = 0%nat) by (unfold upd; rewrite X1; now destruct lvl).
             assert (U2 : upd s' = 1%nat) by (unfold upd; rewrite N3, X2; now destruct lvl).
             rewrite U1, Nat.add_0_r in S8, S9.
             assert (C0 : l_cnto _ _ s = bw * (Z.of_nat n - Z.of_nat (length ds))) by exact S8.
             replace (l_cnto _ _ s =? 0) with false in LD by (symmetry; apply Z.eqb_neq; rewrite C0; nia). rewrite LD in N8.
             replace (0 <? l_cnto _ _ s) with true in N8 by (symmetry; apply Z.ltb_lt; rewrite C0; nia). rewrite CW in N8 by (rewrite C0; nia).
             injection N8 as C1 C2 C3. split.
             ++ replace (Nat.leb n (length (cur L))) with true by (symmetry; apply Nat.leb_le; lia).
                rewrite C3, S9, group_of; auto.
                2:{ rewrite S1 in EG. apply Forall_app in EG. destruct EG as [_ EG]. apply Forall_app in EG. apply EG. }
                rewrite Hl, S1. rewrite app_nth2 by lia. rewrite app_nth1 by lia. f_equal. lia.
             ++ apply (Showing _ _ pre wd ds); auto; try (rewrite ?N4, ?N5; auto; fail).
                ** now rewrite CS.
                ** rewrite N7. now apply fifo_idle.
                ** rewrite C1, C0, U2. rewrite Nat2Z.inj_add. cbn. lia.
                ** rewrite C2, S9, U2. clear - Hbw Hw. rewrite Nat2Z.inj_add. change (Z.of_nat 1) with 1. rewrite Z.mul_add_distr_l, Z.mul_1_r.
                   rewrite !Z.shiftl_mul_pow2 by nia. rewrite Z.pow_add_r by nia. unfold trunc. rewrite Z.mul_mod_idemp_r by (apply Z.pow_nonzero; lia). f_equal. lia.
          -- (* nothing *)
             specialize (STILL eq_refl eq_refl eq_refl). rewrite (loop_empty s [] S7) in N8.
             assert (C : (l_cnto _ _ s', l_rego _ _ s', l_dqo _ _ s') = (l_cnto _ _ s, l_rego _ _ s, l_dqo _ _ s)) by (rewrite N8; now destruct (sl_load _ _ s)).
             injection C as C1 C2 C3. rewrite C3. split; [exact EQ|].
             assert (U : upd s' = upd s) by (unfold upd; now rewrite N3, STILL).
             apply (Showing _ _ pre wd ds); auto; rewrite ?CS, ?N4, ?N5, ?C1, ?C2, ?U; auto. rewrite N7. now apply fifo_idle.
    - (* a word passes the FIFO *)
      assert (HQ : p_clk q = p_clk r /\ p_cs_n q = false).
      { specialize (HH a p r (b ++ [q; p1])). rewrite app_comm_cons, M4, <- app_assoc in HH. specialize (HH eq_refl M5). rewrite Forall_forall in HH. apply HH.
        destruct k as [|[|[|k]]]; [| | |destruct MK]; destruct b as [|b0 [|b1 [|b2 b]]]; try discriminate; cbn [app firstn]; cbn; tauto. }
      destruct HQ as [HQ1 HQ2]. rewrite M7, M8 in HQ1.
      assert (Hs : sample_edge cpol cpha P q = false) by (destruct (sample_edge cpol cpha P q) eqn:Q; [destruct (SMP eq_refl) as (X & _); rewrite M8 in X; destruct lvl; discriminate|reflexivity]).
      assert (Hu : update_edge cpol cpha P q = false) by (destruct (update_edge cpol cpha P q) eqn:Q; [destruct (UPD eq_refl) as (_ & X & _); rewrite HQ1 in X; destruct lvl; discriminate|reflexivity]).
      rewrite HQ2, Hs in CS. rewrite Hu in N8 |- *. cbn [andb]. rewrite HQ2 in LD, N8. rewrite M9, Z.eqb_refl in LD. cbn [negb andb] in LD, N8. rewrite LD in N8, N7.
      rewrite Hs in N4, N5. specialize (PU Hs). rewrite HQ2, andb_false_r, orb_false_r in PU.
      assert (ML : low :: L ++ [q] = a ++ p :: r :: b ++ [q]) by (rewrite app_comm_cons, M4, <- app_assoc; reflexivity).
      assert (FW : Forall (fun d => 0 <= d < 2 ^ bw) wd) by (rewrite M1 in EG; apply Forall_app in EG; apply EG).
      destruct k as [|[|[|k]]]; [| | |destruct MK].
      + destruct MK as (K1 & K2 & K3). rewrite (loop_empty s [] K3) in N8. injection N8 as C1 C2 C3. rewrite C3. split; [exact EQ|].
        rewrite K1, Z.eqb_refl in PU. rewrite PU in N4.
        apply (Moving _ _ 1 pre wd a p r (b ++ [q])); auto; try congruence; [rewrite app_length, M6; reflexivity|].
        split; [exact N4|]. rewrite N7, fifo_push by auto. unfold word. now rewrite K1, K2.
      + destruct MK as (K1 & K2). rewrite (loop_empty s _ K2) in N8. injection N8 as C1 C2 C3. rewrite C3. split; [exact EQ|].
        assert (PF : sl_pushing cpol cpha width wl [width] s = false) by (rewrite PU, K1; apply Z.eqb_neq; lia). rewrite PF in N4.
        apply (Moving _ _ 2 pre wd a p r (b ++ [q])); auto; try congruence; [rewrite app_length, M6; reflexivity|].
        split; [congruence|]. rewrite N7. now apply fifo_move.
      + destruct MK as (K1 & K2). destruct (loop_word s wd FW M3 K2) as (V1 & V2 & V3). rewrite V1, V2, V3 in N8. rewrite CW in N8 by lia. injection N8 as C1 C2 C3. rewrite C3. split; [exact EQ|].
        assert (PF : sl_pushing cpol cpha width wl [width] s = false) by (rewrite PU, K1; apply Z.eqb_neq; lia). rewrite PF in N4.
        assert (U : upd s' = 0%nat) by (unfold upd; rewrite N3, HQ1; now destruct lvl).
        apply (Showing _ _ pre wd []); auto.
        * now rewrite CS, app_nil_r.
        * rewrite N4, K1. cbn [length]. lia.
        * rewrite N4, K1. apply Z.mod_1_r.
        * rewrite N7. now apply (fifo_take s (word wd)).
        * rewrite C1, U. cbn [length Nat.add]. lia.
        * rewrite C2, U, Z.sub_diag. cbn [length Nat.add]. now rewrite Z.mul_0_r.
  Qed.

  Lemma held_pre l m : held 3 cpol cpha (l ++ m) -> held 3 cpol cpha l.
  Proof.
    intros H a p q b -> Es. specialize (H a p q (b ++ m)). rewrite <- app_assoc in H. specialize (H eq_refl Es).
    rewrite firstn_app in H. apply Forall_app in H. apply H.
  Qed.
  Lemma whole_pre l m : whole_words cpol cpha n (l ++ m) -> whole_words cpol cpha n l.
  Proof. intros H a p b -> Hp. apply (H a p (b ++ m)); [now rewrite <- app_assoc|exact Hp]. Qed.
  Lemma e_run ins : e_hyp (trace c ins) -> e_inv (trace c ins) (state c ins).
  Proof.
    revert ins. apply (run_inv_hyp c e_hyp e_inv).
    - intros t u (H1 & H2 & H3). rewrite map_app in H2, H3. apply Forall_app in H1. split; [apply H1|]. split; [exact (held_pre (low :: _) _ H2)|exact (whole_pre _ _ H3)].
    - assert (0 < 2 ^ width) by (apply Z.pow_pos_nonneg; lia).
      split; [reflexivity|]. split; [reflexivity|]. split; [reflexivity|]. split; [cbn; lia|]. split; [reflexivity|]. split; [constructor|].
      split; [exists 0%nat; cbn; lia|]. apply Waiting; try reflexivity; cbn; [apply npos|lia].
    - exact e_step.
  Qed.

  (** ** One frame *)
  Section Frame.
    Context (base : list pins) (z : pins) (Hz : p_cs_n z = true).
    Notation S l := (sampled cpol cpha z l).
    Lemma last_base l : last (base ++ z :: l) low = last l z.
    Proof.
      destruct l as [|q l _] using rev_ind; [now rewrite last_last|]. rewrite app_comm_cons, app_assoc, !last_last. reflexivity.
    Qed.
    Lemma cur_frame l : Forall (fun q => p_cs_n q = false) l -> cur (base ++ z :: l) = S l.
    Proof.
      induction l as [|q l IH] using rev_ind; intros H; [rewrite cur_snoc, Hz; reflexivity|].
      apply Forall_app in H. destruct H as [H Hq]. apply Forall_cons_iff in Hq. destruct Hq as [Hq _].
      rewrite app_comm_cons, app_assoc, cur_snoc, Hq, last_base, sampled_snoc, (IH H).
      destruct (sample_edge cpol cpha (last l z) q); [reflexivity|now rewrite app_nil_r].
    Qed.
    Lemma line_frame l : Forall (fun q => p_cs_n q = false) l ->
      line (base ++ z :: l) =
        let R := (length (S l) - (if Bool.eqb (p_clk (last l z)) lvl then 1 else 0))%nat in
        if Nat.leb n R then nth (R - n) (S l) 0 else line (base ++ [z]).
    Proof.
      pose proof npos as NP.
      induction l as [|q l IH] using rev_ind; intros H.
      { cbn [sampled length]. cbv zeta. replace (Nat.leb n _) with false by (symmetry; apply Nat.leb_gt; lia). reflexivity. }
      apply Forall_app in H. destruct H as [H Hq]. apply Forall_cons_iff in Hq. destruct Hq as [Hq _]. specialize (IH H).
      rewrite app_comm_cons, app_assoc, line_snoc, last_base, (cur_frame l H), IH, sampled_snoc, last_last. cbv zeta in *. clear IH.
      set (s := S l) in *. set (y := last l z). unfold update_edge, sample_edge. rewrite Hq. cbn [negb andb].
      destruct lvl, (p_clk y), (p_clk q); cbn [negb andb Bool.eqb]; rewrite ?app_nil_r, ?Nat.sub_0_r; auto;
        rewrite ?app_length; cbn [length]; rewrite ?Nat.add_sub.
      all: destruct (Nat.leb_spec n (length s)); [|].
      all: try (rewrite app_nth1 by lia; reflexivity). all: try reflexivity.
      all: destruct (Nat.leb_spec n (length s - 1)); try lia; reflexivity.
    Qed.
    Lemma line_steady l : Forall (fun q => p_cs_n q = false) l -> p_clk (last l z) = negb lvl ->
      line (base ++ z :: l) = nth (length (S l)) (repeat (line (base ++ [z])) n ++ S l) 0.
    Proof.
      intros H Hc. pose proof npos as NP. rewrite (line_frame l H), Hc. replace (Bool.eqb (negb lvl) lvl) with false by now destruct lvl. rewrite Nat.sub_0_r. cbv zeta.
      destruct (Nat.leb_spec n (length (S l))).
      - rewrite app_nth2; rewrite repeat_length; [reflexivity|lia].
      - rewrite app_nth1 by (rewrite repeat_length; lia). symmetry. rewrite (nth_indep _ 0 (line (base ++ [z]))) by (rewrite repeat_length; lia). apply nth_repeat.
    Qed.
  End Frame.

  Lemma echo_reads ins : forall f t0 z t1, trace c ins = t0 ++ z :: f ++ t1 -> e_hyp (t0 ++ z :: f) ->
    p_cs_n (so_pins z) = true -> Forall (fun o => p_cs_n (so_pins o) = false) f -> slow cpol cpha (z :: f) ->
    let r := master_reads cpol cpha (so_pins z) f in
    r = firstn (length r) (repeat (line (low :: low :: map so_pins (t0 ++ [z]))) n ++ sampled cpol cpha (so_pins z) (map so_pins f)).
  Proof.
    pose proof npos as NP.
    intros f. induction f as [|o f IH] using rev_ind; intros t0 z t1 E HY Hz HF HS; [reflexivity|]. cbv zeta in *.
    assert (HY' : e_hyp (t0 ++ z :: f)).
    { destruct HY as (H1 & H2 & H3). rewrite app_comm_cons, app_assoc in H1, H2, H3. rewrite map_app in H2, H3. apply Forall_app in H1. split; [apply H1|]. split; [exact (held_pre (low :: _) _ H2)|exact (whole_pre _ _ H3)]. }
    apply Forall_app in HF. destruct HF as [HF Ho]. apply Forall_cons_iff in Ho. destruct Ho as [Ho _].
    assert (HS' : slow cpol cpha (z :: f)).
    { intros u y y' v Eu. apply (HS u y y' (v ++ [o])). rewrite app_comm_cons, Eu, <- app_assoc. reflexivity. }
    specialize (IH t0 z (o :: t1)). rewrite <- app_assoc in E. specialize (IH E HY' Hz HF HS').
    replace (map so_pins (f ++ [o])) with (map so_pins f ++ [so_pins o]) by (rewrite map_app; reflexivity). rewrite reads_snoc, sampled_snoc.
    destruct (sample_edge cpol cpha (last (map so_pins f) (so_pins z)) (so_pins o)) eqn:Es.
    2:{ rewrite !app_nil_r. exact IH. }
    set (x := line (low :: low :: map so_pins (t0 ++ [z]))) in *.
    set (r := master_reads cpol cpha (so_pins z) f) in *. set (Sf := sampled cpol cpha (so_pins z) (map so_pins f)) in *.
    assert (LR : length r = length Sf) by apply reads_length.
    (* the line *)
    assert (V : so_dq_o o = nth (length Sf) (repeat x n ++ Sf) 0).
    { assert (DQ : so_dq_o o = line (looked_at (t0 ++ z :: f))).
      { replace (t0 ++ z :: f ++ [o] ++ t1) with ((t0 ++ z :: f) ++ [o] ++ t1) in E by (rewrite <- app_assoc; reflexivity).
        apply trace_seg in E. destruct E as (ia & ib & ic & -> & Ea & Eb & _).
        destruct ib as [|i [|? ?]]; cbn [trace_from] in Eb; try discriminate. apply cons_inv in Eb. destruct Eb as [Eb _].
        assert (I : e_inv (trace c ia) (state c ia)) by (apply e_run; now rewrite Ea).
        destruct I as (_ & _ & _ & _ & I & _). rewrite Ea in I. rewrite <- I, <- Eb. reflexivity. }
      rewrite DQ. destruct f as [|f0 f _] using rev_ind.
      { destruct (HS [] z o [] eq_refl Es) as (u' & ? & ? & Eu & _). destruct u' as [|? [|? ?]]; discriminate. }
      destruct (HS (z :: f) f0 o []) as (u' & x1 & x2 & Eu & X1 & X2).
      { cbn [app]. now rewrite <- app_assoc. }
      { rewrite map_app in Es. cbn [map] in Es. now rewrite last_last in Es. }
      destruct f as [|f1 f _] using rev_ind; [destruct u' as [|? [|? ?]]; discriminate|].
      rewrite app_comm_cons in Eu. replace (u' ++ [x1; x2]) with ((u' ++ [x1]) ++ [x2]) in Eu by (rewrite <- app_assoc; reflexivity). apply app_inj_tail in Eu. destruct Eu as [Eu ->].
      assert (LK : looked_at (t0 ++ z :: (f ++ [x2]) ++ [f0]) = (low :: low :: map so_pins t0) ++ so_pins z :: map so_pins f).
      { rewrite <- app_assoc. cbn [app]. rewrite (app_comm_cons f), app_assoc, looked_two, map_app. reflexivity. }
      rewrite LK. rewrite !Forall_app in HF. destruct HF as [[HF H2] H0]. apply Forall_cons_iff in H2, H0. destruct H2 as [H2 _], H0 as [H0 _].
      assert (CL : p_clk (so_pins f0) = negb lvl).
      { rewrite map_app in Es. cbn [map] in Es. rewrite last_last in Es. unfold sample_edge in Es. rewrite Ho in Es.
        destruct lvl, (p_clk (so_pins f0)), (p_clk (so_pins o)); try discriminate; reflexivity. }
      assert (LL : last (map so_pins f) (so_pins z) = so_pins x1).
      { destruct f as [|y f _] using rev_ind.
        - destruct u'; [cbn [app] in Eu; apply cons_inv in Eu; destruct Eu as [-> _]; reflexivity|]. cbn [app] in Eu. apply cons_inv in Eu. destruct Eu as [_ Eu]. destruct u'; discriminate.
        - rewrite app_comm_cons in Eu. apply app_inj_tail in Eu. destruct Eu as [_ ->]. rewrite map_app. cbn [map]. apply last_last. }
      assert (ES : Sf = sampled cpol cpha (so_pins z) (map so_pins f)).
      { unfold Sf. rewrite !map_app. cbn [map]. rewrite !sampled_snoc, last_last, LL.
        replace (sample_edge cpol cpha (so_pins x1) (so_pins x2)) with false.
        2:{ unfold sample_edge. rewrite X1, X2, H2. destruct lvl, (p_clk (so_pins f0)); reflexivity. }
        replace (sample_edge cpol cpha (so_pins x2) (so_pins f0)) with false.
        2:{ unfold sample_edge. rewrite X2, H0. destruct lvl, (p_clk (so_pins f0)); reflexivity. }
        now rewrite !app_nil_r. }
      rewrite line_steady; [|exact Hz|now apply Forall_map|rewrite LL; congruence].
      rewrite <- ES. unfold x. rewrite map_app. reflexivity. }
    rewrite app_length. cbn [length]. rewrite V, LR. rewrite IH, LR at 1.
    assert (X : forall (l : list Z) k d, (k < length l)%nat -> firstn (k + 1) l = firstn k l ++ [nth k l d]).
    { clear. induction l as [|a l IH]; intros k d Hk; [cbn in Hk; lia|]. destruct k; [reflexivity|]. cbn [Nat.add firstn nth app]. f_equal. apply IH. cbn in Hk. lia. }
    rewrite <- (X _ _ 0) by (rewrite app_length, repeat_length; lia). rewrite (app_assoc (repeat x n) Sf). set (Y := repeat x n ++ Sf).
    assert (LY : (length Sf + 1 <= length Y)%nat) by (unfold Y; rewrite app_length, repeat_length; lia). clearbody Y.
    rewrite firstn_app. replace (length Sf + 1 - length Y)%nat with 0%nat by lia. cbn [firstn]. now rewrite app_nil_r.
  Qed.
End Echo.

(** ** C167: in a frame of a looped slave (selected from the cycle after [z]), with a
    clock that rests three cycles before and after its sampling edges, what the master
    reads is a word of no meaning followed by what it sends, from the first group on. *)
Theorem C167_echo : forall cpol cpha width bw with_len ins t0 z f t1,
  0 < bw -> 0 < width -> (bw | width) ->
  trace (spi_echo cpol cpha width bw with_len) ins = t0 ++ z :: f ++ t1 ->
  let ps := map so_pins (t0 ++ z :: f) in let n := Z.to_nat (width / bw) in
  Forall (fun p => 0 <= p_dq p < 2 ^ bw) ps -> held 3 cpol cpha (low :: ps) -> whole_words cpol cpha n ps ->
  p_cs_n (so_pins z) = true -> Forall (fun o => p_cs_n (so_pins o) = false) f -> slow cpol cpha (z :: f) ->
  let r := master_reads cpol cpha (so_pins z) f in
  exists x, r = firstn (length r) (repeat x n ++ sampled cpol cpha (so_pins z) (map so_pins f)).
Proof.
  intros cpol cpha width bw wl ins t0 z f t1 Hb Hw [k Hk] E ps n D HE WW Hz HF HS r.
  assert (Hn : width = bw * Z.of_nat n) by (unfold n; rewrite Hk, Z.div_mul, Z2Nat.id by nia; lia).
  eexists. apply (echo_reads cpol cpha width bw wl n Hb Hw Hn ins f t0 z t1 E); auto.
  split; [|split; auto]. unfold ps in D. rewrite Forall_map in D. exact D.
Qed.

(** ** Examples *)
Fixpoint heldb (k : nat) (cpol cpha : bool) (l : list pins) : bool :=
  match l with
  | p :: l' => match l' with
               | q :: b => (negb (sample_edge cpol cpha p q) || forallb (fun r => Bool.eqb (p_clk r) (p_clk q) && negb (p_cs_n r)) (firstn k b)) && heldb k cpol cpha l'
               | [] => true
               end
  | [] => true
  end.
Lemma heldb_ok k cpol cpha l : heldb k cpol cpha l = true -> held k cpol cpha l.
Proof.
  intros H a. revert l H. induction a as [|x a IH]; intros l H p q b E Es; subst l.
  - cbn [app heldb] in H. rewrite Es in H. cbn [negb orb] in H. apply andb_prop in H. destruct H as [H _]. apply Forall_forall. intros r Hr.
    rewrite forallb_forall in H. specialize (H r Hr). apply andb_prop in H. destruct H as [H1 H2]. apply eqb_prop in H1. apply negb_true_iff in H2. auto.
  - cbn [app] in H. assert (H' : heldb k cpol cpha (a ++ p :: q :: b) = true).
    { cbn [heldb] in H. destruct (a ++ p :: q :: b) as [|y l]; [reflexivity|]. apply andb_prop in H. apply H. }
    exact (IH _ H' p q b eq_refl Es).
Qed.
Definition wholeb (cpol cpha : bool) (n : nat) (l : list pins) : bool :=
  forallb (fun i => negb (p_cs_n (nth i l low)) || Nat.eqb (Nat.modulo (length (sampled cpol cpha low (firstn i l))) n) 0) (seq 0 (length l)).
Lemma wholeb_ok cpol cpha n l : n <> 0%nat -> wholeb cpol cpha n l = true -> whole_words cpol cpha n l.
Proof.
  intros Hn H a p b -> Hp. unfold wholeb in H. rewrite forallb_forall in H. specialize (H (length a) ltac:(apply in_seq; rewrite app_length; cbn [length]; lia)).
  rewrite nth_middle, Hp, firstn_app, Nat.sub_diag, firstn_all in H. cbn [firstn negb orb] in H. rewrite app_nil_r in H. apply Nat.eqb_eq in H.
  now apply Nat.mod_divide.
Qed.
Definition rangeb (bw : Z) (l : list pins) : bool := forallb (fun p => (0 <=? p_dq p) && (p_dq p <? 2 ^ bw)) l.
Lemma rangeb_ok bw l : rangeb bw l = true -> Forall (fun p => 0 <= p_dq p < 2 ^ bw) l.
Proof. intros H. apply Forall_forall. intros p Hp. unfold rangeb in H. rewrite forallb_forall in H. specialize (H p Hp). lia. Qed.
Definition selb (f : list sl_obs) : bool := forallb (fun o => negb (p_cs_n (so_pins o))) f.
Lemma selb_ok f : selb f = true -> Forall (fun o => p_cs_n (so_pins o) = false) f.
Proof. intros H. apply Forall_forall. intros o Ho. unfold selb in H. rewrite forallb_forall in H. specialize (H o Ho). now apply negb_true_iff. Qed.

(** A frame: four cycles of rest, then for each group the active level for [h] cycles and
    the idle level for [l], then four cycles without selection. *)
Definition loop_frame (cpol : bool) (h l : nat) (ds : list Z) : list pins :=
  repeat (Pins cpol false 0) 4 ++ flat_map (fun d => repeat (Pins (negb cpol) false d) h ++ repeat (Pins cpol false d) l) ds ++ repeat (Pins cpol true 0) 4.
(** The frame that starts after [k] cycles and has [m] cycles meets the conditions of
    [C167_echo], but the clock is held for [hold] cycles; [r] is what the master reads in
    it and [e] what it sends. *)
Definition loop_case (hold : nat) (cpol cpha : bool) (width bw : Z) (ins : list pins) (k m : nat) (whole : bool) (r e : list Z) : Prop :=
  let t := trace (spi_echo cpol cpha width bw true) ins in
  exists t0 z f t1, t = t0 ++ z :: f ++ t1 /\ length t0 = k /\ length f = m /\
    let ps := map so_pins (t0 ++ z :: f) in
    Forall (fun p => 0 <= p_dq p < 2 ^ bw) ps /\ held hold cpol cpha (low :: ps) /\
    (if whole then whole_words cpol cpha (Z.to_nat (width / bw)) ps else True) /\
    p_cs_n (so_pins z) = true /\ Forall (fun o => p_cs_n (so_pins o) = false) f /\ slow cpol cpha (z :: f) /\
    master_reads cpol cpha (so_pins z) f = r /\ sampled cpol cpha (so_pins z) (map so_pins f) = e.
Ltac show_case k m :=
  unfold loop_case; cbv zeta; match goal with |- context [trace ?c ?i] =>
    exists (firstn k (trace c i)); eexists _; exists (firstn m (skipn (S k) (trace c i))), (skipn (S k + m) (trace c i)) end;
  split; [vm_compute; reflexivity|]; split; [vm_compute; reflexivity|]; split; [vm_compute; reflexivity|];
  split; [apply rangeb_ok; vm_compute; reflexivity|]; split; [apply heldb_ok; vm_compute; reflexivity|];
  split; [first [exact I | apply wholeb_ok; [vm_compute; discriminate|vm_compute; reflexivity]]|]; split; [reflexivity|]; split; [apply selb_ok; vm_compute; reflexivity|];
  split; [apply slowb_ok; vm_compute; reflexivity|]; split; vm_compute; reflexivity.

(** The second frame of a run: three words of four bits, one data line, mode 0. *)
Example C167_nonvacuous : loop_case 3 false false 4 1
  (repeat (Pins false true 0) 4 ++ loop_frame false 4 3 [0; 1; 1; 1] ++ loop_frame false 4 3 [1; 0; 1; 1; 0; 0; 1; 0; 1; 1; 1; 0]) 39 88 true
  [0; 0; 0; 0; 1; 0; 1; 1; 0; 0; 1; 0] [1; 0; 1; 1; 0; 0; 1; 0; 1; 1; 1; 0].
Proof. show_case 39%nat 88%nat. Qed.
(** Two words of six bits, two data lines, mode 1. *)
Example C167_nonvacuous_dual : loop_case 3 false true 6 2
  (repeat (Pins false true 0) 4 ++ loop_frame false 3 4 [2; 1; 3] ++ loop_frame false 3 4 [3; 0; 1; 1; 2; 2]) 32 46 true
  [0; 0; 0; 3; 0; 1] [3; 0; 1; 1; 2; 2].
Proof. show_case 32%nat 46%nat. Qed.

(** Two more cycles after the sampling edge are not enough: in the first frame of such a
    run, the answer is one bit late. *)
Theorem C167_hold_needed : exists ins r e, loop_case 2 false false 4 1 ins 3 52 true r e /\ length r = 8%nat /\
  forall x, r <> firstn 8 (repeat x 4 ++ e).
Proof.
  exists (repeat (Pins false true 0) 4 ++ loop_frame false 3 3 [1; 0; 1; 1; 0; 0; 1; 0; 0]), [0; 0; 0; 0; 0; 1; 0; 1], [1; 0; 1; 1; 0; 0; 1; 0]. split; [|split].
  - show_case 3%nat 52%nat.
  - reflexivity.
  - intros x. cbn. intros H. discriminate.
Qed.
(** Whole words are needed: after a frame of three bits, the next frame starts with them. *)
Theorem C167_whole_needed : exists ins r e, loop_case 3 false false 4 1 ins 32 60 false r e /\ length r = 8%nat /\
  forall x, r <> firstn 8 (repeat x 4 ++ e).
Proof.
  exists (repeat (Pins false true 0) 4 ++ loop_frame false 4 3 [1; 0; 1] ++ loop_frame false 4 3 [1; 0; 0; 1; 0; 0; 1; 0; 0; 0; 0; 0]), [0; 1; 0; 1; 1; 0; 0; 1], [1; 0; 0; 1; 0; 0; 1; 0]. split; [|split].
  - show_case 32%nat 60%nat.
  - reflexivity.
  - intros x. cbn. intros H. injection H. intros. lia.
Qed.

Print Assumptions C167_echo.
Print Assumptions C167_hold_needed.
Print Assumptions C167_whole_needed.
