(** C171: an SPIPHYMaster and an SPIPHYSlave connected by their pins. *)
From Verif Require Import Stream Bits Fifo_model Fifo_proofs Fifo_props Timer_model Spiclk_model I2cstream_proofs Spimaster_model Spimaster_props Spislave_model Spislave_props Spilink_model Spilink_spec Spilink_proofs Spilive_props Spibench_model.

(** The words given to the master, the words it returned, the words pushed by the slave. *)
Definition given (t : list bench_obs) : list mword := map fst (words (map be_master t)).
Definition answers (t : list bench_obs) : list (Z * bool) := received (map be_master t).
Definition arrived (t : list bench_obs) : list (Z * Z * bool) := pushes (map be_slave t).
(** A word sent over all lines. *)
Definition full_word (width bw : Z) (w : mword) : Prop := mw_width w = bw /\ mw_oe w = true /\ mw_len w = width.
(** The user releases the chip select only when every word was answered. *)
Definition patient (t : list bench_obs) : Prop :=
  forall t1 o t2, t = t1 ++ o :: t2 -> mo_cs_n (be_master o) = true -> length (answers t1) = length (given t1).

Section Bench.
  Context (width bw div delay : Z) (cpol cpha with_len : bool) (n : nat).
  Context (Hdiv : 0 <= div < 256) (Hbw : In bw [1; 2; 4; 8]) (Hn : width = bw * Z.of_nat n) (Hw : 0 < width <= 256) (Hm : cpol = cpha).
  Notation c := (spi_bench width bw div delay cpol cpha with_len).
  Notation master := (spi_master width bw div delay).
  Notation slave := (spi_slave cpol cpha width bw with_len [width]).
  Definition mback (o : ms_obs) : ms_in := MsIn (mo_cs o) (mo_sink o) (mo_dq_i o) (o_rready (mo_fifo o)).
  Definition sback (o : sl_obs) : sl_in := SlIn (so_pins o) (so_sink o) (o_rready (so_fifo o)).
  Lemma bench_master ins : map be_master (trace c ins) = trace master (map mback (map be_master (trace c ins))) /\
    fst (state c ins) = state master (map mback (map be_master (trace c ins))).
  Proof.
    apply (part_trace c master mback (fun s => fst s) (fun s i => bench_master_in width bw cpol cpha with_len (snd s) i)); try reflexivity.
    intros s [? ? ?]. reflexivity.
  Qed.
  Lemma bench_slave ins : map be_slave (trace c ins) = trace slave (map sback (map be_slave (trace c ins))) /\
    snd (state c ins) = state slave (map sback (map be_slave (trace c ins))).
  Proof.
    apply (part_trace c slave sback (fun s => snd s) (fun s i => bench_slave_in width bw div delay cpol cpha with_len s i)); try reflexivity.
    intros s [? ? ?]. reflexivity.
  Qed.
  Lemma bench_snoc ins i : trace c (ins ++ [i]) = trace c ins ++ [cout c (state c ins) i] /\ state c (ins ++ [i]) = cnext c (state c ins) i.
  Proof. rewrite trace_app. unfold state. rewrite state_from_app. split; reflexivity. Qed.
  Lemma b_pos : 0 < bw. Proof. cbn [In] in Hbw. lia. Qed.
  Lemma b_div : (bw | width). Proof. exists (Z.of_nat n). lia. Qed.
  Lemma b_n : (0 < n)%nat. Proof. pose proof b_pos. destruct n; [|lia]. cbn in Hn. lia. Qed.
  Lemma b_quot : Z.to_nat (width / bw) = n. Proof. pose proof b_pos. rewrite Hn, Z.mul_comm, Z.div_mul by lia. lia. Qed.
  Lemma b_mode : Bool.eqb cpol cpha = true. Proof. rewrite Hm. apply Bool.eqb_reflx. Qed.
  Lemma full_legal w : full_word width bw w -> legal width bw w.
  Proof. intros (E1 & _ & E3). unfold legal. rewrite E1, E3. repeat split; try lia; [exact Hbw|exact b_div]. Qed.
  Lemma full_groups w : full_word width bw w -> length (groups w) = n /\ value bw (groups w) = mw_data w mod 2 ^ width.
  Proof.
    intros (E1 & E2 & E3). destruct w as [d x y z]. cbn in E1, E2, E3. subst x y z. split.
    - rewrite groups_len by apply b_pos. apply b_quot.
    - apply (value_groups _ bw d n); [apply b_pos|exact Hn].
  Qed.
  Definition good (t : list bench_obs) : Prop := Forall (full_word width bw) (given t).
  Lemma good_prefix t1 t2 : good (t1 ++ t2) -> good t1.
  Proof. unfold good, given, words. rewrite map_app, flat_map_app, map_app. intros H. now apply Forall_app in H. Qed.
  Lemma patient_prefix t1 t2 : patient (t1 ++ t2) -> patient t1.
  Proof. intros H a o b E. apply (H a o (b ++ t2)). now rewrite E, <- app_assoc. Qed.
  Lemma good_ok t : good t -> Forall (fun w => legal width bw (fst w)) (words (map be_master t)).
  Proof. unfold good, given. intros H. rewrite Forall_map in H. eapply Forall_impl; [|exact H]. intros w Hx. now apply full_legal. Qed.
  Lemma bench_inv ins : good (trace c ins) -> m_inv width bw div (map be_master (trace c ins)) (fst (state c ins)).
  Proof.
    intros G. destruct (bench_master ins) as [E1 E2]. apply good_ok in G.
    rewrite E2. rewrite E1 at 1. apply m_run_inv; [exact Hdiv|]. unfold ok. now rewrite <- E1.
  Qed.
  Lemma bench_oe ins : good (trace c ins) -> given (trace c ins) <> [] -> m_oe width (fst (state c ins)) = true.
  Proof.
    intros G N. destruct (bench_master ins) as [E1 E2].
    assert (O : m_oe width (fst (state c ins)) = fold_left (fun _ w => mw_oe (fst w)) (words (map be_master (trace c ins))) false).
    { remember (map mback (map be_master (trace c ins))) as p eqn:Ep. clear Ep. rewrite E2, E1.
      pose proof (C114_output_enable width bw div delay (p ++ [MsIn false (Chan false (Beat false false (MWord 0 0 false 0))) 0 false]) (trace master p)) as X.
      rewrite trace_app in X. specialize (X _ [] eq_refl). exact X. }
    rewrite O. unfold good, given in *. clear - G N. destruct (words _) as [|x l] using rev_ind; [now destruct N|]. clear IHl.
    rewrite fold_left_app. cbn [fold_left]. rewrite Forall_map in G. apply Forall_app in G. destruct G as [_ G]. apply Forall_cons_iff in G. destruct G as [(_ & G & _) _]. exact G.
  Qed.
  Lemma bench_range s : 0 <= ms_dq_o width bw s < 2 ^ bw.
  Proof.
    assert (P : 0 < 2 ^ bw) by (apply Z.pow_pos_nonneg; pose proof b_pos; lia).
    unfold ms_dq_o. destruct (ms_case _); [|lia]. unfold trunc. now apply Z.mod_pos_bound.
  Qed.
  Lemma bench_dq ins : dq_ok bw (map be_slave (trace c ins)).
  Proof.
    unfold dq_ok. apply Forall_map. apply (run_inv c (fun t _ => Forall _ t)); [constructor|]. intros t s i H. apply Forall_app. split; [exact H|]. constructor; [|constructor].
    change (p_dq (so_pins (be_slave (cout c s i)))) with (if (bw =? 1) || m_oe width (fst s) then ms_dq_o width bw (fst s) else 0).
    destruct (_ || _); [apply bench_range|]. assert (0 < 2 ^ bw) by (apply Z.pow_pos_nonneg; pose proof b_pos; lia). lia.
  Qed.
  Lemma answers_count ws (gs : list (list (Z * Z))) rs : Forall3 answer ws gs rs -> length rs = length ws.
  Proof. induction 1; cbn [length]; congruence. Qed.
  Lemma wire_data ws (gs : list (list (Z * Z))) : Forall2 on_wire ws gs -> map fst (concat gs) = concat (map groups (map fst ws)).
  Proof. induction 1 as [|w g ws gs H]; [reflexivity|]. cbn [concat map]. now rewrite map_app, IHForall2, H. Qed.
  (** One cycle of the pins: a rising edge comes with the chip select and the output enable. *)
  Lemma bench_edge ins i : let o := cout c (state c ins) i in good (trace c ins) -> patient (trace c ins ++ [o]) ->
    (negb (last_clk (map be_master (trace c ins))) && mo_clk (be_master o) = true ->
       mo_cs_n (be_master o) = false /\ p_dq (so_pins (be_slave o)) = mo_dq_o (be_master o)) /\
    (mo_cs_n (be_master o) = true -> negb (last_clk (map be_master (trace c ins))) && mo_clk (be_master o) = false /\
       map fst (rises false (map be_master (trace c ins))) = concat (map groups (given (trace c ins)))).
  Proof.
    intros o G P. destruct (bench_inv ins G) as (ws & gs & pend & cur & W & R & F & FA & PH & _).
    assert (C : mo_clk (be_master o) = ck_clk (m_ck _ (fst (state c ins)))) by reflexivity.
    specialize (P (trace c ins) o [] eq_refl). unfold answers, given in P. apply answers_count in FA. rewrite app_length in FA.
    destruct pend as [w|].
    - assert (N : mo_cs_n (be_master o) = false).
      { destruct (mo_cs_n (be_master o)); [|reflexivity]. specialize (P eq_refl). rewrite map_length, W, app_length in P. cbn [opt length] in P. lia. }
      rewrite N. split; [|discriminate]. intros _. split; [reflexivity|].
      change (p_dq (so_pins (be_slave o))) with (if (bw =? 1) || m_oe width (fst (state c ins)) then mo_dq_o (be_master o) else 0).
      rewrite bench_oe, orb_true_r; [reflexivity|exact G|]. unfold given. rewrite W. cbn [opt]. destruct ws; discriminate.
    - assert (X : negb (last_clk (map be_master (trace c ins))) && mo_clk (be_master o) = false /\ cur = []).
      { rewrite C. inversion PH as [p Hr Hc| | | |cnt Hr Hc Hcnt Ho]; subst; [rewrite Hc; cbn [ck_clk]; rewrite andb_false_r; auto|auto]. }
      destruct X as [X ->]. rewrite X. split; [discriminate|]. intros _. split; [reflexivity|].
      unfold given. rewrite W, R. cbn [opt]. rewrite !app_nil_r. now apply wire_data.
  Qed.
  Lemma last_pins_clk ins : p_clk (last (map so_pins (map be_slave (trace c ins))) low) = last_clk (map be_master (trace c ins)).
  Proof.
    destruct ins as [|i ins] using rev_ind; [reflexivity|]. clear IHins. rewrite (proj1 (bench_snoc ins i)), !map_app. cbn [map]. now rewrite last_last, last_clk_snoc.
  Qed.
  Lemma bench_sampled ins : good (trace c ins) -> patient (trace c ins) ->
    sampled cpol cpha low (map so_pins (map be_slave (trace c ins))) = map fst (rises false (map be_master (trace c ins))).
  Proof.
    induction ins as [|i ins IH] using rev_ind; [reflexivity|]. rewrite (proj1 (bench_snoc ins i)). intros G P. set (o := cout c (state c ins) i) in *.
    specialize (IH (good_prefix _ _ G) (patient_prefix _ _ P)). destruct (bench_edge ins i (good_prefix _ _ G) P) as [N _]. fold o in N.
    rewrite !map_app. cbn [map]. rewrite sampled_snoc, rises_snoc, IH, map_app. f_equal. fold (last_clk (map be_master (trace c ins))).
    unfold sample_edge. rewrite b_mode, last_pins_clk.
    change (p_clk (so_pins (be_slave o))) with (mo_clk (be_master o)). change (p_cs_n (so_pins (be_slave o))) with (mo_cs_n (be_master o)).
    destruct (negb (last_clk (map be_master (trace c ins))) && mo_clk (be_master o)) eqn:E; [|now rewrite andb_false_r].
    destruct (N eq_refl) as [N1 N2]. rewrite N1, N2. reflexivity.
  Qed.
  Lemma groups_n (l : list mword) : Forall (full_word width bw) l -> Forall (fun x => length x = n) (map groups l).
  Proof. intros H. apply Forall_map. eapply Forall_impl; [|exact H]. intros w Hx. now apply full_groups. Qed.
  Lemma bench_framed ins : good (trace c ins) -> patient (trace c ins) -> framed cpol cpha n (map so_pins (map be_slave (trace c ins))).
  Proof.
    intros G P a b E Hc. rewrite map_map in E. apply map_eq_app in E. destruct E as (ta & tb & E & <- & <-).
    destruct ta as [|x ta] using rev_ind; [discriminate Hc|]. clear IHta. assert (E0 := E). rewrite <- app_assoc in E. cbn [app] in E.
    apply trace_one in E. destruct E as (i1 & i & i2 & -> & <- & ->).
    assert (TI := proj1 (bench_snoc i1 i)). rewrite <- TI, <- map_map in Hc |- *. 
    rewrite E0, <- TI in G, P. apply good_prefix in G. apply patient_prefix in P.
    rewrite (bench_sampled _ G P). rewrite TI in Hc, G, P |- *. rewrite !map_app in Hc. cbn [map] in Hc. rewrite last_last in Hc.
    destruct (bench_edge i1 i (good_prefix _ _ G) P) as [_ N]. destruct (N Hc) as [N1 N2].
    rewrite map_app. cbn [map]. rewrite rises_snoc. fold (last_clk (map be_master (trace c i1))). rewrite N1, app_nil_r, N2.
    exists (length (given (trace c i1))). rewrite (concat_len n) by (apply groups_n; exact (good_prefix _ _ G)). rewrite map_length. lia.
  Qed.
  Lemma bench_prefix ins : good (trace c ins) -> exists r, concat (map groups (given (trace c ins))) = map fst (rises false (map be_master (trace c ins))) ++ r.
  Proof.
    intros G. apply good_ok in G. destruct (bench_master ins) as [E _].
    pose proof (C59_transfers width bw div delay (map mback (map be_master (trace c ins))) Hdiv) as X. cbv zeta in X. rewrite <- E in X.
    destruct (X G) as (ws & gs & pend & cur & late & W & P1 & R & F & P2 & _). clear X. unfold given.
    rewrite W, R, !map_app, concat_app, (wire_data _ _ F).
    destruct pend as [|w pend]; [subst cur; exists []; cbn; now rewrite !app_nil_r|].
    destruct P2 as [P2 _]. rewrite P2. exists (skipn (length cur) (groups (fst w)) ++ concat (map groups (map fst pend))).
    rewrite <- app_assoc. f_equal. cbn [map concat]. rewrite app_assoc, firstn_skipn. reflexivity.
  Qed.
  Lemma twice l : sampled cpol cpha low (low :: low :: l) = sampled cpol cpha low l.
  Proof. cbn [sampled]. unfold sample_edge at 1 2. rewrite b_mode. reflexivity. Qed.
  Lemma bench_looked u : framed cpol cpha n (map so_pins u) -> framed cpol cpha n (looked_at u).
  Proof.
    intros F a b Ea Hc. unfold looked_at in Ea.
    assert (X : low :: low :: map so_pins u = a ++ (b ++ skipn (length u) (low :: low :: map so_pins u))) by (rewrite app_assoc, <- Ea; symmetry; apply firstn_skipn).
    destruct a as [|x a]; [discriminate Hc|]. injection X as <- X. destruct a as [|y a]; [discriminate Hc|]. injection X as <- X.
    rewrite twice. apply (F a _ X). destruct a; [discriminate Hc|]. exact Hc.
  Qed.
  Lemma looked_sampled u : exists r, sampled cpol cpha low (map so_pins u) = sampled cpol cpha low (looked_at u) ++ r.
  Proof.
    rewrite <- twice. rewrite <- (firstn_skipn (length u) (low :: low :: map so_pins u)), sampled_app. eexists. reflexivity.
  Qed.
  (** The words pushed by the slave are the first words given to the master. *)
  Lemma bench_words ins : let t := trace c ins in good t -> patient t ->
    Forall (fun w => snd (fst w) = width) (arrived t) /\
    exists rest, map (fun w => mw_data w mod 2 ^ width) (given t) = map (fun w => fst (fst w)) (arrived t) ++ rest.
  Proof.
    intros t G P. pose proof b_pos as B0. destruct (bench_slave ins) as [E _]. fold t in E.
    pose proof (bench_dq ins) as Hdq. fold t in Hdq. pose proof (bench_looked _ (bench_framed ins G P)) as FR. fold t in FR.
    set (sins := map sback (map be_slave t)) in E.
    assert (FL : Forall (fun w => snd (fst w) = width) (arrived t)).
    { unfold arrived. rewrite E in *. exact (slave_full cpol cpha width bw with_len n B0 ltac:(lia) Hn sins Hdq FR). }
    split; [exact FL|].
    destruct (C55_received cpol cpha width bw with_len [width] sins (slave_ok width bw n B0 ltac:(lia) Hn)) as (chs & pend & S & F & _); [rewrite <- E; exact Hdq|].
    pose proof (sl_push_ok cpol cpha width bw with_len [width] B0 ltac:(discriminate) (proj2 (proj2 (slave_ok width bw n B0 ltac:(lia) Hn))) sins) as PO.
    rewrite <- E in S, F, PO. specialize (PO Hdq). fold (arrived t) in F.
    assert (CH := full_chunks width bw n ltac:(lia) Hn chs (arrived t) F FL).
    destruct (looked_sampled (map be_slave t)) as [r1 L]. pose proof (bench_sampled ins G P) as Q. fold t in Q. rewrite L, S in Q.
    destruct (bench_prefix ins G) as [r2 HP]. fold t in HP. rewrite <- Q, <- !app_assoc in HP.
    destruct (concat_prefix n _ _ _ b_n (groups_n _ G) CH HP) as [zs Z].
    assert (PR : Forall (fun w => 0 <= fst (fst w) < 2 ^ width) (arrived t)).
    { clear -PO. unfold arrived. induction (map be_slave t) as [|o u IH]; [constructor|]. apply Forall_cons_iff in PO. destruct PO as [P1 P2].
      change (pushes (o :: u)) with (match so_push o with Some w => [w] | None => [] end ++ pushes u). apply Forall_app. split; [|auto].
      unfold push_ok in P1. destruct (so_push o); repeat constructor; apply P1. }
    exists (map (value bw) zs).
    assert (V : map (fun w => mw_data w mod 2 ^ width) (given t) = map (value bw) (map groups (given t))).
    { rewrite map_map. unfold good in G. clear -G Hn Hbw Hw. induction G as [|w l H _ IH]; [reflexivity|]. cbn [map]. rewrite IH. f_equal. symmetry. now apply full_groups. }
    rewrite V, Z, map_app. f_equal. clear - F PR FL. induction F as [|ds w chs ws [_ F1] F IH]; [reflexivity|]. cbn [map].
    apply Forall_cons_iff in PR, FL. destruct PR as [R1 R2], FL as [L1 L2]. rewrite (IH L2 R2). f_equal. rewrite <- F1, L1. apply Z.mod_small. lia.
  Qed.
  Lemma rises_more t u p : exists r, rises p (t ++ u) = rises p t ++ r.
  Proof. revert p. induction t as [|o t IH]; intros p; [now exists (rises p u)|]. cbn [app rises]. destruct (IH (mo_clk o)) as [r ->]. exists r. now rewrite app_assoc. Qed.
  Lemma sampled_more p a b : exists r, sampled cpol cpha p (a ++ b) = sampled cpol cpha p a ++ r.
  Proof. rewrite sampled_app. eexists. reflexivity. Qed.
  (** A word answered has arrived three cycles later. *)
  Lemma bench_arrives ins x y z : let t := trace c ins in let u := trace c (ins ++ [x; y; z]) in good u -> patient u ->
    (length (answers t) <= length (arrived u))%nat.
  Proof.
    intros t u G P. pose proof b_pos as B0.
    assert (T2 : trace c (ins ++ [x; y]) = t ++ [cout c (state c ins) x; cout c (cnext c (state c ins) x) y]) by (rewrite trace_app; reflexivity).
    assert (T3 : u = trace c (ins ++ [x; y]) ++ [cout c (state c (ins ++ [x; y])) z]).
    { unfold u. change [x; y; z] with ([x; y] ++ [z]). rewrite app_assoc. apply bench_snoc. }
    assert (G1 : good t) by (rewrite T3, T2 in G; now apply good_prefix, good_prefix in G).
    assert (P1 : patient t) by (rewrite T3, T2 in P; now apply patient_prefix, patient_prefix in P).
    destruct (bench_words (ins ++ [x; y; z]) G P) as [FL _]. fold u in FL.
    set (v := trace c (ins ++ [x; y])) in *. set (s := state c (ins ++ [x; y])) in *.
    (* enough groups were sent *)
    assert (L1 : (n * length (answers t) <= length (sampled cpol cpha low (looked_at (map be_slave v))))%nat).
    { assert (A : looked_at (map be_slave v) = low :: low :: map so_pins (map be_slave t)).
      { unfold looked_at. rewrite T2, !map_app, app_length, map_length. cbn [map length].
        replace (length t + 2)%nat with (length (low :: low :: map so_pins (map be_slave t))) by (cbn [length]; rewrite !map_length; lia).
        rewrite !app_comm_cons, firstn_app, Nat.sub_diag, firstn_O, app_nil_r. apply firstn_all. }
      pose proof (bench_sampled ins G1 P1) as BS. fold t in BS. rewrite A, twice, BS, map_length.
      destruct (bench_inv ins G1) as (ws & gs & pend & cur & W & R & F & FA & _). fold t in W, R, FA. rewrite R, app_length.
      apply answers_count in FA. rewrite app_length in FA. fold (answers t) in FA.
      assert (LG : length (concat gs) = (n * length ws)%nat).
      { rewrite <- (map_length fst), (wire_data _ _ F), (concat_len n), !map_length; [reflexivity|]. apply groups_n.
        unfold good, given in G1. rewrite W, map_app in G1. now apply Forall_app in G1. }
      nia. }
    destruct (bench_slave (ins ++ [x; y])) as [E1 E2]. fold v s in E1, E2. set (sins := map sback (map be_slave v)) in *.
    pose proof (bench_dq (ins ++ [x; y])) as Hdq. fold v in Hdq.
    destruct (sl_run cpol cpha width bw with_len [width] B0 ltac:(discriminate) (proj2 (proj2 (slave_ok width bw n B0 ltac:(lia) Hn))) sins ltac:(rewrite <- E1; exact Hdq)) as (_ & _ & chs & pend & F1 & F2 & F3 & _ & _ & F6 & F7 & F8 & F9 & _).
    rewrite <- E1, <- E2 in *. clearbody sins. fold (arrived v) in *. cbn [length] in F7, F8, F9.
    assert (Hk : stage_after 1 0 (arrived v) = 0%nat) by lia. cbn [length] in F6. rewrite Hk in F6, F8, F9. cbn [nth] in F8, F9.
    assert (A3 : arrived u = arrived v ++ match so_push (be_slave (cout c s z)) with Some w => [w] | None => [] end).
    { unfold arrived. rewrite T3, map_app. cbn [map]. apply pushes_snoc. }
    rewrite A3, app_length. rewrite A3 in FL. apply Forall_app in FL. destruct FL as [FL _].
    assert (CH := full_chunks width bw n ltac:(lia) Hn chs (arrived v) F2 FL).
    assert (LC : length chs = length (arrived v)) by (clear -F2; induction F2; cbn [length]; congruence).
    rewrite F1, app_length, (concat_len n chs CH), LC in L1.
    destruct (Nat.le_gt_cases (length (answers t)) (length (arrived v))) as [|Hlt]; [lia|].
    assert (LP : (n <= length pend)%nat) by nia. assert (l_cnt _ _ (snd s) = width) by nia. specialize (F9 H).
    assert (length pend = n) by nia.
    assert (PU : so_push (be_slave (cout c s z)) = Some (l_reg _ _ (snd s), l_cnt _ _ (snd s), sl_end _ _ (snd s))).
    { change (so_push (be_slave (cout c s z))) with (if sl_pushing cpol cpha width with_len [width] (snd s) then Some (l_reg _ _ (snd s), l_cnt _ _ (snd s), sl_end _ _ (snd s)) else None).
      unfold sl_pushing, sl_nbits. rewrite F6. change (Z.to_nat (Z.of_nat 0)) with 0%nat. cbn [nth]. rewrite H, Z.eqb_refl. cbn [orb].
      unfold sl_sample, sl_mode, sl_rise. rewrite b_mode, F9, b_mode. cbn [negb]. rewrite andb_false_r. reflexivity. }
    rewrite PU. cbn [length]. nia.
  Qed.
End Bench.

(** ** C171: the words the slave receives are the words given to the master, whole, unchanged and
    in order, if the user releases the chip select only when every word was answered; ... *)
Theorem C171_received : forall width bw div delay cpol cpha with_len ins,
  0 <= div < 256 -> In bw [1; 2; 4; 8] -> (bw | width) -> 0 < width <= 256 -> cpol = cpha ->
  let t := trace (spi_bench width bw div delay cpol cpha with_len) ins in
  Forall (full_word width bw) (given t) -> patient t ->
  Forall (fun w => snd (fst w) = width) (arrived t) /\
  exists rest, map (fun w => mw_data w mod 2 ^ width) (given t) = map (fun w => fst (fst w)) (arrived t) ++ rest.
Proof.
  intros width bw div delay cpol cpha with_len ins Hd Hb [q Hq] Hw Hm. assert (0 < bw) by (cbn [In] in Hb; lia).
  apply (bench_words width bw div delay cpol cpha with_len (Z.to_nat q)); auto. rewrite Z2Nat.id by nia. lia.
Qed.
(** ... each arrives at the latest three cycles after its answer; ... *)
Theorem C171_arrives : forall width bw div delay cpol cpha with_len ins later,
  0 <= div < 256 -> In bw [1; 2; 4; 8] -> (bw | width) -> 0 < width <= 256 -> cpol = cpha ->
  let c := spi_bench width bw div delay cpol cpha with_len in
  Forall (full_word width bw) (given (trace c (ins ++ later))) -> patient (trace c (ins ++ later)) -> (3 <= length later)%nat ->
  (length (answers (trace c ins)) <= length (arrived (trace c (ins ++ later))))%nat.
Proof.
  intros width bw div delay cpol cpha with_len ins later Hd Hb [q Hq] Hw Hm c G P L. assert (0 < bw) by (cbn [In] in Hb; lia).
  destruct later as [|x [|y [|z later]]]; try (cbn in L; lia). change (ins ++ x :: y :: z :: later) with (ins ++ [x; y; z] ++ later) in *. rewrite app_assoc in *.
  rewrite (trace_app c) in *. set (u := trace_from c _ later) in *.
  assert (A : (length (answers (trace c ins)) <= length (arrived (trace c (ins ++ [x; y; z]))))%nat).
  { apply (bench_arrives width bw div delay cpol cpha with_len (Z.to_nat q)); auto.
    - rewrite Z2Nat.id by nia. lia.
    - unfold good. unfold given, words in *. rewrite map_app, flat_map_app, map_app in G. now apply Forall_app in G.
    - intros a o b E. apply (P a o (b ++ u)). fold c in E. now rewrite E, <- app_assoc. }
  unfold arrived, pushes in *. rewrite map_app, flat_map_app, app_length. lia.
Qed.
(** ... and when the FIFO of the slave has room they leave it, each with its length, at most
    eight being held; ... *)
Theorem C171_delivered : forall width bw div delay cpol cpha with_len ins,
  0 <= div < 256 -> In bw [1; 2; 4; 8] -> (bw | width) -> 0 < width <= 256 -> cpol = cpha ->
  let t := trace (spi_bench width bw div delay cpol cpha with_len) ins in
  Forall (full_word width bw) (given t) -> patient t ->
  Forall (fun o => so_push (be_slave o) <> None -> o_sready (so_fifo (be_slave o)) = true) t ->
  exists held coming,
    map (fun w => mw_data w mod 2 ^ width + if with_len then 2 ^ width * width else 0) (given t) =
    map bdata (emitted (map so_fifo (map be_slave t))) ++ held ++ coming /\ (length held <= 8)%nat.
Proof.
  intros width bw div delay cpol cpha with_len ins Hd Hb [q Hq] Hw Hm t G P R. assert (B : 0 < bw) by (cbn [In] in Hb; lia).
  assert (Hn : width = bw * Z.of_nat (Z.to_nat q)) by (rewrite Z2Nat.id by nia; lia).
  destruct (bench_words width bw div delay cpol cpha with_len (Z.to_nat q) Hd Hb Hn Hw Hm ins G P) as [FL [rest E]]. fold t in FL, E.
  destruct (bench_slave width bw div delay cpol cpha with_len ins) as [ES _]. fold t in ES. set (sins := map sback (map be_slave t)) in ES.
  pose proof (C55_delivered cpol cpha width bw with_len [width] sins (slave_ok width bw _ B ltac:(lia) Hn)) as X. cbv zeta in X. rewrite <- ES in X.
  destruct X as (held & X1 & X2); [apply (bench_dq width bw div delay cpol cpha with_len (Z.to_nat q)); auto|now rewrite Forall_map|].
  exists held, (map (fun d => d + if with_len then 2 ^ width * width else 0) rest). split; [|exact X2].
  rewrite app_assoc, <- X1. fold (arrived t). rewrite <- (map_map (fun w => mw_data w mod 2 ^ width) (fun d => d + if with_len then 2 ^ width * width else 0)), E, map_app. f_equal.
  clear - FL. induction FL as [|w l H _ IH]; [reflexivity|]. cbn [map]. rewrite IH. f_equal. rewrite H. destruct with_len; lia.
Qed.
(** ... but with more than one data line the slave never answers: it does not enable its
    outputs, and every word the master returns, whatever the slave was given, is zero. *)
Theorem C171_silent : forall width bw div delay cpol cpha with_len ins,
  0 < width -> bw <> 1 ->
  Forall (fun b => bdata b = 0) (emitted (map mo_fifo (map be_master (trace (spi_bench width bw div delay cpol cpha with_len) ins)))).
Proof.
  intros width bw div delay cpol cpha with_len ins Hw Hb. set (c := spi_bench width bw div delay cpol cpha with_len).
  set (t := map be_master (trace c ins)).
  assert (Hp : exists ins', map mo_fifo t = strace (ms_fifo width) ins').
  { unfold t. rewrite map_map. eexists. exact (proj1 (part_trace c (scirc (ms_fifo width)) (fun o => (o_sink o, o_rready o)) (fun s => m_fifo _ (fst s))
      (fun s i => (ms_fsink width (fst s), bi_ready i)) (fun o => mo_fifo (be_master o))
      ltac:(intros ? [? ?]; reflexivity) eq_refl ltac:(reflexivity) ltac:(reflexivity) ins)). }
  destruct Hp as [ins' Hp].
  assert (Hr : Forall (fun o => bdata (cbeat (o_sink (mo_fifo o))) = 0) t).
  { unfold t. apply Forall_map. refine (proj1 (run_inv c (fun t s => Forall (fun o => bdata (cbeat (o_sink (mo_fifo (be_master o)))) = 0) t /\ m_si _ (fst s) = 0) _ _ ins)).
    - split; [constructor|reflexivity].
    - intros u s i [H1 H2]. split.
      + apply Forall_app. split; [exact H1|]. constructor; [|constructor]. exact H2.
      + cbn [cnext c spi_bench fst]. unfold bench_master_in. cbn [cnext spi_master m_si mi_dq]. destruct (_ && _); [|exact H2].
        apply Z.eqb_neq in Hb. rewrite Hb, H2, Z.mul_0_r. unfold ms_sampled, trunc. rewrite Z.testbit_0_l, Zmod_0_l.
        destruct (m_w _ _ =? 1); cbn [Z.b2z]; apply Zmod_0_l. }
  assert (Ha : Forall (fun b => bdata b = 0) (accepted (map mo_fifo t))).
  { clear -Hr. induction t as [|o t IH]; [constructor|]. apply Forall_cons_iff in Hr. destruct Hr as [P1 P3].
    cbn [map]. change (mo_fifo o :: map mo_fifo t) with ([mo_fifo o] ++ map mo_fifo t). rewrite accepted_app, accepted_1. apply Forall_app. split; [|auto].
    unfold xfer. destruct (_ && _); repeat constructor; exact P1. }
  assert (Hrg : Forall (fun b => 0 <= bdata b < 2 ^ width) (accepted (map mo_fifo t))).
  { eapply Forall_impl; [|exact Ha]. cbv beta. intros b ->. assert (0 < 2 ^ width) by (apply Z.pow_pos_nonneg; lia). lia. }
  rewrite Hp in Hrg. destruct (C19_sync_fifo_lossless width 8 true ins' ltac:(lia) Hrg) as (held & X1 & _).
  unfold ms_fifo in *. rewrite <- Hp in X1. rewrite X1 in Ha. now apply Forall_app in Ha.
Qed.

(** The bench with four lines (27-30, div = 0): two frames of two words, the slave with words to
    answer and slow to give its words away.  All words arrive, nothing but zeros comes back. *)
Definition bench_case (bw : Z) (div : Z) : list bench_in :=
  let idle := Chan false (Beat false false (MWord 0 0 false 0)) in
  let word d := Chan true (Beat false false (MWord d bw true 8)) in
  let w := Chan true (Beat false false (0xab, 8)) in
  let frame d1 d2 := repeat (BenchIn true (word d1) true w true) 3 ++ repeat (BenchIn true (word d2) true w false) (Z.to_nat ((8 / bw * 2) * (div + 1))) ++ repeat (BenchIn true idle true w true) (Z.to_nat ((8 / bw * 2) * (div + 1) + 4)) in
  frame 0x41 0x02 ++ repeat (BenchIn false idle true w true) 6 ++ frame 0x64 0xc3 ++ repeat (BenchIn false idle true w true) 6.
Definition patientb (t : list bench_obs) : bool :=
  forallb (fun k => match nth_error t k with Some o => implb (mo_cs_n (be_master o)) (Nat.eqb (length (answers (firstn k t))) (length (given (firstn k t)))) | None => true end) (seq 0 (length t)).
Lemma patientb_ok t : patientb t = true -> patient t.
Proof.
  intros H t1 o t2 E Hc. unfold patientb in H. rewrite forallb_forall in H. specialize (H (length t1)).
  rewrite E, nth_error_app2, Nat.sub_diag, app_length in H by lia. cbn [nth_error length] in H.
  rewrite firstn_app, Nat.sub_diag, firstn_O, app_nil_r, firstn_all, Hc in H. apply Nat.eqb_eq, H, in_seq. lia.
Qed.
Example C171_nonvacuous :
  let t := trace (spi_bench 8 4 0 0 false false true) (bench_case 4 0) in
  let t1 := trace (spi_bench 8 1 0 0 false false true) (bench_case 1 0) in
  Forall (full_word 8 4) (given t) /\ patient t /\ map mw_data (given t) = [0x41; 0x02; 0x64; 0xc3] /\
  arrived t = [(0x41, 8, false); (0x02, 8, false); (0x64, 8, false); (0xc3, 8, false)] /\
  map bdata (emitted (map mo_fifo (map be_master t))) = [0; 0; 0; 0] /\
  Forall (fun o => so_push (be_slave o) <> None -> o_sready (so_fifo (be_slave o)) = true) t /\
  Forall (full_word 8 1) (given t1) /\ patient t1 /\ arrived t1 = arrived t /\ map fst (answers t1) = [0x2a; 0xea; 0xea; 0xea].
Proof.
  cbv zeta. split; [vm_compute; repeat constructor|]. split; [apply patientb_ok; vm_compute; reflexivity|]. do 3 (split; [vm_compute; reflexivity|]).
  split; [vm_compute; repeat (constructor; [solve [reflexivity | intros X; reflexivity]|]); constructor|].
  split; [vm_compute; repeat constructor|]. split; [apply patientb_ok; vm_compute; reflexivity|]. split; vm_compute; reflexivity.
Qed.
(** A chip select released in the middle of a word: what arrived is not the word given. *)
Example C171_patience_needed : exists ins, let t := trace (spi_bench 8 4 2 0 false false true) ins in
  Forall (full_word 8 4) (given t) /\ map mw_data (given t) = [0x41] /\ arrived t = [(4, 4, true)].
Proof.
  exists (repeat (BenchIn true (Chan true (Beat false false (MWord 0x41 4 true 8))) true no_word true) 2 ++
          repeat (BenchIn true (Chan false (Beat false false (MWord 0 0 false 0))) true no_word true) 5 ++
          repeat (BenchIn false (Chan false (Beat false false (MWord 0 0 false 0))) true no_word true) 12).
  cbv zeta. split; [vm_compute; repeat constructor|]. split; vm_compute; reflexivity.
Qed.

Print Assumptions C171_received.
Print Assumptions C171_arrives.
Print Assumptions C171_delivered.
Print Assumptions C171_silent.
