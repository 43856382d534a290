(** SPIPHYSlave: C55, C56, C92. *)
From Verif Require Import Stream Bits Fifo_model Fifo_proofs Fifo_props I2cstream_proofs Spislave_model.

(** ** Specification *)
(** The values on the data lines at the sampling edges while selected. *)
Section Spec.
  Context (cpol cpha : bool).
  Definition sample_edge (p q : pins) : bool :=
    negb (p_cs_n q) && (if Bool.eqb cpol cpha then negb (p_clk p) && p_clk q else p_clk p && negb (p_clk q)).
  Definition update_edge (p q : pins) : bool :=
    negb (p_cs_n q) && (if Bool.eqb cpol cpha then p_clk p && negb (p_clk q) else negb (p_clk p) && p_clk q).
  Fixpoint sampled (p : pins) (l : list pins) : list Z :=
    match l with
    | [] => []
    | q :: l' => (if sample_edge p q then [p_dq q] else []) ++ sampled q l'
    end.
End Spec.
(** The synchronisers start with every pin low. *)
Definition low : pins := Pins false false 0.
(** The pins the slave has looked at: they are two cycles late. *)
Definition looked_at (t : list sl_obs) : list pins := firstn (length t) (low :: low :: map so_pins t).
(** Data values, most significant first, as a number. *)
Definition value (bw : Z) (ds : list Z) : Z := fold_left (fun a d => 2 ^ bw * a + d) ds 0.
(** The words pushed towards the user: data, len, ended by chip select. *)
Definition pushes (t : list sl_obs) : list (Z * Z * bool) :=
  flat_map (fun o => match so_push o with Some w => [w] | None => [] end) t.
(** The lengths of the pushed words follow the stages, starting from stage [i];
    a word ended by chip select may be shorter and starts the stages over. *)
Fixpoint staged (stages : list Z) (i : nat) (ws : list (Z * Z * bool)) : Prop :=
  match ws with
  | [] => True
  | (_, len, ended) :: ws' =>
      0 < len <= nth i stages 0 /\ (ended = false -> len = nth i stages 0) /\
      staged stages (if ended then 0 else Nat.min (S i) (length stages - 1)) ws'
  end.

(** The stage after some words. *)
Fixpoint stage_after (n i : nat) (ws : list (Z * Z * bool)) : nat :=
  match ws with [] => i | (_, ended) :: ws' => stage_after n (if ended then 0%nat else Nat.min (S i) (n - 1)) ws' end.
(** Number of update edges, and the data presented to a master that reads the line at
    the sampling edges of the pins. *)
Fixpoint updates (cpol cpha : bool) (p : pins) (l : list pins) : Z :=
  match l with [] => 0 | q :: l' => (if update_edge cpol cpha p q then 1 else 0) + updates cpol cpha q l' end.
Fixpoint master_reads (cpol cpha : bool) (p : pins) (t : list sl_obs) : list Z :=
  match t with
  | [] => []
  | o :: t' => (if sample_edge cpol cpha p (so_pins o) then [so_dq_o o] else []) ++ master_reads cpol cpha (so_pins o) t'
  end.

(** ** Proofs *)
Lemma last_dflt {A} (l : list A) y a b : last (y :: l) a = last (y :: l) b.
Proof. revert y. induction l as [|x l IH]; intros y; [reflexivity|]. exact (IH x). Qed.
Lemma sampled_snoc cpol cpha p l q : sampled cpol cpha p (l ++ [q]) =
  sampled cpol cpha p l ++ (if sample_edge cpol cpha (last l p) q then [p_dq q] else []).
Proof.
  revert p. induction l as [|x l IH]; intros p; [cbn; now rewrite app_nil_r|].
  cbn [app sampled]. rewrite IH, <- app_assoc. do 2 f_equal.
  assert (G : last l x = last (x :: l) p).
  { destruct l as [|y l]; [reflexivity|]. change (last (x :: y :: l) p) with (last (y :: l) p). apply last_dflt. }
  now rewrite G.
Qed.
Lemma value_snoc bw ds d : value bw (ds ++ [d]) = 2 ^ bw * value bw ds + d.
Proof. unfold value. now rewrite fold_left_app. Qed.
Lemma value_range bw ds : 0 <= bw -> Forall (fun d => 0 <= d < 2 ^ bw) ds -> 0 <= value bw ds < 2 ^ (bw * Z.of_nat (length ds)).
Proof.
  intros Hb. induction ds as [|d ds IH] using rev_ind; intros H; [cbn [length]; rewrite Z.mul_0_r; cbn; lia|].
  apply Forall_app in H. destruct H as [H1 H2]. apply Forall_cons_iff in H2. destruct H2 as [H2 _].
  rewrite value_snoc, app_length. cbn [length]. rewrite Nat.add_1_r, Nat2Z.inj_succ, Z.mul_succ_r, Z.add_comm, Z.pow_add_r by lia.
  specialize (IH H1). nia.
Qed.
Lemma pushes_snoc t o : pushes (t ++ [o]) = pushes t ++ match so_push o with Some w => [w] | None => [] end.
Proof. unfold pushes. rewrite flat_map_app. cbn [flat_map]. now rewrite app_nil_r. Qed.

Lemma staged_snoc stages i ws w : staged stages i (ws ++ [w]) <->
  staged stages i ws /\ staged stages (stage_after (length stages) i ws) [w].
Proof.
  revert i. induction ws as [|[[d l] e] ws IH]; intros i; cbn [app staged stage_after]; [tauto|].
  rewrite IH. cbn [staged]. tauto.
Qed.
Lemma stage_after_snoc n i ws d l e : stage_after n i (ws ++ [(d, l, e)]) =
  if e then 0%nat else Nat.min (S (stage_after n i ws)) (n - 1).
Proof. revert i. induction ws as [|[[d' l'] e'] ws IH]; intros i; cbn [app stage_after]; auto. Qed.

Section Slave.
  Context (cpol cpha : bool) (width bw : Z) (with_len : bool) (stages : list Z).
  Context (Hbw : 0 < bw) (Hst : stages <> [])
          (Hstages : Forall (fun n => 0 < n <= width /\ (bw | n)) stages).
  Notation c := (spi_slave cpol cpha width bw with_len stages).
  Notation state_t := (sl_state width with_len).

  Lemma stage_ok i : (i < length stages)%nat -> 0 < nth i stages 0 <= width /\ (bw | nth i stages 0).
  Proof. intros H. rewrite Forall_forall in Hstages. apply Hstages. now apply nth_In. Qed.

  Definition dq_ok (t : list sl_obs) : Prop := Forall (fun o => 0 <= p_dq (so_pins o) < 2 ^ bw) t.

  Definition sl_inv (t : list sl_obs) (s : state_t) : Prop :=
    low :: low :: map so_pins t = looked_at t ++ [l_p2 _ _ s; l_p1 _ _ s] /\
    l_clk_r _ _ s = p_clk (last (looked_at t) low) /\
    exists chs pend,
      sampled cpol cpha low (looked_at t) = concat chs ++ pend /\
      Forall2 (fun ch w => snd (fst w) = bw * Z.of_nat (length ch) /\ fst (fst w) mod 2 ^ (snd (fst w)) = value bw ch) chs (pushes t) /\
      l_cnt _ _ s = bw * Z.of_nat (length pend) /\
      l_reg _ _ s mod 2 ^ (l_cnt _ _ s) = value bw pend /\
      staged stages 0 (pushes t) /\
      l_idx _ _ s = Z.of_nat (stage_after (length stages) 0 (pushes t)) /\
      (stage_after (length stages) 0 (pushes t) < length stages)%nat /\
      l_cnt _ _ s <= nth (stage_after (length stages) 0 (pushes t)) stages 0 /\
      (l_cnt _ _ s = nth (stage_after (length stages) 0 (pushes t)) stages 0 -> l_clk_r _ _ s = Bool.eqb cpol cpha) /\
      (p_cs_n (last (looked_at t) low) = true -> pend = []).

  Lemma last_snoc {A} (l : list A) x d : last (l ++ [x]) d = x.
  Proof. induction l as [|y [|z l] IH]; [reflexivity|reflexivity|]. cbn [app last] in *. exact IH. Qed.

  Lemma looked_snoc t o p2 p1 : low :: low :: map so_pins t = looked_at t ++ [p2; p1] ->
    looked_at (t ++ [o]) = looked_at t ++ [p2] /\ low :: low :: map so_pins (t ++ [o]) = looked_at (t ++ [o]) ++ [p1; so_pins o].
  Proof.
    intros E. assert (L : length (looked_at t) = length t).
    { unfold looked_at. rewrite firstn_length. cbn [length]. rewrite map_length. lia. }
    assert (E' : low :: low :: map so_pins (t ++ [o]) = (looked_at t ++ [p2]) ++ [p1; so_pins o]).
    { rewrite map_app. change (low :: low :: map so_pins t ++ map so_pins [o]) with ((low :: low :: map so_pins t) ++ map so_pins [o]).
      rewrite E. cbn [map]. now rewrite <- !app_assoc. }
    assert (X : looked_at (t ++ [o]) = looked_at t ++ [p2]).
    { unfold looked_at at 1. rewrite E', app_length. cbn [length]. rewrite <- L, <- (Nat.add_comm 1).
      replace (1 + length (looked_at t))%nat with (length (looked_at t ++ [p2])) by (rewrite app_length; cbn; lia).
      rewrite firstn_app, Nat.sub_diag, firstn_O, app_nil_r. apply firstn_all. }
    split; [exact X|]. now rewrite X.
  Qed.

  Lemma sl_run ins : dq_ok (trace c ins) -> sl_inv (trace c ins) (state c ins).
  Proof.
    revert ins. apply (run_inv_hyp c dq_ok sl_inv).
    - intros t u H. unfold dq_ok in *. apply Forall_app in H. apply H.
    - split; [reflexivity|]. split; [reflexivity|]. exists [], [].
      assert (0 < length stages)%nat by (destruct stages; [congruence|cbn; lia]).
      cbn [trace map]. split; [reflexivity|]. split; [constructor|]. cbn [creset spi_slave sl_reset l_cnt l_reg l_idx length pushes flat_map staged stage_after].
      pose proof (stage_ok 0 H). rewrite Z.mul_0_r. repeat split; try lia.
    - intros t s i Hdq (E1 & E2 & chs & pend & F1 & F2 & F3 & F4 & F5 & F6 & F7 & F8 & F9 & F10).
      set (o := cout c s i) in *.
      assert (O1 : so_pins o = sl_pins i) by reflexivity.
      assert (O2 : so_push o = if sl_pushing cpol cpha width with_len stages s then Some (l_reg _ _ s, l_cnt _ _ s, sl_end _ _ s) else None) by reflexivity.
      destruct (looked_snoc t o _ _ E1) as [G1 G2].
      assert (Hp2 : 0 <= p_dq (l_p2 _ _ s) < 2 ^ bw).
      { assert (0 < 2 ^ bw) by (apply Z.pow_pos_nonneg; lia).
        assert (X : Forall (fun p => 0 <= p_dq p < 2 ^ bw) (low :: low :: map so_pins t)).
        { constructor; [cbn; lia|]. constructor; [cbn; lia|]. apply Forall_map. apply Forall_app in Hdq. apply Hdq. }
        rewrite E1 in X. apply Forall_app in X. destruct X as [_ X]. apply Forall_cons_iff in X. apply X. }
      assert (Hsm : sl_sample cpol cpha width with_len s = sample_edge cpol cpha (last (looked_at t) low) (l_p2 _ _ s)).
      { unfold sl_sample, sample_edge, sl_rise, sl_fall, sl_en, sl_mode. rewrite E2. destruct (Bool.eqb cpol cpha); now rewrite !andb_assoc. }
      clearbody o. unfold sl_inv. rewrite pushes_snoc, O2.
      set (k := stage_after (length stages) 0 (pushes t)) in *.
      destruct (stage_ok k F7) as [K1 K2].
      assert (Hnb : sl_nbits width with_len stages s = nth k stages 0).
      { unfold sl_nbits. rewrite F6, Nat2Z.id. now apply nth_indep. }
      cbn [spi_slave cnext].
      set (cnto3 := if sl_load width with_len s then _ else _). destruct cnto3 as [[cnto rego] dqo]. 
      split; [|split].
      + rewrite G2. destruct (sl_sample _ _ _ _ s); [|destruct (sl_pushing _ _ _ _ _ s)]; cbn [l_p1 l_p2]; now rewrite O1.
      + rewrite G1, last_snoc. destruct (sl_sample _ _ _ _ s); [|destruct (sl_pushing _ _ _ _ _ s)]; reflexivity.
      + rewrite G1, sampled_snoc, <- Hsm, F1. unfold sl_pushing. rewrite Hnb.
        destruct (sl_sample cpol cpha width with_len s) eqn:Es.
        * (* a sample *)
          cbn [negb andb]. rewrite !app_nil_r. fold k. exists chs, (pend ++ [p_dq (l_p2 _ _ s)]).
          cbn [l_cnt l_reg l_idx l_clk_r]. rewrite <- app_assoc.
          assert (Hlvl : l_clk_r _ _ s = negb (Bool.eqb cpol cpha) /\ p_clk (l_p2 _ _ s) = Bool.eqb cpol cpha).
          { unfold sl_sample, sl_rise, sl_fall, sl_mode in Es. destruct (Bool.eqb cpol cpha), (sl_en _ _ s), (l_clk_r _ _ s), (p_clk (l_p2 _ _ s)); auto; discriminate. }
          assert (Hlt : l_cnt _ _ s < nth k stages 0).
          { destruct (Z.eq_dec (l_cnt _ _ s) (nth k stages 0)) as [Eq|]; [|lia]. specialize (F9 Eq). rewrite (proj1 Hlvl) in F9.
            destruct (Bool.eqb cpol cpha); discriminate. }
          assert (Hle : l_cnt _ _ s + bw <= nth k stages 0).
          { destruct K2 as [q K2]. rewrite F3, K2 in Hlt |- *. assert (Z.of_nat (length pend) < q) by nia. nia. }
          assert (Hc : trunc (range_width (width + 1)) (l_cnt _ _ s + bw) = l_cnt _ _ s + bw) by (apply trunc_range_small; nia).
          rewrite Hc. split; [reflexivity|]. split; [exact F2|]. split; [rewrite app_length; cbn [length]; rewrite F3; lia|].
          split. { rewrite value_snoc, <- F4. unfold trunc.
            assert (0 <= l_cnt _ _ s) by (rewrite F3; nia).
            assert (Hpw : 2 ^ (l_cnt _ _ s + bw) = 2 ^ bw * 2 ^ (l_cnt _ _ s)) by (rewrite Z.add_comm, Z.pow_add_r by lia; reflexivity).
            assert (0 < 2 ^ bw) by (apply Z.pow_pos_nonneg; lia). assert (0 < 2 ^ l_cnt _ _ s) by (apply Z.pow_pos_nonneg; lia).
            rewrite <- Znumtheory.Zmod_div_mod; [|lia|apply Z.pow_pos_nonneg; lia|].
            2: { exists (2 ^ (width - (l_cnt _ _ s + bw))). rewrite <- Z.pow_add_r by lia. f_equal. lia. }
            rewrite Hpw, Z.rem_mul_r by lia. rewrite (Z.mul_comm (2 ^ bw) (l_reg _ _ s)), Z.mod_add, Z.div_add by lia.
            rewrite (Z.mod_small (p_dq _)), (Z.div_small (p_dq _)) by lia. rewrite Z.add_0_l. lia. }
          split; [exact F5|]. split; [exact F6|]. split; [exact F7|]. split; [lia|]. split; [intros _; apply Hlvl|].
          rewrite last_snoc. intros Hcs. exfalso. unfold sl_sample, sl_rise, sl_fall, sl_en in Es. rewrite Hcs in Es. destruct (sl_mode cpol cpha); discriminate.
        * cbn [negb andb]. rewrite app_nil_r.
          destruct ((l_cnt _ _ s =? nth k stages 0) || sl_end width with_len s) eqn:Ep.
          -- (* a push *)
             cbn [l_cnt l_reg l_idx l_clk_r]. exists (chs ++ [pend]), [].
             rewrite concat_app. cbn [concat length]. rewrite !app_nil_r, Z.mul_0_r.
             rewrite staged_snoc, stage_after_snoc. fold k. cbn [staged]. change (2 ^ 0) with 1. rewrite Z.mod_1_r.
             assert (Hpos : 0 < l_cnt _ _ s).
             { apply orb_prop in Ep. destruct Ep as [Ep|Ep]; [apply Z.eqb_eq in Ep; lia|].
               unfold sl_end in Ep. apply andb_prop in Ep. destruct Ep as [Ep _]. now apply Z.ltb_lt in Ep. }
             split; [reflexivity|]. split; [apply Forall2_app; [exact F2|]; repeat constructor; cbn [fst snd]; auto|].
             split; [reflexivity|]. split; [reflexivity|].
             split. { split; [exact F5|]. split; [lia|]. split; [|exact I]. intros He. rewrite He, orb_false_r in Ep. now apply Z.eqb_eq in Ep. }
             assert (0 < length stages)%nat by (destruct stages; [congruence|cbn; lia]).
             destruct (sl_end width with_len s).
             ++ split; [reflexivity|]. split; [assumption|]. pose proof (stage_ok 0 H). split; [lia|]. split; [lia|auto].
             ++ assert (Hk' : (Nat.min (S k) (length stages - 1) < length stages)%nat) by lia. pose proof (stage_ok _ Hk').
                split; [|split; [lia|split; [lia|split; [lia|auto]]]].
                destruct (Z.ltb_spec (l_idx _ _ s) (Z.of_nat (length stages) - 1)) as [Hlt|Hge]; rewrite F6 in *; [rewrite trunc_range_small by lia|]; lia.
          -- (* nothing *)
             cbn [l_cnt l_reg l_idx l_clk_r]. exists chs, pend. rewrite !app_nil_r. fold k. do 8 (split; [assumption || reflexivity|]).
             split; [intros Eq; exfalso; rewrite Eq, Z.eqb_refl in Ep; discriminate|].
             rewrite last_snoc. intros Hcs. apply orb_false_elim in Ep. destruct Ep as [_ Ep]. unfold sl_end, sl_en in Ep. rewrite Hcs in Ep. cbn in Ep.
             rewrite andb_true_r in Ep. apply Z.ltb_ge in Ep. destruct pend; [reflexivity|]. cbn [length] in F3. nia.
  Qed.

  Definition push_ok (o : sl_obs) : Prop :=
    match so_push o with
    | Some w => o_sink (so_fifo o) = Chan true (Beat false false (sl_payload width with_len (fst (fst w)) (snd (fst w)))) /\
                0 <= fst (fst w) < 2 ^ width /\ 0 <= snd (fst w) <= width
    | None => cvalid (o_sink (so_fifo o)) = false
    end.
  Lemma sl_push_ok ins : dq_ok (trace c ins) -> Forall push_ok (trace c ins).
  Proof.
    assert (Hw : 0 < width) by (destruct stages as [|n l]; [congruence|]; apply Forall_cons_iff in Hstages; lia).
    assert (H2w : 0 < 2 ^ width) by (apply Z.pow_pos_nonneg; lia).
    intros H. refine (proj1 (proj2 (run_inv_hyp c dq_ok (fun t s => (exists ins, t = trace c ins /\ s = state c ins) /\ Forall push_ok t /\ 0 <= l_reg _ _ s < 2 ^ width) _ _ _ ins H))); clear ins H.
    - intros t u H. unfold dq_ok in *. apply Forall_app in H. apply H.
    - split; [exists []; auto|]. split; [constructor|]. cbn. lia.
    - intros t s i Hdq ((ins & -> & ->) & IH & Hr).
      assert (Hd : dq_ok (trace c ins)) by (unfold dq_ok in *; apply Forall_app in Hdq; apply Hdq).
      destruct (sl_run ins Hd) as (_ & _ & chs & pend & F1 & F2 & F3 & F4 & F5 & F6 & F7 & F8 & F9 & F10).
      destruct (stage_ok _ F7) as [K1 K2].
      set (s := state c ins) in *.
      split; [exists (ins ++ [i]); unfold state in *; rewrite trace_app, state_from_app; now split|].
      split.
      + apply Forall_app. split; [exact IH|]. constructor; [|constructor]. unfold push_ok. cbn [cout spi_slave so_push so_fifo o_sink]. unfold sl_fsink.
        destruct (sl_pushing _ _ _ _ _ s); [|reflexivity]. cbn [fst snd]. split; [reflexivity|]. split; [exact Hr|]. split; [rewrite F3; nia|lia].
      + cbn [cnext spi_slave].
        destruct (if sl_load width with_len s then _ else _) as [[cnto rego] dqo].
        destruct (sl_sample _ _ _ _ s); [|destruct (sl_pushing _ _ _ _ _ s)]; cbn [l_reg]; auto. apply trunc_range. lia.
  Qed.
End Slave.

Definition stages_ok (width bw : Z) (stages : list Z) : Prop :=
  0 < bw /\ stages <> [] /\ Forall (fun n => 0 < n <= width /\ (bw | n)) stages.

(** C55: the pushed words, cut to their lengths, are exactly the data sampled while
    selected, in order; what is pending is less than a word, is empty once chip select
    was released, and the word lengths follow the stages. *)
Theorem C55_received : forall cpol cpha width bw with_len stages ins, stages_ok width bw stages ->
  let t := trace (spi_slave cpol cpha width bw with_len stages) ins in
  Forall (fun o => 0 <= p_dq (so_pins o) < 2 ^ bw) t ->
  exists words pending,
    sampled cpol cpha low (looked_at t) = concat words ++ pending /\
    Forall2 (fun ds w => snd (fst w) = bw * Z.of_nat (length ds) /\ fst (fst w) mod 2 ^ (snd (fst w)) = value bw ds) words (pushes t) /\
    staged stages 0 (pushes t) /\
    bw * Z.of_nat (length pending) <= nth (stage_after (length stages) 0 (pushes t)) stages 0 /\
    (p_cs_n (last (looked_at t) low) = true -> pending = []).
Proof.
  intros cpol cpha width bw wl stages ins (Hb & Hst & Hs) t Ht.
  destruct (sl_run cpol cpha width bw wl stages Hb Hst Hs ins Ht) as (_ & _ & chs & pend & F1 & F2 & F3 & F4 & F5 & F6 & F7 & F8 & F9 & F10).
  exists chs, pend. do 3 (split; [assumption|]). rewrite <- F3. auto.
Qed.

(** The words that leave the core, when the FIFO is ready at every push. *)
Theorem C55_delivered : forall cpol cpha width bw with_len stages ins, stages_ok width bw stages ->
  let t := trace (spi_slave cpol cpha width bw with_len stages) ins in
  Forall (fun o => 0 <= p_dq (so_pins o) < 2 ^ bw) t ->
  Forall (fun o => so_push o <> None -> o_sready (so_fifo o) = true) t ->
  exists held, map (fun w => if with_len then fst (fst w) + 2 ^ width * snd (fst w) else fst (fst w)) (pushes t) =
               map bdata (emitted (map so_fifo t)) ++ held /\ (length held <= 8)%nat.
Proof.
  intros cpol cpha width bw wl stages ins (Hb & Hst & Hs) t Ht Hrdy.
  assert (Hw : 0 < width). { destruct stages as [|n l]; [congruence|]. apply Forall_cons_iff in Hs. lia. }
  set (c := spi_slave cpol cpha width bw wl stages) in *.
  assert (Hpw : 0 <= sl_pw width wl) by (unfold sl_pw; pose proof (range_width_nonneg (width + 1)); destruct wl; lia).
  assert (Hp : exists ins', map so_fifo t = strace (sl_fifo width wl) ins').
  { eexists. exact (proj1 (part_trace c (scirc (sl_fifo width wl)) (fun o => (o_sink o, o_rready o)) (fun s => l_fifo _ _ s)
      (fun s i => (sl_fsink cpol cpha width wl stages s, sl_rready i)) so_fifo
      ltac:(intros ? [? ?]; reflexivity) eq_refl
      ltac:(intros s i; cbn [cnext c spi_slave]; destruct (sl_sample _ _ _ _ s); [|destruct (sl_pushing _ _ _ _ _ s)]; destruct (if sl_load _ _ s then _ else _) as [[? ?] ?]; reflexivity)
      ltac:(reflexivity) ins)). }
  destruct Hp as [ins' Hp].
  assert (Hpo := sl_push_ok cpol cpha width bw wl stages Hb Hst Hs ins Ht). fold c in Hpo. fold t in Hpo.
  assert (Hacc : accepted (map so_fifo t) = map (fun w => Beat false false (sl_payload width wl (fst (fst w)) (snd (fst w)))) (pushes t)).
  { clear -Hpo Hrdy. induction t as [|o t IH]; [reflexivity|].
    apply Forall_cons_iff in Hpo. destruct Hpo as [P1 P2]. apply Forall_cons_iff in Hrdy. destruct Hrdy as [R1 R2]. specialize (IH R2 P2).
    cbn [map]. change (so_fifo o :: map so_fifo t) with ([so_fifo o] ++ map so_fifo t). rewrite accepted_app, accepted_1, IH.
    change (pushes (o :: t)) with (match so_push o with Some w => [w] | None => [] end ++ pushes t).
    rewrite map_app. f_equal. unfold push_ok in P1. destruct (so_push o) as [w|].
    - destruct P1 as (P1 & _). rewrite P1, R1 by discriminate. reflexivity.
    - unfold xfer. now rewrite P1. }
  assert (Hr : Forall (fun b => 0 <= bdata b < 2 ^ sl_pw width wl) (accepted (map so_fifo t))).
  { rewrite Hacc. clear -Hpo Hw. induction t as [|o t IH]; [constructor|].
    apply Forall_cons_iff in Hpo. destruct Hpo as [P1 P2]. specialize (IH P2).
    change (pushes (o :: t)) with (match so_push o with Some w => [w] | None => [] end ++ pushes t).
    rewrite map_app. apply Forall_app. split; [|exact IH]. unfold push_ok in P1. destruct (so_push o) as [w|]; [|constructor].
    constructor; [|constructor]. cbn [bdata]. unfold sl_payload, sl_pw. destruct P1 as (_ & P1 & P3). destruct wl; [|exact P1].
    pose proof (range_width_bound (width + 1) ltac:(lia)). rewrite Z.pow_add_r by (pose proof (range_width_nonneg (width + 1)); lia). nia. }
  rewrite Hp in Hr. destruct (C19_sync_fifo_lossless (sl_pw width wl) 8 true ins' Hpw Hr) as (held & X1 & X2).
  unfold sl_fifo in *. rewrite <- Hp, Hacc in X1. exists (map bdata held). split.
  - rewrite <- map_app, <- X1, map_map. reflexivity.
  - rewrite map_length. lia.
Qed.

(** ** C56: every frame starts with the first stage *)
(** The words pushed once the line was deselected follow the stages from the first. *)
Definition restarts (cpol cpha : bool) (width bw : Z) (wl : bool) (stages : list Z) : Prop :=
  forall ins1 ins2, let c := spi_slave cpol cpha width bw wl stages in
    Forall (fun o => 0 <= p_dq (so_pins o) < 2 ^ bw) (trace c (ins1 ++ ins2)) ->
    p_cs_n (last (looked_at (trace c ins1)) low) = true ->
    exists ws, pushes (trace c (ins1 ++ ins2)) = pushes (trace c ins1) ++ ws /\ staged stages 0 ws.

Lemma staged_app stages i a b : staged stages i (a ++ b) <-> staged stages i a /\ staged stages (stage_after (length stages) i a) b.
Proof. revert i. induction a as [|[[d l] e] a IH]; intros i; cbn [app staged stage_after]; [tauto|]. rewrite IH. tauto. Qed.

(** A clock pulse at 4 cycles per level, with the given data bit. *)
Definition pulse_in (cpol : bool) (snk : chan (Z * Z)) (d : Z) : list sl_in :=
  repeat (SlIn (Pins (negb cpol) false d) snk true) 4 ++ repeat (SlIn (Pins cpol false d) snk true) 4.
Definition frame_in (cpol : bool) (snk : chan (Z * Z)) (ds : list Z) : list sl_in :=
  repeat (SlIn (Pins cpol false 0) snk true) 4 ++ flat_map (pulse_in cpol snk) ds ++ repeat (SlIn (Pins cpol true 0) snk true) 4.
Definition no_word : chan (Z * Z) := Chan false (Beat false false (0, 0)).

Theorem C56_refuted : ~ (forall cpol cpha width bw wl stages, stages_ok width bw stages -> restarts cpol cpha width bw wl stages).
Proof.
  intros H.
  assert (Hs : stages_ok 16 1 [8; 16]).
  { split; [lia|]. split; [discriminate|]. repeat constructor; try lia; [exists 8; reflexivity|exists 16; reflexivity]. }
  specialize (H false false 16 1 true [8; 16] Hs (frame_in false no_word [1;0;1;0;1;0;1;0]) (frame_in false no_word [1;1;1;1;0;0;0;0;1;0;1;0;1;1;1;1])).
  cbv zeta in H. destruct H as (ws & E & S).
  { assert (X : forallb (fun o => (0 <=? p_dq (so_pins o)) && (p_dq (so_pins o) <? 2))
       (trace (spi_slave false false 16 1 true [8; 16]) (frame_in false no_word [1;0;1;0;1;0;1;0] ++ frame_in false no_word [1;1;1;1;0;0;0;0;1;0;1;0;1;1;1;1])) = true) by (vm_compute; reflexivity).
    apply Forall_forall. intros o Ho. rewrite forallb_forall in X. specialize (X o Ho). change (2 ^ 1) with 2. lia. }
  { vm_compute. reflexivity. }
  assert (P1 : pushes (trace (spi_slave false false 16 1 true [8; 16]) (frame_in false no_word [1;0;1;0;1;0;1;0])) = [(170, 8, false)]) by (vm_compute; reflexivity).
  assert (P2 : pushes (trace (spi_slave false false 16 1 true [8; 16]) (frame_in false no_word [1;0;1;0;1;0;1;0] ++ frame_in false no_word [1;1;1;1;0;0;0;0;1;0;1;0;1;1;1;1])) = [(170, 8, false); (61615, 16, false)]) by (vm_compute; reflexivity).
  rewrite P1, P2 in E. cbn [app] in E. injection E as <-. cbn [staged nth] in S. lia.
Qed.

(** It does restart when chip select cut the frame inside a word, and always when there
    is a single stage. *)
Theorem C56_cut_frame_partial : forall cpol cpha width bw wl stages ins1 ins2 d len ws1,
  stages_ok width bw stages ->
  let c := spi_slave cpol cpha width bw wl stages in
  Forall (fun o => 0 <= p_dq (so_pins o) < 2 ^ bw) (trace c (ins1 ++ ins2)) ->
  pushes (trace c ins1) = ws1 ++ [(d, len, true)] ->
  exists ws, pushes (trace c (ins1 ++ ins2)) = pushes (trace c ins1) ++ ws /\ staged stages 0 ws.
Proof.
  intros cpol cpha width bw wl stages ins1 ins2 d len ws1 Hok c Hdq E.
  destruct (C55_received cpol cpha width bw wl stages (ins1 ++ ins2) Hok Hdq) as (w & pend & _ & _ & S & _).
  fold c in S. rewrite trace_app in *. unfold pushes in S |- *. rewrite flat_map_app in *. eexists. split; [reflexivity|].
  apply staged_app in S. destruct S as [_ S]. fold (pushes (trace c ins1)) in S. rewrite E in S.
  rewrite stage_after_snoc in S. exact S.
Qed.
Theorem C56_single_stage_partial : forall cpol cpha width bw wl n, stages_ok width bw [n] -> restarts cpol cpha width bw wl [n].
Proof.
  intros cpol cpha width bw wl n Hok ins1 ins2 c Hdq _.
  destruct (C55_received cpol cpha width bw wl [n] (ins1 ++ ins2) Hok Hdq) as (w & pend & _ & _ & S & _).
  fold c in S. rewrite trace_app in *. unfold pushes in S |- *. rewrite flat_map_app in *. eexists. split; [reflexivity|].
  apply staged_app in S. destruct S as [_ S].
  assert (G : forall ws, stage_after (length [n]) 0 ws = 0%nat).
  { induction ws as [|[[? ?] e] ws IH]; [reflexivity|]. cbn [stage_after length]. cbn. destruct e; exact IH. }
  rewrite G in S. exact S.
Qed.

(** ** C92: the master reads the word most significant bits first *)
Definition bit_list (n : nat) (w : Z) : list Z := map (fun k => Z.b2z (Z.testbit w (Z.of_nat (n - 1 - k)))) (seq 0 n).
(** A frame of 8 slow clock pulses with a word waiting since before the frame. *)
Definition miso_frame_ok (cpol cpha : bool) : Prop :=
  forall w, 0 <= w < 2 ^ 8 ->
  let snk := Chan true (Beat false false (w, 8)) in
  master_reads cpol cpha (Pins cpol true 0)
    (trace (spi_slave cpol cpha 8 1 false [8])
       (repeat (SlIn (Pins cpol true 0) snk true) 4 ++ frame_in cpol snk (repeat 0 8))) = bit_list 8 w.

Theorem C92_refuted : ~ (forall cpol cpha, miso_frame_ok cpol cpha).
Proof. intros H. specialize (H false false 128 ltac:(lia)). vm_compute in H. discriminate. Qed.

Lemma updates_snoc cpol cpha p l q : updates cpol cpha p (l ++ [q]) =
  updates cpol cpha p l + (if update_edge cpol cpha (last l p) q then 1 else 0).
Proof.
  revert p. induction l as [|x l IH]; intros p; [cbn; lia|].
  cbn [app updates]. rewrite IH.
  assert (G : last l x = last (x :: l) p).
  { destruct l as [|y l]; [reflexivity|]. change (last (x :: y :: l) p) with (last (y :: l) p). apply last_dflt. }
  rewrite G. lia.
Qed.
Lemma updates_nonneg cpol cpha p l : 0 <= updates cpol cpha p l.
Proof. revert p. induction l as [|x l IH]; intros p; cbn [updates]; [lia|]. specialize (IH x). destruct (update_edge _ _ _ _); lia. Qed.

Lemma chunk_step width bw d len k : 0 < bw -> 0 < width -> len <= width -> 0 <= k -> bw * (k + 1) <= len ->
  trunc bw (Z.shiftr (trunc width (Z.shiftl d (width - len + bw * k))) (width - bw)) = Z.shiftr d (len - bw * (k + 1)) mod 2 ^ bw.
Proof.
  intros. unfold trunc. apply Z.bits_inj'. intros n Hn.
  destruct (Z.ltb_spec n bw) as [Hlt|Hge].
  - rewrite !Z.mod_pow2_bits_low by lia. rewrite !Z.shiftr_spec by lia. rewrite Z.mod_pow2_bits_low by lia.
    rewrite Z.shiftl_spec by lia. f_equal. lia.
  - now rewrite !Z.mod_pow2_bits_high by lia.
Qed.

Section Miso.
  Context (cpol cpha : bool) (width bw : Z) (with_len : bool) (stages : list Z).
  Context (Hbw : 0 < bw) (Hw : 0 < width).
  Notation c := (spi_slave cpol cpha width bw with_len stages).

  Definition word_len (o : sl_obs) : Z := if with_len then snd (bdata (cbeat (so_sink o))) else width.
  Definition since_edges (t1 : list sl_obs) (o : sl_obs) (t2 : list sl_obs) : Z :=
    updates cpol cpha (last (looked_at (t1 ++ [o])) low) (skipn (length (t1 ++ [o])) (looked_at (t1 ++ o :: t2))).
  Definition all_selected (t1 : list sl_obs) (o : sl_obs) (t2 : list sl_obs) : Prop :=
    Forall (fun q => p_cs_n q = false) (skipn (length (t1 ++ [o])) (looked_at (t1 ++ o :: t2))).
  Definition loaded (o : sl_obs) : Prop :=
    cvalid (so_sink o) = true /\ so_sready o = true /\ 0 < word_len o <= width /\ (bw | word_len o).

  Definition mi_inv (t : list sl_obs) (s : sl_state width with_len) : Prop :=
    low :: low :: map so_pins t = looked_at t ++ [l_p2 _ _ s; l_p1 _ _ s] /\
    l_clk_r _ _ s = p_clk (last (looked_at t) low) /\
    (forall t1 o t2, t = t1 ++ o :: t2 -> loaded o -> all_selected t1 o t2 ->
       let k := since_edges t1 o t2 in
       bw * k <= word_len o ->
       (bw * k < word_len o -> l_cnto _ _ s = word_len o - bw * k /\
          l_rego _ _ s = trunc width (Z.shiftl (fst (bdata (cbeat (so_sink o)))) (width - word_len o + bw * k))) /\
       (0 < k -> l_dqo _ _ s = Z.shiftr (fst (bdata (cbeat (so_sink o)))) (word_len o - bw * k) mod 2 ^ bw)) /\
    (forall t1 o t2 o', t = t1 ++ o :: t2 ++ [o'] -> loaded o -> all_selected t1 o t2 ->
       let k := since_edges t1 o t2 in
       bw * k <= word_len o ->
       (bw * k < word_len o -> so_sready o' = false) /\
       (0 < k -> so_dq_o o' = Z.shiftr (fst (bdata (cbeat (so_sink o)))) (word_len o - bw * k) mod 2 ^ bw)).

  Lemma looked_len t : length (looked_at t) = length t.
  Proof. unfold looked_at. rewrite firstn_length. cbn [length]. rewrite map_length. lia. Qed.

  Lemma mi_run ins : mi_inv (trace c ins) (state c ins).
  Proof.
    revert ins. apply (run_inv c mi_inv).
    - split; [reflexivity|]. split; [reflexivity|]. split; intros t1 o t2; [|intros o']; intros E; destruct t1; discriminate.
    - intros t s i (E1 & E2 & E3 & E4).
      set (o := cout c s i) in *.
      assert (O1 : so_pins o = sl_pins i) by reflexivity.
      assert (O2 : so_sink o = sl_sink i) by reflexivity.
      assert (O3 : so_sready o = sl_load width with_len s) by reflexivity.
      assert (O4 : so_dq_o o = l_dqo _ _ s) by reflexivity.
      destruct (looked_snoc t o _ _ E1) as [G1 G2].
      assert (Hup : sl_update cpol cpha width with_len s = update_edge cpol cpha (last (looked_at t) low) (l_p2 _ _ s)).
      { unfold sl_update, update_edge, sl_rise, sl_fall, sl_en, sl_mode. rewrite E2. destruct (Bool.eqb cpol cpha); now rewrite !andb_assoc. }
      clearbody o.
      assert (N : exists n cnto rego dqo, cnext c s i = n /\ l_p1 _ _ n = sl_pins i /\ l_p2 _ _ n = l_p1 _ _ s /\ l_clk_r _ _ n = p_clk (l_p2 _ _ s) /\
                (cnto, rego, dqo) = (if sl_load width with_len s then 
                   if cvalid (sl_sink i) then (trunc (range_width (width + 1)) (sl_wdlen width with_len (sl_sink i)),
                      trunc width (Z.shiftl (fst (bdata (cbeat (sl_sink i)))) (width - sl_wdlen width with_len (sl_sink i))), l_dqo _ _ s)
                   else (l_cnto _ _ s, l_rego _ _ s, l_dqo _ _ s)
                 else if sl_update cpol cpha width with_len s then
                   (if 0 <? l_cnto _ _ s then trunc (range_width (width + 1)) (l_cnto _ _ s - bw) else l_cnto _ _ s,
                    trunc width (2 ^ bw * l_rego _ _ s), trunc bw (Z.shiftr (l_rego _ _ s) (width - bw)))
                 else if sl_en _ _ s then (l_cnto _ _ s, l_rego _ _ s, l_dqo _ _ s) else (0, l_rego _ _ s, l_dqo _ _ s)) /\
                l_cnto _ _ n = cnto /\ l_rego _ _ n = rego /\ l_dqo _ _ n = dqo).
      { cbn [cnext spi_slave]. destruct (if sl_load width with_len s then _ else _) as [[cnto rego] dqo]. 
        destruct (sl_sample _ _ _ _ s); [|destruct (sl_pushing _ _ _ _ _ s)]; eexists _, cnto, rego, dqo; cbn [l_p1 l_p2 l_clk_r l_cnto l_rego l_dqo]; repeat split. }
      destruct N as (n & cnto & rego & dqo & -> & N1 & N2 & N3 & N4 & N5 & N6 & N7).
      split; [rewrite G2, N1, N2, O1; reflexivity|]. split; [rewrite G1, last_snoc, N3; reflexivity|].
      split.
      + intros t1 o1 t2 E HL Hsel k Hk.
        destruct t2 as [|x t2 _] using rev_ind.
        * apply app_inj_tail in E. destruct E as [<- <-].
          assert (Hk0 : k = 0) by (subst k; unfold since_edges; rewrite <- looked_len, skipn_all; reflexivity).
          rewrite Hk0 in *. split; [|lia]. intros _. destruct HL as (L1 & L2 & L3 & L4). rewrite O3 in L2. rewrite O2 in L1. rewrite L2, L1 in N4.
          injection N4 as -> -> ->. change (word_len o) with (sl_wdlen width with_len (so_sink o)) in *. rewrite O2 in *. rewrite N5, N6. rewrite trunc_range_small by lia. rewrite Z.mul_0_r, Z.add_0_r, Z.sub_0_r. auto.
        * rewrite app_comm_cons, app_assoc in E. apply app_inj_tail in E. destruct E as [-> <-].
          assert (Hskip : skipn (length (t1 ++ [o1])) (looked_at (t1 ++ o1 :: t2 ++ [o])) = skipn (length (t1 ++ [o1])) (looked_at (t1 ++ o1 :: t2)) ++ [l_p2 _ _ s]).
          { rewrite app_comm_cons, app_assoc, G1, skipn_app. f_equal. 
            replace (length (t1 ++ [o1]) - length (looked_at (t1 ++ o1 :: t2)))%nat with 0%nat; [reflexivity|].
            rewrite looked_len, !app_length. cbn [length]. lia. }
          assert (Hlast : last (skipn (length (t1 ++ [o1])) (looked_at (t1 ++ o1 :: t2))) (last (looked_at (t1 ++ [o1])) low) = last (looked_at (t1 ++ o1 :: t2)) low).
          { assert (Hpre : looked_at (t1 ++ o1 :: t2) = looked_at (t1 ++ [o1]) ++ skipn (length (t1 ++ [o1])) (looked_at (t1 ++ o1 :: t2))).
            { rewrite <- (firstn_skipn (length (t1 ++ [o1])) (looked_at (t1 ++ o1 :: t2))) at 1. f_equal.
              unfold looked_at. rewrite firstn_firstn. rewrite !app_length. cbn [length].
              replace (Nat.min (length t1 + 1) (length t1 + S (length t2))) with (length t1 + 1)%nat by lia.
              replace (t1 ++ o1 :: t2) with ((t1 ++ [o1]) ++ t2) by now rewrite <- app_assoc.
              rewrite map_app. rewrite !app_comm_cons. rewrite firstn_app.
              replace (length t1 + 1 - length (low :: low :: map so_pins (t1 ++ [o1])))%nat with 0%nat; [now rewrite firstn_O, app_nil_r|].
              cbn [length]. rewrite map_length, app_length. cbn [length]. lia. }
            rewrite Hpre at 2. generalize (skipn (length (t1 ++ [o1])) (looked_at (t1 ++ o1 :: t2))) (looked_at (t1 ++ [o1])).
            intros a b. destruct a as [|x a _] using rev_ind; [now rewrite app_nil_r|]. now rewrite app_assoc, !last_snoc. }
          assert (Hk' : k = since_edges t1 o1 t2 + (if sl_update cpol cpha width with_len s then 1 else 0)).
          { unfold k, since_edges. rewrite Hskip, updates_snoc, Hlast, <- Hup. reflexivity. }
          unfold all_selected in Hsel. rewrite Hskip in Hsel. apply Forall_app in Hsel. destruct Hsel as [Hsel Hen]. apply Forall_cons_iff in Hen. destruct Hen as [Hen _].
          pose proof (updates_nonneg cpol cpha (last (looked_at (t1 ++ [o1])) low) (skipn (length (t1 ++ [o1])) (looked_at (t1 ++ o1 :: t2)))) as Hnn.
          fold (since_edges t1 o1 t2) in Hnn.
          set (k0 := since_edges t1 o1 t2) in *. clearbody k. 
          assert (Hk0 : bw * k0 <= word_len o1) by (destruct (sl_update _ _ _ _ s); nia).
          destruct (E3 t1 o1 t2 eq_refl HL Hsel Hk0) as [X1 X2]. fold k0 in X1, X2.
          assert (Hen' : sl_en width with_len s = true) by (unfold sl_en; now rewrite Hen).
          destruct HL as (_ & _ & HL1 & HL2).
          rewrite N5, N6, N7. unfold sl_load in N4. rewrite Hen' in N4. cbn [andb] in N4.
          destruct (Z.eq_dec (bw * k0) (word_len o1)) as [Heq|Hne].
          -- (* the word was finished *)
             assert (Hnu : sl_update cpol cpha width with_len s = false) by (destruct (sl_update _ _ _ _ s); [exfalso; nia|reflexivity]).
             rewrite Hnu in *. rewrite Z.add_0_r in Hk'. subst k. split; [lia|]. intros Hpos.
             assert (dqo = l_dqo _ _ s) as -> by (destruct (_ =? 0); [destruct (cvalid _)|]; injection N4; auto). auto.
          -- destruct (X1 ltac:(lia)) as [Y1 Y2].
             destruct (Z.eqb_spec (l_cnto _ _ s) 0) as [|_]; [lia|].
             destruct (sl_update cpol cpha width with_len s).
             ++ subst k. assert (bw * (k0 + 1) <= word_len o1) by lia.
                destruct (Z.ltb_spec 0 (l_cnto _ _ s)) as [_|]; [|lia]. injection N4 as -> -> ->.
                rewrite Y1, Y2. rewrite trunc_range_small by nia. split; [intros _; split; [lia|]|intros _].
                ** unfold trunc. rewrite Z.mul_mod_idemp_r by (apply Z.pow_nonzero; lia).
                   rewrite !Z.shiftl_mul_pow2 by nia. f_equal. rewrite Z.mul_add_distr_l, Z.mul_1_r, Z.add_assoc, (Z.pow_add_r 2 (_ + _) bw) by nia. lia.
                ** apply chunk_step; try lia.
             ++ rewrite Z.add_0_r in Hk'. subst k. injection N4 as -> -> ->. auto.
      + intros t1 o1 t2 o' E HL Hsel k Hk.
        rewrite app_comm_cons, app_assoc in E. apply app_inj_tail in E. destruct E as [-> <-].
        destruct (E3 t1 o1 t2 eq_refl HL Hsel Hk) as [X1 X2]. fold k in X1, X2.
        rewrite O3, O4. split; [|exact X2]. intros Hlt. destruct (X1 Hlt) as [Y1 _]. unfold sl_load.
        destruct (Z.eqb_spec (l_cnto _ _ s) 0) as [|_]; [lia|]. apply andb_false_r.
  Qed.
End Miso.

(** Once a word is taken, and as long as the slave stays selected, the data lines show
    its most significant [bw] bits after the first update edge, the next ones after the
    second, and so on to the last ones; no other word is taken meanwhile. *)
Theorem C92_update_edges_partial : forall cpol cpha width bw with_len stages ins t1 o t2 o' t3,
  0 < bw -> 0 < width ->
  trace (spi_slave cpol cpha width bw with_len stages) ins = t1 ++ o :: t2 ++ o' :: t3 ->
  let d := fst (bdata (cbeat (so_sink o))) in
  let len := if with_len then snd (bdata (cbeat (so_sink o))) else width in
  cvalid (so_sink o) = true -> so_sready o = true -> 0 < len <= width -> (bw | len) ->
  let p := last (looked_at (t1 ++ [o])) low in
  let after := skipn (length (t1 ++ [o])) (looked_at (t1 ++ o :: t2)) in
  Forall (fun q => p_cs_n q = false) after ->
  let k := updates cpol cpha p after in
  bw * k <= len ->
  (0 < k -> so_dq_o o' = Z.shiftr d (len - bw * k) mod 2 ^ bw) /\
  (bw * k < len -> so_sready o' = false).
Proof.
  intros cpol cpha width bw wl stages ins t1 o t2 o' t3 Hb Hw E d len H1 H2 H3 H4 p after H5 k H6.
  assert (E' : trace (spi_slave cpol cpha width bw wl stages) ins = (t1 ++ o :: t2 ++ [o']) ++ t3).
  { rewrite E, <- app_assoc. cbn [app]. now rewrite <- app_assoc. }
  destruct (trace_cut_from _ _ _ _ _ E') as (i1 & i2 & -> & Et & _).
  destruct (mi_run cpol cpha width bw wl stages Hb Hw i1) as (_ & _ & _ & X).
  destruct (X t1 o t2 o' Et) as [Y1 Y2].
  - unfold loaded, word_len, sl_wdlen. auto.
  - exact H5.
  - exact H6.
  - split; assumption.
Qed.

(** With CPHA = 1 the update edge comes first: a waiting word is read correctly. *)
Example C92_cpha1 : map (fun w => let snk := Chan true (Beat false false (w, 8)) in
  master_reads false true (Pins false true 0)
    (trace (spi_slave false true 8 1 false [8])
       (repeat (SlIn (Pins false true 0) snk true) 4 ++ frame_in false snk (repeat 0 8)))) [128; 165; 1]
  = [bit_list 8 128; bit_list 8 165; bit_list 8 1].
Proof. vm_compute. reflexivity. Qed.
(** A word cut by chip select, then a full first stage and a full second stage. *)
Example C55_nonvacuous :
  let t := trace (spi_slave false false 16 1 true [8; 16]) (frame_in false no_word [1;1;0] ++ frame_in false no_word [1;0;1;0;1;0;1;0;1;1;1;1;0;0;0;0;1;0;1;0;1;1;1;1]) in
  pushes t = [(6, 3, true); (170 + 6 * 256, 8, false); (61615, 16, false)] /\
  sampled false false low (looked_at t) = [1;1;0;1;0;1;0;1;0;1;0;1;1;1;1;0;0;0;0;1;0;1;0;1;1;1;1] /\
  forallb (fun o => match so_push o with None => true | _ => o_sready (so_fifo o) end) t = true.
Proof. vm_compute. repeat split. Qed.

(** A frame cut after three bits, then a frame of 24: the stages start anew. *)
Example C56_nonvacuous :
  let c := spi_slave false false 16 1 true [8; 16] in
  let a := frame_in false no_word [1;1;0] in let b := frame_in false no_word [1;0;1;0;1;0;1;0;1;1;1;1;0;0;0;0;1;0;1;0;1;1;1;1] in
  stages_ok 16 1 [8; 16] /\ forallb (fun o => (0 <=? p_dq (so_pins o)) && (p_dq (so_pins o) <? 2)) (trace c (a ++ b)) = true /\
  pushes (trace c a) = [(6, 3, true)] /\ map (fun w => snd (fst w)) (pushes (trace c (a ++ b))) = [3; 8; 16] /\ stages_ok 16 1 [8].
Proof.
  cbv zeta. split; [split; [lia|]; split; [discriminate|]; repeat constructor; try lia; try (exists 8; lia); try (exists 16; lia)|].
  split; [vm_compute; reflexivity|]. split; [vm_compute; reflexivity|]. split; [vm_compute; reflexivity|].
  split; [lia|]; split; [discriminate|]; repeat constructor; try lia; try (exists 8; lia).
Qed.

Print Assumptions C55_received.
Print Assumptions C55_delivered.
Print Assumptions C56_refuted.
Print Assumptions C56_cut_frame_partial.
Print Assumptions C56_single_stage_partial.
Print Assumptions C92_refuted.
Print Assumptions C92_update_edges_partial.
