From Verif Require Import Hdl Timer_model.

(** Number of consecutive [true] at the end of a history. *)
Definition trail_step (n : Z) (b : bool) : Z := if b then n + 1 else 0.
Definition trail (h : list bool) : Z := fold_left trail_step h 0.

Lemma trail_snoc h b : trail (h ++ [b]) = if b then trail h + 1 else 0.
Proof. unfold trail. rewrite fold_left_app. reflexivity. Qed.

Lemma trail_nonneg h : 0 <= trail h.
Proof. induction h using rev_ind; [unfold trail; simpl; lia|]. rewrite trail_snoc. destruct x; lia. Qed.

Lemma repeat_snoc {X} (x : X) n : repeat x (S n) = repeat x n ++ [x].
Proof. induction n; simpl in *; auto. now rewrite <- IHn. Qed.

Lemma trail_spec h t : 0 <= t ->
  (t <= trail h <-> exists a, h = a ++ repeat true (Z.to_nat t)).
Proof.
  revert t. induction h as [|b h IH] using rev_ind; intros t Ht.
  - unfold trail; simpl. split.
    + intros. exists []. replace t with 0 by lia. reflexivity.
    + intros [a H]. symmetry in H. apply app_eq_nil in H. destruct H as [_ H].
      destruct (Z.to_nat t) eqn:E; [lia|discriminate].
  - rewrite trail_snoc. destruct (Z.eqb_spec t 0).
    + subst. split.
      * intros _. exists (h ++ [b]). simpl. now rewrite app_nil_r.
      * intros _. pose proof (trail_nonneg h). destruct b; lia.
    + assert (E : repeat true (Z.to_nat t) = repeat true (Z.to_nat (t - 1)) ++ [true]).
      { rewrite <- repeat_snoc. f_equal. lia. }
      rewrite E. split.
      * destruct b; [|lia]. intros H. destruct (proj1 (IH (t - 1) ltac:(lia)) ltac:(lia)) as [a ->].
        exists a. now rewrite app_assoc.
      * intros [a H]. rewrite app_assoc in H. apply app_inj_tail in H. destruct H as [-> ->].
        assert (t - 1 <= trail (a ++ repeat true (Z.to_nat (t-1)))); [|lia].
        apply IH; [lia|]. eauto.
Qed.

Definition wt_inv (t : Z) (tr : list wt_obs) (count : Z) : Prop :=
  count = Z.max 0 (t - trail (map wo_wait tr)).

Lemma wt_inv_step t tr s w : 0 <= t ->
  wt_inv t tr s -> wt_inv t (tr ++ [WtObs w (wt_done s)]) (wt_next t s w).
Proof.
  intros Ht IH. unfold wt_inv in *. rewrite map_app. cbn. rewrite trail_snoc.
  pose proof (trail_nonneg (map wo_wait tr)). unfold wt_next, wt_done.
  destruct w; [|lia].
  destruct (Z.eqb_spec s 0); cbn; [lia|]. rewrite trunc_range_small by lia. lia.
Qed.

Lemma wt_inv_run t ins : 0 <= t -> wt_inv t (trace (wait_timer t) ins) (state (wait_timer t) ins).
Proof.
  intros Ht. apply (run_inv (wait_timer t) (wt_inv t)).
  - unfold wt_inv, trail; cbn. lia.
  - intros. cbn. now apply wt_inv_step.
Qed.

(** The closed form of the counter, for users of the timer model. *)
Definition wt_count (t : Z) (h : list bool) : Z := fold_left (wt_next t) h t.
Lemma wt_count_closed t h : 0 <= t -> wt_count t h = Z.max 0 (t - trail h).
Proof.
  intros Ht. induction h as [|w h IH] using rev_ind.
  - unfold wt_count, trail; simpl. lia.
  - unfold wt_count. rewrite fold_left_app. cbn. fold (wt_count t h). rewrite IH, trail_snoc.
    pose proof (trail_nonneg h). unfold wt_next, wt_done.
    destruct w; [|lia]. destruct (Z.eqb_spec (Z.max 0 (t - trail h)) 0); cbn; [lia|].
    rewrite trunc_range_small by lia. lia.
Qed.

Lemma wt_exact t ins t1 o t2 : 0 <= t ->
  trace (wait_timer t) ins = t1 ++ o :: t2 ->
  (wo_done o = true <-> exists a, map wo_wait t1 = a ++ repeat true (Z.to_nat t)).
Proof.
  intros Ht H. apply trace_one in H. destruct H as (a & w & b & -> & <- & ->). cbn.
  pose proof (wt_inv_run t a Ht) as Hi. unfold wt_inv in Hi. cbn in Hi. rewrite Hi.
  unfold wt_done. rewrite Z.eqb_eq, <- trail_spec by auto. lia.
Qed.

(* ---------------- WaitNTimer ---------------- *)
Lemma wn_max_ge ts x : In x ts -> x <= wn_max ts.
Proof.
  intros H. unfold wn_max. induction ts; simpl in *; [contradiction|].
  destruct H; [subst; lia|]. specialize (IHts H). lia.
Qed.

Definition onehot (n i : nat) : list bool := map (fun j => Nat.eqb j i) (seq 0 n).

Lemma existsb_onehot n i : existsb (fun b => b) (onehot n i) = (Nat.ltb i n).
Proof.
  unfold onehot. destruct (Nat.ltb_spec i n).
  - apply existsb_exists. exists true. split; auto. apply in_map_iff. exists i. split.
    + apply Nat.eqb_refl.
    + apply in_seq. lia.
  - destruct (existsb _ _) eqn:E; auto. apply existsb_exists in E. destruct E as (x & Hx & ->).
    apply in_map_iff in Hx. destruct Hx as (j & Hj & Hin). apply Nat.eqb_eq in Hj. apply in_seq in Hin. lia.
Qed.

Lemma wn_done_onehot_aux ts k c i t :
  nth_error ts i = Some t ->
  existsb (fun p => snd p && (c =? fst p)) (combine ts (map (fun j => Nat.eqb j (k + i)) (seq k (length ts)))) = (c =? t).
Proof.
  revert k i. induction ts as [|x ts IH]; intros k i Hi; [destruct i; discriminate|].
  simpl. destruct i as [|i].
  - simpl in Hi. injection Hi as ->. rewrite Nat.add_0_r, Nat.eqb_refl. simpl.
    destruct (c =? t); simpl; auto.
    destruct (existsb _ _) eqn:E; auto. apply existsb_exists in E. destruct E as ([a b] & Hin & Hb).
    apply in_combine_r in Hin. apply in_map_iff in Hin. destruct Hin as (j & Hj & Hs).
    apply in_seq in Hs. simpl in Hb. apply andb_true_iff in Hb. destruct Hb as [-> _].
    apply Nat.eqb_eq in Hj. lia.
  - simpl in Hi. replace (Nat.eqb k (k + S i)) with false by (symmetry; apply Nat.eqb_neq; lia).
    simpl. replace (k + S i)%nat with (S k + i)%nat by lia. apply IH; auto.
Qed.

Lemma wn_done_onehot ts c i t : nth_error ts i = Some t ->
  wn_done ts c (onehot (length ts) i) = (c =? t).
Proof. intros. unfold wn_done, onehot. apply (wn_done_onehot_aux ts 0 c i t H). Qed.

Lemma wn_count_after ts i t j : (forall x, In x ts -> 0 <= x) -> nth_error ts i = Some t ->
  state_from (wait_n_timer ts) 0 (repeat (onehot (length ts) i) j) = Z.min t (Z.of_nat j).
Proof.
  intros Hts Hi. assert (Ht : 0 <= t) by (apply Hts; eapply nth_error_In; eauto).
  assert (Hm : t <= wn_max ts) by (apply wn_max_ge; eapply nth_error_In; eauto).
  assert (Hlt : (i < length ts)%nat) by (apply nth_error_Some; congruence).
  induction j.
  - simpl. lia.
  - rewrite repeat_snoc, state_from_app, IHj. cbn [state_from wait_n_timer cnext]. unfold wn_next.
    rewrite existsb_onehot. destruct (Nat.ltb_spec i (length ts)); [|lia].
    rewrite (wn_done_onehot ts _ i t Hi). destruct (Z.eqb_spec (Z.min t (Z.of_nat j)) t); cbn [negb].
    + lia.
    + rewrite trunc_range_small by lia. lia.
Qed.

(* ---------------- phase accumulator ---------------- *)
Definition count_true (l : list bool) : Z := fold_right (fun (b : bool) (n : Z) => (if b then 1 else 0) + n) 0 l.

Lemma count_true_app a b : count_true (a ++ b) = count_true a + count_true b.
Proof. induction a; simpl; auto. rewrite IHa. lia. Qed.

Lemma acc_step a tw : 0 <= tw <= 2 ^ 32 -> 0 <= a < 2 ^ 32 ->
  (if Z.odd ((a + tw) / 2 ^ 32) then 1 else 0) = (a + tw) / 2 ^ 32 /\ 0 <= trunc 32 (a + tw) < 2 ^ 32 /\
  trunc 32 (a + tw) = a + tw - 2 ^ 32 * ((a + tw) / 2 ^ 32).
Proof.
  intros Htw Ha.
  assert (H0 : 0 <= (a + tw) / 2 ^ 32) by (apply Z.div_pos; lia).
  assert (H1 : (a + tw) / 2 ^ 32 < 2) by (apply Z.div_lt_upper_bound; lia).
  split; [|split].
  - assert (E : (a + tw) / 2 ^ 32 = 0 \/ (a + tw) / 2 ^ 32 = 1) by lia. destruct E as [-> | ->]; reflexivity.
  - apply trunc_range. lia.
  - unfold trunc. rewrite Z.mod_eq by lia. reflexivity.
Qed.

Lemma pc_rate tw s N : 0 <= tw <= 2 ^ 32 -> 0 <= pc_acc s < 2 ^ 32 ->
  count_true (map pco_o (tl (trace_from (pulse_clock tw) s (repeat false (S N))))) =
  (pc_acc s + Z.of_nat N * tw) / 2 ^ 32.
Proof.
  intros Htw. revert s. induction N as [|N IH]; intros s Ha.
  - cbn -[Z.pow]. rewrite Z.add_0_r, Z.div_small by lia. reflexivity.
  - destruct (acc_step (pc_acc s) tw Htw Ha) as (E1 & E2 & E3).
    set (s' := pc_next tw s false).
    assert (Hs' : s' = Pc (trunc 32 (pc_acc s + tw)) (Z.odd ((pc_acc s + tw) / 2 ^ 32))) by reflexivity.
    change (tl (trace_from (pulse_clock tw) s (repeat false (S (S N)))))
      with (trace_from (pulse_clock tw) s' (repeat false (S N))).
    specialize (IH s'). rewrite Hs' in IH at 1. cbn [pc_acc] in IH. specialize (IH E2).
    change (trace_from (pulse_clock tw) s' (repeat false (S N)))
      with (PcObs false (pc_tick s') :: tl (trace_from (pulse_clock tw) s' (repeat false (S N)))).
    cbn [map count_true fold_right]. change (fold_right _ 0 ?l) with (count_true l).
    rewrite IH. rewrite Hs'. cbn [pco_o pc_tick pc_acc]. rewrite E1, E3.
    replace (pc_acc s + Z.of_nat (S N) * tw)
      with (pc_acc s + tw - 2 ^ 32 * ((pc_acc s + tw) / 2 ^ 32) + Z.of_nat N * tw + ((pc_acc s + tw) / 2 ^ 32) * 2 ^ 32) by lia.
    rewrite Z.div_add by lia. lia.
Qed.

Lemma pc_acc_range tw ins : 0 <= pc_acc (state (pulse_clock tw) ins) < 2 ^ 32.
Proof.
  apply (state_inv (pulse_clock tw) (fun s => 0 <= pc_acc s < 2 ^ 32)).
  - cbn. lia.
  - intros s [] _; cbn -[Z.pow].
    + lia.
    + apply trunc_range. lia.
Qed.

(** After a tick (not through rst) the accumulator is below the tuning word. *)
Definition pc_inv (tw : Z) (tr : list pc_obs) (s : pc_state) : Prop :=
  0 <= pc_acc s < 2 ^ 32 /\
  (pc_tick s = true -> Forall (fun o => pco_rst o = false) tr -> pc_acc s < tw).

Lemma pc_inv_run tw ins : 0 <= tw <= 2 ^ 32 -> pc_inv tw (trace (pulse_clock tw) ins) (state (pulse_clock tw) ins).
Proof.
  intros Htw. apply (run_inv (pulse_clock tw) (pc_inv tw)).
  - split; [cbn; lia|discriminate].
  - intros tr s rst [H1 H2]. cbn [pulse_clock cout cnext]. split.
    + destruct rst; cbn -[Z.pow]; [lia|apply trunc_range; lia].
    + intros Ht HF. apply Forall_app in HF. destruct HF as [HF1 HF2]. inversion HF2; subst. cbn in H3. subst rst.
      unfold pc_next in *. cbn [pc_tick pc_acc] in *.
      destruct (acc_step (pc_acc s) tw Htw H1) as (E1 & E2 & E3). rewrite Ht in E1. rewrite E3, <- E1. lia.
Qed.

Lemma pc_single tw ins t1 o o' t2 : 0 <= tw <= 2 ^ 31 ->
  trace (pulse_clock tw) ins = t1 ++ o :: o' :: t2 ->
  Forall (fun o => pco_rst o = false) (t1 ++ [o]) ->
  pco_o o = true -> pco_o o' = false.
Proof.
  intros Htw H HF Ho. apply trace_two in H. destruct H as (a & r & r' & b & -> & Ht & -> & ->).
  apply Forall_app in HF. destruct HF as [HF1 HF2]. inversion HF2; subst. cbn in H1. subst r.
  pose proof (pc_inv_run tw a ltac:(lia)) as [Hi1 Hi2]. cbn [cout cnext pulse_clock pco_o] in *.
  specialize (Hi2 Ho HF1). unfold pc_next. cbn [pc_tick].
  rewrite Z.div_small by lia. reflexivity.
Qed.

(* TuningClock *)
Fixpoint edges_from (v : bool) (l : list bool) : Z :=
  match l with [] => 0 | b :: r => (if xorb v b then 1 else 0) + edges_from b r end.

Lemma tc_edges tw s N : 0 <= tw <= 2 ^ 32 -> 0 <= tc_acc s < 2 ^ 32 ->
  edges_from (tc_o (tc_next tw s)) (tl (tl (trace_from (tuning_clock tw) s (repeat tt (S (S N)))))) =
  (tc_acc s + Z.of_nat N * tw) / 2 ^ 32.
Proof.
  intros Htw. revert s. induction N as [|N IH]; intros s Ha.
  - cbn -[Z.pow]. rewrite Z.add_0_r, Z.div_small by lia. reflexivity.
  - destruct (acc_step (tc_acc s) tw Htw Ha) as (E1 & E2 & E3).
    set (s' := tc_next tw s).
    specialize (IH s' E2).
    change (tl (tl (trace_from (tuning_clock tw) s (repeat tt (S (S (S N)))))))
      with (tc_o (tc_next tw s') :: tl (tl (trace_from (tuning_clock tw) s' (repeat tt (S (S N)))))).
    cbn [edges_from]. rewrite IH.
    assert (X : (if xorb (tc_o s') (tc_o (tc_next tw s')) then 1 else 0) = (tc_acc s + tw) / 2 ^ 32).
    { rewrite <- E1. unfold tc_next at 1. cbn [tc_o].
      change (tc_tick s') with (Z.odd ((tc_acc s + tw) / 2 ^ 32)).
      destruct (Z.odd _), (tc_o s'); reflexivity. }
    rewrite X. change (tc_acc s') with (trunc 32 (tc_acc s + tw)). rewrite E3.
    replace (tc_acc s + Z.of_nat (S N) * tw)
      with (tc_acc s + tw - 2 ^ 32 * ((tc_acc s + tw) / 2 ^ 32) + Z.of_nat N * tw + ((tc_acc s + tw) / 2 ^ 32) * 2 ^ 32) by lia.
    rewrite Z.div_add by lia. lia.
Qed.

(* BlinkKeep *)
(** cycles since the last [true]; -1 if none *)
Definition since_step (n : Z) (b : bool) : Z := if b then 0 else if n <? 0 then n else n + 1.
Definition since (h : list bool) : Z := fold_left since_step h (-1).

Definition bk_inv (timeout : Z) (tr : list bk_obs) (s : bk_state) : Prop :=
  let d := since (map bko_i tr) in
  -1 <= d /\ bk_counter s = (if d <? 0 then 0 else Z.max 0 (timeout - d)) /\
  bk_inc s = Z.of_nat (length tr) mod 256.

Lemma bk_inv_run timeout thresh ins : 1 <= timeout ->
  bk_inv timeout (trace (blink_keep timeout thresh) ins) (state (blink_keep timeout thresh) ins).
Proof.
  intros Ht. apply (run_inv (blink_keep timeout thresh) (bk_inv timeout)).
  - cbn. repeat split; auto; cbn; lia.
  - intros tr s i (H1 & H2 & H3). unfold bk_inv. rewrite map_app. unfold since in *. rewrite fold_left_app.
    cbn [map fold_left blink_keep cout cnext bko_i].
    set (d := fold_left since_step (map bko_i tr) (-1)) in *. cbv zeta in *.
    assert (Hinc : bk_inc (bk_next timeout s i) = Z.of_nat (length (tr ++ [BkObs i ((bk_inc s <? thresh) && (bk_counter s >? 0))])) mod 256).
    { cbn [bk_inc bk_next]. rewrite H3, app_length. cbn [length]. unfold trunc. change (2 ^ 8) with 256.
      rewrite Nat2Z.inj_add. rewrite Z.add_mod_idemp_l by lia. reflexivity. }
    unfold since_step. destruct i.
    + repeat split; auto; try lia. cbn. lia.
    + destruct (Z.ltb_spec d 0).
      * assert (d = -1) by lia. repeat split; auto; try lia.
        cbn [bk_next bk_counter]. rewrite H2. destruct (d <? 0) eqn:E; [reflexivity|lia].
      * repeat split; auto; try lia.
        cbn [bk_next bk_counter]. rewrite H2. destruct (Z.ltb_spec (d + 1) 0); [lia|].
        rewrite Z.gtb_ltb. destruct (Z.ltb_spec 0 (Z.max 0 (timeout - d))).
        -- rewrite trunc_range_small by lia. lia.
        -- lia.
Qed.

Lemma since_spec h t : 1 <= t ->
  (0 <= since h < t <-> exists a b, h = a ++ true :: b /\ Z.of_nat (length b) < t).
Proof.
  assert (Hge : forall h, -1 <= since h).
  { intros l. induction l as [|b l IH] using rev_ind; [unfold since; simpl; lia|].
    unfold since in *. rewrite fold_left_app. simpl. unfold since_step at 1.
    destruct b; [lia|]. destruct (Z.ltb_spec (fold_left since_step l (-1)) 0); lia. }
  revert t. induction h as [|b h IH] using rev_ind; intros t Ht.
  - unfold since; simpl. split; [lia|]. intros (a & b & H & _). destruct a; discriminate.
  - assert (E : since (h ++ [b]) = since_step (since h) b) by (unfold since; now rewrite fold_left_app).
    rewrite E. unfold since_step. destruct b.
    + split; [|lia]. intros _. exists h, []. simpl. split; auto. lia.
    + pose proof (Hge h). destruct (Z.ltb_spec (since h) 0).
      * split; [lia|]. intros (a & b & Hab & Hl).
        destruct b as [|x b] using rev_ind.
        -- apply app_inj_tail in Hab. destruct Hab; discriminate.
        -- rewrite app_comm_cons, app_assoc in Hab. apply app_inj_tail in Hab. destruct Hab as [-> <-].
           rewrite app_length in Hl. simpl in Hl.
           assert (0 <= since (a ++ true :: b) < t); [|lia]. apply IH; auto. exists a, b. split; auto. lia.
      * split.
        -- intros Hs. destruct (proj1 (IH (t - 1) ltac:(lia)) ltac:(lia)) as (a & b & -> & Hl).
           exists a, (b ++ [false]). rewrite <- app_assoc. split; auto. rewrite app_length; simpl; lia.
        -- intros (a & b & Hab & Hl). destruct b as [|x b] using rev_ind.
           ++ apply app_inj_tail in Hab. destruct Hab; discriminate.
           ++ rewrite app_comm_cons, app_assoc in Hab. apply app_inj_tail in Hab. destruct Hab as [-> <-].
              rewrite app_length in Hl. simpl in Hl.
              destruct (Z.eq_dec t 1); [lia|].
              assert (0 <= since (a ++ true :: b) < t - 1); [|lia]. apply IH; [lia|]. exists a, b. split; auto. lia.
Qed.
