(** Properties C20 - C25 (timers, clock dividers, blinkers). *)
From Verif Require Import Hdl Timer_model Timer_proofs Timing_model Timing_proofs.

(** C20: in any cycle of any execution, done is high iff wait was high in each of
    the t cycles just before it. *)
Theorem C20_wait_timer_exact : forall t ins t1 o t2, 0 <= t ->
  trace (wait_timer t) ins = t1 ++ o :: t2 ->
  (wo_done o = true <-> exists before, map wo_wait t1 = before ++ repeat true (Z.to_nat t)).
Proof. intros. eapply wt_exact; eauto. Qed.

Example C20_nonvacuous :
  map wo_done (trace (wait_timer 2) [true; false; true; true; true; false; true]) =
  [false; false; false; false; true; true; false].
Proof. reflexivity. Qed.

(** C21: starting from reset or from an idle cycle, after waiting [j] cycles on
    channel [i] alone, done is high in the next cycle of the wait iff j >= ts[i]. *)
Theorem C21_wait_n_timer_exact : forall ts i t j h tr o,
  (forall x, In x ts -> 0 <= x) ->
  nth_error ts i = Some t ->
  (h = [] \/ exists h', h = h' ++ [repeat false (length ts)]) ->
  trace (wait_n_timer ts) (h ++ repeat (onehot (length ts) i) j ++ [onehot (length ts) i]) = tr ++ [o] ->
  wno_done o = (t <=? Z.of_nat j).
Proof.
  intros ts i t j h tr o Hts Hi Hh H.
  assert (Hs : state (wait_n_timer ts) h = 0).
  { destruct Hh as [->|[h' ->]]; [reflexivity|]. unfold state. rewrite state_from_app. cbn. unfold wn_next.
    replace (existsb (fun b => b) (repeat false (length ts))) with false; auto.
    clear. induction (length ts); simpl; auto. }
  rewrite !trace_app in H. rewrite Hs in H. rewrite trace_from_app, app_assoc in H.
  apply app_inj_tail in H. destruct H as [_ <-]. cbn [cout wait_n_timer wno_done].
  rewrite (wn_count_after ts i t j Hts Hi), (wn_done_onehot ts _ i t Hi).
  destruct (Z.eqb_spec (Z.min t (Z.of_nat j)) t), (Z.leb_spec t (Z.of_nat j)); lia.
Qed.

(** ... and with no wait bit set done is low. *)
Theorem C21_wait_n_timer_idle : forall ts ins o, In o (trace (wait_n_timer ts) ins) ->
  Forall (fun b => b = false) (wno_wait o) -> wno_done o = false.
Proof.
  intros ts ins o Ho HF. apply in_split in Ho. destruct Ho as (t1 & t2 & H).
  apply trace_one in H. destruct H as (a & w & b & _ & _ & ->). cbn in *. unfold wn_done.
  destruct (existsb _ _) eqn:E; auto. apply existsb_exists in E. destruct E as ([x y] & Hin & Hy).
  apply in_combine_r in Hin. rewrite Forall_forall in HF. rewrite (HF y Hin) in Hy. discriminate.
Qed.

Example C21_nonvacuous :
  map wno_done (trace (wait_n_timer [1; 3]) (repeat (onehot 2 1) 5 ++ [[false; false]] ++ repeat (onehot 2 0) 3))
  = [false; false; false; true; true; false; false; true; true].
Proof. reflexivity. Qed.

(** C22: pulses in N cycles, from reset ... *)
Theorem C22_pulse_clock_rate : forall tw N, 0 <= tw <= 2 ^ 32 ->
  count_true (map pco_o (tl (trace (pulse_clock tw) (repeat false (S N))))) = Z.of_nat N * tw / 2 ^ 32.
Proof. intros. unfold trace. rewrite pc_rate; cbn; lia || auto. Qed.

(** ... after a rst in any history: half a period is credited ... *)
Theorem C22_pulse_clock_rate_after_rst : forall tw N h, 0 <= tw <= 2 ^ 32 ->
  count_true (map pco_o (tl (trace_from (pulse_clock tw) (state (pulse_clock tw) (h ++ [true])) (repeat false (S N)))))
  = (2 ^ 31 + Z.of_nat N * tw) / 2 ^ 32.
Proof.
  intros. rewrite pc_rate; auto.
  - unfold state. rewrite state_from_app. reflexivity.
  - apply pc_acc_range.
Qed.

(** ... and in any history whatsoever, some fixed phase a0. *)
Theorem C22_pulse_clock_no_drift : forall tw h, 0 <= tw <= 2 ^ 32 ->
  exists a0, 0 <= a0 < 2 ^ 32 /\ forall N,
  count_true (map pco_o (tl (trace_from (pulse_clock tw) (state (pulse_clock tw) h) (repeat false (S N)))))
  = (a0 + Z.of_nat N * tw) / 2 ^ 32.
Proof.
  intros tw h H. exists (pc_acc (state (pulse_clock tw) h)). split; [apply pc_acc_range|].
  intros N. apply pc_rate; auto. apply pc_acc_range.
Qed.

(** In terms of whole-number frequencies, with the tuning word as the program's floats
    compute it: over N cycles the pulse count p satisfies
    N*target/sys - N/2^32 - 1 < p <= N*target/sys * (1 + 2^-53). *)
Theorem C22_pulse_clock_frequency : forall sys target N, 0 < sys -> 0 <= target <= sys ->
  let p := count_true (map pco_o (tl (trace (pulse_clock (pulse_tuning_word sys target)) (repeat false (S N))))) in
  p * sys * 2 ^ 53 <= Z.of_nat N * target * (2 ^ 53 + 1) /\
  Z.of_nat N * target * 2 ^ 32 < (p + 1) * sys * 2 ^ 32 + (if (0 <? N)%nat then Z.of_nat N * sys else 1).
Proof.
  intros sys target N Hs Ht p. unfold pulse_tuning_word in *.
  pose proof (word_bounds target sys Hs Ht) as B. cbv zeta in B.
  set (tw := Float_model.fint _) in *. clearbody tw. destruct B as [[B1 B2] B3].
  assert (Htw : target * 2 ^ 32 < sys * tw + sys).
  { pose proof (Z.mul_succ_div_gt (target * 2 ^ 32) sys Hs). nia. }
  assert (0 <= tw). { pose proof (Z.div_pos (target * 2 ^ 32) sys). lia. }
  assert (Hp : p = Z.of_nat N * tw / 2 ^ 32) by (apply C22_pulse_clock_rate; lia).
  pose proof (Z.div_mod (Z.of_nat N * tw) (2 ^ 32) ltac:(lia)).
  pose proof (Z.mod_pos_bound (Z.of_nat N * tw) (2 ^ 32) ltac:(lia)). rewrite <- Hp in *.
  split.
  - apply (Z.mul_le_mono_pos_r _ _ (2 ^ 32)); [lia|].
    assert (Z.of_nat N * (tw * sys * 2 ^ 53) <= Z.of_nat N * (target * 2 ^ 32 * (2 ^ 53 + 1))) by (apply Z.mul_le_mono_nonneg_l; lia).
    assert (p * 2 ^ 32 * (sys * 2 ^ 53) <= Z.of_nat N * tw * (sys * 2 ^ 53)) by (apply Z.mul_le_mono_nonneg_r; lia). lia.
  - destruct (Nat.ltb_spec 0 N); nia.
Qed.

Example C22_nonvacuous :
  map pco_o (trace (pulse_clock (2 ^ 30)) (repeat false 10)) =
  [false; false; false; false; true; false; false; false; true; false] /\
  pulse_tuning_word 100 25 = 2 ^ 30.
Proof. split; vm_compute; reflexivity. Qed.

(** C23 holds as long as rst is not used ... *)
Theorem C23_pulse_width_without_rst_partial : forall tw ins t1 o o' t2, 0 <= tw <= 2 ^ 31 ->
  trace (pulse_clock tw) ins = t1 ++ o :: o' :: t2 ->
  Forall (fun o => pco_rst o = false) (t1 ++ [o]) ->
  pco_o o = true -> pco_o o' = false.
Proof. intros. eapply pc_single; eauto. Qed.

(** ... and in fact whenever rst is low in the cycle of the pulse (for the largest
    tuning word, also in the cycle before), whatever rst has done earlier; while rst is
    high the output does not change: a pulse is one cycle wide, plus the cycles rst is
    held in it ... *)
Theorem C23_pulse_width_around_rst_partial : forall tw ins t1 o o' t2, 0 <= tw <= 2 ^ 31 ->
  trace (pulse_clock tw) ins = t1 ++ o :: o' :: t2 -> pco_o o = true ->
  (pco_rst o = false -> (tw = 2 ^ 31 -> forall t p, t1 = t ++ [p] -> pco_rst p = false) -> pco_o o' = false) /\
  (pco_rst o = true -> pco_o o' = true).
Proof.
  intros tw ins t1 o o' t2 Htw H Ho. apply trace_two in H. destruct H as (a & r & r' & b & -> & Ht & -> & ->).
  cbn [cout cnext pulse_clock pco_o pco_rst] in *.
  assert (HI : 0 <= pc_acc (state (pulse_clock tw) a) < 2 ^ 32) by (apply (pc_inv_run tw a); lia).
  assert (HJ : pc_tick (state (pulse_clock tw) a) = true -> pc_acc (state (pulse_clock tw) a) < tw \/
    (pc_acc (state (pulse_clock tw) a) = 2 ^ 31 /\ exists t p, t1 = t ++ [p] /\ pco_rst p = true)).
  { rewrite <- Ht. clear Ho HI Ht t1 t2. induction a as [|i a IH] using rev_ind; [discriminate|].
    rewrite trace_app. unfold state in *. rewrite state_from_app. fold (state (pulse_clock tw) a) in *. cbn [state_from cnext pulse_clock].
    pose proof (proj1 (pc_inv_run tw a ltac:(lia))) as HI. set (s := state (pulse_clock tw) a) in *. destruct i; cbn [pc_next pc_tick pc_acc].
    - intros _. right. split; auto. eexists _, _. split; [reflexivity|]. reflexivity.
    - intros HT. left. destruct (acc_step (pc_acc s) tw ltac:(lia) HI) as (E1 & E2 & E3). rewrite HT in E1. rewrite E3, <- E1. lia. }
  specialize (HJ Ho). destruct r; split; try discriminate; cbn [pc_next pc_tick]; auto.
  intros _ HL. destruct HJ as [HJ|[HJ (t & p & -> & HP)]]; [rewrite Z.div_small by lia; reflexivity|].
  rewrite HJ. destruct (Z.eq_dec tw (2 ^ 31)) as [E|E]; [rewrite (HL E t p eq_refl) in HP; discriminate|].
  rewrite Z.div_small by lia. reflexivity.
Qed.

(** ... but rst freezes a pulse: o stays high for as long as rst is held. *)
Theorem C23_pulse_width_refuted : exists tw, 0 <= tw <= 2 ^ 31 /\ forall n, exists ins t1 t2,
  map pco_o (trace (pulse_clock tw) ins) = t1 ++ repeat true n ++ t2.
Proof.
  exists (2 ^ 31). split; [lia|]. intros n.
  exists ([false; false] ++ repeat true n), [false; false], [].
  rewrite trace_app, map_app. rewrite app_nil_r. f_equal.
  assert (H : forall s, pc_tick s = true -> map pco_o (trace_from (pulse_clock (2 ^ 31)) s (repeat true n)) = repeat true n).
  { induction n; intros s Hs; cbn -[Z.pow]; auto. rewrite Hs. f_equal. now apply IHn. }
  apply H. reflexivity.
Qed.

(** C24: edges of the TuningClock output.  The first two cycles are pipeline
    latency; in the N following cycles there are exactly floor(N*tw/2^32) edges. *)
Theorem C24_tuning_clock_rate : forall tw N, 0 <= tw <= 2 ^ 32 ->
  exists o0 o1 rest,
    trace (tuning_clock tw) (repeat tt (S (S N))) = o0 :: o1 :: rest /\
    o0 = false /\ o1 = false /\ edges_from o1 rest = Z.of_nat N * tw / 2 ^ 32.
Proof.
  intros tw N H. eexists _, _, _. split; [reflexivity|]. repeat split.
  change (edges_from (tc_o (tc_next tw (Tc 0 false false)))
    (tl (tl (trace_from (tuning_clock tw) (Tc 0 false false) (repeat tt (S (S N)))))) = Z.of_nat N * tw / 2 ^ 32).
  rewrite tc_edges; cbn; auto; lia.
Qed.

(** For the word the constructor's floats compute from two whole-number frequencies,
    after [N] further cycles the output has toggled [e] times, two toggles being one
    period of the target clock: e sys <= 2 N target up to one part in 2^53, and e is
    less than one toggle, plus one part in 2^32 per cycle, below that. *)
Theorem C24_tuning_clock_frequency : forall sys target N, 0 < sys <= 2 ^ 53 -> 0 <= 2 * target <= sys ->
  exists o0 o1 rest,
    trace (tuning_clock (tuning_tuning_word sys target)) (repeat tt (S (S N))) = o0 :: o1 :: rest /\
    let e := edges_from o1 rest in
    e * sys * 2 ^ 53 <= 2 * Z.of_nat N * target * (2 ^ 53 + 1) /\
    2 * Z.of_nat N * target * 2 ^ 32 < (e + 1) * sys * 2 ^ 32 + (if (0 <? N)%nat then Z.of_nat N * sys else 1).
Proof.
  intros sys target N Hs Ht. rewrite tuning_word_eq by lia.
  pose proof (word_bounds (2 * target) sys ltac:(lia) Ht) as B. cbv zeta in B.
  set (tw := Float_model.fint _) in *. clearbody tw. destruct B as [[B1 B2] B3].
  assert (Htw : 2 * target * 2 ^ 32 < sys * tw + sys).
  { pose proof (Z.mul_succ_div_gt (2 * target * 2 ^ 32) sys ltac:(lia)). nia. }
  assert (0 <= tw). { pose proof (Z.div_pos (2 * target * 2 ^ 32) sys). lia. }
  destruct (C24_tuning_clock_rate tw N ltac:(lia)) as (o0 & o1 & rest & E & _ & _ & He).
  exists o0, o1, rest. split; [exact E|]. cbv zeta. set (e := edges_from o1 rest) in *. clearbody e.
  pose proof (Z.div_mod (Z.of_nat N * tw) (2 ^ 32) ltac:(lia)).
  pose proof (Z.mod_pos_bound (Z.of_nat N * tw) (2 ^ 32) ltac:(lia)). rewrite <- He in *.
  split.
  - apply (Z.mul_le_mono_pos_r _ _ (2 ^ 32)); [lia|].
    assert (Z.of_nat N * (tw * sys * 2 ^ 53) <= Z.of_nat N * (2 * target * 2 ^ 32 * (2 ^ 53 + 1))) by (apply Z.mul_le_mono_nonneg_l; lia).
    assert (e * 2 ^ 32 * (sys * 2 ^ 53) <= Z.of_nat N * tw * (sys * 2 ^ 53)) by (apply Z.mul_le_mono_nonneg_r; lia). lia.
  - destruct (Nat.ltb_spec 0 N); nia.
Qed.

Example C24_nonvacuous : trace (tuning_clock (2 ^ 31)) (repeat tt 9) =
  [false; false; false; true; true; false; false; true; true].
Proof. vm_compute. reflexivity. Qed.

(** C25: o is high exactly when i was high in one of the [timeout] preceding
    cycles and the PWM counter (the cycle number modulo 256) is below thresh. *)
Theorem C25_blink_keep_exact : forall timeout thresh ins t1 o t2, 1 <= timeout ->
  trace (blink_keep timeout thresh) ins = t1 ++ o :: t2 ->
  (bko_o o = true <->
     (exists a b, map bko_i t1 = a ++ true :: b /\ Z.of_nat (length b) < timeout) /\
     Z.of_nat (length t1) mod 256 < thresh).
Proof.
  intros timeout thresh ins t1 o t2 Ht H. apply trace_one in H. destruct H as (a & i & b & -> & <- & ->).
  pose proof (bk_inv_run timeout thresh a Ht) as (H1 & H2 & H3). cbn [cout blink_keep bko_o].
  rewrite H2, H3, andb_true_iff, Z.gtb_ltb, !Z.ltb_lt. rewrite <- since_spec by auto.
  destruct (Z.ltb_spec (since (map bko_i (trace (blink_keep timeout thresh) a))) 0); lia.
Qed.

(** With duty 1.0 (thresh = 256) there is no masking. *)
Theorem C25_blink_keep_full_duty : forall timeout ins t1 o t2, 1 <= timeout ->
  trace (blink_keep timeout 256) ins = t1 ++ o :: t2 ->
  (bko_o o = true <->
     (exists a b, map bko_i t1 = a ++ true :: b /\ Z.of_nat (length b) < timeout)).
Proof.
  intros timeout ins t1 o t2 Ht H. rewrite (C25_blink_keep_exact _ _ _ _ _ _ Ht H).
  pose proof (Z.mod_pos_bound (Z.of_nat (length t1)) 256 ltac:(lia)). intuition lia.
Qed.

Example C25_nonvacuous :
  map bko_o (trace (blink_keep 3 256) [false; true; false; false; false; false; true]) =
  [false; false; true; true; true; false; false].
Proof. reflexivity. Qed.

(** BlinkDomain: the led shows bit 25 of the cycle counter, i.e. it is low for
    2^25 cycles then high for 2^25 cycles, forever. *)
Theorem C25_blink_domain_period : forall ins t1 o t2,
  trace blink_domain ins = t1 ++ o :: t2 ->
  o = (2 ^ 25 <=? Z.of_nat (length t1) mod 2 ^ 26).
Proof.
  intros ins t1 o t2 H. apply trace_one in H. destruct H as (a & i & b & -> & <- & ->).
  assert (Hs : state blink_domain a = Z.of_nat (length (trace blink_domain a)) mod 2 ^ 26).
  { apply (run_inv blink_domain (fun t s => s = Z.of_nat (length t) mod 2 ^ 26)).
    - reflexivity.
    - intros t s j ->. rewrite app_length, Nat2Z.inj_add. cbn [blink_domain cnext length].
      unfold trunc. rewrite Z.add_mod_idemp_l by lia. reflexivity. }
  cbn [cout blink_domain]. rewrite Hs.
  set (x := Z.of_nat _ mod 2 ^ 26). assert (Hx : 0 <= x < 2 ^ 26) by (apply Z.mod_pos_bound; lia).
  rewrite Z.testbit_odd, Z.shiftr_div_pow2 by lia.
  destruct (Z.leb_spec (2 ^ 25) x).
  - replace (x / 2 ^ 25) with 1; auto. apply Z.div_unique with (r := x - 2 ^ 25); lia.
  - rewrite Z.div_small by lia. reflexivity.
Qed.

(** One cycle high without rst, frozen while it is held. *)
Example C23_nonvacuous :
  map pco_o (trace (pulse_clock (2 ^ 31)) (repeat false 5)) = [false; false; true; false; true] /\
  map pco_o (trace (pulse_clock (2 ^ 30)) (repeat false 4 ++ [true; true; false; false; false])) = [false; false; false; false; true; true; true; false; true].
Proof. vm_compute. repeat split. Qed.

Print Assumptions C20_wait_timer_exact.
Print Assumptions C21_wait_n_timer_exact.
Print Assumptions C21_wait_n_timer_idle.
Print Assumptions C22_pulse_clock_rate.
Print Assumptions C22_pulse_clock_rate_after_rst.
Print Assumptions C22_pulse_clock_no_drift.
Print Assumptions C22_pulse_clock_frequency.
Print Assumptions C23_pulse_width_without_rst_partial.
Print Assumptions C23_pulse_width_around_rst_partial.
Print Assumptions C23_pulse_width_refuted.
Print Assumptions C24_tuning_clock_rate.
Print Assumptions C24_tuning_clock_frequency.
Print Assumptions C25_blink_keep_exact.
Print Assumptions C25_blink_keep_full_duty.
Print Assumptions C25_blink_domain_period.
