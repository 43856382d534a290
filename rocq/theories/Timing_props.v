(** Property C124: the whole numbers computed from frequencies with floats are the ones
    meant. *)
From Coq Require Import ZArith Lia SpecFloat.
From Verif Require Import Hdl Timing_model Timing_proofs Ulpi_model Ulpi_props.
Require Import Verif.Float_model.
Local Open Scope Z_scope.

(** Quotients of frequencies: the I2C clock period and the example's UART divisor are the
    largest whole numbers of cycles within one period. *)
Theorem C124_quotients : forall sys freq, 0 <= sys < 2 ^ 53 -> 0 < freq ->
  i2c_period sys freq = sys / freq /\ uart_divisor sys freq = sys / freq.
Proof.
  intros sys freq Hs Hf. assert (0 <= sys / freq) by (apply Z.div_pos; lia). unfold i2c_period, uart_divisor. split.
  - rewrite (fint_comp _ _ (ffloordiv_Z sys freq Hs Hf)). rewrite fint_pos by now apply iZ_nonneg. apply Qfloor_Z.
  - rewrite fint_pos; [now apply floor_quot|]. apply rnd_nonneg. apply Qle_shift_div_l; [now apply iZ_pos|].
    rewrite Qmult_0_l. apply iZ_nonneg. lia.
Qed.

(** SPI master: with [f] the requested frequency capped at half the system clock, the
    divider is the least d >= 0 with sys / (2 (d + 1)) <= f and the chip-select delay the
    least number of cycles covering [delay] periods of f. *)
Theorem C124_spi : forall sys spi delay, 2 <= sys < 2 ^ 51 -> 0 < spi -> 0 <= delay -> delay * sys < 2 ^ 53 ->
  let f := Z.min spi (sys / 2) in
  (forall d, 0 <= d -> (spi_divisor sys spi <= d <-> sys <= 2 * (d + 1) * f)) /\ 0 <= spi_divisor sys spi /\
  (forall n, spi_cs_delay sys spi delay <= n <-> delay * sys <= n * f).
Proof.
  intros sys spi delay Hs Hp Hd Hm f. assert (1 <= sys / 2) by (apply Z.div_le_lower_bound; lia). assert (F : 0 < f) by lia.
  pose proof (Z.mul_div_le sys 2 ltac:(lia)).
  rewrite spi_divisor_Z, spi_cs_delay_Z by lia. cbv zeta. fold f.
  pose proof (cdiv_spec (sys - 2 * f) (2 * f) ltac:(lia)) as D. set (d := cdiv (sys - 2 * f) (2 * f)) in *.
  pose proof (cdiv_spec (delay * sys) f F) as N. set (n := cdiv (delay * sys) f) in *.
  split; [|split].
  - intros d' H'. split; intros; nia.
  - nia.
  - intros n'. split; intros; nia.
Qed.

(** The ULPI power-on timer: int(f * 2e-6) and int(f * 4e-3) are the whole cycles in 2 us
    and 4 ms, at any frequency up to 2^32 Hz; the UTMI reset count is 120. *)
Theorem C124_ulpi : forall f, 0 <= f <= 2 ^ 32 ->
  ulpi_cnt2us f = 2 * f / 10 ^ 6 /\ ulpi_cnt4ms f = 4 * f / 10 ^ 3 /\ utmi_por_cycles = 120.
Proof.
  intros f Hf. unfold ulpi_cnt2us, ulpi_cnt4ms.
  assert (C : forall c, Qeq (fmul (inject_Z f) c) (fmul c (inject_Z f))) by (intros c; unfold fmul; rewrite Qmult_comm; reflexivity).
  rewrite (fint_comp _ _ (C (dec (2 # 1000000)))), (fint_comp _ _ (C (dec (4 # 1000)))).
  rewrite (const_near 2 1000000 f), (const_near 4 1000 f) by (try discriminate; lia). repeat split.
Qed.

(** So, with a system clock of f Hz, the ULPI PHY is reset for more than 2 us and the link
    waits more than 4 ms after that, each by at most one cycle: the reset is over after n
    cycles only if n / f > 2 us, and not later than one cycle after that. *)
Theorem C64_times : forall f ins t1 o t2, 0 <= f <= 2 ^ 32 -> 4 * f < 10 ^ 3 * 2 ^ 30 ->
  trace (por (ulpi_cnt2us f) (ulpi_cnt4ms f)) ins = t1 ++ o :: t2 ->
  let n := Z.of_nat (length t1) in
  exists reset wait,
    2 * f < reset * 10 ^ 6 <= 2 * f + 10 ^ 6 /\ 4 * f < wait * 10 ^ 3 <= 4 * f + 10 ^ 3 /\
    (poo_rst o = true <-> n < reset) /\ (poo_done o = true <-> reset + wait <= n).
Proof.
  intros f ins t1 o t2 Hf Hb E n. destruct (C124_ulpi f Hf) as (E2 & E4 & _). rewrite E2, E4 in E.
  exists (2 * f / 10 ^ 6 + 1), (4 * f / 10 ^ 3 + 1).
  pose proof (Z.mul_div_le (2 * f) (10 ^ 6) ltac:(lia)). pose proof (Z.mul_succ_div_gt (2 * f) (10 ^ 6) ltac:(lia)).
  pose proof (Z.mul_div_le (4 * f) (10 ^ 3) ltac:(lia)). pose proof (Z.mul_succ_div_gt (4 * f) (10 ^ 3) ltac:(lia)).
  split; [lia|]. split; [lia|].
  apply (C64_por (2 * f / 10 ^ 6) (4 * f / 10 ^ 3) ins t1 o t2); [| |exact E]; (split; [apply Z.div_pos; lia|apply Z.div_lt_upper_bound; lia]).
Qed.

(** Tuning words are the exact 32-bit fraction of target (2 * target for TuningClock) over
    system frequency, rounded down, or one more ... *)
Theorem C124_tuning_partial : forall sys target, 0 < sys <= 2 ^ 53 -> 0 <= target <= sys ->
  (let w := pulse_tuning_word sys target in
   target * 2 ^ 32 / sys <= w <= target * 2 ^ 32 / sys + 1 /\ w <= 2 ^ 32) /\
  (2 * target <= sys -> let w := tuning_tuning_word sys target in
   2 * target * 2 ^ 32 / sys <= w <= 2 * target * 2 ^ 32 / sys + 1 /\ w <= 2 ^ 32).
Proof.
  intros sys target Hs Ht.
  assert (K : forall t, 0 <= t <= sys -> let w := fint (fmul (fdiv (inject_Z t) (inject_Z sys)) (inject_Z (2 ^ 32))) in
    t * 2 ^ 32 / sys <= w <= t * 2 ^ 32 / sys + 1 /\ w <= 2 ^ 32).
  { intros t H. destruct (word_bounds t sys ltac:(lia) H) as [[B1 B2] B3]. cbv zeta in *. set (w := fint _) in *. clearbody w.
    split; [split; [exact B1|]|exact B2]. pose proof (Z.mul_succ_div_gt (t * 2 ^ 32) sys ltac:(lia)) as G. set (n := t * 2 ^ 32 / sys) in *.
    destruct (Z.le_gt_cases w (n + 1)) as [L|L]; [exact L|exfalso].
    change (2 ^ 53) with 9007199254740992 in *. change (2 ^ 32) with 4294967296 in *. nia. }
  split; [exact (K target Ht)|]. intros H. rewrite tuning_word_eq by lia. apply K. lia.
Qed.
(** ... and exact when the system frequency is a multiple of 2^k and the (doubled) target is
    below 2^(21+k): for whole MHz (k = 6), targets up to 134 MHz; for odd ones up to 2 MHz. *)
Theorem C124_tuning_exact_partial : forall k sys target, 0 <= k <= 32 -> 0 < sys <= 2 ^ 53 -> (2 ^ k | sys) ->
  (0 <= target <= sys -> target < 2 ^ (21 + k) -> pulse_tuning_word sys target = target * 2 ^ 32 / sys) /\
  (0 <= 2 * target <= sys -> 2 * target < 2 ^ (21 + k) -> tuning_tuning_word sys target = 2 * target * 2 ^ 32 / sys).
Proof.
  intros k sys target Hk Hs D. split; intros H1 H2.
  - apply (word_exact k); auto; lia.
  - rewrite tuning_word_eq by lia. apply (word_exact k); auto; lia.
Qed.
(** It is one more for some frequencies. *)
Theorem C124_tuning_refuted : exists sys target, 0 < target < sys /\ sys < 2 ^ 27 /\ pulse_tuning_word sys target = target * 2 ^ 32 / sys + 1.
Proof. exists 100000007, 76729951. vm_compute. repeat split. Qed.

(** WS2812B: the cycle counts are the whole cycles in 295 ns, 595 ns, 890 ns and 80 us, for
    clocks below 200 MHz, the last three up to 2 GHz ... *)
Theorem C124_ws2812b_partial : forall f, 0 <= f <= 2 * 10 ^ 9 ->
  (f < 2 * 10 ^ 8 -> ws_t0h f = 295 * f / 10 ^ 9) /\
  ws_t1h f = 595 * f / 10 ^ 9 /\ ws_t f = 890 * f / 10 ^ 9 /\ ws_trst f = 80 * f / 10 ^ 6.
Proof.
  intros f Hf. unfold ws_t0h, ws_t1h, ws_t, ws_trst.
  rewrite (const_up 595 1000000000 f) by (try discriminate; lia). rewrite (const_up 80 1000000 f) by (try discriminate; lia).
  split; [|split; [reflexivity|split; [|reflexivity]]].
  - intros H. destruct (const_bounds 295 1000000000 f eq_refl ltac:(lia) ltac:(lia)) as (B0 & B1 & B2). set (T := fint _) in *.
    destruct (Z.eq_dec (295 * f) ((T + 1) * 1000000000)) as [E|E].
    + exfalso. lia.
    + apply (Z.div_unique _ _ T (295 * f - T * 1000000000)); lia.
  - destruct (const_bounds 890 1000000000 f eq_refl ltac:(lia) ltac:(lia)) as (B0 & B1 & B2). set (T := fint _) in *.
    destruct (Z.eq_dec (890 * f) ((T + 1) * 1000000000)) as [E|E].
    + exfalso. assert (exists j, f = 100000000 * j /\ T + 1 = 89 * j) as (j & -> & J).
      { assert (G : 89 * f = (T + 1) * 100000000) by lia. exists ((T + 1) / 89). pose proof (Z.div_mod (T + 1) 89 ltac:(lia)). pose proof (Z.mod_pos_bound (T + 1) 89 ltac:(lia)). lia. }
      assert (JJ : 1 <= j <= 20) by lia.
      assert (A : forallb (fun j => fint (fmul (dec (890 # 1000000000)) (inject_Z (100000000 * j))) =? 89 * j) (map Z.of_nat (seq 1 20)) = true) by (vm_compute; reflexivity).
      rewrite forallb_forall in A. specialize (A j). rewrite Z.eqb_eq in A. fold T in A.
      rewrite A in J; [lia|]. apply in_map_iff. exists (Z.to_nat j). split; [lia|]. apply in_seq. lia.
    + apply (Z.div_unique _ _ T (890 * f - T * 1000000000)); lia.
Qed.
(** ... but at 200 MHz, where 295 ns are 59 cycles, T0H is 58: 0.295e-6 is rounded down. *)
Theorem C124_ws2812b_refuted : 295 * (200 * 10 ^ 6) = 59 * 10 ^ 9 /\ ws_t0h (200 * 10 ^ 6) = 58.
Proof. split; vm_compute; reflexivity. Qed.

(** BlinkKeep's threshold: for a duty cycle that is a non-negative float, the largest n with
    n / 256 <= duty. *)
Theorem C124_blink : forall duty n, Qeq (rnd duty) duty -> Qle 0 duty -> (n <= blink_thresh duty <-> Qle (inject_Z n) (Qmult duty 256)).
Proof.
  intros duty n Hr H0. unfold blink_thresh. assert (E : Qeq (fmul duty (inject_Z (2 ^ 8))) (Qmult duty 256)).
  { unfold fmul. change (inject_Z (2 ^ 8)) with (Qpower 2 8). change (256 # 1)%Q with (Qpower 2 8). pose proof (rnd_scale duty 8) as S. rewrite Hr in S. exact S. }
  rewrite (fint_comp _ _ E). assert (P : Qle 0 (Qmult duty 256)) by (apply Qmult_le_0_compat; [exact H0|discriminate]). rewrite fint_pos by exact P. split; intros H.
  - eapply Qle_trans; [|apply Qfloor_le]. rewrite <- Zle_Qle. exact H.
  - rewrite <- (Qfloor_Z n). now apply Qfloor_resp_le.
Qed.

(** The defaults and the examples' values. *)
Example C124_nonvacuous :
  i2c_period 100000000 400000 = 250 /\ uart_divisor 100000000 3000000 = 33 /\
  spi_divisor 100000000 25000000 = 1 /\ spi_cs_delay 100000000 25000000 2 = 8 /\
  ulpi_cnt2us 100000000 = 200 /\ ulpi_cnt4ms 100000000 = 400000 /\
  pulse_tuning_word 100000000 1000000 = 42949672 /\ tuning_tuning_word 100000000 1000000 = 85899345 /\
  (2 ^ 6 | 100000000) /\ blink_thresh 1 = 256 /\
  ws_t0h 100000000 = 29 /\ ws_t1h 100000000 = 59 /\ ws_t 100000000 = 89 /\ ws_trst 100000000 = 8000.
Proof. repeat split; try (vm_compute; reflexivity). exists 1562500. reflexivity. Qed.

(** [rnd] agrees with Coq's own reference implementation of binary64 (SpecFloat) on samples:
    a division, a product of two decimals, a tie in a division by 2^53 either way. *)
Definition sf (z : Z) : spec_float := binary_normalize 53 1024 z 0 false.
Definition sfq (s : spec_float) : option Q :=
  match s with S754_finite b m e => Some (Qmult (inject_Z (if b then Zneg m else Zpos m)) (Qpower 2 e)) | S754_zero _ => Some 0%Q | _ => None end.
Definition same (s : spec_float) (q : Q) : bool := match sfq s with Some v => Qeq_bool v q | None => false end.
Example C124_specfloat :
  forallb (fun p => same (SFdiv 53 1024 (sf (fst p)) (sf (snd p))) (fdiv (inject_Z (fst p)) (inject_Z (snd p))))
    [(1, 3); (2, 3); (76729951, 100000007); (67, 10); (-5, 7); (9007199254740993, 1); (295, 1000000000); (1, 10); (123456789, 1000)] = true /\
  forallb (fun p => same (SFmul 53 1024 (SFdiv 53 1024 (sf (fst p)) (sf 1000000000)) (sf (snd p))) (fmul (dec (Qmake (fst p) 1000000000)) (inject_Z (snd p))))
    [(295, 200000000); (595, 200000000); (890, 2300000000); (80000, 100000000); (2000, 60000000)] = true /\
  same (sf (2 ^ 53 + 1)) (rnd (inject_Z (2 ^ 53 + 1))) = true /\ same (sf (2 ^ 53 + 3)) (rnd (inject_Z (2 ^ 53 + 3))) = true /\
  forallb (fun p => same (SFsub 53 1024 (SFdiv 53 1024 (sf (fst p)) (sf 7)) (sf (snd p))) (fsub (fdiv (inject_Z (fst p)) 7) (inject_Z (snd p))))
    [(100, 1); (22, 3); (1000000007, 12345); (1, 5)] = true.
Proof. vm_compute. repeat split. Qed.

Print Assumptions C124_quotients.
Print Assumptions C124_spi.
Print Assumptions C124_ulpi.
Print Assumptions C124_tuning_partial.
Print Assumptions C124_tuning_exact_partial.
Print Assumptions C124_tuning_refuted.
Print Assumptions C124_ws2812b_partial.
Print Assumptions C124_ws2812b_refuted.
Print Assumptions C124_blink.
Print Assumptions C64_times.
