(** SPI clock: C57, C58. *)
From Verif Require Import Hdl Mem_spec Mem_proofs Timing_model Timing_proofs Spiclk_model.

(** How many cycles the generator has been enabled without interruption. *)
Definition enabled (t : list ck_obs) : Z := Z.of_nat (length (since (fun o => negb (ko_en o)) t)).

Lemma enabled_snoc t o : enabled (t ++ [o]) = if ko_en o then enabled t + 1 else 0.
Proof. unfold enabled. rewrite since_snoc. destruct (ko_en o); cbn [negb length]; [rewrite app_length; cbn [length]|]; lia. Qed.
Lemma enabled_nonneg t : 0 <= enabled t.
Proof. unfold enabled. lia. Qed.

Lemma ck_inv div ins : 0 <= div < 256 ->
  let n := enabled (trace (clkgen div) ins) in let s := state (clkgen div) ins in
  ck_cnt s = n mod (div + 1) /\ ck_clk s = Z.odd (n / (div + 1)).
Proof.
  intros Hd. cbv zeta. revert ins. apply (run_inv (clkgen div) (fun t s => ck_cnt s = enabled t mod (div + 1) /\ ck_clk s = Z.odd (enabled t / (div + 1)))).
  - unfold enabled. cbn [since fold_left length creset clkgen ck_reset ck_cnt ck_clk Z.of_nat]. rewrite Z.mod_0_l, Z.div_0_l by lia. auto.
  - intros t s en [H1 H2]. rewrite enabled_snoc. cbn [clkgen cout cnext ko_en]. pose proof (enabled_nonneg t) as Hn. set (n := enabled t) in *.
    unfold ck_next. rewrite H1, H2. destruct en; cbn [ck_cnt ck_clk].
    2: { rewrite Z.mod_0_l, Z.div_0_l by lia. auto. }
    pose proof (Z.mod_pos_bound n (div + 1) ltac:(lia)) as Hm. pose proof (Z.div_mod n (div + 1) ltac:(lia)) as E.
    set (q := n / (div + 1)) in *. set (m := n mod (div + 1)) in *.
    destruct (Z.ltb_spec m div); cbn [ck_cnt ck_clk].
    + assert (n + 1 = q * (div + 1) + (m + 1)) as -> by lia.
      rewrite Z.div_add_l, (Z.add_comm (q * _)), Z.mod_add, Z.mod_small, Z.div_small, Z.add_0_r by lia.
      rewrite trunc_small by (change (2 ^ 8) with 256; lia). auto.
    + assert (n + 1 = (q + 1) * (div + 1)) as -> by lia.
      rewrite Z.div_mul, Z.mod_mul by lia. rewrite Z.add_1_r, Z.odd_succ, <- Z.negb_odd. auto.
Qed.

(** C57: after n enabled cycles in a row the clock has toggled floor(n/(div+1))
    times from low; posedge (negedge) is high exactly in the enabled cycle that
    ends a low (high) half period, and posedge_reg, posedge_reg2 repeat posedge one
    and two cycles later. *)
Theorem C57_clock : forall div ins t1 o t2, 0 <= div < 256 ->
  trace (clkgen div) ins = t1 ++ o :: t2 ->
  let n := enabled t1 in
  ko_clk o = Z.odd (n / (div + 1)) /\
  (ko_posedge o = true <-> ko_en o = true /\ Z.odd (n / (div + 1)) = false /\ n mod (div + 1) = div) /\
  (ko_negedge o = true <-> ko_en o = true /\ Z.odd (n / (div + 1)) = true /\ n mod (div + 1) = div).
Proof.
  intros div ins t1 o t2 Hd E n. apply trace_one in E. destruct E as (a & en & b & -> & <- & ->).
  destruct (ck_inv div a Hd) as [H1 H2]. cbn [clkgen cout ko_clk ko_posedge ko_negedge ko_en]. unfold ck_posedge, ck_negedge. rewrite H1, H2.
  fold (clkgen div). fold n. split; [reflexivity|].
  rewrite !andb_true_iff, negb_true_iff, Z.eqb_eq. tauto.
Qed.

(** The strobes announce the edges. *)
Theorem C57_strobes : forall div ins t1 o o' t2, 0 <= div < 256 ->
  trace (clkgen div) ins = t1 ++ o :: o' :: t2 ->
  (ko_clk o = false -> (ko_clk o' = true <-> ko_posedge o = true)) /\
  (ko_clk o = true -> (ko_clk o' = false <-> ko_negedge o = true \/ ko_en o = false)) /\
  ko_posedge_reg o' = ko_posedge o /\ ko_posedge_reg2 o' = ko_posedge_reg o.
Proof.
  intros div ins t1 o o' t2 Hd E. apply trace_two in E. destruct E as (a & en & en' & b & -> & _ & -> & ->).
  destruct (ck_inv div a Hd) as [H1 _]. assert (Hm : 0 <= ck_cnt (state (clkgen div) a) < div + 1).
  { rewrite H1. apply Z.mod_pos_bound. lia. }
  cbn [clkgen cout cnext ko_clk ko_posedge ko_negedge ko_en ko_posedge_reg ko_posedge_reg2]. fold (clkgen div).
  set (s := state (clkgen div) a) in *. clearbody s. unfold ck_next, ck_posedge, ck_negedge.
  destruct en; cbn [andb ck_clk ck_pr ck_pr2].
  - destruct (Z.ltb_spec (ck_cnt s) div); destruct (Z.eqb_spec (ck_cnt s) div); try lia; cbn [ck_clk ck_pr ck_pr2];
    destruct (ck_clk s); cbn; intuition congruence.
  - destruct (ck_clk s); cbn; intuition congruence.
Qed.

Example C57_nonvacuous :
  map ko_clk (trace (clkgen 1) [true; true; true; true; true; true; false; true; true; true]) =
  [false; false; true; true; false; false; true; false; false; true].
Proof. reflexivity. Qed.

(** ** C58: the clock is never faster than requested.
    The request is capped at half the system clock.  The period is 2*(div+1) system
    cycles, so this reads sys <= request * 2*(div+1) with div the value in the clock
    generator's register. *)
Definition capped (sys spi : Z) : Z := Z.min spi (sys / 2).
Definition not_faster (sys spi : Z) : Prop := sys <= capped sys spi * (2 * (spi_div_reg sys spi + 1)).

(** False: the register has 8 bits; 100 MHz / 100 kHz needs 499 and gets 243. *)
Theorem C58_refuted : exists sys spi, 0 < spi /\ 2 <= sys /\ ~ not_faster sys spi.
Proof. exists 100000000, 100000. unfold not_faster. vm_compute. intuition congruence. Qed.

(** Down to 1/512 of the system clock it holds, and the clock is the fastest one
    the divider can make that is not too fast. *)
Theorem C58_clock_partial : forall sys spi, 0 < spi -> 2 <= sys < 2 ^ 51 -> sys <= 512 * capped sys spi ->
  not_faster sys spi /\
  0 <= spi_divisor sys spi < 256 /\
  (forall d, 0 <= d -> sys <= capped sys spi * (2 * (d + 1)) -> spi_div_reg sys spi <= d).
Proof.
  intros sys spi Hs Hy Hm.
  assert (Hf : 0 < capped sys spi /\ 2 * capped sys spi <= sys).
  { unfold capped. pose proof (Z.mul_div_le sys 2 ltac:(lia)). assert (1 <= sys / 2) by (apply Z.div_le_lower_bound; lia). lia. }
  unfold not_faster, spi_div_reg. rewrite spi_divisor_Z by lia. cbv zeta. fold (capped sys spi). set (f := capped sys spi) in *. destruct Hf as [Hf1 Hf2].
  pose proof (cdiv_spec (sys - 2 * f) (2 * f) ltac:(lia)) as [L U]. set (d := cdiv _ _) in *.
  assert (D : 0 <= d < 256) by nia. rewrite trunc_small by exact D. split; [nia|]. split; [lia|]. intros d' H0 H'. nia.
Qed.
(** The chip-select delay is the least number of system cycles that covers [d] periods of
    the requested clock. *)
Theorem C58_cs_delay : forall sys spi d, 0 < spi -> 2 <= sys < 2 ^ 53 -> 0 <= d -> d * sys < 2 ^ 53 ->
  d * sys <= spi_cs_delay sys spi d * capped sys spi /\
  (forall n, d * sys <= n * capped sys spi -> spi_cs_delay sys spi d <= n).
Proof.
  intros sys spi d Hs Hy Hd Hm. rewrite spi_cs_delay_Z by lia. fold (capped sys spi).
  assert (Hf : 0 < capped sys spi). { unfold capped. assert (1 <= sys / 2) by (apply Z.div_le_lower_bound; lia). lia. }
  pose proof (cdiv_spec (d * sys) (capped sys spi) Hf) as [L U]. split; [lia|]. intros n Hn. nia.
Qed.
Example C58_nonvacuous : 0 < 10000000 /\ 2 <= 100000000 < 2 ^ 51 /\ 100000000 <= 512 * capped 100000000 10000000 /\ spi_div_reg 100000000 10000000 = 4 /\ spi_cs_delay 100000000 10000000 2 = 20.
Proof. vm_compute. intuition congruence. Qed.

Print Assumptions C57_clock.
Print Assumptions C57_strobes.
Print Assumptions C58_refuted.
Print Assumptions C58_clock_partial.
Print Assumptions C58_cs_delay.
