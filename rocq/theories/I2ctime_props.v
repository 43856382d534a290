(** Speed of the I2C bus (C121). *)
From Verif Require Import Hdl Bits I2c_model I2c_spec I2c_proofs I2c_props I2ctime_spec I2cstream_model I2cstream_proofs I2cproto_model I2cproto_props.
From Coq Require Import Lia.

Section Time.
  Context (period : Z) (stretch oe : bool) (HP : 1 <= period).
  Let c := i2c_initiator period stretch oe.
  Let Q := period / 4.

  Lemma Qr : 0 <= Q < period.
  Proof using HP. subst Q. split; [apply Z.div_pos; lia|apply Z.div_lt; lia]. Qed.

  Definition upright (s : i2c_state) : Prop :=
    0 <= s_timer s <= Q /\ (s_f s <> Idle -> s_busy s = true) /\
    match s_f s with
    | Idle | StartSclL | StopSclL | WdSclL | WaSclL | RdSclL | RaSclL
    | StartSdaL | StopSdaH | WdSdaN | WaSdaN | RdSdaN | RaSdaN => d_scl (s_d s) = true
    | StartSdaH | StopSdaL | WdSdaX | WaSdaH | RdSdaH | RaSdaX => d_scl (s_d s) = false
    | _ => True
    end.

  Definition need (s : i2c_state) : Z :=
    match s_f s with
    | StartSdaL | StopSdaH | WdSdaN | WaSdaN | RdSdaN | RaSdaN
    | StartSdaH | StopSdaL | WdSdaX | WaSdaH | RdSdaH | RaSdaX => Q
    | StartSclH | StopSclH | WdSclH | WaSclH | RdSclH | RaSclH => if d_scl (s_d s) then Q else Q + Q + 1
    | _ => Q + Q + 1
    end.

  Lemma timer_case s : upright s ->
    (stb s = true /\ s_timer s = 0 /\ timer_next period stretch oe s = Q) \/
    (stb s = false /\ s_timer s <> 0 /\ (timer_next period stretch oe s = Q \/ timer_next period stretch oe s = s_timer s - 1 \/ timer_next period stretch oe s = s_timer s)
     /\ s_timer s - 1 <= timer_next period stretch oe s <= Q).
  Proof using HP.
    intros (H & _). pose proof Qr. unfold timer_next, stb. fold Q. rewrite (trunc_range_small period Q) by lia.
    destruct (Z.eqb_spec (s_timer s) 0) as [E|E]; cbn [orb]; [left; auto|right].
    split; [reflexivity|]. split; [exact E|]. destruct (negb (s_busy s)); [lia|]. rewrite trunc_range_small by lia.
    destruct (_ || _); lia.
  Qed.

  Lemma upright_step s i : upright s -> upright (i2c_next period stretch oe s i).
  Proof using HP.
    intros U. pose proof (timer_case s U) as T. pose proof Qr. destruct U as (U1 & U2 & U3).
    unfold i2c_next. destruct (fsm_next stretch oe s i) as [f d] eqn:FN.
    unfold upright. cbn [s_f s_timer s_busy s_d]. split; [destruct T as [(_ & _ & ->)|(_ & T0 & _ & T)]; lia|].
    unfold fsm_next, scl_l, scl_h, stb_x, bit7 in FN. unfold busy_next.
    destruct (s_f s) eqn:F.
    1: { destruct (cmd_taken s i) as [[]|]; injection FN as <- <-; repeat match goal with |- context [if ?b then _ else _] => destruct b end;
         cbn; split; auto; try congruence. }
    all: specialize (U2 ltac:(discriminate)); rewrite U2.
    all: destruct (stb s); try destruct (d_scl (s_d s)) eqn:?; cbn [andb] in FN; try destruct (negb stretch || scl_i oe s);
         try destruct (d_bitno (s_d s) =? 7); injection FN as <- <-; cbn; split; auto; congruence.
  Qed.
  Lemma upright_run ins : upright (state c ins).
  Proof using HP.
    apply state_inv; [|intros s i; apply upright_step]. pose proof Qr. unfold upright. cbn. split; [lia|]. split; auto.
  Qed.

  Lemma need_step s i a : upright s -> need s <= a + s_timer s ->
    need (i2c_next period stretch oe s i) <= a + 1 + s_timer (i2c_next period stretch oe s i).
  Proof using HP.
    intros U H. pose proof (timer_case s U) as T. pose proof Qr. destruct U as (U1 & _ & U3).
    unfold i2c_next. destruct (fsm_next stretch oe s i) as [f d] eqn:FN. unfold need in *. cbn [s_f s_timer s_d].
    unfold fsm_next, scl_l, scl_h, stb_x, bit7 in FN.
    destruct (s_f s) eqn:F.
    1: { destruct (cmd_taken s i) as [[]|]; injection FN as <- <-; try destruct (scl_i oe s); try destruct (sda_i s); try destruct (d_sda (s_d s));
         cbn; try rewrite U3; lia. }
    all: destruct T as [(T1 & T0 & T)|(T1 & T0 & _ & T)]; rewrite T1 in FN; try destruct (d_scl (s_d s)) eqn:ES; try discriminate; cbn [andb] in FN; try destruct (negb stretch || scl_i oe s);
         try destruct (d_bitno (s_d s) =? 7); injection FN as <- <-; cbn; rewrite ?ES; try lia.
  Qed.
  Lemma need_from ins : forall s a, upright s -> need s <= a + s_timer s ->
    need (state_from c s ins) <= a + Z.of_nat (length ins) + s_timer (state_from c s ins).
  Proof using HP.
    induction ins as [|i ins IH]; intros s a U H; [cbn [state_from length fold_left] in *; lia|].
    change (state_from c s (i :: ins)) with (state_from c (cnext c s i) ins).
    pose proof (IH (cnext c s i) (a + 1) (upright_step s i U) (need_step s i a U H)). cbn [length]. lia.
  Qed.
  Lemma quarter_from ins : forall s a, upright s -> Q <= a + s_timer s ->
    Q <= a + Z.of_nat (length ins) + s_timer (state_from c s ins).
  Proof using HP.
    induction ins as [|i ins IH]; intros s a U H; [cbn [state_from length fold_left] in *; lia|].
    change (state_from c s (i :: ins)) with (state_from c (cnext c s i) ins).
    pose proof (IH (cnext c s i) (a + 1) (upright_step s i U)) as K. cbn [length].
    assert (Q <= a + 1 + s_timer (cnext c s i)); [|specialize (K ltac:(assumption)); lia].
    cbn [c i2c_initiator cnext]. unfold i2c_next. destruct (fsm_next stretch oe s i). cbn [s_timer].
    destruct (timer_case s U) as [(_ & T0 & T)|(_ & T0 & _ & T)]; pose proof Qr; lia.
  Qed.

  (** A change of either line comes with an expired timer. *)
  Lemma move_facts s i : upright s ->
    let s' := cnext c s i in
    (d_scl (s_d s) <> d_scl (s_d s') -> s_timer s = 0 /\ s_timer s' = Q /\ need s = Q + Q + 1 /\ need s' = Q) /\
    (d_sda (s_d s) <> d_sda (s_d s') -> s_timer s = 0 /\ s_timer s' = Q).
  Proof using HP.
    intros U s'. subst s'. cbn [c i2c_initiator cnext]. pose proof (timer_case s U) as T. destruct U as (U1 & _ & U3).
    unfold i2c_next. destruct (fsm_next stretch oe s i) as [f d] eqn:FN. unfold need in *. cbn [s_f s_timer s_d].
    unfold fsm_next, scl_l, scl_h, stb_x, bit7 in FN.
    destruct (s_f s) eqn:F.
    1: { destruct (cmd_taken s i) as [[]|]; injection FN as <- <-; repeat match goal with |- context [if ?b then _ else _] => destruct b end;
         cbn; split; intros; congruence. }
    all: destruct T as [(T1 & T0 & T)|(T1 & T0 & _ & T)]; rewrite T1 in FN; try destruct (d_scl (s_d s)) eqn:ES; try discriminate; cbn [andb] in FN; try destruct (negb stretch || scl_i oe s);
         try destruct (d_bitno (s_d s) =? 7); injection FN as <- <-; cbn; rewrite ?ES; split; intros K; try congruence; auto.
  Qed.

  (** Cycle [n] of a trace. *)
  Lemma nth_trace : forall ins n o, nth_error (trace c ins) n = Some o ->
    exists i, nth_error ins n = Some i /\ o = cout c (state c (firstn n ins)) i /\ firstn (S n) ins = firstn n ins ++ [i].
  Proof using.
    intros ins n o H. apply nth_error_split in H. destruct H as (t1 & t2 & H & L). apply trace_one in H.
    destruct H as (a & i & b & -> & E & ->). assert (La : length a = n) by (rewrite <- L, <- E; symmetry; apply trace_length).
    exists i. rewrite <- La. rewrite nth_error_app2, Nat.sub_diag by lia. split; [reflexivity|].
    assert (F : firstn (length a) (a ++ i :: b) = a) by (rewrite firstn_app, firstn_all, Nat.sub_diag; cbn [firstn]; apply app_nil_r).
    rewrite F. split; [reflexivity|].
    rewrite firstn_app, firstn_all2 by lia. now replace (S (length a) - length a)%nat with 1%nat by lia.
  Qed.
  Lemma state_later ins k n : (k <= n)%nat -> (n <= length ins)%nat ->
    state c (firstn n ins) = state_from c (state c (firstn k ins)) (firstn (n - k) (skipn k ins)) /\ length (firstn (n - k) (skipn k ins)) = (n - k)%nat.
  Proof using.
    intros H1 H2. split; [|rewrite firstn_length, skipn_length; lia].
    unfold state. rewrite <- state_from_app. f_equal. transitivity (firstn n (firstn k ins ++ skipn k ins)); [now rewrite firstn_skipn|].
    rewrite firstn_app, firstn_firstn, Nat.min_r by lia. f_equal. rewrite firstn_length, Nat.min_l by lia. reflexivity.
  Qed.

  Lemma step_at ins n o o' : nth_error (trace c ins) n = Some o -> nth_error (trace c ins) (S n) = Some o' ->
    exists i, let s := state c (firstn n ins) in
      upright s /\ state c (firstn (S n) ins) = cnext c s i /\ o = cout c s i /\ (S n < length ins)%nat /\
      io_scl o = d_scl (s_d s) /\ io_sda o = d_sda (s_d s) /\
      io_scl o' = d_scl (s_d (cnext c s i)) /\ io_sda o' = d_sda (s_d (cnext c s i)).
  Proof using HP.
    intros H H'. pose proof (nth_trace _ _ _ H) as (i & _ & E1 & E2). pose proof (nth_trace _ _ _ H') as (i' & _ & E3 & _).
    exists i. cbv zeta. assert (ES : state c (firstn (S n) ins) = cnext c (state c (firstn n ins)) i).
    { rewrite E2. unfold state. now rewrite state_from_app. }
    split; [apply upright_run|]. split; [exact ES|]. split; [exact E1|]. split.
    { rewrite <- (trace_length c). apply nth_error_Some. congruence. }
    rewrite E1, E3, ES. repeat split.
  Qed.
End Time.

(** C121: any two changes of the lines are at least period/4 + 1 cycles apart, and the
    two lines never change together.  In particular SDA is set up and held that long
    around every change of SCL. *)
Theorem C121_set_up_and_hold : forall period stretch oe ins,
  1 <= period ->
  let t := trace (i2c_initiator period stretch oe) ins in
  (forall i j, (i < j)%nat -> line_moves t i -> line_moves t j -> period / 4 + 1 <= Z.of_nat j - Z.of_nat i) /\
  (forall i, changes_at io_scl t i -> ~ changes_at io_sda t i).
Proof.
  intros period stretch oe ins HP t. split.
  - assert (M : forall n, line_moves t n -> let s := state (i2c_initiator period stretch oe) (firstn n ins) in
      let s' := state (i2c_initiator period stretch oe) (firstn (S n) ins) in
      s_timer s = 0 /\ s_timer s' = period / 4 /\ (S n < length ins)%nat).
    { intros n [(o & o' & H1 & H2 & D)|(o & o' & H1 & H2 & D)].
      all: destruct (step_at period stretch oe HP ins n o o' H1 H2) as (i & U & E & _ & L & A1 & A2 & A3 & A4); cbv zeta; rewrite E;
        destruct (move_facts period stretch oe HP _ i U) as [F1 F2].
      - destruct F1 as (? & ? & _); [congruence|]. auto.
      - destruct F2; [congruence|]. auto. }
    intros i j L Mi Mj. destruct (M i Mi) as (_ & Ti & _). destruct (M j Mj) as (Tj & _ & Lj).
    destruct (state_later period stretch oe ins (S i) j ltac:(lia) ltac:(lia)) as [E EL].
    pose proof (quarter_from period stretch oe HP (firstn (j - S i) (skipn (S i) ins)) _ 0 (upright_run period stretch oe HP (firstn (S i) ins))) as K.
    rewrite Ti in K. specialize (K ltac:(lia)). rewrite <- E, Tj, EL in K. lia.
  - intros n (o & o' & H1 & H2 & D) (p & p' & H3 & H4 & D'). rewrite H1 in H3. injection H3 as <-. rewrite H2 in H4. injection H4 as <-.
    apply nth_error_split in H1. destruct H1 as (t1 & t2 & E & L). rewrite E in H2. rewrite nth_error_app2 in H2 by lia.
    replace (S n - length t1)%nat with 1%nat in H2 by lia. cbn in H2. destruct t2 as [|q t2]; [discriminate|]. injection H2 as ->.
    destruct (C42_sda_changes _ _ _ _ _ _ _ _ E D') as [X _]. auto.
Qed.

(** C121: SCL stays low, and high, for at least 2 * (period/4 + 1) cycles, and the
    cycle of SCL is at least 4 * (period/4 + 1), that is, more than [period], long,
    whatever the commands, the levels on the bus and the clock stretching. *)
Theorem C121_scl_low_high : forall period stretch oe ins i j,
  1 <= period ->
  let t := trace (i2c_initiator period stretch oe) ins in
  (i < j)%nat -> changes_at io_scl t i -> changes_at io_scl t j ->
  2 * (period / 4 + 1) <= Z.of_nat j - Z.of_nat i.
Proof.
  intros period stretch oe ins i j HP t L Mi Mj.
  destruct Mi as (o & o' & H1 & H2 & D), Mj as (p & p' & H3 & H4 & D').
  destruct (step_at period stretch oe HP ins i o o' H1 H2) as (x & U & E & _ & _ & A1 & _ & A3 & _).
  destruct (step_at period stretch oe HP ins j p p' H3 H4) as (y & V & F & _ & Lj & B1 & _ & B3 & _).
  destruct (move_facts period stretch oe HP _ x U) as [F1 _]. destruct F1 as (_ & T1 & _ & N1); [congruence|].
  destruct (move_facts period stretch oe HP _ y V) as [F2 _]. destruct F2 as (T2 & _ & N2 & _); [congruence|].
  rewrite <- E in T1, N1.
  destruct (state_later period stretch oe ins (S i) j ltac:(lia) ltac:(lia)) as [EE EL].
  pose proof (need_from period stretch oe HP (firstn (j - S i) (skipn (S i) ins)) _ 0 (upright_run period stretch oe HP (firstn (S i) ins))) as K.
  rewrite T1, N1 in K. specialize (K ltac:(lia)). rewrite <- EE, T2, N2, EL in K. lia.
Qed.

(** Between two rises of SCL there is a fall. *)
Lemma fall_between (t : list i2c_obs) i j : scl_rises t i -> scl_rises t j -> (i < j)%nat ->
  exists k, (i < k < j)%nat /\ changes_at io_scl t k.
Proof.
  intros (o & o' & _ & H1 & _ & U) (p & p' & H2 & _ & V & _) L.
  assert (G : forall n i o', (j - i = n)%nat -> (i < j)%nat -> nth_error t (S i) = Some o' -> io_scl o' = true -> exists k, (i < k < j)%nat /\ changes_at io_scl t k).
  { clear - H2 V. induction n as [|n IH]; intros i o' E L H U; [lia|].
    destruct (Nat.eq_dec (S i) j) as [<-|N]; [rewrite H2 in H; congruence|].
    destruct (nth_error t (S (S i))) as [q|] eqn:Q.
    - destruct (io_scl q) eqn:W.
      + destruct (IH (S i) q ltac:(lia) ltac:(lia) Q W) as (k & ? & ?). exists k. split; [lia|auto].
      + exists (S i). split; [lia|]. exists o', q. repeat split; auto. congruence.
    - exfalso. apply nth_error_None in Q. assert (j < length t)%nat by (apply nth_error_Some; congruence). lia. }
  now apply (G (j - i)%nat i o').
Qed.

Theorem C121_scl_period : forall period stretch oe ins i j,
  1 <= period ->
  let t := trace (i2c_initiator period stretch oe) ins in
  (i < j)%nat -> scl_rises t i -> scl_rises t j ->
  4 * (period / 4 + 1) <= Z.of_nat j - Z.of_nat i /\ period < Z.of_nat j - Z.of_nat i.
Proof.
  intros period stretch oe ins i j HP t L Ri Rj. destruct (fall_between _ _ _ Ri Rj L) as (k & K & C).
  assert (RC : forall n, scl_rises t n -> changes_at io_scl t n).
  { intros n (o & o' & ? & ? & E1 & E2). exists o, o'. repeat split; auto. congruence. }
  pose proof (C121_scl_low_high period stretch oe ins i k HP ltac:(lia) (RC i Ri) C).
  pose proof (C121_scl_low_high period stretch oe ins k j HP ltac:(lia) C (RC j Rj)).
  pose proof (Z_div_mod_eq_full period 4). pose proof (Z.mod_pos_bound period 4). lia.
Qed.

(** C121, the bus is never faster than asked for: with the period computed by I2CProto
    and I2CRegisterInit from the system clock and the I2C frequency, two rises of SCL
    are more than one period of the I2C frequency apart. *)
Theorem C121_never_too_fast : forall sys_clk i2c_freq stretch oe ins i j,
  0 < i2c_freq <= sys_clk ->
  let t := trace (i2c_initiator (sys_clk / i2c_freq) stretch oe) ins in
  (i < j)%nat -> scl_rises t i -> scl_rises t j ->
  sys_clk < (Z.of_nat j - Z.of_nat i) * i2c_freq.
Proof.
  intros sys f stretch oe ins i j H t L Ri Rj.
  assert (HP : 1 <= sys / f) by (apply Z.div_le_lower_bound; lia).
  destruct (C121_scl_period _ stretch oe ins i j HP L Ri Rj) as [_ K].
  pose proof (Z_div_mod_eq_full sys f). pose proof (Z.mod_pos_bound sys f). nia.
Qed.

Lemma b7 x : 0 <= x < 8 -> (x =? 7) = false -> trunc 3 (x + 1) = x + 1.
Proof. intros H E. apply trunc_small. change (2 ^ 3) with 8. lia. Qed.
Lemma b7' x : (x =? 7) = true -> trunc 3 (x + 1) = 0.
Proof. intros E. apply Z.eqb_eq in E. subst x. reflexivity. Qed.

Lemma nth_error_firstn_lt {X} : forall n k (l : list X), (k < n)%nat -> nth_error (firstn n l) k = nth_error l k.
Proof. induction n as [|n IH]; intros [|k] [|x l] H; try lia; cbn; auto. apply IH. lia. Qed.
Lemma nth_error_skipn {X} : forall n k (l : list X), nth_error (skipn n l) k = nth_error l (n + k).
Proof. induction n as [|n IH]; intros k [|x l]; cbn; auto. destruct k; reflexivity. Qed.

Lemma idle_dec (f : i2c_fsm) : f = Idle \/ f <> Idle.
Proof. destruct f; ((left; reflexivity) || (right; discriminate)). Qed.

(** Duration of a command. *)
Section Duration.
  Context (period : Z) (stretch oe : bool) (HP : 1 <= period).
  Let c := i2c_initiator period stretch oe.
  Let Q := period / 4.

  (** Quarters left before the initiator is idle again. *)
  Definition hq (s : i2c_state) : Z := if d_scl (s_d s) then 0 else 1.
  Definition quarters (s : i2c_state) : Z :=
    let b := 28 - (d_bitno (s_d s) + d_bitno (s_d s) + d_bitno (s_d s) + d_bitno (s_d s)) in
    match s_f s with
    | Idle => 0
    | StartSclL => 4 | StartSdaH => 3 | StartSclH => 1 + hq s | StartSdaL => 1
    | StopSclL => 4 | StopSdaL => 3 | StopSclH => 1 + hq s | StopSdaH => 1
    | WdSclL => b + 8 | WdSdaX => b + 7 | WdSclH => b + 5 + hq s | WdSdaN => b + 5
    | WaSclL => 4 | WaSdaH => 3 | WaSclH => 1 + hq s | WaSdaN => 1
    | RdSclL => b + 8 | RdSdaH => b + 7 | RdSclH => b + 5 + hq s | RdSdaN => b + 5
    | RaSclL => 4 | RaSdaX => 3 | RaSclH => 1 + hq s | RaSdaN => 1
    end.

  Definition counted (s : i2c_state) : Prop :=
    match s_f s with
    | WdSclL | WdSdaX | WdSclH | WdSdaN | RdSclL | RdSdaH | RdSclH | RdSdaN => 0 <= d_bitno (s_d s) < 8
    | _ => d_bitno (s_d s) = 0
    end.
  (** Without clock stretching, a data or acknowledge bit is left at once after the rise. *)
  Definition steady (s : i2c_state) : Prop :=
    match s_f s with
    | WdSclH | WaSclH | RdSclH | RaSclH => d_scl (s_d s) = true -> s_timer s = Q
    | _ => True
    end.

  Lemma counted_step s i : counted s -> counted (i2c_next period stretch oe s i).
  Proof using.
    intros U. unfold i2c_next. destruct (fsm_next stretch oe s i) as [f d] eqn:FN. unfold counted in *. cbn [s_f s_d].
    unfold fsm_next, scl_l, scl_h, stb_x, bit7 in FN.
    destruct (s_f s) eqn:F.
    1: { destruct (cmd_taken s i) as [[]|]; injection FN as <- <-; try destruct (scl_i oe s); try destruct (sda_i s); try destruct (d_sda (s_d s)); cbn; lia. }
    all: destruct (stb s); try destruct (d_scl (s_d s) && _);
         try destruct (d_bitno (s_d s) =? 7) eqn:B7; injection FN as <- <-; cbn; auto; try lia.
    all: try (apply b7'; exact B7); rewrite b7 by auto; lia.
  Qed.
  Lemma counted_run ins : counted (state c ins).
  Proof using. apply state_inv; [reflexivity|intros s i; apply counted_step]. Qed.

  (** Time, in cycles, before the initiator is idle: at least [rest]. *)
  Definition rest (s : i2c_state) : Z :=
    match s_f s with Idle => 0 | _ => s_timer s + (quarters s - 1) * (Q + 1) + 1 end.

  Lemma quarters_pos s : counted s -> s_f s <> Idle -> 1 <= quarters s.
  Proof using. clear. unfold counted, quarters, hq. destruct (s_f s), (d_scl (s_d s)); intros; try contradiction; lia. Qed.

  (** One quarter is used up by each expiry of the timer. *)
  Lemma quarters_step s i : upright period s -> counted s -> s_f s <> Idle ->
    let s' := i2c_next period stretch oe s i in
    if stb s then quarters s' = quarters s - 1 \/ (quarters s' = quarters s /\ d_scl (s_d s) = true /\
                     match s_f s with StartSclH | StopSclH | WdSclH | WaSclH | RdSclH | RaSclH => True | _ => False end)
    else quarters s' = quarters s /\ s_f s' <> Idle.
  Proof using.
    intros U C NI s'. subst s'. destruct U as (_ & _ & U3). unfold i2c_next. destruct (fsm_next stretch oe s i) as [f d] eqn:FN.
    unfold counted, quarters, hq in *. cbn [s_f s_d].
    unfold fsm_next, scl_l, scl_h, stb_x, bit7 in FN.
    destruct (s_f s) eqn:F; try contradiction;
    destruct (stb s); try destruct (d_scl (s_d s)) eqn:ES; cbn [andb] in FN; try destruct (negb stretch || scl_i oe s);
         try destruct (d_bitno (s_d s) =? 7) eqn:B7; injection FN as <- <-; cbn [s_f s_d d_scl d_bitno set_scl set_sda set_wsh set_rsh set_acko set_datao inc_bitno set_bitno];
         rewrite ?ES; try discriminate;
         first [ split; [lia|congruence] | left; lia | left; rewrite b7 by auto; lia | left; apply Z.eqb_eq in B7; lia | right; repeat split; auto; lia ].
  Qed.

  Lemma rest_step s i : upright period s -> counted s -> s_f s <> Idle ->
    rest s <= rest (i2c_next period stretch oe s i) + 1 /\
    (rest s <= 1 -> s_timer s = 0).
  Proof using HP.
    intros U C NI. pose proof (quarters_step s i U C NI) as K. cbv zeta in K. pose proof (quarters_pos s C NI) as QP.
    pose proof (timer_case period stretch oe HP s U) as T. pose proof (Qr period HP) as QR. fold Q in QR, T.
    assert (E : rest s = s_timer s + (quarters s - 1) * (Q + 1) + 1) by (unfold rest; destruct (s_f s); congruence).
    destruct U as (U1 & _). fold Q in U1. split; [|rewrite E; nia].
    pose proof (quarters_pos _ (counted_step s i C)) as QP'.
    assert (ET : s_timer (i2c_next period stretch oe s i) = timer_next period stretch oe s) by (unfold i2c_next; destruct (fsm_next stretch oe s i); reflexivity).
    rewrite E. destruct T as [(T1 & T0 & T)|(T1 & T0 & _ & T)]; rewrite T1 in K.
    - unfold rest. destruct (s_f (i2c_next period stretch oe s i)) eqn:F'.
      1: { assert (quarters (i2c_next period stretch oe s i) = 0) by (unfold quarters; rewrite F'; reflexivity). destruct K as [K|(K & _)]; nia. }
      all: rewrite ET, T, T0; destruct K as [->|(-> & _)]; nia.
    - destruct K as [K NI']. unfold rest. destruct (s_f (i2c_next period stretch oe s i)) eqn:F'; try contradiction.
      all: rewrite ET, K; lia.
  Qed.

  Definition fresh (s : i2c_state) : Prop := s_f s = Idle -> s_busy s = true -> s_timer s = Q \/ s_timer s = 0.
  Lemma fresh_step s i : upright period s -> fresh s -> fresh (i2c_next period stretch oe s i).
  Proof using HP.
    intros U H. pose proof (timer_case period stretch oe HP s U) as T. fold Q in T.
    unfold fresh in *. unfold i2c_next. destruct (fsm_next stretch oe s i) as [f d] eqn:FN. cbn [s_f s_busy s_timer]. intros F' B.
    destruct T as [(_ & _ & ->)|(ST & _)]; [auto|]. exfalso. unfold busy_next in B.
    unfold fsm_next, scl_l, scl_h, stb_x in FN. rewrite ST in FN.
    destruct (s_f s) eqn:F.
    1: { destruct (cmd_taken s i) as [[]|]; injection FN as <- <-; try destruct (scl_i oe s); try destruct (sda_i s); try destruct (d_sda (s_d s)); discriminate. }
    all: try destruct (d_scl (s_d s) && _); injection FN as <- <-; discriminate.
  Qed.
  Lemma fresh_run ins : fresh (state c ins).
  Proof using HP.
    assert (X : upright period (state c ins) /\ fresh (state c ins)); [|apply X].
    apply state_inv.
    - split; [apply (upright_run period stretch oe HP [])|]. right. reflexivity.
    - intros s i [A B]. split; [now apply upright_step|now apply fresh_step].
  Qed.

  Lemma rest_after s i cmd : upright period s -> counted s -> fresh s -> cmd_taken s i = Some cmd -> cmd <> CStart -> cmd <> CStop ->
    rest (i2c_next period stretch oe s i) = timer_next period stretch oe s + 35 * (Q + 1) + 1 /\
    Q - 1 <= timer_next period stretch oe s /\ (s_busy s = false -> timer_next period stretch oe s = Q).
  Proof using HP.
    intros U C FR HC N1 N2. assert (F : s_f s = Idle) by (unfold cmd_taken in HC; destruct (s_f s); congruence || discriminate).
    split.
    - unfold counted in C. rewrite F in C. unfold i2c_next, fsm_next. rewrite F, HC.
      destruct cmd; try contradiction; unfold rest, quarters; cbn [s_f s_d s_timer d_bitno set_wsh set_rack]; rewrite C; lia.
    - pose proof (Qr period HP) as QR. pose proof (timer_case period stretch oe HP s U) as T. fold Q in T, QR.
      assert (B : s_busy s = false -> timer_next period stretch oe s = Q).
      { intros B. unfold timer_next. rewrite B. cbn [negb]. rewrite orb_true_r. apply trunc_range_small. exact QR. }
      split; [|exact B]. destruct (s_busy s) eqn:EB; [|rewrite B; auto; lia]. specialize (FR F EB). destruct T as [T|T]; lia.
  Qed.

  (** [k] cycles after the state of cycle [i]. *)
  Lemma state_S ins k x : nth_error ins k = Some x -> state c (firstn (S k) ins) = i2c_next period stretch oe (state c (firstn k ins)) x.
  Proof using.
    intros H. assert (E : firstn (S k) ins = firstn k ins ++ [x]).
    { revert k H. induction ins as [|y l IH]; intros [|k] H; try discriminate; cbn in *; [now injection H as ->|]. f_equal. now apply IH. }
    rewrite E. unfold state. now rewrite state_from_app.
  Qed.

  Lemma rest_run ins i x cmd : nth_error ins i = Some x -> cmd_taken (state c (firstn i ins)) x = Some cmd -> cmd <> CStart -> cmd <> CStop ->
    forall k, (i < k <= length ins)%nat ->
    36 * (Q + 1) <= Z.of_nat k - Z.of_nat i \/ 36 * (Q + 1) <= rest (state c (firstn k ins)) + (Z.of_nat k - Z.of_nat i).
  Proof using HP.
    intros Hx HC N1 N2. induction k as [|k IH]; intros H; [lia|].
    destruct (Nat.eq_dec k i) as [->|NK].
    - right. rewrite (state_S _ _ _ Hx).
      destruct (rest_after _ x cmd (upright_run period stretch oe HP (firstn i ins)) (counted_run (firstn i ins)) (fresh_run (firstn i ins)) HC N1 N2) as (R & B & _).
      fold c in R, B. rewrite R. lia.
    - destruct (IH ltac:(lia)) as [K|K]; [left; lia|].
      destruct (nth_error ins k) as [y|] eqn:Y; [|apply nth_error_None in Y; lia]. rewrite (state_S _ _ _ Y).
      set (s := state c (firstn k ins)) in *. destruct (s_f s) eqn:F.
      1: { left. assert (rest s = 0) by (unfold rest; rewrite F; reflexivity). lia. }
      all: right; destruct (rest_step s y (upright_run period stretch oe HP (firstn k ins)) (counted_run (firstn k ins)) ltac:(congruence)); lia.
  Qed.
End Duration.

(** C121: a write or a read takes at least 36 * (period/4 + 1) cycles: no sooner is
    another command taken, or busy low. *)
Theorem C121_byte_time : forall period stretch oe ins i j o o' cmd,
  1 <= period ->
  let t := trace (i2c_initiator period stretch oe) ins in
  nth_error t i = Some o -> io_cmd o = Some cmd -> (cmd <> CStart /\ cmd <> CStop) ->
  (i < j)%nat -> nth_error t j = Some o' -> (io_cmd o' <> None \/ io_busy o' = false) ->
  36 * (period / 4 + 1) <= Z.of_nat j - Z.of_nat i.
Proof.
  intros period stretch oe ins i j o o' cmd HP t Hi HC [N1 N2] L Hj HJ.
  destruct (nth_trace period stretch oe ins i o Hi) as (x & Hx & Ex & _). destruct (nth_trace period stretch oe ins j o' Hj) as (y & Hy & Ey & _).
  rewrite Ex in HC. cbn [i2c_initiator cout io_cmd] in HC.
  assert (LJ : (j < length ins)%nat) by (apply nth_error_Some; congruence).
  destruct (rest_run period stretch oe HP ins i x cmd Hx HC N1 N2 j ltac:(lia)) as [K|K]; [exact K|].
  assert (F : s_f (state (i2c_initiator period stretch oe) (firstn j ins)) = Idle).
  { pose proof (upright_run period stretch oe HP (firstn j ins)) as (_ & B & _). rewrite Ey in HJ. cbn [i2c_initiator cout io_cmd io_busy] in HJ.
    destruct HJ as [HJ|HJ].
    - unfold cmd_taken in HJ. destruct (s_f _); congruence.
    - destruct (s_f _); try reflexivity; rewrite B in HJ; discriminate. }
  unfold rest in K. rewrite F in K. lia.
Qed.
(** Nobody holds the clock: clock stretching is disabled, or the SCL pad is an output. *)
Definition unstretched (stretch oe : bool) : Prop := stretch = false \/ oe = false.

Section Exact.
  Context (period : Z) (stretch oe : bool) (HP : 4 <= period) (HN : unstretched stretch oe).
  Let c := i2c_initiator period stretch oe.
  Let Q := period / 4.

  Lemma Q1 : 1 <= Q < period.
  Proof using HP. subst Q. split; [apply Z.div_le_lower_bound; lia|apply Z.div_lt; lia]. Qed.
  Lemma HP1 : 1 <= period.
  Proof using HP. lia. Qed.

  Lemma free_run s : (negb stretch || Bool.eqb (d_scl (s_d s)) (scl_i oe s)) = true /\ (d_scl (s_d s) && (negb stretch || scl_i oe s)) = d_scl (s_d s).
  Proof using HN period.
    destruct HN as [->| ->]; cbn [negb orb]; [rewrite andb_true_r; auto|]. unfold scl_i. rewrite Bool.eqb_reflx, orb_true_r.
    split; [reflexivity|]. destruct (d_scl (s_d s)), stretch; reflexivity.
  Qed.

  Lemma timer_exact s : upright period s -> s_busy s = true ->
    timer_next period stretch oe s = if stb s then Q else s_timer s - 1.
  Proof using HP HN.
    intros (U & _) B. fold Q in U. pose proof Q1. unfold timer_next. rewrite B, orb_false_r. destruct (free_run s) as [-> _]. fold Q. unfold stb.
    destruct (Z.eqb_spec (s_timer s) 0); apply trunc_range_small; lia.
  Qed.

  (** High phases are left one cycle after the rise. *)
  Definition brisk (s : i2c_state) : Prop :=
    match s_f s with
    | Idle => False
    | StartSclH | StopSclH | WdSclH | WaSclH | RdSclH | RaSclH => d_scl (s_d s) = true -> s_timer s = Q
    | _ => True
    end.
  Lemma brisk_step s i : upright period s -> brisk s -> s_f (i2c_next period stretch oe s i) <> Idle -> brisk (i2c_next period stretch oe s i).
  Proof using HP HN.
    intros U B. assert (NI : s_f s <> Idle) by (unfold brisk in B; intros E; now rewrite E in B).
    pose proof (timer_exact s U) as T. pose proof U as (_ & UB & U3). specialize (T (UB NI)). pose proof Q1. destruct (free_run s) as [_ FR].
    unfold i2c_next. destruct (fsm_next stretch oe s i) as [f d] eqn:FN. unfold brisk in *. cbn [s_f s_d s_timer]. rewrite T.
    unfold fsm_next, scl_l, scl_h, stb_x, bit7 in FN. rewrite FR in FN.
    assert (ST : s_timer s = Q -> stb s = false) by (unfold stb; intros ->; apply Z.eqb_neq; lia).
    destruct (s_f s) eqn:F; try contradiction;
    destruct (stb s) eqn:EST; try destruct (d_scl (s_d s)) eqn:ES;
    try destruct (d_bitno (s_d s) =? 7); injection FN as <- <-; cbn; intros; rewrite ?ES in *; try congruence; auto.
  Qed.

  Lemma rest_exact s i : upright period s -> counted s -> brisk s ->
    rest period s = rest period (i2c_next period stretch oe s i) + 1 /\
    (s_f (i2c_next period stretch oe s i) = Idle -> rest period s = 1).
  Proof using HP HN.
    intros U C B. assert (NI : s_f s <> Idle) by (unfold brisk in B; intros E; now rewrite E in B).
    pose proof (quarters_step period stretch oe s i U C NI) as K. cbv zeta in K. pose proof (quarters_pos s C NI) as QP.
    pose proof U as (U1 & UB & U3). pose proof (timer_exact s U (UB NI)) as T. pose proof Q1 as HQ1. fold Q in U1.
    assert (E : rest period s = s_timer s + (quarters s - 1) * (Q + 1) + 1) by (unfold rest; fold Q; destruct (s_f s); congruence).
    assert (ET : s_timer (i2c_next period stretch oe s i) = timer_next period stretch oe s) by (unfold i2c_next; destruct (fsm_next stretch oe s i); reflexivity).
    assert (E' : s_f (i2c_next period stretch oe s i) <> Idle -> rest period (i2c_next period stretch oe s i) = timer_next period stretch oe s + (quarters (i2c_next period stretch oe s i) - 1) * (Q + 1) + 1)
      by (intros; rewrite <- ET; unfold rest; fold Q; destruct (s_f (i2c_next period stretch oe s i)); congruence).
    assert (Z0 : s_f (i2c_next period stretch oe s i) = Idle -> rest period (i2c_next period stretch oe s i) = 0 /\ quarters (i2c_next period stretch oe s i) = 0)
      by (intros X; unfold rest, quarters; rewrite X; auto).
    pose proof (quarters_pos _ (counted_step period stretch oe s i C)) as QP'.
    set (s' := i2c_next period stretch oe s i) in *.
    assert (D : s_f s' = Idle \/ s_f s' <> Idle) by (destruct (s_f s'); ((left; reflexivity) || (right; discriminate))).
    destruct (stb s) eqn:EST.
    - assert (T0 : s_timer s = 0) by (unfold stb in EST; lia).
      assert (K' : quarters s' = quarters s - 1).
      { destruct K as [K|(_ & K1 & K2)]; [exact K|exfalso]. unfold brisk in B. destruct (s_f s); try contradiction; specialize (B K1); lia. }
      destruct D as [D|D]; [destruct (Z0 D); split; nia|rewrite (E' D); split; [nia|contradiction]].
    - destruct K as [K1 K2]. rewrite (E' K2). split; [nia|contradiction].
  Qed.

  (** From a command taken with busy low to the end of it. *)
  Lemma exact_run ins i x cmd : nth_error ins i = Some x -> cmd_taken (state c (firstn i ins)) x = Some cmd -> cmd <> CStart -> cmd <> CStop ->
    s_busy (state c (firstn i ins)) = false ->
    forall k, (i < k <= length ins)%nat -> Z.of_nat k <= Z.of_nat i + 36 * (Q + 1) ->
    rest period (state c (firstn k ins)) + (Z.of_nat k - Z.of_nat i) = 36 * (Q + 1) + 1 /\ brisk (state c (firstn k ins)).
  Proof using HP HN.
    intros Hx HC N1 N2 HB. pose proof Q1 as HQ1. induction k as [|k IH]; intros H HK; [lia|].
    destruct (Nat.eq_dec k i) as [->|NK].
    - unfold c. rewrite (state_S period stretch oe _ _ _ Hx).
      destruct (rest_after period stretch oe HP1 _ x cmd (upright_run period stretch oe HP1 (firstn i ins)) (counted_run period stretch oe (firstn i ins)) (fresh_run period stretch oe HP1 (firstn i ins)) HC N1 N2) as (R & _ & B).
      rewrite R. specialize (B HB). fold Q in B |- *. rewrite B. split; [lia|].
      fold c. set (s := state c (firstn i ins)) in *. unfold i2c_next, fsm_next. unfold brisk.
      assert (F : s_f s = Idle) by (unfold cmd_taken in HC; destruct (s_f s); congruence || discriminate).
      rewrite F, HC. destruct cmd; try contradiction; cbn; auto.
    - destruct (IH ltac:(lia) ltac:(lia)) as [K BK].
      destruct (nth_error ins k) as [y|] eqn:Y; [|apply nth_error_None in Y; lia]. unfold c. rewrite (state_S period stretch oe _ _ _ Y). fold c.
      set (s := state c (firstn k ins)) in *.
      destruct (rest_exact s y (upright_run period stretch oe HP1 (firstn k ins)) (counted_run period stretch oe (firstn k ins)) BK) as [R1 R2].
      split; [lia|]. apply brisk_step; auto; [apply (upright_run period stretch oe HP1 (firstn k ins))|]. intros X. specialize (R2 X). lia.
  Qed.

  (** Cycles to the next rise of SCL. *)
  Definition to_rise (s : i2c_state) : Z :=
    match s_f s with
    | Idle => 0
    | StartSclL | StopSclL | WdSclL | WaSclL | RdSclL | RaSclL => s_timer s + (Q + 1) + (Q + 1)
    | StartSdaH | StopSdaL | WdSdaX | WaSdaH | RdSdaH | RaSdaX => s_timer s + (Q + 1)
    | StartSclH | StopSclH | WdSclH | WaSclH | RdSclH | RaSclH =>
        if d_scl (s_d s) then s_timer s + (Q + 1) + (Q + 1) + (Q + 1) else s_timer s
    | _ => s_timer s + (Q + 1) + (Q + 1) + (Q + 1)
    end.

  Lemma to_rise_step s i : upright period s -> brisk s ->
    let s' := i2c_next period stretch oe s i in
    s_f s' = Idle \/
    (d_scl (s_d s) = false /\ d_scl (s_d s') = true /\ to_rise s = 0) \/
    (~ (d_scl (s_d s) = false /\ d_scl (s_d s') = true) /\ to_rise s' = to_rise s - 1).
  Proof using HP HN.
    intros U B s'. subst s'. assert (NI : s_f s <> Idle) by (unfold brisk in B; intros E; now rewrite E in B).
    pose proof (timer_exact s U) as T. pose proof U as (_ & UB & U3). specialize (T (UB NI)). pose proof Q1. destruct (free_run s) as [_ FR].
    unfold i2c_next. destruct (fsm_next stretch oe s i) as [f d] eqn:FN. unfold brisk, to_rise in *. cbn [s_f s_d s_timer]. rewrite T.
    unfold fsm_next, scl_l, scl_h, stb_x, bit7 in FN. rewrite FR in FN.
    assert (ST : s_timer s = Q -> stb s = false) by (unfold stb; intros ->; apply Z.eqb_neq; lia).
    assert (SZ : stb s = true -> s_timer s = 0) by (unfold stb; lia).
    destruct (s_f s) eqn:F; try contradiction;
    destruct (stb s) eqn:EST; try destruct (d_scl (s_d s)) eqn:ES;
    try (specialize (B eq_refl); specialize (ST B)); try discriminate; try (specialize (SZ eq_refl));
    try destruct (d_bitno (s_d s) =? 7); injection FN as <- <-; cbn; rewrite ?ES;
    first [left; reflexivity | right; left; repeat split; auto; lia | right; right; split; [intros []; congruence|lia]].
  Qed.
End Exact.

(** C121, when nobody holds the clock: within a command, the cycle of SCL is exactly
    4 * (period/4 + 1) cycles long. *)
Theorem C121_exact_period : forall period stretch oe ins i j,
  4 <= period -> unstretched stretch oe ->
  let t := trace (i2c_initiator period stretch oe) ins in
  (i < j)%nat -> scl_rises t i -> scl_rises t j -> (forall k, (i < k < j)%nat -> ~ scl_rises t k) -> same_command t i j ->
  Z.of_nat j - Z.of_nat i = 4 * (period / 4 + 1).
Proof.
  intros period stretch oe ins i j HP HN t L Ri Rj HNo HS. set (c := i2c_initiator period stretch oe) in *. pose proof (Q1 period HP) as HQ1.
  assert (HP1 : 1 <= period) by lia.
  destruct Ri as (o & o' & H1 & H2 & D1 & D2). destruct (step_at period stretch oe HP1 ins i o o' H1 H2) as (x & U & E & _ & _ & A1 & _ & A3 & _).
  pose proof Rj as (p & p' & H3 & H4 & D3 & D4). destruct (step_at period stretch oe HP1 ins j p p' H3 H4) as (y & V & F & _ & Lj & B1 & _ & B3 & _).
  fold c in U, E, A1, A3, V, F, B1, B3.
  assert (G : forall k, (i < k <= j)%nat -> let s := state c (firstn k ins) in
     s_f s = Idle \/ (brisk period s /\ to_rise period s + (Z.of_nat k - Z.of_nat i) = 4 * (period / 4 + 1))).
  { induction k as [|k IH]; intros HK; [lia|]. cbv zeta. destruct (Nat.eq_dec k i) as [->|NK].
    - rewrite E. right.
      assert (N : d_scl (s_d (state c (firstn i ins))) <> d_scl (s_d (cnext c (state c (firstn i ins)) x))) by congruence.
      destruct (proj1 (move_facts period stretch oe HP1 _ x U) N) as (_ & T & _).
      clear - N T U A1 A3 D1 D2 HP. set (s := state c (firstn i ins)) in *. cbn [c i2c_initiator cnext] in *.
      rewrite A1 in D1. rewrite A3 in D2. clear A1 A3. destruct U as (_ & _ & U3). fold s in U3.
      revert N T D2. unfold i2c_next. destruct (fsm_next stretch oe s x) as [f d] eqn:FN. cbn [s_d s_timer]. intros N T D2.
      unfold brisk, to_rise. cbn [s_f s_d s_timer]. rewrite T, D2.
      unfold fsm_next, scl_l, scl_h, stb_x, bit7 in FN. rewrite D1 in *.
      destruct (s_f s) eqn:F.
      1: { destruct (cmd_taken s x) as [[]|]; injection FN as <- <-; cbn in D2; congruence. }
      all: destruct (stb s); try destruct (d_bitno (s_d s) =? 7); cbn [andb] in FN; injection FN as <- <-; cbn in D2; try congruence; split; auto; lia.
    - destruct (IH ltac:(lia)) as [K|[K1 K2]]; cbv zeta in *.
      + left. destruct (nth_error ins k) as [z|] eqn:Z; [|apply nth_error_None in Z; lia]. unfold c. rewrite (state_S period stretch oe _ _ _ Z). fold c.
        set (s := state c (firstn k ins)) in *.
        destruct (nth_error t k) as [q|] eqn:Q; [|apply nth_error_None in Q; unfold t in Q; rewrite trace_length in Q; lia].
        pose proof (HS k q ltac:(lia) Q) as NC. destruct (nth_trace period stretch oe ins k q Q) as (z' & Z' & EQ & _). rewrite Z in Z'. injection Z' as <-.
        rewrite EQ in NC. cbn [i2c_initiator cout io_cmd] in NC. fold c in NC. fold s in NC. unfold i2c_next, fsm_next. rewrite K, NC. reflexivity.
      + destruct (nth_error t k) as [q|] eqn:Q; [|apply nth_error_None in Q; unfold t in Q; rewrite trace_length in Q; lia].
        destruct (nth_error t (S k)) as [q'|] eqn:Q'; [|apply nth_error_None in Q'; unfold t in Q'; rewrite trace_length in Q'; lia].
        destruct (step_at period stretch oe HP1 ins k q q' Q Q') as (z & Uk & Ek & _ & _ & C1 & _ & C3 & _). fold c in Uk, Ek, C1, C3.
        rewrite Ek. destruct (to_rise_step period stretch oe HP HN _ z Uk K1) as [X|[(X1 & X2 & _)|(X1 & X2)]]; cbv zeta in *; [left; exact X| |].
        * exfalso. apply (HNo k ltac:(lia)). exists q, q'. repeat split; auto; [rewrite C1; exact X1|rewrite C3; exact X2].
        * assert (DI : s_f (cnext c (state c (firstn k ins)) z) = Idle \/ s_f (cnext c (state c (firstn k ins)) z) <> Idle)
            by apply idle_dec.
          destruct DI as [DI|DI]; [now left|]. right. split; [now apply brisk_step|]. cbn [c i2c_initiator cnext]. rewrite X2. lia. }
  destruct (G j ltac:(lia)) as [K|[K1 K2]]; cbv zeta in *.
  - exfalso. cbn [c i2c_initiator cnext] in B3. revert B3. unfold i2c_next, fsm_next. fold c. rewrite K.
    destruct (cmd_taken _ y) as [[]|]; cbn; congruence.
  - destruct (to_rise_step period stretch oe HP HN _ y V K1) as [X|[(_ & _ & X)|(X & _)]]; cbv zeta in *.
    + assert (N : d_scl (s_d (state c (firstn j ins))) <> d_scl (s_d (cnext c (state c (firstn j ins)) y))) by congruence.
      destruct (proj1 (move_facts period stretch oe HP1 _ y V) N) as (_ & _ & _ & W). unfold need in W.
      cbn [c i2c_initiator cnext] in W. fold c in W. rewrite X in W. lia.
    + lia.
    + exfalso. apply X. cbn [c i2c_initiator cnext] in B3. fold c in B3. split; congruence.
Qed.

(** C121, when nobody holds the clock: a write or read taken with busy low in cycle [i]
    keeps the initiator busy up to cycle i + 36 * (period/4 + 1) + 1, takes no other
    command before that cycle, and busy is low in the next one unless a command is
    strobed there. *)
Theorem C121_exact_byte_time : forall period stretch oe ins i o cmd,
  4 <= period -> unstretched stretch oe ->
  let t := trace (i2c_initiator period stretch oe) ins in
  let done := (i + Z.to_nat (36 * (period / 4 + 1)) + 1)%nat in
  nth_error t i = Some o -> io_cmd o = Some cmd -> (cmd <> CStart /\ cmd <> CStop) -> io_busy o = false ->
  (forall k q, (i < k <= done)%nat -> nth_error t k = Some q -> io_busy q = true /\ (k <> done -> io_cmd q = None)) /\
  (forall q q', nth_error t done = Some q -> nth_error t (S done) = Some q' -> strobed (io_in q) = false -> io_busy q' = false).
Proof.
  intros period stretch oe ins i o cmd HP HN t done Hi HC [N1 N2] HB. pose proof (Q1 period HP) as HQ1.
  assert (HP1 : 1 <= period) by lia. set (c := i2c_initiator period stretch oe) in *.
  destruct (nth_trace period stretch oe ins i o Hi) as (x & Hx & Ex & _). rewrite Ex in HC, HB. cbn [i2c_initiator cout io_cmd io_busy] in HC, HB.
  pose proof (exact_run period stretch oe HP HN ins i x cmd Hx HC N1 N2 HB) as G.
  assert (W : forall k q, (i < k < done)%nat -> nth_error t k = Some q -> io_busy q = true /\ io_cmd q = None).
  { intros k q HK Hq. destruct (nth_trace period stretch oe ins k q Hq) as (z & Hz & -> & _).
    assert (LK : (k < length ins)%nat) by (apply nth_error_Some; congruence).
    destruct (G k ltac:(lia) ltac:(lia)) as [R B]. cbn [i2c_initiator cout io_busy io_cmd].
    pose proof (upright_run period stretch oe HP1 (firstn k ins)) as (_ & UB & _).
    unfold brisk in B. unfold cmd_taken. destruct (s_f _); try contradiction; (split; [apply UB; discriminate|reflexivity]). }
  assert (DN : forall q, nth_error t done = Some q -> s_f (state c (firstn done ins)) = Idle /\ s_busy (state c (firstn done ins)) = true).
  { intros q Hq. destruct (nth_trace period stretch oe ins done q Hq) as (z & Hz & -> & _).
    assert (LK : (done < length ins)%nat) by (apply nth_error_Some; congruence).
    set (k := (i + Z.to_nat (36 * (period / 4 + 1)))%nat) in *. assert (done = S k) by (unfold done, k; lia).
    destruct (G k ltac:(lia) ltac:(lia)) as [R B]. destruct (nth_error ins k) as [y|] eqn:Y; [|apply nth_error_None in Y; lia].
    assert (ES : state c (firstn done ins) = i2c_next period stretch oe (state c (firstn k ins)) y) by (rewrite H; apply (state_S period stretch oe _ _ _ Y)).
    destruct (rest_exact period stretch oe HP HN _ y (upright_run period stretch oe HP1 (firstn k ins)) (counted_run period stretch oe (firstn k ins)) B) as [R1 _].
    fold c in R, R1. rewrite <- ES in R1.
    pose proof (upright_run period stretch oe HP1 (firstn k ins)) as (_ & UB & _). pose proof (upright_run period stretch oe HP1 (firstn done ins)) as (UT & _).
    fold c in UT. split.
    - assert (R0 : rest period (state c (firstn done ins)) = 0) by lia. unfold rest in R0.
      pose proof (quarters_pos _ (counted_run period stretch oe (firstn done ins))) as QP. fold c in QP.
      destruct (s_f (state c (firstn done ins))) eqn:FD; try reflexivity; specialize (QP ltac:(discriminate)); nia.
    - fold c in UB. rewrite ES. unfold i2c_next. destruct (fsm_next _ _ _ _). cbn [s_busy]. unfold busy_next. unfold brisk in B. fold c in B.
      destruct (s_f (state c (firstn k ins))); try contradiction; apply UB; discriminate. }
  split.
  - intros k q HK Hq. destruct (Nat.eq_dec k done) as [->|NK].
    + destruct (nth_trace period stretch oe ins done q Hq) as (z & Hz & EQ & _). destruct (DN q Hq) as [_ B]. rewrite EQ. split; [exact B|congruence].
    + destruct (W k q ltac:(lia) Hq). auto.
  - intros q q' Hq Hq' HS. destruct (DN q Hq) as [F B]. destruct (nth_trace period stretch oe ins done q Hq) as (z & Hz & EQ & _).
    destruct (nth_trace period stretch oe ins (S done) q' Hq') as (z' & Hz' & EQ' & _). rewrite EQ'. cbn [i2c_initiator cout io_busy].
    rewrite (state_S period stretch oe _ _ _ Hz). unfold i2c_next. destruct (fsm_next _ _ _ _). cbn [s_busy]. unfold busy_next. fold c. rewrite F.
    rewrite EQ in HS. cbn [i2c_initiator cout io_in] in HS. unfold cmd_taken. rewrite F. unfold strobed in HS.
    destruct (ii_start z), (ii_stop z), (ii_write z), (ii_read z); try discriminate; reflexivity.
Qed.

(** C121 in the I2C bridge: the bus lines of I2CProto are those of an initiator, so all
    of the above holds of them. *)
Theorem C121_bridge : forall period stretch oe ins,
  let t := map so_i2c (map po_i2c (trace (i2c_proto period stretch oe) ins)) in
  t = trace (i2c_initiator period stretch oe) (map io_in t).
Proof.
  intros period stretch oe ins t. unfold t. rewrite (C51_bus period stretch oe ins). apply ist_sub.
Qed.
(** A start and a write of 0xA5, with a period of 8: SCL rises every 12 cycles, and the
    write taken in cycle 8 leaves busy high up to cycle 117. *)
Definition c121_run : list i2c_in :=
  [no_cmd true true; cmd_start true true] ++ repeat (no_cmd true true) 6 ++ [cmd_write 0xA5 true true] ++ repeat (no_cmd true true) 120.
Definition c121_trace : list i2c_obs := trace (i2c_initiator 8 false true) c121_run.

Example C121_nonvacuous :
  scl_rises c121_trace 17 /\ scl_rises c121_trace 29 /\ same_command c121_trace 17 29 /\
  changes_at io_scl c121_trace 11 /\ changes_at io_sda c121_trace 14 /\
  4 * (8 / 4 + 1) = 12 /\ 36 * (8 / 4 + 1) = 108 /\ 800000 / 100000 = 8 /\
  map io_cmd (firstn 9 c121_trace) = [None; Some CStart; None; None; None; None; None; None; Some (CWrite 0xA5)] /\
  map io_busy (firstn 3 (skipn 8 c121_trace)) = [false; true; true] /\
  map io_busy (firstn 3 (skipn 117 c121_trace)) = [true; false; false].
Proof.
  split; [do 2 eexists; vm_compute; repeat split|]. split; [do 2 eexists; vm_compute; repeat split|].
  split.
  { intros k o HK H. assert (E : forallb (fun o => match io_cmd o with None => true | _ => false end) (firstn 12 (skipn 18 c121_trace)) = true) by (vm_compute; reflexivity).
    rewrite forallb_forall in E. specialize (E o). destruct (io_cmd o); [exfalso|reflexivity]. discriminate E.
    apply (nth_error_In _ (k - 18)). rewrite nth_error_firstn_lt by lia. rewrite nth_error_skipn. now replace (18 + (k - 18))%nat with k by lia. }
  split; [do 2 eexists; vm_compute; repeat split; discriminate|]. split; [do 2 eexists; vm_compute; repeat split; discriminate|].
  vm_compute. repeat split.
Qed.

(** With SCL held low by a device and clock stretching enabled, SCL is released once and
    then waits: the lower bounds hold, the exact times do not. *)
Example C121_nonvacuous_stretched :
  let t := trace (i2c_initiator 8 true true) ([no_cmd true true; cmd_write 0xA5 true true] ++ repeat (no_cmd true false) 120) in
  scl_rises t 10 /\ changes_at io_scl t 4 /\ forallb io_scl (skipn 11 t) = true /\ forallb io_busy (skipn 2 t) = true.
Proof. split; [do 2 eexists; vm_compute; repeat split|]. split; [do 2 eexists; vm_compute; repeat split; discriminate|]. vm_compute. auto. Qed.

Print Assumptions C121_set_up_and_hold.
Print Assumptions C121_scl_low_high.
Print Assumptions C121_scl_period.
Print Assumptions C121_never_too_fast.
Print Assumptions C121_byte_time.
Print Assumptions C121_exact_period.
Print Assumptions C121_exact_byte_time.
Print Assumptions C121_bridge.
