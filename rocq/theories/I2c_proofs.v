From Verif Require Import Hdl Bits I2c_model I2c_spec.

Lemma msb_first_nth x k : (k < 8)%nat -> nth k (msb_first x) false = Z.testbit x (7 - Z.of_nat k).
Proof. intros. do 8 (destruct k as [|k]; [reflexivity|]). lia. Qed.
Lemma msb_first_length x : length (msb_first x) = 8%nat.
Proof. reflexivity. Qed.

Lemma firstn_S_nth {X} (d : X) n l : (n < length l)%nat -> firstn (S n) l = firstn n l ++ [nth n l d].
Proof.
  revert l. induction n as [|n IH]; intros [|x l] H; cbn in *; try lia; auto.
  f_equal. apply IH. lia.
Qed.

Lemma from_msb_snoc l b acc : from_msb (l ++ [b]) acc = 2 * from_msb l acc + Z.b2z b.
Proof. revert acc. induction l as [|x l IH]; intros acc; cbn [app from_msb]; auto. Qed.

Definition full (c : i2c_cmd) : list bool :=
  match c with
  | CWrite x => msb_first x ++ [true]
  | CRead a => repeat true 8 ++ [negb a]
  | _ => []
  end.

Lemma cat1_mod b r k : 0 <= k <= 7 ->
  cat 1 (Z.b2z b) (slice 0 7 r) mod 2 ^ (k + 1) = 2 * (r mod 2 ^ k) + Z.b2z b.
Proof.
  intros Hk. rewrite slice0_mod by lia.
  assert (E : cat 1 (Z.b2z b) (r mod 2 ^ 7) = Z.b2z b + 2 * (r mod 2 ^ 7)).
  { apply Z.bits_inj'. intros i Hi. rewrite cat_testbit by lia. destruct (Z.ltb_spec i 1).
    - replace i with 0 by lia. rewrite Z.add_comm, Z.testbit_0_r, Z.b2z_bit0. reflexivity.
    - rewrite Z.add_comm. replace i with (Z.succ (i - 1)) at 2 by lia. rewrite Z.testbit_succ_r by lia. reflexivity. }
  rewrite E. replace (2 ^ (k + 1)) with (2 * 2 ^ k) by (rewrite Z.pow_add_r by lia; lia).
  assert (Hp : 0 < 2 ^ k) by (apply Z.pow_pos_nonneg; lia).
  assert (E2 : r mod 2 ^ k = (r mod 2 ^ 7) mod 2 ^ k).
  { replace (2 ^ 7) with (2 ^ k * 2 ^ (7 - k)) by (rewrite <- Z.pow_add_r by lia; f_equal; lia).
    assert (Hp2 : 0 < 2 ^ (7 - k)) by (apply Z.pow_pos_nonneg; lia).
    rewrite Z.rem_mul_r by lia.
    rewrite Z.mul_comm, Z.mod_add by lia. now rewrite Z.mod_mod by lia. }
  rewrite E2. set (y := r mod 2 ^ 7). pose proof (Z.mod_pos_bound y (2 ^ k) Hp). pose proof (Z.div_mod y (2 ^ k) ltac:(lia)).
  symmetry. apply Z.mod_unique with (q := y / 2 ^ k).
  - left. destruct b; cbn [Z.b2z]; lia.
  - destruct b; cbn [Z.b2z]; lia.
Qed.

Lemma cat1_range b r : 0 <= cat 1 (Z.b2z b) (slice 0 7 r) < 256.
Proof.
  change 256 with (2 ^ 8). apply range_of_testbit; [lia|]. intros i Hi. rewrite cat_testbit by lia.
  destruct (Z.ltb_spec i 1); [lia|]. rewrite slice_testbit by lia. destruct (Z.ltb_spec (i - 1) 7); [lia|]. reflexivity.
Qed.

Section Proofs.
  Context (period : Z) (stretch oe : bool) (HP : 4 <= period).
  Let c := i2c_initiator period stretch oe.
  Let Q := period / 4.

  Lemma Q_pos : 1 <= Q.
  Proof. unfold Q. apply Z.div_le_lower_bound; lia. Qed.
  Lemma Q_load : trunc (range_width period) (period / 4) = Q.
  Proof.
    apply trunc_range_small. pose proof Q_pos. unfold Q in *. split; [lia|]. apply Z.div_lt; lia.
  Qed.

  Definition seen_high (s : i2c_state) : bool := negb stretch || scl_i oe s.

  (** The monitor after looking at the levels of state [s] (no command). *)
  Definition see (m : monitor) (s : i2c_state) : monitor :=
    mon_step stretch m (I2cObs (I2cIn false false false false 0 false false false) false false 0
      (d_scl (s_d s)) (d_sda (s_d s)) (scl_i oe s) (sda_i s) None).

  Definition pg (m : monitor) (s : i2c_state) (cmd : i2c_cmd) (k nr ns nf : nat) (scl : bool) : Prop :=
    m_cmd m = Some cmd /\ d_bitno (s_d s) = Z.of_nat k /\
    m_rises m = firstn nr (full cmd) /\ length (m_samples m) = ns /\ m_falls m = Z.of_nat nf /\
    m_conds m = [] /\ d_scl (s_d s) = scl.

  Definition wbits (x : Z) (k : nat) (w : Z) : Prop :=
    forall j, (k + j <= 7)%nat -> Z.testbit w (7 - Z.of_nat j) = Z.testbit x (7 - Z.of_nat (k + j)).
  Definition rbits (l : list bool) (r : Z) : Prop :=
    r mod 2 ^ Z.of_nat (length l) = from_msb l 0 /\ 0 <= r < 256.

  Definition b2n (b : bool) : nat := if b then 1%nat else 0%nat.

  Definition Good (m : monitor) (s : i2c_state) : Prop :=
    let d := s_d s in
    match s_f s with
    | Idle =>
        d_scl d = true /\ d_bitno d = 0 /\ 0 <= d_rsh d < 256 /\
        match m_cmd m with
        | None => m_conds m = [] /\ d_sda d = true
        | Some CStart => let '(si, di, d0) := m_at m in
            d_sda d = false /\ m_conds m = if d0 || (si && negb di) then [BusStart] else []
        | Some CStop => let '(si, di, d0) := m_at m in
            d_sda d = true /\ m_conds m = if negb d0 || si then [BusStop] else []
        | Some (CWrite x) => pg m s (CWrite x) 0 9 9 9 true /\ m_sampled m = true /\
            d_acko d = negb (nth 8 (m_samples m) false)
        | Some (CRead a) => pg m s (CRead a) 0 9 9 9 true /\ m_sampled m = true /\
            d_datao d = from_msb (firstn 8 (m_samples m)) 0
        end
    | StartSclL | StartSdaH | StartSclH | StartSdaL =>
        m_cmd m = Some CStart /\ m_conds m = [] /\ d_bitno d = 0 /\ 0 <= d_rsh d < 256 /\
        let '(si, di, d0) := m_at m in
        match s_f s with
        | StartSclL => d_scl d = true /\ si && negb di = true /\ d_sda d = d0
        | StartSdaH => d_scl d = false /\ si && negb di = true /\ d_sda d = d0
        | StartSclH => if si && negb di then d_sda d = true else d_scl d = true /\ d_sda d = d0
        | _ => d_scl d = true /\ d_sda d = if si && negb di then true else d0
        end
    | StopSclL | StopSdaL | StopSclH | StopSdaH =>
        m_cmd m = Some CStop /\ m_conds m = [] /\ d_bitno d = 0 /\ 0 <= d_rsh d < 256 /\
        let '(si, di, d0) := m_at m in
        match s_f s with
        | StopSclL => d_scl d = true /\ si && d0 = true /\ d_sda d = d0
        | StopSdaL => d_scl d = false /\ si && d0 = true /\ d_sda d = d0
        | StopSclH => if si && d0 then d_sda d = false else d_scl d = true /\ d_sda d = d0
        | _ => d_scl d = true /\ d_sda d = if si && d0 then false else d0
        end
    | WdSclL => 0 <= d_rsh d < 256 /\ exists x k, (k < 8)%nat /\ pg m s (CWrite x) k k k k true /\ m_sampled m = true /\ wbits x k (d_wsh d)
    | WdSdaX => 0 <= d_rsh d < 256 /\ exists x k, (k < 8)%nat /\ pg m s (CWrite x) k k k (S k) false /\ wbits x k (d_wsh d)
    | WdSclH => 0 <= d_rsh d < 256 /\ exists x k, (k < 8)%nat /\ wbits x k (d_wsh d) /\ d_sda d = Z.testbit x (7 - Z.of_nat k) /\
        if d_scl d then pg m s (CWrite x) k (S k) (k + b2n (seen_high s)) (S k) true /\ m_sampled m = seen_high s /\ s_timer s = Q
        else pg m s (CWrite x) k k k (S k) false
    | WdSdaN => 0 <= d_rsh d < 256 /\ exists x k, (k < 8)%nat /\ pg m s (CWrite x) k (S k) (S k) (S k) true /\ m_sampled m = true /\ wbits x (S k) (d_wsh d)
    | WaSclL => 0 <= d_rsh d < 256 /\ exists x, pg m s (CWrite x) 0 8 8 8 true /\ m_sampled m = true
    | WaSdaH => 0 <= d_rsh d < 256 /\ exists x, pg m s (CWrite x) 0 8 8 9 false
    | WaSclH => 0 <= d_rsh d < 256 /\ exists x, d_sda d = true /\
        if d_scl d then pg m s (CWrite x) 0 9 (8 + b2n (seen_high s)) 9 true /\ m_sampled m = seen_high s /\ s_timer s = Q /\
             (seen_high s = true -> nth 8 (m_samples m) false = sda_i s)
        else pg m s (CWrite x) 0 8 8 9 false
    | WaSdaN => 0 <= d_rsh d < 256 /\ exists x, pg m s (CWrite x) 0 9 9 9 true /\ m_sampled m = true /\ d_acko d = negb (nth 8 (m_samples m) false)
    | RdSclL => exists a k, (k < 8)%nat /\ pg m s (CRead a) k k k k true /\ m_sampled m = true /\ d_rack d = a /\ rbits (m_samples m) (d_rsh d)
    | RdSdaH => exists a k, (k < 8)%nat /\ pg m s (CRead a) k k k (S k) false /\ d_rack d = a /\ rbits (m_samples m) (d_rsh d)
    | RdSclH => exists a k, (k < 8)%nat /\ d_rack d = a /\ d_sda d = true /\
        if d_scl d then pg m s (CRead a) k (S k) (k + b2n (seen_high s)) (S k) true /\ m_sampled m = seen_high s /\ s_timer s = Q /\
             (if seen_high s then exists l, m_samples m = l ++ [sda_i s] /\ rbits l (d_rsh d) else rbits (m_samples m) (d_rsh d))
        else pg m s (CRead a) k k k (S k) false /\ rbits (m_samples m) (d_rsh d)
    | RdSdaN => exists a k, (k < 8)%nat /\ pg m s (CRead a) k (S k) (S k) (S k) true /\ m_sampled m = true /\ d_rack d = a /\ rbits (m_samples m) (d_rsh d)
    | RaSclL => exists a, pg m s (CRead a) 0 8 8 8 true /\ m_sampled m = true /\ d_rack d = a /\ rbits (m_samples m) (d_rsh d)
    | RaSdaX => exists a, pg m s (CRead a) 0 8 8 9 false /\ d_rack d = a /\ rbits (m_samples m) (d_rsh d)
    | RaSclH => exists a, d_sda d = negb a /\ d_rack d = a /\ 0 <= d_rsh d < 256 /\ d_rsh d = from_msb (firstn 8 (m_samples m)) 0 /\
        if d_scl d then pg m s (CRead a) 0 9 (8 + b2n (seen_high s)) 9 true /\ m_sampled m = seen_high s /\ s_timer s = Q
        else pg m s (CRead a) 0 8 8 9 false
    | RaSdaN => exists a, pg m s (CRead a) 0 9 9 9 true /\ m_sampled m = true /\ 0 <= d_rsh d < 256 /\ d_datao d = from_msb (firstn 8 (m_samples m)) 0
    end.

  (** Looking at unchanged lines changes nothing, once sampled or with SCL low. *)
  Lemma see_same m s : m_scl m = d_scl (s_d s) -> m_sda m = d_sda (s_d s) ->
    (d_scl (s_d s) = false \/ m_sampled m = true) -> see m s = m.
  Proof.
    intros E1 E2 H. unfold see, mon_step. cbn [io_cmd io_scl io_sda io_scl_i io_sda_i]. rewrite <- E1, <- E2 in *.
    destruct m as [cmd at_ r sa co fa scl sda sam]. cbn in *.
    destruct scl, sda, sam; cbn in *; destruct H; try discriminate; rewrite ?app_nil_r, ?Z.add_0_r; reflexivity.
  Qed.

  (** SCL falls. *)
  Lemma see_fall m s : m_scl m = true -> d_scl (s_d s) = false -> m_sda m = d_sda (s_d s) ->
    see m s = Mon (m_cmd m) (m_at m) (m_rises m) (m_samples m) (m_conds m) (m_falls m + 1) false (m_sda m) (m_sampled m).
  Proof.
    intros E1 E2 E3. unfold see, mon_step. cbn [io_cmd io_scl io_sda io_scl_i io_sda_i]. rewrite E1, E2, <- E3.
    cbn. rewrite !app_nil_r, ?andb_true_r, ?orb_false_r. reflexivity.
  Qed.

  (** SDA changes while SCL is low. *)
  Lemma see_low m s : m_scl m = false -> d_scl (s_d s) = false ->
    see m s = Mon (m_cmd m) (m_at m) (m_rises m) (m_samples m) (m_conds m) (m_falls m) false (d_sda (s_d s)) (m_sampled m).
  Proof.
    intros E1 E2. unfold see, mon_step. cbn [io_cmd io_scl io_sda io_scl_i io_sda_i]. rewrite E1, E2.
    cbn. rewrite !app_nil_r, ?andb_true_r, ?orb_false_r, ?Z.add_0_r. reflexivity.
  Qed.

  (** SCL rises. *)
  Lemma see_rise m s : m_scl m = false -> d_scl (s_d s) = true -> m_sda m = d_sda (s_d s) ->
    see m s = Mon (m_cmd m) (m_at m) (m_rises m ++ [m_sda m])
                (m_samples m ++ if seen_high s then [sda_i s] else []) (m_conds m) (m_falls m) true (m_sda m) (seen_high s).
  Proof.
    intros E1 E2 E3. unfold see, mon_step, seen_high. cbn [io_cmd io_scl io_sda io_scl_i io_sda_i]. rewrite E1, E2, <- E3.
    cbn. rewrite ?app_nil_r, ?andb_true_r, ?andb_false_r, ?orb_false_r, ?Z.add_0_r. reflexivity.
  Qed.

  (** SCL high and not sampled yet. *)
  Lemma see_wait m s : m_scl m = true -> d_scl (s_d s) = true -> m_sda m = d_sda (s_d s) -> m_sampled m = false ->
    see m s = Mon (m_cmd m) (m_at m) (m_rises m)
                (m_samples m ++ if seen_high s then [sda_i s] else []) (m_conds m) (m_falls m) true (m_sda m) (seen_high s).
  Proof.
    intros E1 E2 E3 E4. unfold see, mon_step, seen_high. cbn [io_cmd io_scl io_sda io_scl_i io_sda_i]. rewrite E1, E2, E4, <- E3.
    destruct (m_sda m); cbn; rewrite ?app_nil_r, ?andb_true_r, ?andb_false_r, ?orb_false_r, ?Z.add_0_r; reflexivity.
  Qed.

  (** SDA changes while SCL is high. *)
  Lemma see_high m s : m_scl m = true -> d_scl (s_d s) = true ->
    m_cmd (see m s) = m_cmd m /\ m_at (see m s) = m_at m /\
    m_conds (see m s) = m_conds m ++ (if m_sda m && negb (d_sda (s_d s)) then [BusStart]
                          else if negb (m_sda m) && d_sda (s_d s) then [BusStop] else []).
  Proof.
    intros E1 E2. unfold see, mon_step. cbn [io_cmd io_scl io_sda io_scl_i io_sda_i m_cmd m_at m_conds]. rewrite E1, E2.
    cbn [andb]. auto.
  Qed.

  Lemma see_conds m s : m_sda m = d_sda (s_d s) \/ m_scl m && d_scl (s_d s) = false -> m_conds (see m s) = m_conds m.
  Proof.
    intros H. unfold see, mon_step. cbn [io_cmd io_scl io_sda io_scl_i io_sda_i m_cmd m_at m_conds].
    rewrite (andb_comm (d_scl (s_d s))). destruct H as [H|H]; rewrite H; cbn [andb]; [|apply app_nil_r].
    destruct (m_scl m && d_scl (s_d s)), (d_sda (s_d s)); apply app_nil_r.
  Qed.

  Lemma see_cmd m s : m_cmd (see m s) = m_cmd m.
  Proof. reflexivity. Qed.
  Lemma see_at m s : m_at (see m s) = m_at m.
  Proof. reflexivity. Qed.

  Arguments see : simpl never.
  Definition after_cmd (m : monitor) (s : i2c_state) (i : i2c_in) : monitor :=
    match cmd_taken s i with
    | Some cmd => Mon (Some cmd) (scl_i oe s, sda_i s, d_sda (s_d s)) [] [] [] 0 (d_scl (s_d s)) (d_sda (s_d s)) true
    | None => m
    end.

  Lemma full_length_w x : length (full (CWrite x)) = 9%nat.
  Proof. reflexivity. Qed.
  Lemma full_length_r a : length (full (CRead a)) = 9%nat.
  Proof. reflexivity. Qed.
  Lemma full_w_nth x k : (k < 8)%nat -> nth k (full (CWrite x)) false = Z.testbit x (7 - Z.of_nat k).
  Proof. intros. cbn [full]. rewrite app_nth1 by (rewrite msb_first_length; lia). now apply msb_first_nth. Qed.
  Lemma full_r_nth a k : (k < 8)%nat -> nth k (full (CRead a)) false = true.
  Proof. intros. do 8 (destruct k as [|k]; [reflexivity|]). lia. Qed.

  Lemma wbits_shift x k w : wbits x k w -> wbits x (S k) (cat 1 0 (slice 0 7 w)).
  Proof.
    intros H j Hj. rewrite cat_testbit by lia. destruct (Z.ltb_spec (7 - Z.of_nat j) 1); [lia|].
    rewrite slice_testbit by lia. destruct (Z.ltb_spec (7 - Z.of_nat j - 1) 7); [|lia]. cbn [andb].
    specialize (H (S j) ltac:(lia)). match goal with |- Z.testbit w ?e = _ => replace e with (7 - Z.of_nat (S j)) by lia end.
    rewrite H. f_equal. lia.
  Qed.

  Lemma rbits_snoc l r b : (length l <= 7)%nat -> rbits l r -> rbits (l ++ [b]) (cat 1 (Z.b2z b) (slice 0 7 r)).
  Proof.
    intros Hl [H1 H2]. split; [|apply cat1_range].
    rewrite app_length, Nat2Z.inj_add. cbn [length]. change (Z.of_nat 1) with 1.
    rewrite cat1_mod by lia. rewrite H1, from_msb_snoc. reflexivity.
  Qed.

  Lemma trunc3 k : (k < 8)%nat -> trunc 3 (Z.of_nat k + 1) = if Nat.eqb k 7 then 0 else Z.of_nat (S k).
  Proof.
    intros. destruct (Nat.eqb_spec k 7); [subst; reflexivity|]. rewrite trunc_small by (change (2 ^ 3) with 8; lia). lia.
  Qed.

  Lemma timer_load s : stb s = true -> timer_next period stretch oe s = Q.
  Proof. intros H. unfold timer_next. rewrite H. apply Q_load. Qed.

  Lemma timer_frozen s : s_timer s = Q -> seen_high s = false -> d_scl (s_d s) = true -> timer_next period stretch oe s = Q.
  Proof.
    intros H1 H2 H3. unfold timer_next, seen_high in *. destruct (stb s || negb (s_busy s)); [apply Q_load|].
    apply orb_false_iff in H2. destruct H2 as [-> H2]. rewrite H2, H3. auto.
  Qed.
  Lemma stb_Q s : s_timer s = Q -> stb s = false.
  Proof. intros H. unfold stb. rewrite H. pose proof Q_pos. destruct (Z.eqb_spec Q 0); auto; lia. Qed.

  Lemma firstn_full_S c0 n : (n < length (full c0))%nat ->
    firstn n (full c0) ++ [nth n (full c0) false] = firstn (S n) (full c0).
  Proof. intros. symmetry. now apply firstn_S_nth. Qed.

  Ltac fields := unfold i2c_next; cbn [s_f s_busy s_timer s_d s_sda1 s_sda2 s_scl1 s_scl2
    d_bitno d_rsh d_wsh d_rack d_acko d_datao d_scl d_sda set_scl set_sda set_bitno set_rsh set_wsh set_rack set_acko set_datao].

  Ltac fcbn := cbn [m_cmd m_at m_rises m_samples m_conds m_falls m_scl m_sda m_sampled
    s_f s_busy s_timer s_d s_sda1 s_sda2 s_scl1 s_scl2 inc_bitno
    d_bitno d_rsh d_wsh d_rack d_acko d_datao d_scl d_sda set_scl set_sda set_bitno set_rsh set_wsh set_rack set_acko set_datao].
  Ltac start HG F Hs' := unfold Good in HG; rewrite F in HG; unfold fsm_next, scl_l, scl_h, stb_x in Hs';
    rewrite F in Hs'; unfold cmd_taken; rewrite ?F.
  Ltac fin Hs' HD HF := pose proof (f_equal s_d Hs') as HD; pose proof (f_equal s_f Hs') as HF; cbn [s_d s_f] in HD, HF.

  Lemma good_step m s i : Good m s -> m_scl m = d_scl (s_d s) -> m_sda m = d_sda (s_d s) ->
    Good (see (after_cmd m s i) (i2c_next period stretch oe s i)) (i2c_next period stretch oe s i).
  Proof.
    intros HG E1 E2. unfold after_cmd.
    set (s' := i2c_next period stretch oe s i).
    assert (Hs' : s' = i2c_next period stretch oe s i) by reflexivity.
    unfold i2c_next in Hs'. clearbody s'.
    destruct (s_f s) eqn:F.
    - (* Idle *)
      unfold Good in HG. rewrite F in HG. destruct HG as (H1 & H2 & H3 & H4).
      unfold fsm_next, cmd_taken in Hs'. unfold cmd_taken. rewrite F in *.
      destruct (ii_start i); [|destruct (ii_stop i); [|destruct (ii_write i); [|destruct (ii_read i)]]]; cbn [fst snd] in Hs'.
      + rewrite see_same; [|subst s'; reflexivity|subst s'; reflexivity|right; reflexivity].
        subst s'. unfold Good. cbn [s_f s_d m_cmd m_conds m_at].
        destruct (scl_i oe s), (sda_i s); cbn [andb negb]; repeat split; auto; lia.
      + rewrite see_same; [|subst s'; reflexivity|subst s'; reflexivity|right; reflexivity].
        subst s'. unfold Good. cbn [s_f s_d m_cmd m_conds m_at].
        destruct (scl_i oe s), (d_sda (s_d s)) eqn:D; cbn [andb negb]; repeat split; auto; lia.
      + rewrite see_same; [|subst s'; reflexivity|subst s'; reflexivity|right; reflexivity].
        subst s'. unfold Good, pg. cbn [s_f s_d m_cmd m_conds m_rises m_samples m_falls m_sampled]. cbn.
        split; [auto|]. exists (ii_data i), 0%nat. split; [lia|]. split; [repeat split; auto|]. split; [reflexivity|]. intros j Hj. reflexivity.
      + rewrite see_same; [|subst s'; reflexivity|subst s'; reflexivity|right; reflexivity].
        subst s'. unfold Good, pg. cbn [s_f s_d m_cmd m_conds m_rises m_samples m_falls m_sampled]. cbn.
        exists (ii_ack i), 0%nat. split; [lia|]. split; [repeat split; auto|]. split; [reflexivity|]. split; [reflexivity|]. split; [apply Z.mod_1_r|auto].
      + (* stay *)
        assert (HD : s_d s' = s_d s) by (subst s'; reflexivity). assert (HF : s_f s' = Idle) by (subst s'; reflexivity).
        unfold Good. rewrite HF, HD. split; auto. split; auto. split; auto. rewrite see_cmd.
        assert (HC : m_conds (see m s') = m_conds m).
        { destruct (see_high m s') as (_ & _ & ->); rewrite ?HD; try congruence.
          rewrite E2. destruct (d_sda (s_d s)); apply app_nil_r. }
        destruct (m_cmd m) as [[| |x|a]|] eqn:C.
        * rewrite see_at, HC. exact H4.
        * rewrite see_at, HC. exact H4.
        * destruct H4 as (H4 & H5 & H6). rewrite see_same by (rewrite ?HD; auto; congruence). unfold pg in *. rewrite HD. auto.
        * destruct H4 as (H4 & H5 & H6). rewrite see_same by (rewrite ?HD; auto; congruence). unfold pg in *. rewrite HD. auto.
        * rewrite HC. exact H4.
    - (* StartSclL *) start HG F Hs'.
      destruct HG as (H1 & H2 & H3 & H4 & H5). destruct (m_at m) as [[si di] d0] eqn:A. destruct H5 as (H5 & H6 & H7).
      destruct (stb s) eqn:ST; fin Hs' HD HF; unfold Good; rewrite HF, HD, see_cmd, see_at, A, see_conds by (rewrite HD; cbn; auto);
      cbn; repeat split; auto; lia.
    - (* StartSdaH *) start HG F Hs'.
      destruct HG as (H1 & H2 & H3 & H4 & H5). destruct (m_at m) as [[si di] d0] eqn:A. destruct H5 as (H5 & H6 & H7).
      destruct (stb s) eqn:ST; fin Hs' HD HF; unfold Good; rewrite HF, HD, see_cmd, see_at, A, see_conds by (rewrite HD, E1, H5; cbn; auto);
      cbn; rewrite ?H6; repeat split; auto; lia.
    - (* StartSclH *) start HG F Hs'.
      destruct HG as (H1 & H2 & H3 & H4 & H5). destruct (m_at m) as [[si di] d0] eqn:A.
      destruct (stb s) eqn:ST; [|destruct (d_scl (s_d s) && (negb stretch || scl_i oe s)) eqn:SH]; fin Hs' HD HF; unfold Good; rewrite HF, HD, see_cmd, see_at, A, see_conds by (rewrite HD; cbn; auto);
      cbn; repeat split; auto; try lia.
      + destruct (si && negb di); tauto.
      + apply andb_true_iff in SH. tauto.
      + destruct (si && negb di); tauto.
    - (* StartSdaL *) start HG F Hs'.
      destruct HG as (H1 & H2 & H3 & H4 & H5). destruct (m_at m) as [[si di] d0] eqn:A. destruct H5 as (H5 & H6).
      destruct (stb s) eqn:ST; fin Hs' HD HF.
      + unfold Good; rewrite HF, HD, see_cmd, see_at, A, H1. cbn. repeat split; auto; try lia.
        destruct (see_high m s') as (_ & _ & ->); rewrite ?HD; cbn; try congruence.
        rewrite H2, E2, H6. destruct si, di, d0; reflexivity.
      + unfold Good; rewrite HF, HD, see_cmd, see_at, A, see_conds by (rewrite HD; cbn; auto). repeat split; auto; lia.
    - (* StopSclL *) start HG F Hs'.
      destruct HG as (H1 & H2 & H3 & H4 & H5). destruct (m_at m) as [[si di] d0] eqn:A. destruct H5 as (H5 & H6 & H7).
      destruct (stb s) eqn:ST; fin Hs' HD HF; unfold Good; rewrite HF, HD, see_cmd, see_at, A, see_conds by (rewrite HD; cbn; auto);
      cbn; repeat split; auto; lia.
    - (* StopSdaL *) start HG F Hs'.
      destruct HG as (H1 & H2 & H3 & H4 & H5). destruct (m_at m) as [[si di] d0] eqn:A. destruct H5 as (H5 & H6 & H7).
      destruct (stb s) eqn:ST; fin Hs' HD HF; unfold Good; rewrite HF, HD, see_cmd, see_at, A, see_conds by (rewrite HD, E1, H5; cbn; auto);
      cbn; rewrite ?H6; repeat split; auto; lia.
    - (* StopSclH *) start HG F Hs'.
      destruct HG as (H1 & H2 & H3 & H4 & H5). destruct (m_at m) as [[si di] d0] eqn:A.
      destruct (stb s) eqn:ST; [|destruct (d_scl (s_d s) && (negb stretch || scl_i oe s)) eqn:SH]; fin Hs' HD HF; unfold Good; rewrite HF, HD, see_cmd, see_at, A, see_conds by (rewrite HD; cbn; auto);
      cbn; repeat split; auto; try lia.
      + destruct (si && d0); tauto.
      + apply andb_true_iff in SH. tauto.
      + destruct (si && d0); tauto.
    - (* StopSdaH *) start HG F Hs'.
      destruct HG as (H1 & H2 & H3 & H4 & H5). destruct (m_at m) as [[si di] d0] eqn:A. destruct H5 as (H5 & H6).
      destruct (stb s) eqn:ST; fin Hs' HD HF.
      + unfold Good; rewrite HF, HD, see_cmd, see_at, A, H1. cbn. repeat split; auto; try lia.
        destruct (see_high m s') as (_ & _ & ->); rewrite ?HD; cbn; try congruence.
        rewrite H2, E2, H6. destruct si, di, d0; reflexivity.
      + unfold Good; rewrite HF, HD, see_cmd, see_at, A, see_conds by (rewrite HD; cbn; auto). repeat split; auto; lia.
    - (* WdSclL *) start HG F Hs'. destruct HG as (H0 & x & k & Hk & (P1 & P2 & P3 & P4 & P5 & P6 & P7) & H1 & H2).
      destruct (stb s) eqn:ST; fin Hs' HD HF; unfold Good; rewrite HF, HD.
      + rewrite see_fall by (rewrite ?HD; cbn; congruence). fcbn. split; [auto|]. exists x, k. unfold pg. rewrite HD. fcbn.
        repeat split; auto. lia.
      + rewrite see_same by (rewrite ?HD; auto; congruence). split; [auto|]. exists x, k. unfold pg. rewrite HD. repeat split; auto.
    - (* WdSdaX *) start HG F Hs'. destruct HG as (H0 & x & k & Hk & (P1 & P2 & P3 & P4 & P5 & P6 & P7) & H2).
      destruct (stb s) eqn:ST; fin Hs' HD HF; unfold Good; rewrite HF, HD.
      + rewrite see_low by (rewrite ?HD; cbn; congruence). fcbn. rewrite P7. split; [auto|]. exists x, k. unfold pg. rewrite HD. fcbn.
        split; [auto|]. split; [exact H2|]. split; [|repeat split; auto]. pose proof (H2 0%nat ltac:(lia)) as H2'. transitivity (Z.testbit x (7 - Z.of_nat (k + 0))); [exact H2'|now rewrite Nat.add_0_r].
      + rewrite see_same by (rewrite ?HD; auto; congruence). split; [auto|]. exists x, k. unfold pg. rewrite HD. repeat split; auto.
    - (* WdSclH *) start HG F Hs'. destruct HG as (H0 & x & k & Hk & H2 & H3 & HG).
      pose proof (f_equal s_timer Hs') as HT. 
      destruct (d_scl (s_d s)) eqn:SC.
      + destruct HG as ((P1 & P2 & P3 & P4 & P5 & P6 & P7) & H4 & H5).
        rewrite (stb_Q s H5) in *. cbn [andb] in Hs'. fold (seen_high s) in Hs'.
        destruct (seen_high s) eqn:SH; cbn [b2n] in P4; fin Hs' HD HF; unfold Good; rewrite HF, HD.
        * rewrite see_same by (rewrite ?HD; cbn; auto; congruence). fcbn. split; [auto|]. exists x, k. unfold pg. rewrite HD. fcbn.
          repeat split; auto; try lia. now apply wbits_shift.
        * rewrite see_wait by (rewrite ?HD; auto; congruence). fcbn. rewrite SC. split; [auto|]. exists x, k. unfold pg. rewrite HD. fcbn.
          assert (HT' : s_timer s' = Q) by (rewrite Hs'; cbn [s_timer]; now apply timer_frozen).
          repeat split; auto. rewrite app_length. unfold b2n. destruct (seen_high s'); cbn; lia.
      + destruct HG as (P1 & P2 & P3 & P4 & P5 & P6 & P7). destruct (stb s) eqn:ST; fin Hs' HD HF; unfold Good; rewrite HF, HD.
        * rewrite see_rise by (rewrite ?HD; cbn; congruence). fcbn. split; [auto|]. exists x, k. unfold pg. rewrite HD. fcbn.
          assert (HT' : s_timer s' = Q) by (rewrite Hs'; cbn [s_timer]; now apply timer_load).
          repeat split; auto.
          -- rewrite P3, E2, H3, <- full_w_nth by auto. rewrite firstn_full_S; auto. rewrite full_length_w. lia.
          -- rewrite app_length. unfold b2n. destruct (seen_high s'); cbn; lia.
        * rewrite see_same by (rewrite ?HD; auto; congruence). rewrite SC. split; [auto|]. exists x, k. unfold pg. rewrite HD. repeat split; auto.
    - (* WdSdaN *) start HG F Hs'. destruct HG as (H0 & x & k & Hk & (P1 & P2 & P3 & P4 & P5 & P6 & P7) & H1 & H2).
      destruct (stb s) eqn:ST; fin Hs' HD HF; unfold Good; rewrite HF, HD.
      + rewrite see_same by (rewrite ?HD; cbn; auto; congruence). unfold bit7. rewrite P2.
        destruct (Z.eqb_spec (Z.of_nat k) 7).
        * assert (k = 7%nat) by lia. subst k. fcbn. split; [auto|]. exists x. unfold pg. rewrite HD. fcbn. rewrite P2. repeat split; auto.
        * fcbn. split; [auto|]. exists x, (S k). unfold pg. rewrite HD. fcbn. rewrite P2, trunc3 by auto.
          destruct (Nat.eqb_spec k 7); [lia|]. repeat split; auto. lia.
      + rewrite see_same by (rewrite ?HD; auto; congruence). split; [auto|]. exists x, k. unfold pg. rewrite HD. repeat split; auto.
    - (* WaSclL *) start HG F Hs'. destruct HG as (H0 & x & (P1 & P2 & P3 & P4 & P5 & P6 & P7) & H1).
      destruct (stb s) eqn:ST; fin Hs' HD HF; unfold Good; rewrite HF, HD.
      + rewrite see_fall by (rewrite ?HD; cbn; congruence). fcbn. split; [auto|]. exists x. unfold pg. rewrite HD. cbn [m_cmd m_rises m_samples m_conds m_falls set_scl d_bitno d_scl].
        repeat split; auto. lia.
      + rewrite see_same by (rewrite ?HD; auto; congruence). split; [auto|]. exists x. unfold pg. rewrite HD. repeat split; auto.
    - (* WaSdaH *) start HG F Hs'. destruct HG as (H0 & x & (P1 & P2 & P3 & P4 & P5 & P6 & P7)).
      destruct (stb s) eqn:ST; fin Hs' HD HF; unfold Good; rewrite HF, HD.
      + rewrite see_low by (rewrite ?HD; cbn; congruence). cbn [s_d d_rsh set_sda d_scl]. rewrite P7. split; [auto|]. exists x. unfold pg. rewrite HD. cbn [m_cmd m_rises m_samples m_conds m_falls set_sda d_bitno d_scl d_sda].
        repeat split; auto.
      + rewrite see_same by (rewrite ?HD; auto; congruence). split; [auto|]. exists x. unfold pg. rewrite HD. repeat split; auto.
    - (* WaSclH *) start HG F Hs'. destruct HG as (H0 & x & H3 & HG).
      destruct (d_scl (s_d s)) eqn:SC.
      + destruct HG as ((P1 & P2 & P3 & P4 & P5 & P6 & P7) & H4 & H5 & H6).
        rewrite (stb_Q s H5) in *. cbn [andb] in Hs'. fold (seen_high s) in Hs'.
        destruct (seen_high s) eqn:SH; cbn [b2n] in P4; fin Hs' HD HF; unfold Good; rewrite HF, HD.
        * rewrite see_same by (rewrite ?HD; cbn; auto; congruence). cbn [set_acko d_rsh d_acko]. split; [auto|]. exists x. unfold pg. rewrite HD. cbn [set_acko d_bitno d_scl].
          repeat split; auto; try lia. now rewrite H6.
        * rewrite see_wait by (rewrite ?HD; auto; congruence). rewrite SC. split; [auto|]. exists x. unfold pg. rewrite HD. cbn [m_cmd m_rises m_samples m_conds m_falls m_sampled].
          assert (HT' : s_timer s' = Q) by (rewrite Hs'; cbn [s_timer]; now apply timer_frozen).
          split; auto. split; [repeat split; auto|]. { rewrite app_length. unfold b2n. destruct (seen_high s'); cbn; lia. }
          split; auto. split; auto. intros SH'. rewrite SH'. rewrite app_nth2 by lia. replace (8 - length (m_samples m))%nat with 0%nat by lia. reflexivity.
      + destruct HG as (P1 & P2 & P3 & P4 & P5 & P6 & P7). destruct (stb s) eqn:ST; fin Hs' HD HF; unfold Good; rewrite HF, HD.
        * rewrite see_rise by (rewrite ?HD; cbn; congruence). cbn [set_scl d_rsh d_sda d_scl]. split; [auto|]. exists x. unfold pg. rewrite HD.
          cbn [m_cmd m_rises m_samples m_conds m_falls m_sampled set_scl d_bitno d_scl].
          assert (HT' : s_timer s' = Q) by (rewrite Hs'; cbn [s_timer]; now apply timer_load).
          split; auto. split; [repeat split; auto|].
          -- rewrite P3, E2, H3. reflexivity.
          -- rewrite app_length. unfold b2n. destruct (seen_high s'); cbn; lia.
          -- split; auto. split; auto. intros SH'. rewrite SH'. rewrite app_nth2 by lia. replace (8 - length (m_samples m))%nat with 0%nat by lia. reflexivity.
        * rewrite see_same by (rewrite ?HD; auto; congruence). rewrite SC. split; [auto|]. exists x. unfold pg. rewrite HD. repeat split; auto.
    - (* WaSdaN *) start HG F Hs'. destruct HG as (H0 & x & (P1 & P2 & P3 & P4 & P5 & P6 & P7) & H1 & H2).
      destruct (stb s) eqn:ST; fin Hs' HD HF; unfold Good; rewrite HF, HD; rewrite see_same by (rewrite ?HD; auto; congruence).
      + rewrite P1. split; [auto|]. split; [auto|]. split; [auto|]. split; [|auto]. unfold pg. rewrite HD. repeat split; auto.
      + split; [auto|]. exists x. unfold pg. rewrite HD. repeat split; auto.
    - (* RdSclL *) start HG F Hs'. destruct HG as (x & k & Hk & (P1 & P2 & P3 & P4 & P5 & P6 & P7) & H1 & H2 & H3).
      destruct (stb s) eqn:ST; fin Hs' HD HF; unfold Good; rewrite HF, HD.
      + rewrite see_fall by (rewrite ?HD; cbn; congruence). exists x, k. unfold pg. rewrite HD. cbn [m_cmd m_rises m_samples m_conds m_falls set_scl d_bitno d_scl d_rack d_rsh].
        repeat (split; auto). lia.
      + rewrite see_same by (rewrite ?HD; auto; congruence). exists x, k. unfold pg. rewrite HD. repeat (split; auto).
    - (* RdSdaH *) start HG F Hs'. destruct HG as (x & k & Hk & (P1 & P2 & P3 & P4 & P5 & P6 & P7) & H2 & H3).
      destruct (stb s) eqn:ST; fin Hs' HD HF; unfold Good; rewrite HF, HD.
      + rewrite see_low by (rewrite ?HD; cbn; congruence). cbn [set_sda d_scl]. rewrite P7. exists x, k. unfold pg. rewrite HD. cbn [m_cmd m_rises m_samples m_conds m_falls set_sda d_bitno d_scl d_rack d_sda d_rsh].
        repeat (split; auto).
      + rewrite see_same by (rewrite ?HD; auto; congruence). exists x, k. unfold pg. rewrite HD. repeat (split; auto).
    - (* RdSclH *) start HG F Hs'. destruct HG as (x & k & Hk & H2 & H3 & HG).
      destruct (d_scl (s_d s)) eqn:SC.
      + destruct HG as ((P1 & P2 & P3 & P4 & P5 & P6 & P7) & H4 & H5 & H6).
        rewrite (stb_Q s H5) in *. cbn [andb] in Hs'. fold (seen_high s) in Hs'.
        destruct (seen_high s) eqn:SH; cbn [b2n] in P4; fin Hs' HD HF; unfold Good; rewrite HF, HD.
        * rewrite see_same by (rewrite ?HD; cbn; auto; congruence). destruct H6 as (l & H6 & H7). exists x, k. unfold pg. rewrite HD. cbn [set_rsh d_bitno d_scl d_rack d_rsh].
          rewrite H6. rewrite H6, app_length in P4. cbn in P4.
          split; auto. split; [rewrite app_length; cbn; repeat split; auto; lia|]. split; auto. split; auto. apply rbits_snoc; auto. lia.
        * rewrite see_wait by (rewrite ?HD; auto; congruence). rewrite SC. exists x, k. unfold pg. rewrite HD. cbn [m_cmd m_rises m_samples m_conds m_falls m_sampled].
          assert (HT' : s_timer s' = Q) by (rewrite Hs'; cbn [s_timer]; now apply timer_frozen).
          repeat (split; [solve [auto]|]). split; [repeat split; auto|]. { rewrite app_length. unfold b2n. destruct (seen_high s'); cbn; lia. }
          split; auto. split; auto. destruct (seen_high s'); [eauto|]. now rewrite app_nil_r.
      + destruct HG as ((P1 & P2 & P3 & P4 & P5 & P6 & P7) & H6). destruct (stb s) eqn:ST; fin Hs' HD HF; unfold Good; rewrite HF, HD.
        * rewrite see_rise by (rewrite ?HD; cbn; congruence). exists x, k. unfold pg. rewrite HD.
          cbn [m_cmd m_rises m_samples m_conds m_falls m_sampled set_scl d_bitno d_scl d_rsh d_sda d_rack].
          assert (HT' : s_timer s' = Q) by (rewrite Hs'; cbn [s_timer]; now apply timer_load).
          repeat (split; [solve [auto]|]). split; [repeat split; auto|].
          -- rewrite P3, E2, H3. rewrite <- (full_r_nth x k) by auto. rewrite firstn_full_S; auto. rewrite full_length_r. lia.
          -- rewrite app_length. unfold b2n. destruct (seen_high s'); cbn; lia.
          -- split; auto. split; auto. destruct (seen_high s'); [eauto|]. now rewrite app_nil_r.
        * rewrite see_same by (rewrite ?HD; auto; congruence). rewrite SC. exists x, k. unfold pg. rewrite HD. repeat (split; auto).
    - (* RdSdaN *) start HG F Hs'. destruct HG as (x & k & Hk & (P1 & P2 & P3 & P4 & P5 & P6 & P7) & H1 & H2 & H3).
      destruct (stb s) eqn:ST; fin Hs' HD HF; unfold Good; rewrite HF, HD.
      + rewrite see_same by (rewrite ?HD; cbn; auto; congruence). unfold bit7. rewrite P2.
        destruct (Z.eqb_spec (Z.of_nat k) 7).
        * assert (k = 7%nat) by lia. subst k. exists x. unfold pg. rewrite HD. cbn [inc_bitno set_bitno d_bitno d_scl d_rack d_rsh]. rewrite P2. repeat (split; auto).
        * exists x, (S k). unfold pg. rewrite HD. cbn [inc_bitno set_bitno d_bitno d_scl d_rack d_rsh]. rewrite P2, trunc3 by auto.
          destruct (Nat.eqb_spec k 7); [lia|]. repeat (split; auto). lia.
      + rewrite see_same by (rewrite ?HD; auto; congruence). exists x, k. unfold pg. rewrite HD. repeat (split; auto).
    - (* RaSclL *) start HG F Hs'. destruct HG as (x & (P1 & P2 & P3 & P4 & P5 & P6 & P7) & H1 & H2 & H3).
      destruct (stb s) eqn:ST; fin Hs' HD HF; unfold Good; rewrite HF, HD.
      + rewrite see_fall by (rewrite ?HD; cbn; congruence). exists x. unfold pg. rewrite HD. cbn [m_cmd m_rises m_samples m_conds m_falls set_scl d_bitno d_scl d_rack d_rsh].
        repeat (split; auto). lia.
      + rewrite see_same by (rewrite ?HD; auto; congruence). exists x. unfold pg. rewrite HD. repeat (split; auto).
    - (* RaSdaX *) start HG F Hs'. destruct HG as (x & (P1 & P2 & P3 & P4 & P5 & P6 & P7) & H1 & H2).
      assert (HR : d_rsh (s_d s) = from_msb (firstn 8 (m_samples m)) 0).
      { destruct H2 as [H2 H3]. rewrite <- P4, firstn_all, <- H2, P4. symmetry. apply Z.mod_small. exact H3. }
      destruct (stb s) eqn:ST; fin Hs' HD HF; unfold Good; rewrite HF, HD.
      + rewrite see_low by (rewrite ?HD; cbn; congruence). cbn [set_sda d_scl]. rewrite P7. exists x. unfold pg. rewrite HD. cbn [m_cmd m_rises m_samples m_conds m_falls set_sda d_bitno d_scl d_rack d_sda d_rsh].
        destruct H2 as [_ H2]. rewrite H1. repeat (split; auto).
      + rewrite see_same by (rewrite ?HD; auto; congruence). exists x. unfold pg. rewrite HD. repeat (split; auto).
    - (* RaSclH *) start HG F Hs'. destruct HG as (x & H1 & H2 & H3 & H6 & HG).
      destruct (d_scl (s_d s)) eqn:SC.
      + destruct HG as ((P1 & P2 & P3 & P4 & P5 & P6 & P7) & H4 & H5).
        rewrite (stb_Q s H5) in *. cbn [andb] in Hs'. fold (seen_high s) in Hs'.
        destruct (seen_high s) eqn:SH; cbn [b2n] in P4; fin Hs' HD HF; unfold Good; rewrite HF, HD.
        * rewrite see_same by (rewrite ?HD; cbn; auto; congruence). exists x. unfold pg. rewrite HD. cbn [set_datao d_bitno d_scl d_rsh d_datao].
          repeat split; auto; try lia.
        * rewrite see_wait by (rewrite ?HD; auto; congruence). rewrite SC. exists x. unfold pg. rewrite HD. cbn [m_cmd m_rises m_samples m_conds m_falls m_sampled].
          assert (HT' : s_timer s' = Q) by (rewrite Hs'; cbn [s_timer]; now apply timer_frozen).
          rewrite firstn_app, firstn_all2 by lia. replace (8 - length (m_samples m))%nat with 0%nat by lia. rewrite firstn_O, app_nil_r.
          rewrite firstn_all2 in H6 by lia.
          repeat (split; [solve [auto]|]). split; [repeat split; auto|]. { rewrite app_length. unfold b2n. destruct (seen_high s'); cbn; lia. }
          split; auto.
      + destruct HG as (P1 & P2 & P3 & P4 & P5 & P6 & P7). destruct (stb s) eqn:ST; fin Hs' HD HF; unfold Good; rewrite HF, HD.
        * rewrite see_rise by (rewrite ?HD; cbn; congruence). exists x. unfold pg. rewrite HD.
          cbn [m_cmd m_rises m_samples m_conds m_falls m_sampled set_scl d_bitno d_scl d_rsh d_sda d_rack].
          assert (HT' : s_timer s' = Q) by (rewrite Hs'; cbn [s_timer]; now apply timer_load).
          rewrite firstn_app, firstn_all2 by lia. replace (8 - length (m_samples m))%nat with 0%nat by lia. rewrite firstn_O, app_nil_r.
          rewrite firstn_all2 in H6 by lia.
          repeat (split; [solve [auto]|]). split; [repeat split; auto|].
          -- rewrite P3, E2, H1. reflexivity.
          -- rewrite app_length. unfold b2n. destruct (seen_high s'); cbn; lia.
          -- split; auto.
        * rewrite see_same by (rewrite ?HD; auto; congruence). rewrite SC. exists x. unfold pg. rewrite HD. repeat (split; auto).
    - (* RaSdaN *) start HG F Hs'. destruct HG as (x & (P1 & P2 & P3 & P4 & P5 & P6 & P7) & H1 & H2 & H3).
      destruct (stb s) eqn:ST; fin Hs' HD HF; unfold Good; rewrite HF, HD; rewrite see_same by (rewrite ?HD; auto; congruence).
      + rewrite P1. split; [auto|]. split; [auto|]. split; [auto|]. split; [|auto]. unfold pg. rewrite HD. repeat split; auto.
      + exists x. unfold pg. rewrite HD. repeat (split; auto).
  Qed.

  Lemma mon_step_obs m s i : mon_step stretch m (cout c s i) = after_cmd (see m s) s i.
  Proof. unfold after_cmd, mon_step, c, see. cbn [i2c_initiator cout io_cmd]. destruct (cmd_taken s i); reflexivity. Qed.

  Lemma monitored_snoc t o : monitored stretch (t ++ [o]) = mon_step stretch (monitored stretch t) o.
  Proof. unfold monitored. now rewrite fold_left_app. Qed.

  Definition settled (m : monitor) (s : i2c_state) : Prop :=
    s_busy s = false -> s_f s = Idle /\ m_scl m = d_scl (s_d s) /\ m_sda m = d_sda (s_d s) /\
      match m_cmd m with Some (CWrite _) | Some (CRead _) => m_sampled m = true | _ => True end.

  Lemma busy_next_true s i : (s_f s <> Idle -> s_busy s = true) ->
    s_f (i2c_next period stretch oe s i) <> Idle -> s_busy (i2c_next period stretch oe s i) = true.
  Proof.
    intros H. unfold i2c_next. destruct (fsm_next stretch oe s i) as [f d] eqn:FN. cbn [s_busy s_f]. unfold busy_next.
    intros HF. destruct (s_f s) eqn:F; try (apply H; discriminate).
    unfold fsm_next in FN. rewrite F in FN. destruct (cmd_taken s i); auto. injection FN as <- <-. contradiction.
  Qed.

  Lemma busy_run ins : s_f (state c ins) <> Idle -> s_busy (state c ins) = true.
  Proof.
    apply (state_inv c (fun s => s_f s <> Idle -> s_busy s = true)).
    - auto.
    - intros s i H. now apply busy_next_true.
  Qed.

  Lemma good_run_aux ins :
    let m := monitored stretch (trace c ins) in let s := state c ins in
    Good (see m s) s /\ settled m s /\ (s_f s <> Idle -> s_busy s = true).
  Proof.
    apply (run_inv c (fun t s => Good (see (monitored stretch t) s) s /\ settled (monitored stretch t) s /\ (s_f s <> Idle -> s_busy s = true))).
    - split; [|split; [intros H; discriminate|auto]]. rewrite see_same; cbn; auto. repeat split; auto; lia.
    - intros t s i (IH & _ & HB). rewrite monitored_snoc, mon_step_obs. set (m := see (monitored stretch t) s) in *.
      assert (E1 : m_scl m = d_scl (s_d s)) by reflexivity. assert (E2 : m_sda m = d_sda (s_d s)) by reflexivity.
      split; [apply good_step; auto|]. split; [|now apply busy_next_true].
      unfold settled. cbn [c i2c_initiator cnext]. unfold after_cmd.
      unfold i2c_next. destruct (fsm_next stretch oe s i) as [f d] eqn:FN. cbn [s_busy s_f s_d]. unfold busy_next.
      destruct (s_f s) eqn:F; try (rewrite HB by discriminate; discriminate).
      unfold fsm_next in FN. rewrite F in FN. destruct (cmd_taken s i); [discriminate|]. injection FN as <- <-.
      intros _. split; auto. split; auto. split; auto. unfold Good in IH. rewrite F in IH.
      destruct IH as (_ & _ & _ & IH). destruct (m_cmd m) as [[| |x|a]|]; auto; apply IH.
  Qed.

  Lemma good_run ins : let m := monitored stretch (trace c ins) in let s := state c ins in Good (see m s) s.
  Proof. apply good_run_aux. Qed.

  Lemma settled_run ins : let m := monitored stretch (trace c ins) in let s := state c ins in settled m s.
  Proof. apply good_run_aux. Qed.

  (** What the monitor has recorded when busy is low. *)
  Lemma idle_facts ins :
    let m := monitored stretch (trace c ins) in let s := state c ins in
    s_busy s = false ->
    s_f s = Idle /\ d_scl (s_d s) = true /\
    match m_cmd m with
    | None => m_conds m = [] /\ d_sda (s_d s) = true
    | Some CStart => let '(si, di, d0) := m_at m in
        d_sda (s_d s) = false /\ m_conds m = if d0 || (si && negb di) then [BusStart] else []
    | Some CStop => let '(si, di, d0) := m_at m in
        d_sda (s_d s) = true /\ m_conds m = if negb d0 || si then [BusStop] else []
    | Some (CWrite x) => pg m s (CWrite x) 0 9 9 9 true /\ d_acko (s_d s) = negb (nth 8 (m_samples m) false)
    | Some (CRead a) => pg m s (CRead a) 0 9 9 9 true /\ d_datao (s_d s) = from_msb (firstn 8 (m_samples m)) 0
    end.
  Proof.
    intros m s HB. destruct (settled_run ins HB) as (H1 & H2 & H3 & H4). pose proof (good_run ins) as HG.
    fold m s in H1, H2, H3, H4, HG. cbv zeta in HG. fold m s in HG. unfold Good in HG. rewrite H1 in HG. destruct HG as (G1 & G2 & G3 & G4).
    split; auto. split; auto. rewrite see_cmd in G4. destruct (m_cmd m) as [[| |x|a]|] eqn:C.
    - rewrite see_at, see_conds in G4 by auto. exact G4.
    - rewrite see_at, see_conds in G4 by auto. exact G4.
    - rewrite see_same in G4 by auto. tauto.
    - rewrite see_same in G4 by auto. tauto.
    - rewrite see_conds in G4 by auto. exact G4.
  Qed.

  Lemma m_cmd_last t : m_cmd (monitored stretch t) = last_cmd t.
  Proof.
    induction t as [|o t IH] using rev_ind; [reflexivity|]. rewrite monitored_snoc. unfold last_cmd. rewrite fold_left_app. cbn [fold_left].
    fold (last_cmd t). unfold mon_step. destruct (io_cmd o); [reflexivity|]. exact IH.
  Qed.
End Proofs.

(** SCL level and current command per FSM state, for every period. *)
Section Lines.
  Context (period : Z) (stretch oe : bool).
  Let c := i2c_initiator period stretch oe.

  Definition line_ok (lc : option i2c_cmd) (s : i2c_state) : Prop :=
    let scl := d_scl (s_d s) in
    match s_f s with
    | Idle => scl = true
    | StartSclL | StartSdaL => scl = true /\ lc = Some CStart
    | StartSdaH => scl = false /\ lc = Some CStart
    | StartSclH => lc = Some CStart
    | StopSclL | StopSdaH => scl = true /\ lc = Some CStop
    | StopSdaL => scl = false /\ lc = Some CStop
    | StopSclH => lc = Some CStop
    | WdSclL | WdSdaN | WaSclL | WaSdaN | RdSclL | RdSdaN | RaSclL | RaSdaN => scl = true
    | WdSdaX | WaSdaH | RdSdaH | RaSdaX => scl = false
    | WdSclH | WaSclH | RdSclH | RaSclH => True
    end.

  Lemma last_cmd_snoc t o : last_cmd (t ++ [o]) = match io_cmd o with Some x => Some x | None => last_cmd t end.
  Proof. unfold last_cmd. now rewrite fold_left_app. Qed.

  Lemma line_run ins : line_ok (last_cmd (trace c ins)) (state c ins).
  Proof.
    apply (run_inv c (fun t s => line_ok (last_cmd t) s)); [reflexivity|].
    intros t s i IH. rewrite last_cmd_snoc. cbn [c i2c_initiator cout cnext io_cmd]. unfold i2c_next.
    destruct (fsm_next stretch oe s i) as [f d] eqn:FN. unfold line_ok in *. cbn [s_f s_d].
    unfold fsm_next, scl_l, scl_h, stb_x, cmd_taken in *.
    destruct (s_f s) eqn:F.
    1: { destruct (ii_start i); [|destruct (ii_stop i); [|destruct (ii_write i); [|destruct (ii_read i)]]]; injection FN as <- <-;
      [destruct (scl_i oe s), (sda_i s)|destruct (scl_i oe s), (d_sda (s_d s))|..]; cbn; auto. }
    all: try (destruct (stb s); injection FN as <- <-; rewrite ?F; cbn; tauto).
    all: try (destruct (stb s); [|destruct (d_scl (s_d s) && (negb stretch || scl_i oe s)) eqn:SH]; injection FN as <- <-; rewrite ?F; cbn; auto;
      apply andb_true_iff in SH; tauto).
    all: unfold bit7 in FN; destruct (stb s), (d_bitno (s_d s) =? 7); injection FN as <- <-; rewrite ?F; cbn; auto.
  Qed.
End Lines.
