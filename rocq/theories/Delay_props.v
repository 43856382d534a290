(** DELAY_LatticeECP5: C70, C100. *)
From Verif Require Import Hdl Delay_model.

(** ** Specification *)
(** Pulses given on MOVE since the delay line was last loaded (0 before any load: the reset loads it). *)
Definition pulses (t : list dl_obs) : Z :=
  fold_left (fun n o => if dlo_load o then 0 else if dlo_move o then n + 1 else n) t 0.
(** The position of the delay line: LOADN sets it to DEL_VALUE, which is the reset value of taps (390),
    every pulse adds one tap. *)
Definition position (del_value : Z) (t : list dl_obs) : Z := del_value + pulses t.
(** k cycles after a load with taps = n: pulses in the odd cycles until there have been n. *)
Definition wave (n : Z) (k : nat) : dl_obs :=
  DlObs n (2 * n <=? Z.of_nat k) false (Nat.odd k && (Z.of_nat k <? 2 * n)).

(** ** Proofs *)
Lemma pulses_app a b : pulses (a ++ b) = fold_left (fun n o => if dlo_load o then 0 else if dlo_move o then n + 1 else n) b (pulses a).
Proof. unfold pulses. apply fold_left_app. Qed.
Definition dl_inv (s : dl_state) : Prop := 0 <= dl_curr s < 128 /\ (dl_s s = DlIdle \/ dl_s s = DlRst -> dl_move s = false).
Lemma dl_inv_step s i : dl_inv s -> dl_inv (dl_next s i).
Proof.
  intros [H1 H2]. destruct s as [f m c]; cbn [dl_s dl_move dl_curr] in *. unfold dl_inv, dl_next. cbn [dl_s dl_move dl_curr].
  destruct f; cbn [dl_s dl_move dl_curr].
  - split; [auto|]. auto.
  - split; [lia|auto].
  - destruct (dl_done _ _); cbn [dl_s dl_move dl_curr]; [auto|]. split; [|intros [X|X]; discriminate].
    destruct m; [|auto]. pose proof (trunc_range 7 (c + 1) ltac:(lia)) as X. change (2 ^ 7) with 128 in X. exact X.
Qed.
Lemma dl_reach ins : dl_inv (state delay ins).
Proof.
  unfold state. assert (G : forall s, dl_inv s -> dl_inv (state_from delay s ins)).
  { induction ins as [|i r IH]; intros s H; [exact H|]. cbn [state_from]. apply IH, dl_inv_step, H. }
  apply G. split; cbn; [lia|auto].
Qed.
(** The state k cycles after a load. *)
Definition dl_at (n : Z) (k : nat) : dl_state :=
  if Z.of_nat k <=? 2 * n then Dl DlMove (Nat.odd k && (Z.of_nat k <? 2 * n)) (Z.of_nat k / 2) else Dl DlIdle false n.
Lemma odd_half k : Z.of_nat k / 2 = if Nat.odd k then (Z.of_nat k - 1) / 2 else Z.of_nat k / 2.
Proof.
  destruct (Nat.odd k) eqn:E; [|reflexivity]. apply Nat.odd_spec in E. destruct E as [j ->].
  replace (Z.of_nat (2 * j + 1)) with (1 + Z.of_nat j * 2) by lia. replace (1 + Z.of_nat j * 2 - 1) with (Z.of_nat j * 2) by lia.
  rewrite Z.div_add by lia. rewrite Z.div_mul by lia. reflexivity.
Qed.
Lemma dl_at_step n k : 0 <= n < 128 -> dl_out (dl_at n k) n = wave n k /\ dl_next (dl_at n k) n = dl_at n (S k).
Proof.
  intros Hn. unfold dl_at, wave.
  assert (HS : Nat.odd (S k) = negb (Nat.odd k)) by (rewrite Nat.odd_succ, <- Nat.negb_odd; reflexivity).
  assert (HH : exists h, Z.of_nat k = 2 * h + (if Nat.odd k then 1 else 0)).
  { destruct (Nat.odd k) eqn:E.
    - apply Nat.odd_spec in E. destruct E as [j ->]. exists (Z.of_nat j). lia.
    - rewrite <- Nat.negb_even in E. apply negb_false_iff in E. apply Nat.even_spec in E. destruct E as [j ->]. exists (Z.of_nat j). lia. }
  destruct HH as [h Hh].
  assert (D1 : Z.of_nat k / 2 = h) by (rewrite Hh; symmetry; apply (Z.div_unique _ 2 h (if Nat.odd k then 1 else 0)); destruct (Nat.odd k); lia).
  assert (D2 : Z.of_nat (S k) / 2 = if Nat.odd k then h + 1 else h).
  { symmetry. destruct (Nat.odd k); [apply (Z.div_unique _ 2 (h + 1) 0)|apply (Z.div_unique _ 2 h 1)]; lia. }
  rewrite D1, D2, HS.
  destruct (Z.leb_spec (Z.of_nat k) (2 * n)) as [L|L].
  - unfold dl_out, dl_next, dl_done. cbn [dl_s dl_move dl_curr].
    destruct (Z.eqb_spec n h) as [E|E].
    + try subst h. assert (O : Nat.odd k = false) by (destruct (Nat.odd k); [lia|reflexivity]). rewrite O in *. cbn [andb negb].
      assert (L1 : (2 * n <=? Z.of_nat k) = true) by (apply Z.leb_le; lia).
      assert (L2 : (Z.of_nat (S k) <=? 2 * n) = false) by (apply Z.leb_gt; lia).
      rewrite L1, L2. split; [reflexivity|]. f_equal. symmetry. exact E.
    + assert (L0 : Z.of_nat k < 2 * n) by (destruct (Nat.odd k); lia).
      assert (L1 : (2 * n <=? Z.of_nat k) = false) by (apply Z.leb_gt; lia).
      assert (L2 : (Z.of_nat (S k) <=? 2 * n) = true) by (apply Z.leb_le; lia).
      assert (L3 : (Z.of_nat k <? 2 * n) = true) by (apply Z.ltb_lt; lia).
      rewrite L1, L2, L3, !andb_true_r. split; [reflexivity|]. f_equal.
      * destruct (Nat.odd k) eqn:OO; cbn [negb andb]; [reflexivity|]. symmetry. apply Z.ltb_lt. lia.
      * destruct (Nat.odd k); [|reflexivity]. apply trunc_small. change (2 ^ 7) with 128. lia.
  - assert (L1 : (2 * n <=? Z.of_nat k) = true) by (apply Z.leb_le; lia).
    assert (L2 : (Z.of_nat (S k) <=? 2 * n) = false) by (apply Z.leb_gt; lia).
    assert (L3 : (Z.of_nat k <? 2 * n) = false) by (apply Z.ltb_ge; lia).
    rewrite L1, L2, L3, andb_false_r. unfold dl_out, dl_next, dl_done. cbn [dl_s dl_move dl_curr]. rewrite Z.eqb_refl. auto.
Qed.
Lemma dl_at_run n m k : 0 <= n < 128 -> trace_from delay (dl_at n k) (repeat n m) = map (wave n) (seq k m).
Proof.
  intros Hn. revert k. induction m as [|m IH]; intros k; [reflexivity|]. cbn [repeat trace_from seq map]. destruct (dl_at_step n k Hn) as [A B].
  f_equal; [exact A|]. change (cnext delay (dl_at n k) n) with (dl_next (dl_at n k) n). rewrite B. apply IH.
Qed.
Lemma dl_at_0 n : 0 <= n -> Dl DlMove false 0 = dl_at n 0.
Proof. intros H. unfold dl_at. change (Z.of_nat 0) with 0. destruct (Z.leb_spec 0 (2 * n)); [reflexivity|lia]. Qed.

(** After a cycle that loads the delay line, with taps held at n from then on: exactly n pulses, in every
    other cycle, and locked from the cycle after the last of them; no other load. *)
Theorem C70_wave_partial : forall before x n m o, 0 <= n < 128 ->
  trace delay (before ++ [x]) = trace delay before ++ [o] -> dlo_load o = true ->
  trace delay (before ++ [x] ++ repeat n m) = trace delay (before ++ [x]) ++ map (wave n) (seq 0 m).
Proof.
  intros before x n m o Hn Ho Hl. rewrite app_assoc, trace_app. f_equal. rewrite trace_app in Ho. apply app_inv_head in Ho. cbn [trace_from] in Ho. injection Ho as Ho.
  unfold state. rewrite state_from_app. cbn [state_from]. set (s := state_from delay (creset delay) before) in *.
  assert (E : cnext delay s x = Dl DlMove false 0).
  { subst o. cbn in Hl. cbn. unfold dl_next. change (state delay before) with s in Hl. destruct (dl_s s); try discriminate. reflexivity. }
  rewrite E, (dl_at_0 n) by lia. apply dl_at_run, Hn.
Qed.
Lemma pulses_wave n m t o : dlo_load o = true ->
  pulses (t ++ [o] ++ map (wave n) (seq 0 m)) = Z.min (Z.of_nat m / 2) (Z.max 0 n).
Proof.
  intros Ho. rewrite app_assoc. induction m as [|m IH].
  - cbn [seq map]. rewrite app_nil_r, pulses_app. cbn [fold_left]. rewrite Ho. change (Z.of_nat 0 / 2) with 0. lia.
  - rewrite seq_S, map_app, app_assoc, pulses_app, IH. cbn [map fold_left plus wave dlo_load dlo_move].
    assert (HH : exists h, Z.of_nat m = 2 * h + (if Nat.odd m then 1 else 0)).
    { destruct (Nat.odd m) eqn:E.
      - apply Nat.odd_spec in E. destruct E as [j ->]. exists (Z.of_nat j). lia.
      - rewrite <- Nat.negb_even in E. apply negb_false_iff in E. apply Nat.even_spec in E. destruct E as [j ->]. exists (Z.of_nat j). lia. }
    destruct HH as [h Hh].
    assert (D1 : Z.of_nat m / 2 = h) by (rewrite Hh; symmetry; apply (Z.div_unique _ 2 h (if Nat.odd m then 1 else 0)); destruct (Nat.odd m); lia).
    assert (D2 : Z.of_nat (S m) / 2 = if Nat.odd m then h + 1 else h).
    { symmetry. destruct (Nat.odd m); [apply (Z.div_unique _ 2 (h + 1) 0)|apply (Z.div_unique _ 2 h 1)]; lia. }
    rewrite D1, D2. destruct (Nat.odd m); cbn [andb]; [|reflexivity].
    destruct (Z.ltb_spec (Z.of_nat m) (2 * n)); lia.
Qed.
(** Hence, when it is locked in a later cycle, exactly taps pulses were issued since the load. *)
Theorem C70_locked_partial : forall before x n m o, 0 <= n < 128 ->
  trace delay (before ++ [x]) = trace delay before ++ [o] -> dlo_load o = true ->
  forall p, trace delay (before ++ [x] ++ repeat n m ++ [n]) = trace delay (before ++ [x] ++ repeat n m) ++ [p] ->
  dlo_locked p = true ->
  pulses (trace delay (before ++ [x] ++ repeat n m)) = n /\ dlo_move p = false.
Proof.
  intros before x n m o Hn Ho Hl p Hp Hk.
  pose proof (C70_wave_partial before x n m o Hn Ho Hl) as W. pose proof (C70_wave_partial before x n (S m) o Hn Ho Hl) as W'.
  assert (R : repeat n (S m) = repeat n m ++ [n]) by (clear; induction m; cbn; [reflexivity|]; cbn in IHm; now rewrite IHm at 1).
  rewrite R, Hp, W, seq_S, map_app, app_assoc in W'. apply app_inv_head in W'. injection W' as ->. cbn [plus wave dlo_locked dlo_move] in *.
  apply Z.leb_le in Hk. rewrite W, Ho, <- app_assoc, pulses_wave by exact Hl. split.
  - rewrite Z.max_r by lia. apply Z.min_r. apply Z.div_le_lower_bound; lia.
  - destruct (Z.ltb_spec (Z.of_nat m) (2 * n)); [lia|]. apply andb_false_r.
Qed.
(** From any history, held taps are locked for good after at most 258 cycles. *)
Definition dl_left (n : Z) (s : dl_state) : Z :=
  match dl_s s with
  | DlIdle => if n =? dl_curr s then 0 else 2 * n + 2
  | DlRst => 2 * n + 1
  | DlMove => 2 * ((n - dl_curr s) mod 128) - (if dl_move s && negb (n =? dl_curr s) then 1 else 0)
  end.
Lemma dl_left_step n s : 0 <= n < 128 -> dl_inv s -> dl_left n (dl_next s n) <= Z.max 0 (dl_left n s - 1) /\ (dl_left n s <= 0 -> dl_s s <> DlRst -> dl_curr s = n) /\ (dl_s s = DlRst -> 0 < dl_left n s).
Proof.
  intros Hn [H1 H2]. destruct s as [f mv c]. cbn [dl_s dl_move dl_curr] in *. unfold dl_left, dl_next, dl_done. cbn [dl_s dl_move dl_curr].
  destruct f; cbn [dl_s dl_move dl_curr].
  - destruct (Z.eqb_spec n c) as [E|E]; cbn [dl_s dl_move dl_curr].
    + subst c. rewrite ?Z.eqb_refl. split; [lia|]. split; [auto|discriminate].
    + split; [lia|]. split; [lia|discriminate].
  - cbn [andb]. rewrite Z.sub_0_r, Z.mod_small by lia. split; [lia|]. split; [congruence|lia].
  - assert (B : 0 <= (n - c) mod 128 < 128) by (apply Z.mod_pos_bound; lia).
    destruct (Z.eqb_spec n c) as [E|E]; cbn [dl_s dl_move dl_curr].
    + subst c. rewrite ?Z.eqb_refl. rewrite Z.sub_diag. cbn. rewrite andb_false_r. split; [lia|]. split; [auto|discriminate].
    + assert (NZ : (n - c) mod 128 <> 0).
      { intros X. destruct (Z_lt_le_dec n c).
        - replace (n - c) with (n - c + 128 + (-1) * 128) in X by lia. rewrite Z.mod_add, Z.mod_small in X by lia. lia.
        - rewrite Z.mod_small in X by lia. lia. }
      destruct mv; cbn [negb andb].
      * assert (T : (n - trunc 7 (c + 1)) mod 128 = (n - c) mod 128 - 1).
        { unfold trunc. change (2 ^ 7) with 128. rewrite Zminus_mod_idemp_r. 
          symmetry. apply (Z.mod_unique _ 128 ((n - c) / 128)); [lia|]. pose proof (Z.div_mod (n - c) 128 ltac:(lia)). lia. }
        rewrite T. split; [lia|]. split; [lia|discriminate].
      * destruct (Z.eqb_spec n c); [contradiction|]. cbn [negb]. split; [lia|]. split; [lia|discriminate].
Qed.
Lemma dl_left_run n m s : 0 <= n < 128 -> dl_inv s -> dl_left n (state_from delay s (repeat n m)) <= Z.max 0 (dl_left n s - Z.of_nat m).
Proof.
  intros Hn. revert s. induction m as [|m IH]; intros s H; [cbn; lia|]. cbn [repeat state_from]. change (cnext delay s n) with (dl_next s n).
  specialize (IH (dl_next s n) (dl_inv_step _ _ H)). destruct (dl_left_step n s Hn H) as [X _]. lia.
Qed.
Lemma repeat_S_r {A} (x : A) m : repeat x (S m) = repeat x m ++ [x].
Proof. induction m as [|m IH]; [reflexivity|]. cbn [repeat app] in *. now rewrite <- IH. Qed.
Lemma dl_settled before n m : 0 <= n < 128 -> (257 <= m)%nat -> state delay (before ++ repeat n m) = Dl DlIdle false n.
Proof.
  intros Hn Hm. destruct m as [|m]; [lia|]. rewrite repeat_S_r, app_assoc. unfold state. rewrite state_from_app. cbn [state_from].
  rewrite state_from_app. fold (state delay before). pose proof (dl_reach before) as R.
  assert (L : dl_left n (state delay before) <= 256).
  { clear Hm m. destruct (state delay before) as [f mv c]. destruct R as [R _]. unfold dl_left. cbn [dl_s dl_move dl_curr] in *. destruct f.
    - destruct (n =? c); lia.
    - lia.
    - pose proof (Z.mod_pos_bound (n - c) 128 ltac:(lia)). destruct (mv && negb (n =? c)); lia. }
  pose proof (dl_left_run n m (state delay before) Hn R) as B. assert (I : dl_inv (state_from delay (state delay before) (repeat n m))).
  { pose proof (dl_reach (before ++ repeat n m)) as X. unfold state in X. rewrite state_from_app in X. exact X. }
  set (s := state_from delay (state delay before) (repeat n m)) in *. clearbody s.
  destruct (dl_left_step n s Hn I) as (_ & S2 & S3). destruct I as [I1 I2].
  assert (NR : dl_s s <> DlRst) by (intros X; specialize (S3 X); lia). specialize (S2 ltac:(lia) NR).
  destruct s as [f mv c]. cbn [dl_s dl_move dl_curr] in *. subst c. cbn. unfold dl_next, dl_done. cbn [dl_s dl_move dl_curr]. rewrite Z.eqb_refl.
  destruct f; [|congruence|reflexivity]. f_equal. apply I2. now left.
Qed.
(** From any history, taps held for 257 cycles or more are locked, without further load or move. *)
Theorem C70_live_partial : forall before n m, 0 <= n < 128 -> (257 <= m)%nat ->
  trace delay (before ++ repeat n m ++ [n]) = trace delay (before ++ repeat n m) ++ [DlObs n true false false].
Proof.
  intros before n m Hn Hm. rewrite app_assoc, trace_app. f_equal. cbn [trace_from]. rewrite (dl_settled before n m Hn Hm). cbn. unfold dl_out, dl_done. cbn. now rewrite Z.eqb_refl.
Qed.
(** The pulses are one cycle wide. *)
Theorem C70_width : forall ins t a b t', trace delay ins = t ++ a :: b :: t' -> dlo_move a = true -> dlo_move b = false.
Proof.
  intros ins t a b t' H. assert (G : forall s, dl_inv s -> trace_from delay s ins = t ++ a :: b :: t' -> dlo_move a = true -> dlo_move b = false).
  { clear H. revert t. induction ins as [|i r IH]; intros t s I H Ha; [destruct t; discriminate|]. destruct t as [|o t]; cbn [trace_from app] in H.
    - injection H as H1 H2. destruct r as [|j r]; [discriminate|]. cbn [trace_from] in H2. injection H2 as H2 _. subst a b. cbn in *.
      destruct I as [_ I]. unfold dl_next. destruct (dl_s s) eqn:E; cbn.
      + rewrite I in Ha by auto. discriminate.
      + reflexivity.
      + destruct (dl_done s i); cbn; [reflexivity|]. now rewrite Ha.
    - injection H as _ H. apply (IH t (dl_next s i)); auto. apply dl_inv_step, I. }
  apply (G (creset delay)); auto. split; cbn; [lia|auto].
Qed.
(** Without taps held since the load it fails, for good: a request changed during the first pulse leaves the
    delay line one tap off while locked is reported, however long taps is held. *)
Theorem C70_refuted : exists before n, forall m,
  trace delay (before ++ repeat n m ++ [n]) = trace delay (before ++ repeat n m) ++ [DlObs n true false false] /\
  pulses (trace delay (before ++ repeat n m)) = n + 1.
Proof.
  exists [0; 5; 5; 5; 0], 0. intros m.
  assert (S0 : state delay [0; 5; 5; 5; 0] = Dl DlIdle false 0) by reflexivity.
  assert (R : state_from delay (Dl DlIdle false 0) (repeat 0 m) = Dl DlIdle false 0 /\ Forall (fun o => dlo_load o = false /\ dlo_move o = false) (trace_from delay (Dl DlIdle false 0) (repeat 0 m))).
  { induction m as [|m [IH1 IH2]]; [split; [reflexivity|constructor]|]. split; [exact IH1|]. constructor; [split; reflexivity|exact IH2]. }
  destruct R as [R1 R2]. split.
  - rewrite app_assoc, trace_app. f_equal. unfold state in *. rewrite state_from_app, S0, R1. reflexivity.
  - rewrite trace_app, pulses_app, S0. assert (P : pulses (trace delay [0; 5; 5; 5; 0]) = 1) by reflexivity. rewrite P. clear P. 
    revert R2. generalize (trace_from delay (Dl DlIdle false 0) (repeat 0 m)). induction l as [|o l IH]; intros F; [reflexivity|].
    apply Forall_inv in F as F0. apply Forall_inv_tail in F. destruct F0 as [F1 F2]. cbn [fold_left]. rewrite F1, F2. apply IH, F.
Qed.
(** A request lowered during the move makes it go through all 128 positions: 128 pulses too many. *)
Theorem C70_wrap_refuted : exists ins n, trace delay (ins ++ [n]) = trace delay ins ++ [DlObs n true false false] /\ pulses (trace delay ins) = n + 128.
Proof. exists ([0; 5] ++ repeat 5 6 ++ repeat 1 400), 1. split; vm_compute; reflexivity. Qed.
Example C70_nonvacuous :
  let t := trace delay ([0; 3] ++ [3] ++ repeat 3 10) in
  map dlo_load t = [false; false; true] ++ repeat false 10 /\
  map dlo_move t = [false; false; false; false; true; false; true; false; true; false; false; false; false].
Proof. vm_compute. auto. Qed.

(** ** C100: the position of the delay line *)
(** With taps held at n since a load and locked: the reset value of taps is added. *)
Theorem C100_position_partial : forall del_value before x n m o, 0 <= n < 128 ->
  trace delay (before ++ [x]) = trace delay before ++ [o] -> dlo_load o = true -> 2 * n <= Z.of_nat m ->
  position del_value (trace delay (before ++ [x] ++ repeat n m)) = del_value + n.
Proof.
  intros dv before x n m o Hn Ho Hl Hm. rewrite (C70_wave_partial before x n m o Hn Ho Hl), Ho, <- app_assoc. unfold position. rewrite pulses_wave by exact Hl.
  rewrite Z.max_r by lia. rewrite Z.min_r; [reflexivity|]. apply Z.div_le_lower_bound; lia.
Qed.
(** So a taps signal whose reset value is the constant request itself is off by that value, for good. *)
Theorem C100_refuted : forall n m, 0 < n < 128 -> 2 * n <= Z.of_nat m ->
  let ins := [n; n] ++ repeat n m in
  trace delay (ins ++ [n]) = trace delay ins ++ [DlObs n true false false] /\ position n (trace delay ins) = 2 * n.
Proof.
  intros n m Hn Hm ins. pose proof (C70_wave_partial [n] n n) as W. 
  assert (Ho : trace delay ([n] ++ [n]) = trace delay [n] ++ [DlObs n false true false]).
  { cbn. unfold dl_out, dl_next, dl_done. cbn [dl_s dl_move dl_curr]. destruct (Z.eqb_spec n 0); [lia|]. cbn. unfold dl_done. cbn. destruct (Z.eqb_spec n 0); [lia|reflexivity]. }
  split.
  - pose proof (W (S m) _ ltac:(lia) Ho eq_refl) as W1. pose proof (W m _ ltac:(lia) Ho eq_refl) as W0. clear W. unfold ins.
    rewrite <- app_assoc. change ([n; n]) with ([n] ++ [n]). rewrite <- !(app_assoc [n]). rewrite <- repeat_S_r. rewrite W1, W0, seq_S, map_app, app_assoc. f_equal. cbn [map plus]. unfold wave.
    destruct (Z.leb_spec (2 * n) (Z.of_nat m)); [|lia]. destruct (Z.ltb_spec (Z.of_nat m) (2 * n)); [lia|]. now rewrite andb_false_r.
  - unfold ins. change ([n; n]) with ([n] ++ [n]). rewrite <- (app_assoc [n]). rewrite (C100_position_partial n [n] n n m _ ltac:(lia) Ho eq_refl Hm). lia.
Qed.
Example C100_nonvacuous : trace delay ([0; 7] ++ [7]) = trace delay [0; 7] ++ [DlObs 7 false true false].
Proof. reflexivity. Qed.

Print Assumptions C70_wave_partial.
Print Assumptions C70_locked_partial.
Print Assumptions C70_live_partial.
Print Assumptions C70_width.
Print Assumptions C70_refuted.
Print Assumptions C70_wrap_refuted.
Print Assumptions C100_position_partial.
Print Assumptions C100_refuted.
