From Verif Require Import Stream Bits Regs_model Regs_spec.

Lemma since_last_snoc {A} (h : list (beat A)) b :
  since_last (h ++ [b]) = if blast b then 0 else since_last h + 1.
Proof. unfold since_last. generalize 0 at 1 3 as n. induction h; intros n; cbn; auto. Qed.

Lemma since_last_nonneg {A} (h : list (beat A)) : 0 <= since_last h.
Proof. induction h using rev_ind; [cbn; lia|]. rewrite since_last_snoc. destruct (blast x); lia. Qed.

Lemma slot_range {A} n (h : list (beat A)) : 1 <= n -> 0 <= slot n h < n.
Proof. intros. apply Z.mod_pos_bound. lia. Qed.

Lemma slot_snoc {A} n (h : list (beat A)) b w : 1 <= n -> n <= 2 ^ w ->
  slot n (h ++ [b]) = sr_idx_next w n (slot n h) (blast b).
Proof.
  intros Hn Hw. unfold slot, sr_idx_next. rewrite since_last_snoc.
  destruct (blast b); rewrite ?orb_true_r, ?orb_false_r.
  - apply Z.mod_0_l. lia.
  - pose proof (since_last_nonneg h). set (x := since_last h) in *.
    pose proof (Z.div_mod x n ltac:(lia)). pose proof (Z.mod_pos_bound x n ltac:(lia)).
    destruct (Z.eqb_spec (x mod n) (n - 1)).
    + symmetry. apply Z.mod_unique with (q := x / n + 1); lia.
    + rewrite trunc_small by lia. symmetry. apply Z.mod_unique with (q := x / n); lia.
Qed.

Lemma register_holds_snoc {A} n (d0 : A) k h b v :
  register_holds n d0 k h v ->
  register_holds n d0 k (h ++ [b]) (if k =? slot n h then bdata b else v).
Proof.
  intros H. destruct (Z.eqb_spec k (slot n h)).
  - apply RhSome with (a := h) (c := []); auto. intros [|? ?] ? ? E; discriminate.
  - inversion H; subst.
    + apply RhNone. intros a x c E.
      destruct c as [|y c] using rev_ind.
      * apply app_inj_tail in E. destruct E as [-> ->]. auto.
      * rewrite app_comm_cons, app_assoc in E. apply app_inj_tail in E. destruct E as [-> _]. eauto.
    + apply RhSome with (a := a) (c := c ++ [b]); auto.
      * now rewrite <- app_assoc.
      * intros c1 x c2 E. destruct c2 as [|y c2] using rev_ind.
        -- apply app_inj_tail in E. destruct E as [-> ->]. auto.
        -- rewrite app_comm_cons, app_assoc in E. apply app_inj_tail in E. destruct E as [-> _]. eauto.
Qed.

Lemma app_cons_lt {X} (a1 a2 : list X) b1 b2 c1 c2 : (length a1 < length a2)%nat ->
  a1 ++ b1 :: c1 = a2 ++ b2 :: c2 -> exists d, a2 = a1 ++ b1 :: d /\ c1 = d ++ b2 :: c2.
Proof.
  revert a2. induction a1 as [|x a1 IH]; intros [|y a2] L E; cbn in *; try lia.
  - injection E as E1 E2. subst. eauto.
  - injection E as E1 E2. subst. destruct (IH a2 ltac:(lia) E2) as (d & -> & ->). eauto.
Qed.

Lemma app_cons_eq {X} (a1 a2 : list X) b1 b2 c1 c2 : length a1 = length a2 ->
  a1 ++ b1 :: c1 = a2 ++ b2 :: c2 -> a1 = a2 /\ b1 = b2 /\ c1 = c2.
Proof.
  revert a2. induction a1 as [|x a1 IH]; intros [|y a2] L E; cbn in *; try lia.
  - injection E as E1 E2. auto.
  - injection E as E1 E2. subst. destruct (IH a2 ltac:(lia) E2) as (-> & -> & ->). auto.
Qed.

Lemma register_holds_fun {A} n (d0 : A) k h v w :
  register_holds n d0 k h v -> register_holds n d0 k h w -> v = w.
Proof.
  intros H1 H2. destruct H1 as [N1|a1 b1 c1 E1 S1 L1], H2 as [N2|a2 b2 c2 E2 S2 L2]; auto.
  - exfalso. eapply N1; eauto.
  - exfalso. eapply N2; eauto.
  - rewrite E1 in E2. clear E1. destruct (Nat.lt_trichotomy (length a1) (length a2)) as [L|[L|L]].
    + exfalso. destruct (app_cons_lt _ _ _ _ _ _ L E2) as (d & -> & ->). eapply L1; eauto.
    + destruct (app_cons_eq _ _ _ _ _ _ L E2) as (-> & -> & ->). auto.
    + exfalso. destruct (app_cons_lt _ _ _ _ _ _ L (eq_sym E2)) as (d & -> & ->). eapply L2; eauto.
Qed.

(** Beats taken by a sink that is always ready. *)
Definition taken {A} (l : list (chan A)) : list (beat A) := flat_map (fun c => xfer c true) l.
Lemma taken_snoc {A} (l : list (chan A)) c : taken (l ++ [c]) = taken l ++ xfer c true.
Proof. unfold taken. rewrite flat_map_app. cbn. now rewrite app_nil_r. Qed.

Definition sr_inv {A} (d0 : A) n (t : list (sr_obs A)) (s : sr_state A) : Prop :=
  let h := taken (map sro_sink t) in
  sr_idx s = slot n h /\ (forall k, register_holds n d0 k h (sr_regs s k)) /\
  (forall k, sr_we s k = true <->
     exists t0 o, t = t0 ++ [o] /\ cvalid (sro_sink o) = true /\ slot n (taken (map sro_sink t0)) = k).

Lemma sr_inv_run {A} (d0 : A) n ins : 1 <= n ->
  sr_inv d0 n (trace (stream_regs d0 n) ins) (state (stream_regs d0 n) ins).
Proof.
  intros Hn. apply (run_inv (stream_regs d0 n) (sr_inv d0 n)).
  - split; [reflexivity|]. split.
    + intros k. apply RhNone. intros [|? ?] ? ? E; discriminate.
    + intros k. split; [discriminate|]. intros (t0 & o & E & _). destruct t0; discriminate.
  - intros t s c (H1 & H2 & H3). unfold sr_inv. rewrite map_app. cbn [map stream_regs cout cnext sro_sink].
    rewrite taken_snoc. unfold sr_next, xfer. rewrite andb_true_r.
    destruct (cvalid c) eqn:V; cbn [sr_idx sr_regs sr_we].
    + split; [|split].
      * rewrite H1. rewrite <- slot_snoc; auto. apply range_width_bound; auto.
      * intros k. rewrite H1. apply register_holds_snoc, H2.
      * intros k. rewrite Z.eqb_eq, H1. split.
        -- intros ->. eexists _, _. split; [reflexivity|]. auto.
        -- intros (t0 & o & E & _ & E2). apply app_inj_tail in E. destruct E as [E _]. subst t0. auto.
    + rewrite app_nil_r. split; [|split]; auto.
      intros k. split; [discriminate|]. intros (t0 & o & E & E2 & _). apply app_inj_tail in E. destruct E as [-> <-].
      cbn in E2. congruence.
Qed.

(* ---- litex ---- *)
Lemma reverse_bytes_testbit n x i j : 0 <= j < 8 -> 0 <= i < Z.of_nat n ->
  Z.testbit (reverse_bytes n x) (8 * i + j) = Z.testbit x (8 * (Z.of_nat n - 1 - i) + j).
Proof.
  intros Hj. revert i. induction n as [|k IH]; intros i Hi; [lia|].
  cbn [reverse_bytes]. rewrite cat_testbit by lia. destruct (Z.ltb_spec (8 * i + j) 8).
  - assert (i = 0) by lia. subst. rewrite slice_testbit by lia.
    destruct (Z.ltb_spec (8 * 0 + j) 8); [|lia]. cbn [andb].
    f_equal. lia.
  - replace (8 * i + j - 8) with (8 * (i - 1) + j) by lia. rewrite IH by lia. f_equal. lia.
Qed.

Lemma reverse_bytes_range n x : 0 <= reverse_bytes n x < 2 ^ (8 * Z.of_nat n).
Proof.
  induction n as [|k IH]; [cbn; lia|]. cbn [reverse_bytes].
  apply range_of_testbit; [lia|]. intros i Hi. rewrite cat_testbit by lia.
  destruct (Z.ltb_spec i 8); [lia|]. apply testbit_above with (w := 8 * Z.of_nat k); auto. lia.
Qed.

Definition map_beat {A B} (f : A -> B) (b : beat A) : beat B := Beat (bfirst b) (blast b) (f (bdata b)).

Definition lr_conv (bytes : nat) (reverse : bool) (x : Z) : Z := if reverse then reverse_bytes bytes x else x.

Definition lr_inv n bytes rev (t : list lr_obs) (s : lr_state) : Prop :=
  let h := map (map_beat (lr_conv bytes rev)) (taken (map lro_sink t)) in
  lr_idx s = slot n h /\ (forall k, register_holds n 0 k h (lr_regs s k)).

Lemma lr_inv_run n bytes rev ins : 1 <= n ->
  lr_inv n bytes rev (trace (litex_stream_regs n bytes rev) ins) (state (litex_stream_regs n bytes rev) ins).
Proof.
  intros Hn. apply (run_inv (litex_stream_regs n bytes rev) (lr_inv n bytes rev)).
  - split; [reflexivity|]. intros k. apply RhNone. intros [|? ?] ? ? E; discriminate.
  - intros t s c (H1 & H2). unfold lr_inv. rewrite map_app. cbn [map litex_stream_regs cout cnext lro_sink].
    rewrite taken_snoc. unfold lr_next, xfer. rewrite andb_true_r.
    destruct (cvalid c) eqn:V; cbn [lr_idx lr_regs].
    + rewrite map_app. cbn [map]. split.
      * rewrite H1. change (blast (cbeat c)) with (blast (map_beat (lr_conv bytes rev) (cbeat c))).
        rewrite <- slot_snoc; auto. unfold migen_max_width.
        pose proof (range_width_bound n Hn). pose proof (range_width_nonneg n).
        transitivity (2 ^ range_width n); auto. apply Z.pow_le_mono_r; lia.
      * intros k. rewrite H1.
        exact (register_holds_snoc n 0 k _ (map_beat (lr_conv bytes rev) (cbeat c)) _ (H2 k)).
    + rewrite app_nil_r. split; auto.
Qed.

(* ---- RegsStream ---- *)
Definition rs_pushed (t : list rs_obs) : list (beat Z) := flat_map (fun o => xfer (rso_push o) (rso_pready o)) t.
Definition rs_sent (t : list rs_obs) : list (beat Z) := flat_map (fun o => xfer (rso_src o) (rso_rready o)) t.
Definition rs_held (s : rs_state) : list (beat Z) :=
  match rs_out s with Some b => [b] | None => [] end ++ rs_q s.

Definition rs_inv depth (t : list rs_obs) (s : rs_state) : Prop :=
  rs_pushed t = rs_sent t ++ rs_held s /\ Z.of_nat (length (rs_q s)) <= depth.

Lemma rs_inv_run depth ins : 0 <= depth ->
  rs_inv depth (trace (regs_stream depth) ins) (state (regs_stream depth) ins).
Proof.
  intros Hd. apply (run_inv (regs_stream depth) (rs_inv depth)).
  - split; [reflexivity|cbn; lia].
  - intros t s i [H1 H2]. unfold rs_inv, rs_pushed, rs_sent in *. rewrite !flat_map_app, H1.
    cbn [regs_stream cout cnext flat_map rso_push rso_pready rso_src rso_rready]. rewrite !app_nil_r.
    set (push := xfer (rs_push s) (rs_pready depth s)).
    assert (HL : (length push <= 1)%nat) by (unfold push, xfer; destruct (_ && _); cbn; lia).
    assert (HP : Z.of_nat (length (rs_q s)) = depth -> push = []).
    { intros E. unfold push, xfer, rs_pready. rewrite E, Z.eqb_refl. now rewrite andb_false_r. }
    assert (HP2 : Z.of_nat (length (rs_q s)) + Z.of_nat (length push) <= depth).
    { destruct (Z.eq_dec (Z.of_nat (length (rs_q s))) depth) as [E|E]; [rewrite HP by auto; cbn; lia|lia]. }
    split.
    + rewrite <- !app_assoc. f_equal. unfold rs_next, rs_held, rs_src, xfer at 1. cbn [rs_out rs_q]. fold push.
      destruct (rs_out s) as [b|]; cbn [cvalid cbeat andb].
      * destruct (ri_ready i); cbn [app]; [|reflexivity]. destruct (rs_q s); reflexivity.
      * destruct (rs_q s); reflexivity.
    + unfold rs_next. cbn [rs_q]. fold push.
      destruct (match rs_out s with None => true | Some _ => ri_ready i end); rewrite app_length.
      * destruct (rs_q s); cbn in *; lia.
      * lia.
Qed.
