(** Measure for the termination of I2CInitiator commands. *)
From Verif Require Import Hdl Bits I2c_model I2c_spec I2c_proofs.
From Coq Require Import Lia.

Section Live.
  Context (period : Z) (stretch oe : bool).
  Hypothesis HP : 4 <= period.
  Let c := i2c_initiator period stretch oe.
  Let Q := period / 4.

  Definition live_ok (s : i2c_state) : Prop :=
    0 <= d_bitno (s_d s) < 8 /\ 0 <= s_timer s <= Q /\ (s_f s <> Idle -> s_busy s = true).

  Lemma Q_range : 1 <= Q < period.
  Proof. unfold Q. split; [apply Z.div_le_lower_bound|apply Z.div_lt_upper_bound]; lia. Qed.

  Lemma timer_next_range s : 0 <= s_timer s <= Q -> 0 <= timer_next period stretch oe s <= Q.
  Proof.
    pose proof Q_range. intros H1. unfold timer_next, stb. fold Q.
    destruct (s_timer s =? 0) eqn:E; cbn [orb]; [rewrite trunc_range_small; lia|].
    destruct (negb (s_busy s)); [rewrite trunc_range_small; lia|]. apply Z.eqb_neq in E.
    destruct (negb stretch || _); [rewrite trunc_range_small; lia|lia].
  Qed.

  Lemma fsm_bitno s i f d : 0 <= d_bitno (s_d s) < 8 -> fsm_next stretch oe s i = (f, d) -> 0 <= d_bitno d < 8.
  Proof.
    intros H E. unfold fsm_next, scl_l, scl_h, stb_x in E. pose proof (trunc_range 3 (d_bitno (s_d s) + 1)) as T.
    change (2 ^ 3) with 8 in T.
    destruct (s_f s); [destruct (cmd_taken s i) as [[]|]|..]; try destruct (stb s); try destruct (d_scl (s_d s) && _);
    injection E as <- <-; cbn; auto; apply T; lia.
  Qed.

  Lemma live_step s i : live_ok s -> live_ok (i2c_next period stretch oe s i).
  Proof.
    intros (H1 & H2 & H3). split; [|split].
    - unfold i2c_next. destruct (fsm_next stretch oe s i) as [f d] eqn:E. cbn. eapply fsm_bitno; eauto.
    - unfold i2c_next. destruct (fsm_next stretch oe s i) as [f d] eqn:E. cbn [s_timer]. now apply timer_next_range.
    - now apply busy_next_true.
  Qed.

  Lemma live_run ins : live_ok (state c ins).
  Proof.
    apply (state_inv c live_ok).
    - pose proof Q_range. repeat split; cbn; try lia; auto.
    - intros s i H. now apply live_step.
  Qed.

  (** Quarter periods left. *)
  Definition hsub (s : i2c_state) : Z := if d_scl (s_d s) then 0 else 1.
  Definition left (s : i2c_state) : Z :=
    let b := 5 * (7 - d_bitno (s_d s)) in
    match s_f s with
    | Idle => 0
    | StartSclL => 5 | StartSdaH => 4 | StartSclH => 2 + hsub s | StartSdaL => 1
    | StopSclL => 5 | StopSdaL => 4 | StopSclH => 2 + hsub s | StopSdaH => 1
    | WdSclL => b + 10 | WdSdaX => b + 9 | WdSclH => b + 7 + hsub s | WdSdaN => b + 6
    | WaSclL => 5 | WaSdaH => 4 | WaSclH => 2 + hsub s | WaSdaN => 1
    | RdSclL => b + 10 | RdSdaH => b + 9 | RdSclH => b + 7 + hsub s | RdSdaN => b + 6
    | RaSclL => 5 | RaSdaX => 4 | RaSclH => 2 + hsub s | RaSdaN => 1
    end.

  Definition in_high (s : i2c_state) : bool :=
    match s_f s with
    | StartSclH | StopSclH | WdSclH | WaSclH | RdSclH | RaSclH => d_scl (s_d s)
    | _ => false
    end.

  Definition lag (s : i2c_state) : Z :=
    if stretch && oe
    then if Bool.eqb (s_scl1 s) (d_scl (s_d s))
         then if Bool.eqb (s_scl2 s) (d_scl (s_d s)) then 0 else 1
         else 2
    else 0.

  Definition mu (s : i2c_state) : Z :=
    left s * (Q + 4) + (if in_high s && stb s then Q + 1 else s_timer s) + lag s.

  Lemma left_nonneg s : live_ok s -> 0 <= left s.
  Proof. intros (H & _). unfold left, hsub. destruct (s_f s), (d_scl (s_d s)); lia. Qed.

  Lemma lag_range s : 0 <= lag s <= 2.
  Proof. unfold lag. destruct (stretch && oe), (Bool.eqb (s_scl1 s) (d_scl (s_d s))), (Bool.eqb (s_scl2 s) (d_scl (s_d s))); lia. Qed.

  Lemma left_bound s : live_ok s -> left s <= 45.
  Proof. intros (H & _). unfold left, hsub. destruct (s_f s), (d_scl (s_d s)); lia. Qed.

  Lemma mu_nonneg s : live_ok s -> 0 <= mu s.
  Proof.
    intros H. pose proof (left_nonneg s H). pose proof (lag_range s). pose proof Q_range. destruct H as (_ & H & _).
    unfold mu. destruct (_ && _); nia.
  Qed.

  Lemma mu_bound s : live_ok s -> mu s <= 46 * (Q + 4).
  Proof.
    intros H. pose proof (left_bound s H). pose proof (left_nonneg s H). pose proof (lag_range s). pose proof Q_range. destruct H as (_ & H & _).
    unfold mu. destruct (_ && _); nia.
  Qed.

  Definition follows (s : i2c_state) (i : i2c_in) : Prop :=
    stretch = true -> oe = true -> ii_scl_pad i = d_scl (s_d s).

  (** Without a timer strobe, the FSM stays or a high phase is left. *)
  Lemma quiet_step s i f d : live_ok s -> stb s = false -> s_f s <> Idle -> fsm_next stretch oe s i = (f, d) ->
    d_scl d = d_scl (s_d s) /\
    (((negb stretch || Bool.eqb (d_scl (s_d s)) (scl_i oe s)) = true /\ in_high s = true /\
       forall b t x y z w, left (I2cSt f b t d x y z w) < left s) \/
     ((in_high s = true -> (negb stretch || Bool.eqb (d_scl (s_d s)) (scl_i oe s)) = false) /\ f = s_f s /\ d = s_d s)).
  Proof.
    intros HL ST HI E. destruct HL as (HBt & _). unfold fsm_next, scl_l, scl_h, stb_x in E. rewrite ST in E. unfold in_high, left, hsub.
    destruct (s_f s) eqn:F; try contradiction; cbn [s_f s_d];
    try (injection E as <- <-; split; [reflexivity|]; right; rewrite ?F; split; [intros; discriminate|]; split; reflexivity);
    destruct (d_scl (s_d s)) eqn:D; cbn [andb] in E;
    destruct stretch; cbn [negb orb] in *; destruct (scl_i oe s) eqn:SI; cbn [Bool.eqb];
    injection E as <- <-; cbn [d_scl set_wsh set_rsh set_acko set_datao d_bitno];
    (split; [auto|]); rewrite ?F;
    first [left; split; [reflexivity|split; [reflexivity|intros; lia]] | right; split; [intros; congruence|split; reflexivity]].
  Qed.

  Lemma trunc3 x : 0 <= x < 8 -> x <> 7 -> trunc 3 (x + 1) = x + 1.
  Proof. intros. apply trunc_small. change (2 ^ 3) with 8. lia. Qed.

  (** On a strobe, a quarter period is used up, or SCL is raised once more. *)
  Lemma strobe_step s i f d : live_ok s -> stb s = true -> s_f s <> Idle -> fsm_next stretch oe s i = (f, d) ->
    (in_high s = false /\ forall b t x y z w, left (I2cSt f b t d x y z w) < left s) \/
    (in_high s = true /\ f = s_f s /\ d_scl d = d_scl (s_d s) /\ d_bitno d = d_bitno (s_d s)).
  Proof.
    intros HL ST HI E. destruct HL as (HBt & _). unfold fsm_next, scl_l, scl_h, stb_x, bit7 in E. rewrite ST in E. unfold in_high, left, hsub.
    destruct (s_f s) eqn:F; try contradiction; cbn [s_f s_d];
    try destruct (d_bitno (s_d s) =? 7) eqn:B7;
    injection E as <- <-; cbn [d_scl set_scl set_sda d_bitno inc_bitno set_bitno];
    try (left; split; [reflexivity|intros; destruct (d_scl (s_d s)); lia]);
    try (apply Z.eqb_neq in B7; left; split; [reflexivity|intros; rewrite trunc3 by lia; lia]);
    destruct (d_scl (s_d s)); (left; split; [reflexivity|intros; lia]) || (right; auto).
  Qed.

  Lemma lag_same s s' i : follows s i -> d_scl (s_d s') = d_scl (s_d s) ->
    s_scl1 s' = ii_scl_pad i -> s_scl2 s' = s_scl1 s ->
    lag s' <= lag s /\ (stretch = true -> Bool.eqb (d_scl (s_d s)) (scl_i oe s) = false -> lag s' < lag s).
  Proof.
    intros HF ED E1 E2. unfold lag, scl_i. rewrite E1, E2, ED.
    unfold follows in HF. destruct stretch; cbn [andb]; [|split; [lia|discriminate]].
    destruct oe; [rewrite HF by auto|split; [lia|intros _; rewrite Bool.eqb_reflx; discriminate]].
    destruct (s_scl1 s), (s_scl2 s), (d_scl (s_d s)); cbn; split; intros; try discriminate; lia.
  Qed.

  Lemma mu_step s i : live_ok s -> follows s i -> s_f s <> Idle ->
    mu (i2c_next period stretch oe s i) < mu s.
  Proof.
    intros HL HF HI. pose proof Q_range as HQ. pose proof (live_step s i HL) as HL'. pose proof (left_nonneg s HL) as N0.
    pose proof (left_nonneg _ HL') as N1. pose proof (lag_range (i2c_next period stretch oe s i)) as G1. pose proof (lag_range s) as G0.
    pose proof HL as (_ & HT & HB). specialize (HB HI).
    destruct (fsm_next stretch oe s i) as [f d] eqn:E.
    assert (EN : i2c_next period stretch oe s i = I2cSt f (busy_next s i) (timer_next period stretch oe s) d (ii_sda_pad i) (s_sda1 s) (ii_scl_pad i) (s_scl1 s))
      by (unfold i2c_next; rewrite E; reflexivity).
    assert (HT' : 0 <= s_timer (i2c_next period stretch oe s i) <= Q) by apply HL'.
    destruct (stb s) eqn:ST.
    - assert (ET : s_timer (i2c_next period stretch oe s i) = Q).
      { rewrite EN. cbn [s_timer]. unfold timer_next. rewrite ST. cbn [orb]. apply trunc_range_small. fold Q. lia. }
      assert (ES : stb (i2c_next period stretch oe s i) = false) by (unfold stb; rewrite ET; apply Z.eqb_neq; lia).
      assert (T0 : s_timer s = 0) by (unfold stb in ST; lia).
      destruct (strobe_step s i f d HL ST HI E) as [[H1 H2]|(H1 & H2 & H3 & H4)].
      + specialize (H2 (busy_next s i) (timer_next period stretch oe s) (ii_sda_pad i) (s_sda1 s) (ii_scl_pad i) (s_scl1 s)). rewrite <- EN in H2.
        unfold mu. rewrite ES, H1, ET, T0, Bool.andb_false_r. cbn [andb]. nia.
      + destruct (lag_same s (i2c_next period stretch oe s i) i HF) as [L1 _]; [rewrite EN; auto|rewrite EN; auto|rewrite EN; auto|].
        assert (EL : left (i2c_next period stretch oe s i) = left s) by (rewrite EN; unfold left, hsub; cbn [s_f s_d]; rewrite H2, H3, H4; reflexivity).
        unfold mu. rewrite ES, ET, EL, H1, ST, Bool.andb_false_r. cbn [andb]. lia.
    - assert (TP : 1 <= s_timer s) by (unfold stb in ST; apply Z.eqb_neq in ST; lia).
      destruct (quiet_step s i f d HL ST HI E) as [H1 H2].
      destruct (lag_same s (i2c_next period stretch oe s i) i HF) as [L1 L2]; [rewrite EN; auto|rewrite EN; auto|rewrite EN; auto|].
      destruct H2 as [(H2 & H3 & H4)|(H2 & H3 & H4)].
      + specialize (H4 (busy_next s i) (timer_next period stretch oe s) (ii_sda_pad i) (s_sda1 s) (ii_scl_pad i) (s_scl1 s)). rewrite <- EN in H4.
        unfold mu. rewrite ST, Bool.andb_false_r. destruct (_ && _); nia.
      + assert (EL : left (i2c_next period stretch oe s i) = left s) by (rewrite EN; unfold left, hsub; cbn [s_f s_d]; rewrite H3, H4; reflexivity).
        assert (EH : in_high (i2c_next period stretch oe s i) = in_high s) by (rewrite EN; unfold in_high; cbn [s_f s_d]; rewrite H3, H4; reflexivity).
        assert (ET : s_timer (i2c_next period stretch oe s i) = if negb stretch || Bool.eqb (d_scl (s_d s)) (scl_i oe s) then s_timer s - 1 else s_timer s).
        { rewrite EN. cbn [s_timer]. unfold timer_next. rewrite ST, HB. cbn [orb negb]. destruct (negb stretch || _); auto.
          apply trunc_range_small. lia. }
        unfold mu. rewrite EL, EH, ST, Bool.andb_false_r, ET.
        destruct (negb stretch || _) eqn:NF.
        * destruct (in_high s); [discriminate H2; auto|]. cbn [andb]. lia.
        * apply orb_false_iff in NF. destruct NF as [NF1 NF2]. apply negb_false_iff in NF1.
          specialize (L2 NF1 NF2).
          assert (ES : stb (i2c_next period stretch oe s i) = false).
          { unfold stb. rewrite ET. apply Z.eqb_neq. lia. }
          rewrite ES, Bool.andb_false_r. lia.
  Qed.

  (** The FSM is in Idle within [n] cycles. *)
  Lemma to_idle n : forall s ins, live_ok s -> mu s <= Z.of_nat n ->
    Forall (fun o => stretch = true -> oe = true -> ii_scl_pad (io_in o) = io_scl o) (trace_from c s ins) ->
    (n <= length ins)%nat ->
    exists a b, ins = a ++ b /\ (length a <= n)%nat /\ s_f (state_from c s a) = Idle.
  Proof.
    induction n as [|n IH]; intros s ins HL HM HFo HN.
    - exists [], ins. repeat split; auto. cbn. destruct (s_f s) eqn:F; auto; exfalso;
      pose proof (left_nonneg s HL); pose proof (lag_range s); pose proof Q_range; pose proof HL as (_ & HT & _);
      assert (1 <= left s) by (destruct HL as (HBb & _); unfold left, hsub; rewrite F; destruct (d_scl (s_d s)); lia);
      unfold mu in HM; destruct (_ && _); nia.
    - destruct (s_f s) eqn:F; [exists [], ins; repeat split; auto; cbn; lia|..];
      (destruct ins as [|i ins]; [cbn in HN; lia|]; cbn in HFo; inversion HFo as [|? ? HF1 HF2]; subst; cbn in HF1;
       destruct (IH (i2c_next period stretch oe s i) ins) as (a & b & -> & H1 & H2);
       [now apply live_step| |exact HF2|cbn in HN; lia|exists (i :: a), b; repeat split; auto; cbn; lia];
       assert (HX : mu (i2c_next period stretch oe s i) < mu s) by (apply mu_step; auto; congruence); lia).
  Qed.
End Live.
