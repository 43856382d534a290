(** Invariant of the I2CInitiator on a bus whose SDA pad is a function of the level it
    asks for: nobody else on the bus, or SDA stuck. *)
From Verif Require Import Hdl Bits I2c_model I2c_spec I2c_proofs.

Section Tied.
  Context (period : Z) (stretch oe : bool) (HP : 4 <= period) (g : bool -> bool).
  Let c := i2c_initiator period stretch oe.
  Let Q := period / 4.

  Definition tied (o : i2c_obs) : Prop := ii_sda_pad (io_in o) = g (io_sda o).

  Definition in_scl_h (f : i2c_fsm) : bool :=
    match f with StartSclH | StopSclH | WdSclH | WaSclH | RdSclH | RaSclH => true | _ => false end.
  Definition in_low (f : i2c_fsm) : bool :=
    match f with StartSdaH | StopSdaL | WdSdaX | WaSdaH | RdSdaH | RaSdaX => true | _ => false end.

  (** In a *SclH state the synchroniser holds what SDA is tied to by the time SCL rises. *)
  Definition tinv (m : monitor) (s : i2c_state) : Prop :=
    m_samples m ++ (if m_sampled m then [] else [g (d_sda (s_d s))]) = map g (m_rises m) /\
    if in_scl_h (s_f s) then
      if d_scl (s_d s)
      then (m_scl m = false -> m_sampled m = true) /\ (m_scl m = false \/ m_sampled m = false -> s_sda1 s = g (d_sda (s_d s)) /\ s_sda2 s = g (d_sda (s_d s)))
      else m_sampled m = true /\ (s_timer s = Q \/ s_sda1 s = g (d_sda (s_d s)))
    else m_sampled m = true /\ d_scl (s_d s) = negb (in_low (s_f s)) /\ (d_scl (s_d s) = true -> m_scl m = true).

  Lemma tinv_step m s i : ii_sda_pad i = g (d_sda (s_d s)) -> tinv m s ->
    tinv (mon_step stretch m (cout c s i)) (cnext c s i).
  Proof.
    intros HI [H1 H2]. pose proof (Q_pos period HP) as HQ. fold Q in HQ.
    assert (HT : stb s = true -> timer_next period stretch oe s = Q) by (intros X; now apply timer_load).
    assert (H0 : stb s = true -> s_timer s <> Q) by (unfold stb; intros X; apply Z.eqb_eq in X; lia).
    unfold c, tinv. cbn [i2c_initiator cout cnext]. unfold mon_step. cbn [io_cmd io_scl io_sda io_scl_i io_sda_i].
    unfold cmd_taken, i2c_next, fsm_next, cmd_taken, scl_l, scl_h, stb_x, sda_i.
    set (si := scl_i oe s). set (tn := timer_next period stretch oe s) in *. clearbody si tn.
    destruct s as [f b tm d a1 a2 c1 c2]. destruct d as [bn rs ws ra ak dt sc sd]. destruct m as [mc ma mr ms mk mf msc msd mp].
    cbn [s_f s_timer s_d s_sda1 s_sda2 d_scl d_sda m_samples m_sampled m_rises m_scl] in *.
    unfold bit7 in *. cbn [s_d d_bitno] in *.
    set (st := stb _) in *. clearbody st.
    destruct f; cbn [in_scl_h in_low negb] in *.
    1: { destruct H2 as (-> & -> & H3). rewrite app_nil_r in H1. specialize (H3 eq_refl). subst msc.
      destruct (ii_start i); [|destruct (ii_stop i); [|destruct (ii_write i); [|destruct (ii_read i)]]];
        [destruct si, a2|destruct si, sd| | |]; cbn; rewrite ?app_nil_r; repeat split; auto; match goal with X : _ \/ _ |- _ => destruct X; discriminate end. }
    all: try (destruct H2 as (-> & -> & H3); rewrite app_nil_r in H1; try (specialize (H3 eq_refl); subst msc);
      destruct st; [|]; try destruct (bn =? 7); cbn; try destruct msc; cbn; rewrite ?app_nil_r; repeat split; auto; try discriminate).
    all: destruct sc; [destruct H2 as [H3 H2]|destruct H2 as [-> H2]].
    all: destruct st; try (specialize (H0 eq_refl); destruct H2 as [H2|H2]; [contradiction|]; subst a1);
      destruct stretch, si, msc; cbn; try destruct mp; cbn; try (specialize (H3 eq_refl); discriminate); rewrite ?app_nil_r in *; cbn in *; auto.
    all: repeat split; auto; try discriminate.
    all: try (destruct H2 as [? ?]; [auto; fail|]; subst; rewrite ?map_app, <- ?H1, ?app_nil_r; cbn; rewrite <- ?app_assoc; auto; try discriminate).
    all: try (intros [X|X]; discriminate).
  Qed.
  Lemma tinv_run ins : Forall tied (trace c ins) -> tinv (monitored stretch (trace c ins)) (state c ins).
  Proof.
    apply (run_inv c (fun t s => Forall tied t -> tinv (monitored stretch t) s)).
    - intros _. unfold tinv. cbn. auto.
    - intros t s i IH H. apply Forall_app in H. destruct H as [H H1]. inversion H1; subst.
      unfold monitored. rewrite fold_left_app. cbn [fold_left]. apply tinv_step; [assumption|]. now apply IH.
  Qed.

  (** When busy is low, what was sampled is what SDA was tied to when SCL rose. *)
  Lemma tied_samples ins t1 o t2 : trace c ins = t1 ++ o :: t2 -> Forall tied t1 -> io_busy o = false ->
    m_samples (monitored stretch t1) = map g (m_rises (monitored stretch t1)).
  Proof.
    intros H HT HB. apply trace_one in H. destruct H as (a & i & b & -> & <- & ->).
    destruct (tinv_run a HT) as [H1 H2]. destruct (idle_facts period stretch oe HP a HB) as [HF _].
    fold c in HF. rewrite HF in H2. cbn in H2. destruct H2 as [H2 _]. rewrite H2, app_nil_r in H1. exact H1.
  Qed.
End Tied.
