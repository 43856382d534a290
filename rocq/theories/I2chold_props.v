(** I2CInitiator: what has been read, and the acknowledge seen, stay put (C113). *)
From Verif Require Import Hdl Bits I2c_model I2c_spec I2c_proofs.

(** Which command a state belongs to. *)
Definition st_read (f : i2c_fsm) : bool :=
  match f with RdSclL | RdSdaH | RdSclH | RdSdaN | RaSclL | RaSdaX | RaSclH | RaSdaN => true | _ => false end.
Definition st_write (f : i2c_fsm) : bool :=
  match f with WdSclL | WdSdaX | WdSclH | WdSdaN | WaSclL | WaSdaH | WaSclH | WaSdaN => true | _ => false end.

Section Hold.
  Context (period : Z) (stretch oe : bool).
  Let c := i2c_initiator period stretch oe.
  Definition of_cmd (t : list i2c_obs) (s : i2c_state) : Prop :=
    (s_f s <> Idle -> s_busy s = true) /\
    (st_read (s_f s) = true -> exists a, last_cmd t = Some (CRead a)) /\
    (st_write (s_f s) = true -> exists x, last_cmd t = Some (CWrite x)).

  Lemma hold_step s i :
    let n := i2c_next period stretch oe s i in
    (st_read (s_f n) = true -> st_read (s_f s) = true \/ exists a, cmd_taken s i = Some (CRead a)) /\
    (st_write (s_f n) = true -> st_write (s_f s) = true \/ exists x, cmd_taken s i = Some (CWrite x)) /\
    (d_datao (s_d n) <> d_datao (s_d s) -> st_read (s_f s) = true) /\
    (d_acko (s_d n) <> d_acko (s_d s) -> st_write (s_f s) = true) /\
    (s_f s <> Idle -> cmd_taken s i = None).
  Proof.
    unfold i2c_next. cbv zeta. cbn [s_f s_d]. unfold fsm_next, cmd_taken.
    destruct (s_f s) eqn:F; cbn [st_read st_write];
      unfold scl_l, scl_h, stb_x, bit7; rewrite ?F;
      repeat match goal with
      | |- context [if ?b then _ else _] => destruct b
      end; cbn; repeat split; intros; try congruence; try discriminate; eauto.
  Qed.

  Lemma of_cmd_run ins : of_cmd (trace c ins) (state c ins).
  Proof.
    apply (run_inv c of_cmd).
    - split; [now cbn|]. split; discriminate.
    - intros t s i (H0 & H1 & H2). destruct (hold_step s i) as (S1 & S2 & _ & _ & S5).
      cbn [c i2c_initiator cnext]. split; [now apply busy_next_true|]. rewrite last_cmd_snoc. change (io_cmd (cout c s i)) with (cmd_taken s i).
      split; intros X.
      + destruct (S1 X) as [E|[a E]]; [rewrite S5; auto; intros Y; rewrite Y in E; discriminate|rewrite E; eauto].
      + destruct (S2 X) as [E|[a E]]; [rewrite S5; auto; intros Y; rewrite Y in E; discriminate|rewrite E; eauto].
  Qed.
End Hold.

(** data_o changes only while the read that was asked for last is under way. *)
Theorem C113_data_holds : forall period stretch oe ins t1 o o' t2,
  trace (i2c_initiator period stretch oe) ins = t1 ++ o :: o' :: t2 ->
  io_data o' <> io_data o -> io_busy o = true /\ exists a, last_cmd t1 = Some (CRead a).
Proof.
  intros period stretch oe ins t1 o o' t2 H. apply trace_two in H. destruct H as (a & i & i' & b & -> & <- & -> & ->).
  cbn [i2c_initiator cout cnext io_data io_busy]. intros D.
  destruct (of_cmd_run period stretch oe a) as (R0 & R1 & _). destruct (hold_step period stretch oe (state (i2c_initiator period stretch oe) a) i) as (_ & _ & S3 & _).
  specialize (S3 D). split; auto. apply R0. intros Y. rewrite Y in S3. discriminate.
Qed.
(** ack_o changes only while the write that was asked for last is under way. *)
Theorem C113_ack_holds : forall period stretch oe ins t1 o o' t2,
  trace (i2c_initiator period stretch oe) ins = t1 ++ o :: o' :: t2 ->
  io_ack o' <> io_ack o -> io_busy o = true /\ exists x, last_cmd t1 = Some (CWrite x).
Proof.
  intros period stretch oe ins t1 o o' t2 H. apply trace_two in H. destruct H as (a & i & i' & b & -> & <- & -> & ->).
  cbn [i2c_initiator cout cnext io_ack io_busy]. intros D.
  destruct (of_cmd_run period stretch oe a) as (R0 & _ & R1). destruct (hold_step period stretch oe (state (i2c_initiator period stretch oe) a) i) as (_ & _ & _ & S3 & _).
  specialize (S3 D). split; auto. apply R0. intros Y. rewrite Y in S3. discriminate.
Qed.

(** Both do change: a read of 255, then an acknowledged write. *)
Example C113_nonvacuous :
  let rd := I2cIn false false false true 0 true true true in
  let wr := I2cIn false false true false 0x5a false false true in
  let t := trace (i2c_initiator 4 false true) (repeat rd 73 ++ repeat wr 90) in
  existsb (fun o => io_data o =? 255) t = true /\ existsb io_ack t = true /\
  match t with o :: _ => io_data o = 0 /\ io_ack o = false | _ => False end.
Proof. vm_compute. repeat split; reflexivity. Qed.


(** ** C85: with clock stretching a start or stop condition is only made after SCL has
    been seen high since the command was taken. *)
Definition since_cmd (t : list i2c_obs) : list i2c_obs :=
  fold_left (fun l o => match io_cmd o with Some _ => [o] | None => l ++ [o] end) t [].
Lemma since_cmd_snoc t o : since_cmd (t ++ [o]) = match io_cmd o with Some _ => [o] | None => since_cmd t ++ [o] end.
Proof. unfold since_cmd. now rewrite fold_left_app. Qed.

Section Seen.
  Context (period : Z) (oe : bool).
  Let c := i2c_initiator period true oe.
  Definition seen_ok (t : list i2c_obs) (s : i2c_state) : Prop :=
    match s_f s with StartSdaL | StopSdaH => existsb io_scl_i (since_cmd t) = true | _ => True end.
  Lemma seen_step s i :
    let n := i2c_next period true oe s i in
    match s_f n with
    | StartSdaL | StopSdaH => s_f n = s_f s \/ scl_i oe s = true
    | _ => True
    end.
  Proof.
    unfold i2c_next. cbv zeta. unfold fsm_next, cmd_taken.
    destruct (s_f s) eqn:F; unfold scl_l, scl_h, stb_x, bit7; rewrite ?F; cbn [negb orb].
    - destruct (ii_start i); [destruct (scl_i oe s), (sda_i s); cbn; auto|].
      destruct (ii_stop i); [destruct (scl_i oe s), (d_sda (s_d s)); cbn; auto|].
      destruct (ii_write i); [cbn; auto|]. destruct (ii_read i); cbn; auto.
    - destruct (stb s); cbn; auto.
    - destruct (stb s); cbn; auto.
    - destruct (stb s); [cbn; auto|]. destruct (d_scl (s_d s)), (scl_i oe s); cbn; auto.
    - destruct (stb s); cbn; auto.
    - destruct (stb s); cbn; auto.
    - destruct (stb s); cbn; auto.
    - destruct (stb s); [cbn; auto|]. destruct (d_scl (s_d s)), (scl_i oe s); cbn; auto.
    - destruct (stb s); cbn; auto.
    - destruct (stb s); cbn; auto.
    - destruct (stb s); cbn; auto.
    - destruct (stb s); [cbn; auto|]. destruct (d_scl (s_d s)), (scl_i oe s); cbn; auto.
    - destruct (stb s), (d_bitno (s_d s) =? 7); cbn; auto.
    - destruct (stb s); cbn; auto.
    - destruct (stb s); cbn; auto.
    - destruct (stb s); [cbn; auto|]. destruct (d_scl (s_d s)), (scl_i oe s); cbn; auto.
    - destruct (stb s); cbn; auto.
    - destruct (stb s); cbn; auto.
    - destruct (stb s); cbn; auto.
    - destruct (stb s); [cbn; auto|]. destruct (d_scl (s_d s)), (scl_i oe s); cbn; auto.
    - destruct (stb s), (d_bitno (s_d s) =? 7); cbn; auto.
    - destruct (stb s); cbn; auto.
    - destruct (stb s); cbn; auto.
    - destruct (stb s); [cbn; auto|]. destruct (d_scl (s_d s)), (scl_i oe s); cbn; auto.
    - destruct (stb s); cbn; auto.
  Qed.
  Lemma seen_run ins : seen_ok (trace c ins) (state c ins).
  Proof.
    apply (run_inv c seen_ok); [exact I|]. intros t s i H. pose proof (seen_step s i) as S.
    unfold seen_ok in *. change (cnext c s i) with (i2c_next period true oe s i). cbv zeta in S. set (n := i2c_next period true oe s i) in *.
    rewrite since_cmd_snoc. change (io_cmd (cout c s i)) with (cmd_taken s i).
    assert (K : forall l, scl_i oe s = true -> existsb io_scl_i (l ++ [cout c s i]) = true).
    { intros l X. rewrite existsb_app. cbn [existsb]. change (io_scl_i (cout c s i)) with (scl_i oe s). rewrite X. apply orb_true_r. }
    assert (G : (s_f n = s_f s \/ scl_i oe s = true) -> (s_f n = s_f s -> s_f s <> Idle /\ existsb io_scl_i (since_cmd t) = true) ->
       existsb io_scl_i (match cmd_taken s i with Some _ => [cout c s i] | None => since_cmd t ++ [cout c s i] end) = true).
    { intros [E|E] L.
      - destruct (L E) as [L1 L2]. replace (cmd_taken s i) with (@None i2c_cmd) by (unfold cmd_taken; destruct (s_f s); congruence).
        rewrite existsb_app, L2. reflexivity.
      - destruct (cmd_taken s i); [apply (K []) | apply K]; exact E. }
    destruct (s_f n); try exact I; (apply G; [exact S|]; intros E; rewrite <- E in H |- *; split; [discriminate|exact H]).
  Qed.
End Seen.

Theorem C85_scl_seen_high : forall period oe ins t1 o o' t2,
  trace (i2c_initiator period true oe) ins = t1 ++ o :: o' :: t2 ->
  io_scl o = true -> io_sda o' <> io_sda o ->
  existsb io_scl_i (since_cmd t1) = true.
Proof.
  intros period oe ins t1 o o' t2 H. apply trace_two in H. destruct H as (a & i & i' & b & -> & <- & -> & ->).
  intros HC HD. pose proof (seen_run period oe a) as HS. pose proof (line_run period true oe a) as HL.
  set (s := state (i2c_initiator period true oe) a) in *. cbn [i2c_initiator cout cnext io_scl io_sda] in HC, HD. unfold seen_ok in HS. unfold line_ok in HL. cbv zeta in HL.
  assert (X : match s_f s with StartSdaL | StopSdaH => True | _ => False end).
  { clear HS. unfold i2c_next, fsm_next, cmd_taken in HD. destruct (s_f s) eqn:F; try exact I; exfalso;
      unfold scl_l, scl_h, stb_x, bit7 in HD; rewrite ?F in HD;
      try match type of HL with _ /\ _ => destruct HL as [HL _] end; try congruence;
      repeat match type of HD with context [if ?b then _ else _] => destruct b end; cbn in HD; congruence. }
  destruct (s_f s); try contradiction; exact HS.
Qed.

(** SCL held low for a while at a stop: the condition waits for it. *)
Example C85_seen_nonvacuous :
  let i cmd scl := I2cIn cmd (negb cmd) false false 0 false true scl in
  let t := trace (i2c_initiator 4 true true) (repeat (i true true) 4 ++ repeat (I2cIn false false false false 0 false true false) 4 ++ repeat (i false false) 8 ++ repeat (i false true) 12) in
  filter (fun n => negb (Bool.eqb (io_sda (nth n t (hd (cout (i2c_initiator 4 true true) i2c_reset (i true true)) t)))
                                  (io_sda (nth (S n) t (hd (cout (i2c_initiator 4 true true) i2c_reset (i true true)) t))))) (seq 0 27) = [2%nat; 19%nat].
Proof. vm_compute. reflexivity. Qed.

Print Assumptions C113_data_holds.
Print Assumptions C113_ack_holds.
Print Assumptions C85_scl_seen_high.
