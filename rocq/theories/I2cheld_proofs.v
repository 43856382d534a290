(** Proofs for C175: SCL held low by a device, with clock stretching. *)
From Verif Require Import Stream Bits I2c_model I2c_spec I2c_proofs I2cstream_model I2cstream_spec I2cstream_proofs I2cwriter_props I2cproto_model.
From Coq Require Import Lia.

Definition held (s : i2c_state) : Prop := s_scl1 s = false /\ s_scl2 s = false.
(** What the initiator asks of SCL in each state. *)
Definition shape (s : i2c_state) : Prop :=
  match s_f s with
  | StartSdaH | StopSdaL | WdSdaX | WaSdaH | RdSdaH | RaSdaX => d_scl (s_d s) = false
  | StartSclH | StopSclH | WdSclH | WaSclH | RdSclH | RaSclH => True
  | _ => d_scl (s_d s) = true
  end.
(** Waiting for SCL, or on the way to that, for ever. *)
Definition jammed (s : i2c_state) : Prop :=
  s_f s <> Idle /\ s_busy s = true /\ shape s /\ held s /\ (d_scl (s_d s) = true -> s_timer s <> 0).

Section Held.
  Context (period : Z) (HP : 4 <= period).
  Let c := i2c_initiator period true true.

  Lemma load_pos : trunc (range_width period) (period / 4) <> 0.
  Proof using HP. rewrite trunc_range_small. 2: { split; [apply Z.div_pos; lia|apply Z.div_lt; lia]. } pose proof (Z.div_le_mono 4 period 4 ltac:(lia) HP). change (4 / 4) with 1 in H. lia. Qed.

  Lemma shape_step stretch oe s i : shape s -> shape (i2c_next period stretch oe s i).
  Proof using.
    intros H. unfold shape in *. unfold i2c_next, fsm_next, cmd_taken, scl_l, scl_h, stb_x, bit7. destruct s as [f b t d x1 x2 y1 y2]. cbn [s_f s_d s_timer s_busy] in *.
    destruct f; cbn [s_f s_d];
      repeat (match goal with |- context [if ?b then _ else _] => destruct b eqn:? end; cbn [s_f s_d]); auto;
      try (destruct d; cbn in *; congruence || auto; fail).
    all: repeat match goal with H : _ && _ = true |- _ => apply andb_true_iff in H; destruct H end; destruct d; cbn in *; auto.
  Qed.
  Lemma shape_run stretch oe ins : shape (state (i2c_initiator period stretch oe) ins).
  Proof using. apply (state_inv (i2c_initiator period stretch oe) shape); [reflexivity|]. intros s i H. exact (shape_step stretch oe s i H). Qed.

  Lemma held_step stretch oe s i : held s -> ii_scl_pad i = false -> held (i2c_next period stretch oe s i).
  Proof using. intros [H1 H2] H. unfold held, i2c_next. destruct (fsm_next _ _ _ _). cbn. auto. Qed.

  Lemma jam_step s i : jammed s -> ii_scl_pad i = false -> jammed (i2c_next period true true s i).
  Proof using HP.
    intros (F & B & S & H & T) L. pose proof (shape_step true true s i S) as S'. pose proof (held_step true true s i H L) as H'.
    pose proof load_pos as LP. destruct H as [H1 H2].
    split; [|split; [|split; [exact S'|split; [exact H'|]]]]; clear S' H'.
    - unfold i2c_next, fsm_next, scl_l, scl_h, stb_x, bit7, stb, scl_i. unfold shape in S. destruct s as [f b t d x1 x2 y1 y2]. cbn [s_f s_d s_timer s_busy s_scl2] in *. subst y2.
      destruct f; try congruence; cbn [negb orb andb]; rewrite ?andb_false_r;
        destruct (Z.eqb_spec t 0) as [E|E]; cbn [s_f]; try discriminate; try (exfalso; apply T; auto; fail);
        destruct (d_bitno d =? 7); discriminate.
    - unfold i2c_next, busy_next. destruct (fsm_next _ _ _ _). cbn. destruct (s_f s); congruence.
    - unfold i2c_next, fsm_next, scl_l, scl_h, stb_x, timer_next, stb, scl_i. unfold shape in S. destruct s as [f b t d x1 x2 y1 y2]. cbn [s_f s_d s_timer s_busy s_scl2] in *. subst y2 b.
      cbn [negb orb]. destruct (Z.eqb_spec t 0) as [E|E]; [intros _; destruct (match f with Idle => _ | _ => _ end); cbn; exact LP|].
      destruct (d_scl d) eqn:D; cbn [Bool.eqb]; [intros _; destruct (match f with Idle => _ | _ => _ end); cbn; exact E|].
      destruct f; try congruence; cbn [andb s_d]; rewrite ?D; discriminate.
  Qed.

  Lemma jam_cmd s i : held s -> shape s -> cmd_taken s i <> None -> ii_scl_pad i = false -> jammed (i2c_next period true true s i).
  Proof using HP.
    intros H S C L. pose proof (shape_step true true s i S) as S'. pose proof (held_step true true s i H L) as H'. pose proof load_pos as LP. destruct H as [H1 H2].
    assert (F : s_f s = Idle) by (unfold cmd_taken in C; destruct (s_f s); congruence).
    split; [|split; [|split; [exact S'|split; [exact H'|]]]]; clear S' H'.
    - unfold i2c_next, fsm_next. rewrite F. destruct (cmd_taken s i) as [[| |x|a]|]; try congruence; cbn; try discriminate.
      all: repeat match goal with |- context [if ?b then _ else _] => destruct b end; cbn; discriminate.
    - unfold i2c_next, busy_next. rewrite F. destruct (fsm_next _ _ _ _). cbn. destruct (cmd_taken s i); congruence.
    - intros _. unfold i2c_next. destruct (fsm_next _ _ _ _) as [f' d']. cbn [s_timer]. unfold timer_next, stb, scl_i. rewrite H2. unfold shape in S. rewrite F in S. rewrite S. cbn.
      destruct (Z.eqb_spec (s_timer s) 0); cbn; [exact LP|]. destruct (s_busy s); cbn; [exact n|exact LP].
  Qed.

  Lemma commands_cons o t : commands (o :: t) = match io_cmd o with Some x => [x] | None => [] end ++ commands t.
  Proof using. reflexivity. Qed.
  Definition low (i : i2c_in) : Prop := ii_scl_pad i = false.
  Lemma jam_trace ins : forall s, jammed s -> Forall low ins -> Forall (fun o => io_busy o = true /\ io_cmd o = None) (trace_from c s ins).
  Proof using HP.
    induction ins as [|i ins IH]; intros s J L; [constructor|]. inversion L; subst. cbn [trace_from]. constructor.
    - destruct J as (F & B & _). cbn. split; [exact B|]. unfold cmd_taken. destruct (s_f s); congruence.
    - apply IH; auto. now apply jam_step.
  Qed.
  Lemma held_trace ins : forall s, held s -> shape s -> Forall low ins ->
    (length (commands (trace_from c s ins)) <= 1)%nat /\
    forall u o v, trace_from c s ins = u ++ o :: v -> io_cmd o <> None -> Forall (fun o => io_busy o = true /\ io_cmd o = None) v.
  Proof using HP.
    induction ins as [|i ins IH]; intros s H S L; [split; [cbn; lia|intros u o v E; destruct u; discriminate]|]. inversion L as [|? ? L1 L2]; subst. cbn [trace_from].
    destruct (cmd_taken s i) eqn:C.
    - assert (J : jammed (cnext c s i)) by (apply jam_cmd; auto; congruence). pose proof (jam_trace ins _ J L2) as T. split.
      + rewrite commands_cons. change (io_cmd (cout c s i)) with (cmd_taken s i). rewrite C, app_length.
        assert (E : commands (trace_from c (cnext c s i) ins) = []).
        { clear - T. induction T as [|o l [_ H] T IHl]; [reflexivity|]. now rewrite commands_cons, H, IHl. }
        rewrite E. cbn. lia.
      + intros [|q u] o v E K; cbn [app] in E; pose proof (f_equal (@tl _) E) as E2; cbn [tl] in E2; [now rewrite <- E2|]. exfalso. rewrite E2, Forall_app in T. destruct T as [_ T]. inversion T; tauto.
    - destruct (IH (cnext c s i) (held_step true true s i H L1) (shape_step true true s i S) L2) as [A B]. split.
      + rewrite commands_cons. change (io_cmd (cout c s i)) with (cmd_taken s i). rewrite C. exact A.
      + intros [|q u] o v E K; cbn [app] in E; pose proof (f_equal (@tl _) E) as E2; cbn [tl] in E2; [pose proof (f_equal (hd o) E) as E1; cbn [hd] in E1; rewrite <- E1 in K; change (io_cmd (cout c s i)) with (cmd_taken s i) in K; congruence|]. exact (B u o v E2 K).
  Qed.
End Held.

(** ** I2CProto. *)
Definition pr_fits (s : pr_state) : Prop :=
  match p_f s with
  | PAddr | PWrite => is_f (p_i s) <> IsWRead
  | PRead | PFlush => is_f (p_i s) <> IsWWrite
  | _ => is_f (p_i s) <> IsWWrite /\ is_f (p_i s) <> IsWRead
  end.
Definition pr_ok (s : pr_state) : Prop := pr_fits s /\ ist_rdy_i (p_i s) /\ shape (is_i (p_i s)).
Definition pr_quiet (s : pr_state) : Prop :=
  match p_f s with POk | PError | PStatus => False | _ => True end /\
  (is_f (p_i s) = IsWWrite \/ is_f (p_i s) = IsWRead -> jammed (is_i (p_i s))).

Section HeldProto.
  Context (period : Z) (HP : 4 <= period).

  Lemma pr_fits_step stretch oe s k r p : pr_fits s -> pr_fits (pr_next period stretch oe s k r p).
  Proof using.
    unfold pr_fits, pr_next, pr_go, pr_isink, pr_irdy, pr_src. destruct s as [f h l u j]. cbn [p_f p_header p_length p_status p_i].
    unfold ist_next, ist_rdy, ist_src, ist_fnext, ist_rd, ist_wr, ist_is, ist_err. destruct j as [g b i]. cbn [is_f is_last is_i]. intros H.
    unfold ist_idle. cbn [is_i]. generalize (i2c_next period stretch oe i). intros n.
    destruct f, g; try (exfalso; (exact (H eq_refl) || exact (proj1 H eq_refl) || exact (proj2 H eq_refl)));
      cbn -[Z.eqb Z.leb Z.testbit trunc]; try (split; discriminate); try discriminate; clear H;
      destruct (s_busy i); cbn -[Z.eqb Z.leb Z.testbit trunc]; try (split; discriminate); try discriminate;
      try (destruct r; cbn -[Z.eqb Z.leb Z.testbit trunc]; try (split; discriminate); try discriminate);
      try (destruct b; cbn -[Z.eqb Z.leb Z.testbit trunc]; try (split; discriminate); try discriminate);
      repeat (match goal with |- context [if ?b then _ else _] => destruct b end; cbn -[Z.eqb Z.leb Z.testbit trunc]; try (split; discriminate); try discriminate).
  Qed.
  Lemma pr_ok_step stretch oe s k r p : pr_ok s -> pr_ok (pr_next period stretch oe s k r p).
  Proof using.
    intros (A & B & C). assert (E : p_i (pr_next period stretch oe s k r p) = ist_next period stretch oe (p_i s) (pr_isink s k) (pr_irdy s r) p).
    { unfold pr_next. destruct (p_f s); repeat match goal with |- context [if ?b then _ else _] => destruct b end; reflexivity. }
    split; [now apply pr_fits_step|]. rewrite E. split; [now apply ist_rdy_i_step|]. now apply shape_step.
  Qed.
  Lemma pr_ok_run stretch oe ins : pr_ok (state (i2c_proto period stretch oe) ins).
  Proof using.
    apply (state_inv (i2c_proto period stretch oe) pr_ok); [repeat split; cbn; discriminate || auto|]. intros s [[k r] p] H. exact (pr_ok_step stretch oe s k r p H).
  Qed.

  Let step s k r p := pr_next period true true s k r p.
  Lemma step_i s k r p : p_i (step s k r p) = ist_next period true true (p_i s) (pr_isink s k) (pr_irdy s r) p.
  Proof using. unfold step, pr_next. destruct (p_f s); repeat match goal with |- context [if ?b then _ else _] => destruct b end; reflexivity. Qed.

  (** A byte on the bus, started with SCL held, never ends. *)
  Lemma ist_jams j k r p : held (is_i j) -> shape (is_i j) -> ist_rdy_i j -> snd p = false ->
    (is_f j = IsWWrite \/ is_f j = IsWRead -> jammed (is_i j)) ->
    let j' := ist_next period true true j k r p in is_f j' = IsWWrite \/ is_f j' = IsWRead -> jammed (is_i j').
  Proof using HP.
    intros H S [HR0 HR] L HJ j'. unfold j', ist_next. cbn [is_f is_i]. intros F.
    assert (L' : ii_scl_pad (ist_in j k p) = false) by exact L.
    destruct (is_f j) eqn:E; unfold ist_fnext in F; rewrite E in F.
    - destruct (_ && _); destruct F; discriminate.
    - destruct F; discriminate.
    - destruct (ist_idle j); destruct F; discriminate.
    - destruct HR as [R1 R2]. apply jam_cmd; auto. unfold cmd_taken. rewrite R1. unfold ist_in. cbn.
      unfold ist_is. rewrite E. unfold ist_rd, ist_wr, ist_is in *. rewrite E in *. cbn [andb] in *. destruct (cvalid k); cbn [andb] in *; [|destruct F; discriminate].
      destruct (fst (bdata (cbeat k))); cbn; discriminate.
    - apply jam_step; auto.
    - apply jam_step; auto.
    - destruct F; discriminate.
    - destruct (ist_idle j); destruct F; discriminate.
  Qed.

  Lemma quiet_step s k r p : pr_ok s -> pr_quiet s -> held (is_i (p_i s)) -> snd p = false ->
    pr_quiet (step s k r p) /\ cvalid (pr_src s) = false.
  Proof using HP.
    intros (A & B & C) [Q J] H L. split; [split|].
    - assert (N : is_f (p_i s) = IsWWrite \/ is_f (p_i s) = IsWRead -> ist_idle (p_i s) = false).
      { intros E. apply J in E. destruct E as (_ & E & _). unfold ist_idle. now rewrite E. }
      clear J. unfold step, pr_next, pr_go, pr_isink, pr_src, ist_src, ist_rdy, ist_rd, ist_err, ist_is, pr_fits in *. destruct (p_f s); try tauto; cbn [cvalid cbeat bdata fst] in *.
      + destruct (cvalid k); exact Logic.I.
      + destruct (cvalid k); exact Logic.I.
      + destruct (is_f (p_i s)) eqn:F; cbn [andb orb]; try exact Logic.I. rewrite N by auto. exact Logic.I.
      + destruct (is_f (p_i s)) eqn:F; cbn [andb orb]; try exact Logic.I; [destruct (_ =? _); exact Logic.I|]. congruence.
      + destruct (is_f (p_i s)) eqn:F; cbn [andb]; try exact Logic.I. rewrite N by auto. exact Logic.I.
      + destruct (is_f (p_i s)) eqn:F; cbn [andb orb]; try exact Logic.I. rewrite N by auto. exact Logic.I.
    - rewrite step_i. now apply ist_jams.
    - unfold pr_src, ist_src, ist_is. destruct (p_f s); try tauto; try reflexivity; destruct (is_f (p_i s)) eqn:F; try reflexivity;
        destruct (J (or_intror eq_refl)) as (_ & E & _); unfold ist_idle; now rewrite E.
  Qed.
  (** Sending a byte is the last thing that happens. *)
  Lemma emit_step s k p : pr_ok s -> cvalid (pr_src s) = true -> pr_quiet (step s k true p).
  Proof using.
    intros (A & B & C) V. split.
    - unfold step, pr_next. unfold pr_src, pr_go, pr_isink, ist_rdy, ist_src, ist_rd, ist_is, pr_fits in *. destruct (p_f s); cbn [cvalid] in V; try discriminate; try exact Logic.I.
      + destruct (is_f (p_i s)); try discriminate. exact Logic.I.
      + match goal with |- context [if ?b then PHeader else PFlush] => destruct b end; exact Logic.I.
    - rewrite step_i. intros F. exfalso. unfold pr_src, pr_isink, pr_irdy, ist_src, pr_fits, ist_next, ist_fnext, ist_rd, ist_wr, ist_is in *. cbn [is_f] in F.
      destruct (p_f s); cbn [cvalid] in *; try discriminate V.
      1, 4: destruct A as [A1 A2]; destruct (is_f (p_i s)); try congruence; cbn [andb negb] in F; try (destruct F; discriminate); destruct (ist_idle (p_i s)); destruct F; discriminate.
      all: destruct (is_f (p_i s)); try discriminate V; cbn [andb] in V; destruct (ist_idle (p_i s)); try discriminate V; cbn [andb] in F; destruct (is_last (p_i s)); destruct F; discriminate.
  Qed.

  Let c := i2c_proto period true true.
  Definition plow (i : chan Z * bool * pads) : Prop := snd (snd i) = false.
  Lemma phold s k r p : held (is_i (p_i s)) -> snd p = false -> held (is_i (p_i (step s k r p))).
  Proof using. intros H L. rewrite step_i. unfold ist_next. cbn [is_i]. now apply held_step. Qed.
  Lemma quiet_trace ins : forall s, pr_ok s -> pr_quiet s -> held (is_i (p_i s)) -> Forall plow ins -> emitted (map po_io (trace_from c s ins)) = [].
  Proof using HP.
    induction ins as [|[[k r] p] ins IH]; intros s A Q H L; [reflexivity|]. inversion L as [|? ? L1 L2]; subst.
    destruct (quiet_step s k r p A Q H L1) as [Q' V]. cbn [trace_from map]. unfold emitted in *. cbn [flat_map]. rewrite IH; auto.
    - cbn [c i2c_proto cout po_io o_src o_rready]. unfold xfer. rewrite V. reflexivity.
    - exact (pr_ok_step true true s k r p A).
    - exact (phold s k r p H L1).
  Qed.
  Lemma one_trace ins : forall s, pr_ok s -> held (is_i (p_i s)) -> Forall plow ins -> (length (emitted (map po_io (trace_from c s ins))) <= 1)%nat.
  Proof using HP.
    induction ins as [|[[k r] p] ins IH]; intros s A H L; [cbn; lia|]. inversion L as [|? ? L1 L2]; subst.
    pose proof (pr_ok_step true true s k r p A) as A'. pose proof (phold s k r p H L1) as H'.
    cbn [trace_from map]. unfold emitted. cbn [flat_map]. rewrite app_length. fold (emitted (map po_io (trace_from c (cnext c s (k, r, p)) ins))).
    cbn [c i2c_proto cout po_io o_src o_rready]. unfold xfer. destruct (cvalid (pr_src s) && r) eqn:V.
    - apply andb_true_iff in V. destruct V as [V ->]. fold c. rewrite (quiet_trace ins); auto. exact (emit_step s k p A V).
    - fold c. cbn [length plus]. apply IH; auto.
  Qed.
  (** From power-up: the synchronisers start at 1, and show the pad after two cycles. *)
  Lemma none_trace ins : Forall plow ins -> emitted (map po_io (trace c ins)) = [].
  Proof using HP.
    intros L. destruct ins as [|[[k0 r0] p0] [|[[k1 r1] p1] ins]]; [reflexivity|reflexivity|].
    inversion L as [|? ? L1 L2]; subst. inversion L2 as [|? ? L3 L4]; subst. unfold plow in L1, L3. cbn [snd] in L1, L3.
    unfold trace. cbn [trace_from map]. unfold emitted. cbn [flat_map].
    set (s := cnext c (cnext c (creset c) (k0, r0, p0)) (k1, r1, p1)).
    assert (S0 : s = pr_next period true true (pr_next period true true pr_reset k0 r0 p0) k1 r1 p1) by reflexivity.
    assert (A : pr_ok s). { change s with (state c [(k0, r0, p0); (k1, r1, p1)]). apply pr_ok_run. }
    fold (emitted (map po_io (trace_from c s ins))). rewrite (quiet_trace ins s A); auto.
    - cbn [c i2c_proto cout cnext creset po_io o_src o_rready]. unfold pr_next, pr_reset at 1. cbn [p_f]. destruct (cvalid k0); reflexivity.
    - rewrite S0. split.
      + unfold pr_next, pr_reset. cbn [p_f]. destruct (cvalid k0); cbn [p_f]; destruct (cvalid k1); exact Logic.I.
      + assert (I0 : is_f (p_i (pr_next period true true pr_reset k0 r0 p0)) = IsIdle /\ (p_f (pr_next period true true pr_reset k0 r0 p0) = PHeader \/ p_f (pr_next period true true pr_reset k0 r0 p0) = PLength)).
        { unfold pr_next, pr_reset. cbn [p_f]. destruct (cvalid k0); cbn; auto. }
        fold (step (pr_next period true true pr_reset k0 r0 p0) k1 r1 p1). rewrite step_i. destruct I0 as [I0 I1]. unfold ist_next, ist_fnext. cbn [is_f]. rewrite I0.
        destruct (_ && _); intros [|]; discriminate.
    - rewrite S0. fold (step (pr_next period true true pr_reset k0 r0 p0) k1 r1 p1). rewrite step_i. unfold ist_next. cbn [is_i].
      fold (step pr_reset k0 r0 p0). rewrite step_i. unfold ist_next. cbn [is_i].
      unfold held, i2c_next. repeat match goal with |- context [let '(_, _) := ?e in _] => destruct e end. cbn. auto.
  Qed.
End HeldProto.

(** ** I2CWriterStream: every byte taken from the stream is a command. *)
Lemma iw_rdy_run period stretch oe ins : iw_rdy_i (state (i2c_writer period stretch oe) ins).
Proof. apply (state_inv (i2c_writer period stretch oe) iw_rdy_i); [split; cbn; auto|]. intros s [k p] H. now apply iw_rdy_i_step. Qed.
Lemma iw_take_cmd period stretch oe ins :
  Forall (fun o => wo_ready o = true -> io_cmd (wo_i2c o) <> None) (trace (i2c_writer period stretch oe) ins).
Proof.
  apply Forall_forall. intros o Ho. apply in_split in Ho. destruct Ho as (t1 & t2 & H). apply trace_one in H. destruct H as (a & [k p] & b & _ & _ & E). subst o.
  destruct (iw_rdy_run period stretch oe a) as [_ R]. set (s := state (i2c_writer period stretch oe) a) in *. clearbody s.
  cbn. unfold iw_take, iw_is_write, cmd_taken, iw_in, iw_is_write. cbn. destruct (iw_f s); rewrite ?andb_false_r; try discriminate. destruct R as [-> _]. discriminate.
Qed.
Lemma iw_bytes_cmds t : Forall (fun o => wo_ready o = true -> io_cmd (wo_i2c o) <> None) t ->
  (length (bytes_of t) <= length (commands (map wo_i2c t)))%nat.
Proof.
  unfold bytes_of. rewrite map_length. induction 1 as [|o t H T IH]; [cbn; lia|]. cbn [map]. rewrite commands_cons, app_length.
  unfold accepted in *. cbn [flat_map]. rewrite app_length. unfold xfer at 1. cbn [wo_io o_sink o_sready].
  destruct (cvalid (wo_sink o)); cbn [andb length plus]; [|lia]. destruct (wo_ready o); cbn [length plus]; [|lia].
  destruct (io_cmd (wo_i2c o)); [cbn [length plus]; lia|]. exfalso. now apply H.
Qed.
