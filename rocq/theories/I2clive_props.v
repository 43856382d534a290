(** I2C byte stream master and I2C protocol bridge: bounded response, C109 to C111. *)
From Verif Require Import Stream Bits Progress I2c_model I2c_spec I2c_proofs I2c_live I2c_props I2cstream_model I2cstream_spec I2cstream_proofs I2cstream_props I2cwriter_props I2cproto_model.

(** The pad's SCL follows what the initiator asks for (no clock stretching), where
    the initiator looks at it at all. *)
Definition scl_follows (stretch oe : bool) (o : i2c_obs) : Prop :=
  stretch = true -> oe = true -> ii_scl_pad (io_in o) = io_scl o.
(** The longest a command takes. *)
Definition cmd_bound (period : Z) : nat := Z.to_nat (46 * (period / 4 + 4) + 3).

Section Wm.
  Context (period : Z) (stretch oe : bool) (HP : 4 <= period).
  Let W := cmd_bound period.
  (** Cycles until busy is low. *)
  Definition wm (s : i2c_state) : nat :=
    if s_busy s then match s_f s with Idle => 1%nat | _ => Z.to_nat (2 + mu period stretch oe s) end else 0%nat.
  Lemma wm_bound s : live_ok period s -> (wm s < W)%nat.
  Proof.
    intros H. pose proof (mu_bound period stretch oe HP s H). pose proof (mu_nonneg period stretch oe HP s H). pose proof (Q_range period HP).
    unfold wm, W, cmd_bound. destruct (s_busy s); [|lia]. destruct (s_f s); lia.
  Qed.
  Lemma wm_step s i : live_ok period s -> scl_follows stretch oe (cout (i2c_initiator period stretch oe) s i) ->
    s_busy s = true -> (s_f s = Idle -> strobed i = false) -> (wm (i2c_next period stretch oe s i) + 1 <= wm s)%nat.
  Proof.
    intros HL HF HB HI. pose proof (mu_nonneg period stretch oe HP s HL) as M0.
    pose proof (live_step period stretch oe HP s i HL) as HL'. pose proof (mu_nonneg period stretch oe HP _ HL') as M1.
    assert (D : s_f s = Idle \/ s_f s <> Idle) by (destruct (s_f s); auto; right; discriminate). destruct D as [D|D].
    - specialize (HI D). unfold wm. rewrite HB, D.
      assert (E : s_busy (i2c_next period stretch oe s i) = false).
      { unfold i2c_next. destruct (fsm_next stretch oe s i). cbn [s_busy]. unfold busy_next. rewrite D, quiet_cmd by exact HI. reflexivity. }
      rewrite E. lia.
    - assert (HM : mu period stretch oe (i2c_next period stretch oe s i) < mu period stretch oe s) by (apply mu_step; auto).
      assert (E : wm s = Z.to_nat (2 + mu period stretch oe s)) by (unfold wm; rewrite HB; destruct (s_f s); auto; congruence).
      rewrite E. unfold wm. destruct (s_busy (i2c_next period stretch oe s i)); [|lia]. destruct (s_f (i2c_next period stretch oe s i)); lia.
  Qed.
End Wm.

Section Stream.
  Context (period : Z) (stretch oe : bool) (HP : 4 <= period).
  Let c := i2c_stream period stretch oe.
  Let W := cmd_bound period.
  Let wmi (s : ist_state) : nat := wm period stretch oe (is_i s).

  (** Phases before a beat is accepted, and before a read byte is offered. *)
  Definition ph1 (f : ist_fsm) : nat :=
    match f with IsWWrite => 0 | IsXfer => 1 | IsWStart => 2 | IsStart => 3 | IsIdle => 4 | IsWStop => 5 | IsStop => 6 | IsWRead => 7 end.
  Definition ph2 (f : ist_fsm) : nat :=
    match f with IsWRead => 0 | IsXfer => 1 | IsWStart => 2 | IsStart => 3 | IsIdle => 4 | IsWStop => 5 | IsStop => 6 | IsWWrite => 7 end.
  Definition m1 (s : ist_state) : nat := (ph1 (is_f s) * W + wmi s)%nat.
  Definition m2 (s : ist_state) : nat := (ph2 (is_f s) * W + wmi s)%nat.
  Lemma m1_bound s : live_ok period (is_i s) -> (m1 s < 8 * W)%nat.
  Proof. intros H. pose proof (wm_bound period stretch oe HP _ H). unfold m1, wmi. fold W in H0. destruct (is_f s); cbn [ph1]; lia. Qed.
  Lemma m2_bound s : live_ok period (is_i s) -> (m2 s < 8 * W)%nat.
  Proof. intros H. pose proof (wm_bound period stretch oe HP _ H). unfold m2, wmi. fold W in H0. destruct (is_f s); cbn [ph2]; lia. Qed.

  Lemma ist_live s k r p : live_ok period (is_i s) -> live_ok period (is_i (ist_next period stretch oe s k r p)).
  Proof. intros H. cbn [ist_next is_i]. now apply live_step. Qed.

  (** In the waiting phases nothing is strobed. *)
  Lemma ist_wait_step s k r p : live_ok period (is_i s) ->
    scl_follows stretch oe (cout (i2c_initiator period stretch oe) (is_i s) (ist_in s k p)) ->
    s_busy (is_i s) = true -> match is_f s with IsStart | IsXfer | IsStop => False | _ => True end ->
    (wmi (ist_next period stretch oe s k r p) + 1 <= wmi s)%nat.
  Proof.
    intros HL HF HB Hf. apply wm_step; auto. intros _. unfold strobed, ist_in, ist_wr, ist_rd, ist_is. cbn.
    destruct (is_f s); reflexivity || contradiction.
  Qed.

  Lemma m1_step s k r p : live_ok period (is_i s) ->
    scl_follows stretch oe (cout (i2c_initiator period stretch oe) (is_i s) (ist_in s k p)) ->
    cvalid k = true -> (is_f s = IsWRead -> r = true) -> ist_rdy s k = false ->
    (m1 (ist_next period stretch oe s k r p) + 1 <= m1 s)%nat.
  Proof.
    intros HL HF Hv Hr Hd. pose proof (ist_wait_step s k r p HL HF) as Hw.
    pose proof (wm_bound period stretch oe HP _ (ist_live s k r p HL)) as Hb. change (wm period stretch oe (is_i (ist_next period stretch oe s k r p))) with (wmi (ist_next period stretch oe s k r p)) in Hb.
    fold W in Hb. unfold m1. set (x := wmi (ist_next period stretch oe s k r p)) in *.
    cbn [ist_next is_f]. unfold ist_rdy, ist_rd, ist_is, ist_idle in *. unfold ist_fnext, ist_rd, ist_wr, ist_is, ist_idle.
    destruct (s_busy (is_i s)) eqn:EB.
    - specialize (Hw eq_refl). cbn [negb] in *. destruct (is_f s); cbn [andb ph1] in *; rewrite ?Hv in *;
        cbn [andb orb negb] in *; try (specialize (Hw I); lia); try lia.
      destruct (fst (bdata (cbeat k))); [discriminate|]. cbn [negb ph1]. lia.
    - cbn [negb] in *. destruct (is_f s); cbn [andb ph1] in *; rewrite ?Hv in *; cbn [andb orb negb ph1] in *; try lia; try discriminate.
      + destruct (fst (bdata (cbeat k))); [discriminate|]. cbn [negb ph1]. lia.
      + rewrite (Hr eq_refl). destruct (is_last s); cbn [ph1]; lia.
  Qed.

  (** Towards a read byte, if every beat offered is a read. *)
  Lemma m2_step s k r p : live_ok period (is_i s) ->
    scl_follows stretch oe (cout (i2c_initiator period stretch oe) (is_i s) (ist_in s k p)) ->
    (is_f s <> IsWRead -> cvalid k = true /\ fst (bdata (cbeat k)) = true) -> cvalid (ist_src s) = false ->
    (m2 (ist_next period stretch oe s k r p) + 1 <= m2 s)%nat.
  Proof.
    intros HL HF Hk Hd. pose proof (ist_wait_step s k r p HL HF) as Hw.
    pose proof (wm_bound period stretch oe HP _ (ist_live s k r p HL)) as Hb. change (wm period stretch oe (is_i (ist_next period stretch oe s k r p))) with (wmi (ist_next period stretch oe s k r p)) in Hb.
    fold W in Hb. unfold m2. set (x := wmi (ist_next period stretch oe s k r p)) in *.
    cbn [ist_next is_f]. unfold ist_src, ist_is, ist_idle in Hd. unfold ist_fnext, ist_rd, ist_wr, ist_is, ist_idle.
    assert (Hk' : is_f s = IsWRead \/ (cvalid k = true /\ fst (bdata (cbeat k)) = true)) by (destruct (is_f s); auto; right; apply Hk; discriminate).
    destruct (s_busy (is_i s)) eqn:EB.
    - specialize (Hw eq_refl). cbn [negb] in *.
      destruct (is_f s); destruct Hk' as [X|[X Y]]; try discriminate; rewrite ?X, ?Y; cbn [andb negb ph2] in *; try (specialize (Hw I); lia); try lia.
    - cbn [negb] in *. destruct (is_f s); destruct Hk' as [X|[X Y]]; try discriminate; rewrite ?X, ?Y; cbn [andb negb ph2] in *; try lia.
      all: destruct (d_acko _), (is_last s); cbn [negb ph2]; lia.
  Qed.

  Lemma ist_live_run ins : live_ok period (is_i (state c ins)).
  Proof.
    apply (state_inv c (fun s => live_ok period (is_i s))).
    - pose proof (live_run period stretch oe HP []) as H. exact H.
    - intros s [[k r] p] H. now apply ist_live.
  Qed.
End Stream.

(** ** C109: the byte stream master answers.
    If a beat is kept offered, read bytes are taken, and SCL is not stretched, a
    beat is accepted within eight command times. *)
Theorem C109_accepts : forall period stretch oe ins t1 t2, 4 <= period ->
  trace (i2c_stream period stretch oe) ins = t1 ++ t2 ->
  Forall (fun o => cvalid (o_sink (so_io o)) = true /\ o_rready (so_io o) = true /\ scl_follows stretch oe (so_i2c o)) t2 ->
  (8 * cmd_bound period < length t2)%nat ->
  exists u o v, t2 = u ++ o :: v /\ o_sready (so_io o) = true /\ (length u <= 8 * cmd_bound period)%nat.
Proof.
  intros period stretch oe ins t1 t2 HP E HF HN. apply trace_cut_from in E. destruct E as (a & b & -> & _ & <-).
  pose proof (ist_live_run period stretch oe HP a) as HL. unfold state in HL. set (s := state_from _ _ a) in *.
  pose proof (m1_bound period stretch oe HP s HL) as HM.
  destruct (trace_progress (i2c_stream period stretch oe)
    (fun o => cvalid (o_sink (so_io o)) = true /\ o_rready (so_io o) = true /\ scl_follows stretch oe (so_i2c o))
    (fun s => live_ok period (is_i s)) (fun o => o_sready (so_io o)) (fun _ => true) (m1 period stretch oe)) with (ins := b) (s := s)
    as (u & x & v & Et & Hx & Hu); auto.
  - intros s' [[k r] p] o HL' (Hv & Hr & Hf) Hd. split; [now apply ist_live|].
    rewrite Nat.add_comm. apply m1_step; auto.
  - rewrite count_all by reflexivity. lia.
  - rewrite count_all in Hu by reflexivity. exists u, x, v. split; [exact Et|]. split; [exact Hx|lia].
Qed.

(** A read beat once accepted, its byte is offered within one command time. *)
Theorem C109_read_offered : forall period stretch oe ins t1 o t2, 4 <= period ->
  trace (i2c_stream period stretch oe) ins = t1 ++ o :: t2 -> stable_sink (map so_io (t1 ++ [o])) ->
  cvalid (o_sink (so_io o)) = true -> o_sready (so_io o) = true -> fst (bdata (cbeat (o_sink (so_io o)))) = true ->
  Forall (fun x => scl_follows stretch oe (so_i2c x)) t2 -> (cmd_bound period < length t2)%nat ->
  exists u x v, t2 = u ++ x :: v /\ cvalid (o_src (so_io x)) = true /\ (length u <= cmd_bound period)%nat.
Proof.
  intros period stretch oe ins t1 o t2 HP E HS Hv Hr Hrd HF HN. set (c := i2c_stream period stretch oe) in *.
  apply trace_split_from in E. destruct E as (a & [[k r] p] & b & -> & <- & -> & ->).
  change (state_from c (creset c) a) with (state c a) in *. change (trace_from c (creset c) a) with (trace c a) in *.
  pose proof (ist_live_run period stretch oe HP a) as HL. fold c in HL.
  assert (HI : ist_inv (trace c a) (state c a)).
  { apply ist_inv_run. rewrite map_app in HS. eapply stable_sink_prefix; eauto. }
  set (s := state c a) in *. set (s' := cnext c s (k, r, p)) in *.
  assert (Hw : is_f s' = IsWRead).
  { destruct HI as [_ HI]. cbn [c i2c_stream cout so_io o_sink o_sready] in Hv, Hr, Hrd. unfold ist_rdy in Hr.
    cbn [s' c i2c_stream cnext ist_next is_f]. unfold ist_fnext.
    destruct (ist_rd s k) eqn:R.
    - unfold ist_rd, ist_is in R. destruct (is_f s); try discriminate. reflexivity.
    - cbn [orb] in Hr. unfold ist_is in Hr. destruct (is_f s); try discriminate.
      destruct HI as (d & _ & HI). destruct (pending_keep _ _ _ _ HS HI) as (_ & D & _). cbn [c i2c_stream cout so_io o_sink] in D.
      rewrite D in Hrd. discriminate. }
  assert (HL' : live_ok period (is_i s')) by (apply ist_live; auto). 
  destruct (trace_progress c (fun x => scl_follows stretch oe (so_i2c x)) (fun s => live_ok period (is_i s) /\ is_f s = IsWRead)
    (fun x => cvalid (o_src (so_io x))) (fun _ => true) (fun s => wm period stretch oe (is_i s))) with (ins := b) (s := s')
    as (u & x & v & Et & Hx & Hu); auto.
  - intros x [[k' r'] p'] y [Lx Fx] Hf Hd. split.
    + split; [now apply ist_live|]. cbn [c i2c_stream cnext ist_next is_f]. cbn [c y i2c_stream cout so_io o_src] in Hd.
      unfold ist_src, ist_is in Hd. rewrite Fx in Hd. unfold ist_fnext. rewrite Fx. destruct (ist_idle x); [discriminate|reflexivity].
    + rewrite Nat.add_comm. apply (ist_wait_step period stretch oe HP x k' r' p'); auto.
      * cbn [c y i2c_stream cout so_io o_src] in Hd. unfold ist_src, ist_is, ist_idle in Hd. rewrite Fx in Hd.
        destruct (s_busy (is_i x)); [reflexivity|discriminate].
      * now rewrite Fx.
  - rewrite count_all by reflexivity. pose proof (wm_bound period stretch oe HP _ HL'). lia.
  - rewrite count_all in Hu by reflexivity. pose proof (wm_bound period stretch oe HP _ HL'). exists u, x, v. split; [exact Et|]. split; [exact Hx|lia].
Qed.

(** The bus is closed at once: in the cycle after a write beat is accepted that is
    the last of its packet or refused, and after the byte of the last read beat
    is delivered, a STOP is begun. *)
Definition closing (o : ist_obs) : bool :=
  let w := so_io o in
  (cvalid (o_sink w) && o_sready w && negb (fst (bdata (cbeat (o_sink w)))) && (blast (cbeat (o_sink w)) || so_error o)) ||
  (cvalid (o_src w) && o_rready w && blast (cbeat (o_src w))).
Theorem C109_closes : forall period stretch oe ins t1 o o' t2,
  trace (i2c_stream period stretch oe) ins = t1 ++ o :: o' :: t2 -> stable_sink (map so_io (t1 ++ [o])) ->
  closing o = true -> io_cmd (so_i2c o') = Some CStop.
Proof.
  intros period stretch oe ins t1 o o' t2 E HS Hc. set (c := i2c_stream period stretch oe) in *.
  apply trace_two in E. destruct E as (a & [[k r] p] & [[k' r'] p'] & b & -> & <- & -> & ->).
  assert (HI : ist_inv (trace c a) (state c a)).
  { apply ist_inv_run. rewrite map_app in HS. eapply stable_sink_prefix; eauto. }
  pose proof (ist_rdy_i_step period stretch oe (state c a) k r p (proj1 HI)) as [_ HR].
  set (s := state c a) in *. destruct HI as [[HB HI0] HI].
  change (cnext c s (k, r, p)) with (ist_next period stretch oe s k r p). set (s' := ist_next period stretch oe s k r p) in *.
  assert (Hs : is_f s' = IsStop).
  { unfold closing in Hc. cbn [c i2c_stream cout so_io o_sink o_sready o_src o_rready so_error] in Hc.
    cbn [s' ist_next is_f]. unfold ist_fnext. unfold ist_rdy, ist_src, ist_err, ist_rd, ist_is in Hc.
    destruct (is_f s) eqn:Ef; cbn [andb orb] in Hc; rewrite ?andb_false_r, ?orb_false_r in Hc; cbn [andb orb cvalid] in Hc; try discriminate.
    - destruct (cvalid k), (fst (bdata (cbeat k))); cbn in Hc; discriminate.
    - destruct HI as (d & _ & HI). destruct (pending_keep _ _ _ _ HS HI) as (V & D & L). cbn [c i2c_stream cout so_io o_sink] in V, D, L.
      rewrite V, D, L in Hc. destruct (ist_idle s); [|discriminate]. cbn [andb negb fst orb] in Hc.
      destruct (d_acko (s_d (is_i s))), (is_last s); cbn in *; try discriminate; reflexivity.
    - destruct (ist_idle s); cbn [cvalid cbeat blast andb] in *.
      + destruct r; [|discriminate]. cbn [andb] in Hc. rewrite Hc. reflexivity.
      + rewrite ?andb_false_r in Hc. discriminate. }
  rewrite Hs in HR. destruct HR as [F B]. cbn [c i2c_stream cout so_i2c i2c_initiator io_cmd]. unfold cmd_taken. rewrite F.
  unfold ist_in, ist_is. rewrite Hs. reflexivity.
Qed.

(** ** C110: the protocol bridge never gets stuck.
    If the host keeps a byte offered and takes every answer, and SCL is not
    stretched, a byte moves in one direction or the other within 18 command times. *)
Section Proto.
  Context (period : Z) (stretch oe : bool) (HP : 4 <= period).
  Let c := i2c_proto period stretch oe.
  Let W := cmd_bound period.
  Definition pl_inv (s : pr_state) : Prop :=
    live_ok period (is_i (p_i s)) /\
    match p_f s with
    | PAddr | PWrite => is_f (p_i s) <> IsWRead
    | PRead => is_f (p_i s) <> IsWWrite
    | PFlush => is_f (p_i s) = IsWRead /\ is_last (p_i s) = true
    | _ => is_f (p_i s) <> IsWRead /\ is_f (p_i s) <> IsWWrite
    end.
  Definition pl_m (s : pr_state) : nat :=
    match p_f s with
    | PAddr => 9 * W + m1 period stretch oe (p_i s)
    | PWrite => m1 period stretch oe (p_i s)
    | PRead | PFlush => m2 period stretch oe (p_i s)
    | PError => 2
    | _ => 1
    end%nat.

  Lemma W_pos : (3 <= W)%nat.
  Proof. pose proof (Q_range period HP). unfold W, cmd_bound. lia. Qed.

  Lemma fnext_quiet i k r : cvalid k = false -> is_f i <> IsWRead -> is_f i <> IsWWrite ->
    ist_fnext i k r <> IsWRead /\ ist_fnext i k r <> IsWWrite.
  Proof.
    intros Hk H1 H2. unfold ist_fnext, ist_rd, ist_wr, ist_is. rewrite Hk. destruct (is_f i); try contradiction;
      rewrite ?andb_false_r; cbn [andb]; try destruct (ist_idle i); cbn; split; congruence.
  Qed.
  Lemma fnext_write i k r : cvalid k = true -> fst (bdata (cbeat k)) = false -> is_f i <> IsWRead ->
    ist_fnext i k r <> IsWRead /\ (ist_rdy i k = true -> ist_fnext i k r <> IsWWrite).
  Proof.
    intros Hk Hb H1. unfold ist_rdy, ist_fnext, ist_rd, ist_wr, ist_is. rewrite Hk, Hb. destruct (is_f i); try contradiction;
      cbn [andb negb orb]; try destruct (ist_idle i); cbn; try (split; congruence).
    destruct (negb _), (is_last i); split; congruence.
  Qed.
  Lemma fnext_read i k r : cvalid k = true -> fst (bdata (cbeat k)) = true -> is_f i <> IsWWrite ->
    ist_fnext i k r <> IsWWrite /\ (ist_rdy i k = true -> is_f i = IsXfer /\ ist_fnext i k r = IsWRead).
  Proof.
    intros Hk Hb H1. unfold ist_rdy, ist_fnext, ist_rd, ist_wr, ist_is. rewrite Hk, Hb. destruct (is_f i); try contradiction;
      cbn [andb negb orb]; try destruct (ist_idle i); cbn; try (split; congruence); try (split; [congruence|auto]).
    destruct r, (is_last i); cbn; split; congruence.
  Qed.

  Lemma pl_inv_next s k r p : pl_inv s -> pl_inv (pr_next period stretch oe s k r p).
  Proof.
    intros [HL HF].
    assert (HL' : forall q z, live_ok period (is_i (ist_next period stretch oe (p_i s) q z p))) by (intros; now apply ist_live).
    unfold pr_next, pl_inv, pr_isink, pr_irdy. destruct (p_f s) eqn:Ef.
    - destruct (cvalid k); cbn [p_f p_i]; (split; [apply HL'|]); cbn [ist_next is_f]; apply fnext_quiet; tauto || reflexivity.
    - destruct (cvalid k); cbn [p_f p_i]; (split; [apply HL'|]); cbn [ist_next is_f]; try apply fnext_quiet; tauto || reflexivity.
    - destruct (pr_go s k) eqn:G.
      + unfold pr_go, pr_isink in G. rewrite Ef in G.
        match goal with |- context [ist_next _ _ _ _ ?q ?z _] => destruct (fnext_write (p_i s) q z eq_refl eq_refl HF) as [A1 A2] end.
        specialize (A2 G). destruct (ist_err (p_i s)), (Z.testbit (p_header s) 0), (1 <=? p_length s); cbn [p_f p_i]; (split; [apply HL'|]); cbn [ist_next is_f]; auto.
      + cbn [p_f p_i]. split; [apply HL'|]. cbn [ist_next is_f]. apply fnext_write; reflexivity || assumption.
    - cbn [p_f p_i]. split; [apply HL'|]. cbn [ist_next is_f].
      match goal with |- context [ist_fnext _ ?q ?z] => destruct (fnext_quiet (p_i s) q z) as [A1 A2]; [reflexivity|tauto|tauto|] end.
      destruct r; auto.
    - match goal with |- context [ist_next _ _ _ _ ?q ?z _] => destruct (fnext_read (p_i s) q z eq_refl eq_refl HF) as [A1 A2] end.
      destruct (pr_go s k) eqn:G; cbn [p_f p_i]; [|split; [apply HL'|exact A1]].
      unfold pr_go, pr_isink in G. rewrite Ef in G. destruct (A2 G) as [A3 A4]. split; [apply HL'|].
      destruct (p_length s =? 1) eqn:E1; cbn [ist_next is_f is_last]; [|exact A1].
      split; [exact A4|]. unfold ist_is. rewrite A3. reflexivity.
    - cbn [p_f p_i]. split; [apply HL'|]. destruct HF as [F1 F2]. unfold pr_src. rewrite Ef.
      unfold ist_src, ist_is. rewrite F1. cbn [andb]. cbn [ist_next is_f is_last]. unfold ist_fnext, ist_is. rewrite F1, F2.
      destruct (ist_idle (p_i s)); cbn [cvalid cbeat blast andb]; [|auto]. destruct r; cbn [andb]; [split; discriminate|auto].
    - destruct (pr_go s k) eqn:G.
      + unfold pr_go, pr_isink in G. rewrite Ef in G.
        match goal with |- context [ist_next _ _ _ _ ?q ?z _] => destruct (fnext_write (p_i s) q z eq_refl eq_refl HF) as [A1 A2] end.
        specialize (A2 G). destruct (ist_err (p_i s)), (p_length s =? 1); cbn [p_f p_i]; (split; [apply HL'|]); cbn [ist_next is_f]; auto.
      + cbn [p_f p_i]. split; [apply HL'|]. cbn [ist_next is_f]. apply fnext_write; reflexivity || assumption.
    - destruct (1 <=? p_length s); cbn [p_f p_i]; (split; [apply HL'|]); cbn [ist_next is_f]; apply fnext_quiet; tauto || reflexivity.
    - cbn [p_f p_i]. split; [apply HL'|]. cbn [ist_next is_f].
      match goal with |- context [ist_fnext _ ?q ?z] => destruct (fnext_quiet (p_i s) q z) as [A1 A2]; [reflexivity|tauto|tauto|] end.
      destruct r; auto.
  Qed.

  Lemma pl_inv_run ins : pl_inv (state c ins).
  Proof.
    apply (state_inv c pl_inv).
    - split; [exact (live_run period stretch oe HP [])|]. cbn. split; discriminate.
    - intros s [[k r] p] H. now apply pl_inv_next.
  Qed.

  Lemma pl_step s k p : pl_inv s ->
    scl_follows stretch oe (so_i2c (po_i2c (cout c s (k, true, p)))) ->
    pr_rdy s k = false -> cvalid (pr_src s) = false ->
    (pl_m (pr_next period stretch oe s k true p) + 1 <= pl_m s)%nat.
  Proof.
    intros [HL HF] Hscl Hr Hs. pose proof W_pos as HW. cbn [c i2c_proto cout po_i2c i2c_stream so_i2c] in Hscl.
    assert (HL' : forall q z, live_ok period (is_i (ist_next period stretch oe (p_i s) q z p))) by (intros; now apply ist_live).
    unfold pr_next, pl_m. unfold pr_rdy in Hr. unfold pr_src in Hs. destruct (p_f s) eqn:Ef; try discriminate.
    - destruct (pr_go s k) eqn:G.
      + match goal with |- context [ist_next _ _ _ _ ?q ?z _] => pose proof (m1_bound period stretch oe HP _ (HL' q z)) as B end.
        fold W in B. destruct (ist_err (p_i s)), (Z.testbit (p_header s) 0), (1 <=? p_length s); cbn [p_f p_i]; lia.
      + cbn [p_f p_i]. enough (m1 period stretch oe (ist_next period stretch oe (p_i s) (pr_isink s k) (pr_irdy s true) p) + 1 <= m1 period stretch oe (p_i s))%nat by lia.
        apply m1_step; auto; try congruence; unfold pr_isink; rewrite Ef; reflexivity.
    - assert (M : (m2 period stretch oe (ist_next period stretch oe (p_i s) (pr_isink s k) (pr_irdy s true) p) + 1 <= m2 period stretch oe (p_i s))%nat).
      { apply m2_step; auto. intros _. unfold pr_isink. rewrite Ef. split; reflexivity. }
      destruct (pr_go s k); cbn [p_f p_i]; [|exact M]. destruct (p_length s =? 1); exact M.
    - assert (M : (m2 period stretch oe (ist_next period stretch oe (p_i s) (pr_isink s k) (pr_irdy s true) p) + 1 <= m2 period stretch oe (p_i s))%nat).
      { apply m2_step; auto. intros X. destruct HF. contradiction. }
      cbn [p_f p_i]. unfold pr_src. rewrite Ef. rewrite Hs. cbn [andb]. exact M.
    - rewrite Hr. cbn [p_f p_i]. apply m1_step; auto; try congruence; unfold pr_isink; rewrite Ef; reflexivity.
    - rewrite Hr. cbn [p_f p_i]. lia.
  Qed.
End Proto.

Definition moves (o : pr_obs) : bool :=
  (cvalid (o_sink (po_io o)) && o_sready (po_io o)) || (cvalid (o_src (po_io o)) && o_rready (po_io o)).
Theorem C110_never_stuck : forall period stretch oe ins t1 t2, 4 <= period ->
  trace (i2c_proto period stretch oe) ins = t1 ++ t2 ->
  Forall (fun o => cvalid (o_sink (po_io o)) = true /\ o_rready (po_io o) = true /\ scl_follows stretch oe (so_i2c (po_i2c o))) t2 ->
  (18 * cmd_bound period < length t2)%nat ->
  exists u o v, t2 = u ++ o :: v /\ moves o = true /\ (length u <= 18 * cmd_bound period)%nat.
Proof.
  intros period stretch oe ins t1 t2 HP E HF HN. apply trace_cut_from in E. destruct E as (a & b & -> & _ & <-).
  pose proof (pl_inv_run period stretch oe HP a) as HI. unfold state in HI. set (s := state_from _ _ a) in *.
  assert (HM : (pl_m period stretch oe s < 18 * cmd_bound period)%nat).
  { pose proof (m1_bound period stretch oe HP _ (proj1 HI)). pose proof (m2_bound period stretch oe HP _ (proj1 HI)).
    pose proof (W_pos period HP). unfold pl_m. destruct (p_f s); lia. }
  destruct (trace_progress (i2c_proto period stretch oe)
    (fun o => cvalid (o_sink (po_io o)) = true /\ o_rready (po_io o) = true /\ scl_follows stretch oe (so_i2c (po_i2c o)))
    (pl_inv period) moves (fun _ => true) (pl_m period stretch oe)) with (ins := b) (s := s) as (u & x & v & Et & Hx & Hu); auto.
  - intros s' [[k r] p] o HI' (Hv & Hr & Hf) Hd. split; [now apply pl_inv_next|].
    change (r = true) in Hr. subst r. change (cvalid k = true) in Hv.
    unfold moves in Hd. change (o_sink (po_io o)) with k in Hd. change (o_sready (po_io o)) with (pr_rdy s' k) in Hd.
    change (o_src (po_io o)) with (pr_src s') in Hd. change (o_rready (po_io o)) with true in Hd.
    rewrite Hv, andb_true_r in Hd. cbn [andb] in Hd. apply orb_false_iff in Hd. destruct Hd as [Hd1 Hd2].
    rewrite Nat.add_comm. apply pl_step; auto.
  - rewrite count_all by reflexivity. lia.
  - rewrite count_all in Hu by reflexivity. exists u, x, v. split; [exact Et|]. split; [exact Hx|lia].
Qed.

(** ** C111: the writer takes the next byte, or has just been refused one. *)
Section Writer.
  Context (period : Z) (stretch oe : bool) (HP : 4 <= period).
  Let c := i2c_writer period stretch oe.
  Let W := cmd_bound period.
  Definition iwl_inv (s : iw_state) : Prop :=
    live_ok period (iw_i s) /\ 0 <= iw_stage s <= 3 /\
    match iw_f s with IwStart | IwWStart => iw_stage s = 0 | IwWrite => iw_stage s <= 2 | IwWWrite => 1 <= iw_stage s | _ => True end.
  (** The last byte written was not acknowledged. *)
  Definition iw_refused (s : iw_state) : bool :=
    match iw_f s with IwWWrite => iw_idle s && negb (d_acko (s_d (iw_i s))) | _ => false end.
  Definition iw_ph (s : iw_state) : nat :=
    let r := if iw_retry s then 12%nat else 0%nat in
    match iw_f s with
    | IwWStart => r + 1 | IwStart => r + 2 | IwIdle => r + 3 | IwWStop => r + 4 | IwStop => r + 5
    | IwWWrite => 6 + 2 * (3 - Z.to_nat (iw_stage s))
    | IwWrite => if iw_use_cache s then 5 + 2 * (3 - Z.to_nat (iw_stage s)) else 0
    end%nat.
  Definition iw_m (s : iw_state) : nat := (iw_ph s * W + wm period stretch oe (iw_i s))%nat.

  Lemma iw_m_bound s : iwl_inv s -> (iw_m s < 18 * W)%nat.
  Proof.
    intros (HL & Hs & Hf). pose proof (wm_bound period stretch oe HP _ HL) as B. fold W in B. unfold iw_m.
    assert (iw_ph s <= 17)%nat.
    { unfold iw_ph. destruct (iw_f s), (iw_retry s); try destruct (iw_use_cache s); lia. }
    nia.
  Qed.

  Lemma iwl_inv_next s k p : iwl_inv s -> iwl_inv (iw_next period stretch oe s k p).
  Proof.
    intros (HL & Hs & Hf). split; [rewrite iw_next_i; now apply live_step|].
    assert (T : iw_stage s <= 2 -> trunc 2 (iw_stage s + 1) = iw_stage s + 1) by (intros; apply trunc_small; cbn; lia).
    unfold iw_next. destruct (iw_f s) eqn:Ef.
    - destruct (_ && _); cbn [iw_f iw_stage]; lia.
    - cbn [iw_f iw_stage]. lia.
    - destruct (iw_idle s); cbn [iw_f iw_stage]; lia.
    - cbn [iw_f iw_stage]. rewrite T by lia. lia.
    - destruct (iw_idle s); [|cbn [iw_f iw_stage]; lia]. destruct (negb _); [cbn [iw_f iw_stage]; lia|].
      destruct (Z.ltb_spec 2 (iw_stage s)); [cbn [iw_f iw_stage]; lia|]. destruct (_ || _); cbn [iw_f iw_stage]; lia.
    - cbn [iw_f iw_stage]. lia.
    - destruct (iw_idle s); cbn [iw_f iw_stage]; lia.
  Qed.

  Lemma iw_wait_step s k p : iwl_inv s -> scl_follows stretch oe (cout (i2c_initiator period stretch oe) (iw_i s) (iw_in s k p)) ->
    iw_idle s = false -> match iw_f s with IwStart | IwWrite | IwStop => False | _ => True end ->
    (wm period stretch oe (iw_i (iw_next period stretch oe s k p)) + 1 <= wm period stretch oe (iw_i s))%nat.
  Proof.
    intros (HL & _) HF HB Hf. rewrite iw_next_i. apply wm_step; auto.
    - unfold iw_idle in HB. now apply negb_false_iff.
    - intros _. unfold strobed, iw_in, iw_is_write. cbn. destruct (iw_f s); reflexivity || contradiction.
  Qed.

  Lemma iw_step s k p : iwl_inv s -> scl_follows stretch oe (cout (i2c_initiator period stretch oe) (iw_i s) (iw_in s k p)) ->
    iw_refused s = false -> iw_take s = false ->
    ((if cvalid k then 1 else 0) + iw_m (iw_next period stretch oe s k p) <= iw_m s)%nat.
  Proof.
    intros HI HF Hr Ht. pose proof (iw_wait_step s k p HI HF) as Hw. pose proof HI as (HL & Hs & Hf).
    pose proof (iwl_inv_next s k p HI) as (HL' & _). pose proof (wm_bound period stretch oe HP _ HL') as Hb. fold W in Hb.
    assert (HV : ((if cvalid k then 1 else 0) <= 1)%nat) by (destruct (cvalid k); lia).
    assert (T : iw_stage s <= 2 -> trunc 2 (iw_stage s + 1) = iw_stage s + 1) by (intros; apply trunc_small; cbn; lia).
    assert (NI : iw_idle s = true -> wm period stretch oe (iw_i s) = 0%nat).
    { unfold iw_idle, wm. intros X. apply negb_true_iff in X. now rewrite X. }
    unfold iw_m in *. set (x := wm period stretch oe (iw_i (iw_next period stretch oe s k p))) in *.
    set (y := wm period stretch oe (iw_i s)) in *.
    assert (ND : forall d, (d < iw_ph s)%nat -> iw_ph (iw_next period stretch oe s k p) = d ->
       ((if cvalid k then 1 else 0) + (iw_ph (iw_next period stretch oe s k p) * W + x) <= iw_ph s * W + y)%nat).
    { intros d Hd ->. assert (d * W + W <= iw_ph s * W)%nat by nia. lia. }
    destruct (iw_f s) eqn:Ef.
    - (* idle *)
      destruct (iw_idle s) eqn:EI.
      + destruct (cvalid k || iw_use_cache s) eqn:Eg.
        * apply (ND ((if iw_retry s then 12 else 0) + 2)%nat); [unfold iw_ph; rewrite Ef; lia|].
          unfold iw_next, iw_ph. rewrite Ef, EI, Eg. reflexivity.
        * apply orb_false_iff in Eg. destruct Eg as [Eg1 Eg2]. rewrite Eg1.
          assert (E : iw_ph (iw_next period stretch oe s k p) = iw_ph s) by (unfold iw_next, iw_ph; rewrite Ef, EI, Eg1, Eg2; reflexivity).
          rewrite E. assert (x = 0%nat); [|lia]. unfold x, wm. rewrite iw_next_i.
          assert (B : s_busy (iw_i s) = false) by (unfold iw_idle in EI; now apply negb_true_iff).
          assert (F : s_f (iw_i s) = Idle) by (destruct HL as (_ & _ & HL); apply idle_f; auto).
          destruct (idle_quiet period stretch oe (iw_i s) (iw_in s k p) F) as (_ & Q & _).
          { unfold strobed, iw_in, iw_is_write. cbn. rewrite Ef. reflexivity. }
          now rewrite Q.
      + assert (E : iw_ph (iw_next period stretch oe s k p) = iw_ph s) by (unfold iw_next, iw_ph; rewrite Ef, EI; reflexivity).
        rewrite E. specialize (Hw eq_refl I). lia.
    - apply (ND ((if iw_retry s then 12 else 0) + 1)%nat); [unfold iw_ph; rewrite Ef; lia|]. unfold iw_next, iw_ph. rewrite Ef. reflexivity.
    - (* wait start *)
      destruct (iw_idle s) eqn:EI.
      + destruct (iw_retry s) eqn:Er.
        * destruct (iw_use_cache s) eqn:Eu.
          -- apply (ND 11%nat); [unfold iw_ph; rewrite Ef, Er; lia|].
             unfold iw_next. rewrite Ef, EI. unfold iw_take, iw_is_write. rewrite Ef, andb_false_r. cbn [andb].
             unfold iw_ph. cbn [iw_f iw_stage]. unfold iw_use_cache in *. cbn [iw_retry iw_stage iw_cstage]. rewrite Eu, Hf. reflexivity.
          -- apply (ND 0%nat); [unfold iw_ph; rewrite Ef, Er; lia|].
             unfold iw_next. rewrite Ef, EI. unfold iw_take, iw_is_write. rewrite Ef, andb_false_r. cbn [andb].
             unfold iw_ph. cbn [iw_f iw_stage]. unfold iw_use_cache in *. cbn [iw_retry iw_stage iw_cstage]. rewrite Eu. reflexivity.
        * apply (ND 0%nat); [unfold iw_ph; rewrite Ef, Er; lia|].
          unfold iw_next. rewrite Ef, EI. unfold iw_ph. cbn [iw_f iw_stage]. unfold iw_use_cache. cbn [iw_retry]. rewrite Er. reflexivity.
      + assert (E : iw_ph (iw_next period stretch oe s k p) = iw_ph s) by (unfold iw_next, iw_ph; rewrite Ef, EI; reflexivity).
        rewrite E. specialize (Hw eq_refl I). lia.
    - (* write *)
      unfold iw_take, iw_is_write in Ht. rewrite Ef, andb_true_r in Ht. apply negb_false_iff in Ht.
      apply (ND (6 + 2 * (3 - Z.to_nat (iw_stage s + 1)))%nat).
      + unfold iw_ph. rewrite Ef, Ht. lia.
      + unfold iw_next, iw_ph. rewrite Ef. cbn [iw_f iw_stage]. rewrite T by lia. reflexivity.
    - (* wait write *)
      destruct (iw_idle s) eqn:EI.
      + unfold iw_refused in Hr. rewrite Ef, EI in Hr. cbn [andb] in Hr. apply negb_false_iff in Hr.
        destruct (Z.ltb_spec 2 (iw_stage s)) as [E2|E2].
        * apply (ND 5%nat); [unfold iw_ph; rewrite Ef; lia|]. unfold iw_next. rewrite Ef, EI, Hr. cbn [negb].
          destruct (Z.ltb_spec 2 (iw_stage s)); [|lia]. reflexivity.
        * assert (EN : forall b, (cvalid k || iw_use_cache s) = b -> iw_next period stretch oe s k p =
             Iw (if b then IwWrite else IwWWrite) (iw_stage s) (iw_retry s) (iw_c0 s) (iw_c1 s) (iw_c2 s) (iw_cstage s) (i2c_next period stretch oe (iw_i s) (iw_in s k p))).
          { intros b Hb'. unfold iw_next. rewrite Ef, EI, Hr, Hb'. cbn [negb]. destruct (Z.ltb_spec 2 (iw_stage s)); [lia|].
            unfold iw_take, iw_is_write. rewrite Ef, andb_false_r. reflexivity. }
          destruct (cvalid k || iw_use_cache s) eqn:Eg.
          -- destruct (iw_use_cache s) eqn:Eu.
             ++ apply (ND (5 + 2 * (3 - Z.to_nat (iw_stage s)))%nat); [unfold iw_ph; rewrite Ef; lia|].
                rewrite (EN true eq_refl). unfold iw_ph. cbn [iw_f]. unfold iw_use_cache in *. cbn [iw_retry iw_stage iw_cstage]. rewrite Eu. reflexivity.
             ++ apply (ND 0%nat); [unfold iw_ph; rewrite Ef; lia|].
                rewrite (EN true eq_refl). unfold iw_ph. cbn [iw_f]. unfold iw_use_cache in *. cbn [iw_retry iw_stage iw_cstage]. rewrite Eu. reflexivity.
          -- apply orb_false_iff in Eg. destruct Eg as [Eg1 Eg2]. rewrite Eg1.
             assert (E : iw_ph (iw_next period stretch oe s k p) = iw_ph s) by (rewrite (EN false eq_refl); unfold iw_ph; rewrite Ef; reflexivity).
             rewrite E. assert (x = 0%nat); [|lia]. unfold x, wm. rewrite iw_next_i.
             assert (B : s_busy (iw_i s) = false) by (unfold iw_idle in EI; now apply negb_true_iff).
             assert (F : s_f (iw_i s) = Idle) by (destruct HL as (_ & _ & HL); apply idle_f; auto).
             destruct (idle_quiet period stretch oe (iw_i s) (iw_in s k p) F) as (_ & Q & _).
             { unfold strobed, iw_in, iw_is_write. cbn. rewrite Ef. reflexivity. }
             now rewrite Q.
      + assert (E : iw_ph (iw_next period stretch oe s k p) = iw_ph s) by (unfold iw_next, iw_ph; rewrite Ef, EI; reflexivity).
        rewrite E. specialize (Hw eq_refl I). lia.
    - apply (ND ((if iw_retry s then 12 else 0) + 4)%nat); [unfold iw_ph; rewrite Ef; lia|]. unfold iw_next, iw_ph. rewrite Ef. reflexivity.
    - destruct (iw_idle s) eqn:EI.
      + apply (ND ((if iw_retry s then 12 else 0) + 3)%nat); [unfold iw_ph; rewrite Ef; lia|]. unfold iw_next, iw_ph. rewrite Ef, EI. reflexivity.
      + assert (E : iw_ph (iw_next period stretch oe s k p) = iw_ph s) by (unfold iw_next, iw_ph; rewrite Ef, EI; reflexivity).
        rewrite E. specialize (Hw eq_refl I). lia.
  Qed.

  (** What the writer waits for in WRITE-WAIT is a write. *)
  Definition iwl_cmd (t : list iw_obs) (s : iw_state) : Prop :=
    iw_rdy_i s /\ iwl_inv s /\ (iw_f s = IwWWrite -> exists x, last_cmd (map wo_i2c t) = Some (CWrite x)).
  Lemma iwl_run ins : iwl_cmd (trace c ins) (state c ins).
  Proof.
    apply (run_inv c iwl_cmd).
    - split; [split; cbn; auto|]. split; [|cbn; discriminate]. split; [exact (live_run period stretch oe HP [])|]. cbn. lia.
    - intros t s [k p] (H1 & H2 & H3). split; [now apply iw_rdy_i_step|]. split; [now apply iwl_inv_next|].
      intros Hw. rewrite map_app. cbn [map]. rewrite last_cmd_snoc.
      change (io_cmd (wo_i2c (cout c s (k, p)))) with (cmd_taken (iw_i s) (iw_in s k p)).
      cbn [c i2c_writer cnext] in Hw. destruct H1 as [_ H1]. unfold iw_next in Hw. destruct (iw_f s) eqn:Ef.
      + destruct (_ && _); discriminate.
      + discriminate.
      + destruct (iw_idle s); discriminate.
      + destruct H1 as [F _]. eexists. unfold cmd_taken, iw_in, iw_is_write. rewrite F, Ef. reflexivity.
      + rewrite quiet_cmd; [auto|]. unfold strobed, iw_in, iw_is_write. rewrite Ef. reflexivity.
      + discriminate.
      + destruct (iw_idle s); discriminate.
  Qed.
End Writer.

(** A refused write, seen at the initiator: the last command was a write, it is
    over, and it was not acknowledged. *)
Definition refused_write (t : list iw_obs) (o : iw_obs) : Prop :=
  (exists x, last_cmd (map wo_i2c t) = Some (CWrite x)) /\ io_busy (wo_i2c o) = false /\ io_ack (wo_i2c o) = false.

(** With a byte kept offered and SCL not stretched, within 18 command times the
    writer is ready for a byte, or a write has been refused. *)
Theorem C111_writer_takes : forall period stretch oe ins t1 t2, 4 <= period ->
  trace (i2c_writer period stretch oe) ins = t1 ++ t2 ->
  Forall (fun o => cvalid (wo_sink o) = true /\ scl_follows stretch oe (wo_i2c o)) t2 ->
  (18 * cmd_bound period < length t2)%nat ->
  exists u o v, t2 = u ++ o :: v /\ (wo_ready o = true \/ refused_write (t1 ++ u) o) /\ (length u <= 18 * cmd_bound period)%nat.
Proof.
  intros period stretch oe ins t1 t2 HP E HF HN. set (c := i2c_writer period stretch oe) in *.
  apply trace_cut_from in E. destruct E as (a & b & -> & <- & <-).
  change (state_from c (creset c) a) with (state c a) in *. change (trace_from c (creset c) a) with (trace c a) in *.
  pose proof (iwl_run period stretch oe HP a) as (_ & HI & _). fold c in HI.
  pose proof (iw_m_bound period stretch oe HP _ HI) as HM. set (s := state c a) in *.
  rewrite trace_from_length in HN.
  assert (HF' : Forall (fun q => let '(i, st) := q in True) (combine b b)) by (apply Forall_forall; now intros [? ?]).
  assert (P : exists x i y, b = x ++ i :: y /\ iwl_inv period (state_from c s x) /\
     (iw_take (state_from c s x) = true \/ iw_refused (state_from c s x) = true) /\ (length x <= iw_m period stretch oe s)%nat).
  { clear HF'. assert (HN' : (iw_m period stretch oe s < length b)%nat) by lia. clear HN HM. clearbody s. revert s HI HF HN'.
    induction b as [|[k p] b IH]; intros s HI HF HN; [cbn in HN; lia|].
    cbn [trace_from] in HF. apply Forall_cons_iff in HF. destruct HF as [[Hv Hf] HF]. cbn [c i2c_writer cout wo_sink wo_i2c] in Hv, Hf.
    destruct (iw_take s) eqn:Et; [exists [], (k, p), b; cbn; repeat split; auto; [apply HI..|lia]|].
    destruct (iw_refused s) eqn:Er; [exists [], (k, p), b; cbn; repeat split; auto; [apply HI..|lia]|].
    pose proof (iw_step period stretch oe HP s k p HI Hf Er Et) as HS. rewrite Hv in HS.
    destruct (IH (cnext c s (k, p))) as (x & i & y & -> & J1 & J2 & J3).
    - now apply iwl_inv_next.
    - exact HF.
    - cbn [length] in HN. change (cnext c s (k, p)) with (iw_next period stretch oe s k p). lia.
    - exists ((k, p) :: x), i, y. cbn [app state_from length]. repeat split; auto; [apply J1..|].
      change (cnext c s (k, p)) with (iw_next period stretch oe s k p) in J3. lia. }
  destruct P as (x & i & y & -> & J1 & J2 & J3).
  exists (trace_from c s x), (cout c (state_from c s x) i), (trace_from c (cnext c (state_from c s x) i) y).
  split; [rewrite trace_from_app; reflexivity|]. split; [|rewrite trace_from_length; lia].
  destruct i as [k p]. destruct J2 as [J2|J2]; [left; exact J2|right].
  pose proof (iwl_run period stretch oe HP (a ++ x)) as (_ & _ & HC). fold c in HC.
  unfold state in HC. rewrite state_from_app, trace_app in HC. change (state_from c (state c a) x) with (state_from c s x) in HC.
  change (state_from c (creset c) a) with s in HC. fold s in HC.
  unfold iw_refused in J2. destruct (iw_f (state_from c s x)) eqn:Ef; try discriminate. apply andb_prop in J2. destruct J2 as [J2 J4].
  split; [apply HC; reflexivity|]. split; [now apply negb_true_iff in J2|now apply negb_true_iff in J4].
Qed.


(** A host that keeps writing. *)
Example C109_nonvacuous :
  let b := (Chan true (Beat false false (false, 0xA0)), true, (false, true)) in
  let t := trace (i2c_stream 4 false true) (repeat b 2000) in
  Forall (fun o => cvalid (o_sink (so_io o)) = true /\ o_rready (so_io o) = true /\ scl_follows false true (so_i2c o)) t /\
  (8 * cmd_bound 4 < length t)%nat /\
  map bdata (firstn 3 (accepted (map so_io t))) = repeat (false, 0xA0) 3.
Proof.
  intros b t. split.
  - apply Forall_forall. intros q Hq. apply in_split in Hq. destruct Hq as (x & y & Hq). apply trace_one in Hq.
    destruct Hq as (a & i & v & Hi & _ & ->). assert (E : In i (repeat b 2000)) by (rewrite Hi; apply in_elt).
    apply repeat_spec in E. subst i. split; [reflexivity|]. split; [reflexivity|intros H; discriminate].
  - split; [apply Nat.ltb_lt; vm_compute; reflexivity|]. vm_compute. reflexivity.
Qed.

(** A host that keeps sending and taking. *)
Example C110_nonvacuous :
  let b := (Chan true (Beat false false 0x02), true, (false, true)) in
  let t := trace (i2c_proto 4 false true) (repeat b 4300) in
  Forall (fun o => cvalid (o_sink (po_io o)) = true /\ o_rready (po_io o) = true /\ scl_follows false true (so_i2c (po_i2c o))) t /\
  (18 * cmd_bound 4 < length t)%nat /\ (20 < length (filter moves t))%nat.
Proof.
  intros b t. split.
  - apply Forall_forall. intros q Hq. apply in_split in Hq. destruct Hq as (x & y & Hq). apply trace_one in Hq.
    destruct Hq as (a & i & v & Hi & _ & ->). assert (E : In i (repeat b 4300)) by (rewrite Hi; apply in_elt).
    apply repeat_spec in E. subst i. split; [reflexivity|]. split; [reflexivity|intros H; discriminate].
  - split; apply Nat.ltb_lt; vm_compute; reflexivity.
Qed.

(** A writer that is always answered. *)
Example C111_nonvacuous :
  let b := (Chan true (Beat false false 0x42), (false, true)) in
  let t := trace (i2c_writer 4 false true) (repeat b 4300) in
  Forall (fun o => cvalid (wo_sink o) = true /\ scl_follows false true (wo_i2c o)) t /\
  (18 * cmd_bound 4 < length t)%nat /\ (40 < length (filter wo_ready t))%nat.
Proof.
  intros b t. split.
  - apply Forall_forall. intros q Hq. apply in_split in Hq. destruct Hq as (x & y & Hq). apply trace_one in Hq.
    destruct Hq as (a & i & v & Hi & _ & ->). assert (E : In i (repeat b 4300)) by (rewrite Hi; apply in_elt).
    apply repeat_spec in E. subst i. split; [reflexivity|intros H; discriminate].
  - split; apply Nat.ltb_lt; vm_compute; reflexivity.
Qed.

(** A read is accepted, its word is offered, and taken as the last one it closes the transaction. *)
Example C109_nonvacuous_read : exists t1 o t2 u1 q q' u2,
  let t := trace (i2c_stream 4 false true) (ist_run ++ repeat (ist_in_no true) 300) in
  t = t1 ++ o :: t2 /\ stable_sink (map so_io t) /\ cvalid (o_sink (so_io o)) = true /\ o_sready (so_io o) = true /\ fst (bdata (cbeat (o_sink (so_io o)))) = true /\
  (cmd_bound 4 < length t2)%nat /\ Forall (fun x => scl_follows false true (so_i2c x)) t2 /\
  t = u1 ++ q :: q' :: u2 /\ closing q = true /\ io_cmd (so_i2c q') = Some CStop.
Proof.
  set (t := trace _ _). exists (firstn 88 t). eexists _, (skipn 89 t), (firstn 237 t), _, _, (skipn 239 t). cbv zeta.
  split; [vm_compute; reflexivity|]. split; [apply stable_sinkb2_ok; vm_compute; reflexivity|]. split; [reflexivity|]. split; [vm_compute; reflexivity|]. split; [reflexivity|].
  split; [apply Nat.ltb_lt; vm_compute; reflexivity|].
  split; [apply Forall_forall; intros q _; intros H; discriminate|].
  split; [vm_compute; reflexivity|]. split; vm_compute; reflexivity.
Qed.

Print Assumptions C109_accepts.
Print Assumptions C109_read_offered.
Print Assumptions C109_closes.
Print Assumptions C110_never_stuck.
Print Assumptions C111_writer_takes.
