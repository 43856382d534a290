(** Theorems C172: an I2C bus with no device on it, and a bus whose SDA is stuck low. *)
From Verif Require Import Stream Bits I2c_model I2c_spec I2c_proofs I2c_props I2cstream_model I2cstream_spec I2cstream_proofs I2cstream_props
  I2cproto_model I2cproto_spec I2cproto_proofs I2cproto_props I2cwriter_props I2cbus_model I2cbus_props I2cinit_model I2cinit_props I2cempty_proofs.

(** Nobody else pulls SDA: the pad has the level the initiator asks for.  SDA stuck low.
    Nothing is said about SCL. *)
Definition alone (o : i2c_obs) : Prop := ii_sda_pad (io_in o) = io_sda o.
Definition stuck_low (o : i2c_obs) : Prop := ii_sda_pad (io_in o) = false.

Lemma msb_length x : length (msb_first x) = 8%nat.
Proof. unfold msb_first. now rewrite map_length, seq_length. Qed.
Lemma last_bit x : nth 8 (msb_first x ++ [true]) false = true.
Proof. rewrite app_nth2; rewrite msb_length; auto. Qed.

(** C172: whatever the pads do otherwise, if SDA only depends on the level asked for
    then what is sampled in each clock is what SDA was tied to when SCL rose: both
    synchroniser stages have been passed. *)
Theorem C172_samples : forall period stretch oe g ins t1 o t2,
  4 <= period ->
  trace (i2c_initiator period stretch oe) ins = t1 ++ o :: t2 ->
  Forall (fun o => ii_sda_pad (io_in o) = g (io_sda o)) t1 ->
  io_busy o = false ->
  m_samples (monitored stretch t1) = map g (m_rises (monitored stretch t1)).
Proof. intros period stretch oe g ins t1 o t2 HP H HT HB. eapply tied_samples; eauto. Qed.

(** C172: with nobody on the bus no write is acknowledged and every read gives 255. *)
Theorem C172_nobody : forall period stretch oe ins t1 o t2,
  4 <= period ->
  trace (i2c_initiator period stretch oe) ins = t1 ++ o :: t2 ->
  Forall alone t1 -> io_busy o = false ->
  (forall x, last_cmd t1 = Some (CWrite x) -> io_ack o = false) /\
  (forall a, last_cmd t1 = Some (CRead a) -> io_data o = 255).
Proof.
  intros period stretch oe ins t1 o t2 HP H HT HB. pose proof (C172_samples period stretch oe (fun b => b) ins t1 o t2 HP H HT HB) as HS.
  rewrite map_id in HS. split; [intros x HC|intros a HC].
  - destruct (C43_write period stretch oe ins t1 o t2 x HP H HB HC) as (A1 & _ & _ & _ & A5 & _). rewrite A5, HS, A1, last_bit. reflexivity.
  - destruct (C44_read period stretch oe ins t1 o t2 a HP H HB HC) as (A1 & _ & _ & _ & A5 & _). rewrite A5, HS, A1. reflexivity.
Qed.

(** C172: with SDA stuck low every write is acknowledged and every read gives 0. *)
Theorem C172_stuck : forall period stretch oe ins t1 o t2,
  4 <= period ->
  trace (i2c_initiator period stretch oe) ins = t1 ++ o :: t2 ->
  Forall stuck_low t1 -> io_busy o = false ->
  (forall x, last_cmd t1 = Some (CWrite x) -> io_ack o = true) /\
  (forall a, last_cmd t1 = Some (CRead a) -> io_data o = 0).
Proof.
  intros period stretch oe ins t1 o t2 HP H HT HB. pose proof (C172_samples period stretch oe (fun _ => false) ins t1 o t2 HP H HT HB) as HS.
  split; [intros x HC|intros a HC].
  - destruct (C43_write period stretch oe ins t1 o t2 x HP H HB HC) as (A1 & _ & _ & _ & A5 & _). rewrite A5, HS, A1, map_app, app_nth2; rewrite map_length, msb_length; auto.
  - destruct (C44_read period stretch oe ins t1 o t2 a HP H HB HC) as (A1 & _ & _ & _ & A5 & _). rewrite A5, HS, A1. destruct a; reflexivity.
Qed.

(** ** Through I2CStream. *)
Lemma tied_cmd period stretch oe g ins t1 o t2 :
  4 <= period ->
  trace (i2c_initiator period stretch oe) ins = t1 ++ o :: t2 ->
  Forall (fun o => ii_sda_pad (io_in o) = g (io_sda o)) t1 -> io_busy o = false ->
  (forall x, last_cmd t1 = Some (CWrite x) -> io_ack o = negb (g true)) /\
  (forall a, last_cmd t1 = Some (CRead a) -> io_data o = if g true then 255 else 0).
Proof.
  intros HP H HT HB. pose proof (C172_samples period stretch oe g ins t1 o t2 HP H HT HB) as HS. split; [intros x HC|intros a HC].
  - destruct (C43_write period stretch oe ins t1 o t2 x HP H HB HC) as (A1 & _ & _ & _ & A5 & _). rewrite A5, HS, A1, map_app, app_nth2; rewrite map_length, msb_length; auto.
  - destruct (C44_read period stretch oe ins t1 o t2 a HP H HB HC) as (A1 & _ & _ & _ & A5 & _). rewrite A5, HS, A1. cbn. destruct (g true); reflexivity.
Qed.

(** While the I2CStream waits for a byte, that byte is the last command. *)
Definition ist_doing (t : list ist_obs) (s : ist_state) : Prop :=
  ist_rdy_i s /\
  match is_f s with
  | IsWWrite => exists x, last_cmd (map so_i2c t) = Some (CWrite x)
  | IsWRead => exists a, last_cmd (map so_i2c t) = Some (CRead a)
  | _ => True
  end.
Lemma ist_doing_run period stretch oe ins :
  let c := i2c_stream period stretch oe in ist_doing (trace c ins) (state c ins).
Proof.
  intros c. apply (run_inv c ist_doing); [split; [split; cbn; auto|exact Logic.I]|].
  intros t s [[k r] p] [HR HD]. split; [exact (ist_rdy_i_step period stretch oe s k r p HR)|]. destruct HR as [_ HI].
  rewrite map_app. cbn [map]. rewrite last_cmd_snoc.
  destruct s as [f l i]. cbn [c i2c_stream cout cnext so_i2c io_cmd i2c_initiator ist_next is_f is_i is_last] in *.
  unfold ist_fnext, ist_in, ist_idle, ist_rd, ist_wr, ist_is. cbn [is_f is_i is_last andb]. destruct f; cbn [andb]; auto.
  - destruct (_ && _); exact Logic.I.
  - destruct (negb _); exact Logic.I.
  - destruct HI as [F B]. unfold cmd_taken. rewrite F. destruct (cvalid k); cbn; [|exact Logic.I]. destruct (fst (bdata (cbeat k))); cbn; eauto.
  - destruct (negb (s_busy i)); [destruct (negb _); [exact Logic.I|destruct l; exact Logic.I]|]. rewrite quiet_cmd by reflexivity. exact HD.
  - destruct (negb (s_busy i) && r); [destruct l; exact Logic.I|]. rewrite quiet_cmd by reflexivity. exact HD.
  - destruct (negb _); exact Logic.I.
Qed.

Lemma stream_tied period stretch oe g ins t1 o t2 :
  4 <= period ->
  trace (i2c_stream period stretch oe) ins = t1 ++ o :: t2 ->
  Forall (fun o => ii_sda_pad (io_in o) = g (io_sda o)) (map so_i2c t1) ->
  (forall x, xfer (o_sink (so_io o)) (o_sready (so_io o)) = [x] -> fst (bdata x) = false -> so_error o = g true) /\
  (cvalid (o_src (so_io o)) = true -> bdata (cbeat (o_src (so_io o))) = if g true then 255 else 0).
Proof.
  intros HP H HT. pose proof H as HE. apply trace_one in HE. destruct HE as (a & i & b & E1 & E2 & E3).
  pose proof (proj1 (ist_sub period stretch oe ins)) as HSub. rewrite H, map_app in HSub. cbn [map] in HSub. symmetry in HSub.
  destruct (ist_doing_run period stretch oe a) as [_ HD]. rewrite E2 in HD.
  destruct i as [[k r] p]. set (s := state (i2c_stream period stretch oe) a) in *.
  pose proof (tied_cmd period stretch oe g _ _ _ _ HP HSub HT) as T.
  rewrite E3 in T |- *. cbn [i2c_stream cout so_io so_i2c so_error o_sink o_sready o_src i2c_initiator io_busy io_ack io_data] in T |- *.
  split.
  - intros x HX HF. unfold xfer in HX. destruct (cvalid k) eqn:V; [|discriminate]. destruct (ist_rdy s k) eqn:R; [|discriminate].
    injection HX as <-. unfold ist_rdy, ist_rd in R. rewrite HF, andb_false_r in R. cbn [orb] in R. unfold ist_err. rewrite R. cbn [andb].
    apply andb_true_iff in R. destruct R as [R1 R2]. unfold ist_is in R1. unfold ist_idle in R2. apply negb_true_iff in R2. destruct (is_f s); try discriminate.
    destruct HD as (y & HD). rewrite (proj1 (T R2) y HD). apply negb_involutive.
  - intros V. unfold ist_src in *. destruct (ist_is s IsWRead && ist_idle s) eqn:R; [|discriminate]. cbn [cbeat bdata].
    apply andb_true_iff in R. destruct R as [R1 R2]. unfold ist_is in R1. unfold ist_idle in R2. apply negb_true_iff in R2. destruct (is_f s); try discriminate.
    destruct HD as (y & HD). exact (proj2 (T R2) y HD).
Qed.

Lemma stream_served period stretch oe g ins :
  4 <= period ->
  let t := trace (i2c_stream period stretch oe) ins in
  Forall (fun o => ii_sda_pad (io_in o) = g (io_sda o)) (map so_i2c t) ->
  Forall (fun e => fst (bdata (fst e)) = false -> snd e = g true) (served t) /\
  Forall (fun b => bdata b = if g true then 255 else 0) (emitted (map so_io t)).
Proof.
  intros HP t HT.
  assert (A : forall o, In o t ->
    (forall x, xfer (o_sink (so_io o)) (o_sready (so_io o)) = [x] -> fst (bdata x) = false -> so_error o = g true) /\
    (cvalid (o_src (so_io o)) = true -> bdata (cbeat (o_src (so_io o))) = if g true then 255 else 0)).
  { intros o Ho. apply in_split in Ho. destruct Ho as (t1 & t2 & H). unfold t in *. rewrite H in HT. rewrite map_app in HT.
    apply Forall_app in HT. eapply stream_tied; eauto. apply HT. }
  split; apply Forall_forall.
  - intros e He. unfold served in He. apply in_flat_map in He. destruct He as (o & Ho & He). apply in_map_iff in He. destruct He as (x & <- & Hx).
    cbn [fst snd]. apply (proj1 (A o Ho)). unfold xfer in *. destruct (_ && _); [|destruct Hx]. destruct Hx as [->|[]]. reflexivity.
  - intros b Hb. unfold emitted in Hb. apply in_flat_map in Hb. destruct Hb as (q & Hq & Hb). apply in_map_iff in Hq. destruct Hq as (o & <- & Ho).
    unfold xfer in Hb. destruct (cvalid (o_src (so_io o)) && _) eqn:V; [|destruct Hb]. apply andb_true_iff in V. destruct V as [V _]. destruct Hb as [<-|[]].
    now apply (A o Ho).
Qed.

(** C172: an I2CStream with nobody on its bus reports an error for every byte it is
    given to write and delivers 255 for every read; with SDA stuck low it never reports
    an error and delivers zeros. *)
Theorem C172_stream_nobody : forall period stretch oe ins,
  4 <= period ->
  let t := trace (i2c_stream period stretch oe) ins in
  Forall alone (map so_i2c t) ->
  Forall (fun e => fst (bdata (fst e)) = false -> snd e = true) (served t) /\
  Forall (fun b => bdata b = 255) (emitted (map so_io t)).
Proof. intros period stretch oe ins HP t HT. exact (stream_served period stretch oe (fun b => b) ins HP HT). Qed.
Theorem C172_stream_stuck : forall period stretch oe ins,
  4 <= period ->
  let t := trace (i2c_stream period stretch oe) ins in
  Forall stuck_low (map so_i2c t) ->
  Forall (fun e => fst (bdata (fst e)) = false -> snd e = false) (served t) /\
  Forall (fun b => bdata b = 0) (emitted (map so_io t)).
Proof. intros period stretch oe ins HP t HT. exact (stream_served period stretch oe (fun _ => false) ins HP HT). Qed.

(** ** Through I2CProto. *)
Lemma in_concat_seg {A} (segs : list (list A)) g x : In g segs -> In x g -> In x (concat segs).
Proof. intros. apply in_concat. eauto. Qed.

Lemma write_beats_all h ds : Forall (fun b => fst (bdata b) = false) (write_beats (h :: ds)).
Proof. revert h. induction ds as [|d ds IH]; intros h; cbn [write_beats]; constructor; auto. apply (IH d). Qed.

Lemma proto_tied period stretch oe g ins :
  4 <= period ->
  let t := trace (i2c_proto period stretch oe) ins in
  good_host t ->
  Forall (fun o => ii_sda_pad (io_in o) = g (io_sda o)) (map so_i2c (map po_i2c t)) ->
  Forall (fun e => exists bs ds, executed e bs ds /\
    Forall (fun e => fst (bdata (fst e)) = false -> snd e = g true) bs /\ Forall (fun b => bdata b = if g true then 255 else 0) ds)
    (snd (host_view (map po_io t))).
Proof.
  intros HP t HG HT. pose proof (C51_exchanges period stretch oe ins HG) as H. fold t in H.
  pose proof (C51_bus period stretch oe ins) as HB. cbv zeta in HB. fold t in HB.
  destruct (host_view (map po_io t)) as [hs log]. cbn [snd]. destruct H as (_ & segs & beats & data & HF & H1 & H2 & _).
  rewrite HB in HT. destruct (stream_served period stretch oe g _ HP HT) as [B1 B2]. rewrite <- HB in B1, B2. rewrite H1 in B1. rewrite H2 in B2.
  apply Forall_app in B1, B2. destruct B1 as [B1 _], B2 as [B2 _]. clear - HF B1 B2.
  induction HF as [|e [b d] l l' HE HF IH]; [constructor|]. cbn [map concat fst snd] in *. apply Forall_app in B1, B2. destruct B1, B2. constructor; eauto.
Qed.

(** C172: with nobody on the bus every request, write or read, to whatever address, is
    answered by the single status byte 1. *)
Theorem C172_proto_nobody : forall period stretch oe ins,
  4 <= period ->
  let t := trace (i2c_proto period stretch oe) ins in
  good_host t -> Forall alone (map so_i2c (map po_i2c t)) ->
  Forall (fun e => match e with Wrote _ _ a | Asked _ _ a => map bdata a = [1] end) (snd (host_view (map po_io t))).
Proof.
  intros period stretch oe ins HP t HG HT. eapply Forall_impl; [|exact (proto_tied period stretch oe (fun b => b) ins HP HG HT)].
  intros e (bs & ds & HE & H1 & H2). destruct HE; auto; exfalso.
  - cbn [write_beats taken map] in H1. inversion H1 as [|? ? A]. cbn in A. specialize (A eq_refl). discriminate.
  - inversion H1 as [|? ? A]. cbn in A. specialize (A eq_refl). discriminate.
Qed.

(** C172: with SDA stuck low every write is answered by status 0, every read by status 0
    and zeros: the host sees a device at each address. *)
Theorem C172_proto_stuck : forall period stretch oe ins,
  4 <= period ->
  let t := trace (i2c_proto period stretch oe) ins in
  good_host t -> Forall stuck_low (map so_i2c (map po_i2c t)) ->
  Forall (fun e => match e with
                   | Wrote _ _ a => map bdata a = [0]
                   | Asked _ n a => map bdata a = 0 :: repeat 0 (Z.to_nat n)
                   end) (snd (host_view (map po_io t))).
Proof.
  intros period stretch oe ins HP t HG HT. eapply Forall_impl; [|exact (proto_tied period stretch oe (fun _ => false) ins HP HG HT)].
  intros e (bs & ds & HE & H1 & H2). destruct HE as [h dd|h dd b good rest E|h n data E|h n]; auto.
  - exfalso. apply Forall_app in H1. destruct H1 as [_ H1]. inversion H1 as [|? ? A]. cbn [fst snd] in A.
    pose proof (write_beats_all h dd) as W. rewrite E in W. apply Forall_app in W. destruct W as [_ W]. inversion W; subst. specialize (A ltac:(assumption)). discriminate.
  - cbn [map status_beat bdata]. f_equal. assert (L : length data = Z.to_nat n).
    { apply (f_equal (@length bool)) in E. rewrite !map_length in E. rewrite E. clear. induction (Z.to_nat n) as [|k IH]; cbn; auto. }
    rewrite <- L. clear - H2. induction H2 as [|b l A H IH]; cbn; [auto|]. cbn in A. rewrite A, IH. auto.
  - exfalso. inversion H1 as [|? ? A]. cbn [fst snd] in A. specialize (A eq_refl). discriminate.
Qed.

(** C172: accordingly the software finds no device on an empty bus, and 128 on a stuck one. *)
Theorem C172_discover : forall rest,
  c_result (discover (repeat 1 128 ++ rest)) = inl [] /\
  c_result (discover (repeat 0 128 ++ rest)) = inl (map Z.of_nat (seq 0 128)).
Proof.
  intros rest. destruct (C54_discover (repeat false 128) rest (repeat_length _ _)) as [H1 _]. destruct (C54_discover (repeat true 128) rest (repeat_length _ _)) as [H2 _].
  change (map (fun ok : bool => if ok then 0 else 1) (repeat false 128)) with (repeat 1 128) in H1.
  change (map (fun ok : bool => if ok then 0 else 1) (repeat true 128)) with (repeat 0 128) in H2.
  rewrite H1, H2. split; reflexivity.
Qed.

(** ** Through I2CWriterStream. *)
Lemma alone_results period stretch oe ins t1 t2 :
  4 <= period -> trace (i2c_initiator period stretch oe) ins = t1 ++ t2 -> Forall alone t1 ->
  Forall (fun e => match e with (CWrite _, Some a) => a = false | _ => True end) (results t1).
Proof.
  intros HP. revert t2. induction t1 as [|o t1 IH] using rev_ind; intros t2 H HT; [constructor|].
  rewrite <- app_assoc in H. cbn [app] in H. apply Forall_app in HT. destruct HT as [HT _]. specialize (IH _ H HT).
  rewrite results_snoc. unfold results_step. apply Forall_app. split; [|destruct (io_cmd o) as [[]|]; repeat constructor].
  destruct (results t1) as [|[cm [a|]] R] eqn:E using rev_ind; [constructor| |]; clear IHR.
  - rewrite close_snoc_some. exact IH.
  - rewrite close_snoc. destruct (io_busy o) eqn:B; [exact IH|]. apply Forall_app in IH. destruct IH as [IH _]. apply Forall_app. split; [exact IH|].
    constructor; [|constructor]. destruct cm; auto. apply results_tail in E. destruct (C172_nobody period stretch oe ins t1 o t2 HP H HT B) as [X _]. eauto.
Qed.

Definition refused_so_far (st : wphase * nat) : Prop :=
  snd st = 0%nat /\ match fst st with Inside j | Waiting j => j = 0%nat | _ => True end.
Lemma refused_replay A R st st' :
  Forall (fun e => match e with (CWrite _, Some a) => a = false | _ => True end) R ->
  refused_so_far st -> replay A st R = Some st' ->
  refused_so_far st' /\ Forall (fun e => match fst e with CWrite x => nth_error A 0 = Some x | _ => True end) R.
Proof.
  intros HR. revert st. induction HR as [|[cm a] R HE HR IH]; intros [ph k] [Hk Hp] H; cbn [fst snd] in *.
  - cbn in H. injection H as <-. split; [split; auto|constructor].
  - subst k. cbn [replay] in H. destruct (replay1 A (ph, 0%nat) (cm, a)) as [st1|] eqn:E; [|discriminate].
    assert (G : refused_so_far st1 /\ match cm with CWrite x => nth_error A 0 = Some x | _ => True end).
    { unfold replay1 in E. destruct ph as [|j|j|], cm as [| |x|y]; try discriminate; try (injection E as <-; repeat split; auto; fail).
      subst j. cbn [Nat.mul Nat.add] in E. destruct (nth_error A 0) as [y|]; [|discriminate]. destruct (Z.eqb_spec x y); [|discriminate]. subst y. cbn [negb] in E.
      destruct a as [[|]|]; [discriminate| |]; injection E as <-; repeat split; auto. }
    destruct G as [G1 G2]. destruct (IH _ G1 H). split; auto.
Qed.

Lemma results_commands t : map fst (results t) = commands t.
Proof.
  induction t as [|o t IH] using rev_ind; [reflexivity|]. rewrite results_snoc. unfold results_step, commands. rewrite map_app, flat_map_app.
  fold (commands t). rewrite <- IH. f_equal; [|cbn; destruct (io_cmd o); reflexivity].
  destruct (results t) as [|[cm [a|]] R] using rev_ind; [reflexivity|now rewrite close_snoc_some|].
  rewrite close_snoc. destruct (io_busy o); [reflexivity|]. now rewrite !map_app.
Qed.

(** C172: an I2CWriterStream with nobody on its bus takes one byte at most, and that byte
    is all it ever tries to write. *)
Theorem C172_writer_nobody : forall period stretch oe ins,
  4 <= period ->
  let t := trace (i2c_writer period stretch oe) ins in
  stable_sink (map wo_io t) -> Forall alone (map wo_i2c t) ->
  (length (bytes_of t) <= 1)%nat /\
  forall x, In (CWrite x) (commands (map wo_i2c t)) -> bytes_of t = [x].
Proof.
  intros period stretch oe ins HP t HS HT.
  assert (L : forall ins', let t := trace (i2c_writer period stretch oe) ins' in stable_sink (map wo_io t) -> Forall alone (map wo_i2c t) ->
    Forall (fun e => match e with (CWrite _, Some a) => a = false | _ => True end) (results (map wo_i2c t))).
  { intros ins' t' _ HT'. pose proof (C49_bus period stretch oe ins') as E. cbv zeta in E. fold t' in E.
    eapply alone_results; [exact HP| |exact HT']. rewrite app_nil_r. symmetry. exact E. }
  assert (I : (length (bytes_of t) <= 1)%nat).
  { unfold t in *. clear t. induction ins as [|i ins IH] using rev_ind; [cbn; lia|]. rewrite trace_app in *. cbn [trace_from] in *.
    set (t := trace (i2c_writer period stretch oe) ins) in *. rewrite map_app in HT, HS. apply Forall_app in HT. destruct HT as [HT _].
    apply stable_sink_prefix in HS. specialize (IH HS HT).
    rewrite bytes_snoc. fold (state (i2c_writer period stretch oe) ins). set (s := state (i2c_writer period stretch oe) ins) in *.
    destruct i as [k p]. cbn [i2c_writer cout wo_sink wo_ready]. destruct (cvalid k && iw_take s) eqn:E; [|rewrite app_nil_r; exact IH].
    apply andb_true_iff in E. destruct E as [_ E]. unfold iw_take in E. apply andb_true_iff in E. destruct E as [E1 E2].
    destruct (iw_inv_run period stretch oe ins HS) as [_ (K & n & H1 & H2 & _ & H4 & HPh)]. fold t s in H1, H4, HPh.
    unfold iw_ph in HPh. unfold iw_is_write in E2. destruct (iw_f s); try discriminate. destruct HPh as (j & R1 & R2 & R3 & R4 & R5 & _).
    destruct (refused_replay _ _ (Between, 0%nat) _ (L ins HS HT) (conj eq_refl Logic.I) R1) as [[RK Rj] _]. cbn [fst snd] in RK, Rj. subst K j.
    rewrite app_length, H1. cbn [length]. enough (n = 0%nat) by lia.
    unfold iw_use_cache in E1. rewrite R2 in E1. destruct (iw_retry s); [|auto].
    destruct (H4 eq_refl) as [H5 H6]. rewrite H6 in E1. cbn [andb] in E1. apply negb_true_iff in E1. apply Z.leb_gt in E1. lia. }
  split; [exact I|]. intros x Hx. rewrite <- results_commands in Hx. apply in_map_iff in Hx. destruct Hx as ([cm a] & E & Hx). cbn [fst] in E. subst cm.
  destruct (C49_transactions period stretch oe ins HS) as (ph & dn & R & _). fold t in R.
  destruct (refused_replay _ _ (Between, 0%nat) _ (L ins HS HT) (conj eq_refl Logic.I) R) as [_ HF]. rewrite Forall_forall in HF. specialize (HF _ Hx). cbn [fst] in HF. fold t in HF.
  destruct (bytes_of t) as [|y [|z l]]; cbn in HF, I; [discriminate|congruence|lia].
Qed.

(** C172: an I2CRegisterInit with nobody on its bus never says that it is done. *)
Theorem C172_init_nobody : forall addr regs expose period stretch oe ins,
  4 <= period -> regs <> [] ->
  let t := trace (reg_init addr regs expose period stretch oe) ins in
  stable_sink (map user_io t) -> Forall alone (map wo_i2c (map ri_w t)) ->
  Forall (fun o => ri_done o = false) t.
Proof.
  intros addr regs expose period stretch oe ins HP HR t HS HT. apply Forall_forall. intros o Ho. apply in_split in Ho. destruct Ho as (t1 & t2 & H).
  destruct (ri_done o) eqn:D; [|reflexivity]. exfalso.
  rewrite (C77_done addr regs expose period stretch oe ins t1 o t2 HR H) in D.
  pose proof H as E. unfold t in E. apply trace_one in E. destruct E as (a & i & b & _ & Ha & _).
  rewrite H in HS, HT. rewrite !map_app in HS. do 2 rewrite map_app in HT. apply stable_sink_prefix in HS. apply Forall_app in HT. destruct HT as [HT _].
  rewrite <- Ha in HS, HT, D. destruct (C77_transactions addr regs expose period stretch oe a HS) as [HW _].
  pose proof (ri_w_trace addr regs expose period stretch oe a) as E. cbv zeta in E. rewrite E in HW, HT, D.
  destruct (C172_writer_nobody period stretch oe _ HP HW HT) as [L _].
  assert (3 <= length (init_bytes addr regs))%nat; [|lia]. clear - HR. destruct regs as [|[r v] l]; [contradiction|]. cbn. lia.
Qed.

(** Runs on an empty bus: the pad follows what the circuit asks for. *)
Fixpoint alone_run {I O} (c : circuit (I * pads) O) (sda : cst c -> bool) (s : cst c) (l : list I) : list (I * pads) :=
  match l with
  | [] => []
  | x :: r => (x, (sda s, true)) :: alone_run c sda (cnext c s (x, (sda s, true))) r
  end.
Definition aloneb (o : i2c_obs) : bool := Bool.eqb (ii_sda_pad (io_in o)) (io_sda o).
Lemma aloneb_ok l : forallb aloneb l = true -> Forall alone l.
Proof. intros H. apply Forall_forall. intros o Ho. rewrite forallb_forall in H. apply H in Ho. now apply eqb_prop. Qed.
Definition lowb (o : i2c_obs) : bool := negb (ii_sda_pad (io_in o)).
Lemma lowb_ok l : forallb lowb l = true -> Forall stuck_low l.
Proof. intros H. apply Forall_forall. intros o Ho. rewrite forallb_forall in H. apply H in Ho. now apply negb_true_iff. Qed.

Definition script_pr : list (chan Z * bool) :=
  let b x := (Chan true (Beat false false x), true) in let n := (Chan false (Beat false false 0), true) in
  b 0x20 :: b 1 :: repeat (b 0x99) 82 ++ repeat n 60 ++ b 0x21 :: b 3 :: repeat n 200.
Definition pr_alone := alone_run (i2c_proto 4 false true) (fun s => d_sda (s_d (is_i (p_i s)))) (creset (i2c_proto 4 false true)) script_pr.
Example C172_nonvacuous :
  let t := trace (i2c_proto 4 false true) pr_alone in
  good_host t /\ Forall alone (map so_i2c (map po_i2c t)) /\
  commands (map so_i2c (map po_i2c t)) = [CStart; CWrite 0x20; CStop; CStart; CWrite 0x21; CStop] /\
  snd (host_view (map po_io t)) = [Wrote 0x20 [0x99] [status_beat 1]; Asked 0x21 3 [status_beat 1]].
Proof.
  cbv zeta. split; [apply good_hostb_ok; vm_compute; reflexivity|].
  split; [apply aloneb_ok; vm_compute; reflexivity|]. vm_compute. auto.
Qed.

Definition pr_low : list (chan Z * bool * pads) :=
  prb 0x10 false :: prb 1 false :: repeat (prb 0x55 false) 162 ++ repeat (prn false) 60 ++ prb 0x11 false :: prb 2 false :: repeat (prn false) 380.
Example C172_nonvacuous_stuck :
  let t := trace (i2c_proto 4 false true) pr_low in
  good_host t /\ Forall stuck_low (map so_i2c (map po_i2c t)) /\
  map (fun e => match e with Wrote _ _ a | Asked _ _ a => map bdata a end) (snd (host_view (map po_io t))) = [[0]; [0; 0; 0]].
Proof.
  cbv zeta. split; [apply good_hostb_ok; vm_compute; reflexivity|].
  split; [apply lowb_ok; vm_compute; reflexivity|]. vm_compute. auto.
Qed.

Definition wr_alone := alone_run (i2c_writer 4 false true) (fun s => d_sda (s_d (iw_i s))) (creset (i2c_writer 4 false true))
  (repeat (Chan true (Beat false false 0x10)) 300).
Example C172_nonvacuous_writer :
  let t := trace (i2c_writer 4 false true) wr_alone in
  stable_sink (map wo_io t) /\ Forall alone (map wo_i2c t) /\ bytes_of t = [0x10] /\
  firstn 6 (commands (map wo_i2c t)) = [CStart; CWrite 0x10; CStop; CStart; CWrite 0x10; CStop].
Proof.
  cbv zeta. split; [apply stable_sinkb_ok; vm_compute; reflexivity|].
  split; [apply aloneb_ok; vm_compute; reflexivity|]. vm_compute. auto.
Qed.

Definition init_alone := alone_run (reg_init 0x3c [(1, 0x23)] false 4 false true) (fun s => d_sda (s_d (iw_i (rs_w _ _ _ _ _ s))))
  (creset (reg_init 0x3c [(1, 0x23)] false 4 false true)) (repeat (Chan false (Beat false false 0)) 300).
Example C172_nonvacuous_init :
  let t := trace (reg_init 0x3c [(1, 0x23)] false 4 false true) init_alone in
  stable_sink (map user_io t) /\ Forall alone (map wo_i2c (map ri_w t)) /\
  firstn 6 (commands (map wo_i2c (map ri_w t))) = [CStart; CWrite 0x78; CStop; CStart; CWrite 0x78; CStop].
Proof.
  cbv zeta. split; [apply stable_sinkb_ok; vm_compute; reflexivity|].
  split; [apply aloneb_ok; vm_compute; reflexivity|]. vm_compute. auto.
Qed.

Print Assumptions C172_init_nobody.
Print Assumptions C172_samples.
Print Assumptions C172_nobody.
Print Assumptions C172_stuck.
Print Assumptions C172_stream_nobody.
Print Assumptions C172_stream_stuck.
Print Assumptions C172_proto_nobody.
Print Assumptions C172_proto_stuck.
Print Assumptions C172_discover.
Print Assumptions C172_writer_nobody.
