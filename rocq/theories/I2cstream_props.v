(** Properties of I2CStream (C47, C48). *)
From Verif Require Import Stream I2c_model I2c_spec I2c_proofs I2c_props I2cstream_model I2cstream_spec I2cstream_proofs.
From Coq Require Import Lia.

(** C47: for every execution in which the sink obeys the stream rule, the commands
    carried out so far are exactly those of the beats served so far, except for what
    is under way: the stop of the last beat may not be done yet, or the start or the
    write of the beat now on offer may already be. *)
Theorem C47_commands : forall period stretch oe ins t1 o t2,
  trace (i2c_stream period stretch oe) ins = t1 ++ o :: t2 ->
  stable_sink (map so_io (t1 ++ o :: t2)) ->
  let done := commands (map so_i2c t1) in
  let wanted := expected false (served t1) in
  let start := if bus_open false (served t1) then [] else [CStart] in
  done ++ [CStop] = wanted \/ done = wanted \/ done = wanted ++ start \/
  exists x, done = wanted ++ start ++ [CWrite x] /\
    cvalid (o_sink (so_io o)) = true /\ bdata (cbeat (o_sink (so_io o))) = (false, x).
Proof.
  intros period stretch oe ins t1 o t2 H HS. pose proof H as HT. apply trace_one in H. destruct H as (a & i & b & -> & <- & ->).
  assert (HS1 : stable_sink (map so_io (trace (i2c_stream period stretch oe) a ++ [cout (i2c_stream period stretch oe) (state (i2c_stream period stretch oe) a) i]))).
  { apply stable_sink_prefix with (u := map so_io t2). rewrite <- map_app, <- app_assoc. exact HS. }
  assert (HS2 : stable_sink (map so_io (trace (i2c_stream period stretch oe) a))).
  { rewrite map_app in HS1. eapply stable_sink_prefix; eauto. }
  destruct (ist_inv_run period stretch oe a HS2) as [_ HI]. cbv zeta in *. unfold start_if in HI.
  set (s := state (i2c_stream period stretch oe) a) in *. set (t := trace (i2c_stream period stretch oe) a) in *.
  destruct (is_f s); try tauto.
  - destruct HI as [HI1 HI2]. rewrite HI2. auto.
  - destruct HI as (d & HI1 & HI2). right. right. right. exists d. split; [exact HI1|].
    destruct (pending_keep t d (is_last s) _ HS1 HI2) as (A & B & _). auto.
  - destruct HI as (HI1 & _ & _). destruct (is_last s); [auto|]. rewrite app_nil_r in HI1. auto.
Qed.

(** C47, the bus side of a served write: when a write beat is taken, its octet has
    just been put on the bus, most significant bit first, in nine clocks without any
    start or stop condition, and error tells whether SDA was seen high (refused) in
    the ninth. *)
Theorem C47_write_on_bus : forall period stretch oe ins t1 o t2 x,
  4 <= period ->
  trace (i2c_stream period stretch oe) ins = t1 ++ o :: t2 ->
  stable_sink (map so_io (t1 ++ o :: t2)) ->
  cvalid (o_sink (so_io o)) = true -> o_sready (so_io o) = true -> bdata (cbeat (o_sink (so_io o))) = (false, x) ->
  let m := monitored stretch (map so_i2c t1) in
  m_rises m = msb_first x ++ [true] /\ m_falls m = 9 /\ m_conds m = [] /\ length (m_samples m) = 9%nat /\
  so_error o = nth 8 (m_samples m) false.
Proof.
  intros period stretch oe ins t1 o t2 x HP H HS HV HR HD m. pose proof H as HT. apply trace_one in H. destruct H as (a & [[k r] p] & b & -> & Ha & Ho).
  assert (HS2 : stable_sink (map so_io t1)) by (rewrite map_app in HS; eapply stable_sink_prefix; eauto).
  rewrite <- Ha in HS2. destruct (ist_inv_run period stretch oe a HS2) as [[HB HRi] HI]. rewrite Ha in *. cbv zeta in HI.
  assert (HS1 : stable_sink (map so_io (t1 ++ [o]))).
  { apply stable_sink_prefix with (u := map so_io t2). rewrite <- map_app, <- app_assoc. exact HS. }
  set (s := state (i2c_stream period stretch oe) a) in *.
  rewrite Ho in HV, HR, HD. cbn [i2c_stream cout so_io o_sink o_sready] in HV, HR, HD.
  unfold ist_rdy, ist_rd, ist_is in HR. rewrite HV, HD in HR. cbn [fst andb] in HR. rewrite andb_false_r in HR. cbn [orb] in HR.
  destruct (is_f s) eqn:F; try discriminate HR. cbn [andb] in HR.
  destruct HI as (d & HI1 & HI2). destruct (pending_keep t1 d (is_last s) o HS1 HI2) as (_ & B & _).
  rewrite Ho in B. cbn [i2c_stream cout so_io o_sink] in B. rewrite HD in B. injection B as <-.
  assert (HL : last_cmd (map so_i2c t1) = Some (CWrite x)).
  { rewrite last_cmd_commands, HI1, !app_assoc, map_app. cbn [map]. apply last_last. }
  destruct (ist_sub period stretch oe (a ++ (k, r, p) :: b)) as [HSub _]. rewrite HT, map_app in HSub. cbn [map] in HSub. symmetry in HSub.
  assert (HBusy : io_busy (so_i2c o) = false).
  { rewrite Ho. cbn. unfold ist_idle in HR. apply negb_true_iff in HR. exact HR. }
  destruct (C43_write period stretch oe _ _ _ _ x HP HSub HBusy HL) as (A1 & A2 & A3 & A4 & A5 & _). fold m in A1, A2, A3, A4, A5.
  repeat (split; auto).
  assert (EE : so_error o = negb (io_ack (so_i2c o))).
  { rewrite Ho. cbn. unfold ist_err, ist_is. fold s. rewrite F, HR. reflexivity. }
  rewrite EE, A5. apply negb_involutive.
Qed.

(** C47: error is raised only in a cycle that serves a write. *)
Theorem C47_error_only_on_write : forall period stretch oe ins t1 o t2,
  trace (i2c_stream period stretch oe) ins = t1 ++ o :: t2 ->
  stable_sink (map so_io (t1 ++ o :: t2)) ->
  so_error o = true ->
  cvalid (o_sink (so_io o)) = true /\ o_sready (so_io o) = true /\ fst (bdata (cbeat (o_sink (so_io o)))) = false /\
  io_ack (so_i2c o) = false.
Proof.
  intros period stretch oe ins t1 o t2 H HS HE. pose proof H as HT. apply trace_one in H. destruct H as (a & [[k r] p] & b & -> & Ha & Ho).
  assert (HS2 : stable_sink (map so_io t1)) by (rewrite map_app in HS; eapply stable_sink_prefix; eauto).
  rewrite <- Ha in HS2. destruct (ist_inv_run period stretch oe a HS2) as [[HB HRi] HI]. rewrite Ha in *. cbv zeta in HI.
  assert (HS1 : stable_sink (map so_io (t1 ++ [o]))).
  { apply stable_sink_prefix with (u := map so_io t2). rewrite <- map_app, <- app_assoc. exact HS. }
  set (s := state (i2c_stream period stretch oe) a) in *.
  rewrite Ho in HE. cbn [i2c_stream cout so_error] in HE. unfold ist_err, ist_is in HE. destruct (is_f s) eqn:F; try discriminate. cbn [andb] in HE.
  apply andb_true_iff in HE. destruct HE as [HE1 HE2].
  destruct HI as (d & HI1 & HI2). destruct (pending_keep t1 d (is_last s) o HS1 HI2) as (A & B & _). rewrite A, B. repeat split.
  - rewrite Ho. cbn. unfold ist_rdy, ist_is. fold s. rewrite F, HE1. apply orb_true_r.
  - rewrite Ho. cbn. apply negb_true_iff in HE2. exact HE2.
Qed.

Definition reads (l : list (beat (bool * Z))) : list (beat (bool * Z)) := filter (fun b => fst (bdata b)) l.

Lemma reads_inv period stretch oe ins :
  stable_sink (map so_io (trace (i2c_stream period stretch oe) ins)) ->
  ist_inv (trace (i2c_stream period stretch oe) ins) (state (i2c_stream period stretch oe) ins) /\
  map blast (reads (accepted (map so_io (trace (i2c_stream period stretch oe) ins)))) =
  map blast (emitted (map so_io (trace (i2c_stream period stretch oe) ins))) ++
  (let s := state (i2c_stream period stretch oe) ins in if ist_is s IsWRead then [is_last s] else []).
Proof.
  set (c := i2c_stream period stretch oe).
  apply (run_inv_hyp c (fun t => stable_sink (map so_io t)) (fun t s => ist_inv t s /\
     map blast (reads (accepted (map so_io t))) = map blast (emitted (map so_io t)) ++ (if ist_is s IsWRead then [is_last s] else []))).
  - intros t u H. rewrite map_app in H. eapply stable_sink_prefix; eauto.
  - split; [|reflexivity]. split; [split; cbn; auto|]. cbn. auto.
  - intros t s [[k r] p] HS [HI IH]. split; [now apply ist_inv_step|].
    rewrite !map_app. cbn [map]. rewrite accepted_app, emitted_app. unfold reads in *. rewrite filter_app, !map_app, IH, accepted_1, emitted_1.
    destruct HI as [_ HI]. cbv zeta in HI. destruct s as [f l i].
    assert (NP := fun d l => pending_keep t d l _ HS).
    cbn [c i2c_stream cout cnext so_io o_sink o_sready o_src o_rready ist_next is_f is_last] in *.
    unfold ist_is, ist_src, ist_rdy, ist_next in *. cbn [is_f is_last is_i] in *. unfold ist_fnext, ist_idle, ist_rd, ist_wr, ist_is in *. cbn [is_f is_last is_i] in *.
    destruct f; cbn [andb orb cvalid xfer] in *; unfold xfer; cbn [cvalid andb]; rewrite ?andb_false_r; cbn [filter map].
    + destruct (negb (s_busy i)), (cvalid k); cbn; rewrite ?app_nil_r; reflexivity.
    + cbn; rewrite ?app_nil_r; reflexivity.
    + destruct (negb (s_busy i)); cbn; rewrite ?app_nil_r; reflexivity.
    + destruct (cvalid k); cbn; rewrite ?app_nil_r; auto. destruct (fst (bdata (cbeat k))) eqn:RW; cbn; rewrite ?RW; cbn; rewrite ?app_nil_r; auto.
    + destruct HI as (d & HI1 & HI2). destruct (NP d l HI2) as (V & D & L). rewrite V. destruct (negb (s_busy i)); cbn; rewrite ?app_nil_r; auto.
      rewrite D. cbn. rewrite app_nil_r. destruct (d_acko (s_d i)), l; cbn; rewrite ?app_nil_r; auto.
    + destruct (negb (s_busy i)); cbn; rewrite ?app_nil_r; auto. destruct r, l; cbn; rewrite ?app_nil_r; auto.
    + cbn; rewrite ?app_nil_r; reflexivity.
    + destruct (negb (s_busy i)); cbn; rewrite ?app_nil_r; reflexivity.
Qed.

(** C48: each read beat taken gives exactly one source beat, in order and with its
    last flag; at most one is still to come, and while one is, no further beat is
    taken.  Writes give none. *)
Theorem C48_one_word_per_read : forall period stretch oe ins t1 o t2,
  trace (i2c_stream period stretch oe) ins = t1 ++ o :: t2 ->
  stable_sink (map so_io (t1 ++ o :: t2)) ->
  exists rest,
    map blast (reads (accepted (map so_io t1))) = map blast (emitted (map so_io t1)) ++ rest /\
    (rest = [] /\ cvalid (o_src (so_io o)) = false \/
     exists l, rest = [l] /\ o_sready (so_io o) = false /\
       (cvalid (o_src (so_io o)) = true -> blast (cbeat (o_src (so_io o))) = l)).
Proof.
  intros period stretch oe ins t1 o t2 H HS. apply trace_one in H. destruct H as (a & [[k r] p] & b & -> & <- & ->).
  assert (HS2 : stable_sink (map so_io (trace (i2c_stream period stretch oe) a))) by (rewrite map_app in HS; eapply stable_sink_prefix; eauto).
  destruct (reads_inv period stretch oe a HS2) as [_ HR]. cbv zeta in HR. eexists. split; [exact HR|].
  set (s := state (i2c_stream period stretch oe) a) in *. cbn [i2c_stream cout so_io o_src o_sready].
  unfold ist_src, ist_rdy, ist_rd, ist_is. destruct (is_f s); cbn; auto.
  right. exists (is_last s). split; auto. split; auto. destruct (ist_idle s); cbn; intros; [reflexivity|discriminate].
Qed.

(** C48: the word delivered is what was seen on SDA in the eight clocks before, most
    significant bit first, with SDA released; then the master acknowledges unless
    the read was the last one. *)
Theorem C48_read_on_bus : forall period stretch oe ins t1 o t2,
  4 <= period ->
  trace (i2c_stream period stretch oe) ins = t1 ++ o :: t2 ->
  stable_sink (map so_io (t1 ++ o :: t2)) ->
  cvalid (o_src (so_io o)) = true ->
  let m := monitored stretch (map so_i2c t1) in
  m_rises m = repeat true 8 ++ [blast (cbeat (o_src (so_io o)))] /\ m_falls m = 9 /\ m_conds m = [] /\
  length (m_samples m) = 9%nat /\ bdata (cbeat (o_src (so_io o))) = from_msb (firstn 8 (m_samples m)) 0.
Proof.
  intros period stretch oe ins t1 o t2 HP H HS HV m. pose proof H as HT. apply trace_one in H. destruct H as (a & [[k r] p] & b & -> & Ha & Ho).
  assert (HS2 : stable_sink (map so_io t1)) by (rewrite map_app in HS; eapply stable_sink_prefix; eauto).
  rewrite <- Ha in HS2. destruct (ist_inv_run period stretch oe a HS2) as [_ HI]. rewrite Ha in *. cbv zeta in HI.
  set (s := state (i2c_stream period stretch oe) a) in *.
  assert (ES : o_src (so_io o) = ist_src s) by (rewrite Ho; reflexivity). rewrite ES in HV |- *.
  unfold ist_src, ist_is in *. destruct (is_f s) eqn:F; try discriminate HV. cbn [andb] in *.
  destruct (ist_idle s) eqn:HId; [|discriminate HV]. cbn [cbeat blast bdata].
  destruct HI as (_ & _ & C0 & HC).
  assert (HL : last_cmd (map so_i2c t1) = Some (CRead (negb (is_last s)))).
  { rewrite last_cmd_commands, HC, map_app. cbn [map]. apply last_last. }
  destruct (ist_sub period stretch oe (a ++ (k, r, p) :: b)) as [HSub _]. rewrite HT, map_app in HSub. cbn [map] in HSub. symmetry in HSub.
  assert (HBusy : io_busy (so_i2c o) = false).
  { rewrite Ho. cbn. unfold ist_idle in HId. apply negb_true_iff in HId. exact HId. }
  destruct (C44_read period stretch oe _ _ _ _ _ HP HSub HBusy HL) as (A1 & A2 & A3 & A4 & A5 & _). fold m in A1, A2, A3, A4, A5.
  rewrite negb_involutive in A1. repeat (split; auto).
  rewrite <- A5, Ho. reflexivity.
Qed.

(** C48: a word offered and not taken stays on offer. *)
Theorem C48_stable : forall period stretch oe ins, stable_src (map so_io (trace (i2c_stream period stretch oe) ins)).
Proof.
  intros period stretch oe ins t1 o o' t2 H HV HR.
  apply map_eq_app in H. destruct H as (u1 & u2 & H & <- & H2). destruct u2 as [|q [|q' u2]]; try discriminate. injection H2 as <- <- <-.
  apply trace_two in H. destruct H as (a & [[k r] p] & [[k' r'] p'] & b & -> & <- & -> & ->).
  destruct (ist_rdy_run period stretch oe a) as [HB _]. set (s := state (i2c_stream period stretch oe) a) in *.
  cbn [i2c_stream cout cnext so_io o_src o_rready] in *. subst r.
  unfold ist_src, ist_is in *. destruct s as [f l i]. cbn [is_f is_i is_last ist_next] in *.
  destruct f; try discriminate HV. unfold ist_fnext, ist_idle in *. cbn [is_f is_i is_last] in *. cbn [andb] in *.
  destruct (s_busy i) eqn:B; [discriminate HV|]. cbn [negb andb].
  destruct (idle_quiet period stretch oe i (ist_in (Ist IsWRead l i) k p)) as (A1 & A2 & A3); [apply idle_f; auto; intros X; specialize (HB X); congruence|reflexivity|].
  unfold ist_next, ist_fnext, ist_idle. cbn [is_f is_i is_last]. rewrite ?B. cbn [negb andb is_f is_i is_last]. rewrite A2, A3. reflexivity.
Qed.

(** A transaction: write 0xA0, then read twice (acked, then not), on a bus that pulls
    SDA low all the time; then a refused write. *)
Definition ist_in_wr (x : Z) (l : bool) : chan (bool * Z) * bool * pads := (Chan true (Beat false l (false, x)), true, (false, true)).
Definition ist_in_rd (l : bool) : chan (bool * Z) * bool * pads := (Chan true (Beat false l (true, 0)), true, (false, true)).
Definition ist_in_no (sda : bool) : chan (bool * Z) * bool * pads := (Chan false (Beat false false (false, 0)), true, (sda, true)).

(** A checker for concrete runs. *)
Fixpoint stable_sinkb2 {B} (t : list (obs (bool * Z) B)) : bool :=
  match t with
  | o :: (o' :: _) as r =>
      let a := o_sink o in let b := o_sink o' in
      (if cvalid a && negb (o_sready o) then
         cvalid b && Bool.eqb (bfirst (cbeat a)) (bfirst (cbeat b)) && Bool.eqb (blast (cbeat a)) (blast (cbeat b)) &&
         Bool.eqb (fst (bdata (cbeat a))) (fst (bdata (cbeat b))) && (snd (bdata (cbeat a)) =? snd (bdata (cbeat b)))
       else true)
      && match t with [] => true | _ :: r => stable_sinkb2 r end
  | _ => true
  end.
Lemma stable_sinkb2_ok {B} (t : list (obs (bool * Z) B)) : stable_sinkb2 t = true -> stable_sink t.
Proof.
  induction t as [|o t IH]; intros H t1 p p' t2 E Hv Hr; [destruct t1; discriminate|].
  destruct t1 as [|q t1].
  - injection E as -> ->. cbn [stable_sinkb2] in H. rewrite Hv, Hr in H. cbn [negb andb] in H. apply andb_prop in H. destruct H as [H _].
    destruct (o_sink p) as [v [f l [x d]]], (o_sink p') as [v' [f' l' [x' d']]]. cbn in *. subst v.
    rewrite !andb_true_iff, !Bool.eqb_true_iff, Z.eqb_eq in H. destruct H as ((((-> & ->) & ->) & ->) & ->). reflexivity.
  - injection E as -> E. eapply IH; eauto. destruct t as [|o' t]; [reflexivity|]. cbn [stable_sinkb2] in H. apply andb_prop in H. apply H.
Qed.
Definition ist_run := repeat (ist_in_wr 0xA0 false) 88 ++ [ist_in_rd false] ++ repeat (ist_in_rd true) 75 ++ repeat (ist_in_no false) 120 ++
    repeat (Chan true (Beat false false (false, 0x33)), true, (true, true)) 87 ++ repeat (ist_in_no true) 20.
Example C47_nonvacuous :
  let t := trace (i2c_stream 4 false true) ist_run in
  stable_sink (map so_io t) /\
  commands (map so_i2c t) = [CStart; CWrite 0xA0; CRead true; CRead false; CStop; CStart; CWrite 0x33; CStop] /\
  map (fun x => (fst (bdata (fst x)), blast (fst x), snd x)) (served t) =
    [(false, false, false); (true, false, false); (true, true, false); (false, false, true)] /\
  map bdata (emitted (map so_io t)) = [0; 0].
Proof. cbv zeta. split; [apply stable_sinkb2_ok; vm_compute; reflexivity|]. vm_compute. repeat split; reflexivity. Qed.
(** In it: the cycle in which the byte 0xA0 is taken, and that in which the refusal of 0x33 is seen. *)
Example C47_nonvacuous_write : exists t1 o t2 t1' o' t2',
  let t := trace (i2c_stream 4 false true) ist_run in
  t = t1 ++ o :: t2 /\ cvalid (o_sink (so_io o)) = true /\ o_sready (so_io o) = true /\ bdata (cbeat (o_sink (so_io o))) = (false, 0xA0) /\ so_error o = false /\
  t = t1' ++ o' :: t2' /\ so_error o' = true.
Proof.
  set (t := trace _ _). exists (firstn 87 t). eexists _, (skipn 88 t), (firstn 370 t), _, (skipn 371 t). cbv zeta.
  split; [vm_compute; reflexivity|]. split; [reflexivity|]. split; [vm_compute; reflexivity|]. split; [reflexivity|]. split; [vm_compute; reflexivity|].
  split; [vm_compute; reflexivity|vm_compute; reflexivity].
Qed.
(** The two reads of it give two words, the first in the cycle shown. *)
Example C48_nonvacuous : exists t1 o t2,
  let t := trace (i2c_stream 4 false true) ist_run in
  stable_sink (map so_io t) /\ map blast (reads (accepted (map so_io t))) = [false; true] /\
  map (fun b => (blast b, bdata b)) (emitted (map so_io t)) = [(false, 0); (true, 0)] /\
  t = t1 ++ o :: t2 /\ cvalid (o_src (so_io o)) = true.
Proof.
  set (t := trace _ _). exists (firstn 162 t). eexists _, (skipn 163 t). cbv zeta.
  split; [apply stable_sinkb2_ok; vm_compute; reflexivity|]. split; [vm_compute; reflexivity|]. split; [vm_compute; reflexivity|].
  split; vm_compute; reflexivity.
Qed.

(** C47: a start is only made for a beat on offer, and not yet taken, in the cycle before. *)
Theorem C47_start_offered : forall period stretch oe ins t1 o o' t2,
  trace (i2c_stream period stretch oe) ins = t1 ++ o :: o' :: t2 ->
  io_cmd (so_i2c o') = Some CStart -> cvalid (o_sink (so_io o)) = true /\ o_sready (so_io o) = false.
Proof.
  intros period stretch oe ins t1 o o' t2 H. apply trace_two in H. destruct H as (a & [[k r] p] & [[k' r'] p'] & b & -> & <- & -> & ->).
  set (s := state _ a). clearbody s. cbn [i2c_stream cout cnext so_i2c so_io o_sink o_sready i2c_initiator io_cmd]. set (n := ist_next period stretch oe s k r p).
  unfold cmd_taken. destruct (s_f (is_i n)); try discriminate. unfold ist_in. cbn [ii_start ii_stop ii_write ii_read ii_data ii_ack].
  assert (E : ist_is n IsStart = true -> cvalid k = true /\ ist_rdy s k = false).
  { unfold n, ist_next, ist_is. cbn [is_f]. unfold ist_fnext, ist_rdy, ist_rd, ist_wr, ist_is. destruct (is_f s); cbn [andb orb].
    - destruct (ist_idle s), (cvalid k); cbn; auto; discriminate.
    - discriminate.
    - destruct (ist_idle s); discriminate.
    - destruct (cvalid k && fst (bdata (cbeat k))); [discriminate|]. destruct (cvalid k && _); discriminate.
    - destruct (ist_idle s); [|discriminate]. destruct (negb _); [discriminate|]. destruct (is_last s); discriminate.
    - destruct (ist_idle s && r); [|discriminate]. destruct (is_last s); discriminate.
    - discriminate.
    - destruct (ist_idle s); discriminate. }
  destruct (ist_is n IsStart) eqn:S; [intros _; apply E; reflexivity|].
  destruct (ist_is n IsStop); [discriminate|]. destruct (ist_wr n k'); [discriminate|]. destruct (ist_rd n k'); discriminate.
Qed.

(** C48: the words delivered are never marked first. *)
Theorem C48_not_first : forall period stretch oe ins,
  Forall (fun o => bfirst (cbeat (o_src (so_io o))) = false) (trace (i2c_stream period stretch oe) ins).
Proof.
  intros period stretch oe ins. apply Forall_forall. intros o Ho. apply in_split in Ho. destruct Ho as (t1 & t2 & H).
  apply trace_one in H. destruct H as (a & [[k r] p] & b & _ & _ & ->). cbn [i2c_stream cout so_io o_src]. unfold ist_src. destruct (_ && _); reflexivity.
Qed.

Print Assumptions C47_commands.
Print Assumptions C47_write_on_bus.
Print Assumptions C47_error_only_on_write.
Print Assumptions C48_one_word_per_read.
Print Assumptions C48_read_on_bus.
Print Assumptions C48_stable.
Print Assumptions C47_start_offered.
Print Assumptions C48_not_first.
