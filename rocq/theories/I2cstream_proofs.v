(** Proofs about I2CStream. *)
From Verif Require Import Stream I2c_model I2c_spec I2c_proofs I2c_props I2cstream_model I2cstream_spec.
From Coq Require Import Lia.

Lemma cons_inv {A} (a b : A) l m : a :: l = b :: m -> a = b /\ l = m.
Proof. intros H. injection H as H1 H2. auto. Qed.

(** A circuit containing another one (whose observations show its inputs) runs it like a lone one. *)
Lemma part_trace {I O I2 O2} (c : circuit I O) (d : circuit I2 O2) (back : O2 -> I2)
  (proj : cst c -> cst d) (inp : cst c -> I -> I2) (op : O -> O2) :
  (forall s i, back (cout d s i) = i) ->
  proj (creset c) = creset d ->
  (forall s i, proj (cnext c s i) = cnext d (proj s) (inp s i)) ->
  (forall s i, op (cout c s i) = cout d (proj s) (inp s i)) ->
  forall ins,
    map op (trace c ins) = trace d (map back (map op (trace c ins))) /\
    proj (state c ins) = state d (map back (map op (trace c ins))).
Proof.
  intros Hin H0 Hn Ho ins.
  apply (run_inv c (fun t s => map op t = trace d (map back (map op t)) /\ proj s = state d (map back (map op t)))).
  - split; auto.
  - intros t s i [IH1 IH2]. rewrite !map_app. cbn [map]. rewrite trace_app. unfold state in *. rewrite state_from_app.
    rewrite Ho, Hin, Hn. fold (state d (map back (map op t))) in *. rewrite <- IH2. cbn [trace_from state_from]. split; auto.
    now rewrite <- IH1.
Qed.

(** The same for the I2CInitiator. *)
Lemma sub_trace {I O} (c : circuit I O) (d : circuit i2c_in i2c_obs)
  (proj : cst c -> cst d) (inp : cst c -> I -> i2c_in) (op : O -> i2c_obs) :
  (forall s i, io_in (cout d s i) = i) ->
  proj (creset c) = creset d ->
  (forall s i, proj (cnext c s i) = cnext d (proj s) (inp s i)) ->
  (forall s i, op (cout c s i) = cout d (proj s) (inp s i)) ->
  forall ins,
    map op (trace c ins) = trace d (map io_in (map op (trace c ins))) /\
    proj (state c ins) = state d (map io_in (map op (trace c ins))).
Proof. apply (part_trace c d io_in). Qed.

Lemma commands_snoc t o : commands (t ++ [o]) = commands t ++ match io_cmd o with Some c => [c] | None => [] end.
Proof. unfold commands. rewrite flat_map_app. cbn. now rewrite app_nil_r. Qed.

Lemma last_cmd_commands t : last_cmd t = last (map Some (commands t)) None.
Proof.
  induction t as [|o t IH] using rev_ind; [reflexivity|]. rewrite last_cmd_snoc, commands_snoc, map_app.
  destruct (io_cmd o); cbn [map]; [now rewrite last_last|now rewrite app_nil_r].
Qed.

Lemma expected_snoc op l x : expected op (l ++ [x]) = expected op l ++ expected (bus_open op l) [x].
Proof.
  revert op. induction l as [|y l IH]; intros op; [reflexivity|]. cbn [app expected bus_open]. rewrite IH.
  rewrite <- !app_assoc. cbn [app]. rewrite <- !app_assoc. reflexivity.
Qed.

Lemma bus_open_snoc op l x : bus_open op (l ++ [x]) = negb (closes x).
Proof. revert op. induction l as [|y l IH]; intros op; [reflexivity|]. cbn. apply IH. Qed.

Lemma served_snoc t o : served (t ++ [o]) = served t ++ map (fun b => (b, so_error o)) (xfer (o_sink (so_io o)) (o_sready (so_io o))).
Proof. unfold served. rewrite flat_map_app. cbn. now rewrite app_nil_r. Qed.

Section Quiet.
  Context (period : Z) (stretch oe : bool).
  Lemma idle_quiet s i : s_f s = Idle -> strobed i = false ->
    let s' := i2c_next period stretch oe s i in s_f s' = Idle /\ s_busy s' = false /\ s_d s' = s_d s.
  Proof.
    intros F HS. unfold i2c_next, fsm_next, busy_next, cmd_taken. rewrite F. unfold strobed in HS.
    destruct (ii_start i), (ii_stop i), (ii_write i), (ii_read i); try discriminate. cbn. auto.
  Qed.
  Lemma quiet_cmd s i : strobed i = false -> cmd_taken s i = None.
  Proof.
    intros HS. unfold cmd_taken. unfold strobed in HS.
    destruct (s_f s), (ii_start i), (ii_stop i), (ii_write i), (ii_read i); try discriminate; reflexivity.
  Qed.
End Quiet.

Section IStreamProofs.
  Context (period : Z) (stretch oe : bool).
  Let c := i2c_stream period stretch oe.

  Lemma ist_sub ins :
    map so_i2c (trace c ins) = trace (i2c_initiator period stretch oe) (map io_in (map so_i2c (trace c ins))) /\
    is_i (state c ins) = state (i2c_initiator period stretch oe) (map io_in (map so_i2c (trace c ins))).
  Proof.
    apply (sub_trace c (i2c_initiator period stretch oe) is_i (fun s '(k, r, p) => ist_in s k p) so_i2c); auto;
    intros s [[k r] p]; reflexivity.
  Qed.

  Lemma ist_busy ins : s_f (is_i (state c ins)) <> Idle -> s_busy (is_i (state c ins)) = true.
  Proof. destruct (ist_sub ins) as [_ ->]. apply busy_run. Qed.

  Definition ist_rdy_i (s : ist_state) : Prop :=
    (s_f (is_i s) <> Idle -> s_busy (is_i s) = true) /\
    match is_f s with
    | IsStart | IsXfer | IsStop => s_f (is_i s) = Idle /\ s_busy (is_i s) = false
    | _ => True
    end.

  Lemma idle_f i : (s_f i <> Idle -> s_busy i = true) -> s_busy i = false -> s_f i = Idle.
  Proof. intros H HB. destruct (s_f i); auto; rewrite H in HB by discriminate; discriminate. Qed.

  Lemma ist_rdy_i_step s k r p : ist_rdy_i s -> ist_rdy_i (ist_next period stretch oe s k r p).
  Proof.
    intros [H1 H2]. split; [cbn [ist_next is_i]; now apply busy_next_true|].
    destruct s as [f l i]. cbn [is_f is_i ist_next] in *. unfold ist_fnext, ist_in, ist_idle, ist_rd, ist_wr, ist_is. cbn [is_f is_i is_last].
    assert (Q : forall n, strobed n = false -> s_busy i = false -> s_f (i2c_next period stretch oe i n) = Idle /\ s_busy (i2c_next period stretch oe i n) = false).
    { intros n Hn HB. pose proof (idle_f i H1 HB) as HF. destruct (idle_quiet period stretch oe i n HF Hn) as (A & B & _). auto. }
    destruct f; auto; cbn [andb].
    - destruct (s_busy i) eqn:B; cbn; auto. destruct (cvalid k); auto.
    - destruct (s_busy i) eqn:B; cbn; auto.
    - destruct H2 as [H2 H3]. destruct (cvalid k); cbn; [destruct (fst (bdata (cbeat k))); cbn; auto|]. apply Q; auto.
    - destruct (s_busy i) eqn:B; cbn; auto. destruct (d_acko (s_d i)), l; cbn; auto.
    - destruct (s_busy i) eqn:B; cbn; auto. destruct r, l; cbn; auto.
    - destruct (s_busy i) eqn:B; cbn; auto.
  Qed.

  Lemma ist_rdy_run ins : ist_rdy_i (state c ins).
  Proof.
    apply (state_inv c ist_rdy_i); [split; cbn; auto|]. intros s [[k r] p]. apply ist_rdy_i_step.
  Qed.

  Definition start_if (op : bool) : list i2c_cmd := if op then [] else [CStart].

  (** The last cycle offered a write of [d] and did not take it. *)
  Definition pending (t : list ist_obs) (d : Z) (l : bool) : Prop :=
    exists t0 o, t = t0 ++ [o] /\ cvalid (o_sink (so_io o)) = true /\ o_sready (so_io o) = false /\
      bdata (cbeat (o_sink (so_io o))) = (false, d) /\ blast (cbeat (o_sink (so_io o))) = l.

  Definition ist_inv (t : list ist_obs) (s : ist_state) : Prop :=
    ist_rdy_i s /\
    let E := expected false (served t) in let C := commands (map so_i2c t) in let op := bus_open false (served t) in
    match is_f s with
    | IsIdle | IsStart | IsWStop => C = E /\ op = false
    | IsWStart => C = E ++ [CStart] /\ op = false
    | IsXfer => C = E ++ start_if op
    | IsWWrite => exists d, C = E ++ start_if op ++ [CWrite d] /\ pending t d (is_last s)
    | IsWRead => C ++ (if is_last s then [CStop] else []) = E /\ op = negb (is_last s) /\ exists C0, C = C0 ++ [CRead (negb (is_last s))]
    | IsStop => C ++ [CStop] = E /\ op = false
    end.

  Lemma pending_keep t d l o : stable_sink (map so_io (t ++ [o])) -> pending t d l ->
    cvalid (o_sink (so_io o)) = true /\ bdata (cbeat (o_sink (so_io o))) = (false, d) /\ blast (cbeat (o_sink (so_io o))) = l.
  Proof.
    intros HS (t0 & o' & -> & H1 & H2 & H3 & H4). rewrite <- app_assoc in HS. rewrite map_app in HS. cbn [app map] in HS.
    pose proof (stable_sink_last _ _ _ HS H1 H2) as E. rewrite E. auto.
  Qed.

  Lemma ist_inv_step t s k r p : stable_sink (map so_io (t ++ [cout c s (k, r, p)])) -> ist_inv t s ->
    ist_inv (t ++ [cout c s (k, r, p)]) (cnext c s (k, r, p)).
  Proof.
    intros HS [HR IH].
      assert (NP := fun d l => pending_keep t d l _ HS).
      split; [apply ist_rdy_i_step; auto|]. destruct HR as [HB HI]. cbv zeta in *.
      rewrite map_app. cbn [map]. rewrite commands_snoc, served_snoc.
      destruct s as [f l i]. cbn [c i2c_stream cout cnext so_io so_i2c so_error o_sink o_sready io_cmd i2c_initiator ist_next is_f is_i is_last] in *.
      set (E := expected false (served t)) in *. set (C := commands (map so_i2c t)) in *. set (op := bus_open false (served t)) in *.
      unfold ist_fnext, ist_rdy, ist_err, ist_idle, ist_in, ist_rd, ist_wr, ist_is in *. cbn [is_f is_i is_last andb orb] in *.
      destruct f; cbn [andb orb] in *.
      + rewrite quiet_cmd by reflexivity. unfold xfer. rewrite andb_false_r. cbn [map]. rewrite !app_nil_r. fold E op.
        destruct (negb (s_busy i)), (cvalid k); cbn; auto.
      + unfold xfer. rewrite andb_false_r. cbn [map]. rewrite !app_nil_r. fold E op. destruct HI as [F B].
        unfold cmd_taken. rewrite F. cbn. destruct IH as [-> ->]. auto.
      + rewrite quiet_cmd by reflexivity. unfold xfer. rewrite andb_false_r. cbn [map]. rewrite !app_nil_r. fold E op.
        destruct (negb (s_busy i)); cbn; auto. destruct IH as [-> ->]. reflexivity.
      + destruct HI as [F B]. unfold cmd_taken. rewrite F. destruct (cvalid k) eqn:V; cbn [andb].
        2: { cbn. unfold xfer. rewrite V. cbn. rewrite !app_nil_r. fold E op. exact IH. }
        destruct (fst (bdata (cbeat k))) eqn:RW; cbn [negb ii_start ii_stop ii_write ii_read ii_data ii_ack orb].
        * unfold xfer. rewrite V. cbn [andb map]. rewrite expected_snoc, bus_open_snoc. fold E op. cbn [expected fst snd].
          unfold closes, beat_cmd. cbn [fst snd]. rewrite RW, orb_false_r, IH. unfold start_if. split; [|split; auto].
          -- destruct op, (blast (cbeat k)); cbn; rewrite ?app_nil_r, <- ?app_assoc; reflexivity.
          -- exists (E ++ if op then [] else [CStart]). reflexivity.
        * unfold xfer. rewrite andb_false_r. cbn [map]. rewrite !app_nil_r. fold E op. exists (snd (bdata (cbeat k))).
          rewrite IH, app_assoc. split; auto. eexists t, _. split; [reflexivity|]. cbn [so_io o_sink o_sready]. split; [exact V|]. split; [|split; [|reflexivity]].
          -- unfold ist_rdy, ist_rd, ist_is. cbn. now rewrite ?RW, ?andb_false_r.
          -- rewrite <- RW. now destruct (bdata (cbeat k)).
      + destruct IH as (d & IH1 & IH2). destruct (NP d l IH2) as (V & D & L). rewrite quiet_cmd by reflexivity. rewrite app_nil_r.
        destruct (s_busy i) eqn:B; cbn [negb andb].
        * unfold xfer. rewrite andb_false_r. cbn [map]. rewrite !app_nil_r. fold E op. exists d. split; auto.
          eexists t, _. split; [reflexivity|]. cbn. rewrite V, D, L. repeat split; auto.
        * unfold xfer. rewrite V. cbn [andb map]. rewrite expected_snoc, bus_open_snoc. fold E op. cbn [expected fst snd].
          unfold closes, beat_cmd. cbn [fst snd]. rewrite D, L, IH1. cbn [fst snd]. unfold start_if.
          destruct (d_acko (s_d i)), l, op; cbn; rewrite <- ?app_assoc, ?app_nil_r; cbn; auto.
      + rewrite quiet_cmd by reflexivity. unfold xfer. rewrite andb_false_r. cbn [map]. rewrite !app_nil_r. fold E op.
        destruct IH as (I1 & I2 & I3). destruct (s_busy i), r, l; cbn; auto.
        rewrite app_nil_r in I1. rewrite I1, I2. cbn. now rewrite app_nil_r.
      + unfold xfer. rewrite andb_false_r. cbn [map]. rewrite !app_nil_r. fold E op. destruct HI as [F B].
        unfold cmd_taken. rewrite F. cbn. auto.
      + rewrite quiet_cmd by reflexivity. unfold xfer. rewrite andb_false_r. cbn [map]. rewrite !app_nil_r. fold E op.
        destruct (negb (s_busy i)); cbn; auto.
  Qed.

  Lemma ist_inv_run ins : stable_sink (map so_io (trace c ins)) -> ist_inv (trace c ins) (state c ins).
  Proof.
    apply (run_inv_hyp c (fun t => stable_sink (map so_io t))).
    - intros t u H. rewrite map_app in H. eapply stable_sink_prefix; eauto.
    - split; [split; cbn; auto|]. cbn. auto.
    - intros t s [[k r] p]. apply ist_inv_step.
  Qed.
End IStreamProofs.
