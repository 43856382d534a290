(** Splitter, Merger, RoundRobin and Arbiter. *)
From Verif Require Import Stream Pipe_model Pipe_proofs Timer_model Timer_proofs Utils_model Utils_spec.

Lemma all_below_true n f : all_below n f = true <-> forall i, (i < n)%nat -> f i = true.
Proof.
  unfold all_below. rewrite forallb_forall. split; intros H i.
  - intros Hi. apply H. apply in_seq. lia.
  - intros Hi. apply in_seq in Hi. apply H. lia.
Qed.

Lemma all_below_false n f : all_below n f = false <-> exists i, (i < n)%nat /\ f i = false.
Proof.
  unfold all_below. split.
  - intros H. destruct (forallb f (seq 0 n)) eqn:E; [discriminate|].
    assert (HH : ~ forall x, In x (seq 0 n) -> f x = true) by (rewrite <- forallb_forall; congruence).
    clear E H. induction n as [|n IH].
    + exfalso. apply HH. simpl. tauto.
    + destruct (f n) eqn:Ef.
      * destruct IH as (i & Hi & Hf).
        -- intros HX. apply HH. intros x Hx. apply in_seq in Hx.
           destruct (Nat.eq_dec x n); [congruence|]. apply HX, in_seq. lia.
        -- exists i. split; auto.
      * exists n. split; auto.
  - intros (i & Hi & Hf). destruct (forallb f (seq 0 n)) eqn:E; auto.
    rewrite forallb_forall in E. rewrite E in Hf; [discriminate|]. apply in_seq. lia.
Qed.

(* ---------------- Splitter ---------------- *)
Section SplitProofs.
  Context {A P : Type} (n : nat) (proj : nat -> A -> P).
  Hypothesis Hn : (1 <= n)%nat.
  Let m := splitter n proj.

  (** the beat offered and not acknowledged at the end of a trace *)
  Definition sp_offered (t : list (sp_obs A P)) (b : beat A) : Prop :=
    exists t' o, t = t' ++ [o] /\ cvalid (sp_sink o) = true /\ sp_sready o = false /\ cbeat (sp_sink o) = b.

  Definition sp_inv (t : list (sp_obs A P)) (d : nat -> bool) : Prop :=
    (exists i, (i < n)%nat /\ d i = false) /\
    ((forall i, (i < n)%nat -> d i = false /\ sp_received i t = map (map_beat (proj i)) (sp_accepted t)) \/
     exists b, sp_offered t b /\
       forall i, (i < n)%nat ->
         sp_received i t = map (map_beat (proj i)) (sp_accepted t) ++
                           (if d i then [map_beat (proj i) b] else [])).

  Lemma sp_received_snoc i t (o : sp_obs A P) : sp_received i (t ++ [o]) = sp_received i t ++ xfer (sp_src o i) (sp_rready o i).
  Proof. unfold sp_received. rewrite flat_map_app. simpl. now rewrite app_nil_r. Qed.
  Lemma sp_accepted_snoc t (o : sp_obs A P) : sp_accepted (t ++ [o]) = sp_accepted t ++ xfer (sp_sink o) (sp_sready o).
  Proof. unfold sp_accepted. rewrite flat_map_app. simpl. now rewrite app_nil_r. Qed.

  Lemma sp_stable_prefix (t u : list (sp_obs A P)) : sp_stable_sink (t ++ u) -> sp_stable_sink t.
  Proof. intros H t1 o o' t2 ->. apply (H t1 o o' (t2 ++ u)). rewrite <- !app_assoc. reflexivity. Qed.

  Lemma sp_inv_run ins : sp_stable_sink (trace m ins) -> sp_inv (trace m ins) (state m ins).
  Proof.
    apply (run_inv_hyp m sp_stable_sink sp_inv).
    - apply sp_stable_prefix.
    - split; [exists 0%nat; split; [lia|reflexivity]|]. left. intros. split; reflexivity.
    - intros t d [c r] Hst [(i0 & Hi0 & Hd0) Hinv].
      (* received so far with respect to the current beat *)
      assert (HR : forall i, (i < n)%nat -> (d i = true -> cvalid c = true) /\
                 sp_received i t = map (map_beat (proj i)) (sp_accepted t) ++
                   (if d i then [map_beat (proj i) (cbeat c)] else [])).
      { destruct Hinv as [Hinv|(b & (t' & o & Et & Hv & Hr & Hb) & Hinv)]; intros i Hi.
        - destruct (Hinv i Hi) as [-> ->]. rewrite app_nil_r. split; [discriminate|reflexivity].
        - assert (E : c = sp_sink o).
          { rewrite Et in Hst. rewrite <- app_assoc in Hst. apply (Hst t' o _ [] eq_refl Hv Hr). }
          rewrite (Hinv i Hi), E, Hb. split; auto. }
      clear Hinv.
      assert (Hnext : forall i, (i < n)%nat -> cvalid (sp_source proj d c i) = cvalid c && negb (d i)) by reflexivity.
      cbn [m splitter cout cnext fst snd].
      assert (HRn : forall i, (i < n)%nat ->
        sp_received i (t ++ [SpObs c (sp_ready n d r) (sp_source proj d c) r]) =
        map (map_beat (proj i)) (sp_accepted t) ++
        (if sp_flow proj d c r i || d i then [map_beat (proj i) (cbeat c)] else [])).
      { intros i Hi. rewrite sp_received_snoc. destruct (HR i Hi) as [Hc ->]. cbn [sp_src sp_rready].
        unfold sp_flow, xfer. rewrite Hnext by auto.
        destruct (d i), (cvalid c), (r i); cbn; rewrite ?app_nil_r; reflexivity. }
      assert (Hrdy : cvalid c = true ->
                all_below n (fun i => sp_flow proj d c r i || d i) = sp_ready n d r).
      { intros Hv. unfold sp_ready, all_below. 
        clear -Hv. induction (seq 0 n); simpl; auto. rewrite IHl. f_equal.
        unfold sp_flow, sp_source. cbn. rewrite Hv. destruct (d a), (r a); reflexivity. }
      unfold sp_inv. unfold sp_next.
      destruct (cvalid c) eqn:Hv.
      + rewrite Hrdy by auto. destruct (sp_ready n d r) eqn:Er.
        * split; [exists 0%nat; split; [lia|reflexivity]|]. left. intros i Hi. split; auto.
          rewrite HRn by auto. rewrite sp_accepted_snoc. cbn [sp_sink sp_sready]. unfold xfer. rewrite Hv. cbn [andb].
          rewrite map_app. f_equal. cbn [map].
          specialize (Hrdy eq_refl). rewrite all_below_true in Hrdy. now rewrite Hrdy.
        * split.
          { specialize (Hrdy eq_refl). apply all_below_false in Hrdy. exact Hrdy. }
          right. exists (cbeat c). split.
          { exists t, (SpObs c (sp_ready n d r) (sp_source proj d c) r). rewrite Er. auto. }
          intros i Hi. rewrite HRn by auto. rewrite sp_accepted_snoc. cbn [sp_sink sp_sready]. unfold xfer.
          rewrite andb_false_r, app_nil_r. reflexivity.
      + assert (Hd : forall i, (i < n)%nat -> d i = false).
        { intros i Hi. destruct (HR i Hi) as [H _]. destruct (d i); auto. discriminate H. reflexivity. }
        assert (Hf : forall i, (i < n)%nat -> sp_flow proj d c r i || d i = false).
        { intros i Hi. unfold sp_flow. rewrite Hnext, Hd by auto. reflexivity. }
        replace (all_below n (fun i => sp_flow proj d c r i || d i)) with false.
        2:{ symmetry. apply all_below_false. exists i0. auto. }
        split; [exists i0; auto|]. left. intros i Hi. split; auto.
        rewrite HRn, Hf, app_nil_r by auto. rewrite sp_accepted_snoc. cbn [sp_sink sp_sready]. unfold xfer.
        rewrite Hv. cbn. now rewrite app_nil_r.
  Qed.

  Lemma sp_exact_cycle ins t1 o t2 :
    sp_stable_sink (trace m ins) -> trace m ins = t1 ++ o :: t2 ->
    (exists i, (i < n)%nat /\ length (sp_received i t1) = length (sp_accepted t1)) /\
    forall i, (i < n)%nat ->
      (length (sp_received i t1) = length (sp_accepted t1) \/
       (length (sp_received i t1) = S (length (sp_accepted t1)) /\ cvalid (sp_sink o) = true)) /\
      sp_src o i = Chan (cvalid (sp_sink o) && Nat.eqb (length (sp_received i t1)) (length (sp_accepted t1)))
                        (map_beat (proj i) (cbeat (sp_sink o))).
  Proof.
    intros Hst E. rewrite E in Hst. pose proof E as E'. apply trace_one in E. destruct E as (a & [c r] & b & -> & <- & ->).
    assert (Hpre : sp_stable_sink (trace m a)) by (eapply sp_stable_prefix; eauto).
    destruct (sp_inv_run a Hpre) as [(i0 & Hi0 & Hd0) Hinv].
    set (s := state m a) in *.
    assert (HH : forall i, (i < n)%nat -> 
        length (sp_received i (trace m a)) = (length (sp_accepted (trace m a)) + if s i then 1 else 0)%nat) by
      (intros i Hi; destruct Hinv as [H|(b0 & _ & H)];
       [destruct (H i Hi) as [-> ->]; rewrite map_length; lia
       |rewrite (H i Hi), app_length, map_length; destruct (s i); simpl; lia]).
    assert (HV : forall i, (i < n)%nat -> s i = true -> cvalid c = true).
    { intros i Hi Hs. destruct Hinv as [H|(b0 & (t' & o & Et & Hv & Hr & Hb) & _)].
      - destruct (H i Hi). congruence.
      - rewrite Et in Hst. rewrite <- app_assoc in Hst. pose proof (Hst t' o _ _ eq_refl Hv Hr) as K.
        cbn in K. rewrite K. exact Hv. }
    split.
    - exists i0. split; auto. rewrite (HH i0 Hi0), Hd0. lia.
    - intros i Hi. cbn [m splitter cout sp_sink sp_src fst snd]. rewrite (HH i Hi). split.
      + destruct (s i) eqn:Es; [right|left]; split || lia; [lia|]. eauto.
      + unfold sp_source, map_beat. f_equal. f_equal.
        destruct (s i); cbn [negb]; symmetry; [apply Nat.eqb_neq; lia|].
        rewrite Nat.add_0_r. apply Nat.eqb_refl.
  Qed.
End SplitProofs.

(* ---------------- Merger ---------------- *)
Section MergeProofs.
  Context {A : Type} (n : nat).
  Let m := @merger A n.
  Let pv := pipe_valid ([] : list A).

  Definition mg_in (i : (nat -> chan A) * bool) : chan (list A) * bool := (mg_merge n (fst i), snd i).
  Lemma mg_state ins : state m ins = state (scirc pv) (map mg_in ins).
  Proof.
    unfold state. change (creset m) with (st0 pv). cbn [scirc creset]. generalize (st0 pv).
    induction ins as [|i ins IH]; intros s; [reflexivity|]. cbn [state_from map]. apply IH.
  Qed.

  Lemma mg_lossless ins :
    exists rows held,
      (forall i, (i < n)%nat -> mg_accepted i (trace m ins) = map (fun r => r i) rows) /\
      map (merged_row n) rows = mg_emitted (trace m ins) ++ held /\ (length held <= 1)%nat /\
      held = chan_list (state m ins).
  Proof.
    assert (K : exists rows,
      (forall i, (i < n)%nat -> mg_accepted i (trace m ins) = map (fun r => r i) rows) /\
      map (merged_row n) rows = accepted (strace pv (map mg_in ins)) /\
      mg_emitted (trace m ins) = emitted (strace pv (map mg_in ins))).
    { induction ins as [|[c r] ins IH] using rev_ind.
      - exists []. repeat split.
      - destruct IH as (rows & H1 & H2 & H3).
        rewrite map_app, !trace_app, accepted_app, emitted_app, <- H2, <- H3.
        unfold mg_emitted. rewrite flat_map_app. fold (mg_emitted (trace m ins)).
        rewrite mg_state. set (s := state _ _) in *.
        cbn [map trace_from]. rewrite accepted_1, emitted_1. cbn [flat_map].
        rewrite app_nil_r. cbn [m merger scirc cout mg_src mg_rready o_src o_rready o_sink o_sready mg_in fst snd].
        fold pv. set (rd := rdy pv s (mg_merge n c) r).
        unfold xfer at 1. destruct (cvalid (mg_merge n c) && rd) eqn:E.
        + exists (rows ++ [fun i => cbeat (c i)]). repeat split.
          * intros i Hi. unfold mg_accepted. rewrite flat_map_app. fold (mg_accepted i (trace m ins)).
            rewrite H1 by auto. rewrite map_app. f_equal. cbn [flat_map map mg_sink mg_sready].
            rewrite app_nil_r. unfold xfer. rewrite andb_true_r.
            apply andb_true_iff in E. destruct E as [E _]. cbn [mg_merge cvalid] in E.
            rewrite all_below_true in E. rewrite E by auto. reflexivity.
          * rewrite map_app. reflexivity.
        + exists rows. repeat split.
          * intros i Hi. unfold mg_accepted. rewrite flat_map_app. fold (mg_accepted i (trace m ins)).
            rewrite H1 by auto. cbn [flat_map mg_sink mg_sready].
            unfold xfer. rewrite andb_false_r. cbn. apply app_nil_r.
          * now rewrite app_nil_r. }
    destruct K as (rows & H1 & H2 & H3). exists rows, (chan_list (state m ins)).
    repeat split; auto.
    - rewrite H2, H3, mg_state. apply pv_lossless.
    - unfold chan_list. destruct (cvalid _); simpl; lia.
  Qed.

  (** all sinks are acknowledged together, and only when all are valid *)
  Lemma mg_lockstep ins t1 o t2 : trace m ins = t1 ++ o :: t2 ->
    forall i j, (i < n)%nat -> (j < n)%nat -> mg_sready o i = mg_sready o j /\ (mg_sready o i = true -> cvalid (mg_sink o j) = true).
  Proof.
    intros H i j Hi Hj. apply trace_one in H. destruct H as (a & [c r] & b & -> & _ & ->).
    cbn [m merger cout mg_sready mg_sink fst snd]. split; auto. intros E.
    apply andb_true_iff in E. destruct E as [E _]. cbn [mg_merge cvalid] in E. rewrite all_below_true in E. auto.
  Qed.

  Lemma mg_stable ins t1 o o' t2 : trace m ins = t1 ++ o :: o' :: t2 ->
    cvalid (mg_src o) = true -> mg_rready o = false -> mg_src o' = mg_src o.
  Proof.
    intros H Hv Hr. apply trace_two in H. destruct H as (a & [c r] & [c' r'] & b & -> & _ & -> & ->).
    cbn in *. subst r. unfold pv_en. rewrite Hv. reflexivity.
  Qed.
End MergeProofs.

(* ---------------- RoundRobin ---------------- *)
Lemma find_seq f a m j : find f (seq a m) = Some j ->
  (a <= j < a + m)%nat /\ f j = true /\ forall x, (a <= x < j)%nat -> f x = false.
Proof.
  revert a. induction m as [|m IH]; intros a; simpl; [discriminate|].
  destruct (f a) eqn:E.
  - intros H; injection H as <-. repeat split; auto; lia.
  - intros H. destruct (IH _ H) as (H1 & H2 & H3). repeat split; auto; try lia.
    intros x Hx. destruct (Nat.eq_dec x a); [congruence|]. apply H3. lia.
Qed.

Lemma cdist_range n g k : (1 <= n)%nat -> (cdist n g k < n)%nat.
Proof. intros. unfold cdist. apply Nat.mod_upper_bound. lia. Qed.

Lemma mod_add_n x n : (1 <= n -> (x + n) mod n = x mod n)%nat.
Proof. intros. replace (x + n)%nat with (x + 1 * n)%nat by lia. apply Nat.mod_add. lia. Qed.

Lemma mod_small_or x n : (x < 2 * n -> x mod n = if x <? n then x else x - n)%nat.
Proof.
  intros. destruct (Nat.ltb_spec x n).
  - now apply Nat.mod_small.
  - replace x with ((x - n) + n)%nat at 1 by lia. rewrite mod_add_n by lia. apply Nat.mod_small. lia.
Qed.

Lemma cdist_val n g k : (g < n)%nat -> (k < n)%nat -> cdist n g k = (if g <=? k then k - g else k + n - g)%nat.
Proof.
  intros. unfold cdist. rewrite mod_small_or by lia.
  destruct (Nat.ltb_spec (k + n - g) n), (Nat.leb_spec g k); lia.
Qed.

Lemma rr_next_spec n g req : (g < n)%nat ->
  let g' := rr_next n g req in
  (g' < n)%nat /\
  ((g' <> g /\ req g' = true /\
    forall k, (k < n)%nat -> req k = true -> k <> g -> (cdist n g g' <= cdist n g k)%nat) \/
   (g' = g /\ forall k, (k < n)%nat -> req k = true -> k = g)).
Proof.
  intros Hg. cbv zeta. unfold rr_next.
  destruct (find _ _) as [j|] eqn:E.
  - apply find_seq in E. destruct E as (H1 & H2 & H3). split; [apply Nat.mod_upper_bound; lia|].
    left. rewrite mod_small_or in * by lia. split; [|split; auto].
    + destruct (Nat.ltb_spec j n); lia.
    + intros k Hk Hr Hne.
      assert (Hd : cdist n g (if j <? n then j else j - n)%nat = (j - g)%nat).
      { rewrite cdist_val by (auto; destruct (Nat.ltb_spec j n); lia).
        destruct (Nat.ltb_spec j n); [destruct (Nat.leb_spec g j); lia|destruct (Nat.leb_spec g (j - n)); lia]. }
      rewrite Hd. clear Hd.
      destruct (le_lt_dec (j - g) (cdist n g k)) as [|Hlt]; auto. exfalso.
      rewrite cdist_val in Hlt by auto.
      assert (HF : req ((if g <=? k then k else k + n) mod n)%nat = false).
      { apply H3. destruct (Nat.leb_spec g k); lia. }
      rewrite mod_small_or in HF by (destruct (Nat.leb_spec g k); lia).
      destruct (Nat.leb_spec g k).
      * destruct (Nat.ltb_spec k n); [congruence|lia].
      * destruct (Nat.ltb_spec (k + n) n); [lia|]. replace (k + n - n)%nat with k in HF by lia. congruence.
  - split; auto. right. split; auto. intros k Hk Hr.
    destruct (Nat.eq_dec k g); auto. exfalso.
    pose proof (find_none _ _ E (if g <=? k then k else k + n)%nat) as HF. cbn beta in HF.
    rewrite mod_small_or in HF by (destruct (Nat.leb_spec g k); lia).
    assert (HI : In (if g <=? k then k else k + n)%nat (seq (g + 1) (n - 1))).
    { apply in_seq. destruct (Nat.leb_spec g k); lia. }
    specialize (HF HI). destruct (Nat.leb_spec g k).
    + destruct (Nat.ltb_spec k n); [congruence|lia].
    + destruct (Nat.ltb_spec (k + n) n); [lia|]. replace (k + n - n)%nat with k in HF by lia. congruence.
Qed.

(** a requesting index other than the grant gets strictly closer *)
Lemma rr_closer n g k req : (g < n)%nat -> (k < n)%nat -> req k = true -> k <> g ->
  (cdist n (rr_next n g req) k < cdist n g k)%nat /\ rr_next n g req <> g.
Proof.
  intros Hg Hk Hr Hne. destruct (rr_next_spec n g req Hg) as [Hlt [(H1 & H2 & H3)|(H1 & H2)]].
  - specialize (H3 k Hk Hr Hne). set (g' := rr_next n g req) in *.
    rewrite !cdist_val in * by auto.
    destruct (Nat.leb_spec g g'), (Nat.leb_spec g k), (Nat.leb_spec g' k); lia.
  - exfalso. apply Hne. auto.
Qed.

(** The successive grants under a list of request vectors (one per enabled cycle). *)
Fixpoint rr_grants (n g : nat) (reqs : list (nat -> bool)) : list nat :=
  match reqs with [] => [g] | q :: r => g :: rr_grants n (rr_next n g q) r end.

Lemma rr_fair n g k reqs : (g < n)%nat -> (k < n)%nat ->
  Forall (fun q => q k = true) reqs -> (n - 1 <= length reqs)%nat ->
  In k (firstn n (rr_grants n g reqs)).
Proof.
  intros Hg Hk HF HL.
  assert (G : forall reqs g m, (g < n)%nat -> Forall (fun q => q k = true) reqs -> (cdist n g k <= length reqs)%nat ->
     (cdist n g k < m)%nat -> In k (firstn m (rr_grants n g reqs))).
  { clear g reqs Hg HF HL. induction reqs as [|q reqs IH]; intros g m Hg HF HL Hm; simpl in HL.
    - assert (k = g). { rewrite cdist_val in HL by auto. destruct (Nat.leb_spec g k); lia. }
      subst. destruct m; [lia|]. simpl. now left.
    - destruct m; [lia|]. simpl. destruct (Nat.eq_dec g k); [now left|right].
      inversion HF; subst.
      destruct (rr_closer n g k q) as [Hc _]; auto.
      apply IH; auto; [|lia|lia].
      apply (rr_next_spec n g q Hg). }
  apply G; auto.
  - pose proof (cdist_range n g k ltac:(lia)). lia.
  - apply cdist_range. lia.
Qed.

(* ---------------- Arbiter ---------------- *)
Section ArbProofs.
  Context {A : Type} (n : nat) (timeout : Z).
  Hypothesis Hn : (2 <= n)%nat.
  Hypothesis Ht : 0 <= timeout.
  Let m := @arbiter A n timeout.
  Lemma arb_conn : arb_connected n = true.
  Proof. now apply Nat.leb_le. Qed.
  Lemma arb_src_eq s (c : nat -> chan A) : arb_src n s c = c (arb_grant s).
  Proof. unfold arb_src. rewrite arb_conn. now destruct (c (arb_grant s)). Qed.

  (** the granted sink [g] showed nothing for [timeout] cycles at the end of [t] *)
  Definition idle_window (g : nat) (t : list (arb_obs A)) : Prop :=
    exists a b, t = a ++ b /\ Z.of_nat (length b) = timeout /\
      Forall (fun o => ao_grant o = g /\ cvalid (ao_sink o g) = false) b.

  Definition arb_inv (t : list (arb_obs A)) (s : arb_state) : Prop :=
    (arb_grant s < n)%nat /\ 0 <= arb_stall s <= timeout /\
    exists a b, t = a ++ b /\ Z.of_nat (length b) = timeout - arb_stall s /\
      Forall (fun o => ao_grant o = arb_grant s /\ cvalid (ao_sink o (arb_grant s)) = false) b.

  Lemma arb_inv_step t s i : arb_inv t s -> arb_inv (t ++ [cout m s i]) (cnext m s i).
  Proof.
    destruct i as [c r]. intros (Hg & Hs & a & b & -> & Hl & HF).
    cbn [m arbiter cout cnext fst snd]. unfold arb_inv, arb_next. cbn [arb_grant arb_stall].
    split.
    { destruct (arb_run n s c r); auto. apply (rr_next_spec n (arb_grant s)); auto. }
    destruct (arb_ongoing s && negb (cvalid (arb_src n s c)) && negb (arb_run n s c r)) eqn:E.
    - apply andb_true_iff in E. destruct E as [E1 E2]. apply andb_true_iff in E1. destruct E1 as [E0 E1].
      apply negb_true_iff in E2, E1. rewrite E2.
      assert (wt_done (arb_stall s) = false).
      { unfold arb_run in E2. apply orb_false_iff in E2. apply E2. }
      unfold wt_next. rewrite H. cbn [negb]. unfold wt_done in H. apply Z.eqb_neq in H.
      rewrite trunc_range_small by lia. split; [lia|].
      exists a, (b ++ [ArbObs c (fun k => arb_connected n && Nat.eqb k (arb_grant s) && r) (arb_src n s c) r (arb_grant s)]).
      rewrite app_assoc. split; auto. split.
      + rewrite app_length. simpl. lia.
      + apply Forall_app. split; auto. constructor; [|constructor]. cbn [ao_grant ao_sink]. split; auto. now rewrite arb_src_eq in E1.
    - cbn [wt_next]. split; [lia|]. exists ((a ++ b) ++ [ArbObs c (fun k => arb_connected n && Nat.eqb k (arb_grant s) && r) (arb_src n s c) r (arb_grant s)]), [].
      rewrite app_nil_r. simpl. split; auto. split; [lia|constructor].
  Qed.

  Lemma arb_inv_run ins : arb_inv (trace m ins) (state m ins).
  Proof.
    apply (run_inv m arb_inv).
    - split; [cbn; lia|]. split; [cbn; lia|]. exists [], []. simpl. repeat split; [lia|constructor].
    - intros. now apply arb_inv_step.
  Qed.

  Lemma arb_stalled t s : arb_inv t s -> wt_done (arb_stall s) = true -> idle_window (arb_grant s) t.
  Proof.
    intros (Hg & Hs & a & b & -> & Hl & HF) Hd. unfold wt_done in Hd. apply Z.eqb_eq in Hd.
    exists a, b. rewrite Hd in Hl. repeat split; auto. lia.
  Qed.

  (** one-cycle view *)
  Lemma arb_cycle ins t1 o t2 : trace m ins = t1 ++ o :: t2 ->
    (ao_grant o < n)%nat /\ ao_src o = ao_sink o (ao_grant o) /\
    forall i, ao_sready o i = (Nat.eqb i (ao_grant o) && ao_rready o).
  Proof.
    intros H. apply trace_one in H. destruct H as (a & [c r] & b & -> & <- & ->).
    split; [apply arb_inv_run|]. cbn [m arbiter cout ao_src ao_sink ao_grant ao_sready ao_rready fst snd]. rewrite arb_src_eq, arb_conn. split; reflexivity.
  Qed.

  (** when the grant moves away from an offered or unfinished packet, the idle
      window has just elapsed *)
  Lemma arb_moves ins t1 o o' t2 : trace m ins = t1 ++ o :: o' :: t2 ->
    ao_grant o' <> ao_grant o -> cvalid (ao_src o) = true ->
    (ao_rready o && blast (cbeat (ao_src o)) = true) \/ idle_window (ao_grant o) t1.
  Proof.
    intros H Hne Hv. apply trace_two in H. destruct H as (a & [c r] & [c' r'] & b & -> & <- & -> & ->).
    cbn [m arbiter cout cnext ao_grant ao_src ao_rready fst snd] in Hne, Hv |- *. fold m in Hne, Hv |- *.
    unfold arb_next in Hne. cbn [arb_grant] in Hne.
    destruct (arb_run n (state m a) c r) eqn:E; [|congruence].
    unfold arb_run in E. rewrite Hv in E. rewrite orb_true_r in E. cbn [negb orb andb] in E.
    apply orb_true_iff in E. destruct E as [E|E]; [now left|right].
    apply arb_stalled; auto. apply arb_inv_run.
  Qed.

  (** no interleaving *)
  Lemma arb_no_interleave ins t0 o1 mid o2 t2 :
    trace m ins = t0 ++ o1 :: mid ++ o2 :: t2 ->
    cvalid (ao_src o1) && ao_rready o1 = true -> blast (cbeat (ao_src o1)) = false ->
    Forall (fun o => cvalid (ao_src o) && ao_rready o = false) mid ->
    ao_grant o2 <> ao_grant o1 ->
    exists a b c, t0 ++ o1 :: mid = a ++ b ++ c /\ Z.of_nat (length b) = timeout /\
      (length c <= S (length mid))%nat /\
      Forall (fun o => ao_grant o = ao_grant o1 /\ cvalid (ao_sink o (ao_grant o1)) = false) b.
  Proof.
    intros E Hx Hl HF Hne.
    apply trace_split_from in E. destruct E as (i0 & [c1 r1] & i1 & -> & <- & -> & E).
    symmetry in E. apply trace_split_from in E. destruct E as (i2 & [c2 r2] & i3 & -> & <- & -> & _).
    assert (Hi0 : arb_inv (trace_from m (creset m) i0) (state_from m (creset m) i0)) by apply arb_inv_run.
    set (s0 := state_from m (creset m) i0) in *. set (t0 := trace_from m (creset m) i0) in *. clearbody s0 t0.
    cbn [m arbiter cout ao_src ao_rready ao_grant fst snd] in Hx, Hl, Hne |- *. fold m in Hne, HF |- *.
    set (g := arb_grant s0) in *.
    pose (good := fun (s : arb_state) (t : list (arb_obs A)) (k : nat) =>
      arb_grant s = g \/ exists a b c, t = a ++ b ++ c /\ Z.of_nat (length b) = timeout /\
        (length c <= k)%nat /\ Forall (fun o => ao_grant o = g /\ cvalid (ao_sink o g) = false) b).
    set (o1 := cout m s0 (c1, r1)) in *.
    assert (Hstart : arb_inv (t0 ++ [o1]) (cnext m s0 (c1, r1)) /\ arb_ongoing (cnext m s0 (c1, r1)) = true /\
                     good (cnext m s0 (c1, r1)) (t0 ++ [o1]) 1%nat).
    { split; [now apply arb_inv_step|]. split.
      - cbn [m arbiter cnext fst snd arb_next arb_ongoing]. rewrite Hx, Hl. reflexivity.
      - unfold good. destruct (Nat.eq_dec (arb_grant (cnext m s0 (c1, r1))) g) as [|Hd]; [now left|right].
        destruct (arb_stalled t0 s0 Hi0) as (a & b & E1 & E2 & E3).
        + cbn [m arbiter cnext fst snd arb_next arb_grant] in Hd. fold g in Hd.
          destruct (arb_run n s0 c1 r1) eqn:Er; [|congruence].
          unfold arb_run in Er. apply andb_true_iff in Hx. destruct Hx as [Hx1 Hx2].
          rewrite Hx1, Hx2, Hl, orb_true_r in Er. exact Er.
        + exists a, b, [o1]. rewrite E1, <- app_assoc. auto. }
    assert (Hgo : forall i2 t s k, arb_inv t s -> arb_ongoing s = true -> good s t k ->
              Forall (fun o => cvalid (ao_src o) && ao_rready o = false) (trace_from m s i2) ->
              arb_inv (t ++ trace_from m s i2) (state_from m s i2) /\
              good (state_from m s i2) (t ++ trace_from m s i2) (k + length i2)%nat).
    { clear - Hn Ht. induction i2 as [|[c r] i2 IH]; intros t s k Hi Ho Hg HF.
      - cbn. rewrite app_nil_r, Nat.add_0_r. auto.
      - cbn [trace_from state_from]. inversion HF as [|x y Hx HF']; subst.
        cbn [m arbiter cout ao_src ao_rready fst snd] in Hx.
        replace (t ++ cout m s (c, r) :: trace_from m (cnext m s (c, r)) i2)
          with ((t ++ [cout m s (c, r)]) ++ trace_from m (cnext m s (c, r)) i2) by (now rewrite <- app_assoc).
        replace (k + length ((c, r) :: i2))%nat with (S k + length i2)%nat by (simpl; lia).
        apply IH; auto.
        + now apply arb_inv_step.
        + cbn [m arbiter cnext fst snd arb_next arb_ongoing]. rewrite Hx. exact Ho.
        + destruct Hg as [Hg|(a & b & d & E1 & E2 & E3 & E4)].
          * destruct (Nat.eq_dec (arb_grant (cnext m s (c, r))) g) as [|Hd]; [now left|right].
            destruct (arb_stalled t s Hi) as (a & b & E1 & E2 & E3).
            -- cbn [m arbiter cnext fst snd arb_next arb_grant] in Hd.
               destruct (arb_run n s c r) eqn:Er; [|congruence].
               unfold arb_run in Er. rewrite Ho, Hx in Er. exact Er.
            -- exists a, b, [cout m s (c, r)]. rewrite E1, <- app_assoc. rewrite Hg in E3.
               repeat split; auto. simpl. lia.
          * right. exists a, b, (d ++ [cout m s (c, r)]). rewrite E1, !app_assoc. repeat split; auto.
            rewrite app_length. simpl. lia. }
    destruct Hstart as (S1 & S2 & S3). specialize (Hgo i2 _ _ _ S1 S2 S3 HF). destruct Hgo as [_ G].
    destruct G as [G|(a & b & d & E1 & E2 & E3 & E4)]; [contradiction|].
    exists a, b, d. rewrite <- app_assoc in E1. rewrite trace_from_length. auto.
  Qed.

  Lemma arb_closer s c r k : (arb_grant s < n)%nat -> (k < n)%nat -> cvalid (c k) = true -> arb_grant s <> k ->
    if arb_run n s c r then (cdist n (arb_grant (cnext m s (c, r))) k < cdist n (arb_grant s) k)%nat
                          /\ arb_grant (cnext m s (c, r)) <> arb_grant s
    else arb_grant (cnext m s (c, r)) = arb_grant s.
  Proof.
    intros Hg Hk Hv Hne. cbn [m arbiter cnext fst snd arb_next arb_grant].
    destruct (arb_run n s c r); auto. apply rr_closer; auto.
  Qed.

  (** number of grant changes in a segment where k waits *)
  Lemma changes_cons2 g g' l : changes (g :: g' :: l) = ((if Nat.eqb g g' then 0 else 1) + changes (g' :: l))%nat.
  Proof. reflexivity. Qed.

  Lemma arb_bounded_wait_from s ins k : (arb_grant s < n)%nat -> (k < n)%nat ->
    Forall (fun o => cvalid (ao_sink o k) = true /\ ao_grant o <> k) (trace_from m s ins) ->
    (changes (map ao_grant (trace_from m s ins)) <= cdist n (arb_grant s) k - 1)%nat.
  Proof.
    revert s. induction ins as [|[c r] ins IH]; intros s Hg Hk HF; [simpl; lia|].
    cbn [trace_from] in *. inversion HF as [|x y [Hv Hne] HF']; subst.
    cbn [m arbiter cout ao_grant ao_sink fst snd] in Hv, Hne. fold m in HF'.
    destruct ins as [|[c' r'] ins]; [simpl; lia|].
    assert (Hg' : (arb_grant (cnext m s (c, r)) < n)%nat).
    { cbn [m arbiter cnext fst snd arb_next arb_grant]. destruct (arb_run n s c r); auto. now apply (rr_next_spec n). }
    specialize (IH _ Hg' Hk HF'). cbn [trace_from map] in *. rewrite changes_cons2.
    change (ao_grant (cout m (cnext m s (c, r)) (c', r'))) with (arb_grant (cnext m s (c, r))) in *.
    change (ao_grant (cout m s (c, r))) with (arb_grant s).
    inversion HF' as [|x y [Hv' Hne'] HF'']; subst.
    assert (Hn' : arb_grant (cnext m s (c, r)) <> k) by exact Hne'.
    pose proof (arb_closer s c r k Hg Hk Hv Hne) as Hc.
    assert (1 <= cdist n (arb_grant (cnext m s (c, r))) k)%nat.
    { rewrite cdist_val by auto. destruct (Nat.leb_spec (arb_grant (cnext m s (c, r))) k); lia. }
    destruct (arb_run n s c r).
    - destruct (Nat.eqb_spec (arb_grant s) (arb_grant (cnext m s (c, r)))); lia.
    - rewrite Hc in *. rewrite Nat.eqb_refl. lia.
  Qed.

  Lemma arb_bounded_wait ins t1 seg t2 k : trace m ins = t1 ++ seg ++ t2 -> (k < n)%nat ->
    Forall (fun o => cvalid (ao_sink o k) = true /\ ao_grant o <> k) seg ->
    (changes (map ao_grant seg) <= n - 2)%nat.
  Proof.
    intros E Hk HF. apply trace_seg in E. destruct E as (i0 & i1 & i2 & -> & <- & <- & _).
    assert (Hg : (arb_grant (state m i0) < n)%nat) by apply arb_inv_run.
    pose proof (arb_bounded_wait_from _ i1 k Hg Hk HF).
    pose proof (cdist_range n (arb_grant (state m i0)) k ltac:(lia)).
    lia.
  Qed.

  (** a packet end hands over at once to a waiting sink *)
  Lemma arb_handover ins t1 o o' t2 k : trace m ins = t1 ++ o :: o' :: t2 -> (k < n)%nat ->
    cvalid (ao_sink o k) = true -> ao_grant o <> k ->
    (cvalid (ao_src o) = true -> ao_rready o = true -> blast (cbeat (ao_src o)) = true -> ao_grant o' <> ao_grant o) /\
    (ao_grant o' <> ao_grant o -> (cdist n (ao_grant o') k < cdist n (ao_grant o) k)%nat).
  Proof.
    intros H Hk Hv Hne. apply trace_two in H. destruct H as (a & [c r] & [c' r'] & b & -> & <- & -> & ->).
    assert (Hg : (arb_grant (state m a) < n)%nat) by apply arb_inv_run.
    change (ao_grant (cout m (cnext m (state m a) (c, r)) (c', r'))) with (arb_grant (cnext m (state m a) (c, r))).
    change (ao_grant (cout m (state m a) (c, r))) with (arb_grant (state m a)) in *.
    cbn [m arbiter cout ao_src ao_rready ao_sink fst snd] in Hv |- *. fold m.
    pose proof (arb_closer (state m a) c r k Hg Hk Hv Hne) as Hc.
    split.
    - intros E1 E2 E3. destruct (arb_run n (state m a) c r) eqn:Er; [apply Hc|].
      unfold arb_run in Er. fold m in E1, E3. rewrite E1, E2, E3 in Er.
      rewrite !andb_true_r, orb_true_r in Er. discriminate.
    - intros Hd. destruct (arb_run n (state m a) c r); [apply Hc|contradiction].
  Qed.

  (** a silent granted sink is dropped after at most timeout + 1 cycles *)
  Lemma arb_silent_from ins : forall s k, (arb_grant s < n)%nat -> (k < n)%nat -> arb_grant s <> k -> 0 <= arb_stall s <= timeout ->
    Forall (fun o => cvalid (ao_sink o k) = true /\ cvalid (ao_sink o (arb_grant s)) = false) (trace_from m s ins) ->
    arb_stall s < Z.of_nat (length ins) ->
    exists pre post, ins = pre ++ post /\ arb_grant (state_from m s pre) <> arb_grant s.
  Proof.
    induction ins as [|[c r] ins IH]; intros s k Hg Hk Hne Hs HF HL; [simpl in HL; lia|].
    cbn [trace_from] in HF. inversion HF as [|x y [Hv Hx] HF']; subst.
    cbn [m arbiter cout ao_sink fst snd] in Hv, Hx. fold m in HF'.
    pose proof (arb_closer s c r k Hg Hk Hv Hne) as Hc.
    destruct (arb_run n s c r) eqn:Er.
    - exists [(c, r)], ins. split; [reflexivity|]. apply Hc.
    - assert (Hst : arb_stall (cnext m s (c, r)) = arb_stall s - 1 /\ 0 < arb_stall s).
      { cbn [m arbiter cnext fst snd arb_next arb_stall]. rewrite Er. cbn [negb].
        pose proof Er as Er'. unfold arb_run in Er'. rewrite arb_src_eq, Hx in Er'. cbn [andb] in Er'.
        rewrite !orb_false_r in Er'. apply orb_false_iff in Er'. destruct Er' as [E1 E2].
        apply negb_false_iff in E1. rewrite arb_src_eq, E1, Hx. cbn [negb andb]. unfold wt_next. rewrite E2. cbn [negb].
        unfold wt_done in E2. apply Z.eqb_neq in E2. rewrite trunc_range_small by lia. lia. }
      simpl in HL. destruct (IH (cnext m s (c, r)) k) as (pre & post & -> & HH); rewrite ?Hc; auto; try lia.
      exists ((c, r) :: pre), post. split; [reflexivity|]. cbn [state_from]. congruence.
  Qed.
End ArbProofs.

(** An arbiter with one sink: nothing is connected. *)
Lemma arb_single {A} timeout ins : Forall (fun o => cvalid (ao_src o) = false /\ forall i, ao_sready o i = false) (trace (@arbiter A 1 timeout) ins).
Proof.
  apply Forall_forall. intros o Ho. apply in_split in Ho. destruct Ho as (t1 & t2 & E).
  apply trace_one in E. destruct E as (a & [c r] & b & -> & <- & ->). now split.
Qed.
