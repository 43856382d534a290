(** Properties C08 - C18 and C83 (stream utilities). *)
From Verif Require Import Stream Pipe_model Timer_model Timer_proofs Utils_model Utils_spec Utils_proofs Arb_proofs.

(* ================= C08 Stitcher ================= *)
(** Cycle by cycle: the beat passes in the same cycle, same data, same handshake;
    first/last survive only on the packets numbered 0 / count-1 modulo count
    ([stitched], Utils_spec.v). *)
Theorem C08_stitcher_exact : forall A count ins t1 (o : obs A A) t2, 1 <= count ->
  strace (stitcher count) ins = t1 ++ o :: t2 ->
  o_src o = Chan (cvalid (o_sink o)) (stitched count (accepted t1) (cbeat (o_sink o))) /\
  o_sready o = o_rready o.
Proof. intros. eapply stitch_exact; eauto. Qed.

(** Packet count: of N packets ended on the sink, floor(N / count) end on the source. *)
Theorem C08_stitcher_packet_count : forall A count ins, 1 <= count ->
  count_if blast (emitted (strace (@stitcher A count) ins)) =
  count_if blast (accepted (strace (@stitcher A count) ins)) / count.
Proof. intros. rewrite stitch_emitted by auto. now apply stitch_lasts. Qed.

Definition c08_ins : list (chan Z * bool) :=
  [(Chan true (Beat true false 1), true); (Chan true (Beat false true 2), false);
   (Chan true (Beat false true 2), true); (Chan true (Beat true true 3), true);
   (Chan true (Beat true true 4), true)].
Example C08_nonvacuous :
  emitted (strace (stitcher 2) c08_ins) =
  [Beat true false 1; Beat false false 2; Beat false true 3; Beat true false 4].
Proof. reflexivity. Qed.

(* ================= C09 Splitter ================= *)
(** Every source has received exactly the accepted beats, in order, plus possibly
    the beat that is offered right now and not yet acknowledged. *)
Theorem C09_splitter_exactly_once : forall A P n (proj : nat -> A -> P) ins i, (1 <= n)%nat -> (i < n)%nat ->
  let t := trace (splitter n proj) ins in
  sp_stable_sink t ->
  sp_received i t = map (map_beat (proj i)) (sp_accepted t) \/
  exists t' o, t = t' ++ [o] /\ cvalid (sp_sink o) = true /\ sp_sready o = false /\
    sp_received i t = map (map_beat (proj i)) (sp_accepted t ++ [cbeat (sp_sink o)]).
Proof.
  intros A P n proj ins i Hn Hi t Hst.
  destruct (sp_inv_run n proj Hn ins Hst) as [_ [H|(b & (t' & o & Et & Hv & Hr & Hb) & H)]].
  - left. apply H; auto.
  - pose proof (H i Hi) as E. destruct (state (splitter n proj) ins i).
    + right. exists t', o. fold t in Et, E. rewrite map_app, Hb. auto.
    + left. fold t in E. now rewrite app_nil_r in E.
Qed.

(** In every cycle a source is offered the current sink beat exactly when it has
    not taken it yet, at least one source is still waiting, and the sink is
    acknowledged exactly when every source has taken it or takes it now. *)
Theorem C09_splitter_cycle : forall A P n (proj : nat -> A -> P) ins t1 o t2, (1 <= n)%nat ->
  sp_stable_sink (trace (splitter n proj) ins) ->
  trace (splitter n proj) ins = t1 ++ o :: t2 ->
  let taken i := negb (Nat.eqb (length (sp_received i t1)) (length (sp_accepted t1))) in
  (exists i, (i < n)%nat /\ taken i = false) /\
  (forall i, (i < n)%nat ->
     sp_src o i = Chan (cvalid (sp_sink o) && negb (taken i)) (map_beat (proj i) (cbeat (sp_sink o)))) /\
  (sp_sready o = true <-> forall i, (i < n)%nat -> taken i = true \/ sp_rready o i = true).
Proof.
  intros A P n proj ins t1 o t2 Hn Hst E taken.
  destruct (sp_exact_cycle n proj Hn ins t1 o t2 Hst E) as [(i0 & Hi0 & H0) H].
  split; [|split].
  - exists i0. split; auto. unfold taken. rewrite H0, Nat.eqb_refl. reflexivity.
  - intros i Hi. unfold taken. rewrite negb_involutive. apply H; auto.
  - assert (HH : forall i, (i < n)%nat -> taken i = state (splitter n proj) (firstn (length t1) ins) i).
    { rewrite E in Hst. apply sp_stable_prefix in Hst.
      apply trace_one in E. destruct E as (a & [c r] & b & -> & <- & _). intros i Hi.
      rewrite trace_length, firstn_app, Nat.sub_diag, firstn_all, firstn_O, app_nil_r.
      unfold taken. destruct (sp_inv_run n proj Hn a Hst) as [_ [K|(b0 & _ & K)]].
      - destruct (K i Hi) as [-> ->]. rewrite map_length, Nat.eqb_refl. reflexivity.
      - rewrite (K i Hi), app_length, map_length. destruct (state (splitter n proj) a i); simpl.
        + apply negb_true_iff, Nat.eqb_neq. lia.
        + rewrite Nat.add_0_r, Nat.eqb_refl. reflexivity. }
    apply trace_one in E. destruct E as (a & [c r] & b & -> & Ht1 & ->).
    assert (Hl : firstn (length t1) (a ++ (c, r) :: b) = a).
    { rewrite <- Ht1, trace_length, firstn_app, Nat.sub_diag, firstn_all, firstn_O. apply app_nil_r. }
    rewrite Hl in HH. cbn [splitter cout sp_sready sp_rready fst snd]. unfold sp_ready.
    rewrite all_below_true. split; intros K i Hi.
    + rewrite HH by auto. specialize (K i Hi). apply orb_true_iff in K. destruct K; auto.
    + apply orb_true_iff. rewrite <- HH by auto. destruct (K i Hi); auto.
Qed.

Definition c09_ins : list (chan (Z * Z) * (nat -> bool)) :=
  let c := Chan true (Beat true true (1, 2)) in
  [(c, fun i => Nat.eqb i 1); (c, fun _ => false); (c, fun _ => true);
   (Chan false (Beat false false (0, 0)), fun _ => true)].
Definition c09_proj (i : nat) (p : Z * Z) : Z := match i with O => fst p | _ => snd p end.
Example C09_nonvacuous :
  let t := trace (splitter 2 c09_proj) c09_ins in
  sp_stable_sink t /\ sp_accepted t = [Beat true true (1, 2)] /\
  sp_received 0 t = [Beat true true 1] /\ sp_received 1 t = [Beat true true 2].
Proof.
  cbv zeta. split; [|split; [|split]]; try reflexivity.
  intros t1 o o' t2 E Hv Hr.
  destruct t1 as [|? [|? [|? [|? t1]]]]; injection E; intros; subst; cbn in *; try reflexivity; try discriminate.
  destruct t1; discriminate.
Qed.

(* ================= C10 Merger ================= *)
Theorem C10_merger_zips : forall A n ins,
  let t := trace (@merger A n) ins in
  exists rows held,
    (forall i, (i < n)%nat -> mg_accepted i t = map (fun row => row i) rows) /\
    map (merged_row n) rows = mg_emitted t ++ held /\ (length held <= 1)%nat.
Proof.
  intros. destruct (mg_lossless n ins) as (rows & held & H1 & H2 & H3 & _). exists rows, held. auto.
Qed.

(** All sinks are acknowledged in the same cycle, only when all are valid. *)
Theorem C10_merger_lockstep : forall A n ins t1 o t2, trace (@merger A n) ins = t1 ++ o :: t2 ->
  forall i j, (i < n)%nat -> (j < n)%nat ->
    mg_sready o i = mg_sready o j /\ (mg_sready o i = true -> cvalid (mg_sink o j) = true).
Proof. intros. eapply mg_lockstep; eauto. Qed.

(** The merged beat is held until taken. *)
Theorem C10_merger_stable : forall A n ins t1 o o' t2, trace (@merger A n) ins = t1 ++ o :: o' :: t2 ->
  cvalid (mg_src o) = true -> mg_rready o = false -> mg_src o' = mg_src o.
Proof. intros. eapply mg_stable; eauto. Qed.

(** Progress: when all sinks are valid and the source side does not block, all
    sinks are acknowledged, and the combination is offered in the next cycle. *)
Theorem C10_merger_progress : forall A n ins t1 o o' t2, (1 <= n)%nat ->
  trace (@merger A n) ins = t1 ++ o :: o' :: t2 ->
  (forall i, (i < n)%nat -> cvalid (mg_sink o i) = true) -> cvalid (mg_src o) = false \/ mg_rready o = true ->
  (forall i, (i < n)%nat -> mg_sready o i = true) /\
  mg_src o' = Chan true (merged_row n (fun i => cbeat (mg_sink o i))).
Proof.
  intros A n ins t1 o o' t2 Hn H Hv Hr. apply trace_two in H.
  destruct H as (a & [c r] & [c' r'] & b & -> & _ & -> & ->).
  cbn [merger cout cnext mg_sink mg_src mg_rready mg_sready fst snd] in *.
  assert (E1 : cvalid (mg_merge n c) = true) by (apply all_below_true; auto).
  assert (E2 : pv_en (state (merger n) a) r = true).
  { cbn in Hr. unfold pv_en. destruct Hr as [-> | ->]; [reflexivity|apply orb_true_r]. }
  split.
  - intros i Hi. rewrite E1. exact E2.
  - cbn. rewrite E2. unfold mg_merge. cbn [mg_merge cvalid] in E1. rewrite E1. reflexivity.
Qed.

Definition c10_ins : list ((nat -> chan Z) * bool) :=
  [(fun i => match i with O => Chan true (Beat true false 1) | _ => Chan false (Beat false false 0) end, true);
   (fun i => match i with O => Chan true (Beat true false 1) | _ => Chan true (Beat false true 7) end, true);
   (fun i => Chan false (Beat false false 0), true)].
Example C10_nonvacuous :
  let t := trace (merger 2) c10_ins in
  mg_accepted 0 t = [Beat true false 1] /\ mg_accepted 1 t = [Beat false true 7] /\
  mg_emitted t = [Beat true true [1; 7]].
Proof. repeat split. Qed.

(* ================= C11 LastInserter ================= *)
Theorem C11_last_inserter_exact : forall A count ins t1 (o : obs A A) t2, 1 <= count ->
  strace (last_inserter count) ins = t1 ++ o :: t2 ->
  o_src o = Chan (cvalid (o_sink o))
              (Beat (bfirst (cbeat (o_sink o)))
                    (blast (cbeat (o_sink o)) || (open_len (emitted t1) =? count - 1))
                    (bdata (cbeat (o_sink o)))) /\
  o_sready o = o_rready o.
Proof. intros. eapply last_insert_exact; eauto. Qed.

Theorem C11_last_inserter_bound : forall A count ins, 1 <= count ->
  open_len (emitted (strace (@last_inserter A count) ins)) < count.
Proof. intros. now apply last_insert_bound. Qed.

(** LastInserter(count) around any stream module: the wrapped module sees some
    history of its own (with the same sink side), and what leaves is what it emits
    with the lasts inserted. *)
Theorem C11_last_inserter_wraps : forall A B count (m : smod A B) ins, 1 <= count ->
  exists ins1, map fst ins1 = map fst ins /\
    accepted (strace (compose m (last_inserter count)) ins) = accepted (strace m ins1) /\
    emitted (strace (compose m (last_inserter count)) ins) = insert_lasts count 0 (emitted (strace m ins1)).
Proof.
  intros A B count m ins Hc.
  destruct (compose_split m (last_inserter count) ins) as
    (i1 & i2 & _ & _ & F1 & _ & _ & Ha & Hm & He & _).
  exists i1. split; auto. split; auto. rewrite <- He, Hm. now apply last_insert_list.
Qed.

Example C11_nonvacuous :
  emitted (strace (last_inserter 2) (map (fun b => (Chan true b, true))
     [Beat true false 1; Beat false false 2; Beat false true 3; Beat true false 4; Beat false false 5])) =
  [Beat true false 1; Beat false true 2; Beat false true 3; Beat true false 4; Beat false true 5].
Proof. reflexivity. Qed.

(* ================= C12 - C14 LastOnTimeout ================= *)
Theorem C12_last_on_timeout_lossless : forall A (d : A) timeout ins, 0 <= timeout ->
  let t := strace (last_on_timeout d timeout) ins in
  exists l held, accepted t = l ++ held /\ (length held <= 1)%nat /\
    Forall2 (fun a e => bdata e = bdata a /\ (blast a = true -> blast e = true)) l (emitted t).
Proof. intros. now apply lot_lossless. Qed.

(** The sink is ready unless an offered word is being stalled. *)
Theorem C12_last_on_timeout_ready : forall A (d : A) timeout ins t1 o t2,
  strace (last_on_timeout d timeout) ins = t1 ++ o :: t2 ->
  o_sready o = negb (cvalid (o_src o)) || o_rready o.
Proof. intros A d timeout ins t1 o t2 H. apply trace_one in H. destruct H as (a & [c r] & b & _ & _ & ->). reflexivity. Qed.

(** C13: whenever a word is offered it is the oldest undelivered one, and last is
    set exactly if that word had last or the sink has just been idle for [timeout]
    cycles.  A held word is offered exactly if it had last, a further word is
    waiting at the sink, or the timeout has expired. *)
Theorem C13_last_only_on_last_or_timeout : forall A (d : A) timeout ins t1 o t2, 0 <= timeout ->
  strace (last_on_timeout d timeout) ins = t1 ++ o :: t2 ->
  cvalid (o_src o) = true ->
  exists w, nth_error (accepted t1) (length (emitted t1)) = Some w /\ bdata (cbeat (o_src o)) = bdata w /\
    (blast (cbeat (o_src o)) = true <-> blast w = true \/ idle_for timeout t1).
Proof.
  intros A d timeout ins t1 o t2 Ht E Hv.
  destruct (lot_exact d timeout Ht ins t1 o t2 E) as [[_ K]|(l & w & Ha & Hl & K)]; [congruence|].
  exists w. rewrite Ha, <- Hl, nth_error_app2, Nat.sub_diag by lia. cbv zeta in K. rewrite K. cbn.
  repeat split.
  - intros H. apply orb_true_iff in H. rewrite idle_for_trail by auto. destruct H as [|H]; [now left|right].
    now apply Z.leb_le.
  - rewrite idle_for_trail by auto. intros [->|H]; [reflexivity|]. apply orb_true_iff. right. now apply Z.leb_le.
Qed.

Theorem C13_flush_on_timeout : forall A (d : A) timeout ins t1 o t2, 0 <= timeout ->
  strace (last_on_timeout d timeout) ins = t1 ++ o :: t2 ->
  (cvalid (o_src o) = true <->
   exists w, accepted t1 <> [] /\ nth_error (accepted t1) (length (emitted t1)) = Some w /\
     (blast w = true \/ cvalid (o_sink o) = true \/ idle_for timeout t1)).
Proof.
  intros A d timeout ins t1 o t2 Ht E.
  destruct (lot_exact d timeout Ht ins t1 o t2 E) as [[HL K]|(l & w & Ha & Hl & K)].
  - rewrite K. split; [discriminate|]. intros (w & _ & Hw & _).
    assert (nth_error (accepted t1) (length (emitted t1)) = None) by (apply nth_error_None; lia). congruence.
  - cbv zeta in K. rewrite K. cbn [cvalid]. rewrite Ha, <- Hl, nth_error_app2, Nat.sub_diag by lia. cbn.
    pose proof (idle_for_trail timeout Ht t1) as Hid. rewrite !orb_true_iff, Z.leb_le. split.
    + intros H. exists w. split; [now destruct l|]. split; auto. tauto.
    + intros (w' & _ & Hw & H). injection Hw as <-. tauto.
Qed.

(** C14 is false: after the timeout a stalled word is offered with last, and the
    arrival of the next word withdraws that last. *)
Theorem C14_last_on_timeout_stable_refuted : exists ins,
  let t := strace (last_on_timeout 0 1) ins in
  stable_sink t /\ ~ stable_src t.
Proof.
  exists [(Chan true (Beat false false 5), false); (Chan false (Beat false false 0), false);
          (Chan true (Beat false false 6), false); (Chan true (Beat false false 6), false)].
  cbv zeta. split; [apply stable_sinkb_ok; reflexivity|].
  intros H. unfold stable_src in H. set (t := strace _ _) in H. vm_compute in t.
  specialize (H (firstn 2 t) (nth 2 t (hd (nth 0 t (Obs (Chan false (Beat false false 0)) false (Chan false (Beat false false 0)) false)) t))
                (nth 3 t (hd (nth 0 t (Obs (Chan false (Beat false false 0)) false (Chan false (Beat false false 0)) false)) t)) [] eq_refl eq_refl eq_refl).
  discriminate H.
Qed.

(** What holds for C14: valid and data are stable; last is stable unless the
    timeout had expired and then the sink became valid again. *)
Theorem C14_last_on_timeout_stable_partial : forall A (d : A) timeout ins t1 o o' t2, 0 <= timeout ->
  let t := strace (last_on_timeout d timeout) ins in
  stable_sink t -> t = t1 ++ o :: o' :: t2 ->
  cvalid (o_src o) = true -> o_rready o = false ->
  cvalid (o_src o') = true /\ bdata (cbeat (o_src o')) = bdata (cbeat (o_src o)) /\
  bfirst (cbeat (o_src o')) = bfirst (cbeat (o_src o)) /\
  (~ idle_for timeout t1 -> cvalid (o_sink o) = true -> blast (cbeat (o_src o')) = blast (cbeat (o_src o))) /\
  (blast (cbeat (o_src o)) = true -> cvalid (o_sink o') = false -> blast (cbeat (o_src o')) = true).
Proof.
  intros A d timeout ins t1 o o' t2 Ht t Hst E Hv Hr.
  destruct (lot_stable d timeout Ht ins t1 o o' t2 Hst E Hv Hr) as (H1 & H2 & H3 & H4 & H5).
  repeat split; auto. intros Hi. apply H4. rewrite idle_for_trail in Hi by auto. lia.
Qed.

Example C13_nonvacuous :
  emitted (strace (last_on_timeout 0 2)
    [(Chan true (Beat false false 5), true); (Chan true (Beat false true 6), true);
     (Chan true (Beat false false 7), true); (Chan false (Beat false false 0), true);
     (Chan false (Beat false false 0), true); (Chan false (Beat false false 0), true)]) =
  [Beat false false 5; Beat false true 6; Beat false true 7].
Proof. reflexivity. Qed.

(* ================= C15 RoundRobin ================= *)
(** [rr_next n g req] is the grant after an enabled cycle. *)
Theorem C15_round_robin_nearest : forall n g req, (g < n)%nat ->
  let g' := rr_next n g req in
  (g' < n)%nat /\
  ((g' <> g /\ req g' = true /\
    forall k, (k < n)%nat -> req k = true -> k <> g -> (cdist n g g' <= cdist n g k)%nat) \/
   (g' = g /\ forall k, (k < n)%nat -> req k = true -> k = g)).
Proof. intros. now apply rr_next_spec. Qed.

(** A continuously requesting index appears among the first n grants (the current
    one and those after the following n-1 enabled cycles). *)
Theorem C15_round_robin_fair : forall n g k reqs, (g < n)%nat -> (k < n)%nat ->
  Forall (fun q => q k = true) reqs -> (n - 1 <= length reqs)%nat ->
  In k (firstn n (rr_grants n g reqs)).
Proof. intros. now apply rr_fair. Qed.

Example C15_nonvacuous :
  rr_grants 4 1 [fun _ => true; (fun k => Nat.eqb k 0 || Nat.eqb k 2); (fun k => Nat.eqb k 0)] = [1; 2; 0; 0]%nat.
Proof. reflexivity. Qed.

(* ================= C16 - C18, C83 Arbiter ================= *)
(** Two consecutive transfers [o1], [o2] of different sinks, the first without
    last: then the first sink had been silent for [timeout] consecutive cycles
    while granted, in a window that ends no earlier than just before [o1]. *)
Theorem C16_arbiter_no_interleave : forall A n timeout ins t0 (o1 : arb_obs A) mid o2 t2,
  (2 <= n)%nat -> 0 <= timeout ->
  trace (arbiter n timeout) ins = t0 ++ o1 :: mid ++ o2 :: t2 ->
  cvalid (ao_src o1) && ao_rready o1 = true -> blast (cbeat (ao_src o1)) = false ->
  Forall (fun o => cvalid (ao_src o) && ao_rready o = false) mid ->
  ao_grant o2 <> ao_grant o1 ->
  exists a b c, t0 ++ o1 :: mid = a ++ b ++ c /\ Z.of_nat (length b) = timeout /\
    (length c <= S (length mid))%nat /\
    Forall (fun o => ao_grant o = ao_grant o1 /\ cvalid (ao_sink o (ao_grant o1)) = false) b.
Proof. intros. eapply arb_no_interleave; eauto. Qed.

(** In every cycle the source is the granted sink and only that sink sees ready. *)
Theorem C17_arbiter_cycle : forall A n timeout ins t1 (o : arb_obs A) t2, (2 <= n)%nat -> 0 <= timeout ->
  trace (arbiter n timeout) ins = t1 ++ o :: t2 ->
  (ao_grant o < n)%nat /\ ao_src o = ao_sink o (ao_grant o) /\
  forall i, ao_sready o i = (Nat.eqb i (ao_grant o) && ao_rready o).
Proof. intros. eapply arb_cycle; eauto. Qed.

(** The transfers on the source, tagged with an index, project to what each sink
    delivered (for any number of sinks). *)
Theorem C17_arbiter_lossless : forall A n timeout ins, (1 <= n)%nat -> 0 <= timeout ->
  let t := trace (@arbiter A n timeout) ins in
  exists tagged, arb_emitted t = map snd tagged /\
    Forall (fun p => (fst p < n)%nat) tagged /\
    forall i, (i < n)%nat -> arb_accepted i t = map snd (filter (fun p => Nat.eqb (fst p) i) tagged).
Proof.
  intros A n timeout ins Hn Ht t.
  destruct (Nat.eq_dec n 1) as [->|N1].
  { exists []. pose proof (arb_single (A := A) timeout ins) as F. fold t in F. clearbody t.
    induction F as [|o t [H1 H2] _ (I1 & _ & I3)]; [repeat split; constructor|].
    split; [|split; [constructor|]].
    - unfold arb_emitted. cbn. unfold xfer. rewrite H1. exact I1.
    - intros i Hi. unfold arb_accepted. cbn. unfold xfer at 1. rewrite H2, andb_false_r. exact (I3 i Hi). }
  assert (H2n : (2 <= n)%nat) by lia. clear N1 Hn. rename H2n into Hn.
  exists (flat_map (fun o => map (fun b => (ao_grant o, b)) (xfer (ao_src o) (ao_rready o))) t).
  assert (HC : Forall (fun o => (ao_grant o < n)%nat /\ ao_src o = ao_sink o (ao_grant o) /\
             forall i, ao_sready o i = (Nat.eqb i (ao_grant o) && ao_rready o)) t).
  { apply Forall_forall. intros o Ho. apply in_split in Ho. destruct Ho as (t1 & t2 & E).
    eapply arb_cycle; eauto. }
  clearbody t. induction HC as [|o t (H1 & H2 & H3) _ (I1 & I2 & I3)].
  - repeat split; constructor.
  - split; [|split].
    + cbn. rewrite map_app, map_map. cbn. rewrite map_id. now rewrite <- I1.
    + cbn. apply Forall_app. split; auto. apply Forall_map. unfold xfer.
      destruct (_ && _); repeat constructor. exact H1.
    + intros i Hi. cbn. rewrite filter_app, map_app, <- I3 by auto. unfold arb_accepted at 1. cbn.
      f_equal. rewrite H3, H2. unfold xfer.
      destruct (Nat.eqb_spec i (ao_grant o)) as [->|Hne]; cbn [andb].
      * destruct (_ && _); [|reflexivity]. cbn. rewrite Nat.eqb_refl. reflexivity.
      * rewrite andb_false_r. destruct (_ && _); [|reflexivity]. cbn.
        destruct (Nat.eqb_spec (ao_grant o) i); [congruence|reflexivity].
Qed.

(** C18.  While sink k is valid and not granted, the grant changes at most n-2
    times (so it is given to at most n-1 other sinks) ... *)
Theorem C18_arbiter_bounded_wait : forall A n timeout ins t1 (seg : list (arb_obs A)) t2 k,
  (2 <= n)%nat -> 0 <= timeout ->
  trace (arbiter n timeout) ins = t1 ++ seg ++ t2 -> (k < n)%nat ->
  Forall (fun o => cvalid (ao_sink o k) = true /\ ao_grant o <> k) seg ->
  (changes (map ao_grant seg) <= n - 2)%nat.
Proof. intros. eapply arb_bounded_wait; eauto. Qed.

(** ... the end of a packet hands the grant over at once ... *)
Theorem C18_arbiter_handover : forall A n timeout ins t1 (o o' : arb_obs A) t2 k,
  (2 <= n)%nat -> 0 <= timeout ->
  trace (arbiter n timeout) ins = t1 ++ o :: o' :: t2 -> (k < n)%nat ->
  cvalid (ao_sink o k) = true -> ao_grant o <> k ->
  cvalid (ao_src o) = true -> ao_rready o = true -> blast (cbeat (ao_src o)) = true ->
  ao_grant o' <> ao_grant o.
Proof. intros. eapply arb_handover; eauto. Qed.

(** ... and a granted sink that stays silent loses the grant within timeout + 1
    cycles. *)
Theorem C18_arbiter_stall_out : forall A n timeout ins t1 (seg : list (arb_obs A)) o' t2 g k,
  (2 <= n)%nat -> 0 <= timeout -> (k < n)%nat -> g <> k ->
  trace (arbiter n timeout) ins = t1 ++ seg ++ o' :: t2 -> timeout < Z.of_nat (length seg) ->
  Forall (fun o => cvalid (ao_sink o k) = true /\ cvalid (ao_sink o g) = false) seg ->
  exists o, In o (seg ++ [o']) /\ ao_grant o <> g.
Proof.
  intros A n timeout ins t1 seg o' t2 g k Hn Ht Hk Hne E HL HF.
  apply trace_seg in E. destruct E as (i0 & i1 & i2 & -> & <- & <- & E).
  set (m := arbiter n timeout) in *.
  assert (Hi : arb_inv n timeout (trace m i0) (state m i0)) by (now apply arb_inv_run).
  destruct Hi as (Hg & Hs & _). set (s := state m i0) in *. clearbody s.
  destruct i2 as [|[c r] i2]; [discriminate|]. cbn [trace_from] in E. injection E as E _.
  rewrite trace_from_length in HL.
  destruct (Nat.eq_dec (arb_grant s) g) as [Eg|Hd].
  - subst g. destruct (arb_silent_from n timeout Hn i1 s k) as (pre & post & -> & Hx); auto; [lia|].
    rewrite trace_from_app. fold m in Hx.
    destruct post as [|[c1 r1] post].
    + rewrite app_nil_r in *. exists o'. split; [apply in_or_app; right; now left|]. rewrite <- E. exact Hx.
    + exists (cout m (state_from m s pre) (c1, r1)). split; [|exact Hx].
      apply in_or_app. left. apply in_or_app. right. now left.
  - destruct i1 as [|[c1 r1] i1]; [simpl in HL; lia|]. exists (cout m s (c1, r1)). split; [now left|exact Hd].
Qed.

(** With one sink there is no arbitration: the arbiter takes nothing and shows nothing, whatever
    is offered (the Case of that sink never matches). *)
Theorem C18_one_sink : forall A timeout ins,
  let t := trace (@arbiter A 1 timeout) ins in
  arb_emitted t = [] /\ (forall i, arb_accepted i t = []) /\ Forall (fun o => cvalid (ao_src o) = false) t.
Proof.
  intros A timeout ins t. pose proof (arb_single (A := A) timeout ins) as F. fold t in F. clearbody t.
  induction F as [|o t [H1 H2] _ (I1 & I2 & I3)]; [repeat split; constructor|].
  split; [|split; [|now constructor]].
  - unfold arb_emitted. cbn. unfold xfer. rewrite H1. exact I1.
  - intros i. unfold arb_accepted. cbn. unfold xfer at 1. rewrite H2, andb_false_r. apply I2.
Qed.
(** ... a beat offered for ever; the same beat passes at once when there is a second sink. *)
Example C18_one_sink_nonvacuous :
  let ins := repeat (fun i : nat => match i with O => Chan true (Beat true true 5) | _ => Chan false (Beat false false 0) end, true) 20 in
  arb_accepted 0 (trace (arbiter 1 4) ins) = [] /\ length (arb_accepted 0 (trace (arbiter 2 4) ins)) = 20%nat.
Proof. vm_compute. split; reflexivity. Qed.

(** C83 is false: when the stall timer fires in the cycle in which the granted
    sink comes back, that sink's offered beat is withdrawn from the source. *)
Theorem C83_arbiter_source_stable_refuted : exists ins,
  let t := trace (@arbiter Z 2 2) ins in
  arb_stable_sinks 2 t /\
  exists t1 o o' t2, t = t1 ++ o :: o' :: t2 /\ cvalid (ao_src o) = true /\ ao_rready o = false /\ ao_src o' <> ao_src o.
Proof.
  pose (none := Chan false (Beat false false 0)).
  pose (a0 := Chan true (Beat true false 1)). pose (a1 := Chan true (Beat false true 2)).
  pose (b0 := Chan true (Beat true true 9)).
  exists [(fun i => match i with O => a0 | _ => none end, true);
          (fun i => match i with O => none | _ => b0 end, false);
          (fun i => match i with O => none | _ => b0 end, false);
          (fun i => match i with O => a1 | _ => b0 end, false);
          (fun i => match i with O => a1 | _ => b0 end, false)].
  cbv zeta. split.
  - intros i t1 o o' t2 Hi E Hv Hr.
    destruct t1 as [|? [|? [|? [|? [|? t1]]]]]; injection E; intros; subst; cbn in *;
      destruct i as [|[|i]]; try reflexivity; try discriminate; try lia; destruct t1; discriminate.
  - eexists [_; _; _], _, _, []. split; [reflexivity|]. repeat split. cbn. discriminate.
Qed.

(** What holds for C83: the offered beat is kept unless the granted sink had just
    been silent for [timeout] cycles. *)
Theorem C83_arbiter_source_stable_partial : forall A n timeout ins t1 (o o' : arb_obs A) t2,
  (2 <= n)%nat -> 0 <= timeout ->
  let t := trace (arbiter n timeout) ins in
  arb_stable_sinks n t -> t = t1 ++ o :: o' :: t2 ->
  cvalid (ao_src o) = true -> ao_rready o = false ->
  ao_src o' = ao_src o \/
  exists a b, t1 = a ++ b /\ Z.of_nat (length b) = timeout /\
    Forall (fun p => ao_grant p = ao_grant o /\ cvalid (ao_sink p (ao_grant o)) = false) b.
Proof.
  intros A n timeout ins t1 o o' t2 Hn Ht t Hst E Hv Hr.
  destruct (Nat.eq_dec (ao_grant o') (ao_grant o)) as [Eg|Hne].
  - left. destruct (arb_cycle n timeout Hn Ht ins t1 o (o' :: t2) E) as (G1 & G2 & G3).
    assert (E' : trace (arbiter n timeout) ins = (t1 ++ [o]) ++ o' :: t2) by (now rewrite <- app_assoc).
    destruct (arb_cycle n timeout Hn Ht ins _ o' t2 E') as (K1 & K2 & K3).
    rewrite K2, G2, Eg. apply (Hst (ao_grant o) t1 o o' t2); auto.
    + now rewrite <- G2.
    + rewrite G3, Hr. apply andb_false_r.
  - right. destruct (arb_moves n timeout Hn Ht ins t1 o o' t2 E Hne Hv) as [H|H]; auto.
    rewrite Hr in H. discriminate.
Qed.

Definition c17_ins : list ((nat -> chan Z) * bool) :=
  let none := Chan false (Beat false false 0) in
  [(fun i => match i with O => Chan true (Beat true false 1) | _ => Chan true (Beat true true 9) end, true);
   (fun i => match i with O => Chan true (Beat false true 2) | _ => Chan true (Beat true true 9) end, true);
   (fun i => match i with O => none | _ => Chan true (Beat true true 9) end, true)].
Example C17_nonvacuous :
  let t := trace (arbiter 2 10) c17_ins in
  arb_emitted t = [Beat true false 1; Beat false true 2; Beat true true 9] /\
  arb_accepted 0 t = [Beat true false 1; Beat false true 2] /\ arb_accepted 1 t = [Beat true true 9] /\
  map ao_grant t = [0; 0; 1]%nat.
Proof. repeat split. Qed.

(** The hypotheses of C16 are met by a stalled packet (timeout 2). *)
Example C16_nonvacuous :
  let none := Chan false (Beat false false 0) in
  let b0 := Chan true (Beat true true 9) in
  map (fun o => (ao_grant o, cvalid (ao_src o) && ao_rready o))
   (trace (arbiter 2 2) [(fun i => match i with O => Chan true (Beat true false 1) | _ => b0 end, true);
     (fun i => match i with O => none | _ => b0 end, true); (fun i => match i with O => none | _ => b0 end, true);
     (fun i => match i with O => none | _ => b0 end, true); (fun i => match i with O => none | _ => b0 end, true)]) =
  [(0, true); (0, false); (0, false); (0, false); (1, true)]%nat.
Proof. reflexivity. Qed.

(** Cases for the theorems of LastOnTimeout: a word, silence for the timeout, a stalled flush. *)
Definition lot_ins : list (chan Z * bool) :=
  let none := Chan false (Beat false false 0) in
  [(Chan true (Beat false false 5), true); (none, true); (none, true); (none, false); (none, true); (Chan true (Beat false true 6), true); (none, true)].
Example C12_nonvacuous :
  let t := strace (last_on_timeout 0 2) lot_ins in
  accepted t = [Beat false false 5; Beat false true 6] /\ emitted t = [Beat false true 5; Beat false true 6] /\ map o_sready t = [true; true; true; false; true; true; true].
Proof. vm_compute. repeat split. Qed.
Example C14_nonvacuous : exists t1 o o' t2,
  let t := strace (last_on_timeout 0 2) lot_ins in
  stable_sink t /\ t = t1 ++ o :: o' :: t2 /\ cvalid (o_src o) = true /\ o_rready o = false /\ blast (cbeat (o_src o)) = true /\ cvalid (o_sink o') = false.
Proof.
  eexists [_; _; _], _, _, _. cbv zeta. split; [apply stable_sinkb_ok; reflexivity|]. split; [vm_compute; reflexivity|]. repeat split.
Qed.
(** Cases for the waiting theorems of the arbiter: with three sinks the third waits for two others;
    with the granted sink silent it is passed over. *)
Definition arb_ins : list ((nat -> chan Z) * bool) :=
  repeat (fun i => match i with 2%nat => Chan true (Beat true true 9) | _ => Chan true (Beat true true 1) end, true) 3.
Example C18_nonvacuous :
  (exists seg t2, trace (arbiter 3 5) arb_ins = seg ++ t2 /\ length seg = 2%nat /\ Forall (fun o => cvalid (ao_sink o 2) = true /\ ao_grant o <> 2%nat) seg /\ changes (map ao_grant seg) = 1%nat) /\
  (exists o o' t2, trace (arbiter 3 5) arb_ins = o :: o' :: t2 /\ cvalid (ao_sink o 2) = true /\ ao_grant o = 0%nat /\ cvalid (ao_src o) = true /\ ao_rready o = true /\
     blast (cbeat (ao_src o)) = true /\ ao_grant o' = 1%nat) /\
  (exists seg o', trace (arbiter 2 2) (repeat (fun i => match i with O => Chan false (Beat false false 0) | _ => Chan true (Beat true true 9) end, true) 5) = seg ++ [o'] /\
     length seg = 4%nat /\ Forall (fun o => cvalid (ao_sink o 1) = true /\ cvalid (ao_sink o 0) = false) seg /\ ao_grant o' = 1%nat).
Proof.
  split; [eexists [_; _], _; split; [reflexivity|]; split; [reflexivity|]; split; [repeat constructor; discriminate|reflexivity]|].
  split; [eexists _, _, _; split; [reflexivity|repeat split]|].
  eexists [_; _; _; _], _. split; [reflexivity|]. split; [reflexivity|]. split; [repeat constructor|reflexivity].
Qed.
(** Two packets compete and the granted one is held up: the beat stays. *)
Example C83_nonvacuous : exists t1 o o' t2,
  let t := trace (@arbiter Z 2 2) ((fun i => Chan true (Beat true true (Z.of_nat i)), true) :: repeat (fun i => Chan true (Beat true true (Z.of_nat i)), false) 3) in
  arb_stable_sinks 2 t /\ t = t1 ++ o :: o' :: t2 /\ cvalid (ao_src o) = true /\ ao_rready o = false /\ ao_grant o = 1%nat /\ ao_src o' = ao_src o.
Proof.
  eexists [_], _, _, [_]. cbv zeta. split; [|split; [reflexivity|repeat split]].
  intros i u1 o o' t2 Hi E Hv Hr. destruct u1 as [|? [|? [|? [|? u1]]]]; injection E; intros; subst; cbn in *;
    destruct i as [|[|i]]; try reflexivity; try discriminate; try lia; destruct u1; discriminate.
Qed.

Print Assumptions C08_stitcher_exact.
Print Assumptions C08_stitcher_packet_count.
Print Assumptions C09_splitter_exactly_once.
Print Assumptions C09_splitter_cycle.
Print Assumptions C10_merger_zips.
Print Assumptions C10_merger_lockstep.
Print Assumptions C10_merger_stable.
Print Assumptions C10_merger_progress.
Print Assumptions C11_last_inserter_exact.
Print Assumptions C11_last_inserter_bound.
Print Assumptions C11_last_inserter_wraps.
Print Assumptions C12_last_on_timeout_lossless.
Print Assumptions C13_last_only_on_last_or_timeout.
Print Assumptions C13_flush_on_timeout.
Print Assumptions C14_last_on_timeout_stable_refuted.
Print Assumptions C14_last_on_timeout_stable_partial.
Print Assumptions C15_round_robin_nearest.
Print Assumptions C15_round_robin_fair.
Print Assumptions C16_arbiter_no_interleave.
Print Assumptions C17_arbiter_cycle.
Print Assumptions C17_arbiter_lossless.
Print Assumptions C18_arbiter_bounded_wait.
Print Assumptions C18_arbiter_handover.
Print Assumptions C18_arbiter_stall_out.
Print Assumptions C18_one_sink.
Print Assumptions C83_arbiter_source_stable_refuted.
Print Assumptions C83_arbiter_source_stable_partial.
Print Assumptions C12_last_on_timeout_ready.
