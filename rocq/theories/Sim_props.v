(** Simulation helpers: C72, C73, C95, C96. *)
From Verif Require Import Stream Sim_model.

(** ** C72 *)
Definition sd_sent {A} (t : list (sd_obs A)) : list (option A) :=
  flat_map (fun o => if sdo_valid o && sdo_ready o then [sdo_data o] else []) t.
Section Sender.
  Context {A : Type} (items : list A) (delay : nat).
  Notation snd_ := (sim_sender items delay).
  Definition sd_holds (t : list (sd_obs A)) (s : sd_state A) : Prop :=
    sd_sent t = map Some (firstn (sd_i s) items) /\
    match sd_pc_ s with
    | SdDelay _ => sd_i s = O /\ sd_valid s = false
    | SdRun => (sd_i s < length items)%nat /\ sd_data s = nth_error items (sd_i s)
    | SdEnd => sd_i s = length items /\ sd_valid s = false
    end.
  Lemma firstn_succ (l : list A) i x : nth_error l i = Some x -> firstn (S i) l = firstn i l ++ [x].
  Proof. revert i. induction l as [|y l IH]; intros [|i] E; try discriminate; cbn in *; [now injection E as ->|]. now rewrite (IH i E). Qed.
  Lemma sd_body_holds t i v ov r rnd d :
    sd_sent t = map Some (firstn i items) -> (i <= length items)%nat -> (i = length items -> v = false) ->
    sd_holds t (sd_body items i v ov r rnd d).
  Proof.
    intros H1 H2 H3. unfold sd_body, sd_holds. destruct (nth_error items i) as [x|] eqn:E; cbn [sd_i sd_pc_ sd_data sd_valid].
    - split; [exact H1|]. split; [|now rewrite E]. apply nth_error_Some. congruence.
    - apply nth_error_None in E. split; [exact H1|]. split; [lia|]. apply H3. lia.
  Qed.
  Lemma sd_inv ins : sd_holds (trace snd_ ins) (state snd_ ins).
  Proof.
    revert ins. apply (run_inv snd_ sd_holds); [repeat split|]. intros t s i [H1 H2].
    set (o := cout snd_ s i).
    assert (Ho : sd_sent (t ++ [o]) = sd_sent t ++ if sd_valid s && sd_ready i then [sd_data s] else []).
    { unfold sd_sent. rewrite flat_map_app. cbn [flat_map]. now rewrite app_nil_r. }
    clearbody o. cbn [cnext sim_sender]. destruct (sd_pc_ s) as [[|n]| |] eqn:Ep.
    - destruct H2 as [Hi Hv]. rewrite Hv in *. cbn [andb] in Ho. rewrite app_nil_r in Ho. apply sd_body_holds; [|lia|auto].
      rewrite Ho, H1, Hi. reflexivity.
    - destruct H2 as [Hi Hv]. rewrite Hv in Ho. cbn [andb] in Ho. rewrite app_nil_r in Ho. unfold sd_holds. cbn [sd_pc_ sd_i sd_valid]. rewrite Ho. auto.
    - destruct H2 as [Hi Hd]. destruct (sd_valid s && sd_ready i).
      + apply sd_body_holds; [|lia|auto]. rewrite Ho, H1, Hd. destruct (nth_error items (sd_i s)) as [x|] eqn:E; [|apply nth_error_None in E; lia].
        rewrite (firstn_succ _ _ _ E), map_app. reflexivity.
      + rewrite app_nil_r in Ho. apply sd_body_holds; [congruence|lia|lia].
    - destruct H2 as [Hi Hv]. rewrite Hv in Ho. cbn [andb] in Ho. rewrite app_nil_r in Ho. unfold sd_holds. rewrite Ep, Ho. auto.
  Qed.
End Sender.
(** The transfers are a prefix of the list; once all is sent, valid stays low. *)
Theorem C72_prefix : forall A (items : list A) delay ins, let t := trace (sim_sender items delay) ins in
  exists n, (n <= length items)%nat /\ sd_sent t = map Some (firstn n items).
Proof.
  intros A items delay ins t. destruct (sd_inv items delay ins) as [H1 H2]. fold t in H1. eexists. split; [|exact H1].
  destruct (sd_pc_ _); [destruct H2 as [-> _]; lia|lia|lia].
Qed.
Theorem C72_ends : forall A (items : list A) delay ins t1 o t2, trace (sim_sender items delay) ins = t1 ++ o :: t2 ->
  sd_sent t1 = map Some items -> sdo_valid o = false.
Proof.
  intros A items delay ins t1 o t2 E Hs. apply trace_one in E. destruct E as (a & i & b & -> & <- & ->).
  destruct (sd_inv items delay a) as [H1 H2]. rewrite H1 in Hs. apply (f_equal (@length _)) in Hs. rewrite !map_length, firstn_length in Hs.
  cbn [cout sim_sender sdo_valid]. destruct (sd_pc_ _); [tauto|lia|tauto].
Qed.
(** An item offered and not taken is offered again. *)
Theorem C72_held : forall A (items : list A) delay ins t1 o o' t2, trace (sim_sender items delay) ins = t1 ++ o :: o' :: t2 ->
  sdo_valid o = true -> sdo_ready o = false -> sdo_valid o' = true /\ sdo_data o' = sdo_data o.
Proof.
  intros A items delay ins t1 o o' t2 E Hv Hr. apply trace_two in E. destruct E as (a & i & i' & b & -> & _ & -> & ->).
  destruct (sd_inv items delay a) as [H1 H2]. set (s := state _ a) in *. clearbody s.
  cbn [cout cnext sim_sender sdo_valid sdo_data sdo_ready] in *. destruct (sd_pc_ s) as [[|n]| |]; try (destruct H2; congruence).
  destruct H2 as [Hi Hd]. rewrite Hv, Hr. cbn [andb]. unfold sd_body. rewrite Hd. destruct (nth_error items (sd_i s)) as [x|] eqn:E; [|apply nth_error_None in E; lia].
  cbn. auto.
Qed.
Lemma sd_delay {A} (items : list A) delay ins n : sd_pc_ (state (sim_sender items delay) ins) = SdDelay n -> n = (delay - length ins)%nat /\ (length ins <= delay)%nat.
Proof.
  rewrite <- (trace_length (sim_sender items delay) ins). revert n.
  apply (run_inv (sim_sender items delay) (fun t s => forall n, sd_pc_ s = SdDelay n -> n = (delay - length t)%nat /\ (length t <= delay)%nat)).
  - cbn. intros n E. injection E as <-. lia.
  - intros t s i H n. rewrite app_length. cbn [length cnext sim_sender].
    assert (B : forall i v ov r rnd d, sd_pc_ (sd_body items i v ov r rnd d) <> SdDelay n) by (intros; unfold sd_body; destruct (nth_error _ _); discriminate).
    destruct (sd_pc_ s) as [[|m]| |] eqn:Ep; intros E; try (now apply B in E); try congruence; [|destruct (_ && _); now apply B in E].
    cbn in E. injection E as <-. destruct (H _ eq_refl). lia.
Qed.
(** Progress: with an item left, the draw succeeding makes valid high in the next cycle. *)
Theorem C72_progress : forall A (items : list A) delay ins t1 o o' t2, trace (sim_sender items delay) ins = t1 ++ o :: o' :: t2 ->
  (delay <= length t1)%nat -> (length (sd_sent (t1 ++ [o])) < length items)%nat -> sdo_rnd o = true -> sdo_valid o' = true.
Proof.
  intros A items delay ins t1 o o' t2 E Hd Hl Hr. apply trace_two in E. destruct E as (a & i & i' & b & -> & <- & -> & ->).
  rewrite trace_length in Hd.
  pose proof (sd_delay items delay a) as P.
  destruct (sd_inv items delay a) as [H1 H2]. set (s := state (sim_sender items delay) a) in *. set (t := trace (sim_sender items delay) a) in *. clearbody t s.
  assert (Ho : sd_sent (t ++ [cout (sim_sender items delay) s i]) = sd_sent t ++ if sd_valid s && sd_ready i then [sd_data s] else []).
  { unfold sd_sent. rewrite flat_map_app. cbn [flat_map]. now rewrite app_nil_r. }
  rewrite Ho, H1, app_length, map_length, firstn_length in Hl. clear Ho.
  assert (N : forall k, (k < length items)%nat -> exists x, nth_error items k = Some x).
  { intros k Hk. destruct (nth_error items k) eqn:E; [eauto|apply nth_error_None in E; lia]. }
  cbn [cout cnext sim_sender sdo_valid sdo_rnd] in *. destruct (sd_pc_ s) as [n| |] eqn:Ep.
  - destruct (P n eq_refl). assert (n = 0%nat) as -> by lia. destruct H2 as [Hi Hv]. unfold sd_body.
    destruct (N 0%nat) as [x ->]; [lia|]. cbn [sd_valid]. rewrite Hv, Hr. reflexivity.
  - destruct H2 as [Hi Hdt]. unfold sd_body. destruct (sd_valid s) eqn:Ev, (sd_ready i); cbn [andb orb negb length] in *.
    + destruct (N (S (sd_i s))) as [x ->]; [lia|]. cbn [sd_valid]. now rewrite Hr.
    + destruct (N (sd_i s)) as [x ->]; [lia|]. reflexivity.
    + destruct (N (sd_i s)) as [x ->]; [lia|]. cbn [sd_valid]. now rewrite Hr.
    + destruct (N (sd_i s)) as [x ->]; [lia|]. cbn [sd_valid]. now rewrite Hr.
  - destruct H2 as [Hi Hv]. rewrite Hi in Hl. lia.
Qed.
(** The draw failing, nothing new is offered; and nothing is offered before the delay is over. *)
Theorem C72_throttled : forall A (items : list A) delay ins t1 o o' t2, trace (sim_sender items delay) ins = t1 ++ o :: o' :: t2 ->
  sdo_rnd o = false -> (sdo_valid o && negb (sdo_ready o)) = false -> sdo_valid o' = false.
Proof.
  intros A items delay ins t1 o o' t2 E Hr Hn. apply trace_two in E. destruct E as (a & i & i' & b & -> & _ & -> & ->).
  destruct (sd_inv items delay a) as [H1 H2]. set (s := state _ a) in *. clearbody s.
  cbn [cout cnext sim_sender sdo_valid sdo_rnd sdo_ready] in *.
  assert (B : forall k v d, sd_valid (sd_body items k v (sd_valid s) (sd_ready i) (sd_rnd i) d) = v).
  { intros k v d. unfold sd_body. rewrite Hr, andb_false_r. destruct (nth_error items k); reflexivity. }
  destruct (sd_pc_ s) as [[|n]| |].
  - rewrite B. tauto.
  - cbn. tauto.
  - destruct (sd_valid s), (sd_ready i); cbn [andb negb] in *; rewrite ?B; congruence.
  - tauto.
Qed.
Theorem C72_delay : forall A (items : list A) delay ins t1 o t2, trace (sim_sender items delay) ins = t1 ++ o :: t2 ->
  (length t1 <= delay)%nat -> sdo_valid o = false.
Proof.
  intros A items delay ins t1 o t2 E Hd. apply trace_one in E. destruct E as (a & i & b & -> & <- & ->). rewrite trace_length in Hd.
  cbn [cout sim_sender sdo_valid]. set (c := sim_sender items delay) in *.
  assert (P : sd_valid (state c a) = false /\ sd_pc_ (state c a) = SdDelay (delay - length a)%nat); [|tauto].
  clear b i. induction a as [|i a IH] using rev_ind.
  - cbn. rewrite Nat.sub_0_r. auto.
  - rewrite app_length in *. cbn [length] in *. destruct IH as [I1 I2]; [lia|]. unfold state in *. rewrite state_from_app. cbn [state_from].
    set (s := state_from c (creset c) a) in *. clearbody s. unfold c. cbn [cnext sim_sender]. rewrite I2.
    destruct (delay - length a)%nat eqn:E; [lia|]. cbn. split; [exact I1|]. f_equal. lia.
Qed.
Example C72_nonvacuous :
  let t := trace (sim_sender [7; 8] 1) (map (fun p => SdIn (fst p) (snd p)) [(true,true); (true,true); (false,false); (true,true); (true,false); (true,true); (true,true); (true,true)]) in
  sd_sent t = [Some 7; Some 8] /\ map sdo_valid t = [false; false; true; true; true; false; false; false].
Proof. vm_compute. auto. Qed.

(** ** C73 *)
Definition rv_transfers {A} (t : list (rv_obs A)) : list A := flat_map (fun o => if rvo_valid o && rvo_ready o then [rvo_beat o] else []) t.
Definition upto {A} (len : option nat) (l : list A) : list A := match len with Some n => firstn n l | None => l end.
Section Receiver.
  Context {A : Type} (len : option nat) (full : bool) (delay : nat).
  Notation rcv := (sim_receiver (A := A) len full delay).
  Definition rv_holds (t : list (rv_obs A)) (s : rv_state A) : Prop :=
    match rv_pc_ s with
    | RvDelay _ => rv_ready s = false /\ rv_data s = [] /\ rv_transfers t = []
    | RvRun => rv_data s = rv_transfers t /\ match len with Some n => (length (rv_data s) < n)%nat | None => True end
    | RvEnd => rv_data s = upto len (rv_transfers t) /\ exists n, len = Some n /\ length (rv_data s) = n
    end.
  Lemma rv_body_holds t s data v rnd : data = rv_transfers t -> match len with Some n => (length data <= n)%nat | None => True end -> rv_holds t (rv_body len full s data v rnd).
  Proof.
    intros -> Hl. unfold rv_body, rv_holds, rv_done. destruct len as [n|]; [|cbn; auto].
    destruct (Nat.eqb_spec (length (rv_transfers t)) n) as [<-|]; cbn [rv_pc_ rv_data rv_ready upto].
    - split; [now rewrite firstn_all|eauto].
    - split; [reflexivity|lia].
  Qed.
  Lemma rv_inv ins : rv_holds (trace rcv ins) (state rcv ins).
  Proof.
    revert ins. apply (run_inv rcv rv_holds); [cbn; auto|]. intros t s i H. set (o := cout rcv s i).
    assert (Ho : rv_transfers (t ++ [o]) = rv_transfers t ++ if rvi_valid i && rv_ready s then [rvi_beat i] else []).
    { unfold rv_transfers. rewrite flat_map_app. cbn [flat_map]. now rewrite app_nil_r. }
    clearbody o. unfold rv_holds in H. cbn [cnext sim_receiver]. destruct (rv_pc_ s) as [[|n]| |] eqn:Ep.
    - destruct H as (Hr & Hd & Ht). rewrite Hr, andb_false_r, app_nil_r in Ho. apply rv_body_holds; [congruence|]. rewrite Hd. destruct len; cbn; auto; lia.
    - destruct H as (Hr & Hd & Ht). rewrite Hr, andb_false_r, app_nil_r in Ho. unfold rv_holds. cbn. rewrite Ho. auto.
    - destruct H as (Hd & Hl). apply rv_body_holds.
      + rewrite Ho, <- Hd. destruct (_ && _); [reflexivity|now rewrite app_nil_r].
      + destruct len as [n|]; [|auto]. destruct (_ && _); [rewrite app_length; cbn|]; lia.
    - destruct H as (Hd & n & Hn & Hl). unfold rv_holds. rewrite Ep, Ho. split; [|eauto]. unfold upto in *. rewrite Hn in *. rewrite firstn_app, Hd. pose proof Hl as Hl'. rewrite Hd, firstn_length in Hl'. replace (n - length (rv_transfers t))%nat with O by lia. cbn. now rewrite app_nil_r.
  Qed.
End Receiver.
(** The record is exactly the transfers, in order, up to [len]. *)
Theorem C73_recorded : forall A len full delay ins, let c := sim_receiver (A := A) len full delay in
  rv_data (state c ins) = upto len (rv_transfers (trace c ins)).
Proof.
  intros A len full delay ins c. pose proof (rv_inv len full delay ins) as H. fold c in H. unfold rv_holds in H.
  destruct (rv_pc_ _).
  - destruct H as (_ & -> & ->). destruct len as [[|]|]; reflexivity.
  - destruct H as [H Hl]. rewrite <- H. destruct len as [n|]; [|reflexivity]. cbn. rewrite firstn_all2; [reflexivity|lia].
  - tauto.
Qed.
(** With a length, once it is reached the receiver stops with ready high: the design goes
    on transferring beats that are not recorded. *)
Theorem C73_overrun : forall A n full delay ins t1 o t2, (0 < n)%nat -> trace (sim_receiver (A := A) (Some n) full delay) ins = t1 ++ o :: t2 ->
  (n <= length (rv_transfers t1))%nat -> rvo_ready o = true.
Proof.
  intros A n full delay ins t1 o t2 Hn E Hl. apply trace_one in E. destruct E as (a & i & b & -> & <- & ->).
  set (c := sim_receiver (Some n) full delay) in *.
  assert (P : rv_holds (Some n) (trace c a) (state c a) /\ (rv_pc_ (state c a) = RvEnd -> rv_ready (state c a) = true)).
  { split; [apply rv_inv|]. clear Hl.
    enough (G : (exists a', trace c a = trace c a' /\ state c a = state c a') /\ (rv_pc_ (state c a) = RvEnd -> rv_ready (state c a) = true)) by tauto.
    apply (run_inv c (fun t s => (exists a', t = trace c a' /\ s = state c a') /\ (rv_pc_ s = RvEnd -> rv_ready s = true))).
    - split; [exists []; auto|discriminate].
    - intros t s i' [(a' & -> & ->) H]. split.
      { exists (a' ++ [i']). unfold trace, state. rewrite trace_from_app, state_from_app. auto. }
      pose proof (rv_inv (Some n) full delay a') as I. fold c in I. set (s := state c a') in *. set (t := trace c a') in *. clearbody s t.
      unfold rv_holds in I. unfold c. cbn [cnext sim_receiver]. unfold rv_body, rv_done.
      destruct (rv_pc_ s) as [[|m]| |]; [| | |intros _; exact (H eq_refl)].
      + destruct I as (_ & Hd & _). rewrite Hd. cbn [length]. destruct (Nat.eqb_spec 0 n); [lia|discriminate].
      + discriminate.
      + destruct I as (_ & Hl). destruct (Nat.eqb_spec (length (if rvi_valid i' && rv_ready s then rv_data s ++ [rvi_beat i'] else rv_data s)) n) as [E|]; [|discriminate].
        intros _. cbn [rv_ready]. destruct (rv_ready s); [reflexivity|]. rewrite andb_false_r in E. lia. }
  destruct P as [P1 P2]. unfold c. cbn [cout sim_receiver rvo_ready]. fold c. apply P2. unfold rv_holds in P1.
  destruct (rv_pc_ (state c a)) as [m| |]; [destruct P1 as (_ & _ & P1); rewrite P1 in Hl; cbn in Hl; lia| |reflexivity].
  destruct P1 as [P1 P3]. rewrite P1 in P3. lia.
Qed.
(** While it runs, ready is high in a cycle exactly if valid was high and the draw
    succeeded in the cycle before, or the speed is full; before the delay is over it is low. *)
Theorem C73_ready : forall A len full delay ins t1 o o' t2, trace (sim_receiver (A := A) len full delay) ins = t1 ++ o :: o' :: t2 ->
  (delay <= length t1)%nat -> match len with Some n => (length (rv_transfers (t1 ++ [o])) < n)%nat | None => True end ->
  rvo_ready o' = (rvo_valid o && rvo_rnd o) || full.
Proof.
  intros A len full delay ins t1 o o' t2 E Hd Hl. apply trace_two in E. destruct E as (a & i & i' & b & -> & <- & -> & ->).
  rewrite trace_length in Hd. pose proof (rv_inv len full delay a) as I.
  set (c := sim_receiver len full delay) in *.
  assert (P : forall m, rv_pc_ (state c a) = RvDelay m -> m = 0%nat).
  { rewrite <- (trace_length c a) in Hd. revert Hd. intros Hd m Em.
    enough (G : forall m, rv_pc_ (state c a) = RvDelay m -> (m + length (trace c a) = delay)%nat) by (specialize (G m Em); lia).
    clear. apply (run_inv c (fun t s => forall m, rv_pc_ s = RvDelay m -> (m + length t = delay)%nat)).
    - cbn. intros m E. injection E as <-. lia.
    - intros t s i H m. rewrite app_length. cbn [length]. unfold c. cbn [cnext sim_receiver]. unfold rv_body.
      destruct (rv_pc_ s) as [[|k]| |] eqn:Ep; try (destruct (rv_done _ _); discriminate); [|congruence].
      intros E. cbn in E. injection E as <-. specialize (H _ eq_refl). lia. }
  assert (Ho : rv_transfers (trace c a ++ [cout c (state c a) i]) = rv_transfers (trace c a) ++ if rvi_valid i && rv_ready (state c a) then [rvi_beat i] else []).
  { unfold rv_transfers. rewrite flat_map_app. cbn [flat_map]. now rewrite app_nil_r. }
  rewrite Ho in Hl. clear Ho. set (s := state c a) in *. set (t := trace c a) in *. clearbody t s.
  unfold c. cbn [cout cnext sim_receiver rvo_ready rvo_valid rvo_rnd]. unfold rv_body, rv_done. unfold rv_holds in I.
  destruct (rv_pc_ s) as [m| |].
  - rewrite (P m eq_refl). destruct I as (Ir & Id & It). rewrite It, Ir, andb_false_r in Hl. cbn in Hl. rewrite Id. destruct len as [n|]; [|reflexivity].
    cbn [length]. destruct (Nat.eqb_spec 0 n); [lia|reflexivity].
  - destruct I as (Id & _). rewrite Id. destruct len as [n|]; [|reflexivity].
    destruct (rvi_valid i && rv_ready s); [|rewrite app_nil_r in Hl]; match goal with |- context [Nat.eqb ?x ?y] => destruct (Nat.eqb_spec x y) end; try lia; reflexivity.
  - destruct I as (Id & n & -> & Hn). cbn [upto] in Id. rewrite Id, firstn_length in Hn. rewrite app_length in Hl. lia.
Qed.
Theorem C73_delay : forall A len full delay ins t1 o t2, trace (sim_receiver (A := A) len full delay) ins = t1 ++ o :: t2 ->
  (length t1 <= delay)%nat -> rvo_ready o = false.
Proof.
  intros A len full delay ins t1 o t2 E Hd. apply trace_one in E. destruct E as (a & i & b & -> & <- & ->). rewrite trace_length in Hd.
  cbn [cout sim_receiver rvo_ready]. set (c := sim_receiver len full delay) in *.
  assert (P : rv_ready (state c a) = false /\ rv_pc_ (state c a) = RvDelay (delay - length a)%nat); [|tauto].
  clear b i. induction a as [|i a IH] using rev_ind.
  - cbn. rewrite Nat.sub_0_r. auto.
  - rewrite app_length in *. cbn [length] in *. destruct IH as [I1 I2]; [lia|]. unfold state in *. rewrite state_from_app. cbn [state_from].
    set (s := state_from c (creset c) a) in *. clearbody s. unfold c. cbn [cnext sim_receiver]. rewrite I2.
    destruct (delay - length a)%nat eqn:E; [lia|]. cbn. split; [exact I1|]. f_equal. lia.
Qed.
Example C73_nonvacuous :
  let t := sim_receiver (Some 2%nat) false 0 in
  let ins := map (fun p => RvIn (fst (fst p)) (snd (fst p)) (snd p)) [((true,5),true); ((true,5),true); ((true,6),false); ((true,6),true); ((true,6),true); ((true,9),true)] in
  rv_data (state t ins) = [5; 6] /\ rv_transfers (trace t ins) = [5; 6; 6; 6; 9].
Proof. vm_compute. auto. Qed.

(** verify succeeds exactly when every expected list is the recorded one. *)
Lemma same_values_eq r e : length e = length r -> (same_values r e = true <-> r = e).
Proof.
  revert r. induction e as [|x e IH]; intros [|y r] L; try discriminate; cbn; [tauto|]. rewrite andb_true_iff, Z.eqb_eq, IH by (cbn in L; lia).
  split; [intros [-> ->]; reflexivity|]. intros E. injection E as -> ->. auto.
Qed.
Theorem C96_verify : forall K (keys : list K) data expected,
  sim_verify keys data expected = true <-> (forall k, In k keys -> data k = expected k).
Proof.
  intros K keys data expected. unfold sim_verify. rewrite andb_true_iff, !forallb_forall. split.
  - intros [H1 H2] k Hk. apply same_values_eq; [apply Nat.eqb_eq; auto|auto].
  - intros H. assert (L : forall k, In k keys -> length (expected k) = length (data k)) by (intros k Hk; now rewrite H).
    split; intros k Hk; [apply Nat.eqb_eq; auto|]. apply same_values_eq; auto.
Qed.
Example C96_nonvacuous : sim_verify [true; false] (fun k => if k then [1; 2] else []) (fun k => if k then [1; 2] else []) = true /\
  sim_verify [true; false] (fun k => if k then [1; 2] else []) (fun k => if k then [1; 3] else []) = false.
Proof. vm_compute. auto. Qed.

(** ** C95: StreamSimConnect *)
Definition cn_took {A B} (t : list (cn_obs A B)) : list A := flat_map (fun o => if cno_valid o && cno_ready o then [cno_beat o] else []) t.
Definition cn_gave {A B} (t : list (cn_obs A B)) : list (option B) := flat_map (fun o => if cno_svalid o && cno_sready o then [cno_out o] else []) t.
(** The design's source obeys the stream rule. *)
Definition cn_stable {A B} (t : list (cn_obs A B)) : Prop := forall t1 o o' t2, t = t1 ++ o :: o' :: t2 ->
  cno_valid o = true -> cno_ready o = false -> cno_valid o' = true /\ cno_beat o' = cno_beat o.
Section Connect.
  Context {A B : Type} (f : A -> B).
  Notation con := (sim_connect f).
  Definition out_of (l : list A) : list (option B) := map (fun a => Some (f a)) l.
  Definition cn_holds (t : list (cn_obs A B)) (s : cn_state A B) : Prop :=
    match cn_pc_ s with
    | CnInit => cn_took t = [] /\ cn_gave t = [] /\ cn_store s = None /\ cn_valid s = false /\ cn_ready s = false
    | CnPoll => cn_valid s = false /\ cn_ready s = false /\ out_of (cn_took t) = cn_gave t ++ match cn_store s with Some a => [Some (f a)] | None => [] end
    | CnTake => cn_valid s = false /\ cn_ready s = true /\ out_of (cn_took t) = cn_gave t /\
        exists t0 o, t = t0 ++ [o] /\ cno_valid o = true /\ cno_ready o = false /\ cn_store s = Some (cno_beat o)
    | CnGive => cn_valid s = true /\ cn_ready s = false /\ exists a, cn_store s = Some a /\ cn_out s = Some (f a) /\ out_of (cn_took t) = cn_gave t ++ [Some (f a)]
    | CnGap => cn_valid s = false /\ cn_ready s = false /\ out_of (cn_took t) = cn_gave t
    end.
  Lemma cn_inv ins : cn_stable (trace con ins) -> cn_holds (trace con ins) (state con ins).
  Proof.
    revert ins. apply (run_inv_hyp con cn_stable cn_holds).
    - intros t t' H t1 o o' t2 ->. apply (H t1 o o' (t2 ++ t')). rewrite <- !app_assoc. reflexivity.
    - cbn. auto 10.
    - intros t s i St H. set (o := cout con s i) in *.
      assert (Ht : cn_took (t ++ [o]) = cn_took t ++ if cni_valid i && cn_ready s then [cni_beat i] else []).
      { unfold cn_took. rewrite flat_map_app. cbn [flat_map]. now rewrite app_nil_r. }
      assert (Hg : cn_gave (t ++ [o]) = cn_gave t ++ if cn_valid s && cni_sready i then [cn_out s] else []).
      { unfold cn_gave. rewrite flat_map_app. cbn [flat_map]. now rewrite app_nil_r. }
      assert (Ov : cno_valid o = cni_valid i) by reflexivity. assert (Ob : cno_beat o = cni_beat i) by reflexivity. assert (Or : cno_ready o = cn_ready s) by reflexivity.
      clearbody o. unfold cn_holds in H. cbn [cnext sim_connect]. destruct (cn_pc_ s) eqn:Ep.
      + destruct H as (H1 & H2 & H3 & H4 & H5). rewrite H5, andb_false_r, H1 in Ht. rewrite H4, H2 in Hg. cbn in Ht, Hg.
        unfold cn_holds. cbn [cn_loop cn_pc_ cn_valid cn_ready cn_store]. rewrite Ht, Hg. auto.
      + destruct H as (H1 & H2 & H3). rewrite H2, andb_false_r, app_nil_r in Ht. rewrite H1, app_nil_r in Hg. cbn [andb] in Hg.
        destruct (cn_store s) as [a|] eqn:Es.
        * destruct (cni_rnd i); unfold cn_holds; cbn [cn_loop cn_pc_ cn_valid cn_ready cn_store cn_out]; rewrite Ht, Hg.
          -- split; [reflexivity|]. split; [exact H2|]. eauto.
          -- auto.
        * rewrite app_nil_r in H3. destruct (cni_valid i && cni_rnd i) eqn:E; unfold cn_holds; cbn [cn_loop cn_pc_ cn_valid cn_ready cn_store cn_out]; rewrite Ht, Hg.
          -- split; [exact H1|]. split; [reflexivity|]. split; [exact H3|]. exists t, o. apply andb_prop in E. rewrite Ov, Or, Ob. intuition.
          -- rewrite app_nil_r. auto.
      + destruct H as (H1 & H2 & H3 & t0 & o' & -> & Hv & Hr & Hs). rewrite H1, app_nil_r in Hg. cbn [andb] in Hg.
        destruct (St t0 o' o []) as [Sv Sb]; [now rewrite <- app_assoc|exact Hv|exact Hr|]. rewrite Ov in Sv. rewrite Ob in Sb. rewrite Sv, H2 in Ht. cbn [andb] in Ht.
        unfold cn_holds. cbn [cn_loop cn_pc_ cn_valid cn_ready cn_store]. rewrite Ht, Hg, Hs, Sb. split; [exact H1|]. split; [reflexivity|]. unfold out_of in *. now rewrite map_app, H3.
      + destruct H as (H1 & H2 & a & H3 & H4 & H5). rewrite H2, andb_false_r, app_nil_r in Ht. rewrite H1, H4 in Hg. cbn [andb] in Hg.
        destruct (cni_sready i); unfold cn_holds; cbn [cn_pc_ cn_valid cn_ready cn_store cn_out]; rewrite ?Ep, Ht, Hg.
        * auto.
        * rewrite app_nil_r. eauto 10.
      + destruct H as (H1 & H2 & H3). rewrite H2, andb_false_r, app_nil_r in Ht. rewrite H1, app_nil_r in Hg. cbn [andb] in Hg.
        unfold cn_holds. cbn [cn_loop cn_pc_ cn_valid cn_ready cn_store]. rewrite Ht, Hg, app_nil_r. auto.
  Qed.
End Connect.
(** Everything taken from the source is given to the sink once, in order, at most one
    beat being held. *)
Theorem C95_connect : forall A B (f : A -> B) ins, let t := trace (sim_connect f) ins in cn_stable t ->
  exists pend, map (fun a => Some (f a)) (cn_took t) = cn_gave t ++ pend /\ (length pend <= 1)%nat.
Proof.
  intros A B f ins t Hs. pose proof (cn_inv f ins Hs) as H. fold t in H. unfold cn_holds, out_of in H.
  destruct (cn_pc_ _).
  - destruct H as (-> & -> & _). exists []. cbn. auto.
  - destruct H as (_ & _ & ->). eexists. split; [reflexivity|]. destruct (cn_store _); cbn; lia.
  - destruct H as (_ & _ & -> & _). exists []. rewrite app_nil_r. cbn. auto.
  - destruct H as (_ & _ & a & _ & _ & ->). eexists. split; [reflexivity|]. cbn. lia.
  - destruct H as (_ & _ & ->). exists []. rewrite app_nil_r. cbn. auto.
Qed.
(** It obeys the stream rule towards the sink. *)
Theorem C95_held : forall A B (f : A -> B) ins t1 o o' t2, trace (sim_connect f) ins = t1 ++ o :: o' :: t2 ->
  cno_svalid o = true -> cno_sready o = false -> cno_svalid o' = true /\ cno_out o' = cno_out o.
Proof.
  intros A B f ins t1 o o' t2 E. apply trace_two in E. destruct E as (a & i & i' & b & -> & _ & -> & ->).
  enough (H : cn_valid (state (sim_connect f) a) = true -> cn_pc_ (state (sim_connect f) a) = CnGive).
  { cbn [cout cnext sim_connect cno_svalid cno_sready cno_out]. intros Hv Hr. rewrite (H Hv), Hr. auto. }
  apply (state_inv (sim_connect f) (fun s => cn_valid s = true -> cn_pc_ s = CnGive)); [discriminate|].
  intros s j H. cbn [cnext sim_connect]. destruct (cn_pc_ s) eqn:Ep; cbn.
  - intros X. now specialize (H X).
  - destruct (cn_store s); [destruct (cni_rnd j)|destruct (_ && _)]; cbn; intros X; try reflexivity; now specialize (H X).
  - intros X. now specialize (H X).
  - destruct (cni_sready j); [discriminate|]. intros _. exact Ep.
  - intros X. now specialize (H X).
Qed.
(** Progress: in any five cycles with the source valid, the sink ready and the draws
    succeeding, a beat is given to the sink. *)
Theorem C95_progress : forall A B (f : A -> B) ins w rest,
  length w = 5%nat -> Forall (fun i => cni_valid i = true /\ cni_sready i = true /\ cni_rnd i = true) w ->
  exists t1 t2 t3, trace (sim_connect f) (ins ++ w ++ rest) = t1 ++ t2 ++ t3 /\ length t1 = length ins /\ length t2 = length w /\ cn_gave t2 <> [].
Proof.
  intros A B f ins w rest Hl Hw. set (c := sim_connect f).
  exists (trace c ins), (trace_from c (state c ins) w), (trace_from c (state_from c (state c ins) w) rest).
  split; [rewrite trace_app, trace_from_app; reflexivity|]. split; [apply trace_length|]. split; [apply trace_from_length|].
  assert (Q : cn_pc_ (state c ins) = CnGive -> cn_valid (state c ins) = true).
  { apply (state_inv c (fun s => cn_pc_ s = CnGive -> cn_valid s = true)); [discriminate|]. intros s j H. unfold c. cbn [cnext sim_connect].
    destruct (cn_pc_ s) eqn:Ep; cbn; try discriminate.
    - destruct (cn_store s); [destruct (cni_rnd j)|destruct (_ && _)]; cbn; congruence.
    - destruct (cni_sready j); [discriminate|]. intros X. now apply H. }
  set (s := state c ins) in *. clearbody s.
  destruct w as [|i1 [|i2 [|i3 [|i4 [|i5 [|]]]]]]; try discriminate.
  repeat match goal with H : Forall _ (_ :: _) |- _ => inversion H; clear H; subst end.
  repeat match goal with H : _ /\ _ /\ _ |- _ => destruct H as (? & ? & ?) end.
  destruct i1 as [v1 b1 r1 d1], i2 as [v2 b2 r2 d2], i3 as [v3 b3 r3 d3], i4 as [v4 b4 r4 d4], i5 as [v5 b5 r5 d5]. cbn in *. subst.
  destruct s as [pc rd st v ou]. cbn in Q. unfold cn_gave. cbn. destruct pc; cbn; try (destruct st; cbn; rewrite ?andb_false_r, ?app_nil_r; cbn);
    try (rewrite (Q eq_refl)); cbn; repeat (rewrite ?andb_true_r; match goal with |- context [if v then _ else _] => destruct v | |- context [v && true] => destruct v | _ => idtac end); cbn; try discriminate.
Qed.
Example C95_nonvacuous :
  let t := trace (sim_connect (fun x => x + 1)) (repeat (CnIn true 4 true true) 13) in cn_stable t /\ cn_took t = [4; 4; 4] /\ cn_gave t = [Some 5; Some 5].
Proof.
  cbv zeta. split; [|vm_compute; auto]. intros t1 o o' t2 E _ _. apply trace_two in E. destruct E as (a & i & i' & b & E & _ & -> & ->).
  assert (H : forall k, In k (repeat (CnIn true 4 true true) 13) -> k = CnIn true 4 true true) by (intros k; apply repeat_spec).
  assert (Hi : i = CnIn true 4 true true) by (apply H; rewrite E; apply in_elt).
  assert (Hi' : i' = CnIn true 4 true true) by (apply H; rewrite E; apply in_or_app; right; right; left; reflexivity).
  subst. split; reflexivity.
Qed.
Print Assumptions C72_prefix.
Print Assumptions C72_ends.
Print Assumptions C72_held.
Print Assumptions C72_progress.
Print Assumptions C73_recorded.
Print Assumptions C73_overrun.
Print Assumptions C96_verify.
Print Assumptions C95_connect.
Print Assumptions C95_held.
Print Assumptions C72_throttled.
Print Assumptions C72_delay.
Print Assumptions C73_ready.
Print Assumptions C73_delay.
Print Assumptions C95_progress.

