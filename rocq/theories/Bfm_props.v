(** Simulation helpers bfm_send and bfm_read: C101, C102. *)
From Verif Require Import Stream Bfm_model.

(** ** Specification *)
(** Each packet with its first and last flags. *)
Definition tagged {A} (pkts : list A) : list (bool * bool * A) :=
  map (fun x => (Nat.eqb (fst x) 0, Nat.eqb (fst x) (length pkts - 1), snd x)) (combine (seq 0 (length pkts)) pkts).
Definition sent {A} (t : list (bs_obs A)) : list (bool * bool * A) :=
  flat_map (fun o => if bso_valid o && bso_ready o
                     then match bso_pkt o with Some p => [(bso_first o, bso_last o, p)] | None => [] end else []) t.
Definition read_beats {A} (t : list (br_obs A)) : list A :=
  flat_map (fun o => if bro_valid o && bro_ready o then [bro_pkt o] else []) t.
Definition count_true (l : list bool) : nat := length (filter (fun b => b) l).
(** [w] cycles in a row with the other side not answering. *)
Definition stalls (w : nat) (l : list bool) : Prop := exists a b, l = a ++ repeat false w ++ b.
(** bfm_send gives up after timeout - 1 refused cycles (at least 1), bfm_read after timeout ones. *)
Definition send_patience (timeout : Z) : nat := Z.to_nat (Z.max 1 (timeout - 1)).
Definition read_patience (timeout : Z) : nat := Z.to_nat (Z.max 1 timeout).

(** ** Proofs *)
Fixpoint trail_ (l : list bool) : nat := match l with false :: r => S (trail_ r) | _ => 0 end.
Definition trail (l : list bool) : nat := trail_ (rev l).
Lemma trail_snoc l b : trail (l ++ [b]) = if b then 0%nat else S (trail l).
Proof. unfold trail. rewrite rev_app_distr. destruct b; reflexivity. Qed.
Lemma trail_split l : exists a, l = a ++ repeat false (trail l).
Proof.
  induction l as [|b l IH] using rev_ind; [exists []; reflexivity|]. rewrite trail_snoc. destruct b; [exists (l ++ [true]); now rewrite app_nil_r|].
  destruct IH as [a E]. exists a. set (k := trail l) in *. clearbody k. subst l. rewrite <- app_assoc. f_equal. clear. induction k; cbn; [reflexivity|]. cbn in IHk. now rewrite IHk.
Qed.
Lemma trail_stalls w l : (w <= trail l)%nat -> stalls w l.
Proof.
  intros H. destruct (trail_split l) as [a E]. exists (a ++ repeat false (trail l - w)), []. rewrite app_nil_r, <- app_assoc, <- repeat_app. rewrite E at 1. do 2 f_equal. lia.
Qed.
Lemma stalls_app w a b : stalls w a -> stalls w (a ++ b).
Proof. intros (x & y & ->). exists x, (y ++ b). now rewrite <- !app_assoc. Qed.
Lemma count_snoc l b : count_true (l ++ [b]) = (count_true l + if b then 1 else 0)%nat.
Proof. unfold count_true. rewrite filter_app, app_length. destruct b; reflexivity. Qed.
Lemma repeat_snoc {A} (x : A) k : repeat x (S k) = repeat x k ++ [x].
Proof. induction k; cbn; [reflexivity|]. cbn in IHk. now rewrite IHk. Qed.
Lemma trail_repeat a k : (k <= trail (a ++ repeat false k))%nat.
Proof. induction k as [|k IH]; [lia|]. rewrite repeat_snoc, app_assoc, trail_snoc. lia. Qed.

Section Send.
  Context {A : Type} (pkts : list A) (timeout : Z).
  Let c := bfm_send pkts timeout.
  Let w := send_patience timeout.
  Lemma bs_state_run ins : ~ stalls w ins ->
    state c ins = if Nat.ltb (count_true ins) (length pkts) then BsRun (count_true ins) (1 + Z.of_nat (trail ins)) else BsEnd.
  Proof.
    induction ins as [|b ins IH] using rev_ind; intros H; [reflexivity|].
    specialize (IH (fun X => H (stalls_app w _ _ X))). unfold state in *. rewrite state_from_app, IH. cbn [state_from]. rewrite count_snoc, trail_snoc.
    destruct (Nat.ltb_spec (count_true ins) (length pkts)) as [L|L].
    - change (cnext c) with (bs_next pkts timeout). cbn [bs_next]. destruct b.
      + unfold bs_at. rewrite Nat.add_1_r. reflexivity.
      + rewrite Nat.add_0_r. destruct (Nat.ltb_spec (count_true ins) (length pkts)); [|lia].
        destruct (Z.leb_spec timeout (1 + Z.of_nat (trail ins) + 1)) as [T|T].
        * exfalso. apply H. apply trail_stalls. rewrite trail_snoc. unfold w, send_patience. lia.
        * f_equal. lia.
    - change (cnext c) with (bs_next pkts timeout). cbn [bs_next]. destruct (Nat.ltb_spec (count_true ins + (if b then 1 else 0)) (length pkts)); [lia|reflexivity].
  Qed.
  Lemma tagged_nth i p : nth_error pkts i = Some p -> nth_error (tagged pkts) i = Some (Nat.eqb i 0, Nat.eqb i (length pkts - 1), p).
  Proof.
    intros H. unfold tagged. assert (L : (i < length pkts)%nat) by (apply nth_error_Some; congruence).
    rewrite (map_nth_error _ i (combine (seq 0 (length pkts)) pkts) (d := (i, p))); [reflexivity|].
    assert (G : forall l k j, nth_error l j = Some p -> nth_error (combine (seq k (length l)) l) j = Some ((k + j)%nat, p)).
    { clear. induction l as [|x l IH]; intros k j H; [destruct j; discriminate|]. destruct j; cbn in *; [injection H as ->; now rewrite Nat.add_0_r|].
      rewrite (IH (S k) j H). do 2 f_equal. lia. }
    apply (G pkts 0%nat i H).
  Qed.
  Lemma tagged_length : length (tagged pkts) = length pkts.
  Proof. unfold tagged. rewrite map_length, combine_length, seq_length. lia. Qed.
  Lemma firstn_snoc {B} (l : list B) k x : nth_error l k = Some x -> firstn (S k) l = firstn k l ++ [x].
  Proof. revert k. induction l as [|y l IH]; intros [|k] H; try discriminate; cbn in *; [congruence|]. now rewrite <- IH. Qed.
  Lemma sent_run ins : ~ stalls w ins -> sent (trace c ins) = firstn (count_true ins) (tagged pkts).
  Proof.
    induction ins as [|b ins IH] using rev_ind; intros H; [reflexivity|].
    pose proof (fun X => H (stalls_app w ins [b] X)) as H'. unfold sent in *. rewrite trace_app, flat_map_app, (IH H'), count_snoc. cbn [trace_from flat_map]. rewrite (bs_state_run ins H'), app_nil_r.
    change (cout c) with (bs_out (A:=A) pkts). destruct (Nat.ltb_spec (count_true ins) (length pkts)) as [L|L]; cbn [bs_out bso_valid bso_ready bso_pkt bso_first bso_last andb].
    - destruct b; [|rewrite Nat.add_0_r; apply app_nil_r]. destruct (nth_error pkts (count_true ins)) as [p|] eqn:E; [|apply nth_error_None in E; lia].
      rewrite Nat.add_1_r. symmetry. apply firstn_snoc, tagged_nth, E.
    - rewrite app_nil_r. rewrite !firstn_all2; rewrite ?tagged_length; lia || reflexivity.
  Qed.
  Lemma bs_absorb ins : state_from c BsTimeout ins = BsTimeout /\ sent (trace_from c BsTimeout ins) = [].
  Proof. induction ins as [|b ins [IH1 IH2]]; [split; reflexivity|]. split; [exact IH1|]. cbn. exact IH2. Qed.
  Lemma bs_give_up a : ~ stalls w a -> (count_true a < length pkts)%nat -> trail a = 0%nat -> forall k, (k < w)%nat ->
    state c (a ++ repeat false k) = BsRun (count_true a) (1 + Z.of_nat k).
  Proof.
    intros H L T k. induction k as [|k IH]; intros K.
    - cbn [repeat]. rewrite app_nil_r, (bs_state_run a H), T. destruct (Nat.ltb_spec (count_true a) (length pkts)); [reflexivity|lia].
    - rewrite repeat_snoc, app_assoc. unfold state in *. rewrite state_from_app, (IH ltac:(lia)). cbn [state_from]. change (cnext c) with (bs_next pkts timeout). cbn [bs_next].
      destruct (Z.leb_spec timeout (1 + Z.of_nat k + 1)) as [X|X]; [unfold w, send_patience in K; lia|]. f_equal. lia.
  Qed.
End Send.

(** As long as no packet is refused [send_patience] times in a row: the packets are taken one per ready cycle, in
    order, with first on the first and last on the last; in the next cycle the next one is offered, nothing once all are sent. *)
Theorem C101_send : forall A (pkts : list A) timeout ins r, ~ stalls (send_patience timeout) ins ->
  let c := bfm_send pkts timeout in
  sent (trace c ins) = firstn (count_true ins) (tagged pkts) /\
  trace c (ins ++ [r]) = trace c ins ++
    [match nth_error (tagged pkts) (count_true ins) with
     | Some (f, l, p) => BsObs true f l (Some p) r
     | None => BsObs false false false None r
     end].
Proof.
  intros A pkts timeout ins r H c. split; [apply sent_run, H|]. rewrite trace_app. f_equal. cbn [trace_from]. unfold c. rewrite (bs_state_run pkts timeout ins H). f_equal.
  change (cout (bfm_send pkts timeout)) with (bs_out (A:=A) pkts). destruct (Nat.ltb_spec (count_true ins) (length pkts)) as [L|L]; cbn [bs_out].
  - destruct (nth_error pkts (count_true ins)) as [p|] eqn:E; [|apply nth_error_None in E; lia]. rewrite (tagged_nth pkts _ p E). reflexivity.
  - destruct (nth_error (tagged pkts) (count_true ins)) eqn:E; [|reflexivity]. exfalso. assert (X : (count_true ins < length (tagged pkts))%nat) by (apply nth_error_Some; congruence). rewrite (tagged_length pkts timeout) in X. lia.
Qed.
(** A packet refused that often ends it: nothing more is sent, whatever follows. *)
Theorem C101_send_timeout : forall A (pkts : list A) timeout a b, ~ stalls (send_patience timeout) a ->
  (count_true a < length pkts)%nat -> (a = [] \/ exists a', a = a' ++ [true]) ->
  let c := bfm_send pkts timeout in
  sent (trace c (a ++ repeat false (send_patience timeout) ++ b)) = firstn (count_true a) (tagged pkts) /\
  state c (a ++ repeat false (send_patience timeout) ++ b) = BsTimeout.
Proof.
  intros A pkts timeout a b H L Ha c. assert (T : trail a = 0%nat) by (destruct Ha as [->|(a' & ->)]; [reflexivity|apply trail_snoc]).
  assert (W : exists k, send_patience timeout = S k) by (unfold send_patience; exists (Z.to_nat (Z.max 1 (timeout - 1)) - 1)%nat; lia). destruct W as [k W].
  assert (S0 : state c (a ++ repeat false (send_patience timeout)) = BsTimeout).
  { rewrite W, repeat_snoc, app_assoc. pose proof (bs_give_up pkts timeout a H L T k ltac:(lia)) as G. fold c in G. unfold state in *. rewrite state_from_app, G. cbn [state_from].
    change (cnext c) with (bs_next pkts timeout). cbn [bs_next]. destruct (Z.leb_spec timeout (1 + Z.of_nat k + 1)) as [X|X]; [reflexivity|]. unfold send_patience in W. lia. }
  rewrite !app_assoc. split.
  - rewrite trace_app. unfold sent at 1. rewrite flat_map_app. fold (sent (trace_from c (state c (a ++ repeat false (send_patience timeout))) b)). rewrite S0. unfold c at 2. rewrite (proj2 (bs_absorb pkts timeout b)), app_nil_r. fold c.
    rewrite trace_app, flat_map_app. fold (sent (trace c a)). unfold c at 1. rewrite (sent_run pkts timeout a H). 
    assert (N : forall k s, flat_map (fun o : bs_obs A => if bso_valid o && bso_ready o then match bso_pkt o with Some p => [(bso_first o, bso_last o, p)] | None => [] end else []) (trace_from c s (repeat false k)) = []).
    { clear. induction k as [|k IH]; intros s; [reflexivity|]. cbn [repeat trace_from flat_map]. rewrite IH. change (cout c) with (bs_out (A:=A) pkts).
      destruct s; cbn [bs_out bso_valid bso_ready andb]; reflexivity. }
    rewrite N. apply app_nil_r.
  - unfold state in *. rewrite state_from_app, S0. apply (bs_absorb pkts timeout b).
Qed.
Example C101_nonvacuous :
  sent (trace (bfm_send [10; 20; 30] 4) [false; true; true; false; false; true; true]) = [(true, false, 10); (false, false, 20); (false, true, 30)].
Proof. reflexivity. Qed.
Example C101_nonvacuous_stall : ~ stalls (send_patience 4) [false; true; true; false; false; true; true].
Proof.
  intros (a & b & E). change (repeat false (send_patience 4)) with [false; false; false] in E.
  destruct a as [|a0 a]; [discriminate|]. destruct a as [|a1 a]; [discriminate|]. destruct a as [|a2 a]; [discriminate|]. destruct a as [|a3 a]; [discriminate|].
  destruct a as [|a4 a]; [discriminate|]. destruct a as [|a5 a]; [discriminate|]. destruct a as [|a6 a]; [discriminate|]. destruct a; discriminate.
Qed.

(** ** C102 *)
Section Read.
  Context {A : Type} (n : nat) (timeout : Z).
  Let c := bfm_read (A:=A) n timeout.
  Let w := read_patience timeout.
  Lemma br_state_run ins : ~ stalls w (map fst ins) ->
    let got := firstn n (map snd (filter fst ins)) in
    br_res (state c ins) = got /\ read_beats (trace c ins) = got /\
    br_pc_ (state c ins) = if Nat.ltb (count_true (map fst ins)) n then BrWait (Z.of_nat (trail (map fst ins))) else BrEnd.
  Proof.
    cbv zeta. induction ins as [|i ins IH] using rev_ind; intros H.
    - split; [cbn; now rewrite firstn_nil|]. split; [cbn; now rewrite firstn_nil|]. cbn. unfold br_start. cbn. destruct (Nat.ltb 0 n); reflexivity.
    - rewrite map_app in H. cbn [map] in H. specialize (IH (fun X => H (stalls_app w _ _ X))). destruct IH as (I1 & I2 & I3).
      assert (CL : length (map snd (filter fst ins)) = count_true (map fst ins)).
      { clear. unfold count_true. rewrite map_length. induction ins as [|[b x] l IH]; [reflexivity|]. cbn. destruct b; cbn; congruence. }
      rewrite filter_app, !map_app. cbn [map]. rewrite count_snoc, trail_snoc. cbn [filter].
      unfold state in *. rewrite state_from_app. cbn [state_from]. unfold read_beats in *. rewrite trace_app, flat_map_app, I2. unfold state. cbn [trace_from flat_map]. rewrite app_nil_r.
      set (s := state_from c (creset c) ins) in *. clearbody s. destruct s as [pc res]. cbn [br_pc_ br_res] in *. subst pc.
      change (cnext c) with (br_next (A:=A) n timeout). cbn [cout c bfm_read bro_valid bro_ready bro_pkt]. unfold br_next, br_ready. cbn [br_pc_ br_res].
      destruct i as [v x]. cbn [fst snd] in *.
      destruct (Nat.ltb_spec (count_true (map fst ins)) n) as [L|L].
      + assert (G : firstn n (map snd (filter fst ins)) = map snd (filter fst ins)) by (apply firstn_all2; lia). rewrite G in *.
        destruct v; cbn [andb map fst snd].
        * unfold br_start. cbn [br_pc_ br_res]. subst res. rewrite app_length, CL. cbn [length].
          rewrite firstn_all2 by (rewrite app_length; cbn; lia). auto.
        * rewrite !app_nil_r, Nat.add_0_r, G. destruct (Nat.ltb_spec (count_true (map fst ins)) n); [|lia].
          destruct (Z.leb_spec timeout (Z.of_nat (trail (map fst ins)) + 1)) as [T|T]; cbn [br_pc_ br_res].
          -- exfalso. apply H. apply trail_stalls. rewrite trail_snoc. unfold w, read_patience. lia.
          -- split; [exact I1|]. split; [reflexivity|]. f_equal. lia.
      + rewrite andb_false_r, app_nil_r. cbn [br_pc_ br_res].
        assert (G : forall l, firstn n (map snd (filter fst ins) ++ l) = firstn n (map snd (filter fst ins))).
        { intros l. rewrite firstn_app, (proj2 (Nat.sub_0_le n _)) by lia. cbn. apply app_nil_r. }
        rewrite G. split; [exact I1|]. split; [reflexivity|]. destruct (Nat.ltb_spec (count_true (map fst ins) + (if v then 1 else 0)) n); [lia|reflexivity].
  Qed.
End Read.
(** [n] successive reads return the first n beats offered, each the one transferred in its call, and nothing else is
    taken; ready is up in the next cycle exactly while there are beats to read. *)
Theorem C102_read : forall A (n : nat) timeout (ins : list (bool * A)) v x, ~ stalls (read_patience timeout) (map fst ins) ->
  let c := bfm_read (A:=A) n timeout in
  let got := firstn n (map snd (filter fst ins)) in
  read_beats (trace c ins) = got /\
  trace c (ins ++ [(v, x)]) = trace c ins ++ [BrObs v x (Nat.ltb (length got) n) got].
Proof.
  intros A n timeout ins v x H c got. destruct (br_state_run n timeout ins H) as (I1 & I2 & I3). split; [exact I2|].
  rewrite trace_app. f_equal. cbn [trace_from]. f_equal. cbn [cout c bfm_read fst snd]. unfold br_ready. unfold c. rewrite I1, I3. f_equal.
  assert (CL : length (map snd (filter fst ins)) = count_true (map fst ins)).
  { clear. unfold count_true. rewrite map_length. induction ins as [|[b y] l IH]; [reflexivity|]. cbn. destruct b; cbn; congruence. }
  unfold got. rewrite firstn_length, CL. destruct (Nat.ltb_spec (count_true (map fst ins)) n), (Nat.ltb_spec (Nat.min n (count_true (map fst ins))) n); reflexivity || lia.
Qed.
(** [timeout] cycles without a beat end it. *)
Theorem C102_read_timeout : forall A (n : nat) timeout (a b : list (bool * A)), ~ stalls (read_patience timeout) (map fst a) ->
  (count_true (map fst a) < n)%nat -> (a = [] \/ exists a' x, a = a' ++ [(true, x)]) ->
  forall gap, map fst gap = repeat false (read_patience timeout) ->
  let s := state (bfm_read (A:=A) n timeout) (a ++ gap ++ b) in
  br_pc_ s = BrTimeout /\ br_res s = map snd (filter fst a).
Proof.
  intros A n timeout a b H L Ha gap Hg. cbv zeta. set (c := bfm_read (A:=A) n timeout).
  assert (T : trail (map fst a) = 0%nat) by (destruct Ha as [->|(a' & x & ->)]; [reflexivity|rewrite map_app; apply trail_snoc]).
  destruct (br_state_run n timeout a H) as (I1 & _ & I3). fold c in I1, I3. rewrite T in I3.
  assert (CL : length (map snd (filter fst a)) = count_true (map fst a)).
  { clear. unfold count_true. rewrite map_length. induction a as [|[y z] l IH]; [reflexivity|]. cbn. destruct y; cbn; congruence. }
  rewrite firstn_all2 in I1 by lia. destruct (Nat.ltb_spec (count_true (map fst a)) n) as [_|X]; [|lia].
  rewrite !app_assoc. unfold state in *. rewrite !state_from_app.
  assert (G : forall gap k, (Z.of_nat k + Z.of_nat (length gap) = Z.max 1 timeout)%Z -> gap <> [] -> Forall (fun i => fst i = false) gap ->
    forall s, br_pc_ s = BrWait (Z.of_nat k) -> state_from c s gap = Br BrTimeout (br_res s)).
  { clear. induction gap as [|i gap IH]; intros k K N F s E; [congruence|]. cbn [state_from]. change (cnext c) with (br_next (A:=A) n timeout). unfold br_next. rewrite E. apply Forall_inv in F as F0. rewrite F0.
    apply Forall_inv_tail in F. cbn [length] in K. destruct gap as [|j gap].
    - destruct (Z.leb_spec timeout (Z.of_nat k + 1)); [reflexivity|]. cbn in K. lia.
    - destruct (Z.leb_spec timeout (Z.of_nat k + 1)); [cbn in K; lia|]. rewrite (IH (S k)); [reflexivity|cbn in *; lia|discriminate|exact F|]. cbn [br_pc_]. f_equal. lia. }
  assert (Lg : length gap = read_patience timeout) by (rewrite <- (map_length fst gap), Hg; apply repeat_length).
  rewrite (G gap 0%nat); [|rewrite Lg; unfold read_patience; lia|intros ->; cbn in Lg; unfold read_patience in Lg; lia| |exact I3].
  - assert (S0 : forall b, state_from c (Br BrTimeout (br_res (state_from c (creset c) a))) b = Br BrTimeout (br_res (state_from c (creset c) a))) by (clear; induction b as [|i b IH]; [reflexivity|exact IH]).
    rewrite S0. cbn [br_pc_ br_res]. auto.
  - clear - Hg. revert Hg. generalize (read_patience timeout) as k. induction gap as [|i gap IH]; intros k E; [constructor|]. destruct k; [discriminate|]. cbn in E. injection E as E1 E2. constructor; [exact E1|]. apply (IH k E2).
Qed.
Example C102_nonvacuous :
  read_beats (trace (bfm_read (A:=Z) 2 3) [(false, 0); (true, 7); (false, 1); (false, 2); (true, 8); (true, 9)]) = [7; 8].
Proof. reflexivity. Qed.

Print Assumptions C101_send.
Print Assumptions C101_send_timeout.
Print Assumptions C102_read.
Print Assumptions C102_read_timeout.
