(** C169: the life of a USB device object. *)
From Verif Require Import Stream Usb_model Usblife_model.

Section Life.
  Context (lib : ulib) (devs : list (Z * Z)) (vid pid idx : Z).
  Notation step := (u_step lib).
  Notation run := (u_run lib devs vid pid idx).
  Definition opened (k n : nat) : list ucall := [UContext; UList; UOpen k; UClaim] ++ repeat UTransfer n.
  Definition u_inv (k : nat) (s : ulife) : Prop := u_alive s = u_kept s /\
    exists n, u_calls s = if u_alive s then opened k n else u_del lib (UObj true true) (opened k n).
  Lemma opened_more k n : opened k n ++ [UTransfer] = opened k (S n).
  Proof. unfold opened. rewrite <- app_assoc. f_equal. clear. induction n; [reflexivity|]. cbn [repeat app] in *. now rewrite IHn. Qed.
  Lemma kept_nth (l : list (option bool)) j : (match nth j l None with Some b => b | None => false end) = true -> existsb (fun e => match e with Some _ => true | None => false end) l = true.
  Proof.
    revert j. induction l as [|e l IH]; intros [|j] H; cbn in *; try discriminate; [destruct e; [reflexivity|discriminate]|].
    destruct e; [reflexivity|]. exact (IH j H).
  Qed.
  Lemma kept_set (l : list (option bool)) j : (match nth j l None with Some b => b | None => false end) = true ->
    existsb (fun e => match e with Some _ => true | None => false end) (set_nth j (Some false) l) = true.
  Proof.
    intros H. revert j H. induction l as [|e l IH]; intros [|j] H; cbn in *; try discriminate; [reflexivity|].
    destruct e; [reflexivity|]. exact (IH j H).
  Qed.
  Lemma sweep_inv k s : (u_alive s = false -> u_kept s = false) -> (exists n, u_calls s = if u_alive s then opened k n else u_del lib (UObj true true) (opened k n)) -> u_inv k (u_sweep lib s).
  Proof.
    intros K [n C]. unfold u_sweep, u_inv. destruct (u_alive s) eqn:A; cbn [andb].
    - destruct (u_kept s) eqn:E; cbn [negb].
      + rewrite A. split; [auto|]. now exists n.
      + cbn [u_alive u_calls]. split; [unfold u_kept in *; cbn [u_held u_eps]; auto|]. exists n. now rewrite C.
    - rewrite A, (K eq_refl). split; [reflexivity|]. now exists n.
  Qed.
  Lemma step_inv k s op : u_inv k s -> u_inv k (step s op).
  Proof.
    intros I. destruct I as [A [n C]]. destruct op as [| |j| |j|]; cbn [u_step].
    - destruct (u_held s) eqn:H; [|split; [auto|now exists n]]. unfold u_kept in A. rewrite H in A. cbn in A.
      split; [cbn; unfold u_kept; cbn; auto|]. exists n. exact C.
    - destruct (u_held s) eqn:H; [|split; [auto|now exists n]]. unfold u_kept in A. rewrite H in A. cbn in A.
      split; [cbn; unfold u_kept; cbn; auto|]. exists (S n). cbn [u_alive u_calls]. rewrite C, A, opened_more. reflexivity.
    - destruct (u_holds s j) eqn:H; [|split; [auto|now exists n]]. assert (K : u_kept s = true) by (unfold u_kept; rewrite (kept_nth _ j H); apply Bool.orb_true_r).
      split; [exact A|]. exists (S n). cbn [u_alive u_calls]. rewrite C, A, K, opened_more. reflexivity.
    - apply sweep_inv; cbn [u_alive u_calls]; [|now exists n]. intros F. rewrite A in F. unfold u_kept in *. cbn [u_held u_eps]. apply orb_false_elim in F. apply F.
    - destruct (u_holds s j) eqn:H; [|split; [auto|now exists n]]. assert (K : u_kept s = true) by (unfold u_kept; rewrite (kept_nth _ j H); apply Bool.orb_true_r).
      split; [|now exists n]. cbn [u_alive]. unfold u_kept at 1. cbn [u_held u_eps]. rewrite (kept_set _ j H), Bool.orb_true_r. now rewrite A.
    - apply sweep_inv; cbn [u_alive u_calls]; [|now exists n]. intros F. rewrite A in F. unfold u_kept in *. cbn [u_held u_eps]. apply orb_false_elim in F. destruct F as [-> F]. cbn [orb].
      clear - F. induction (u_eps s) as [|e l IH]; [reflexivity|]. cbn [map existsb] in *. destruct e; [discriminate|]. exact (IH F).
  Qed.
  Lemma run_opened ops k : lib [] UContext = true -> lib [UContext] UList = true -> dev_open vid pid idx devs = Some k ->
    lib [UContext; UList] (UOpen k) = true -> lib [UContext; UList; UOpen k] UClaim = true -> u_inv k (run ops).
  Proof.
    intros H1 H2 H3 H4 H5. unfold u_run, u_init. cbn [app]. rewrite H1, H2, H3, H4, H5. cbn [negb].
    assert (I : u_inv k (ULife true [] true [UContext; UList; UOpen k; UClaim])) by (split; [reflexivity|exists 0%nat; reflexivity]).
    revert I. generalize (ULife true [] true [UContext; UList; UOpen k; UClaim]). clear - lib. induction ops as [|op ops IH]; intros s I; [exact I|]. cbn [fold_left]. apply IH, step_inv, I.
  Qed.
  (** All calls of all runs. *)
  Definition calls_shape (l : list ucall) : Prop :=
    (exists k n tl, l = opened k n ++ tl /\ lib [UContext; UList; UOpen k] UClaim = true /\ In tl [[]; [URelease]; [URelease; UClose]]) \/
    l = [UContext] \/ l = [UContext; UList; UClose] \/ (exists k, l = [UContext; UList; UOpen k; UClose]) \/
    (exists k tl, l = [UContext; UList; UOpen k; UClaim] ++ tl /\ In tl [[URelease]; [URelease; UClose]]).
  Lemma del_made h : exists tl, u_del lib (UObj true true) h = h ++ tl /\ In tl [[URelease]; [URelease; UClose]].
  Proof.
    unfold u_del. cbn [u_handle u_context andb]. destruct (lib h URelease); cbn [negb].
    - exists [URelease; UClose]. rewrite <- app_assoc. split; [reflexivity|right; left; reflexivity].
    - exists [URelease]. split; [reflexivity|left; reflexivity].
  Qed.
  Lemma run_shape ops : calls_shape (u_calls (run ops)).
  Proof.
    destruct (lib [] UContext) eqn:H1. 2:{ unfold u_run, u_init. rewrite H1. cbn. right. now left. }
    destruct (lib [UContext] UList) eqn:H2. 2:{ unfold u_run, u_init. cbn [app]. rewrite H1, H2. cbn. right. right. now left. }
    destruct (dev_open vid pid idx devs) as [k|] eqn:H3. 2:{ unfold u_run, u_init. cbn [app]. rewrite H1, H2, H3. cbn. right. right. now left. }
    destruct (lib [UContext; UList] (UOpen k)) eqn:H4. 2:{ unfold u_run, u_init. cbn [app]. rewrite H1, H2, H3, H4. cbn. right. right. right. left. now exists k. }
    destruct (lib [UContext; UList; UOpen k] UClaim) eqn:H5.
    - left. destruct (run_opened ops k H1 H2 H3 H4 H5) as [_ [n C]]. rewrite C. destruct (u_alive (run ops)).
      + exists k, n, []. rewrite app_nil_r. split; [reflexivity|]. split; [exact H5|now left].
      + destruct (del_made (opened k n)) as (tl & -> & T). exists k, n, tl. split; [reflexivity|]. split; [exact H5|]. now right.
    - right. right. right. right. exists k. unfold u_run, u_init. cbn [app]. rewrite H1, H2, H3, H4, H5. cbn [negb u_calls].
      destruct (del_made [UContext; UList; UOpen k; UClaim]) as (tl & -> & T). now exists tl.
  Qed.
  Lemma dropped_all n s : u_held s = false -> (length (u_eps s) <= n)%nat ->
    let s' := fold_left step (map ODrop (seq 0 n)) s in u_held s' = false /\ ~ In (Some true) (u_eps s').
  Proof.
    intros H L.
    enough (X : forall m, let s' := fold_left step (map ODrop (seq 0 m)) s in u_held s' = false /\ length (u_eps s') = length (u_eps s) /\ forall j, (j < m)%nat -> nth j (u_eps s') None <> Some true).
    { destruct (X n) as (X1 & X2 & X3). split; [exact X1|]. intros I. apply (In_nth _ _ None) in I. destruct I as (j & J1 & J2). apply (X3 j); [lia|exact J2]. }
    induction m as [|m IH]; [cbn; split; [exact H|]; split; [reflexivity|intros; lia]|].
    rewrite seq_S, map_app, fold_left_app. cbn [map fold_left]. destruct IH as (I1 & I2 & I3). set (s1 := fold_left step (map ODrop (seq 0 m)) s) in *. clearbody s1.
    cbv zeta. cbn [u_step plus]. unfold u_holds. destruct (nth m (u_eps s1) None) as [[|]|] eqn:Q; cbn [u_held u_eps].
    - assert (Lm : (m < length (u_eps s1))%nat) by (destruct (Nat.lt_ge_cases m (length (u_eps s1))); [assumption|rewrite nth_overflow in Q by lia; discriminate]).
      assert (S : forall l : list (option bool), forall p, (p < length l)%nat -> length (set_nth p (Some false) l) = length l /\ nth p (set_nth p (Some false) l) None = Some false /\ forall j, j <> p -> nth j (set_nth p (Some false) l) None = nth j l None).
      { clear. induction l as [|e l IH]; intros [|p] Hp; cbn [length] in Hp; try lia.
        - cbn. split; [reflexivity|]. split; [reflexivity|]. intros [|j] Hj; [congruence|reflexivity].
        - destruct (IH p ltac:(lia)) as (A & B & C). unfold set_nth in *. cbn [firstn skipn app length nth]. split; [now rewrite A|]. split; [exact B|]. intros [|j] Hj; [reflexivity|]. apply C. lia. }
      destruct (S (u_eps s1) m Lm) as (S1 & S2 & S3). split; [exact I1|]. split; [lia|]. intros j Hj. destruct (Nat.eq_dec j m) as [->|N]; [rewrite S2; discriminate|]. rewrite S3 by exact N. apply I3. lia.
    - split; [exact I1|]. split; [exact I2|]. intros j Hj. destruct (Nat.eq_dec j m) as [->|N]; [rewrite Q; discriminate|apply I3; lia].
    - split; [exact I1|]. split; [exact I2|]. intros j Hj. destruct (Nat.eq_dec j m) as [->|N]; [rewrite Q; discriminate|apply I3; lia].
  Qed.
  Definition gets (ops : list uop) : nat := length (filter (fun op => match op with OGet => true | _ => false end) ops).
  Lemma eps_gets ops s : (length (u_eps (fold_left step ops s)) <= length (u_eps s) + gets ops)%nat.
  Proof.
    revert s. induction ops as [|op ops IH]; intros s; [cbn; lia|]. cbn [fold_left]. specialize (IH (step s op)). unfold gets in *. cbn [filter].
    enough (X : (length (u_eps (step s op)) <= length (u_eps s) + match op with OGet => 1 | _ => 0 end)%nat) by (destruct op; cbn [length] in *; lia).
    assert (SW : forall x, u_eps (u_sweep lib x) = u_eps x) by (intros x; unfold u_sweep; destruct (_ && _); reflexivity).
    destruct op; cbn [u_step].
    - destruct (u_held s); cbn [u_eps]; rewrite ?app_length; cbn; lia.
    - destruct (u_held s); cbn [u_eps]; lia.
    - destruct (u_holds s j); cbn [u_eps]; lia.
    - rewrite SW. cbn [u_eps]. lia.
    - destruct (u_holds s j); cbn [u_eps]; [|lia]. unfold set_nth. rewrite app_length. rewrite <- (firstn_skipn j (u_eps s)) at 3. rewrite app_length. destruct (skipn j (u_eps s)); cbn [length]; lia.
    - rewrite SW. cbn [u_eps]. rewrite map_length. lia.
  Qed.
  Lemma sweep_same x : u_held (u_sweep lib x) = u_held x /\ u_eps (u_sweep lib x) = u_eps x.
  Proof. unfold u_sweep. destruct (_ && _); split; reflexivity. Qed.
  Lemma set_length j e l : length (set_nth j e l) = length l.
  Proof. unfold set_nth. rewrite app_length. rewrite <- (firstn_skipn j l) at 3. rewrite app_length. destruct (skipn j l); reflexivity. Qed.
  Lemma held_gets ops s : u_held s = true -> ~ In ODropDevice ops -> u_held (fold_left step ops s) = true /\ length (u_eps (fold_left step ops s)) = (length (u_eps s) + gets ops)%nat.
  Proof.
    revert s. induction ops as [|op ops IH]; intros s H N; [cbn; split; [exact H|lia]|]. cbn [fold_left].
    assert (X : u_held (step s op) = true /\ length (u_eps (step s op)) = (length (u_eps s) + match op with OGet => 1 | _ => 0 end)%nat).
    { destruct op; cbn [u_step].
      - rewrite H. cbn [u_held u_eps]. rewrite app_length. auto.
      - rewrite H. cbn. auto.
      - destruct (u_holds s j); cbn [u_held u_eps]; auto.
      - exfalso. apply N. now left.
      - destruct (u_holds s j); cbn [u_held u_eps]; [rewrite set_length|]; auto.
      - rewrite (proj1 (sweep_same _)), (proj2 (sweep_same _)). cbn [u_held u_eps]. rewrite map_length. auto. }
    destruct X as [X1 X2]. destruct (IH (step s op) X1 ltac:(intros I; apply N; now right)) as [Y1 Y2]. split; [exact Y1|]. rewrite Y2, X2. unfold gets. cbn [filter]. destruct op; cbn [length]; lia.
  Qed.
  Lemma nth_set_other j p e l : j <> p -> nth j (set_nth p e l) None = nth j l None.
  Proof.
    revert j p. induction l as [|x l IH]; intros j p N; [unfold set_nth; now rewrite firstn_nil, skipn_nil|]. destruct p as [|p].
    - destruct j as [|j]; [congruence|reflexivity].
    - destruct j as [|j]; [reflexivity|]. cbn [set_nth firstn skipn app nth]. exact (IH j p ltac:(lia)).
  Qed.
  Lemma holds_kept j ops s : nth j (u_eps s) None = Some true -> ~ In (ODrop j) ops -> nth j (u_eps (fold_left step ops s)) None = Some true.
  Proof.
    revert s. induction ops as [|op ops IH]; intros s H N; [exact H|]. cbn [fold_left]. apply IH; [|intros I; apply N; now right].
    destruct op as [| |p| |p|]; cbn [u_step].
    - destruct (u_held s); [|exact H]. cbn [u_eps]. rewrite app_nth1; [exact H|]. destruct (Nat.lt_ge_cases j (length (u_eps s))); [assumption|]. rewrite nth_overflow in H by lia. discriminate.
    - destruct (u_held s); exact H.
    - destruct (u_holds s p); exact H.
    - rewrite (proj2 (sweep_same _)). exact H.
    - destruct (u_holds s p); [|exact H]. cbn [u_eps]. rewrite nth_set_other; [exact H|]. intros ->. apply N. now left.
    - rewrite (proj2 (sweep_same _)). cbn [u_eps]. set (g := fun e : option bool => match e with Some true => Some true | _ => None end). change (nth j (map g (u_eps s)) (g None) = Some true). rewrite map_nth, H. reflexivity.
  Qed.
End Life.

(** ** C169.  The calls a program makes to the USB library, through a device object and its
    endpoints: whichever of them fail, ... *)
(** ... every transfer comes after a successful claim of the interface and before its release
    and the end of the library context, even if the program has dropped the device itself
    and keeps only an endpoint; *)
Theorem C169_transfers : forall lib devs vid pid idx ops a b,
  u_calls (u_run lib devs vid pid idx ops) = a ++ UTransfer :: b ->
  (exists k n, a = [UContext; UList; UOpen k; UClaim] ++ repeat UTransfer n /\ lib [UContext; UList; UOpen k] UClaim = true) /\
  In UClaim a /\ ~ In URelease a /\ ~ In UClose a.
Proof.
  intros lib devs vid pid idx ops a b E. pose proof (run_shape lib devs vid pid idx ops) as S. rewrite E in S.
  enough (X : exists k n, a = opened k n /\ lib [UContext; UList; UOpen k] UClaim = true).
  { destruct X as (k & n & -> & C). split; [now exists k, n|]. unfold opened. split; [cbn; auto|].
    assert (R : forall x, x <> UTransfer -> ~ In x (repeat UTransfer n)) by (intros x N I; apply repeat_spec in I; congruence).
    split; cbn [app In]; intros I; repeat (destruct I as [I|I]; [discriminate|]); revert I; apply R; discriminate. }
  destruct S as [(k & n & tl & S & C & T)|S].
  - enough (X : exists m, a = opened k m) by (destruct X as [m ->]; now exists k, m).
    unfold opened in *. do 4 (destruct a as [|? a]; [discriminate|]; cbn [app] in S; injection S as -> S). cbn [app].
    enough (X : exists m, a = repeat UTransfer m) by (destruct X as [m ->]; now exists m).
    clear - S T. revert n S. induction a as [|x a IH]; intros n S; [now exists 0%nat|]. destruct n as [|n].
    + exfalso. cbn [repeat app] in S. assert (I : In UTransfer tl) by (rewrite <- S; cbn; right; apply in_app_iff; right; now left).
      cbn in T. destruct T as [<-|[<-|[<-|[]]]]; cbn in I; repeat (destruct I as [I|I]; [discriminate|]); exact I.
    + cbn [repeat app] in S. injection S as -> S. destruct (IH n S) as [m ->]. now exists (Datatypes.S m).
  - exfalso. assert (I : In UTransfer (a ++ UTransfer :: b)) by (apply in_app_iff; right; now left).
    destruct S as [S|[S|[[k S]|(k & tl & S & T)]]]; rewrite S in I; cbn in I.
    1-3: repeat (destruct I as [I|I]; [discriminate|]); exact I.
    repeat (destruct I as [I|I]; [discriminate|]). cbn in T. destruct T as [<-|[<-|[]]]; cbn in I; repeat (destruct I as [I|I]; [discriminate|]); exact I.
Qed.
(** ... an endpoint the program has got and not dropped can be used, whatever else was
    dropped; *)
Theorem C169_usable : forall lib devs vid pid idx k ops1 ops2,
  lib [] UContext = true -> lib [UContext] UList = true -> dev_open vid pid idx devs = Some k ->
  lib [UContext; UList] (UOpen k) = true -> lib [UContext; UList; UOpen k] UClaim = true ->
  ~ In ODropDevice ops1 -> ~ In (ODrop (gets ops1)) ops2 ->
  let run ops := u_calls (u_run lib devs vid pid idx ops) in
  run (ops1 ++ OGet :: ops2 ++ [OEndpoint (gets ops1)]) = run (ops1 ++ OGet :: ops2) ++ [UTransfer].
Proof.
  intros lib devs vid pid idx k ops1 ops2 H1 H2 H3 H4 H5 N1 N2 run. unfold run, u_run, u_init. cbn [app]. rewrite H1, H2, H3, H4, H5. cbn [negb].
  set (s0 := ULife true [] true _). rewrite !fold_left_app. cbn [fold_left]. rewrite fold_left_app. cbn [fold_left].
  destruct (held_gets lib ops1 s0 eq_refl N1) as [G1 G2]. set (s1 := fold_left (u_step lib) ops1 s0) in *. cbn [s0 u_eps length plus] in G2.
  set (s2 := u_step lib s1 OGet).
  assert (E2 : nth (gets ops1) (u_eps s2) None = Some true).
  { unfold s2. cbn [u_step]. rewrite G1. cbn [u_eps]. rewrite app_nth2, <- G2, Nat.sub_diag by lia. reflexivity. }
  pose proof (holds_kept lib (gets ops1) ops2 s2 E2 N2) as E3. set (s3 := fold_left (u_step lib) ops2 s2) in *. cbn [u_step]. unfold u_holds. rewrite E3. reflexivity.
Qed.
(** ... a release comes once, after a claim was tried, and only the end of the context
    can follow; after the end of the context there is no call, and it ends once; *)
Theorem C169_order : forall lib devs vid pid idx ops a c b,
  u_calls (u_run lib devs vid pid idx ops) = a ++ c :: b ->
  (c = URelease -> In UClaim a /\ ~ In URelease a /\ (b = [] \/ b = [UClose])) /\ (c = UClose -> b = [] /\ In UContext a).
Proof.
  intros lib devs vid pid idx ops a c b E. pose proof (run_shape lib devs vid pid idx ops) as S. rewrite E in S.
  assert (G : exists p tl, a ++ c :: b = p ++ tl /\ In UContext p /\ ~ In URelease p /\ ~ In UClose p /\ (In tl [[]; [URelease]; [URelease; UClose]] /\ In UClaim p \/ tl = [UClose] \/ tl = [])).
  { destruct S as [(k & n & tl & S & C & T)|[S|[S|[[k S]|(k & tl & S & T)]]]].
    - exists (opened k n), tl. split; [exact S|]. assert (R : forall x, x <> UTransfer -> ~ In x (repeat UTransfer n)) by (intros x N I; apply repeat_spec in I; congruence).
      split; [now left|]. split; [|split]; [| |left; split; [exact T|cbn; auto]]; cbn [opened app In]; intros I; repeat (destruct I as [I|I]; [discriminate|]); revert I; apply R; discriminate.
    - exists [UContext], []. rewrite S. cbn. intuition discriminate.
    - exists [UContext; UList], [UClose]. rewrite S. cbn. intuition discriminate.
    - exists [UContext; UList; UOpen k], [UClose]. rewrite S. cbn. intuition discriminate.
    - exists [UContext; UList; UOpen k; UClaim], tl. rewrite S. split; [reflexivity|]. cbn in T |- *. intuition discriminate. }
  clear E S. destruct G as (p & tl & E & P1 & P2 & P3 & P4).
  assert (X : (exists m, p = a ++ c :: m) \/ exists m, a = p ++ m /\ tl = m ++ c :: b).
  { clear - E. revert p E. induction a as [|x a IH]; intros [|y p] E; cbn [app] in E.
    - right. exists []. now split.
    - left. injection E as -> E. now exists p.
    - right. exists (x :: a). now split.
    - injection E as <- E. destruct (IH p E) as [[m ->]|(m & -> & ->)]; [left; now exists m|right; now exists m]. }
  destruct X as [[m ->]|(m & -> & ->)].
  - split; intros ->; exfalso; [apply P2|apply P3]; apply in_app_iff; right; now left.
  - split; intros ->.
    + destruct P4 as [[T P4]|[T|T]].
      * split; [apply in_app_iff; now left|]. destruct m as [|x m]; cbn in T.
        { rewrite app_nil_r. split; [exact P2|]. destruct T as [T|[T|[T|[]]]]; try discriminate; injection T as <-; auto. }
        destruct T as [T|[T|[T|[]]]]; try discriminate; injection T as _ T; destruct m as [|? [|? ?]]; discriminate.
      * destruct m as [|? [|? ?]]; discriminate.
      * destruct m; discriminate.
    + split; [|apply in_app_iff; now left]. destruct P4 as [[T P4]|[T|T]].
      * destruct T as [T|[T|[T|[]]]]; destruct m as [|? [|? [|? ?]]]; try discriminate; cbn in T; now injection T.
      * destruct m as [|? [|? ?]]; try discriminate; cbn in T; now injection T.
      * destruct m; discriminate.
Qed.
(** ... and once the program has dropped the device and its endpoints and the collector has
    run, the context is closed, provided that the context could be made and that the
    release of the interface did not fail. *)
Theorem C169_closed_partial : forall lib devs vid pid idx ops n,
  lib [] UContext = true -> (forall h, lib h URelease = true) -> (gets ops <= n)%nat ->
  exists a, u_calls (u_run lib devs vid pid idx (ops ++ ODropDevice :: map ODrop (seq 0 n) ++ [OCollect])) = a ++ [UClose].
Proof.
  intros lib devs vid pid idx ops n H1 HR Hn.
  assert (D : forall h o, u_context o = true -> exists a, u_del lib o h = a ++ [UClose]).
  { intros h o HC. unfold u_del. rewrite HR, HC. cbn [negb]. rewrite Bool.andb_false_r. eexists. reflexivity. }
  set (all := ops ++ _).
  destruct (lib [UContext] UList) eqn:H2. 2:{ unfold u_run, u_init. cbn [app]. rewrite H1, H2. cbn [negb u_calls]. now apply D. }
  destruct (dev_open vid pid idx devs) as [k|] eqn:H3. 2:{ unfold u_run, u_init. cbn [app]. rewrite H1, H2, H3. cbn [negb u_calls]. now apply D. }
  destruct (lib [UContext; UList] (UOpen k)) eqn:H4. 2:{ unfold u_run, u_init. cbn [app]. rewrite H1, H2, H3, H4. cbn [negb u_calls]. now apply D. }
  destruct (lib [UContext; UList; UOpen k] UClaim) eqn:H5. 2:{ unfold u_run, u_init. cbn [app]. rewrite H1, H2, H3, H4, H5. cbn [negb u_calls]. now apply D. }
  destruct (run_opened lib devs vid pid idx all k H1 H2 H3 H4 H5) as [K [m C]]. 
  assert (F : u_kept (u_run lib devs vid pid idx all) = false).
  { unfold u_run, u_init. cbn [app]. rewrite H1, H2, H3, H4, H5. cbn [negb]. unfold all. set (s0 := ULife true [] true _).
    rewrite fold_left_app. cbn [fold_left]. rewrite fold_left_app. cbn [fold_left]. set (s1 := fold_left (u_step lib) ops s0).
    assert (L1 : (length (u_eps s1) <= n)%nat) by (pose proof (eps_gets lib ops s0) as G; fold s1 in G; cbn in G; lia).
    set (s2 := u_step lib s1 ODropDevice).
    assert (S2 : u_held s2 = false /\ u_eps s2 = u_eps s1) by (unfold s2; cbn [u_step]; unfold u_sweep; destruct (_ && _); split; reflexivity). destruct S2 as [S2 S2'].
    destruct (dropped_all lib n s2 S2 ltac:(rewrite S2'; exact L1)) as [D1 D2]. set (s3 := fold_left (u_step lib) (map ODrop (seq 0 n)) s2) in *. clearbody s3.
    assert (KS : forall x, u_kept (u_sweep lib x) = u_kept x) by (intros x; unfold u_sweep; destruct (_ && _); reflexivity).
    cbn [u_step]. rewrite KS. unfold u_kept. cbn [u_held u_eps]. rewrite D1. cbn [orb]. clear - D2. induction (u_eps s3) as [|e l IH]; [reflexivity|]. cbn [map existsb].
    destruct e as [[|]|]; [exfalso; apply D2; now left| |]; apply IH; intros I; apply D2; now right. }
  rewrite F in K. rewrite K in C. rewrite C. now apply D.
Qed.
(** When the interface cannot be claimed (another program has it), and its release fails for
    this reason, the context is not closed, whatever the program does. *)
Theorem C169_closed_refuted : forall lib devs vid pid idx k ops,
  lib [] UContext = true -> lib [UContext] UList = true -> dev_open vid pid idx devs = Some k ->
  lib [UContext; UList] (UOpen k) = true -> lib [UContext; UList; UOpen k] UClaim = false ->
  lib [UContext; UList; UOpen k; UClaim] URelease = false ->
  u_calls (u_run lib devs vid pid idx ops) = [UContext; UList; UOpen k; UClaim; URelease].
Proof.
  intros lib devs vid pid idx k ops H1 H2 H3 H4 H5 H6. unfold u_run, u_init. cbn [app]. rewrite H1, H2, H3, H4, H5. cbn [negb u_calls]. unfold u_del. cbn [u_handle andb]. rewrite H6. reflexivity.
Qed.
(** A program that has dropped everything, after using an endpoint, still has the interface,
    until the collector runs: the endpoint refers to itself. *)
Theorem C169_prompt_refuted : forall lib devs vid pid idx k,
  lib [] UContext = true -> lib [UContext] UList = true -> dev_open vid pid idx devs = Some k ->
  lib [UContext; UList] (UOpen k) = true -> lib [UContext; UList; UOpen k] UClaim = true ->
  u_calls (u_run lib devs vid pid idx [OGet; OEndpoint 0; ODrop 0; ODropDevice]) = [UContext; UList; UOpen k; UClaim; UTransfer].
Proof.
  intros lib devs vid pid idx k H1 H2 H3 H4 H5. unfold u_run, u_init. cbn [app]. rewrite H1, H2, H3, H4, H5. reflexivity.
Qed.

(** Libraries: one that always succeeds, one where another program has the interface. *)
Definition lib_ok : ulib := fun _ _ => true.
Definition lib_busy : ulib := fun _ c => match c with UClaim | URelease => false | _ => true end.
Definition ex_devs : list (Z * Z) := [(0x1d6b, 2); (0xffff, 0x1234)].
(** Two endpoints; the second is used after the device was dropped. *)
Example C169_nonvacuous :
  u_calls (u_run lib_ok ex_devs 0xffff 0x1234 0 [OGet; ODevice; OGet; OEndpoint 0; ODropDevice; ODrop 0; OCollect; OEndpoint 1; ODrop 1; OCollect]) =
    [UContext; UList; UOpen 1; UClaim; UTransfer; UTransfer; UTransfer; URelease; UClose] /\
  u_calls (u_run lib_ok ex_devs 0xffff 0x1234 0 ([OGet; OEndpoint 0] ++ ODropDevice :: map ODrop (seq 0 1) ++ [OCollect])) =
    [UContext; UList; UOpen 1; UClaim; UTransfer; URelease; UClose] /\
  u_calls (u_run lib_busy ex_devs 0xffff 0x1234 0 [OCollect]) = [UContext; UList; UOpen 1; UClaim; URelease].
Proof. repeat split; reflexivity. Qed.

Print Assumptions C169_transfers.
Print Assumptions C169_usable.
Print Assumptions C169_order.
Print Assumptions C169_closed_partial.
Print Assumptions C169_closed_refuted.
Print Assumptions C169_prompt_refuted.
