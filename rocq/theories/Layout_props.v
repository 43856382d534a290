(** Layout checks: C74, C75. *)
From Coq Require Import List Bool Lia.
From Verif Require Import Layout_model.

(** A layout is acceptable when its names differ and none is a handshake name. *)
Definition names (l : layout) : list string := map fst l.
Definition handshake_names : list string := ["valid"; "ready"; "first"; "last"; "payload"]%string.
Definition acceptable (l : layout) : Prop := NoDup (names l) /\ forall x, In x (names l) -> ~ In x handshake_names.

Lemma mem_In x l : mem x l = true <-> In x l.
Proof.
  unfold mem. rewrite existsb_exists. split.
  - intros (y & H & E). apply String.eqb_eq in E. now subst.
  - intros H. exists x. split; [exact H|apply String.eqb_refl].
Qed.
Lemma mem_not x l : mem x l = false <-> ~ In x l.
Proof. rewrite <- mem_In. destruct (mem x l); intuition congruence. Qed.

Lemma check_fields_spec l att : check_fields att l = true <->
  NoDup (names l) /\ (forall x, In x (names l) -> ~ In x att) /\ (forall x, In x (names l) -> ~ In x handshake_names).
Proof.
  revert att. induction l as [|f l IH]; intros att; cbn [check_fields names map].
  - intuition. constructor.
  - destruct (mem (fst f) att) eqn:E1.
    { apply mem_In in E1. split; [discriminate|]. intros (_ & H & _). destruct (H (fst f)); [now left|exact E1]. }
    destruct (mem (fst f) reserved) eqn:E2.
    { apply mem_In in E2. split; [discriminate|]. intros (_ & _ & H). destruct (H (fst f)); [now left|exact E2]. }
    apply mem_not in E1, E2. rewrite IH. fold (names l). rewrite NoDup_cons_iff. split.
    + intros (H1 & H2 & H3). repeat split; auto.
      * intros X. apply (H2 _ X). now left.
      * intros x [<-|X]; [exact E1|]. intros Y. apply (H2 x X). now right.
      * intros x [<-|X]; [exact E2|auto].
    + intros ((H0 & H1) & H2 & H3). repeat split; auto.
      * intros x X [<-|Y]; [exact (H0 X)|]. apply (H2 x); [now right|exact Y].
      * intros x X. apply H3. now right.
Qed.
Lemma endpoint_ok_spec l : endpoint_ok l = true <-> acceptable l.
Proof.
  unfold endpoint_ok, full_layout, acceptable. pose proof (check_fields_spec l []) as H.
  destruct (check_fields [] l); split; try discriminate; intros X.
  - destruct (proj1 H eq_refl) as (A & _ & B). auto.
  - reflexivity.
  - destruct X as [A B]. rewrite (proj2 H); [reflexivity|]. repeat split; auto.
Qed.

(** C74: ValueError exactly for the layouts that are not acceptable; otherwise the full
    layout is the four handshake signals and the payload, with names, order and nesting
    kept and every payload leaf going out. *)
Theorem C74_rejects : forall l, full_layout l = None <-> ~ acceptable l.
Proof.
  intros l. rewrite <- endpoint_ok_spec. unfold endpoint_ok. destruct (full_layout l); intuition congruence.
Qed.
(** Same shape, every leaf going out. *)
Inductive out_shape : shape -> fshape -> Prop :=
| out_leaf w : out_shape (Leaf w) (FLeaf w Fanout)
| out_nest l l' : Forall2 (fun p q => fst p = fst q /\ out_shape (snd p) (snd q)) l l' -> out_shape (Nest l) (FNest l').
Lemma fanout_out s : out_shape s (fanout_shape s).
Proof.
  revert s. fix IH 1. intros [w|l]; cbn [fanout_shape]; constructor.
  induction l as [|[n s] l IHl]; cbn [map]; constructor; [|exact IHl]. cbn. split; [reflexivity|apply IH].
Qed.
Theorem C74_keeps : forall l full, full_layout l = Some full ->
  exists payload, full = [("valid", FLeaf 1 Fanout); ("ready", FLeaf 1 Fanin); ("first", FLeaf 1 Fanout); ("last", FLeaf 1 Fanout); ("payload", FNest payload)]%string /\
    Forall2 (fun p q => fst p = fst q /\ out_shape (snd p) (snd q)) l payload.
Proof.
  intros l full H. unfold full_layout in H. destruct (check_fields [] l); [|discriminate]. injection H as <-. eexists. split; [reflexivity|].
  clear. unfold make_fanout. induction l as [|[n s] l IH]; cbn [map]; constructor; [|exact IH]. cbn. split; [reflexivity|apply fanout_out].
Qed.
Example C74_nonvacuous :
  full_layout [("data", Leaf 8); ("x", Nest [("valid", Leaf 2)])]%string <> None /\ full_layout [("data", Leaf 8); ("data", Leaf 4)]%string = None /\ full_layout [("last", Leaf 1)]%string = None.
Proof. repeat split; discriminate. Qed.

(** ** C75 *)
Definition all_names (ls : list layout) : list string := flat_map names ls.
Lemma split_fields_spec fields l used :
  match split_fields fields used l with
  | Some u => NoDup (names l) /\ (forall x, In x (names l) -> In x fields /\ ~ In x used) /\ (forall x, In x u <-> In x (names l) \/ In x used)
  | None => ~ (NoDup (names l) /\ (forall x, In x (names l) -> In x fields /\ ~ In x used))
  end.
Proof.
  revert used. induction l as [|f l IH]; intros used; cbn [split_fields names map].
  - split; [constructor|]. cbn. intuition.
  - destruct (mem (fst f) fields) eqn:E1; cbn [negb].
    2: { apply mem_not in E1. intros (_ & H). destruct (H (fst f)); [now left|auto]. }
    destruct (mem (fst f) used) eqn:E2.
    { apply mem_In in E2. intros (_ & H). destruct (H (fst f)); [now left|auto]. }
    apply mem_In in E1. apply mem_not in E2. specialize (IH (fst f :: used)). fold (names l).
    destruct (split_fields fields (fst f :: used) l) as [u|].
    + destruct IH as (H1 & H2 & H3). split; [|split].
      * constructor; [|exact H1]. intros X. apply (H2 _ X). now left.
      * intros x [<-|X]; [auto|]. split; [apply H2, X|]. intros Y. apply (H2 x X). now right.
      * intros x. rewrite H3. cbn. tauto.
    + intros (H1 & H2). apply IH. inversion H1; subst. split; [assumption|]. intros x X. split; [apply H2; now right|].
      intros [<-|Y]; [auto|]. apply (H2 x); [now right|exact Y].
Qed.
Lemma NoDup_app_iff {A} (a b : list A) : NoDup (a ++ b) <-> NoDup a /\ NoDup b /\ (forall x, In x a -> ~ In x b).
Proof.
  induction a as [|x a IH]; cbn.
  - split; [intros H; repeat split; auto; constructor|tauto].
  - rewrite !NoDup_cons_iff, IH, in_app_iff. split.
    + intros (H1 & H2 & H3 & H4). repeat split; auto. intros y [<-|Y]; auto.
    + intros ((H1 & H2) & H3 & H4). repeat split; auto. intros [X|X]; [auto|]. exact (H4 x (or_introl eq_refl) X).
Qed.
Lemma split_layouts_spec fields ls used :
  split_layouts fields used ls <> None <->
  NoDup (all_names ls) /\ (forall x, In x (all_names ls) -> In x fields /\ ~ In x used).
Proof.
  revert used. induction ls as [|l ls IH]; intros used; cbn [split_layouts all_names flat_map].
  - split; [intros _; split; [constructor|intros x []]|discriminate].
  - fold (all_names ls). pose proof (split_fields_spec fields l used) as S. rewrite NoDup_app_iff.
    destruct (split_fields fields used l) as [u|].
    + destruct S as (S1 & S2 & S3). rewrite IH. split.
      * intros (H1 & H2). repeat split; auto.
        -- intros x X Y. apply (H2 x Y). rewrite S3. auto.
        -- apply in_app_iff in H. destruct H as [X|X]; [apply S2, X|apply H2, X].
        -- apply in_app_iff in H. destruct H as [X|X]; [apply S2, X|]. intros Y. apply (H2 x X). rewrite S3. auto.
      * intros ((H1 & H2 & H3) & H4). split; [exact H2|]. intros x X. split; [apply H4, in_app_iff; auto|].
        rewrite S3. intros [Y|Y]; [exact (H3 x Y X)|]. apply (H4 x); [apply in_app_iff; auto|exact Y].
    + split; [congruence|]. intros ((H1 & H2 & H3) & H4). exfalso. apply S. split; [exact H1|]. intros x X. apply H4, in_app_iff. auto.
Qed.
(** The splitter accepts exactly: acceptable layouts, the targets using only fields of the
    source layout, none twice. *)
Theorem C75_splitter : forall from tos, splitter_ok from tos = true <->
  acceptable from /\ (forall l, In l tos -> acceptable l) /\ NoDup (all_names tos) /\ incl (all_names tos) (names from).
Proof.
  intros from tos. unfold splitter_ok. rewrite !andb_true_iff, endpoint_ok_spec, forallb_forall.
  pose proof (split_layouts_spec (names from) tos []) as S. fold (names from) in *.
  assert (E : (match split_layouts (names from) [] tos with Some _ => true | None => false end) = true <-> split_layouts (names from) [] tos <> None) by (destruct (split_layouts _ _ _); intuition congruence).
  unfold names at 1. fold (names from). rewrite E, S. unfold incl. split.
  - intros ((H1 & H2) & H3 & H4). repeat split; auto; try apply H1.
    + apply endpoint_ok_spec. auto.
    + apply endpoint_ok_spec. auto.
    + intros x X. apply H4, X.
  - intros (H1 & H2 & H3 & H4). repeat split; auto; try apply H1. intros l X. apply endpoint_ok_spec. auto.
Qed.
Lemma merge_fields_spec l fields :
  match merge_fields fields l with
  | Some u => NoDup (names l) /\ (forall x, In x (names l) -> ~ In x fields) /\ (forall x, In x u <-> In x (names l) \/ In x fields)
  | None => ~ (NoDup (names l) /\ (forall x, In x (names l) -> ~ In x fields))
  end.
Proof.
  revert fields. induction l as [|f l IH]; intros fields; cbn [merge_fields names map].
  - split; [constructor|]. cbn. intuition.
  - destruct (mem (fst f) fields) eqn:E2.
    { apply mem_In in E2. intros (_ & H). apply (H (fst f)); [now left|auto]. }
    apply mem_not in E2. specialize (IH (fst f :: fields)). fold (names l).
    destruct (merge_fields (fst f :: fields) l) as [u|].
    + destruct IH as (H1 & H2 & H3). split; [|split].
      * constructor; [|exact H1]. intros X. apply (H2 _ X). now left.
      * intros x [<-|X]; [auto|]. intros Y. apply (H2 x X). now right.
      * intros x. rewrite H3. cbn. tauto.
    + intros (H1 & H2). apply IH. inversion H1; subst. split; [assumption|]. intros x X.
      intros [<-|Y]; [auto|]. apply (H2 x); [now right|exact Y].
Qed.
Lemma names_concat ls : names (List.concat ls) = all_names ls.
Proof. induction ls as [|l ls IH]; [reflexivity|]. cbn. unfold names in *. rewrite map_app, IH. reflexivity. Qed.
Lemma merge_layouts_spec ls fields m :
  merge_layouts fields ls = Some m <->
  m = List.concat ls /\ NoDup (all_names ls) /\ (forall x, In x (all_names ls) -> ~ In x fields) /\ (forall l, In l ls -> acceptable l).
Proof.
  revert fields m. induction ls as [|l ls IH]; intros fields m; cbn [merge_layouts all_names flat_map List.concat].
  - split; [intros E; injection E as <-|intros (-> & _); reflexivity]. split; [reflexivity|]. split; [constructor|]. split; [auto|]. intros l [].
  - fold (all_names ls). pose proof (merge_fields_spec l fields) as S. rewrite NoDup_app_iff.
    destruct (merge_fields fields l) as [u|].
    + destruct S as (S1 & S2 & S3). destruct (endpoint_ok l) eqn:El.
      * apply endpoint_ok_spec in El. specialize (IH u). destruct (merge_layouts u ls) as [m'|].
        -- destruct (proj1 (IH m') eq_refl) as (-> & H1 & H2 & H3). split.
           ++ intros E. injection E as <-. repeat split; auto.
              ** intros x X Y. apply (H2 x Y). rewrite S3. auto.
              ** intros x X. apply in_app_iff in X. destruct X as [X|X]; [apply S2, X|]. intros Y. apply (H2 x X). rewrite S3. auto.
              ** destruct H as [<-|H]; [apply El|apply H3, H].
              ** destruct H as [<-|H]; [apply El|apply H3, H].
           ++ intros (-> & _). reflexivity.
        -- split; [discriminate|]. intros (-> & (H1 & H2 & H3) & H4 & H5). exfalso.
           enough (None = Some (List.concat ls)) by discriminate. apply IH. repeat split; auto.
           ++ intros x X. rewrite S3. intros [Y|Y]; [exact (H3 x Y X)|]. apply (H4 x); [apply in_app_iff; auto|exact Y].
           ++ apply H5. now right.
           ++ apply H5. now right.
      * split; [discriminate|]. intros (_ & _ & _ & H). assert (X : acceptable l) by (apply H; now left). apply endpoint_ok_spec in X. congruence.
    + split; [discriminate|]. intros (_ & (H1 & H2 & H3) & H4 & _). exfalso. apply S. split; [exact H1|]. intros x X. apply H4, in_app_iff. auto.
Qed.
(** The merger accepts exactly acceptable layouts with no field in common; the merged
    layout is their concatenation. *)
Theorem C75_merger : forall ls m, merger_layout ls = Some m <->
  m = List.concat ls /\ NoDup (all_names ls) /\ (forall l, In l ls -> acceptable l).
Proof.
  intros ls m. unfold merger_layout. pose proof (merge_layouts_spec ls []) as S. destruct (merge_layouts [] ls) as [m'|].
  - destruct (proj1 (S m') eq_refl) as (-> & H1 & _ & H2).
    assert (A : acceptable (List.concat ls)).
    { split; [rewrite names_concat; exact H1|]. intros x X. rewrite names_concat in X. unfold all_names in X. apply in_flat_map in X. destruct X as (l & L & X). exact (proj2 (H2 l L) x X). }
    apply endpoint_ok_spec in A. rewrite A. split; [intros E; injection E as <-; auto|]. intros (-> & _). reflexivity.
  - split; [discriminate|]. intros (-> & H1 & H2). enough (None = Some (List.concat ls)) by discriminate. apply S. auto.
Qed.
Example C75_nonvacuous :
  splitter_ok [("a", Leaf 1); ("b", Leaf 2)]%string [[("b", Leaf 2)]; [("a", Leaf 1)]]%string = true /\
  splitter_ok [("a", Leaf 1); ("b", Leaf 2)]%string [[("a", Leaf 1)]; [("a", Leaf 1)]]%string = false /\
  merger_layout [[("a", Leaf 1)]; [("b", Leaf 2)]]%string = Some [("a", Leaf 1); ("b", Leaf 2)]%string /\
  merger_layout [[("a", Leaf 1)]; [("a", Leaf 2)]]%string = None.
Proof. repeat split. Qed.
Print Assumptions C74_rejects.
Print Assumptions C74_keeps.
Print Assumptions C75_splitter.
Print Assumptions C75_merger.
