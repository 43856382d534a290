(** Streams: beats, channels, handshake observations, stream modules and their
    series composition.  This file is specification vocabulary; it mentions no
    particular core. *)
From Verif Require Export Hdl.

(** One word of a stream with its packet marks
    (lambdalib/interface/stream.py:42-48: first, last, payload). *)
Record beat (A : Type) := Beat { bfirst : bool; blast : bool; bdata : A }.
Arguments Beat {A} _ _ _.
Arguments bfirst {A} _.
Arguments blast {A} _.
Arguments bdata {A} _.

(** The forward signals of an endpoint in one cycle: valid + the beat. *)
Record chan (A : Type) := Chan { cvalid : bool; cbeat : beat A }.
Arguments Chan {A} _ _.
Arguments cvalid {A} _.
Arguments cbeat {A} _.

(** Everything visible in one cycle at a sink and at a source. *)
Record obs (A B : Type) := Obs {
  o_sink   : chan A;   (* sink.valid, first, last, payload *)
  o_sready : bool;     (* sink.ready *)
  o_src    : chan B;   (* source.valid, first, last, payload *)
  o_rready : bool }.   (* source.ready *)
Arguments Obs {A B} _ _ _ _.
Arguments o_sink {A B} _.
Arguments o_sready {A B} _.
Arguments o_src {A B} _.
Arguments o_rready {A B} _.

(** A transfer happens in a cycle where valid and ready are both high. *)
Definition xfer {A} (c : chan A) (ready : bool) : list (beat A) :=
  if cvalid c && ready then [cbeat c] else [].

Definition accepted {A B} (t : list (obs A B)) : list (beat A) :=
  flat_map (fun o => xfer (o_sink o) (o_sready o)) t.

Definition emitted {A B} (t : list (obs A B)) : list (beat B) :=
  flat_map (fun o => xfer (o_src o) (o_rready o)) t.

(** The stream rule: a beat offered and not taken is offered again, unchanged. *)
Definition stable_sink {A B} (t : list (obs A B)) : Prop :=
  forall t1 o o' t2, t = t1 ++ o :: o' :: t2 ->
    cvalid (o_sink o) = true -> o_sready o = false -> o_sink o' = o_sink o.

Definition stable_src {A B} (t : list (obs A B)) : Prop :=
  forall t1 o o' t2, t = t1 ++ o :: o' :: t2 ->
    cvalid (o_src o) = true -> o_rready o = false -> o_src o' = o_src o.

(** Stream modules with one sink and one source: the source channel does not
    depend combinationally on source.ready. *)
Record smod (A B : Type) := SMod {
  st  : Type;
  st0 : st;
  src : st -> chan A -> chan B;
  rdy : st -> chan A -> bool -> bool;
  nxt : st -> chan A -> bool -> st }.
Arguments SMod {A B} _ _ _ _ _.
Arguments st {A B} _.
Arguments st0 {A B} _.
Arguments src {A B} _ _ _.
Arguments rdy {A B} _ _ _ _.
Arguments nxt {A B} _ _ _ _.

(** A stream module as a circuit: its inputs are the sink channel and
    source.ready. *)
Definition scirc {A B} (m : smod A B) : circuit (chan A * bool) (obs A B) :=
  Circuit (st m) (st0 m)
    (fun s i => Obs (fst i) (rdy m s (fst i) (snd i)) (src m s (fst i)) (snd i))
    (fun s i => nxt m s (fst i) (snd i)).

Notation strace m ins := (trace (scirc m) ins).

(** Series composition: source of [m1] drives sink of [m2]. *)
Definition compose {A B C} (m1 : smod A B) (m2 : smod B C) : smod A C :=
  SMod (st m1 * st m2) (st0 m1, st0 m2)
    (fun s c => src m2 (snd s) (src m1 (fst s) c))
    (fun s c r => rdy m1 (fst s) c (rdy m2 (snd s) (src m1 (fst s) c) r))
    (fun s c r =>
       let mid := src m1 (fst s) c in
       (nxt m1 (fst s) c (rdy m2 (snd s) mid r), nxt m2 (snd s) mid r)).

(* ------------------------------------------------------------------ *)
(** Basic lemmas *)

Lemma accepted_app {A B} (t u : list (obs A B)) : accepted (t ++ u) = accepted t ++ accepted u.
Proof. apply flat_map_app. Qed.

Lemma emitted_app {A B} (t u : list (obs A B)) : emitted (t ++ u) = emitted t ++ emitted u.
Proof. apply flat_map_app. Qed.

Lemma accepted_1 {A B} (o : obs A B) : accepted [o] = xfer (o_sink o) (o_sready o).
Proof. simpl. apply app_nil_r. Qed.

Lemma emitted_1 {A B} (o : obs A B) : emitted [o] = xfer (o_src o) (o_rready o).
Proof. simpl. apply app_nil_r. Qed.

Lemma stable_sink_prefix {A B} (t u : list (obs A B)) : stable_sink (t ++ u) -> stable_sink t.
Proof.
  intros H t1 o o' t2 ->. apply (H t1 o o' (t2 ++ u)).
  rewrite <- !app_assoc. reflexivity.
Qed.

Lemma stable_src_prefix {A B} (t u : list (obs A B)) : stable_src (t ++ u) -> stable_src t.
Proof.
  intros H t1 o o' t2 ->. apply (H t1 o o' (t2 ++ u)).
  rewrite <- !app_assoc. reflexivity.
Qed.

Lemma stable_sink_nil {A B} : stable_sink ([] : list (obs A B)).
Proof. intros [|? ?] ? ? ? H; discriminate. Qed.

Lemma stable_sink_last {A B} (t : list (obs A B)) o o' :
  stable_sink (t ++ [o; o']) -> cvalid (o_sink o) = true -> o_sready o = false ->
  o_sink o' = o_sink o.
Proof. intros H. apply (H t o o' []). reflexivity. Qed.

(** Per-state criterion for source stability. *)
Lemma stable_src_intro {A B} (m : smod A B) (P : st m -> Prop) ins :
  (forall a, P (state (scirc m) a)) ->
  (forall s c c', P s -> cvalid (src m s c) = true ->
     src m (nxt m s c false) c' = src m s c) ->
  stable_src (strace m ins).
Proof.
  intros HP Hst t1 o o' t2 H Hv Hr. apply trace_two in H.
  destruct H as (a & [c r] & [c' r'] & b & -> & Ht & -> & ->). simpl in *.
  subst r. apply Hst; auto.
Qed.

(** Same, relying on the sink obeying the stream rule. *)
Lemma stable_src_intro_sink {A B} (m : smod A B) (P : st m -> Prop) ins :
  (forall a, P (state (scirc m) a)) ->
  (forall s c c', P s -> cvalid (src m s c) = true ->
     (cvalid c = true -> rdy m s c false = false -> c' = c) ->
     src m (nxt m s c false) c' = src m s c) ->
  stable_sink (strace m ins) -> stable_src (strace m ins).
Proof.
  intros HP Hst Hk t1 o o' t2 H Hv Hr.
  pose proof (Hk _ _ _ _ H) as Hk'. apply trace_two in H.
  destruct H as (a & [c r] & [c' r'] & b & -> & Ht & -> & ->). simpl in *.
  subst r. apply Hst; auto.
Qed.

(* ------------------------------------------------------------------ *)
(** Composition: the composite behaves as both parts run together, and what the
    first emits is what the second accepts. *)
Theorem compose_split {A B C} (m1 : smod A B) (m2 : smod B C) ins :
  exists ins1 ins2,
    length ins1 = length ins /\ length ins2 = length ins /\
    map fst ins1 = map fst ins /\ map snd ins2 = map snd ins /\
    state (scirc (compose m1 m2)) ins = (state (scirc m1) ins1, state (scirc m2) ins2) /\
    accepted (strace (compose m1 m2) ins) = accepted (strace m1 ins1) /\
    emitted (strace m1 ins1) = accepted (strace m2 ins2) /\
    emitted (strace m2 ins2) = emitted (strace (compose m1 m2) ins) /\
    map o_sink (strace m1 ins1) = map o_sink (strace (compose m1 m2) ins) /\
    map o_sready (strace m1 ins1) = map o_sready (strace (compose m1 m2) ins) /\
    map o_src (strace m1 ins1) = map o_sink (strace m2 ins2) /\
    map o_rready (strace m1 ins1) = map o_sready (strace m2 ins2) /\
    map o_src (strace m2 ins2) = map o_src (strace (compose m1 m2) ins) /\
    map o_rready (strace m2 ins2) = map o_rready (strace (compose m1 m2) ins).
Proof.
  induction ins as [|[c r] ins IH] using rev_ind.
  - exists [], []. repeat split; reflexivity.
  - destruct IH as (i1 & i2 & L1 & L2 & F1 & S2 & Hs & Ha & Hm & He & K1 & K2 & K3 & K4 & K5 & K6).
    set (s1 := state (scirc m1) i1) in *. set (s2 := state (scirc m2) i2) in *.
    exists (i1 ++ [(c, rdy m2 s2 (src m1 s1 c) r)]), (i2 ++ [(src m1 s1 c, r)]).
    rewrite !trace_app, !accepted_app, !emitted_app, !map_app.
    unfold state in *. rewrite !state_from_app, Hs.
    fold s1 s2. rewrite !app_length, L1, L2, F1, S2.
    cbn [trace_from state_from scirc cout cnext compose src rdy nxt fst snd app map].
    fold s1 s2.
    repeat split; try reflexivity; try (f_equal; assumption).
Qed.

Lemma stable_sink_map {A B C} (t : list (obs A B)) (u : list (obs A C)) :
  map o_sink t = map o_sink u -> map o_sready t = map o_sready u ->
  stable_sink u -> stable_sink t.
Proof.
  intros H1 H2 Hu t1 o o' t2 -> Hv Hr.
  rewrite !map_app in H1, H2. simpl in H1, H2. symmetry in H1, H2.
  apply map_eq_app in H1. destruct H1 as (u1 & u2 & -> & Hx1 & Hx2).
  destruct u2 as [|p [|p' u2]]; try discriminate. injection Hx2 as E1 E2 E3.
  assert (HL : length u1 = length t1) by (rewrite <- (map_length o_sink u1), Hx1; apply map_length).
  rewrite map_app in H2. simpl in H2.
  assert (Hy : o_sready p = o_sready o).
  { assert (E : nth_error (map o_sready u1 ++ o_sready p :: o_sready p' :: map o_sready u2) (length u1)
             = nth_error (map o_sready t1 ++ o_sready o :: o_sready o' :: map o_sready t2) (length u1)) by (now rewrite H2).
    rewrite nth_error_app2 in E by (now rewrite map_length).
    rewrite nth_error_app2 in E by (rewrite map_length; lia).
    rewrite !map_length, HL, !Nat.sub_diag in E. simpl in E. congruence. }
  rewrite <- E1, <- E2. apply (Hu u1 p p' u2); auto; congruence.
Qed.

Lemma stable_src_sink {A B C} (t : list (obs A B)) (u : list (obs B C)) :
  map o_src t = map o_sink u -> map o_rready t = map o_sready u ->
  stable_src t -> stable_sink u.
Proof.
  intros H1 H2 Hu t1 o o' t2 -> Hv Hr.
  rewrite !map_app in H1, H2. simpl in H1, H2.
  apply map_eq_app in H1. destruct H1 as (u1 & u2 & -> & Hx1 & Hx2).
  destruct u2 as [|p [|p' u2]]; try discriminate. injection Hx2 as E1 E2 E3.
  assert (HL : length u1 = length t1) by (rewrite <- (map_length o_src u1), Hx1; apply map_length).
  rewrite map_app in H2. simpl in H2.
  assert (Hy : o_rready p = o_sready o).
  { assert (E : nth_error (map o_rready u1 ++ o_rready p :: o_rready p' :: map o_rready u2) (length u1)
             = nth_error (map o_sready t1 ++ o_sready o :: o_sready o' :: map o_sready t2) (length u1)) by (now rewrite H2).
    rewrite nth_error_app2 in E by (now rewrite map_length).
    rewrite nth_error_app2 in E by (rewrite map_length; lia).
    rewrite !map_length, HL, !Nat.sub_diag in E. simpl in E. congruence. }
  rewrite <- E1, <- E2. apply (Hu u1 p p' u2); auto; congruence.
Qed.

(* ------------------------------------------------------------------ *)
(** A checker for concrete traces over Z, used by the non-vacuity examples. *)
Definition beat_eqb (a b : beat Z) : bool :=
  Bool.eqb (bfirst a) (bfirst b) && Bool.eqb (blast a) (blast b) && (bdata a =? bdata b).
Definition chan_eqb (a b : chan Z) : bool :=
  Bool.eqb (cvalid a) (cvalid b) && beat_eqb (cbeat a) (cbeat b).

Lemma chan_eqb_eq a b : chan_eqb a b = true -> a = b.
Proof.
  destruct a as [v [f l d]], b as [v' [f' l' d']]. unfold chan_eqb, beat_eqb; cbn.
  rewrite !andb_true_iff, !Bool.eqb_true_iff, Z.eqb_eq. intros (-> & (-> & ->) & ->). reflexivity.
Qed.

Fixpoint stable_sinkb {B} (t : list (obs Z B)) : bool :=
  match t with
  | o :: (o' :: _) as r =>
      (if cvalid (o_sink o) && negb (o_sready o) then chan_eqb (o_sink o') (o_sink o) else true)
      && match t with [] => true | _ :: r => stable_sinkb r end
  | _ => true
  end.

Lemma stable_sinkb_ok {B} (t : list (obs Z B)) : stable_sinkb t = true -> stable_sink t.
Proof.
  induction t as [|o t IH]; intros H t1 p p' t2 E Hv Hr.
  - destruct t1; discriminate.
  - destruct t1 as [|q t1].
    + injection E as -> ->. simpl in H. rewrite Hv, Hr in H. simpl in H.
      apply andb_true_iff in H. now apply chan_eqb_eq.
    + injection E as -> E. eapply (IH); eauto.
      destruct t as [|o' t]; [reflexivity|]. simpl in H. apply andb_true_iff in H. apply H.
Qed.
