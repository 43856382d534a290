(** A measure argument for bounded response. *)
From Verif Require Import Hdl.

(** Number of elements of a list satisfying a test. *)
Definition count {A} (f : A -> bool) (l : list A) : nat := length (filter f l).

Lemma count_cons {A} (f : A -> bool) x l : count f (x :: l) = ((if f x then 1 else 0) + count f l)%nat.
Proof. unfold count. cbn [filter]. now destruct (f x). Qed.
Lemma count_all {A} (f : A -> bool) l : (forall x, f x = true) -> count f l = length l.
Proof. intros H. unfold count. induction l as [|x l IH]; [reflexivity|]. cbn [filter]. rewrite H. cbn [length]. now rewrite IH. Qed.
Lemma count_trace {I O} (c : circuit I O) (f : O -> bool) (h : I -> bool) :
  (forall s i, f (cout c s i) = h i) -> forall s ins, count f (trace_from c s ins) = count h ins.
Proof.
  intros H s ins. revert s. induction ins as [|i ins IH]; intros s; [reflexivity|].
  cbn [trace_from]. now rewrite !count_cons, H, IH.
Qed.

Section Progress.
  Context {I O : Type} (c : circuit I O) (ok : I -> Prop) (Inv : cst c -> Prop)
    (don : cst c -> I -> bool) (tick : I -> bool) (m : cst c -> nat).
  (** As long as [don] does not happen, the measure never grows, and falls in
      every cycle that ticks; so [don] happens before the measure runs out. *)
  Lemma progress :
    (forall s i, Inv s -> ok i -> don s i = false ->
       Inv (cnext c s i) /\ ((if tick i then 1 else 0) + m (cnext c s i) <= m s)%nat) ->
    forall ins s, Inv s -> Forall ok ins -> (m s < count tick ins)%nat ->
    exists a i b, ins = a ++ i :: b /\ Inv (state_from c s a) /\ don (state_from c s a) i = true /\ (count tick a <= m s)%nat.
  Proof.
    intros Hstep. induction ins as [|i ins IH]; intros s Hs Hok Hc.
    - unfold count in Hc. cbn in Hc. lia.
    - apply Forall_cons_iff in Hok. destruct Hok as [Hi Hok].
      destruct (don s i) eqn:Ed.
      + exists [], i, ins. unfold count. cbn. repeat split; auto. lia.
      + destruct (Hstep s i Hs Hi Ed) as [Hn Hm]. rewrite count_cons in Hc.
        destruct (IH (cnext c s i) Hn Hok) as (a & j & b & -> & H1 & H2 & H3); [lia|].
        exists (i :: a), j, b. rewrite count_cons. cbn [app state_from]. repeat split; auto. lia.
  Qed.
End Progress.

(** The same, with conditions on what is observed. *)
Lemma trace_progress {I O} (c : circuit I O) (ok : O -> Prop) (Inv : cst c -> Prop) (don tick : O -> bool) (m : cst c -> nat) :
  (forall s i, let o := cout c s i in Inv s -> ok o -> don o = false ->
     Inv (cnext c s i) /\ ((if tick o then 1 else 0) + m (cnext c s i) <= m s)%nat) ->
  forall ins s, let t := trace_from c s ins in Inv s -> Forall ok t -> (m s < count tick t)%nat ->
  exists t1 x t2, t = t1 ++ x :: t2 /\ don x = true /\ (count tick t1 <= m s)%nat.
Proof.
  intros Hstep. induction ins as [|i ins IH]; intros s t Hs Hok Hc; unfold t in *; cbn [trace_from] in *.
  - unfold count in Hc. cbn in Hc. lia.
  - apply Forall_cons_iff in Hok. destruct Hok as [Hi Hok]. destruct (don (cout c s i)) eqn:Ed.
    + exists [], (cout c s i), (trace_from c (cnext c s i) ins). unfold count. cbn. repeat split; auto. lia.
    + destruct (Hstep s i Hs Hi Ed) as [Hn Hm]. rewrite count_cons in Hc.
      destruct (IH (cnext c s i) Hn Hok) as (t1 & x & t2 & E & H2 & H3); [lia|].
      exists (cout c s i :: t1), x, t2. rewrite count_cons, E. cbn [app]. repeat split; auto. lia.
Qed.

(** The same, for an invariant of the whole run, known beforehand. *)
Lemma run_progress {I O} (c : circuit I O) (P : list O -> cst c -> Prop) (ok : O -> Prop) (don : O -> bool) (m : cst c -> nat) :
  (forall t s i, let o := cout c s i in P t s -> ok o -> don o = false -> (1 + m (cnext c s i) <= m s)%nat) ->
  forall b a, (forall x y, b = x ++ y -> P (trace c (a ++ x)) (state c (a ++ x))) ->
  Forall ok (trace_from c (state c a) b) -> (m (state c a) < length b)%nat ->
  exists t1 o t2, trace_from c (state c a) b = t1 ++ o :: t2 /\ don o = true /\ (length t1 <= m (state c a))%nat.
Proof.
  intros Hstep. induction b as [|i b IH]; intros a HP Hok Hm; [cbn in Hm; lia|]. cbn [trace_from] in *.
  apply Forall_cons_iff in Hok. destruct Hok as [Hi Hok]. destruct (don (cout c (state c a) i)) eqn:Ed.
  - exists [], (cout c (state c a) i), (trace_from c (cnext c (state c a) i) b). cbn. repeat split; auto. lia.
  - pose proof (HP [] (i :: b) eq_refl) as H0. rewrite app_nil_r in H0. pose proof (Hstep _ _ i H0 Hi Ed) as Hs.
    assert (E : state c (a ++ [i]) = cnext c (state c a) i) by (unfold state; rewrite state_from_app; reflexivity).
    destruct (IH (a ++ [i])) as (t1 & o & t2 & E1 & E2 & E3).
    + intros x y ->. rewrite <- app_assoc. apply (HP (i :: x) y eq_refl).
    + rewrite E. exact Hok.
    + rewrite E. cbn [length] in Hm. lia.
    + rewrite E in E1, E3. exists (cout c (state c a) i :: t1), o, t2. rewrite E1. cbn [app length]. repeat split; auto. lia.
Qed.
