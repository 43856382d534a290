(** Synchronous circuits and their executions.

    This is the common execution model: one step is one cycle of the [sync]
    clock.  [cout] is what is observed in a cycle (inputs and combinational
    outputs), [cnext] what the registers hold after the clock edge.
    It is the trusted reading of Amaranth's [m.d.comb] / [m.d.sync]; see
    DESIGN.md section 1. *)
From Coq Require Export List Bool ZArith Lia.
Export ListNotations.
#[global] Open Scope Z_scope.

Record circuit (I O : Type) := Circuit {
  cst    : Type;
  creset : cst;
  cout   : cst -> I -> O;
  cnext  : cst -> I -> cst }.

Arguments Circuit {I O} _ _ _ _.
Arguments cst {I O} _.
Arguments creset {I O} _.
Arguments cout {I O} _ _ _.
Arguments cnext {I O} _ _ _.

Section Run.
  Context {I O : Type} (c : circuit I O).

  (** State reached from [s] after the inputs [ins], one per cycle. *)
  Fixpoint state_from (s : cst c) (ins : list I) : cst c :=
    match ins with
    | [] => s
    | i :: r => state_from (cnext c s i) r
    end.

  (** What is observed, cycle by cycle. *)
  Fixpoint trace_from (s : cst c) (ins : list I) : list O :=
    match ins with
    | [] => []
    | i :: r => cout c s i :: trace_from (cnext c s i) r
    end.

  Definition state (ins : list I) : cst c := state_from (creset c) ins.
  Definition trace (ins : list I) : list O := trace_from (creset c) ins.

  Lemma state_from_app s a b :
    state_from s (a ++ b) = state_from (state_from s a) b.
  Proof. revert s; induction a; simpl; auto. Qed.

  Lemma trace_from_app s a b :
    trace_from s (a ++ b) = trace_from s a ++ trace_from (state_from s a) b.
  Proof. revert s; induction a; simpl; intros; auto. now rewrite IHa. Qed.

  Lemma trace_app a b :
    trace (a ++ b) = trace a ++ trace_from (state a) b.
  Proof. apply trace_from_app. Qed.

  Lemma trace_from_length s ins : length (trace_from s ins) = length ins.
  Proof. revert s; induction ins; simpl; auto. Qed.

  Lemma trace_length ins : length (trace ins) = length ins.
  Proof. apply trace_from_length. Qed.

  (** The induction principle behind most proofs: an invariant between the
      trace so far and the current state. *)
  Lemma run_inv_from (P : list O -> cst c -> Prop) t0 s0 :
    P t0 s0 ->
    (forall t s i, P t s -> P (t ++ [cout c s i]) (cnext c s i)) ->
    forall ins, P (t0 ++ trace_from s0 ins) (state_from s0 ins).
  Proof.
    intros H0 Hs ins. revert t0 s0 H0. induction ins as [|i r IH]; simpl; intros.
    - now rewrite app_nil_r.
    - change (cout c s0 i :: trace_from (cnext c s0 i) r)
        with ([cout c s0 i] ++ trace_from (cnext c s0 i) r).
      rewrite app_assoc. apply IH. now apply Hs.
  Qed.

  Lemma run_inv (P : list O -> cst c -> Prop) :
    P [] (creset c) ->
    (forall t s i, P t s -> P (t ++ [cout c s i]) (cnext c s i)) ->
    forall ins, P (trace ins) (state ins).
  Proof. intros H0 Hs ins. apply (run_inv_from P [] (creset c)); auto. Qed.

  (** Same, when the invariant may rely on a prefix-closed assumption [H]
      about the trace. *)
  Lemma run_inv_hyp (H : list O -> Prop) (P : list O -> cst c -> Prop) :
    (forall t u, H (t ++ u) -> H t) ->
    P [] (creset c) ->
    (forall t s i, H (t ++ [cout c s i]) -> P t s -> P (t ++ [cout c s i]) (cnext c s i)) ->
    forall ins, H (trace ins) -> P (trace ins) (state ins).
  Proof.
    intros Hp H0 Hs ins.
    apply (run_inv (fun t s => H t -> P t s)); auto.
    intros t s i IH Ht. apply Hs; auto. apply IH. eapply Hp; eauto.
  Qed.

  (** Invariant on states only. *)
  Lemma state_inv (P : cst c -> Prop) :
    P (creset c) -> (forall s i, P s -> P (cnext c s i)) -> forall ins, P (state ins).
  Proof. intros H0 Hs ins. apply (run_inv (fun _ s => P s)); auto. Qed.

  Lemma trace_split_from s ins t1 o t2 :
    trace_from s ins = t1 ++ o :: t2 ->
    exists a i b, ins = a ++ i :: b /\ trace_from s a = t1 /\
      o = cout c (state_from s a) i /\
      t2 = trace_from (cnext c (state_from s a) i) b.
  Proof.
    revert s ins. induction t1 as [|x t1 IH]; intros s ins H; destruct ins as [|i ins]; try discriminate.
    - simpl in H. injection H as H1 H2. exists [], i, ins. subst; auto.
    - simpl in H. injection H as H1 H2. destruct (IH _ _ H2) as (a & j & b & -> & <- & -> & ->).
      exists (i :: a), j, b. subst; simpl; auto.
  Qed.

  Lemma trace_cut_from s ins t1 t2 :
    trace_from s ins = t1 ++ t2 ->
    exists a b, ins = a ++ b /\ trace_from s a = t1 /\ trace_from (state_from s a) b = t2.
  Proof.
    revert s ins. induction t1 as [|x t1 IH]; intros s ins H.
    - exists [], ins. auto.
    - destruct ins as [|i ins]; try discriminate. simpl in H. injection H as H1 H2.
      destruct (IH _ _ H2) as (a & b & -> & <- & <-). exists (i :: a), b. subst; auto.
  Qed.

  Lemma trace_seg ins t1 seg t2 :
    trace ins = t1 ++ seg ++ t2 ->
    exists a b d, ins = a ++ b ++ d /\ trace a = t1 /\ trace_from (state a) b = seg /\
      trace_from (state_from (state a) b) d = t2.
  Proof.
    intros H. apply trace_cut_from in H. destruct H as (a & b & -> & <- & H).
    apply trace_cut_from in H. destruct H as (b1 & d & -> & <- & <-). exists a, b1, d. auto.
  Qed.

  (** Any two consecutive observations come from a reachable state. *)
  Lemma trace_two ins t1 o o' t2 :
    trace ins = t1 ++ o :: o' :: t2 ->
    exists a i i' b, ins = a ++ i :: i' :: b /\ trace a = t1 /\ o = cout c (state a) i /\
      o' = cout c (cnext c (state a) i) i'.
  Proof.
    intros H. apply trace_split_from in H. destruct H as (a & i & b & -> & Ht & -> & H).
    destruct b as [|i' b]; simpl in H; try discriminate. injection H as H1 H2.
    exists a, i, i', b. subst; auto.
  Qed.

  Lemma trace_one ins t1 o t2 :
    trace ins = t1 ++ o :: t2 ->
    exists a i b, ins = a ++ i :: b /\ trace a = t1 /\ o = cout c (state a) i.
  Proof.
    intros H. apply trace_split_from in H. destruct H as (a & i & b & -> & Ht & -> & H).
    exists a, i, b. auto.
  Qed.
End Run.

(** Two circuits with related states and equal outputs have equal traces; the
    inputs may be restricted. *)
Lemma trace_refine {I O} (c1 c2 : circuit I O) (R : cst c1 -> cst c2 -> Prop) (P : I -> Prop) :
  R (creset c1) (creset c2) ->
  (forall s1 s2 i, R s1 s2 -> P i -> cout c1 s1 i = cout c2 s2 i /\ R (cnext c1 s1 i) (cnext c2 s2 i)) ->
  forall ins, Forall P ins -> trace c1 ins = trace c2 ins.
Proof.
  intros H0 Hs. unfold trace. intros ins. generalize dependent (creset c2). generalize dependent (creset c1).
  induction ins as [|i ins IH]; intros s1 s2 HR HF; [reflexivity|].
  cbn. destruct (Hs s1 s2 i HR (Forall_inv HF)) as [E HR']. rewrite E. f_equal.
  apply IH; auto. now apply Forall_inv_tail in HF.
Qed.

(** Width of [Signal(range(n))] in Amaranth 0.4: the bits needed for n-1. *)
Definition range_width (n : Z) : Z := if n <=? 1 then 0 else Z.log2 (n - 1) + 1.

(** Storing [x] into an unsigned signal of width [w]. *)
Definition trunc (w x : Z) : Z := x mod 2 ^ w.

Lemma range_width_nonneg n : 0 <= range_width n.
Proof. unfold range_width. destruct (Z.leb_spec n 1); [lia|]. pose proof (Z.log2_nonneg (n-1)); lia. Qed.

Lemma range_width_bound n : 1 <= n -> n <= 2 ^ range_width n.
Proof.
  unfold range_width. intros. destruct (Z.leb_spec n 1).
  - simpl; lia.
  - destruct (Z.log2_spec (n-1)) as [_ H1]; [lia|].
    unfold Z.succ in H1. lia.
Qed.

Lemma trunc_small w x : 0 <= x < 2 ^ w -> trunc w x = x.
Proof. intros; unfold trunc; now apply Z.mod_small. Qed.

Lemma trunc_range w x : 0 <= w -> 0 <= trunc w x < 2 ^ w.
Proof. intros; unfold trunc. apply Z.mod_pos_bound. apply Z.pow_pos_nonneg; lia. Qed.

Lemma trunc_range_small n x : 0 <= x < n -> trunc (range_width n) x = x.
Proof. intros. apply trunc_small. pose proof (range_width_bound n). lia. Qed.

#[global] Arguments trunc : simpl never.
#[global] Arguments range_width : simpl never.
