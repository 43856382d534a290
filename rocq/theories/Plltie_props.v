(** What the float arithmetic minimises, and which of equally good PLL settings is taken:
    C66, C67. *)
From Coq Require Import Sorting.Sorted Lqa.
From Verif Require Import Pll_model Float_proofs Pll_props.

(** Numbers compared from the left. *)
Fixpoint before (a b : list Z) : Prop :=
  match a, b with
  | x :: a', y :: b' => (x < y)%Z \/ (x = y /\ before a' b')
  | _, _ => True
  end.

Ltac bef := cbn; repeat (first [exact I | left; assumption | left; lia | right; split; [reflexivity|]]).
Lemma lex_lt_false a b : length a = length b -> lex_lt a b = true -> ~ lex_le b a.
Proof.
  revert b. induction a as [|x a IH]; intros [|y b] L; cbn in *; try discriminate.
  intros H [X|[X Y]]; apply orb_prop in H; destruct H as [H|H].
  - apply Qlt_bool_spec in H. lra.
  - apply andb_prop in H. destruct H as [H _]. apply Qeq_bool_iff in H. lra.
  - apply Qlt_bool_spec in H. lra.
  - apply andb_prop in H. destruct H as [_ H]. exact (IH b ltac:(congruence) H Y).
Qed.
(** The first of the minimal elements. *)
Lemma min_key_first {A} (key : A -> list Q) n l x : (forall y, length (key y) = n) -> min_key key l = Some x ->
  exists l1 l2, l = l1 ++ x :: l2 /\ forall y, In y l1 -> ~ lex_le (key y) (key x).
Proof.
  intros L. destruct l as [|a l]; [discriminate|]. cbn [min_key]. intros E. injection E as <-.
  assert (G : forall l best s1 s2, (forall y, In y s1 -> ~ lex_le (key y) (key best)) ->
    (forall y, In y s2 -> lex_le (key best) (key y)) ->
    let r := fold_left (fun best y => if lex_lt (key y) (key best) then y else best) l best in
    exists l1 l2, s1 ++ best :: s2 ++ l = l1 ++ r :: l2 /\ forall y, In y l1 -> ~ lex_le (key y) (key r)).
  { clear a l. induction l as [|b l IH]; intros best s1 s2 H1 H2; cbn [fold_left].
    - exists s1, s2. rewrite app_nil_r. auto.
    - destruct (lex_lt (key b) (key best)) eqn:E.
      + pose proof (lex_lt_false _ _ ltac:(now rewrite !L) E) as N. pose proof (lex_lt_le (key b) (key best) ltac:(now rewrite !L)) as LE. rewrite E in LE.
        destruct (IH b (s1 ++ best :: s2) []) as (l1 & l2 & E1 & E2).
        * intros y Y C. apply in_app_iff in Y. destruct Y as [Y|[<-|Y]]; [|auto|].
          -- apply (H1 y Y). apply (lex_le_trans _ (key b)); auto. now rewrite !L.
          -- apply N. apply (lex_le_trans _ (key y)); auto. now rewrite !L.
        * intros y [].
        * exists l1, l2. split; [|exact E2]. rewrite <- E1. cbn [app]. rewrite <- app_assoc. reflexivity.
      + pose proof (lex_lt_le (key b) (key best) ltac:(now rewrite !L)) as LE. rewrite E in LE.
        destruct (IH best s1 (s2 ++ [b]) H1) as (l1 & l2 & E1 & E2).
        * intros y Y. apply in_app_iff in Y. destruct Y as [Y|[<-|[]]]; auto.
        * exists l1, l2. split; [|exact E2]. rewrite <- E1, <- app_assoc. reflexivity. }
  destruct (G l a [] []) as (l1 & l2 & E1 & E2); [intros y []|intros y []|]. exists l1, l2. auto.
Qed.
(** The variants are enumerated in order. *)
Lemma sorted_app {A} (R : A -> A -> Prop) a b : StronglySorted R a -> StronglySorted R b ->
  (forall x y, In x a -> In y b -> R x y) -> StronglySorted R (a ++ b).
Proof.
  induction 1 as [|x a Ha IH F]; intros Hb H; [exact Hb|]. cbn [app]. constructor; [apply IH; auto; intros; apply H; [now right|auto]|].
  apply Forall_app. split; [exact F|]. apply Forall_forall. intros y Y. apply H; [now left|auto].
Qed.
Lemma sorted_flat {A B} (S : A -> A -> Prop) (R : B -> B -> Prop) f l : StronglySorted S l ->
  (forall x, In x l -> StronglySorted R (f x)) -> (forall x y a b, S x y -> In a (f x) -> In b (f y) -> R a b) -> StronglySorted R (flat_map f l).
Proof.
  induction 1 as [|x l Hl IH F]; intros H1 H2; [constructor|]. cbn [flat_map]. apply sorted_app; [apply H1; now left|apply IH; auto; intros; apply H1; now right|].
  intros a b Ha Hb. apply in_flat_map in Hb. destruct Hb as (y & Hy & Hb). rewrite Forall_forall in F. exact (H2 x y a b (F y Hy) Ha Hb).
Qed.
Lemma sorted_if {A} (R : A -> A -> Prop) (c : bool) l : StronglySorted R l -> StronglySorted R (if c then l else []).
Proof. destruct c; [auto|constructor]. Qed.
Lemma irange_sorted a n : StronglySorted Z.lt (irange a n).
Proof.
  unfold irange. generalize (Z.to_nat n) as k, 0%nat as s. induction k as [|k IH]; intros s; cbn [seq map]; constructor; [apply IH|].
  apply Forall_forall. intros x H. apply in_map_iff in H. destruct H as (y & <- & H). apply in_seq in H. lia.
Qed.
Lemma rev_sorted {A} (R : A -> A -> Prop) l : StronglySorted R l -> StronglySorted (fun x y => R y x) (rev l).
Proof.
  induction 1 as [|x l Hl IH F]; [constructor|]. cbn [rev]. apply sorted_app; [exact IH|repeat constructor|].
  intros a b Ha [<-|[]]. apply in_rev in Ha. rewrite Forall_forall in F. auto.
Qed.
Lemma sorted_split {A} (R : A -> A -> Prop) l1 x l2 y : StronglySorted R (l1 ++ x :: l2) -> In y l2 -> R x y.
Proof.
  induction l1 as [|a l1 IH]; cbn [app]; intros H Hy; apply StronglySorted_inv in H; destruct H as [H F]; [|auto]. rewrite Forall_forall in F. auto.
Qed.

(** ECP5 frequencies as the floats the program computes: every operation rounds. *)
Definition ecp5_pfd_float (i_freq : Z) (v : ecp5_set) : Q := rnd (inject_Z i_freq / inject_Z (e_i_div v)).
Definition ecp5_vco_float (i_freq : Z) (v : ecp5_set) : Q := rnd (rnd (ecp5_pfd_float i_freq v * inject_Z (e_fb_div v)) * inject_Z (e_op_div v)).
Definition ecp5_out_float (i_freq : Z) (v : ecp5_set) : Q := rnd (ecp5_vco_float i_freq v / inject_Z (e_op_div v)).
Definition ecp5_considered (i_freq : Z) (v : ecp5_set) : Prop :=
  z_in 1 (e_i_div v) 128 /\ z_in 1 (e_fb_div v) 80 /\ z_in 1 (e_op_div v) 128 /\
  q_in 3125000 (ecp5_pfd_float i_freq v) 400000000 /\ q_in 400000000 (ecp5_vco_float i_freq v) 800000000 /\
  q_in 10000000 (ecp5_out_float i_freq v) 400000000.
(** (output error, VCO distance to 600 MHz, PFD distance to 200 MHz) *)
Definition ecp5_cost_float (i_freq o_freq : Z) (v : ecp5_set) : list Q :=
  [Qabs (rnd (ecp5_out_float i_freq v - inject_Z o_freq)); Qabs (rnd (ecp5_vco_float i_freq v - 600000000)); Qabs (rnd (ecp5_pfd_float i_freq v - 200000000))].
Lemma considered_In i w : ecp5_considered i w <-> In w (e_variants i).
Proof. rewrite e_variants_In. unfold ecp5_considered, e_range. tauto. Qed.
Lemma e_cost_eq i o v : e_error i o v = ecp5_cost_float i o v.
Proof. unfold e_error, ecp5_cost_float, fsub, ecp5_out_float, ecp5_vco_float, ecp5_pfd_float, e_op, e_vco, e_pfd, fdiv, fmul. reflexivity. Qed.
Lemma e_ties i o v w : ecp5_settings i o = Some v -> In w (e_variants i) -> lex_le (e_error i o w) (e_error i o v) ->
  before [e_i_div v; e_fb_div v; e_op_div v] [e_i_div w; e_fb_div w; e_op_div w].
Proof.
  intros E L C. destruct (min_key_first (e_error i o) 3 (e_variants i) v (fun _ => eq_refl) E) as (l1 & l2 & El & F).
  rewrite El in L. apply in_app_iff in L. destruct L as [L|[<-|L]].
  - exfalso. exact (F w L C).
  - bef.
  - assert (S : StronglySorted (fun a b => before [e_i_div a; e_fb_div a; e_op_div a] [e_i_div b; e_fb_div b; e_op_div b]) (e_variants i)).
    { unfold e_variants. apply (sorted_flat Z.lt); [apply irange_sorted| |].
      - intros x _. apply sorted_if. apply (sorted_flat Z.lt); [apply irange_sorted| |].
        + intros y _. apply (sorted_flat Z.lt); [apply irange_sorted| |].
          * intros z _. apply sorted_if, sorted_if. repeat constructor.
          * intros p q a b H Ha Hb. apply if_nil_In in Ha, Hb. destruct Ha as [_ Ha], Hb as [_ Hb]. apply if_nil_In in Ha, Hb. destruct Ha as [_ [<-|[]]], Hb as [_ [<-|[]]]. bef.
        + intros p q a b H Ha Hb. apply in_flat_map in Ha, Hb. destruct Ha as (r & _ & Ha), Hb as (t & _ & Hb).
          apply if_nil_In in Ha, Hb. destruct Ha as [_ Ha], Hb as [_ Hb]. apply if_nil_In in Ha, Hb. destruct Ha as [_ [<-|[]]], Hb as [_ [<-|[]]]. bef.
      - intros p q a b H Ha Hb. apply if_nil_In in Ha, Hb. destruct Ha as [_ Ha], Hb as [_ Hb]. apply in_flat_map in Ha, Hb. destruct Ha as (? & _ & Ha), Hb as (? & _ & Hb).
        apply in_flat_map in Ha, Hb. destruct Ha as (r & _ & Ha), Hb as (t & _ & Hb).
        apply if_nil_In in Ha, Hb. destruct Ha as [_ Ha], Hb as [_ Hb]. apply if_nil_In in Ha, Hb. destruct Ha as [_ [<-|[]]], Hb as [_ [<-|[]]]. bef. }
    rewrite El in S. exact (sorted_split _ _ _ _ _ S L).
Qed.
Lemma e_best i o v : ecp5_settings i o = Some v -> In v (e_variants i) /\ forall w, In w (e_variants i) -> lex_le (e_error i o v) (e_error i o w).
Proof.
  unfold ecp5_settings. intros E. pose proof (min_key_spec (e_error i o) 3 (e_variants i) (fun _ => eq_refl)) as M. rewrite E in M. exact M.
Qed.
(** The settings taken are the best by the computed frequencies and, of equally good ones, those
    with the smallest input divider, then the smallest feedback divider, then the smallest
    output divider. *)
Theorem C66_ecp5_floats : forall i_freq o_freq v w, ecp5_settings i_freq o_freq = Some v -> ecp5_considered i_freq w ->
  ecp5_considered i_freq v /\ lex_le (ecp5_cost_float i_freq o_freq v) (ecp5_cost_float i_freq o_freq w) /\
  (lex_le (ecp5_cost_float i_freq o_freq w) (ecp5_cost_float i_freq o_freq v) ->
   before [e_i_div v; e_fb_div v; e_op_div v] [e_i_div w; e_fb_div w; e_op_div w]).
Proof.
  intros i o v w E L. apply considered_In in L. destruct (e_best i o v E) as [M1 M2]. split; [now apply considered_In|].
  rewrite <- (e_cost_eq i o v), <- (e_cost_eq i o w). split; [exact (M2 w L)|]. exact (e_ties i o v w E L).
Qed.
(** 7-series *)
Lemma x_ties i o v w : z_in 19000000 i 800000000 -> xil_settings i o = Some v -> xil_legal i w -> lex_le (x_error i o w) (x_error i o v) ->
  before [x_divclk v; - x_mult v; x_div0 v]%Z [x_divclk w; - x_mult w; x_div0 w]%Z.
Proof.
  intros Hi. revert v w.
  intros v w E L C. destruct (min_key_first (x_error i o) 2 (x_variants i) v (fun _ => eq_refl) E) as (l1 & l2 & El & F).
  apply (x_variants_In i w Hi) in L. rewrite El in L. apply in_app_iff in L. destruct L as [L|[<-|L]].
  - exfalso. exact (F w L C).
  - bef.
  - assert (S : StronglySorted (fun a b => before [x_divclk a; - x_mult a; x_div0 a]%Z [x_divclk b; - x_mult b; x_div0 b]%Z) (x_variants i)).
    { unfold x_variants. apply (sorted_flat Z.lt); [apply irange_sorted| |].
      - intros x _. apply (sorted_flat (fun a b => Z.lt b a)); [apply rev_sorted, irange_sorted| |].
        + intros y _. apply sorted_if. apply (sorted_flat Z.lt); [apply irange_sorted| |].
          * intros z _. apply sorted_if. repeat constructor.
          * intros p q a b H Ha Hb. apply if_nil_In in Ha, Hb. destruct Ha as [_ [<-|[]]], Hb as [_ [<-|[]]]. bef.
        + intros p q a b H Ha Hb. apply if_nil_In in Ha, Hb. destruct Ha as [_ Ha], Hb as [_ Hb]. apply in_flat_map in Ha, Hb. destruct Ha as (r & _ & Ha), Hb as (t & _ & Hb).
          apply if_nil_In in Ha, Hb. destruct Ha as [_ [<-|[]]], Hb as [_ [<-|[]]]. bef.
      - intros p q a b H Ha Hb. apply in_flat_map in Ha, Hb. destruct Ha as (? & _ & Ha), Hb as (? & _ & Hb). apply if_nil_In in Ha, Hb. destruct Ha as [_ Ha], Hb as [_ Hb].
        apply in_flat_map in Ha, Hb. destruct Ha as (r & _ & Ha), Hb as (t & _ & Hb).
        apply if_nil_In in Ha, Hb. destruct Ha as [_ [<-|[]]], Hb as [_ [<-|[]]]. bef. }
    rewrite El in S. exact (sorted_split _ _ _ _ _ S L).
Qed.
Definition xil_vco_float (i_freq : Z) (v : xil_set) : Q := rnd (inject_Z (i_freq * x_mult v) / inject_Z (x_divclk v)).
Definition xil_out_float (i_freq : Z) (v : xil_set) : Q := rnd (xil_vco_float i_freq v / inject_Z (x_div0 v)).
Definition xil_cost_float (i_freq o_freq : Z) (v : xil_set) : list Q :=
  [Qabs (rnd (xil_out_float i_freq v - inject_Z o_freq)); Qabs (rnd (xil_vco_float i_freq v - 1200000000))].
Lemma x_cost_eq i o v : x_error i o v = xil_cost_float i o v.
Proof. unfold x_error, xil_cost_float, fsub, xil_out_float, xil_vco_float, x_out0, x_vco, fdiv. reflexivity. Qed.
(** The settings taken are the best of the legal ones by the computed frequencies and, of equally
    good ones, those with the smallest input divider, then the largest multiplier, then the
    smallest output divider.  The same holds by the exact frequencies among those that meet
    the asked one. *)
Theorem C67_xilinx_floats : forall i_freq o_freq v w, z_in 19000000 i_freq 800000000 -> z_in 6250000 o_freq 800000000 ->
  xil_settings i_freq o_freq = Some v -> xil_legal i_freq w ->
  lex_le (xil_cost_float i_freq o_freq v) (xil_cost_float i_freq o_freq w) /\
  (lex_le (xil_cost_float i_freq o_freq w) (xil_cost_float i_freq o_freq v) \/
   (xil_out i_freq w == inject_Z o_freq /\ xil_vco_dist i_freq w <= xil_vco_dist i_freq v) ->
   before [x_divclk v; - x_mult v; x_div0 v]%Z [x_divclk w; - x_mult w; x_div0 w]%Z).
Proof.
  intros i o v w Hi Ho E L. destruct (xil_succeeds i o Hi) as (v' & E' & Lv & B). rewrite E in E'. injection E' as <-. rewrite <- !x_cost_eq. split; [exact (B w L)|].
  intros [C|[C1 C2]]; [exact (x_ties i o v w Hi E L C)|]. apply (x_ties i o v w Hi E L).
  destruct (C67_xilinx_partial i o Hi Ho) as (v' & E' & _ & _ & X). rewrite E in E'. injection E' as <-. destruct (X w L C1) as [X1 X2].
  destruct (x_error_exact i o v Lv Ho X1) as [Z1 Z2]. destruct (x_error_exact i o w L Ho C1) as [Z3 Z4]. unfold x_error. cbn [lex_le]. rewrite Z1, Z2, Z3, Z4.
  right. split; [reflexivity|]. right. split; [lra|exact I].
Qed.
(** Equally good settings exist: 50 MHz from 50 MHz by 24 / 24 or 48 / 2 / 24. *)
Example C67_ties_nonvacuous : xil_legal 50000000 (Xil 1 24 24) /\ xil_legal 50000000 (Xil 2 48 24) /\
  xil_out 50000000 (Xil 1 24 24) == inject_Z 50000000 /\ xil_vco_dist 50000000 (Xil 1 24 24) == xil_vco_dist 50000000 (Xil 2 48 24) /\
  lex_le (xil_cost_float 50000000 50000000 (Xil 2 48 24)) (xil_cost_float 50000000 50000000 (Xil 1 24 24)).
Proof.
  unfold xil_legal, xil_out, xil_vco, z_in, q_in. cbn [x_divclk x_mult x_div0].
  repeat split; try lia; try (vm_compute; discriminate); right; split; try reflexivity; right; split; try reflexivity; exact I.
Qed.
Example C66_floats_nonvacuous : ecp5_considered 100000000 (Ecp5 2 1 12).
Proof. unfold ecp5_considered, z_in, q_in. cbn [e_i_div e_fb_div e_op_div]. repeat split; try lia; vm_compute; discriminate. Qed.

Print Assumptions C66_ecp5_floats.
Print Assumptions C67_xilinx_floats.
