(** Property C35 (IIRFilter). *)
From Verif Require Import Stream Bits Math_model Math_proofs Iir_model Iir_spec Iir_proofs.

(** Legal parameters: at least two coefficients in each list, coefficients that
    fit the multiplier, a sample width that fits the other multiplier input. *)
Definition iir_legal (b a : list Z) (width width_s width_c : Z) : Prop :=
  (2 <= length a)%nat /\ 1 <= width <= width_s /\ 1 <= width_c /\
  (forall i, - 2 ^ (width_c - 1) < nth i b 0 < 2 ^ (width_c - 1)) /\
  (forall i, - 2 ^ (width_c - 1) < nth i a 0 < 2 ^ (width_c - 1)).

(** Every accepted sample yields one output sample, in order, with its marks, and
    the values are those of the difference equation. *)
Theorem C35_iir_difference_equation : forall b a width width_s width_c shift_c ins,
  iir_legal b a width width_s width_c ->
  let t := strace (iir_filter b a width width_s width_c shift_c) ins in
  Forall (fun x => - 2 ^ (width - 1) <= bdata x < 2 ^ (width - 1)) (accepted t) ->
  exists held, (length held <= 1)%nat /\
    iir_out b a width width_s width_c shift_c (accepted t) = emitted t ++ held.
Proof.
  intros b a w ws wc sc ins (H1 & [H2 H3] & H4 & H5 & H6) t HF.
  assert (HF' : Forall (xr w) (map bdata (accepted t))) by (apply Forall_map; exact HF).
  pose proof (inv_all b a w ws wc sc H1 H2 H3 H4 H5 H6 ins HF') as HI.
  fold t in HI. cbv zeta in HI.
  destruct (f_st _).
  - destruct HI as (HI & _). exists []. split; [simpl; lia|]. now rewrite app_nil_r.
  - destruct HI as (l & p & -> & -> & _). destruct (out_snoc b a w ws wc sc H1 l p) as (acc & _ & ->). eexists; split; [|reflexivity]; simpl; lia.
  - destruct HI as (l & p & -> & -> & _). destruct (out_snoc b a w ws wc sc H1 l p) as (acc & _ & ->). eexists; split; [|reflexivity]; simpl; lia.
  - destruct HI as (l & p & -> & -> & _). destruct (out_snoc b a w ws wc sc H1 l p) as (acc & _ & ->). eexists; split; [|reflexivity]; simpl; lia.
  - destruct HI as (l & p & -> & -> & _). destruct (out_snoc b a w ws wc sc H1 l p) as (acc & _ & ->). eexists; split; [|reflexivity]; simpl; lia.
Qed.

(** An offered output sample stays offered, unchanged, until taken. *)
Theorem C35_iir_stable : forall b a width width_s width_c shift_c ins,
  iir_legal b a width width_s width_c ->
  let t := strace (iir_filter b a width width_s width_c shift_c) ins in
  Forall (fun x => - 2 ^ (width - 1) <= bdata x < 2 ^ (width - 1)) (accepted t) ->
  stable_src t.
Proof.
  intros b a w ws wc sc ins (H1 & [H2 H3] & H4 & H5 & H6) t HF t1 o o' t2 E Hv Hr.
  rewrite E, accepted_app in HF. apply Forall_app in HF. destruct HF as [HF _].
  apply trace_two in E. destruct E as (p & [c r] & [c' r'] & q & -> & <- & -> & ->).
  pose proof (inv_all b a w ws wc sc H1 H2 H3 H4 H5 H6 p ltac:(apply Forall_map; exact HF)) as HI.
  set (s := state _ p) in *. cbn [scirc cout o_src iir_filter src] in *. unfold iir_src in *. cbv zeta in HI.
  destruct (f_st s) eqn:Est; try discriminate.
  destruct HI as (_ & _ & _ & _ & _ & _ & _ & _ & [_ Q] & _).
  cbn [cnext scirc iir_filter nxt fst snd]. unfold iir_next. cbn in Hr. subst r. rewrite Est, Q. cbn. reflexivity.
Qed.

(** A sample is accepted whenever all earlier ones have been answered. *)
Theorem C35_iir_ready : forall b a width width_s width_c shift_c ins t1 o t2,
  iir_legal b a width width_s width_c ->
  let t := strace (iir_filter b a width width_s width_c shift_c) ins in
  Forall (fun x => - 2 ^ (width - 1) <= bdata x < 2 ^ (width - 1)) (accepted t) ->
  t = t1 ++ o :: t2 ->
  o_sready o = Nat.eqb (length (accepted t1)) (length (emitted t1)).
Proof.
  intros b a w ws wc sc ins t1 o t2 (H1 & [H2 H3] & H4 & H5 & H6) t HF E.
  assert (L : forall l, length (iir_out b a w ws wc sc l) = length l).
  { intros l. induction l as [|p l IH] using rev_ind; [reflexivity|].
    destruct (out_snoc b a w ws wc sc H1 l p) as (acc & _ & ->). rewrite !app_length, IH. reflexivity. }
  unfold t in *. clear t. rewrite E, accepted_app in HF. apply Forall_app in HF. destruct HF as [HF _].
  apply trace_one in E. destruct E as (p & [c r] & q & -> & <- & ->).
  pose proof (inv_all b a w ws wc sc H1 H2 H3 H4 H5 H6 p ltac:(apply Forall_map; exact HF)) as HI.
  cbv zeta in HI. cbn [scirc cout o_sready iir_filter rdy]. unfold iir_rdy.
  destruct (f_st _).
  - destruct HI as (HI & _). symmetry. apply Nat.eqb_eq. rewrite HI, L. reflexivity.
  - destruct HI as (l & x & E1 & E2 & _). symmetry. apply Nat.eqb_neq. rewrite E1, E2, app_length, L. cbn. lia.
  - destruct HI as (l & x & E1 & E2 & _). symmetry. apply Nat.eqb_neq. rewrite E1, E2, app_length, L. cbn. lia.
  - destruct HI as (l & x & E1 & E2 & _). symmetry. apply Nat.eqb_neq. rewrite E1, E2, app_length, L. cbn. lia.
  - destruct HI as (l & x & E1 & E2 & _). symmetry. apply Nat.eqb_neq. rewrite E1, E2, app_length, L. cbn. lia.
Qed.

(** The output sample is offered exactly 2 * size + 2 cycles after its input
    sample was accepted, and the filter accepts nothing in between. *)
Theorem C35_iir_latency : forall b a width width_s width_c shift_c ins t1 o mid p t2,
  iir_legal b a width width_s width_c ->
  let t := strace (iir_filter b a width width_s width_c shift_c) ins in
  Forall (fun x => - 2 ^ (width - 1) <= bdata x < 2 ^ (width - 1)) (accepted t) ->
  t = t1 ++ o :: mid ++ p :: t2 ->
  cvalid (o_sink o) = true -> o_sready o = true -> length mid = (2 * length a + 1)%nat ->
  Forall (fun x => o_sready x = false /\ cvalid (o_src x) = false) mid /\
  cvalid (o_src p) = true /\ o_sready p = false.
Proof.
  intros b a w ws wc sc ins t1 o mid p t2 (H1 & [H2 H3] & H4 & H5 & H6) t HF E Hv Hr Hlen.
  unfold t in *. clear t.
  set (m := iir_filter b a w ws wc sc) in *.
  assert (L : forall k pre l, Forall (xr w) (map bdata (accepted (strace m (pre ++ l)))) -> length l = k ->
     (1 <= k)%nat -> f_st (state (scirc m) pre) <> FIdle -> f_st (state (scirc m) pre) <> FOutput ->
     rank a (state (scirc m) pre) = Z.of_nat k ->
     Forall (fun x => o_sready x = false /\ cvalid (o_src x) = false) (trace_from (scirc m) (state (scirc m) pre) l) /\
     f_st (state (scirc m) (pre ++ l)) = FOutput).
  { clear - H1 H2 H3 H4 H5 H6. induction k as [|k IH]; intros pre l HF Hl Hk S1 S2 Hrk; [lia|].
    destruct l as [|[c r] l]; [discriminate|]. cbn in Hl.
    assert (HFp : Forall (xr w) (map bdata (accepted (strace m pre)))).
    { rewrite trace_app, accepted_app, map_app in HF. apply Forall_app in HF. apply HF. }
    destruct (rank_step b a w ws wc sc H1 _ _ c r (inv_all b a w ws wc sc H1 H2 H3 H4 H5 H6 pre) HFp S1 S2) as (R1 & R2 & R3).
    fold m in R1, R2, R3.
    assert (Es : state (scirc m) (pre ++ [(c, r)]) = nxt m (state (scirc m) pre) c r).
    { unfold state. rewrite state_from_app. reflexivity. }
    cbn [trace_from]. change (cnext (scirc m) (state (scirc m) pre) (c, r)) with (nxt m (state (scirc m) pre) c r). rewrite <- Es.
    assert (Eq : o_sready (cout (scirc m) (state (scirc m) pre) (c, r)) = false /\ cvalid (o_src (cout (scirc m) (state (scirc m) pre) (c, r))) = false).
    { cbn. unfold iir_rdy, iir_src. destruct (f_st (state (scirc m) pre)); auto; congruence. }
    replace (pre ++ (c, r) :: l) with ((pre ++ [(c, r)]) ++ l) in HF |- * by (now rewrite <- app_assoc).
    destruct (Nat.eq_dec k 0) as [->|Hk0].
    - destruct l; [|discriminate]. split; [constructor; [exact Eq|constructor]|].
      rewrite app_nil_r, Es. apply R3. rewrite Hrk. reflexivity.
    - assert (X := IH (pre ++ [(c, r)]) l HF ltac:(lia) ltac:(lia)).
      assert (Y1 : f_st (state (scirc m) (pre ++ [(c, r)])) <> FIdle) by (now rewrite Es).
      assert (Y2 : f_st (state (scirc m) (pre ++ [(c, r)])) <> FOutput) by (rewrite Es; intros Y; apply R3 in Y; lia).
      assert (Y3 : rank a (state (scirc m) (pre ++ [(c, r)])) = Z.of_nat k) by (rewrite Es, R2, Hrk; lia).
      destruct (X Y1 Y2 Y3) as [A B]. split; [constructor; assumption|exact B]. }
  apply trace_split_from in E. destruct E as (pre & [c r] & q & -> & <- & -> & E). symmetry in E.
  apply trace_split_from in E. destruct E as (l & [c' r'] & q' & -> & <- & -> & _).
  rewrite trace_from_length in Hlen.
  set (s := state_from (scirc m) (creset (scirc m)) pre) in *. cbn in Hr, Hv.
  assert (Est : f_st s = FIdle) by (unfold iir_rdy in Hr; destruct (f_st s); congruence).
  assert (Es : state (scirc m) (pre ++ [(c, r)]) = nxt m s c r).
  { unfold state. rewrite state_from_app. reflexivity. }
  change (cnext (scirc m) s (c, r)) with (nxt m s c r). rewrite <- Es.
  assert (HFall : Forall (xr w) (map bdata (accepted (strace m ((pre ++ [(c, r)]) ++ l))))).
  { apply Forall_map. replace (pre ++ (c, r) :: l ++ (c', r') :: q') with (((pre ++ [(c, r)]) ++ l) ++ (c', r') :: q') in HF.
    - rewrite trace_app, accepted_app in HF. apply Forall_app in HF. apply HF.
    - rewrite <- !app_assoc. reflexivity. }
  pose proof (inv_all b a w ws wc sc H1 H2 H3 H4 H5 H6 pre) as HI. fold m in HI.
  assert (HFp : Forall (xr w) (map bdata (accepted (strace m pre)))).
  { rewrite <- app_assoc, trace_app, accepted_app, map_app in HFall. apply Forall_app in HFall. apply HFall. }
  specialize (HI HFp). change (state (scirc m) pre) with s in HI. rewrite Est in HI. cbv zeta in HI.
  destruct HI as (_ & [Q1 Q2] & Hidx & _).
  assert (Hn : f_st (nxt m s c r) = FRunB /\ f_idx (nxt m s c r) = 0).
  { cbn [m iir_filter nxt]. unfold iir_next. rewrite Est, Hv. cbn. auto. }
  destruct Hn as [Hn1 Hn2].
  destruct (L (length l) (pre ++ [(c, r)]) l HFall) as [A B]; auto.
  - rewrite Hlen. lia.
  - rewrite Es, Hn1. discriminate.
  - rewrite Es, Hn1. discriminate.
  - rewrite Es. unfold rank. rewrite Hn1, Hn2, Hlen. lia.
  - split; [exact A|]. unfold state in B. rewrite state_from_app in B. unfold state.
    set (z := state_from (scirc m) _ l) in B |- *. clearbody z.
    change (cvalid (iir_src w ws sc z) = true /\ iir_rdy z = false).
    unfold iir_src, iir_rdy. rewrite B. auto.
Qed.

(** Concrete case: y[n] = (2 x[n] + x[n-1] + y[n-1]) / 2 in 8 bits, first-order. *)
Example C35_nonvacuous :
  iir_legal [2; 1] [2; -1] 8 10 12 /\
  let c d := (Chan true (Beat true false d), true) in
  emitted (strace (iir_filter [2; 1] [2; -1] 8 10 12 1) (repeat (c 10) 14 ++ repeat (c (-3)) 7)) =
  [Beat true false 10; Beat true false 20; Beat true false 12].
Proof.
  split.
  - unfold iir_legal. cbn [length]. split; [lia|]. split; [lia|]. split; [lia|].
    split; intros [|[|[|i]]]; cbn; lia.
  - vm_compute. reflexivity.
Qed.

Print Assumptions C35_iir_difference_equation.
Print Assumptions C35_iir_stable.
Print Assumptions C35_iir_latency.
Print Assumptions C35_iir_ready.
