(** Properties C31-C34 (Int2Float, CLZ, Multiplier). *)
From Verif Require Import Stream Bits Math_model Math_spec Math_proofs.

(** C31 (partial): for every accepted word but INT_MIN the word delivered for it
    is the binary32 encoding of the integer rounded toward zero. *)
Theorem C31_int2float_truncates_partial : forall ins,
  let t := strace int2float ins in
  Forall (fun b => 0 <= bdata b < 2 ^ 32) (accepted t) ->
  Forall2 (fun a e => bdata a <> 2 ^ 31 -> f32_rtz (int32 (bdata a)) (bdata e))
    (firstn (length (emitted t)) (accepted t)) (emitted t).
Proof.
  intros ins t HF. destruct (i2f_pipeline ins) as (d & h & E1 & E2 & _). fold t in E1, E2.
  rewrite E2, map_length. rewrite E1 in HF |- *. rewrite firstn_app, Nat.sub_diag, firstn_O, app_nil_r, firstn_all.
  apply Forall_app in HF. destruct HF as [HF _]. clear E1 E2 h.
  induction HF as [|b d Hb HF IH]; constructor; auto. intros Hn. now apply i2f_rtz.
Qed.

(** f32_rtz leaves no freedom. *)
Theorem C31_rounding_is_unique : forall x w w', f32_rtz x w -> f32_rtz x w' -> w = w'.
Proof. exact f32_rtz_unique. Qed.

(** Integers of at most 24 bits are converted exactly. *)
Theorem C31_int2float_exact : forall ins,
  let t := strace int2float ins in
  Forall (fun b => 0 <= bdata b < 2 ^ 32) (accepted t) ->
  Forall2 (fun a e => Z.abs (int32 (bdata a)) < 2 ^ 24 ->
     exists u, bdata e = u + (if int32 (bdata a) <? 0 then 2 ^ 31 else 0) /\ 0 <= u < 255 * 2 ^ 23 /\
       f32_mag u = Z.abs (int32 (bdata a)) * 2 ^ 149)
    (firstn (length (emitted t)) (accepted t)) (emitted t).
Proof.
  intros ins t HF. destruct (i2f_pipeline ins) as (d & h & E1 & E2 & _). fold t in E1, E2.
  rewrite E2, map_length. rewrite E1 in HF |- *. rewrite firstn_app, Nat.sub_diag, firstn_O, app_nil_r, firstn_all.
  apply Forall_app in HF. destruct HF as [HF _]. clear E1 E2 h.
  induction HF as [|b d Hb HF IH]; constructor; auto. intros Hn. now apply i2f_exact.
Qed.

Lemma Forall2_impl_hd {X Y} (P : X -> Y -> Prop) x l y m : Forall2 P (x :: l) (y :: m) -> P x y.
Proof. intros H. now inversion H. Qed.

(** C31 is false for INT_MIN = -2^31: the word delivered is 0x80000000, minus zero. *)
Theorem C31_int2float_truncates_refuted : ~ forall ins,
  let t := strace int2float ins in
  Forall (fun b => 0 <= bdata b < 2 ^ 32) (accepted t) ->
  Forall2 (fun a e => f32_rtz (int32 (bdata a)) (bdata e))
    (firstn (length (emitted t)) (accepted t)) (emitted t).
Proof.
  intros H.
  set (ins := [(Chan true (Beat false true (2 ^ 31)), true); (Chan false (Beat false false 0), true); (Chan false (Beat false false 0), true)]).
  specialize (H ins). cbv zeta in H.
  replace (accepted (strace int2float ins)) with [Beat false true (2 ^ 31)] in H by (vm_compute; reflexivity).
  replace (emitted (strace int2float ins)) with [Beat false true (2 ^ 31)] in H by (vm_compute; reflexivity).
  specialize (H ltac:(repeat constructor; cbn; lia)). cbn [length firstn] in H.
  apply (Forall2_impl_hd _ _ _ _ _) in H. cbn [bdata] in H. destruct H as (u & E & Hu & Hlt).
  assert (u = 0) by (change (int32 (2 ^ 31) <? 0) with true in E; cbv iota in E; lia). subst u.
  destruct Hlt as [_ Hlt]. change (f32_mag (0 + 1)) with 1 in Hlt.
  change (Z.abs (int32 (2 ^ 31))) with (2 ^ 31) in Hlt. lia.
Qed.

(** C32 *)
Theorem C32_int2float_lossless : exists conv : Z -> Z,
  (forall d, 0 <= d < 2 ^ 32 -> d <> 2 ^ 31 -> f32_rtz (int32 d) (conv d)) /\
  forall ins, let t := strace int2float ins in
  exists sent held, accepted t = sent ++ held /\ (length held <= 2)%nat /\
    emitted t = map (fun b => Beat false (blast b) (conv (bdata b))) sent.
Proof.
  exists i2f. split; [exact i2f_rtz|].
  intros ins t. destruct (i2f_pipeline ins) as (d & h & E1 & E2 & E3). exists d, h. auto.
Qed.

Theorem C32_int2float_stable : forall ins, stable_src (strace int2float ins).
Proof. exact i2f_stable. Qed.

(** ready exactly when no offered word is being stalled *)
Theorem C32_int2float_ready : forall ins t1 o t2, strace int2float ins = t1 ++ o :: t2 ->
  o_sready o = negb (cvalid (o_src o) && negb (o_rready o)).
Proof. intros ins t1 o t2 E. apply trace_one in E. destruct E as (a & [c r] & b & _ & _ & ->). reflexivity. Qed.

(** with a ready consumer a word accepted in one cycle is offered two cycles later *)
Theorem C32_int2float_latency : forall ins t1 o1 o2 o3 t2,
  strace int2float ins = t1 ++ o1 :: o2 :: o3 :: t2 ->
  cvalid (o_sink o1) = true -> o_sready o1 = true -> o_rready o2 = true ->
  cvalid (o_src o3) = true /\ blast (cbeat (o_src o3)) = blast (cbeat (o_sink o1)).
Proof.
  intros ins t1 o1 o2 o3 t2 E. apply trace_split_from in E. destruct E as (a & [c1 r1] & b & _ & _ & -> & E).
  destruct b as [|[c2 r2] [|[c3 r3] b]]; try discriminate. cbn [trace_from] in E. inversion E; subst. clear E.
  set (s := state_from _ _ _). cbn. intros Hc Hg ->.
  assert (G : forall x, i2f_go x true = true) by (intros; unfold i2f_go; now rewrite andb_false_r).
  rewrite Hg, G. cbn. auto.
Qed.

Example C32_nonvacuous :
  let c d := Chan true (Beat false false d) in
  emitted (strace int2float [(c 1, true); (c 2, false); (c 4294967295, false); (c 4294967295, true); (c 10, true); (c 10, true); (c 16777217, true); (c 5, true)]) =
  [Beat false false 1065353216; Beat false false 1073741824; Beat false false 3212836864; Beat false false 1092616192; Beat false false 1092616192].
Proof. vm_compute. reflexivity. Qed.

(** C33 *)
Theorem C33_clz_counts : forall d, 0 < d < 2 ^ 32 -> clz d = 31 - Z.log2 d.
Proof.
  intros d Hd. unfold clz. rewrite trunc_small by lia. rewrite (clz_loop_ok 5).
  - destruct (Z.eqb_spec d 0); [lia|reflexivity].
  - change (2 ^ 2 ^ Z.of_nat 5) with (2 ^ 32). lia.
Qed.
(** the five-bit output saturates at 31 for d = 0 *)
Theorem C33_clz_zero : clz 0 = 31.
Proof. reflexivity. Qed.
Example C33_nonvacuous : clz 1 = 31 /\ clz (2 ^ 31) = 0 /\ clz 65536 = 15 /\ clz 65535 = 16.
Proof. vm_compute. auto. Qed.

(** C34: the words delivered are the exact products, in order, with their marks;
    at most one is in flight. *)
Theorem C34_multiplier_exact : forall sa sb ins,
  1 <= sh_width sa -> 1 <= sh_width sb ->
  let t := strace (multiplier sa sb) ins in
  Forall (fun b => in_shape sa (fst (bdata b)) /\ in_shape sb (snd (bdata b))) (accepted t) ->
  exists held, (length held <= 1)%nat /\
    map (fun b => Beat (bfirst b) (blast b) (fst (bdata b) * snd (bdata b))) (accepted t) = emitted t ++ held.
Proof.
  intros sa sb ins Ha Hb t HF. pose proof (mul_lossless sa sb ins) as E. cbv zeta in E. fold t in E. eexists. split; [|rewrite <- E].
  - destruct (cvalid _); simpl; lia.
  - apply map_ext_in. intros [f l [x y]] Hin. rewrite Forall_forall in HF. destruct (HF _ Hin) as [Hx Hy]. cbn in *.
    unfold mul_wrap. cbn. rewrite (wrap_id sa), (wrap_id sb) by (auto; lia).
    rewrite wrap_id; [reflexivity|cbn; lia|cbn; lia|]. apply mul_in_shape; auto; lia.
Qed.
Theorem C34_multiplier_stable : forall sa sb ins, stable_src (strace (multiplier sa sb) ins).
Proof. exact mul_stable. Qed.
Theorem C34_multiplier_ready : forall sa sb ins t1 o t2, strace (multiplier sa sb) ins = t1 ++ o :: t2 ->
  o_sready o = negb (cvalid (o_src o)) || o_rready o.
Proof. intros sa sb ins t1 o t2 E. apply trace_one in E. destruct E as (a & [c r] & b & _ & _ & ->). reflexivity. Qed.

Example C34_nonvacuous :
  let sa := Shape 3 true in let sb := Shape 2 false in
  in_shape sa (-4) /\ in_shape sb 3 /\
  emitted (strace (multiplier sa sb) [(Chan true (Beat true false (-4, 3)), false); (Chan false (Beat false false (0, 0)), false); (Chan true (Beat false true (3, 3)), true); (Chan true (Beat false true (3, 3)), true)]) =
  [Beat true false (-12); Beat false true 9].
Proof. vm_compute. repeat split; congruence. Qed.

(** 16777217 has 25 bits and is truncated to 16777216.0; -1 is exact. *)
Example C31_nonvacuous :
  let c d := (Chan true (Beat false false d), true) in
  let t := strace int2float [c 16777217; c 4294967295; c 0; c 0] in
  map bdata (emitted t) = [1266679808; 3212836864] /\ forallb (fun b => (0 <=? bdata b) && (bdata b <? 2 ^ 32)) (accepted t) = true /\
  int32 4294967295 = -1 /\ Z.abs (int32 4294967295) < 2 ^ 24.
Proof. vm_compute. repeat split. Qed.

Print Assumptions C31_int2float_truncates_partial.
Print Assumptions C31_rounding_is_unique.
Print Assumptions C31_int2float_exact.
Print Assumptions C31_int2float_truncates_refuted.
Print Assumptions C32_int2float_lossless.
Print Assumptions C32_int2float_stable.
Print Assumptions C32_int2float_ready.
Print Assumptions C32_int2float_latency.
Print Assumptions C33_clz_counts.
Print Assumptions C33_clz_zero.
Print Assumptions C34_multiplier_exact.
Print Assumptions C34_multiplier_stable.
Print Assumptions C34_multiplier_ready.
