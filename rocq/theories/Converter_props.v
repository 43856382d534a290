(** Properties C04 - C07 and C82 (width converters). *)
From Verif Require Import Stream Bits Pipe_model Converter_model Converter_spec Converter_proofs Converter_rt.

(** C04: whatever the schedule, the words delivered so far, followed by at most
    one pending word, are exactly the packings of the complete groups of accepted
    beats, in order ([group] and [packs]: Converter_spec.v). *)
Theorem C04_up_converter_packs : forall n k reverse ins, 1 <= n -> 1 <= k ->
  exists pend,
    Forall2 (packs n k reverse)
            (fst (group k (accepted (strace (up_conv n k reverse) ins))))
            (emitted (strace (up_conv n k reverse) ins) ++ pend) /\
    (length pend <= 1)%nat.
Proof. intros n k rev ins Hn Hk. destruct (up_packs n k rev Hn Hk ins) as (p & H & L & _). eauto. Qed.

(** The incomplete remainder is shorter than a group: no word is kept back. *)
Theorem C04_up_converter_remainder : forall k l, 1 <= k ->
  concat (fst (group k l)) ++ snd (group k l) = l /\
  Z.of_nat (length (snd (group k l))) < k.
Proof. intros. split; [apply group_concat|apply group_rem_lt; auto]. Qed.

Theorem C04_up_converter_stable : forall n k reverse ins,
  stable_src (strace (up_conv n k reverse) ins).
Proof. intros. apply up_stable. Qed.

(** Nothing is kept back: the sink is ready unless an offered word is stalled, a
    complete group is offered in the cycle after its last word, and when nothing is
    offered every complete group has been delivered. *)
Theorem C04_up_converter_flow : forall n k reverse ins t1 o t2, 1 <= n -> 1 <= k ->
  strace (up_conv n k reverse) ins = t1 ++ o :: t2 ->
  o_sready o = negb (cvalid (o_src o)) || o_rready o /\
  Forall2 (packs n k reverse) (fst (group k (accepted t1)))
          (emitted t1 ++ if cvalid (o_src o) then [cbeat (o_src o)] else []).
Proof.
  intros n k rev ins t1 o t2 Hn Hk H. apply trace_one in H. destruct H as (a & [c r] & b & _ & <- & ->).
  split; [reflexivity|]. pose proof (up_inv_run n k rev Hn Hk a) as [_ H].
  cbn [scirc cout up_conv src o_src]. unfold up_src. cbn [cvalid cbeat].
  destruct (up_strobe _).
  - destruct H as [_ (g & gs' & -> & HF & Hg)]. apply Forall2_app; auto.
  - rewrite app_nil_r. tauto.
Qed.

(** C05: the delivered narrow beats are all slices of all accepted wide beats, in
    order, plus a proper non-empty part of the slices of the wide beat currently
    offered (which is then not acknowledged yet). *)
Theorem C05_down_converter_slices : forall n k reverse ins, 1 <= n -> 1 <= k ->
  stable_sink (strace (down_conv n k reverse) ins) ->
  let t := strace (down_conv n k reverse) ins in
  emitted t = flat_map (slices n k reverse) (accepted t) \/
  exists t' o j, t = t' ++ [o] /\ cvalid (o_sink o) = true /\ o_sready o = false /\
    0 < j < k /\
    emitted t = flat_map (slices n k reverse) (accepted t) ++
                firstn (Z.to_nat j) (slices n k reverse (cbeat (o_sink o))).
Proof.
  intros n k rev ins Hn Hk Hst t. destruct (down_inv_run n k rev Hn Hk ins Hst) as [Hr H].
  fold t in H. destruct (Z.eqb_spec (state (scirc (down_conv n k rev)) ins) 0); [left; auto|right].
  destruct H as (t' & o & H1 & H2 & H3 & H4). eexists t', o, _.
  repeat split; try eassumption; lia.
Qed.

(** A narrow beat is offered in every cycle where a wide beat is. *)
Theorem C05_down_converter_progress : forall n k reverse ins,
  Forall (fun o => cvalid (o_src o) = cvalid (o_sink o)) (strace (down_conv n k reverse) ins).
Proof.
  intros. apply Forall_forall. intros o Ho. apply in_split in Ho. destruct Ho as (t1 & t2 & H).
  apply trace_one in H. destruct H as (a & [c r] & b & _ & _ & ->). reflexivity.
Qed.

Theorem C05_down_converter_stable : forall n k reverse ins,
  stable_sink (strace (down_conv n k reverse) ins) ->
  stable_src (strace (down_conv n k reverse) ins).
Proof. intros. now apply down_stable. Qed.

(** C06, wide -> narrow -> wide: all beats come back unchanged, marks included. *)
Theorem C06_down_up_roundtrip : forall n k reverse ins, 1 <= n -> 1 <= k ->
  let t := strace (compose (down_conv n k reverse) (up_conv n k reverse)) ins in
  stable_sink t ->
  Forall (fun b => 0 <= bdata b < 2 ^ (n * k)) (accepted t) ->
  exists pend, accepted t = emitted t ++ pend /\ (length pend <= 1)%nat.
Proof. intros. now apply down_up_roundtrip. Qed.

(** C06, narrow -> wide -> narrow: when every complete group is full, the data
    comes back unchanged ... *)
Theorem C06_up_down_roundtrip_data : forall n k reverse ins, 1 <= n -> 1 <= k ->
  let t := strace (compose (up_conv n k reverse) (down_conv n k reverse)) ins in
  Forall (fun b => 0 <= bdata b < 2 ^ n) (accepted t) ->
  Forall (fun g => Z.of_nat (length g) = k) (fst (group k (accepted t))) ->
  exists rest, map bdata (accepted t) = map bdata (emitted t) ++ rest /\ Z.of_nat (length rest) <= k.
Proof. intros. now apply up_down_roundtrip_data. Qed.

(** ... and the marks too if first only occurs on the first beat of a group. *)
Theorem C06_up_down_roundtrip_marks : forall n k reverse ins, 1 <= n -> 1 <= k ->
  let t := strace (compose (up_conv n k reverse) (down_conv n k reverse)) ins in
  Forall (fun b => 0 <= bdata b < 2 ^ n) (accepted t) ->
  Forall (fun g => Z.of_nat (length g) = k /\
            forall i b, nth_error g i = Some b -> bfirst b = true -> i = O)
         (fst (group k (accepted t))) ->
  exists rest, accepted t = emitted t ++ rest /\ Z.of_nat (length rest) <= k.
Proof. intros. now apply up_down_roundtrip_marks. Qed.

(** C07 *)
Theorem C07_converter_error_iff_not_divisible : forall f t, 0 < f -> 0 < t ->
  (get_converter_ratio f t = None <-> ~ (t | f) /\ ~ (f | t)).
Proof.
  intros f t Hf Ht. unfold get_converter_ratio. rewrite Z.gtb_ltb.
  destruct (Z.ltb_spec t f).
  - destruct (Z.eqb_spec (f mod t) 0) as [E|E]; simpl.
    + split; [discriminate|]. intros [H1 _]. exfalso. apply H1. apply Z.mod_divide; lia.
    + split; [|auto]. intros _. split.
      * intros D. apply Z.mod_divide in D; lia.
      * intros D. apply Z.divide_pos_le in D; lia.
  - destruct (Z.ltb_spec f t).
    + destruct (Z.eqb_spec (t mod f) 0) as [E|E]; simpl.
      * split; [discriminate|]. intros [_ H1]. exfalso. apply H1. apply Z.mod_divide; lia.
      * split; [|auto]. intros _. split.
        -- intros D. apply Z.divide_pos_le in D; lia.
        -- intros D. apply Z.mod_divide in D; lia.
    + split; [discriminate|]. intros [H1 _]. exfalso. apply H1. replace f with t by lia. apply Z.divide_refl.
Qed.

Theorem C07_converter_ratio_exact : forall f t kd r, 0 < f -> 0 < t ->
  get_converter_ratio f t = Some (kd, r) ->
  match kd with
  | KDown => f = r * t /\ 2 <= r
  | KUp => t = r * f /\ 2 <= r
  | KIdentity => f = t /\ r = 1
  end.
Proof.
  intros f t kd r Hf Ht. unfold get_converter_ratio. rewrite Z.gtb_ltb.
  destruct (Z.ltb_spec t f).
  - destruct (Z.eqb_spec (f mod t) 0) as [E|E]; simpl; intros X; inversion X; subst.
    pose proof (Z.div_mod f t ltac:(lia)). split; nia.
  - destruct (Z.ltb_spec f t).
    + destruct (Z.eqb_spec (t mod f) 0) as [E|E]; simpl; intros X; inversion X; subst.
      pose proof (Z.div_mod t f ltac:(lia)). split; nia.
    + intros X; inversion X; subst. split; lia.
Qed.

(** Converter(from, to, reverse) is the up-converter, the down-converter or the wire
    of C04, C05 and the next theorem, with the same reverse flag. *)
Theorem C07_converter_kinds : forall n k reverse, 1 <= n -> 2 <= k ->
  converter n (n * k) reverse = Some (up_conv n k reverse) /\
  converter (n * k) n reverse = Some (down_conv n k reverse).
Proof.
  intros n k rev Hn Hk. unfold converter, get_converter_ratio.
  assert (Hlt : n < n * k) by nia.
  rewrite !Z.gtb_ltb. rewrite (proj2 (Z.ltb_ge (n * k) n)) by lia. rewrite (proj2 (Z.ltb_lt n (n * k))) by lia.
  rewrite Z.mul_comm, Z.mod_mul, Z.div_mul by lia. split; reflexivity.
Qed.

(** Converters of equal width pass the stream through untouched. *)
Theorem C07_identity_converter : forall w reverse ins m,
  converter w w reverse = Some m -> accepted (strace m ins) = emitted (strace m ins) /\
  Forall (fun o => o_src o = o_sink o /\ o_sready o = o_rready o) (strace m ins).
Proof.
  intros w rev ins m. unfold converter, get_converter_ratio.
  rewrite Z.gtb_ltb, Z.ltb_irrefl. intros H; injection H as <-.
  induction ins as [|[c r] ins IH] using rev_ind; [split; [reflexivity|constructor]|].
  destruct IH as [IH1 IH2].
  rewrite trace_app, accepted_app, emitted_app, IH1. split; [reflexivity|].
  apply Forall_app. split; auto. constructor; [|constructor]. cbn [scirc cout o_src o_sink o_sready o_rready].
  split; [destruct c as [v [f l x]]; reflexivity|reflexivity].
Qed.

(** C82 is false: a group cut short by last leaves the previous word's data in
    the unused lanes (here lane 1 of the second word still holds 0x22). *)
Theorem C82_short_group_zero_padded_refuted :
  exists ins w, let t := strace (up_conv 8 2 false) ins in
    Forall (fun b => 0 <= bdata b < 2 ^ 8) (accepted t) /\
    snd (group 2 (accepted t)) = [] /\
    fst (group 2 (accepted t)) = [[Beat true false 17; Beat false false 34]; [Beat true true 51]] /\
    emitted t = [Beat true false (17 + 34 * 256); w] /\ field 8 1 (bdata w) = 34.
Proof.
  exists [(Chan true (Beat true false 17), true); (Chan true (Beat false false 34), true);
          (Chan true (Beat true true 51), true); (Chan false (Beat false false 0), true)].
  exists (Beat true true (51 + 34 * 256)).
  cbv zeta. split; [|vm_compute; auto].
  repeat constructor; vm_compute; congruence.
Qed.

(** What does hold for C82: after reset, if the very first group is cut short its
    unused lanes are zero. *)
Theorem C82_first_short_group_partial : forall n k reverse b i r,
  1 <= n -> 2 <= k -> blast b = true -> 1 <= i < k ->
  forall w, o_src (cout (scirc (up_conv n k reverse))
               (state (scirc (up_conv n k reverse)) [(Chan true b, r)]) (Chan false b, true)) = w ->
  cvalid w = true /\ field n (position k reverse i) (bdata (cbeat w)) = 0.
Proof.
  intros n k rev b i r Hn Hk Hb Hi w <-.
  unfold state. cbn. unfold up_next, up_rdy, up_src. cbn. rewrite Hb, orb_true_r. split; [reflexivity|]. cbn.
  replace (0 <? k) with true by (symmetry; apply Z.ltb_lt; lia).
  rewrite position_lane. pose proof (lane_range k rev i ltac:(lia)). pose proof (lane_range k rev 0 ltac:(lia)).
  rewrite field_slice by lia.
  assert (lane k rev 0 <> lane k rev i) by (intros E; apply lane_inj in E; lia).
  rewrite slice_set_other by nia. unfold slice. now rewrite Z.shiftr_0_l, Z.land_0_l.
Qed.

(** The exact content of the unused lanes: whatever the schedule, the lanes a group
    does not fill are those of the word delivered before it (zero when there is none). *)
Theorem C82_unused_lanes_partial : forall n k reverse ins j g w before i, 1 <= n -> 1 <= k ->
  let t := strace (up_conv n k reverse) ins in
  nth_error (fst (group k (accepted t))) j = Some g ->
  nth_error (emitted t) j = Some w ->
  nth_error (Beat false false 0 :: emitted t) j = Some before ->
  Z.of_nat (length g) <= i < k ->
  field n (position k reverse i) (bdata w) = field n (position k reverse i) (bdata before).
Proof.
  intros n k rev ins j g w p i Hn Hk t Hg Hw Hp Hi.
  destruct (stale_inv_run n k rev Hn Hk ins) as (_ & H & _). exact (H j g w p Hg Hw Hp i Hi).
Qed.

(** Non-vacuity. *)
Definition cv_ins : list (chan Z * bool) :=
  [(Chan true (Beat true false 1), false); (Chan true (Beat false false 2), false);
   (Chan true (Beat false false 3), true); (Chan true (Beat false false 4), false);
   (Chan true (Beat false true 5), false); (Chan true (Beat false true 5), true);
   (Chan false (Beat false true 6), true)].
Example C04_nonvacuous :
  accepted (strace (up_conv 8 2 true) cv_ins) =
    [Beat true false 1; Beat false false 2; Beat false false 3; Beat false false 4; Beat false true 5] /\
  emitted (strace (up_conv 8 2 true) cv_ins) =
    [Beat true false (2 + 1 * 256); Beat false false (4 + 3 * 256); Beat false true (4 + 5 * 256)].
Proof. vm_compute. auto. Qed.
Example C82_unused_nonvacuous :
  let t := strace (up_conv 8 2 true) cv_ins in
  nth_error (fst (group 2 (accepted t))) 2 = Some [Beat false true 5] /\
  nth_error (emitted t) 2 = Some (Beat false true (4 + 5 * 256)) /\
  nth_error (Beat false false 0 :: emitted t) 2 = Some (Beat false false (4 + 3 * 256)).
Proof. vm_compute. auto. Qed.
Definition dn_ins : list (chan Z * bool) :=
  [(Chan true (Beat true true (7 + 256 * 9)), true); (Chan true (Beat true true (7 + 256 * 9)), false);
   (Chan true (Beat true true (7 + 256 * 9)), true); (Chan true (Beat false false 260), true)].
Example C05_nonvacuous :
  stable_sink (strace (down_conv 8 2 false) dn_ins) /\
  accepted (strace (down_conv 8 2 false) dn_ins) = [Beat true true (7 + 256 * 9)] /\
  emitted (strace (down_conv 8 2 false) dn_ins) = [Beat true false 7; Beat false true 9; Beat false false 4].
Proof. split; [apply stable_sinkb_ok; vm_compute; reflexivity|vm_compute; auto]. Qed.
Definition ud_ins : list (chan Z * bool) :=
  [(Chan true (Beat true false 1), true); (Chan true (Beat false true 2), false);
   (Chan true (Beat true false 3), false); (Chan true (Beat true false 3), true);
   (Chan true (Beat true false 3), true); (Chan true (Beat false true 4), true);
   (Chan false (Beat false true 6), true); (Chan false (Beat false true 6), true)].
Example C06_nonvacuous :
  (let t := strace (compose (up_conv 8 2 false) (down_conv 8 2 false)) ud_ins in
   accepted t = [Beat true false 1; Beat false true 2; Beat true false 3; Beat false true 4] /\
   fst (group 2 (accepted t)) = [[Beat true false 1; Beat false true 2]; [Beat true false 3; Beat false true 4]] /\
   emitted t = accepted t) /\
  emitted (strace (compose (down_conv 8 2 false) (up_conv 8 2 false))
     [(Chan true (Beat true true (7 + 256 * 9)), true); (Chan true (Beat true true (7 + 256 * 9)), true);
      (Chan true (Beat false false 260), true); (Chan true (Beat false false 260), false);
      (Chan false (Beat false false 0), true)])
    = [Beat true true (7 + 256 * 9); Beat false false 260].
Proof. vm_compute. repeat split. Qed.
Example C07_nonvacuous : get_converter_ratio 32 8 = Some (KDown, 4) /\ get_converter_ratio 12 8 = None
  /\ get_converter_ratio 8 24 = Some (KUp, 3).
Proof. auto. Qed.

(** In the second run of [C06_nonvacuous] the sink keeps its beats. *)
Example C06_nonvacuous_stable :
  let t := strace (compose (down_conv 8 2 false) (up_conv 8 2 false))
     [(Chan true (Beat true true (7 + 256 * 9)), true); (Chan true (Beat true true (7 + 256 * 9)), true);
      (Chan true (Beat false false 260), true); (Chan true (Beat false false 260), false);
      (Chan false (Beat false false 0), true)] in
  stable_sink t /\ forallb (fun b => (0 <=? bdata b) && (bdata b <? 2 ^ 16)) (accepted t) = true /\ length (accepted t) = 2%nat.
Proof. cbv zeta. split; [apply stable_sinkb_ok; vm_compute; reflexivity|]. vm_compute. auto. Qed.

Print Assumptions C04_up_converter_packs.
Print Assumptions C04_up_converter_remainder.
Print Assumptions C04_up_converter_stable.
Print Assumptions C05_down_converter_slices.
Print Assumptions C05_down_converter_progress.
Print Assumptions C05_down_converter_stable.
Print Assumptions C06_down_up_roundtrip.
Print Assumptions C06_up_down_roundtrip_data.
Print Assumptions C06_up_down_roundtrip_marks.
Print Assumptions C07_converter_error_iff_not_divisible.
Print Assumptions C07_converter_ratio_exact.
Print Assumptions C07_identity_converter.
Print Assumptions C82_short_group_zero_padded_refuted.
Print Assumptions C82_first_short_group_partial.
Print Assumptions C82_unused_lanes_partial.
Print Assumptions C04_up_converter_flow.
Print Assumptions C07_converter_kinds.
