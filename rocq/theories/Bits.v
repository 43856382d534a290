(** Bit vectors as non-negative integers: slices and slice assignment. *)
From Verif Require Export Hdl.

(** [x[lo:lo+w]] *)
Definition slice (lo w x : Z) : Z := Z.land (Z.shiftr x lo) (Z.ones w).

(** [x[lo:lo+w].eq(v)]: the new value of x *)
Definition set_slice (lo w x v : Z) : Z :=
  Z.lor (Z.ldiff x (Z.shiftl (Z.ones w) lo)) (Z.shiftl (Z.land v (Z.ones w)) lo).

(** [Cat(a, b)] with [a] of width [w] in the low bits *)
Definition cat (w a b : Z) : Z := Z.lor (Z.land a (Z.ones w)) (Z.shiftl b w).

Lemma testbit_ones w i : 0 <= w -> 0 <= i -> Z.testbit (Z.ones w) i = (i <? w).
Proof.
  intros. destruct (Z.ltb_spec i w).
  - apply Z.ones_spec_low; lia.
  - apply Z.ones_spec_high; lia.
Qed.

Lemma slice_testbit lo w x i : 0 <= w -> 0 <= lo -> 0 <= i ->
  Z.testbit (slice lo w x) i = (i <? w) && Z.testbit x (i + lo).
Proof.
  intros. unfold slice. rewrite Z.land_spec, Z.shiftr_spec, testbit_ones by lia.
  apply andb_comm.
Qed.

Lemma set_slice_testbit lo w x v i : 0 <= w -> 0 <= lo -> 0 <= i ->
  Z.testbit (set_slice lo w x v) i =
  if (lo <=? i) && (i <? lo + w) then Z.testbit v (i - lo) else Z.testbit x i.
Proof.
  intros. unfold set_slice. rewrite Z.lor_spec, Z.ldiff_spec.
  rewrite !Z.shiftl_spec by lia.
  destruct (Z.leb_spec lo i).
  - rewrite Z.land_spec, testbit_ones by lia.
    replace (i - lo <? w) with (i <? lo + w).
    2:{ destruct (Z.ltb_spec i (lo+w)), (Z.ltb_spec (i-lo) w); lia. }
    destruct (i <? lo + w); simpl; rewrite ?andb_true_r, ?andb_false_r, ?orb_false_r; auto.
  - rewrite !(Z.testbit_neg_r _ (i - lo)) by lia. simpl. now rewrite andb_true_r, orb_false_r.
Qed.

Lemma cat_testbit w a b i : 0 <= w -> 0 <= i ->
  Z.testbit (cat w a b) i = if i <? w then Z.testbit a i else Z.testbit b (i - w).
Proof.
  intros. unfold cat. rewrite Z.lor_spec, Z.land_spec, testbit_ones, Z.shiftl_spec by lia.
  destruct (Z.ltb_spec i w).
  - rewrite (Z.testbit_neg_r b) by lia. now rewrite andb_true_r, orb_false_r.
  - now rewrite andb_false_r.
Qed.

Lemma slice_div_mod lo w x : 0 <= w -> 0 <= lo -> slice lo w x = (x / 2 ^ lo) mod 2 ^ w.
Proof. intros. unfold slice. rewrite Z.land_ones, Z.shiftr_div_pow2 by lia. reflexivity. Qed.

Lemma slice_range lo w x : 0 <= w -> 0 <= slice lo w x < 2 ^ w.
Proof. intros. unfold slice. rewrite Z.land_ones by lia. apply Z.mod_pos_bound, Z.pow_pos_nonneg; lia. Qed.

(** bits above the width are zero *)
Lemma testbit_above w x i : 0 <= x < 2 ^ w -> w <= i -> Z.testbit x i = false.
Proof.
  intros [H0 H1] H2.
  destruct (Z.ltb_spec w 0). { rewrite Z.pow_neg_r in H1 by lia. lia. }
  rewrite <- (Z.mod_small x (2^w)) by lia. apply Z.mod_pow2_bits_high. lia.
Qed.

Lemma range_of_testbit w x : 0 <= w -> (forall i, w <= i -> Z.testbit x i = false) -> 0 <= x < 2 ^ w.
Proof.
  intros Hw H. assert (x = x mod 2 ^ w).
  { apply Z.bits_inj'. intros i Hi. destruct (Z.ltb_spec i w).
    - now rewrite Z.mod_pow2_bits_low.
    - rewrite Z.mod_pow2_bits_high by lia. apply H. lia. }
  rewrite H0. apply Z.mod_pos_bound, Z.pow_pos_nonneg; lia.
Qed.

Lemma set_slice_range W lo w x v : 0 <= w -> 0 <= lo -> lo + w <= W ->
  0 <= x < 2 ^ W -> 0 <= set_slice lo w x v < 2 ^ W.
Proof.
  intros. apply range_of_testbit; [lia|]. intros i Hi. rewrite set_slice_testbit by lia.
  destruct (Z.ltb_spec i (lo + w)); [lia|]. rewrite andb_false_r. apply (testbit_above W); auto.
Qed.

Lemma slice_set_same lo w x v : 0 <= w -> 0 <= lo -> slice lo w (set_slice lo w x v) = slice 0 w v.
Proof.
  intros. apply Z.bits_inj'. intros i Hi. rewrite !slice_testbit, set_slice_testbit by lia.
  destruct (Z.ltb_spec i w); simpl; auto.
  destruct (Z.leb_spec lo (i + lo)), (Z.ltb_spec (i + lo) (lo + w)); simpl; try lia.
  f_equal. lia.
Qed.

Lemma slice_set_other lo w lo' w' x v : 0 <= w -> 0 <= lo -> 0 <= w' -> 0 <= lo' ->
  (lo + w <= lo' \/ lo' + w' <= lo) -> slice lo w (set_slice lo' w' x v) = slice lo w x.
Proof.
  intros. apply Z.bits_inj'. intros i Hi. rewrite !slice_testbit, set_slice_testbit by lia.
  destruct (Z.ltb_spec i w); simpl; auto.
  destruct (Z.leb_spec lo' (i + lo)), (Z.ltb_spec (i + lo) (lo' + w')); simpl; try lia; auto.
Qed.

(** A [k]-lane word is determined by its lanes. *)
Lemma lanes_ext n k x y : 0 < n -> 0 <= k ->
  0 <= x < 2 ^ (n * k) -> 0 <= y < 2 ^ (n * k) ->
  (forall i, 0 <= i < k -> slice (n * i) n x = slice (n * i) n y) -> x = y.
Proof.
  intros Hn Hk Hx Hy H. apply Z.bits_inj'. intros i Hi.
  destruct (Z.ltb_spec i (n * k)).
  - assert (Hd : 0 <= i / n < k). { split; [apply Z.div_pos; lia|]. apply Z.div_lt_upper_bound; lia. }
    pose proof (Z.mod_pos_bound i n ltac:(lia)). pose proof (Z.div_mod i n ltac:(lia)).
    assert (E : Z.testbit (slice (n * (i/n)) n x) (i mod n) = Z.testbit (slice (n * (i/n)) n y) (i mod n)).
    { now rewrite H. }
    rewrite !slice_testbit in E by nia.
    destruct (Z.ltb_spec (i mod n) n); [|lia]. simpl in E.
    replace (i mod n + n * (i/n)) with i in E by lia. exact E.
  - rewrite !(testbit_above (n * k)); auto.
Qed.

Lemma slice_full w x : 0 <= x < 2 ^ w -> 0 <= w -> slice 0 w x = x.
Proof. intros. rewrite slice_div_mod by lia. rewrite Z.pow_0_r, Z.div_1_r. apply Z.mod_small; lia. Qed.

Lemma slice0_mod w x : 0 <= w -> slice 0 w x = x mod 2 ^ w.
Proof. intros. rewrite slice_div_mod by lia. now rewrite Z.pow_0_r, Z.div_1_r. Qed.

#[global] Arguments slice : simpl never.
#[global] Arguments set_slice : simpl never.
#[global] Arguments cat : simpl never.
