From Verif Require Import Stream Bits Math_model Math_spec.

(* ---------------- CLZ ---------------- *)
Lemma clz_loop_ok k : forall d, 0 <= d < 2 ^ (2 ^ Z.of_nat k) ->
  clz_loop k d = if d =? 0 then 2 ^ Z.of_nat k - 1 else 2 ^ Z.of_nat k - 1 - Z.log2 d.
Proof.
  induction k as [|k IH]; intros d Hd.
  - cbn in *. assert (d = 0 \/ d = 1) as [-> | ->] by lia; reflexivity.
  - cbn [clz_loop]. set (mid := 2 ^ Z.of_nat k) in *.
    assert (Hm : 0 < mid) by (apply Z.pow_pos_nonneg; lia).
    assert (E2 : 2 ^ Z.of_nat (S k) = mid + mid).
    { rewrite Nat2Z.inj_succ, Z.pow_succ_r by lia. fold mid. lia. }
    rewrite E2 in *. rewrite Z.pow_add_r in Hd by lia.
    assert (HP : 0 < 2 ^ mid) by (apply Z.pow_pos_nonneg; lia).
    assert (Hhi : slice mid mid d = d / 2 ^ mid).
    { rewrite slice_div_mod by lia. apply Z.mod_small. split; [apply Z.div_pos; lia|]. apply Z.div_lt_upper_bound; lia. }
    rewrite Hhi. pose proof (Z.div_mod d (2 ^ mid) ltac:(lia)) as HD. pose proof (Z.mod_pos_bound d (2 ^ mid) HP).
    destruct (Z.eqb_spec (d / 2 ^ mid) 0).
    + assert (d < 2 ^ mid) by lia. rewrite slice_full by lia. rewrite IH by lia.
      destruct (Z.eqb_spec d 0); lia.
    + assert (Hq : 0 <= d / 2 ^ mid) by (apply Z.div_pos; lia).
      rewrite IH.
      2:{ split; [lia|]. apply Z.div_lt_upper_bound; lia. }
      destruct (Z.eqb_spec (d / 2 ^ mid) 0); [lia|].
      destruct (Z.eqb_spec d 0); [exfalso; apply n; subst d; apply Z.div_0_l; lia|].
      enough (Z.log2 d = mid + Z.log2 (d / 2 ^ mid)) by lia.
      rewrite <- Z.shiftr_div_pow2, Z.log2_shiftr by lia.
      assert (mid <= Z.log2 d).
      { apply (proj1 (Z.log2_le_pow2 d mid ltac:(lia))). assert (1 <= d / 2 ^ mid) by lia. nia. }
      lia.
Qed.

(* ---------------- Int2Float ---------------- *)
(** the conversion computed by the two stages *)
Definition i2f (d : Z) : Z := i2f_word (i2f_load2 (i2f_load1 (Chan true (Beat false false d)))).

Lemma cat_val w a b : 0 <= w -> 0 <= a < 2 ^ w -> cat w a b = a + b * 2 ^ w.
Proof.
  intros Hw Ha. apply Z.bits_inj'. intros i Hi. rewrite cat_testbit by lia.
  destruct (Z.ltb_spec i w).
  - rewrite <- (Z.mod_pow2_bits_low (a + b * 2 ^ w) w i) by lia.
    rewrite Z.mod_add by (apply Z.pow_nonzero; lia). rewrite Z.mod_small by lia. reflexivity.
  - replace i with ((i - w) + w) at 2 by lia. rewrite <- Z.div_pow2_bits by lia.
    rewrite Z.div_add by (apply Z.pow_nonzero; lia). now rewrite Z.div_small by lia.
Qed.

Lemma i2f_abs d : 0 <= d < 2 ^ 32 -> d <> 2 ^ 31 ->
  s1_abs (i2f_load1 (Chan true (Beat false false d))) = Z.abs (int32 d) /\
  s1_sign (i2f_load1 (Chan true (Beat false false d))) = (int32 d <? 0) /\
  s1_zero (i2f_load1 (Chan true (Beat false false d))) = (int32 d =? 0) /\
  Z.abs (int32 d) < 2 ^ 31.
Proof.
  intros Hd Hn. unfold i2f_load1, int32. cbn [bdata cbeat s1_abs s1_sign s1_zero cvalid blast].
  assert (Ht : Z.testbit d 31 = (2 ^ 31 <=? d)).
  { destruct (Z.leb_spec (2 ^ 31) d).
    - rewrite Z.testbit_true by lia. rewrite <- (Z.div_unique d (2^31) 1 (d - 2^31)); [reflexivity|lia|lia].
    - rewrite Z.testbit_false by lia. rewrite Z.div_small; [reflexivity|lia]. }
  rewrite Ht, slice0_mod by lia. unfold trunc.
  destruct (Z.leb_spec (2 ^ 31) d), (Z.ltb_spec d (2 ^ 31)); try lia.
  - assert (E : d mod 2 ^ 31 = d - 2 ^ 31) by (symmetry; apply (Z.mod_unique d (2^31) 1); lia).
    rewrite E. repeat split.
    + replace (0 - (d - 2 ^ 31)) with (2 ^ 32 - d + (-1) * 2 ^ 31) by lia.
      rewrite Z.mod_add by lia. rewrite Z.mod_small by lia. lia.
    + symmetry. apply Z.ltb_lt. lia.
    + destruct (Z.eqb_spec (d - 2 ^ 31) 0), (Z.eqb_spec (d - 2 ^ 32) 0); lia.
    + lia.
  - rewrite !Z.mod_small by (rewrite ?Z.mod_small; lia). repeat split.
    + lia.
    + symmetry. apply Z.ltb_ge. lia.
    + lia.
Qed.

Lemma i2f_clz_ok s : 0 < s1_abs s < 2 ^ 31 -> i2f_clz s = 30 - Z.log2 (s1_abs s).
Proof.
  intros H. unfold i2f_clz, clz. rewrite cat_val by lia.
  rewrite (trunc_small 32) by lia. rewrite (clz_loop_ok 5) by (change (2 ^ 2 ^ Z.of_nat 5) with (2 ^ 32); lia).
  destruct (Z.eqb_spec (1 + s1_abs s * 2 ^ 1) 0); [lia|].
  replace (1 + s1_abs s * 2 ^ 1) with (2 * s1_abs s + 1) by lia.
  rewrite Z.log2_succ_double by lia. change (2 ^ Z.of_nat 5) with 32.
  pose proof (Z.log2_nonneg (s1_abs s)). assert (Z.log2 (s1_abs s) < 31) by (apply Z.log2_lt_pow2; lia).
  rewrite trunc_small by lia. lia.
Qed.

Lemma i2f_word_eq d : 0 <= d < 2 ^ 32 -> d <> 2 ^ 31 ->
  let x := int32 d in
  let a := Z.abs x in
  let c := 30 - Z.log2 a in
  i2f d = (if x <? 0 then 2 ^ 31 else 0) +
          if a =? 0 then 0 else (157 - c) * 2 ^ 23 + (a * 2 ^ c / 2 ^ 7 - 2 ^ 23).
Proof.
  intros Hd Hn x a c. destruct (i2f_abs d Hd Hn) as (E1 & E2 & E3 & E4).
  unfold i2f. set (s1 := i2f_load1 _) in *. fold x a in E1, E2, E3, E4.
  unfold i2f_word, i2f_load2. cbn [s2_mant s2_expn s2_sign]. rewrite E2, E3.
  replace (x =? 0) with (a =? 0) by (destruct (Z.eqb_spec a 0), (Z.eqb_spec x 0); lia).
  destruct (Z.eqb_spec a 0) as [Ha|Ha].
  - rewrite E1, Ha, Z.shiftl_0_l. destruct (x <? 0); reflexivity.
  - assert (Hp : 0 < a < 2 ^ 31) by lia.
    rewrite i2f_clz_ok by lia. rewrite E1. fold c.
    pose proof (Z.log2_nonneg a). assert (Z.log2 a < 31) by (apply Z.log2_lt_pow2; lia).
    pose proof (Z.log2_spec a ltac:(lia)) as Hlog.
    assert (Hs : 2 ^ 30 <= a * 2 ^ c < 2 ^ 31).
    { replace (2 ^ 30) with (2 ^ Z.log2 a * 2 ^ c) by (rewrite <- Z.pow_add_r by lia; f_equal; lia).
      replace (2 ^ 31) with (2 ^ Z.succ (Z.log2 a) * 2 ^ c) by (rewrite <- Z.pow_add_r by lia; f_equal; lia).
      assert (0 < 2 ^ c) by (apply Z.pow_pos_nonneg; lia). nia. }
    rewrite Z.shiftl_mul_pow2 by lia. rewrite (trunc_small 31) by lia.
    rewrite (trunc_small 8) by lia. rewrite (cat_val 8) by lia. rewrite slice_div_mod by lia.
    assert (Hq : 2 ^ 23 <= a * 2 ^ c / 2 ^ 7 < 2 ^ 24).
    { split; [apply Z.div_le_lower_bound; lia|apply Z.div_lt_upper_bound; lia]. }
    assert (Em : (a * 2 ^ c / 2 ^ 7) mod 2 ^ 23 = a * 2 ^ c / 2 ^ 7 - 2 ^ 23).
    { symmetry. apply (Z.mod_unique _ _ 1); lia. }
    rewrite Em, cat_val by lia. destruct (x <? 0); cbn [Z.b2z]; lia.
Qed.

Lemma i2f_rtz d : 0 <= d < 2 ^ 32 -> d <> 2 ^ 31 -> f32_rtz (int32 d) (i2f d).
Proof.
  intros Hd Hn. destruct (i2f_abs d Hd Hn) as (_ & _ & _ & E4).
  rewrite i2f_word_eq by auto. cbv zeta. set (x := int32 d) in *. set (a := Z.abs x) in *.
  unfold f32_rtz. destruct (Z.eqb_spec a 0) as [Ha|Ha].
  - exists 0. fold a. rewrite Ha. split; [lia|]. split; [lia|]. cbn. lia.
  - pose proof (Z.log2_nonneg a). assert (Hl : Z.log2 a < 31) by (apply Z.log2_lt_pow2; lia).
    pose proof (Z.log2_spec a ltac:(lia)) as Hlog. set (c := 30 - Z.log2 a) in *.
    assert (Hs : 2 ^ 30 <= a * 2 ^ c < 2 ^ 31).
    { replace (2 ^ 30) with (2 ^ Z.log2 a * 2 ^ c) by (rewrite <- Z.pow_add_r by lia; f_equal; lia).
      replace (2 ^ 31) with (2 ^ Z.succ (Z.log2 a) * 2 ^ c) by (rewrite <- Z.pow_add_r by lia; f_equal; lia).
      assert (0 < 2 ^ c) by (apply Z.pow_pos_nonneg; lia). nia. }
    set (q := a * 2 ^ c / 2 ^ 7).
    assert (Hq : 2 ^ 23 <= q < 2 ^ 24).
    { split; [apply Z.div_le_lower_bound; lia|apply Z.div_lt_upper_bound; lia]. }
    set (u := (157 - c) * 2 ^ 23 + (q - 2 ^ 23)).
    assert (Eu : u / 2 ^ 23 = 157 - c /\ u mod 2 ^ 23 = q - 2 ^ 23).
    { split; [symmetry; apply (Z.div_unique _ _ _ (q - 2^23)); lia|symmetry; apply (Z.mod_unique _ _ (157 - c)); lia]. }
    exists u. split; [fold q; lia|]. split; [lia|].
    assert (Hmul : forall z, a * 2 ^ 149 = a * 2 ^ c * 2 ^ 142 * 2 ^ (7 - c + z) -> True) by auto. clear Hmul.
    assert (Ha149 : a * 2 ^ 149 * 2 ^ 7 = a * 2 ^ c * 2 ^ (156 - c)).
    { rewrite <- !Z.mul_assoc, <- !Z.pow_add_r by lia. f_equal. f_equal. lia. }
    pose proof (Z.div_mod (a * 2 ^ c) (2 ^ 7) ltac:(lia)) as HD. fold q in HD.
    pose proof (Z.mod_pos_bound (a * 2 ^ c) (2 ^ 7) ltac:(lia)) as HM.
    assert (HP : 0 < 2 ^ (156 - c)) by (apply Z.pow_pos_nonneg; lia).
    assert (Hmag1 : f32_mag u = q * 2 ^ (156 - c)).
    { unfold f32_mag. destruct Eu as [-> ->]. destruct (Z.eqb_spec (157 - c) 0); [lia|]. f_equal; [lia|]. f_equal. lia. }
    assert (Hmag2 : f32_mag (u + 1) = (q + 1) * 2 ^ (156 - c)).
    { unfold f32_mag. destruct (Z.eq_dec q (2 ^ 24 - 1)).
      - assert (E : (u + 1) / 2 ^ 23 = 158 - c /\ (u + 1) mod 2 ^ 23 = 0).
        { split; [symmetry; apply (Z.div_unique _ _ _ 0); lia|symmetry; apply (Z.mod_unique _ _ (158 - c)); lia]. }
        destruct E as [-> ->]. destruct (Z.eqb_spec (158 - c) 0); [lia|].
        replace (158 - c - 1) with (Z.succ (156 - c)) by lia. rewrite Z.pow_succ_r by lia. nia.
      - assert (E : (u + 1) / 2 ^ 23 = 157 - c /\ (u + 1) mod 2 ^ 23 = q + 1 - 2 ^ 23).
        { split; [symmetry; apply (Z.div_unique _ _ _ (q + 1 - 2^23)); lia|symmetry; apply (Z.mod_unique _ _ (157 - c)); lia]. }
        destruct E as [-> ->]. destruct (Z.eqb_spec (157 - c) 0); [lia|]. f_equal; [lia|]. f_equal. lia. }
    fold a. rewrite Hmag1, Hmag2.
    set (p := 2 ^ (156 - c)) in *. change (2 ^ 7) with 128 in *. set (A := a * 2 ^ 149) in *. set (y := a * 2 ^ c) in *.
    split; nia.
Qed.

Lemma i2f_exact d : 0 <= d < 2 ^ 32 -> Z.abs (int32 d) < 2 ^ 24 ->
  exists u, i2f d = u + (if int32 d <? 0 then 2 ^ 31 else 0) /\ 0 <= u < 255 * 2 ^ 23 /\
    f32_mag u = Z.abs (int32 d) * 2 ^ 149.
Proof.
  intros Hd Hb.
  assert (Hn : d <> 2 ^ 31) by (intros ->; unfold int32 in Hb; cbn in Hb; lia).
  rewrite i2f_word_eq by auto. cbv zeta. set (x := int32 d) in *. set (a := Z.abs x) in *.
  destruct (Z.eqb_spec a 0) as [Ha|Ha].
  - exists 0. rewrite Ha. split; [lia|]. split; [lia|]. reflexivity.
  - pose proof (Z.log2_nonneg a). assert (Hl : Z.log2 a < 24) by (apply Z.log2_lt_pow2; lia).
    pose proof (Z.log2_spec a ltac:(lia)) as Hlog. set (c := 30 - Z.log2 a) in *.
    assert (Hq : a * 2 ^ c / 2 ^ 7 = a * 2 ^ (c - 7)).
    { replace c with ((c - 7) + 7) at 1 by lia. rewrite Z.pow_add_r, Z.mul_assoc, Z.div_mul by lia. reflexivity. }
    rewrite Hq. set (q := a * 2 ^ (c - 7)).
    assert (Hqr : 2 ^ 23 <= q < 2 ^ 24).
    { unfold q. replace (2 ^ 23) with (2 ^ Z.log2 a * 2 ^ (c - 7)) by (rewrite <- Z.pow_add_r by lia; f_equal; lia).
      replace (2 ^ 24) with (2 ^ Z.succ (Z.log2 a) * 2 ^ (c - 7)) by (rewrite <- Z.pow_add_r by lia; f_equal; lia).
      assert (0 < 2 ^ (c - 7)) by (apply Z.pow_pos_nonneg; lia). nia. }
    exists ((157 - c) * 2 ^ 23 + (q - 2 ^ 23)). split; [lia|]. split; [lia|].
    unfold f32_mag.
    replace (((157 - c) * 2 ^ 23 + (q - 2 ^ 23)) / 2 ^ 23) with (157 - c) by (apply (Z.div_unique _ _ _ (q - 2^23)); lia).
    replace (((157 - c) * 2 ^ 23 + (q - 2 ^ 23)) mod 2 ^ 23) with (q - 2 ^ 23) by (apply (Z.mod_unique _ _ (157 - c)); lia).
    destruct (Z.eqb_spec (157 - c) 0); [lia|].
    replace (2 ^ 23 + (q - 2 ^ 23)) with q by lia. unfold q. rewrite <- Z.mul_assoc, <- Z.pow_add_r by lia. f_equal. f_equal. lia.
Qed.

(** pipeline *)
Definition i2f_beat (b : beat Z) : beat Z := Beat false (blast b) (i2f (bdata b)).

Lemma i2f_stage b : i2f_src (i2f_load2 (i2f_load1 (Chan true b))) = Chan true (i2f_beat b).
Proof. reflexivity. Qed.

Lemma i2f_pipeline ins :
  exists h2 h1, accepted (strace int2float ins) = h2 ++ h1 /\ emitted (strace int2float ins) = map i2f_beat h2 /\ (length h1 <= 2)%nat.
Proof.
  pose proof (run_inv (scirc int2float) (fun t s => exists d h2 h1,
    accepted t = d ++ h2 ++ h1 /\ emitted t = map i2f_beat d /\
    (if s1_valid (fst s) then exists b, h1 = [b] /\ fst s = i2f_load1 (Chan true b) else h1 = []) /\
    (if s2_valid (snd s) then exists b, h2 = [b] /\ snd s = i2f_load2 (i2f_load1 (Chan true b)) else h2 = []))) as H.
  destruct H with (ins := ins) as (d & h2 & h1 & E1 & E2 & E3 & E4).
  - exists [], [], []. cbn. auto.
  - clear ins. intros t [s1 s2] [c r] (d & h2 & h1 & E1 & E2 & E3 & E4). cbn [fst snd] in *.
    rewrite accepted_app, emitted_app, accepted_1, emitted_1, E1, E2.
    cbn [scirc int2float cout cnext o_sink o_sready o_src o_rready src rdy nxt fst snd].
    unfold i2f_go. cbn [snd]. unfold xfer. cbn [i2f_src cvalid].
    destruct (s2_valid s2) eqn:V2.
    + destruct E4 as (b2 & -> & ->). destruct r; cbn [andb negb].
      * assert (Hc : exists h, (if cvalid c && true then [cbeat c] else []) = h /\ if s1_valid (i2f_load1 c) then exists b, h = [b] /\ i2f_load1 c = i2f_load1 (Chan true b) else h = []).
        { eexists; split; [reflexivity|]. destruct c as [[] b]; cbn; eauto. }
        destruct Hc as (h & -> & Hc).
        exists (d ++ [b2]), h1, h. rewrite <- !app_assoc, map_app. cbn [fst snd]. repeat split; auto.
        cbn [i2f_load2 s2_valid]. destruct (s1_valid s1); [destruct E3 as (b1 & -> & ->)|rewrite E3]; eauto.
      * rewrite andb_false_r, !app_nil_r. exists d, [b2], h1. cbn [fst snd]. repeat split; auto.
        cbn [i2f_load2 s2_valid i2f_load1 s1_valid cvalid]. eauto.
    + rewrite E4 in *. cbn [andb negb].
      assert (Hc : exists h, (if cvalid c && true then [cbeat c] else []) = h /\ if s1_valid (i2f_load1 c) then exists b, h = [b] /\ i2f_load1 c = i2f_load1 (Chan true b) else h = []).
      { eexists; split; [reflexivity|]. destruct c as [[] b]; cbn; eauto. }
      destruct Hc as (h & -> & Hc).
      exists d, h1, h. rewrite app_nil_r, <- !app_assoc. cbn [fst snd]. repeat split; auto.
      cbn [i2f_load2 s2_valid]. destruct (s1_valid s1); [destruct E3 as (b1 & -> & ->)|rewrite E3]; eauto.
  - exists d, (h2 ++ h1). repeat split; auto. rewrite app_length.
    assert (length h1 <= 1)%nat by (destruct (s1_valid _); [destruct E3 as (? & -> & _)|rewrite E3]; simpl; lia).
    assert (length h2 <= 1)%nat by (destruct (s2_valid _); [destruct E4 as (? & -> & _)|rewrite E4]; simpl; lia).
    lia.
Qed.

Lemma i2f_stable ins : stable_src (strace int2float ins).
Proof.
  apply (stable_src_intro int2float (fun _ => True)); auto.
  intros [s1 s2] c c' _. cbn. intros Hv. unfold i2f_go. cbn. rewrite Hv. reflexivity.
Qed.

(* ---------------- Multiplier ---------------- *)
Definition in_shape (sh : shape) (x : Z) : Prop :=
  if sh_signed sh then - 2 ^ (sh_width sh - 1) <= x < 2 ^ (sh_width sh - 1)
  else 0 <= x < 2 ^ sh_width sh.

Lemma wrap_id sh x : 0 <= sh_width sh -> (sh_signed sh = true -> 1 <= sh_width sh) -> in_shape sh x -> wrap sh x = x.
Proof.
  intros H0 H1. unfold in_shape, wrap. destruct (sh_signed sh); intros H.
  - specialize (H1 eq_refl). assert (E : 2 ^ sh_width sh = 2 * 2 ^ (sh_width sh - 1)).
    { rewrite <- Z.pow_succ_r by lia. f_equal. lia. }
    rewrite Z.mod_small by lia. lia.
  - apply Z.mod_small. lia.
Qed.

Lemma mul_in_shape sa sb a b :
  0 <= sh_width sa -> 0 <= sh_width sb ->
  (sh_signed sa = true -> 1 <= sh_width sa) -> (sh_signed sb = true -> 1 <= sh_width sb) ->
  in_shape sa a -> in_shape sb b -> in_shape (mul_shape sa sb) (a * b).
Proof.
  intros A0 B0 A1 B1. unfold in_shape, mul_shape. cbn [sh_width sh_signed].
  destruct sa as [wa [|]], sb as [wb [|]]; cbn [sh_width sh_signed orb] in *; intros Ha Hb.
  - specialize (A1 eq_refl). specialize (B1 eq_refl).
    replace (wa + wb - 1) with (Z.succ ((wa - 1) + (wb - 1))) by lia.
    rewrite Z.pow_succ_r, Z.pow_add_r by lia.
    assert (0 < 2 ^ (wa - 1)) by (apply Z.pow_pos_nonneg; lia). assert (0 < 2 ^ (wb - 1)) by (apply Z.pow_pos_nonneg; lia).
    nia.
  - specialize (A1 eq_refl). replace (wa + wb - 1) with ((wa - 1) + wb) by lia. rewrite Z.pow_add_r by lia.
    assert (0 < 2 ^ (wa - 1)) by (apply Z.pow_pos_nonneg; lia). assert (0 < 2 ^ wb) by (apply Z.pow_pos_nonneg; lia).
    nia.
  - specialize (B1 eq_refl). replace (wa + wb - 1) with (wa + (wb - 1)) by lia. rewrite Z.pow_add_r by lia.
    assert (0 < 2 ^ (wb - 1)) by (apply Z.pow_pos_nonneg; lia). assert (0 < 2 ^ wa) by (apply Z.pow_pos_nonneg; lia).
    nia.
  - rewrite Z.pow_add_r by lia. nia.
Qed.

Section Mul.
  Context (sa sb : shape).
  Definition mul_wrap (b : beat (Z * Z)) : beat Z :=
    Beat (bfirst b) (blast b) (wrap (mul_shape sa sb) (wrap sa (fst (bdata b)) * wrap sb (snd (bdata b)))).
  Lemma mul_lossless ins :
    map mul_wrap (accepted (strace (multiplier sa sb) ins)) =
    emitted (strace (multiplier sa sb) ins) ++
      (let s := state (scirc (multiplier sa sb)) ins in if cvalid s then [cbeat s] else []).
  Proof.
    apply (run_inv (scirc (multiplier sa sb)) (fun t s => map mul_wrap (accepted t) = emitted t ++ (if cvalid s then [cbeat s] else []))).
    - reflexivity.
    - intros t s [c r] IH. rewrite accepted_app, emitted_app, map_app, IH, accepted_1, emitted_1.
      cbn. unfold xfer. destruct s as [[] b], c as [[] b'], r; cbn; rewrite ?app_nil_r, <- ?app_assoc; reflexivity.
  Qed.
  Lemma mul_stable ins : stable_src (strace (multiplier sa sb) ins).
  Proof.
    apply (stable_src_intro (multiplier sa sb) (fun _ => True)); auto.
    intros [v b] c c' _; cbn. intros ->. reflexivity.
  Qed.
End Mul.

(** binary32 encodings are ordered like their values, so [f32_rtz] determines the word *)
Lemma f32_mag_step u : 0 <= u -> f32_mag u < f32_mag (u + 1).
Proof.
  intros Hu. unfold f32_mag.
  pose proof (Z.div_mod u (2 ^ 23) ltac:(lia)) as HD. pose proof (Z.mod_pos_bound u (2 ^ 23) ltac:(lia)) as HM.
  set (e := u / 2 ^ 23) in *. set (m := u mod 2 ^ 23) in *. assert (0 <= e) by (apply Z.div_pos; lia).
  destruct (Z.eq_dec m (2 ^ 23 - 1)) as [Em|Em].
  - replace ((u + 1) / 2 ^ 23) with (e + 1) by (apply (Z.div_unique _ _ _ 0); lia).
    replace ((u + 1) mod 2 ^ 23) with 0 by (apply (Z.mod_unique _ _ (e + 1)); lia).
    destruct (Z.eqb_spec (e + 1) 0); [lia|]. replace (e + 1 - 1) with e by lia.
    destruct (Z.eqb_spec e 0).
    + subst e. replace (u / 2 ^ 23) with 0. lia.
    + replace (2 ^ e) with (2 * 2 ^ (e - 1)) by (rewrite <- Z.pow_succ_r by lia; f_equal; lia).
      assert (0 < 2 ^ (e - 1)) by (apply Z.pow_pos_nonneg; lia). nia.
  - replace ((u + 1) / 2 ^ 23) with e by (apply (Z.div_unique _ _ _ (m + 1)); lia).
    replace ((u + 1) mod 2 ^ 23) with (m + 1) by (apply (Z.mod_unique _ _ e); lia).
    destruct (Z.eqb_spec e 0); [lia|].
    assert (0 < 2 ^ (e - 1)) by (apply Z.pow_pos_nonneg; lia). nia.
Qed.

Lemma f32_mag_mono u v : 0 <= u -> u < v -> f32_mag u < f32_mag v.
Proof.
  intros Hu Hv. replace v with (u + 1 + Z.of_nat (Z.to_nat (v - u - 1))) by lia.
  induction (Z.to_nat (v - u - 1)) as [|n IH].
  - rewrite Z.add_0_r. now apply f32_mag_step.
  - eapply Z.lt_trans; [exact IH|]. rewrite Nat2Z.inj_succ.
    replace (u + 1 + Z.succ (Z.of_nat n)) with ((u + 1 + Z.of_nat n) + 1) by lia. apply f32_mag_step. lia.
Qed.

Lemma f32_rtz_unique x w w' : f32_rtz x w -> f32_rtz x w' -> w = w'.
Proof.
  intros (u & -> & Hu & Ha) (v & -> & Hv & Hb).
  destruct (Z.lt_trichotomy u v) as [H|[->|H]]; [|reflexivity|].
  - destruct (Z.eq_dec (u + 1) v) as [<-|]; [lia|]. pose proof (f32_mag_mono (u + 1) v). lia.
  - destruct (Z.eq_dec (v + 1) u) as [<-|]; [lia|]. pose proof (f32_mag_mono (v + 1) u). lia.
Qed.
