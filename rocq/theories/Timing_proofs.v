(** Floats of whole-number frequencies: when do the integers computed from them come
    out exact? *)
From Coq Require Import Lia Lqa Qround Qpower.
From Verif Require Import Float_model Float_proofs Timing_model.
Local Open Scope Q_scope.

Lemma u53_pos : 0 < u53. Proof. reflexivity. Qed.
Lemma iZ_pos a : (0 < a)%Z -> 0 < inject_Z a.
Proof. intros H. change 0 with (inject_Z 0). now apply iZ_lt. Qed.
Lemma iZ_nonneg a : (0 <= a)%Z -> 0 <= inject_Z a.
Proof. intros H. change 0 with (inject_Z 0). now apply iZ_le. Qed.
Lemma iZ_div a b : (0 < b)%Z -> inject_Z a / inject_Z b * inject_Z b == inject_Z a.
Proof. intros H. pose proof (iZ_pos b H). field. lra. Qed.

Lemma fint_pos x : 0 <= x -> fint x = Qfloor x.
Proof. intros H. unfold fint. apply Qle_bool_iff in H. now rewrite H. Qed.
Lemma fint_comp x y : x == y -> fint x = fint y.
Proof.
  intros E. unfold fint. assert (E' : - x == - y) by (rewrite E; reflexivity).
  rewrite (Qleb_comp 0 0 (Qeq_refl 0) x y E), (Qfloor_comp _ _ E), (Qfloor_comp _ _ E'). reflexivity.
Qed.
Lemma rnd_nonneg x : 0 <= x -> 0 <= rnd x.
Proof. intros H. rewrite <- rnd_0. now apply rnd_mono. Qed.
(** Scaling a float by a power of two is exact. *)
Lemma rnd_scale x e : rnd (rnd x * 2 ^ e) == rnd x * 2 ^ e.
Proof.
  assert (K : forall x, 0 < x -> rnd (rnd x * 2 ^ e) == rnd x * 2 ^ e).
  { intros y Hy. destruct (rnd_pos y Hy) as (f & a & b & R). pose proof (rounds_m _ _ _ _ _ R) as M. rewrite (r_r _ _ _ _ _ R).
    rewrite <- Qmult_assoc, <- pow_add. apply rnd_dyadic. lia. }
  destruct (Q_dec x 0) as [[L|L]|L].
  - assert (E : rnd x == - rnd (- x)) by (rewrite rnd_opp; ring). rewrite E.
    setoid_replace (- rnd (- x) * 2 ^ e) with (- (rnd (- x) * 2 ^ e)) by ring. rewrite rnd_opp. rewrite K by lra. reflexivity.
  - apply K, L.
  - rewrite L, rnd_0. setoid_replace (0 * 2 ^ e) with 0 by ring. apply rnd_0.
Qed.

(** ** Quotients *)
Lemma floor_quot a b : (0 <= a < 2 ^ 53)%Z -> (0 < b)%Z -> Qfloor (rnd (inject_Z a / inject_Z b)) = (a / b)%Z.
Proof.
  intros Ha Hb. pose proof (iZ_pos b Hb) as B. pose proof (iZ_nonneg a (proj1 Ha)) as A. pose proof (iZ_div a b Hb) as E.
  pose proof (Z.div_mod a b ltac:(lia)) as D. pose proof (Z.mod_pos_bound a b Hb) as M. set (n := (a / b)%Z) in *.
  assert (N : (0 <= n <= a)%Z) by nia.
  assert (L : (n * b <= a)%Z) by nia. assert (U : (a + 1 <= (n + 1) * b)%Z) by nia. clear D M.
  apply iZ_le in L, U. rewrite inject_Z_mult in L. rewrite inject_Z_mult, !inject_Z_plus in U. change (inject_Z 1) with 1 in U.
  set (x := inject_Z a / inject_Z b) in *. assert (X0 : 0 <= x) by (apply Qle_shift_div_l; lra).
  assert (X1 : inject_Z n <= x) by (apply Qle_shift_div_l; lra).
  apply Qfloor_unique.
  - rewrite <- (rnd_Z n) by lia. now apply rnd_mono.
  - destruct (Qlt_le_dec 0 x) as [P|P].
    + pose proof (rnd_rel x P) as R. apply Qabs_Qle_condition in R. change (2 ^ (-53)) with u53 in R.
      assert (V : inject_Z a * u53 < 1). { unfold u53. assert (inject_Z a < inject_Z (2 ^ 53)) by (apply iZ_lt; lia). change (inject_Z (2 ^ 53)) with 9007199254740992 in H. lra. }
      clearbody x. assert (W : (rnd x - (inject_Z n + 1)) * inject_Z b < 0) by nra. nra.
    + assert (x == 0) by lra. rewrite H, rnd_0. pose proof (iZ_nonneg n (proj1 N)). lra.
Qed.

(** math.ceil(a / b) over the integers *)
Definition cdiv (a b : Z) : Z := (- ((- a) / b))%Z.
Lemma cdiv_spec a b : (0 < b)%Z -> (b * (cdiv a b - 1) < a <= b * cdiv a b)%Z.
Proof.
  intros H. unfold cdiv. pose proof (Z.div_mod (- a) b ltac:(lia)). pose proof (Z.mod_pos_bound (- a) b H). nia.
Qed.
Lemma Qceiling_unique z n : inject_Z n - 1 < z -> z <= inject_Z n -> Qceiling z = n.
Proof.
  intros H1 H2. unfold Qceiling. rewrite (Qfloor_unique (- z) (- n)); [lia| |]; rewrite inject_Z_opp; lra.
Qed.
Lemma ceil_quot a b : (0 <= a < 2 ^ 53)%Z -> (0 < b)%Z -> Qceiling (rnd (inject_Z a / inject_Z b)) = cdiv a b.
Proof.
  intros Ha Hb. pose proof (iZ_pos b Hb) as B. pose proof (iZ_nonneg a (proj1 Ha)) as A. pose proof (iZ_div a b Hb) as E.
  pose proof (cdiv_spec a b Hb) as D. set (n := cdiv a b) in *.
  assert (N : (0 <= n <= a)%Z) by nia.
  assert (L : ((n - 1) * b + 1 <= a)%Z) by nia. assert (U : (a <= n * b)%Z) by nia. clear D.
  apply iZ_le in L, U. unfold Z.sub in L. rewrite inject_Z_plus, inject_Z_mult, inject_Z_plus in L. rewrite inject_Z_mult in U. change (inject_Z 1) with 1 in L. change (inject_Z (- (1))) with (- (1)) in L.
  set (x := inject_Z a / inject_Z b) in *. assert (X0 : 0 <= x) by (apply Qle_shift_div_l; lra).
  assert (X1 : x <= inject_Z n) by (apply Qle_shift_div_r; lra).
  apply Qceiling_unique.
  - destruct (Qlt_le_dec 0 x) as [P|P].
    + pose proof (rnd_rel x P) as R. apply Qabs_Qle_condition in R. change (2 ^ (-53)) with u53 in R.
      assert (V : inject_Z a * u53 < 1). { unfold u53. assert (inject_Z a < inject_Z (2 ^ 53)) by (apply iZ_lt; lia). change (inject_Z (2 ^ 53)) with 9007199254740992 in H. lra. }
      clearbody x. assert (W : (inject_Z n - 1 - rnd x) * inject_Z b < 0) by nra. nra.
    + assert (X : x == 0) by lra. rewrite X, rnd_0. rewrite X in E. assert (inject_Z n * inject_Z b < inject_Z b) by lra. nra.
  - rewrite <- (rnd_Z n) by lia. now apply rnd_mono.
Qed.

(** // on whole-number floats *)
Lemma ffloordiv_Z a b : (0 <= a < 2 ^ 53)%Z -> (0 < b)%Z -> ffloordiv (inject_Z a) (inject_Z b) == inject_Z (a / b).
Proof.
  intros Ha Hb. pose proof (iZ_pos b Hb) as B. unfold ffloordiv.
  assert (F : Qfloor (inject_Z a / inject_Z b) = (a / b)%Z).
  { pose proof (iZ_div a b Hb) as E. pose proof (Z.div_mod a b ltac:(lia)) as D. pose proof (Z.mod_pos_bound a b Hb) as M. set (n := (a / b)%Z) in *.
    assert (L : (n * b <= a)%Z) by nia. assert (U : (a < (n + 1) * b)%Z) by nia. apply iZ_le in L. apply iZ_lt in U. rewrite inject_Z_mult in L, U. rewrite inject_Z_plus in U.
    change (inject_Z 1) with 1 in U. apply Qfloor_unique; [apply Qle_shift_div_l|apply Qlt_shift_div_r]; lra. }
  rewrite F. set (n := (a / b)%Z) in *. assert (N : (0 <= n <= a)%Z). { pose proof (Z.div_mod a b ltac:(lia)). pose proof (Z.mod_pos_bound a b Hb). nia. }
  assert (NB : (0 <= b * n <= a)%Z). { pose proof (Z.mul_div_le a b Hb). unfold n in *. nia. }
  assert (E : fdiv (fsub (inject_Z a) (inject_Z a - inject_Z b * inject_Z n)) (inject_Z b) == inject_Z n).
  { unfold fdiv, fsub. setoid_replace (inject_Z a - (inject_Z a - inject_Z b * inject_Z n)) with (inject_Z (b * n)) by (rewrite inject_Z_mult; ring).
    rewrite rnd_Z by lia. rewrite inject_Z_mult. setoid_replace (inject_Z b * inject_Z n / inject_Z b) with (inject_Z n) by (field; lra). apply rnd_Z. lia. }
  set (d := fdiv _ _) in *. clearbody d.
  assert (G : Qfloor d = n). { rewrite E. apply Qfloor_Z. } rewrite G.
  assert (H : Qle_bool (fsub d (inject_Z n)) (1 # 2) = true).
  { apply Qle_bool_iff. unfold fsub. setoid_replace (d - inject_Z n) with 0 by (rewrite E; ring). rewrite rnd_0. discriminate. }
  rewrite H. reflexivity.
Qed.

(** ** A decimal constant times a frequency: [a / k] of [f]. *)
Lemma const_close a k f : (0 < a)%Z -> (0 < f)%Z ->
  close 4 (Qmake a k * inject_Z f) (fmul (dec (Qmake a k)) (inject_Z f)).
Proof.
  intros Ha Hf. pose proof (iZ_pos f Hf) as F. unfold fmul, dec. change 4 with (2 + 2). apply close_rnd; [discriminate|discriminate|].
  apply close_mul_c; [exact F|]. change 2 with (0 + 2). apply close_rnd; [discriminate|discriminate|]. apply close_refl. unfold Qlt; cbn; lia.
Qed.
Lemma const_val a k f : Qmake a k * inject_Z f * inject_Z (Zpos k) == inject_Z (a * f).
Proof. rewrite Qmake_Qdiv, inject_Z_mult. field. unfold Qeq; cbn; lia. Qed.
Lemma const_bounds a k f : (0 < a)%Z -> (0 <= f)%Z -> (a * f < 2 ^ 51)%Z ->
  let T := fint (fmul (dec (Qmake a k)) (inject_Z f)) in
  (0 <= T)%Z /\ (T * Zpos k <= a * f)%Z /\ (a * f <= (T + 1) * Zpos k)%Z.
Proof.
  intros Ha Hf Hb T. destruct (Z.eq_dec f 0) as [->|Nf].
  { assert (E : fmul (dec (a # k)) (inject_Z 0) == 0). { unfold fmul. setoid_replace (dec (a # k) * inject_Z 0) with 0 by (change (inject_Z 0) with 0; ring). apply rnd_0. }
    assert (T = 0%Z) as ->. { unfold T. rewrite (fint_comp _ _ E). reflexivity. } lia. }
  pose proof (const_close a k f Ha ltac:(lia)) as C. pose proof (close_pos 4 _ _ ltac:(discriminate) C) as P. pose proof (const_val a k f) as V.
  set (v := fmul _ _) in *. set (x := Qmake a k * inject_Z f) in *. destruct C as (X & C1 & C2). unfold T. rewrite fint_pos by lra.
  pose proof (Qfloor_le v) as F1. pose proof (Qlt_floor v) as F2. set (n := Qfloor v) in *. clearbody n x v.
  assert (K : 0 < inject_Z (Zpos k)) by (apply iZ_pos; lia).
  assert (S : 4 * u53 * inject_Z (a * f) < 1). { assert (inject_Z (a * f) < inject_Z (2 ^ 51)) by now apply iZ_lt. change (inject_Z (2 ^ 51)) with 2251799813685248 in H. unfold u53. lra. }
  rewrite inject_Z_plus in F2. change (inject_Z 1) with 1 in F2.
  split; [|split].
  - apply Z.lt_succ_r. apply iZ_lt. unfold Z.succ. rewrite inject_Z_plus. change (inject_Z 1) with 1. change (inject_Z 0) with 0. lra.
  - apply Z.lt_succ_r, iZ_lt. unfold Z.succ. rewrite inject_Z_plus, <- V, inject_Z_mult. change (inject_Z 1) with 1. rewrite <- V in S. nra.
  - apply Z.lt_succ_r, iZ_lt. unfold Z.succ. rewrite inject_Z_plus, <- V, inject_Z_mult, inject_Z_plus. change (inject_Z 1) with 1. rewrite <- V in S. nra.
Qed.
(** Whole results are hit when the constant was not rounded down. *)
Lemma const_up a k f : (0 < a)%Z -> (0 <= f)%Z -> (a * f < 2 ^ 51)%Z -> Qmake a k <= dec (Qmake a k) ->
  fint (fmul (dec (Qmake a k)) (inject_Z f)) = (a * f / Zpos k)%Z.
Proof.
  intros Ha Hf Hb Hd. destruct (const_bounds a k f Ha Hf Hb) as (B0 & B1 & B2). cbv zeta in *. set (T := fint _) in *.
  apply (Z.div_unique _ _ T (a * f - T * Zpos k)); [|lia]. left. split; [lia|].
  destruct (Z.eq_dec (a * f) ((T + 1) * Zpos k)) as [E|E]; [exfalso|lia].
  pose proof (iZ_nonneg f Hf) as F. assert (K : 0 < inject_Z (Zpos k)) by (apply iZ_pos; lia).
  assert (X : Qmake a k * inject_Z f == inject_Z (T + 1)).
  { pose proof (const_val a k f) as V. rewrite E, inject_Z_mult in V. apply Qmult_inj_r in V; [exact V|lra]. }
  assert (M : inject_Z (T + 1) <= fmul (dec (Qmake a k)) (inject_Z f)).
  { rewrite <- (rnd_Z (T + 1)) by nia. unfold fmul. apply rnd_mono. rewrite <- X. apply Qmult_le_compat_r; assumption. }
  assert (G : (T + 1 <= T)%Z); [|lia]. unfold T at 2. rewrite fint_pos by (pose proof (iZ_nonneg (T + 1) ltac:(lia)); lra).
  rewrite <- (Qfloor_Z (T + 1)). now apply Qfloor_resp_le.
Qed.
(** A number just below a whole number is rounded to it. *)
Lemma rnd_near y n : (0 < n <= 2 ^ 52)%Z -> inject_Z n - (45 # 100) * u53 * inject_Z n <= y -> inject_Z n <= rnd y.
Proof.
  intros Hn H. pose proof (iZ_pos n (proj1 Hn)) as N. set (z := inject_Z n - (45 # 100) * u53 * inject_Z n) in *.
  apply Qle_trans with (rnd z); [|now apply rnd_mono]. clear H y.
  assert (Z0 : 0 < z) by (unfold z, u53; lra).
  assert (N2 : inject_Z n <= 4503599627370496). { change 4503599627370496 with (inject_Z (2 ^ 52)). now apply iZ_le. }
  destruct (rnd_pos z Z0) as (e & a & b & R). pose proof (rounds_err _ _ _ _ _ R) as E. apply Qabs_Qle_condition in E.
  destruct R as [R1 R2 R3 R4 R5]. set (m := nearest a b) in *. pose proof (pow_pos e) as Pe.
  assert (X : 2 ^ e * 2 ^ 52 <= z /\ z < 2 ^ e * 2 ^ 53).
  { assert (Y : z == z * 2 ^ (- e) * 2 ^ e) by (rewrite <- Qmult_assoc, <- pow_add; replace (- e + e)%Z with 0%Z by lia; cbn; ring).
    split; rewrite Y; nra. }
  change (2 ^ 52) with 4503599627370496 in X. change (2 ^ 53) with 9007199254740992 in X.
  destruct (Qlt_le_dec (rnd z) (inject_Z n)) as [L|L]; [exfalso|exact L].
  assert (e0 : (e <= 0)%Z).
  { destruct (Z.le_gt_cases e 0) as [G|G]; [exact G|exfalso].
    assert (1 * 2 <= 2 ^ e). { replace e with (e - 1 + 1)%Z by lia. rewrite pow_add. change (2 ^ 1) with 2. apply Qmult_le_compat_r; [|discriminate].
      rewrite <- pow_Z by lia. change 1 with (inject_Z 1). apply iZ_le. pose proof (Z.pow_pos_nonneg 2 (e - 1) ltac:(lia) ltac:(lia)). lia. }
    unfold z, u53 in *. lra. }
  (* both multiples of 2^e *)
  assert (K : inject_Z n == inject_Z (n * 2 ^ (- e)) * 2 ^ e).
  { rewrite inject_Z_mult, pow_Z by lia. rewrite <- Qmult_assoc, <- pow_add. replace (- e + e)%Z with 0%Z by lia. cbn. ring. }
  rewrite R5 in L. set (j := (n * 2 ^ (- e))%Z) in *.
  assert (J : (m + 1 <= j)%Z). { apply Z.le_succ_l. apply iZ_lt. rewrite K in L. nra. }
  apply iZ_le in J. rewrite inject_Z_plus in J. change (inject_Z 1) with 1 in J.
  assert (G : (1 # 2) * 2 ^ e <= inject_Z n - z). { rewrite R5 in E. rewrite K. assert ((inject_Z m + 1) * 2 ^ e <= inject_Z j * 2 ^ e) by (apply Qmult_le_compat_r; lra). lra. }
  unfold z, u53 in *. lra.
Qed.
Lemma const_near a k f : (0 < a)%Z -> (0 <= f)%Z -> (a * f < 2 ^ 51)%Z -> Qmake a k - (45 # 100) * u53 * Qmake a k <= dec (Qmake a k) ->
  fint (fmul (dec (Qmake a k)) (inject_Z f)) = (a * f / Zpos k)%Z.
Proof.
  intros Ha Hf Hb Hd. destruct (const_bounds a k f Ha Hf Hb) as (B0 & B1 & B2). cbv zeta in *. set (T := fint _) in *.
  apply (Z.div_unique _ _ T (a * f - T * Zpos k)); [|lia]. left. split; [lia|].
  destruct (Z.eq_dec (a * f) ((T + 1) * Zpos k)) as [E|E]; [exfalso|lia].
  pose proof (iZ_nonneg f Hf) as F. assert (K : 0 < inject_Z (Zpos k)) by (apply iZ_pos; lia).
  assert (X : Qmake a k * inject_Z f == inject_Z (T + 1)).
  { pose proof (const_val a k f) as V. rewrite E, inject_Z_mult in V. apply Qmult_inj_r in V; [exact V|lra]. }
  assert (M : inject_Z (T + 1) <= fmul (dec (Qmake a k)) (inject_Z f)).
  { unfold fmul. apply rnd_near; [nia|]. rewrite <- X. set (c := Qmake a k) in *. clearbody c.
    setoid_replace (c * inject_Z f - (45 # 100) * u53 * (c * inject_Z f)) with ((c - (45 # 100) * u53 * c) * inject_Z f) by ring. apply Qmult_le_compat_r; assumption. }
  assert (G : (T + 1 <= T)%Z); [|lia]. unfold T at 2. rewrite fint_pos by (pose proof (iZ_nonneg (T + 1) ltac:(lia)); lra).
  rewrite <- (Qfloor_Z (T + 1)). now apply Qfloor_resp_le.
Qed.
(** Larger constants give larger counts. *)
Lemma const_mono c d f : (0 <= f)%Z -> 0 <= c -> c <= d -> (0 <= fint (fmul (dec c) (inject_Z f)) <= fint (fmul (dec d) (inject_Z f)))%Z.
Proof.
  intros Hf Hc Hd. pose proof (iZ_nonneg f Hf) as F.
  assert (C : 0 <= fmul (dec c) (inject_Z f)). { unfold fmul, dec. apply rnd_nonneg. apply Qmult_le_0_compat; [now apply rnd_nonneg|exact F]. }
  assert (D : fmul (dec c) (inject_Z f) <= fmul (dec d) (inject_Z f)). { unfold fmul, dec. apply rnd_mono, Qmult_le_compat_r; [now apply rnd_mono|exact F]. }
  rewrite !fint_pos by lra. split; [|now apply Qfloor_resp_le]. change 0%Z with (Qfloor 0). now apply Qfloor_resp_le.
Qed.

(** ** The SPI divider *)
Lemma spi_capped_Z sys spi : (0 <= sys < 2 ^ 53)%Z -> spi_capped sys spi == inject_Z (Z.min spi (sys / 2)).
Proof.
  intros H. unfold spi_capped. pose proof (ffloordiv_Z sys 2 H ltac:(lia)) as E. change (inject_Z 2) with 2 in E.
  rewrite (Qleb_comp _ _ (Qeq_refl (inject_Z spi)) _ _ E). destruct (Qle_bool _ _) eqn:L.
  - apply Qle_bool_iff in L. apply (proj1 (iZ_le _ _)) in L. rewrite Z.min_l by exact L. reflexivity.
  - rewrite E. assert (~ (spi <= sys / 2)%Z). { intros G. apply (proj2 (iZ_le _ _)) in G. apply Qle_bool_iff in G. congruence. } rewrite Z.min_r by lia. reflexivity.
Qed.
Lemma fceil_comp x y : x == y -> fceil x = fceil y.
Proof. unfold fceil. intros E. now apply Qceiling_comp. Qed.
Lemma spi_cs_delay_Z sys spi d : (2 <= sys < 2 ^ 53)%Z -> (0 < spi)%Z -> (0 <= d)%Z -> (d * sys < 2 ^ 53)%Z ->
  spi_cs_delay sys spi d = cdiv (d * sys) (Z.min spi (sys / 2)).
Proof.
  intros Hs Hp Hd Hm. unfold spi_cs_delay. assert (1 <= sys / 2)%Z by (apply Z.div_le_lower_bound; lia).
  rewrite <- ceil_quot by lia. apply fceil_comp. unfold fdiv, fmul. rewrite spi_capped_Z by lia. rewrite <- inject_Z_mult. rewrite rnd_Z by lia. reflexivity.
Qed.
Lemma spi_divisor_Z sys spi : (2 <= sys < 2 ^ 51)%Z -> (0 < spi)%Z ->
  let f := Z.min spi (sys / 2) in spi_divisor sys spi = cdiv (sys - 2 * f) (2 * f).
Proof.
  intros Hs Hp f. assert (1 <= sys / 2)%Z by (apply Z.div_le_lower_bound; lia). pose proof (Z.mul_div_le sys 2 ltac:(lia)) as M.
  assert (F1 : (1 <= f)%Z) by lia. assert (F2 : (2 * f <= sys)%Z) by lia.
  unfold spi_divisor. assert (C : spi_capped sys spi == inject_Z f) by (apply spi_capped_Z; lia).
  set (x := inject_Z sys / inject_Z f).
  assert (E : fsub (fdiv (fdiv (inject_Z sys) (spi_capped sys spi)) 2) 1 == rnd (rnd x / 2 - 1)).
  { unfold fsub, fdiv. rewrite C. fold x. assert (G : rnd (rnd x / 2) == rnd x / 2). { pose proof (rnd_scale x (-1)) as G. exact G. } rewrite G. reflexivity. }
  rewrite (fceil_comp _ _ E). clear E C. unfold fceil.
  pose proof (iZ_pos f ltac:(lia)) as F. pose proof (iZ_div sys f ltac:(lia)) as XF. fold x in XF.
  pose proof (cdiv_spec (sys - 2 * f) (2 * f) ltac:(lia)) as D. set (n := cdiv _ _) in *.
  assert (N : (0 <= n)%Z) by nia. assert (N' : (n <= sys)%Z) by nia.
  assert (L : (2 * f * n + 1 <= sys)%Z) by nia. assert (U : (sys <= 2 * f * (n + 1))%Z) by nia. clear D.
  assert (FS : 2 * inject_Z f <= inject_Z sys). { change 2 with (inject_Z 2). rewrite <- inject_Z_mult. now apply iZ_le. }
  assert (SB : inject_Z sys < 2251799813685248). { change 2251799813685248 with (inject_Z (2 ^ 51)). apply iZ_lt. lia. }
  apply iZ_le in L, U. rewrite inject_Z_plus, !inject_Z_mult in L. rewrite !inject_Z_mult, inject_Z_plus in U. change (inject_Z 1) with 1 in L, U. change (inject_Z 2) with 2 in L, U.
  assert (X2 : 2 <= x) by (apply Qle_shift_div_l; lra).
  assert (R2 : 2 <= rnd x). { assert (Y : rnd 2 <= rnd x) by now apply rnd_mono. assert (V : rnd 2 == 2) by reflexivity. lra. }
  assert (RU : rnd x <= 2 * (inject_Z n + 1)).
  { assert (Y : rnd x <= rnd (inject_Z (2 * (n + 1)))). { apply rnd_mono. rewrite inject_Z_mult, inject_Z_plus. change (inject_Z 1) with 1. change (inject_Z 2) with 2. apply Qle_shift_div_r; lra. }
    rewrite rnd_Z in Y by lia. rewrite inject_Z_mult, inject_Z_plus in Y. exact Y. }
  pose proof (iZ_nonneg n N) as N0. apply Qceiling_unique.
  - destruct (Z.eq_dec n 0) as [->|Hn].
    { change (inject_Z 0) with 0. assert (0 <= rnd (rnd x / 2 - 1)); [|lra]. apply rnd_nonneg. unfold Qdiv. change (/ 2) with (1 # 2). lra. }
    assert (N1 : 1 <= inject_Z n). { change 1 with (inject_Z 1). apply iZ_le. lia. }
    pose proof (rnd_rel x ltac:(lra)) as R. apply Qabs_Qle_condition in R. change (2 ^ (-53)) with u53 in R.
    set (y := rnd x) in *. assert (Y : y / 2 - 1 == (1 # 2) * y - 1) by (unfold Qdiv; change (/ 2) with (1 # 2); ring). rewrite Y.
    set (z := (1 # 2) * y - 1). destruct (Qlt_le_dec 0 z) as [Z0|Z0].
    + pose proof (rnd_rel z Z0) as Rz. apply Qabs_Qle_condition in Rz. change (2 ^ (-53)) with u53 in Rz.
      assert (ZX : z <= x) by (unfold z, u53 in *; lra). assert (W : x * inject_Z f * u53 * 4 < 1) by (rewrite XF; unfold u53; lra).
      assert (G1 : (1 # 2) * x - (1 # 2) * (x * u53) - 1 - x * u53 <= rnd z). { assert (z * u53 <= x * u53) by (apply Qmult_le_compat_r; [exact ZX|discriminate]). unfold z in *. lra. }
      assert (G2 : (inject_Z n - 1 - rnd z) * inject_Z f < 0); [|nra]. clearbody x. unfold u53 in *. nra.
    + exfalso. assert (W : x * inject_Z f * u53 * 4 < 1) by (rewrite XF; unfold u53; lra). unfold z, u53 in *. nra.
  - assert (Y : rnd (rnd x / 2 - 1) <= rnd (inject_Z n)). { apply rnd_mono. unfold Qdiv. change (/ 2) with (1 # 2). lra. } rewrite rnd_Z in Y by lia. exact Y.
Qed.

(** ** Tuning words: int((target / sys) * 2^32) *)
Lemma word_eq target sys : fint (fmul (fdiv (inject_Z target) (inject_Z sys)) (inject_Z (2 ^ 32))) = fint (rnd (inject_Z target / inject_Z sys) * 2 ^ 32).
Proof. apply fint_comp. unfold fmul, fdiv. change (inject_Z (2 ^ 32)) with (2 ^ 32)%Q. apply (rnd_scale _ 32). Qed.
Lemma word_bounds target sys : (0 < sys)%Z -> (0 <= target <= sys)%Z ->
  let w := fint (fmul (fdiv (inject_Z target) (inject_Z sys)) (inject_Z (2 ^ 32))) in
  (target * 2 ^ 32 / sys <= w <= 2 ^ 32)%Z /\ (w * sys * 2 ^ 53 <= target * 2 ^ 32 * (2 ^ 53 + 1))%Z.
Proof.
  intros Hs Ht w. pose proof (iZ_pos sys Hs) as S. pose proof (iZ_nonneg target (proj1 Ht)) as T. pose proof (iZ_div target sys Hs) as E.
  assert (TS : inject_Z target <= inject_Z sys) by (apply iZ_le; lia).
  set (x := inject_Z target / inject_Z sys) in *. assert (X0 : 0 <= x) by (apply Qle_shift_div_l; lra). assert (X1 : x <= 1) by (apply Qle_shift_div_r; lra).
  pose proof (Z.mul_div_le (target * 2 ^ 32) sys Hs) as M. set (n := (target * 2 ^ 32 / sys)%Z) in *.
  assert (N0 : (0 <= n)%Z) by (apply Z.div_pos; lia). assert (N1 : (n <= 2 ^ 32)%Z) by nia.
  assert (R0 : 0 <= rnd x) by now apply rnd_nonneg.
  assert (R1 : rnd x <= 1). { assert (Y : rnd x <= rnd 1) by now apply rnd_mono. assert (V : rnd 1 == 1) by reflexivity. lra. }
  assert (RN : inject_Z n <= rnd x * 4294967296).
  { assert (Y : rnd (inject_Z n * 2 ^ (-32)) <= rnd x).
    { apply rnd_mono. change (2 ^ (-32)) with (1 # 4294967296). apply Qle_shift_div_l; [exact S|]. apply iZ_le in M. rewrite !inject_Z_mult in M. change (inject_Z (2 ^ 32)) with 4294967296 in M. lra. }
    rewrite rnd_dyadic in Y by lia. change (2 ^ (-32)) with (1 # 4294967296) in Y. lra. }
  unfold w. rewrite word_eq. fold x. change (2 ^ 32)%Q with 4294967296.
  rewrite fint_pos by nra. pose proof (Qfloor_le (rnd x * 4294967296)) as F1. set (v := Qfloor _) in *.
  assert (V0 : (n <= v)%Z). { rewrite <- (Qfloor_Z n). now apply Qfloor_resp_le. }
  assert (V1 : (v <= 2 ^ 32)%Z). { apply iZ_le. change (inject_Z (2 ^ 32)) with 4294967296. lra. }
  split; [lia|].
  assert (G : inject_Z v * inject_Z sys <= inject_Z target * 4294967296 * (1 + u53)).
  { destruct (Qlt_le_dec 0 x) as [P|P].
    - pose proof (rnd_rel x P) as R. apply Qabs_Qle_condition in R. change (2 ^ (-53)) with u53 in R.
      assert (V : inject_Z v <= 4294967296 * (x * (1 + u53))) by lra. assert (W : inject_Z v * inject_Z sys <= 4294967296 * (x * (1 + u53)) * inject_Z sys) by (apply Qmult_le_compat_r; lra).
      rewrite <- E. setoid_replace (x * inject_Z sys * 4294967296 * (1 + u53)) with (4294967296 * (x * (1 + u53)) * inject_Z sys) by ring. exact W.
    - assert (Z : x == 0) by lra. assert (V : inject_Z v <= 0). { rewrite Z, rnd_0 in F1. lra. }
      rewrite <- E, Z. nra. }
  apply iZ_le. rewrite !inject_Z_mult, inject_Z_plus. change (inject_Z (2 ^ 53)) with 9007199254740992. change (inject_Z 1) with 1. change (inject_Z (2 ^ 32)) with 4294967296.
  unfold u53 in G. lra.
Qed.
(** Exact when the system frequency is a multiple of 2^k and the target is below 2^(21+k). *)
Lemma word_exact k target sys : (0 <= k <= 32)%Z -> (0 < sys)%Z -> (2 ^ k | sys)%Z -> (0 <= target <= sys)%Z -> (target < 2 ^ (21 + k))%Z ->
  fint (fmul (fdiv (inject_Z target) (inject_Z sys)) (inject_Z (2 ^ 32))) = (target * 2 ^ 32 / sys)%Z.
Proof.
  intros Hk Hs (s & Es) Ht Hb. destruct (word_bounds target sys Hs Ht) as [[B1 _] B2]. cbv zeta in *. set (w := fint _) in *. clearbody w.
  apply Z.le_antisymm; [|exact B1]. apply Z.div_le_lower_bound; [exact Hs|].
  (* w sys - target 2^32 is a multiple of 2^k below target 2^-21 *)
  assert (P : (0 < 2 ^ k)%Z) by (apply Z.pow_pos_nonneg; lia).
  assert (D : (target * 2 ^ 32 = target * 2 ^ (32 - k) * 2 ^ k)%Z). { rewrite <- Z.mul_assoc, <- Z.pow_add_r by lia. do 2 f_equal. lia. }
  rewrite Z.pow_add_r in Hb by lia. change (2 ^ 21)%Z with 2097152%Z in Hb. change (2 ^ 53)%Z with 9007199254740992%Z in B2.
  set (p := (2 ^ k)%Z) in *. set (t' := (target * 2 ^ (32 - k))%Z) in *.
  destruct (Z.le_gt_cases (sys * w) (target * 2 ^ 32)) as [L|L]; [exact L|exfalso].
  rewrite D in L. subst sys. assert (L2 : (t' + 1 <= s * w)%Z) by nia.
  assert (L3 : (target * 2 ^ 32 + p <= s * p * w)%Z) by (rewrite D; nia).
  change (2 ^ 32)%Z with 4294967296%Z in *. lia.
Qed.
Lemma tuning_word_eq sys target : (0 <= 2 * target <= 2 ^ 53)%Z ->
  tuning_tuning_word sys target = fint (fmul (fdiv (inject_Z (2 * target)) (inject_Z sys)) (inject_Z (2 ^ 32))).
Proof.
  intros H. apply fint_comp. unfold fmul, fdiv. change 2 with (inject_Z 2). rewrite <- inject_Z_mult, rnd_Z by lia. reflexivity.
Qed.
