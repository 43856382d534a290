(** Rounding to the nearest float: error, exact cases, monotonicity. *)
From Coq Require Import Lia Lqa.
From Verif Require Import Float_model.

Lemma pow_pos e : 0 < 2 ^ e.
Proof. apply Qpower_0_lt. reflexivity. Qed.
Lemma two0 : ~ 2 == 0. Proof. discriminate. Qed.
Lemma pow_nz e : ~ 2 ^ e == 0.
Proof. apply Qpower_not_0, two0. Qed.
Lemma pow_add a b : 2 ^ (a + b) == 2 ^ a * 2 ^ b.
Proof. apply Qpower_plus, two0. Qed.
Lemma pow_opp a : 2 ^ (- a) == / 2 ^ a.
Proof. apply Qpower_opp. Qed.
Lemma pow_Z n : (0 <= n)%Z -> inject_Z (2 ^ n) == 2 ^ n.
Proof. intros H. rewrite Zpower_Qpower by exact H. reflexivity. Qed.
Lemma iZ_le a b : inject_Z a <= inject_Z b <-> (a <= b)%Z.
Proof. rewrite Zle_Qle. reflexivity. Qed.
Lemma iZ_lt a b : inject_Z a < inject_Z b <-> (a < b)%Z.
Proof. rewrite Zlt_Qlt. reflexivity. Qed.

(** ** nearest *)
Lemma nearest_err a b : (0 < b)%Z -> (2 * a - b <= 2 * b * nearest a b <= 2 * a + b)%Z.
Proof.
  intros Hb. unfold nearest. pose proof (Z.div_mod a b ltac:(lia)) as E. pose proof (Z.mod_pos_bound a b Hb) as B.
  destruct (Z.compare_spec (2 * (a mod b)) b); [destruct (Z.even _)| |]; nia.
Qed.
Lemma nearest_exact m b : (0 < b)%Z -> nearest (m * b) b = m.
Proof. intros H. unfold nearest. rewrite Z.mod_mul, Z.div_mul by lia. destruct (Z.compare_spec (2 * 0) b); lia. Qed.
Lemma nearest_tie a b n : (0 < b)%Z -> (2 * a = (2 * n + 1) * b)%Z -> Z.even (nearest a b) = true.
Proof.
  intros Hb E. assert (Q : (a / b = n)%Z) by (symmetry; apply (Z.div_unique a b n (a - b * n)); nia).
  unfold nearest. rewrite Q. rewrite Z.mod_eq, Q by lia.
  destruct (Z.compare_spec (2 * (a - b * n)) b); try nia.
  destruct (Z.even n) eqn:EV; [exact EV|]. rewrite Z.even_add, EV. reflexivity.
Qed.
Lemma nearest_mono a b c d : (0 < b)%Z -> (0 < d)%Z -> (a * d <= c * b)%Z -> (nearest a b <= nearest c d)%Z.
Proof.
  intros Hb Hd H. destruct (Z.le_gt_cases (nearest a b) (nearest c d)) as [L|L]; [exact L|exfalso].
  pose proof (nearest_err a b Hb) as E1. pose proof (nearest_err c d Hd) as E2.
  set (m := nearest a b) in *. set (n := nearest c d) in *.
  assert (A : (2 * b * d * m <= 2 * a * d + b * d)%Z) by nia. assert (C : (2 * c * b - b * d <= 2 * b * d * n)%Z) by nia.
  assert (BD : (0 < b * d)%Z) by nia.
  assert (M : (m = n + 1)%Z) by nia.
  assert (T1 : (2 * a = (2 * n + 1) * b)%Z) by nia. assert (T2 : (2 * c = (2 * n + 1) * d)%Z) by nia.
  pose proof (nearest_tie a b n Hb T1) as V1. pose proof (nearest_tie c d n Hd T2) as V2. fold m in V1. fold n in V2.
  rewrite M, Z.even_add, V2 in V1. discriminate V1.
Qed.

(** ** round_pos *)
Lemma scaled_val n d e : (0 < d)%Z -> (0 < snd (scaled n d e))%Z /\ inject_Z (fst (scaled n d e)) / inject_Z (snd (scaled n d e)) == inject_Z n / inject_Z d * 2 ^ (- e).
Proof.
  intros Hd. assert (D : ~ inject_Z d == 0) by (change 0 with (inject_Z 0); rewrite inject_Z_injective; lia).
  unfold scaled. destruct (Z.leb_spec 0 e) as [H|H]; cbn [fst snd].
  - split; [nia|]. rewrite inject_Z_mult, pow_Z, pow_opp by exact H. field. split; [apply pow_nz|exact D].
  - split; [exact Hd|]. rewrite inject_Z_mult, pow_Z by lia. field. exact D.
Qed.

Lemma log_bounds n d : (0 < n)%Z -> (0 < d)%Z -> let k := (Z.log2 n - Z.log2 d)%Z in
  2 ^ (k - 1) < inject_Z n / inject_Z d /\ inject_Z n / inject_Z d < 2 ^ (k + 1).
Proof.
  intros Hn Hd k. pose proof (Z.log2_spec n Hn) as N. pose proof (Z.log2_spec d Hd) as D.
  pose proof (Z.log2_nonneg n). pose proof (Z.log2_nonneg d).
  assert (D0 : 0 < inject_Z d) by (change 0 with (inject_Z 0); apply iZ_lt; lia).
  assert (Dk : ~ 2 ^ Z.log2 d == 0) by apply pow_nz.
  split.
  - apply Qlt_shift_div_l; [exact D0|].
    assert (inject_Z d < 2 ^ (Z.log2 d + 1)) by (rewrite <- pow_Z by lia; apply iZ_lt; unfold Z.succ in D; lia).
    assert (2 ^ Z.log2 n <= inject_Z n) by (rewrite <- pow_Z by lia; apply iZ_le; lia).
    assert (E : 2 ^ (k - 1) * 2 ^ (Z.log2 d + 1) == 2 ^ Z.log2 n) by (rewrite <- pow_add; replace (k - 1 + (Z.log2 d + 1))%Z with (Z.log2 n) by (unfold k; lia); reflexivity).
    pose proof (pow_pos (k - 1)). nra.
  - apply Qlt_shift_div_r; [exact D0|].
    assert (2 ^ Z.log2 d <= inject_Z d) by (rewrite <- pow_Z by lia; apply iZ_le; lia).
    assert (inject_Z n < 2 ^ (Z.log2 n + 1)) by (rewrite <- pow_Z by lia; apply iZ_lt; unfold Z.succ in N; lia).
    assert (E : 2 ^ (k + 1) * 2 ^ Z.log2 d == 2 ^ (Z.log2 n + 1)) by (rewrite <- pow_add; replace (k + 1 + Z.log2 d)%Z with (Z.log2 n + 1)%Z by (unfold k; lia); reflexivity).
    pose proof (pow_pos (k + 1)). nra.
Qed.

Lemma div_le_1 a b : (0 < b)%Z -> (1 <= inject_Z a / inject_Z b <-> (b <= a)%Z).
Proof.
  intros Hb. assert (0 < inject_Z b) by (change 0 with (inject_Z 0); now apply iZ_lt). rewrite <- iZ_le. split; intros E.
  - assert (X : inject_Z a == inject_Z a / inject_Z b * inject_Z b) by (field; lra). rewrite X. nra.
  - apply Qle_shift_div_l; lra.
Qed.
Lemma exponent_spec n d : (0 < n)%Z -> (0 < d)%Z -> let e := exponent n d in
  2 ^ 52 <= inject_Z n / inject_Z d * 2 ^ (- e) /\ inject_Z n / inject_Z d * 2 ^ (- e) < 2 ^ 53.
Proof.
  intros Hn Hd. pose proof (log_bounds n d Hn Hd) as [L1 L2]. cbv zeta in L1, L2. unfold exponent.
  set (k := (Z.log2 n - Z.log2 d)%Z) in *. pose proof (scaled_val n d k Hd) as [S1 S2]. destruct (scaled n d k) as [a b]. cbn [fst snd] in *.
  set (q := inject_Z n / inject_Z d) in *. clearbody q.
  destruct (Z.leb_spec b a) as [H|H]; cbv zeta.
  - apply (div_le_1 a b S1) in H. rewrite S2 in H.
    replace (- (k - 52))%Z with (- k + 52)%Z by lia. rewrite pow_add.
    assert (Q2 : q * 2 ^ (- k) < 2). { assert (E : 2 ^ (k + 1) * 2 ^ (- k) == 2) by (rewrite <- pow_add; replace (k + 1 + - k)%Z with 1%Z by lia; reflexivity). pose proof (pow_pos (- k)). nra. }
    assert (X : 2 ^ 53 == 2 * 2 ^ 52) by reflexivity. pose proof (pow_pos 52). split; [nra|]. rewrite X. nra.
  - assert (Q1 : q * 2 ^ (- k) < 1).
    { apply Qnot_le_lt. rewrite <- S2. rewrite (div_le_1 a b S1). lia. }
    replace (- (k - 53))%Z with (- k + 53)%Z by lia. rewrite pow_add.
    assert (Q2 : 1 < 2 * (q * 2 ^ (- k))). { assert (E : 2 ^ (k - 1) * 2 ^ (- k) == 1 # 2) by (rewrite <- pow_add; replace (k - 1 + - k)%Z with (-1)%Z by lia; reflexivity). pose proof (pow_pos (- k)). nra. }
    assert (X : 2 ^ 53 == 2 * 2 ^ 52) by reflexivity. pose proof (pow_pos 52). split; rewrite X; nra.
Qed.

(** What rounding a positive number does. *)
Record rounds (q r : Q) (e a b : Z) : Prop := {
  r_b : (0 < b)%Z; r_v : inject_Z a / inject_Z b == q * 2 ^ (- e);
  r_lo : 2 ^ 52 <= q * 2 ^ (- e); r_hi : q * 2 ^ (- e) < 2 ^ 53; r_r : r == inject_Z (nearest a b) * 2 ^ e }.
Lemma round_pos_spec n d : (0 < n)%Z -> (0 < d)%Z -> exists e a b, rounds (inject_Z n / inject_Z d) (round_pos n d) e a b.
Proof.
  intros Hn Hd. pose proof (exponent_spec n d Hn Hd) as [E1 E2]. unfold round_pos. set (e := exponent n d) in *. cbv zeta in *.
  pose proof (scaled_val n d e Hd) as [S1 S2]. destruct (scaled n d e) as [a b]. cbn [fst snd] in *. exists e, a, b. constructor; auto.
  destruct (Z.leb_spec 0 e).
  - rewrite inject_Z_mult, pow_Z by assumption. reflexivity.
  - rewrite Qmake_Qdiv, Z2Pos.id by (apply Z.pow_pos_nonneg; lia). rewrite pow_Z by lia. rewrite pow_opp. field. apply pow_nz.
Qed.
Global Instance rnd_comp : Proper (Qeq ==> Qeq) rnd.
Proof. intros p q E. unfold rnd. rewrite (Qred_complete p q E). reflexivity. Qed.
Lemma rnd_pos q : 0 < q -> exists e a b, rounds q (rnd q) e a b.
Proof.
  intros H. pose proof (Qred_correct q) as C. unfold rnd. destruct (Qred q) as [n d]. cbn [Qnum Qden].
  rewrite <- C in H. destruct n as [|n|n]; [discriminate H| |discriminate H].
  destruct (round_pos_spec (Zpos n) (Zpos d) eq_refl eq_refl) as (e & a & b & [R1 R2 R3 R4 R5]).
  rewrite <- Qmake_Qdiv in *. exists e, a, b. constructor; rewrite <- ?C; auto.
Qed.
Lemma rnd_0 : rnd 0 == 0.
Proof. reflexivity. Qed.
Lemma rnd_opp q : rnd (- q) == - rnd q.
Proof.
  unfold rnd. destruct q as [n d]. rewrite Qred_opp. destruct (Qred (n # d)) as [m c]. cbn [Qopp Qnum Qden].
  destruct m; cbn [Z.opp]; [reflexivity|reflexivity|]. now rewrite Qopp_involutive.
Qed.

Lemma rounds_m q r e a b : rounds q r e a b -> (2 ^ 52 <= nearest a b <= 2 ^ 53)%Z.
Proof.
  intros [R1 R2 R3 R4 R5]. rewrite <- R2 in R3, R4. 
  assert (B : 0 < inject_Z b) by (change 0 with (inject_Z 0); now apply iZ_lt).
  assert (X : inject_Z a == inject_Z a / inject_Z b * inject_Z b) by (field; lra).
  assert (A1 : (2 ^ 52 * b <= a)%Z). { apply iZ_le. rewrite inject_Z_mult, pow_Z by lia. rewrite X. nra. }
  assert (A2 : (a <= 2 ^ 53 * b)%Z). { apply iZ_le. rewrite inject_Z_mult, pow_Z by lia. rewrite X. nra. }
  rewrite <- (nearest_exact (2 ^ 52) 1), <- (nearest_exact (2 ^ 53) 1) by lia.
  split; apply nearest_mono; lia.
Qed.
(** The error is at most half a unit in the last place, so at most 2^-53 relative. *)
Lemma rounds_err q r e a b : rounds q r e a b -> Qabs (r - q) <= (1 # 2) * 2 ^ e.
Proof.
  intros [R1 R2 R3 R4 R5]. pose proof (nearest_err a b R1) as N.
  assert (B : 0 < inject_Z b) by (change 0 with (inject_Z 0); now apply iZ_lt).
  assert (X : inject_Z a == inject_Z a / inject_Z b * inject_Z b) by (field; lra).
  set (m := nearest a b) in *. set (v := inject_Z a / inject_Z b) in *.
  assert (V : q == v * 2 ^ e). { rewrite R2. rewrite <- Qmult_assoc, <- pow_add. replace (- e + e)%Z with 0%Z by lia. cbn. ring. }
  destruct N as [N1 N2]. apply iZ_le in N1, N2. unfold Z.sub in N1. rewrite ?inject_Z_plus, ?inject_Z_mult, ?inject_Z_opp in N1, N2.
  change (inject_Z 2) with 2 in N1, N2. rewrite X in N1, N2. rewrite R5, V. pose proof (pow_pos e).
  apply Qabs_Qle_condition. clearbody v. clear V R2 X.
  rewrite inject_Z_opp in N1. assert (M1 : v - (1 # 2) <= inject_Z m) by nra. assert (M2 : inject_Z m <= v + (1 # 2)) by nra. split; nra.
Qed.
Lemma rnd_rel q : 0 < q -> Qabs (rnd q - q) <= q * 2 ^ (-53).
Proof.
  intros H. destruct (rnd_pos q H) as (e & a & b & R). pose proof (rounds_err _ _ _ _ _ R) as E. destruct R as [R1 R2 R3 R4 R5].
  assert (X : 2 ^ e * 2 ^ 52 <= q).
  { assert (Y : q == q * 2 ^ (- e) * 2 ^ e) by (rewrite <- Qmult_assoc, <- pow_add; replace (- e + e)%Z with 0%Z by lia; cbn; ring). rewrite Y. pose proof (pow_pos e). nra. }
  assert (Y : 2 ^ 52 * 2 ^ (-53) == 1 # 2) by reflexivity. pose proof (pow_pos (-53)). 
  eapply Qle_trans; [exact E|]. nra.
Qed.
Lemma rnd_mono p q : p <= q -> rnd p <= rnd q.
Proof.
  assert (POS : forall q, 0 < q -> 0 < rnd q).
  { intros z H. destruct (rnd_pos z H) as (e & a & b & R). pose proof (rounds_m _ _ _ _ _ R) as M. rewrite (r_r _ _ _ _ _ R).
    pose proof (pow_pos e). assert (0 < inject_Z (nearest a b)) by (change 0 with (inject_Z 0); apply iZ_lt; lia). nra. }
  assert (K : forall p q, 0 < p -> p <= q -> rnd p <= rnd q).
  { clear p q. intros p q Hp Hq. assert (Hq' : 0 < q) by lra.
    destruct (rnd_pos p Hp) as (e & a & b & R). destruct (rnd_pos q Hq') as (f & c & d & S).
    pose proof (rounds_m _ _ _ _ _ R) as MR. pose proof (rounds_m _ _ _ _ _ S) as MS.
    destruct R as [R1 R2 R3 R4 R5], S as [S1 S2 S3 S4 S5]. rewrite R5, S5.
    assert (Yp : p == p * 2 ^ (- e) * 2 ^ e) by (rewrite <- Qmult_assoc, <- pow_add; replace (- e + e)%Z with 0%Z by lia; cbn; ring).
    assert (Yq : q == q * 2 ^ (- f) * 2 ^ f) by (rewrite <- Qmult_assoc, <- pow_add; replace (- f + f)%Z with 0%Z by lia; cbn; ring).
    destruct (Z.lt_trichotomy e f) as [L|[<-|L]].
    - assert (X : 2 ^ e * 2 <= 2 ^ f) by (rewrite <- (Qpower_1_r 2) at 2; rewrite <- pow_add; apply Qpower_le_compat_l; [lia|discriminate]).
      assert (M1 : inject_Z (nearest a b) <= 2 ^ 53) by (rewrite <- pow_Z by lia; apply iZ_le; lia).
      assert (M2 : 2 ^ 52 <= inject_Z (nearest c d)) by (rewrite <- pow_Z by lia; apply iZ_le; lia).
      assert (Z : 2 ^ 53 == 2 * 2 ^ 52) by reflexivity. pose proof (pow_pos e). pose proof (pow_pos f). pose proof (pow_pos 52). rewrite Z in M1.
      apply Qle_trans with (2 * 2 ^ 52 * 2 ^ e); [nra|]. apply Qle_trans with (2 ^ 52 * 2 ^ f); nra.
    - apply Qmult_le_compat_r; [|apply Qlt_le_weak, pow_pos]. apply iZ_le. apply nearest_mono; auto.
      apply iZ_le. rewrite !inject_Z_mult.
      assert (B : 0 < inject_Z b) by (change 0 with (inject_Z 0); now apply iZ_lt). assert (D : 0 < inject_Z d) by (change 0 with (inject_Z 0); now apply iZ_lt).
      assert (Xa : inject_Z a == inject_Z a / inject_Z b * inject_Z b) by (field; lra). assert (Xc : inject_Z c == inject_Z c / inject_Z d * inject_Z d) by (field; lra).
      rewrite Xa, Xc, R2, S2. pose proof (pow_pos (- e)).
      assert (p * 2 ^ (- e) <= q * 2 ^ (- e)) by nra.
      setoid_replace (p * 2 ^ (- e) * inject_Z b * inject_Z d) with (p * 2 ^ (- e) * (inject_Z b * inject_Z d)) by ring.
      setoid_replace (q * 2 ^ (- e) * inject_Z d * inject_Z b) with (q * 2 ^ (- e) * (inject_Z b * inject_Z d)) by ring.
      apply Qmult_le_compat_r; [assumption|]. nra.
    - exfalso. assert (X : 2 ^ f * 2 <= 2 ^ e) by (rewrite <- (Qpower_1_r 2) at 2; rewrite <- pow_add; apply Qpower_le_compat_l; [lia|discriminate]).
      assert (P1 : 2 ^ 52 * 2 ^ e <= p) by (rewrite Yp; pose proof (pow_pos e); nra). assert (P2 : q < 2 ^ 53 * 2 ^ f) by (rewrite Yq at 1; pose proof (pow_pos f); nra).
      assert (Z : 2 ^ 53 == 2 * 2 ^ 52) by reflexivity. rewrite Z in P2. pose proof (pow_pos 52). nra. }
  intros H. destruct (Qlt_le_dec 0 p) as [P|P]; [now apply K|]. destruct (Qlt_le_dec q 0) as [N|N].
  - assert (X : rnd (- q) <= rnd (- p)) by (apply K; lra). rewrite !rnd_opp in X. lra.
  - apply Qle_trans with 0.
    + destruct (Qeq_dec p 0) as [E|E]; [rewrite E; discriminate|]. assert (X : 0 < rnd (- p)) by (apply POS; lra). rewrite rnd_opp in X. lra.
    + destruct (Qeq_dec q 0) as [E|E]; [rewrite E; discriminate|]. apply Qlt_le_weak, POS. lra.
Qed.
(** Numbers of at most 53 bits are floats. *)
Lemma rnd_dyadic m e : (Z.abs m <= 2 ^ 53)%Z -> rnd (inject_Z m * 2 ^ e) == inject_Z m * 2 ^ e.
Proof.
  assert (K : forall m, (0 < m <= 2 ^ 53)%Z -> rnd (inject_Z m * 2 ^ e) == inject_Z m * 2 ^ e).
  { clear m. intros m H. assert (M : 0 < inject_Z m) by (change 0 with (inject_Z 0); apply iZ_lt; lia). pose proof (pow_pos e).
    destruct (rnd_pos (inject_Z m * 2 ^ e)) as (f & a & b & R); [nra|]. destruct R as [R1 R2 R3 R4 R5].
    rewrite <- Qmult_assoc, <- pow_add in R2, R3, R4.
    destruct (Z.le_gt_cases 0 (e + - f)) as [L|L].
    - assert (E : inject_Z m * 2 ^ (e + - f) == inject_Z (m * 2 ^ (e + - f))) by (rewrite inject_Z_mult, pow_Z by exact L; reflexivity).
      rewrite E in R2. set (k := (m * 2 ^ (e + - f))%Z) in *.
      assert (A : a = (k * b)%Z). { apply inject_Z_injective. rewrite inject_Z_mult, <- R2. field. intros X. change 0 with (inject_Z 0) in X. apply (proj1 (inject_Z_injective b 0)) in X. lia. }
      rewrite R5, A, nearest_exact by exact R1. rewrite <- E, <- Qmult_assoc, <- pow_add. replace (e + - f + f)%Z with e by lia. reflexivity.
    - assert (MM : inject_Z m <= 2 ^ 53) by (rewrite <- pow_Z by lia; apply iZ_le; lia).
      assert (X : 2 ^ (e + - f) <= 1 # 2) by (change (1 # 2) with (2 ^ (-1)); apply Qpower_le_compat_l; [lia|discriminate]).
      pose proof (pow_pos (e + - f)). assert (Z : 2 ^ 53 == 2 * 2 ^ 52) by reflexivity.
      assert (C1 : inject_Z m * 2 ^ (e + - f) <= 2 ^ 52) by nra. assert (C2 : inject_Z m * 2 ^ (e + - f) == 2 ^ 52) by lra. clear C1.
      assert (A : a = (2 ^ 52 * b)%Z). { apply inject_Z_injective. rewrite inject_Z_mult, pow_Z by lia. rewrite <- C2, <- R2. field. intros Y. change 0 with (inject_Z 0) in Y. apply (proj1 (inject_Z_injective b 0)) in Y. lia. }
      rewrite R5, A, nearest_exact by exact R1. rewrite pow_Z by lia. rewrite <- C2, <- Qmult_assoc, <- pow_add. replace (e + - f + f)%Z with e by lia. reflexivity. }
  intros H. destruct (Z.lt_trichotomy m 0) as [L|[->|L]].
  - assert (X : rnd (inject_Z (- m) * 2 ^ e) == inject_Z (- m) * 2 ^ e) by (apply K; lia).
    rewrite inject_Z_opp in X. setoid_replace (- inject_Z m * 2 ^ e) with (- (inject_Z m * 2 ^ e)) in X by ring. rewrite rnd_opp in X. lra.
  - setoid_replace (inject_Z 0 * 2 ^ e) with 0 by (change (inject_Z 0) with 0; ring). apply rnd_0.
  - apply K. lia.
Qed.
Lemma rnd_Z m : (Z.abs m <= 2 ^ 53)%Z -> rnd (inject_Z m) == inject_Z m.
Proof. intros H. pose proof (rnd_dyadic m 0 H) as R. cbn [Qpower] in R. rewrite Qmult_1_r in R. exact R. Qed.
Lemma rnd_gt0 q : 0 < q -> 0 < rnd q.
Proof.
  intros H. pose proof (rnd_rel q H) as E. apply Qabs_Qle_condition in E. assert (X : 2 ^ (-53) < 1) by reflexivity. nra.
Qed.
Lemma rnd_eq0 q : rnd q == 0 -> q == 0.
Proof.
  intros E. destruct (Q_dec q 0) as [[L|L]|L]; [exfalso|exfalso|exact L].
  - assert (0 < rnd (- q)) by (apply rnd_gt0; lra). rewrite rnd_opp in H. lra.
  - pose proof (rnd_gt0 q L). lra.
Qed.

(** ** Accumulated relative errors: [y] is [x] up to [k] roundings of 2^-53. *)
Definition u53 : Q := 1 # 9007199254740992.
Definition close (k x y : Q) : Prop := 0 < x /\ x - k * u53 * x <= y /\ y <= x + k * u53 * x.
Lemma close_refl x : 0 < x -> close 0 x x.
Proof. intros H. unfold close. split; [exact H|]. lra. Qed.
Lemma close_comp k x x' y y' : x == x' -> y == y' -> close k x y -> close k x' y'.
Proof. unfold close. intros E F. now rewrite E, F. Qed.
Lemma close_weak j k x y : j <= k -> close j x y -> close k x y.
Proof.
  intros H (X & C1 & C2). split; [exact X|]. assert (0 <= (k - j) * (u53 * x)) by (apply Qmult_le_0_compat; unfold u53; lra). split; lra.
Qed.
Lemma close_pos k x y : k <= 1000 -> close k x y -> 0 < y.
Proof.
  intros H C. destruct (close_weak _ 1000 _ _ H C) as (X & C1 & _). unfold u53 in C1. lra.
Qed.
Lemma close_rnd k x y : 0 <= k -> k <= 1000 -> close k x y -> close (k + 2) x (rnd y).
Proof.
  intros H0 H1 C. pose proof (close_pos k x y H1 C) as P. pose proof (rnd_rel y P) as R. apply Qabs_Qle_condition in R.
  change (2 ^ (-53)) with u53 in R. destruct (close_weak _ 1000 _ _ H1 C) as (_ & _ & C2'). destruct C as (X & C1 & C2).
  assert (Y : y <= 2 * x) by (unfold u53 in C2'; lra). assert (U : 0 < u53) by reflexivity.
  assert (y * u53 <= 2 * x * u53) by (apply Qmult_le_compat_r; lra).
  split; [exact X|]. split; lra.
Qed.
Lemma close_mul_c k x y c : 0 < c -> close k x y -> close k (x * c) (y * c).
Proof.
  intros Hc (X & C1 & C2). split; [nra|]. split.
  - setoid_replace (x * c - k * u53 * (x * c)) with ((x - k * u53 * x) * c) by ring. apply Qmult_le_compat_r; lra.
  - setoid_replace (x * c + k * u53 * (x * c)) with ((x + k * u53 * x) * c) by ring. apply Qmult_le_compat_r; lra.
Qed.
Lemma close_div_c k x y c : 0 < c -> close k x y -> close k (x / c) (y / c).
Proof. intros Hc C. apply (close_mul_c k x y (/ c)); [now apply Qinv_lt_0_compat|exact C]. Qed.
Lemma close_mul j k x y x' y' : 0 <= j -> j <= 1000 -> 0 <= k -> k <= 1000 -> close j x y -> close k x' y' -> close (j + k + 1) (x * x') (y * y').
Proof.
  intros J0 J1 K0 K1 C D. pose proof (close_pos _ _ _ J1 C) as Y. pose proof (close_pos _ _ _ K1 D) as Y'.
  destruct C as (X & C1 & C2), D as (X' & D1 & D2). assert (XX : 0 < x * x') by nra. split; [exact XX|].
  assert (U : 0 < u53) by reflexivity. assert (JK : j * k * u53 <= 1) by (apply Qle_trans with (1000 * 1000 * u53); [apply Qmult_le_compat_r; [nra|lra]|discriminate]).
  assert (UX : 0 < u53 * (x * x')) by nra. assert (U1 : 1000 * u53 <= 1) by discriminate. assert (JU : j * u53 <= 1) by nra. assert (KU : k * u53 <= 1) by nra.
  assert (S1 : j * k * u53 * (u53 * (x * x')) <= 1 * (u53 * (x * x'))) by (apply Qmult_le_compat_r; lra).
  assert (S0 : 0 <= j * k * u53 * (u53 * (x * x'))) by (apply Qmult_le_0_compat; [|lra]; apply Qmult_le_0_compat; [nra|lra]).
  split.
  - apply Qle_trans with ((x - j * u53 * x) * (x' - k * u53 * x')).
    + setoid_replace ((x - j * u53 * x) * (x' - k * u53 * x')) with (x * x' - (j + k) * (u53 * (x * x')) + j * k * u53 * (u53 * (x * x'))) by ring. lra.
    + assert (0 <= x - j * u53 * x) by nra. assert (0 <= x' - k * u53 * x') by nra.
      apply Qle_trans with (y * (x' - k * u53 * x')); [apply Qmult_le_compat_r; lra|]. rewrite (Qmult_comm y), (Qmult_comm y y'). apply Qmult_le_compat_r; lra.
  - apply Qle_trans with ((x + j * u53 * x) * (x' + k * u53 * x')).
    + assert (0 <= x + j * u53 * x) by lra. 
      apply Qle_trans with (y * (x' + k * u53 * x')); [rewrite (Qmult_comm y y'), (Qmult_comm y); apply Qmult_le_compat_r; lra|apply Qmult_le_compat_r; lra].
    + setoid_replace ((x + j * u53 * x) * (x' + k * u53 * x')) with (x * x' + (j + k) * (u53 * (x * x')) + j * k * u53 * (u53 * (x * x'))) by ring. lra.
Qed.
Lemma close_inv k x y : 0 <= k -> k <= 1000 -> close k x y -> close (k + 1) (1 / x) (1 / y).
Proof.
  intros K0 K1 C. pose proof (close_pos _ _ _ K1 C) as Y. destruct (close_weak _ 1000 _ _ K1 C) as (_ & C1' & C2'). destruct C as (X & C1 & C2).
  assert (IX : 0 < 1 / x) by (apply Qlt_shift_div_l; lra). split; [exact IX|]. assert (U : 0 < u53) by reflexivity.
  assert (E : 1 / x * x == 1) by (field; lra).
  assert (KK : k * k * u53 + k * u53 <= 1). { assert (1000 * 1000 * u53 + 1000 * u53 <= 1) by discriminate. assert (k * k <= 1000 * 1000) by nra. nra. }
  set (w := 1 / x) in *. clearbody w.
  split.
  - apply Qle_shift_div_l; [exact Y|].
    assert (F : 0 <= w - (k + 1) * u53 * (w)).
    { assert (1001 * u53 <= 1) by discriminate. assert ((k + 1) * u53 <= 1) by nra. setoid_replace (w - (k + 1) * u53 * (w)) with ((1 - (k + 1) * u53) * (w)) by ring. apply Qmult_le_0_compat; lra. }
    apply Qle_trans with ((w - (k + 1) * u53 * (w)) * (x + k * u53 * x)); [rewrite !(Qmult_comm (w - _)); apply Qmult_le_compat_r; lra|].
    setoid_replace ((w - (k + 1) * u53 * (w)) * (x + k * u53 * x)) with (w * x * (1 - u53 - k * k * u53 * u53 - k * u53 * u53)) by ring. rewrite E.
    assert (0 <= k * k * u53 * u53) by (repeat apply Qmult_le_0_compat; lra). assert (0 <= k * u53 * u53) by (repeat apply Qmult_le_0_compat; lra). lra.
  - apply Qle_shift_div_r; [exact Y|].
    assert (F : 0 <= w + (k + 1) * u53 * (w)) by (assert (0 <= (k + 1) * u53 * (w)) by (repeat apply Qmult_le_0_compat; lra); lra).
    apply Qle_trans with ((w + (k + 1) * u53 * (w)) * (x - k * u53 * x)); [|rewrite !(Qmult_comm (w + _)); apply Qmult_le_compat_r; lra].
    setoid_replace ((w + (k + 1) * u53 * (w)) * (x - k * u53 * x)) with (w * x * (1 + u53 * (1 - (k * k * u53 + k * u53)))) by ring. rewrite E.
    assert (0 <= u53 * (1 - (k * k * u53 + k * u53))) by (apply Qmult_le_0_compat; lra). lra.
Qed.
(** The error of rounding, in terms of a bound of the number. *)
Lemma rnd_abs q b : Qabs q <= b -> Qabs (rnd q - q) <= u53 * b.
Proof.
  intros H. assert (K : forall q, 0 < q -> Qabs (rnd q - q) <= u53 * Qabs q).
  { intros z Z. rewrite (Qabs_pos z) by lra. rewrite Qmult_comm. exact (rnd_rel z Z). }
  assert (R : Qabs (rnd q - q) <= u53 * Qabs q).
  { destruct (Q_dec q 0) as [[L|L]|L].
    - specialize (K (- q) ltac:(lra)). rewrite rnd_opp, Qabs_opp in K. setoid_replace (- rnd q - - q) with (- (rnd q - q)) in K by ring. rewrite Qabs_opp in K. exact K.
    - auto.
    - rewrite L, rnd_0. discriminate. }
  eapply Qle_trans; [exact R|]. rewrite !(Qmult_comm u53). apply Qmult_le_compat_r; [exact H|discriminate].
Qed.

(** Floor division by a positive number, for quotients a float counts exactly. *)
Lemma Qfloor_unique z n : inject_Z n <= z -> z < inject_Z n + 1 -> Qfloor z = n.
Proof.
  intros H1 H2. pose proof (Qfloor_le z) as F1. pose proof (Qlt_floor z) as F2.
  assert ((Qfloor z < n + 1)%Z) by (apply iZ_lt; rewrite inject_Z_plus; change (inject_Z 1) with 1; lra).
  assert ((n < Qfloor z + 1)%Z) by (apply iZ_lt; lra). lia.
Qed.
Lemma ffloordiv_spec x y : 0 < y -> 1 <= x / y -> x / y < 1048576 -> ffloordiv x y == inject_Z (Qfloor (x / y)).
Proof.
  intros Hy H1 H2. unfold ffloordiv. set (n := Qfloor (x / y)).
  assert (N1 : (1 <= n)%Z). { change 1%Z with (Qfloor 1). now apply Qfloor_resp_le. }
  assert (N2 : (n <= 1048576)%Z). { apply iZ_le. eapply Qle_trans; [apply Qfloor_le|]. change (inject_Z 1048576) with 1048576. lra. }
  assert (Nq : 0 < inject_Z n) by (change 0 with (inject_Z 0); apply iZ_lt; lia). assert (Nq2 : inject_Z n <= 1048576) by (change 1048576 with (inject_Z 1048576); apply iZ_le; lia).
  set (d := fdiv (fsub x (x - y * inject_Z n)) y).
  assert (C : close 4 (inject_Z n) d).
  { unfold d, fdiv, fsub. change 4 with (2 + 2). apply close_rnd; [discriminate|discriminate|].
    apply (close_comp 2 (y * inject_Z n / y) _ (rnd (x - (x - y * inject_Z n)) / y) _); [field; lra|reflexivity|]. apply close_div_c; [exact Hy|].
    change 2 with (0 + 2). apply close_rnd; [discriminate|discriminate|]. apply (close_comp 0 (y * inject_Z n) _ (y * inject_Z n)); [reflexivity|ring|]. apply close_refl. nra. }
  clearbody d. destruct C as (_ & C1 & C2). unfold u53 in C1, C2. destruct (Qlt_le_dec d (inject_Z n)) as [L|L].
  - assert (F : Qfloor d = (n - 1)%Z) by (apply Qfloor_unique; unfold Z.sub; rewrite inject_Z_plus; change (inject_Z (- (1))) with (- (1)); lra).
    rewrite F. assert (E : inject_Z (n - 1) == inject_Z n - 1) by (unfold Z.sub; rewrite inject_Z_plus; reflexivity).
    assert (G : Qle_bool (fsub d (inject_Z (n - 1))) (1 # 2) = false).
    { destruct (Qle_bool _ _) eqn:Q; [|reflexivity]. apply Qle_bool_iff in Q. exfalso. unfold fsub in Q.
      assert (M : rnd (3 # 4) <= rnd (d - inject_Z (n - 1))) by (apply rnd_mono; rewrite E; lra).
      assert (V : rnd (3 # 4) == 3 # 4) by reflexivity. lra. }
    rewrite G. cbn [negb]. unfold fadd. rewrite E. setoid_replace (inject_Z n - 1 + 1) with (inject_Z n) by ring. apply rnd_Z. lia.
  - assert (F : Qfloor d = n) by (apply Qfloor_unique; lra). rewrite F.
    assert (G : Qle_bool (fsub d (inject_Z n)) (1 # 2) = true).
    { apply Qle_bool_iff. unfold fsub. assert (M : rnd (d - inject_Z n) <= rnd (1 # 2)) by (apply rnd_mono; lra).
      assert (V : rnd (1 # 2) == 1 # 2) by reflexivity. lra. }
    rewrite G. reflexivity.
Qed.
