(** IIR coefficients: C125. *)
From Coq Require Import Lia Lqa.
From Verif Require Import Stream Bits Iir_model Iir_spec Iir_proofs Float_model Float_proofs Timing_proofs Iircoef_model.
Local Open Scope Q_scope.

(** Sum and dot product of rationals and integers. *)
Fixpoint qsum (l : list Q) : Q := match l with [] => 0 | x :: r => x + qsum r end.

Lemma fmul_exact v s : is_float v -> fmul v (2 ^ s) == v * 2 ^ s.
Proof.
  intros (m & e & H & E). unfold fmul. assert (X : v * 2 ^ s == inject_Z m * 2 ^ (e + s)) by (rewrite E, pow_add; ring).
  rewrite X. now apply rnd_dyadic.
Qed.
Lemma fint_opp x : fint (- x) = (- fint x)%Z.
Proof.
  unfold fint. destruct (Qle_bool 0 (- x)) eqn:A, (Qle_bool 0 x) eqn:B.
  - apply Qle_bool_iff in A, B. assert (Z : x == 0) by lra. rewrite Z. reflexivity.
  - lia.
  - rewrite Qopp_involutive. lia.
  - assert (~ 0 <= - x) by (rewrite <- Qle_bool_iff; congruence). assert (~ 0 <= x) by (rewrite <- Qle_bool_iff; congruence). lra.
Qed.
(** int truncates towards 0. *)
Lemma fint_spec x : Qabs (inject_Z (fint x) - x) < 1 /\ Qabs (inject_Z (fint x)) <= Qabs x.
Proof.
  assert (K : forall x, 0 <= x -> Qabs (inject_Z (fint x) - x) < 1 /\ Qabs (inject_Z (fint x)) <= Qabs x).
  { clear x. intros x H. rewrite fint_pos by exact H. pose proof (Qfloor_le x) as F1. pose proof (Qlt_floor x) as F2. rewrite inject_Z_plus in F2.
    change (inject_Z 1) with 1 in F2. assert (0 <= inject_Z (Qfloor x)). { apply iZ_nonneg. change 0%Z with (Qfloor 0). now apply Qfloor_resp_le. }
    rewrite (Qabs_pos x), (Qabs_pos (inject_Z _)) by assumption. split; [|exact F1].
    rewrite Qabs_neg by lra. lra. }
  destruct (Qlt_le_dec x 0) as [L|L]; [|now apply K].
  destruct (K (- x)) as [K1 K2]; [lra|]. rewrite fint_opp, inject_Z_opp, !Qabs_opp in K2.
  rewrite fint_opp, inject_Z_opp in K1. split; [|exact K2]. rewrite <- Qabs_opp.
  setoid_replace (- (inject_Z (fint x) - x)) with (- inject_Z (fint x) - - x) by ring. exact K1.
Qed.

Lemma coef_max_ge l v : In v l -> Qabs v <= coef_max l.
Proof.
  induction l as [|x l IH]; [easy|]. intros [->|H]; cbn [coef_max fold_right]; fold (coef_max l);
    destruct (Qle_bool _ _) eqn:E.
  - now apply Qle_bool_iff.
  - apply Qle_refl.
  - now apply IH.
  - assert (~ Qabs x <= coef_max l) by (rewrite <- Qle_bool_iff; congruence). specialize (IH H). lra.
Qed.
Lemma coef_max_in l : coef_max l == 0 \/ exists v, In v l /\ Qabs v = coef_max l.
Proof.
  induction l as [|x l IH]; [now left|]. cbn [coef_max fold_right]; fold (coef_max l). destruct (Qle_bool _ _).
  - destruct IH as [IH|(v & H & E)]; [now left|right; exists v; cbn; auto].
  - right. exists x. cbn. auto.
Qed.
Lemma coef_max_0 l : 0 <= coef_max l.
Proof. destruct (coef_max_in l) as [E|(v & _ & <-)]; [lra|apply Qabs_nonneg]. Qed.

Lemma pow_mono a b : (a <= b)%Z -> 2 ^ a <= 2 ^ b.
Proof. intros H. apply Qpower_le_compat_l; [exact H|lra]. Qed.
Lemma pow_succ n : 2 ^ n == 2 * 2 ^ (n - 1).
Proof. replace n with (1 + (n - 1))%Z at 1 by lia. rewrite pow_add. reflexivity. Qed.

(** The greatest coefficient against 2 ^ nbits. *)
Lemma nbits_hi c n : 0 <= c -> c < 2 ^ 32 -> log2_ceil (fadd c 1) n -> c < 2 ^ n.
Proof.
  intros H0 H1 [L1 L2]. unfold fadd in *. pose proof (rnd_rel (c + 1) ltac:(lra)) as R. apply Qabs_Qle_condition in R.
  set (x := rnd (c + 1)) in *.
  assert (N : (n <= 33)%Z).
  { destruct (Z.le_gt_cases n 33) as [L|L]; [exact L|exfalso]. assert (P : 2 ^ 33 <= 2 ^ (n - 1)) by (apply pow_mono; lia).
    change (2 ^ 33) with 8589934592 in P. change (2 ^ 32) with 4294967296 in H1. change (2 ^ (-53)) with (1 # 9007199254740992) in R. lra. }
  destruct (Qlt_le_dec c (2 ^ n)) as [L|L]; [exact L|exfalso].
  assert (P : 2 ^ n <= 2 ^ 33) by (now apply pow_mono). pose proof (pow_pos n) as P0. set (y := 2 ^ n) in *.
  change (2 ^ 33) with 8589934592 in P. change (2 ^ (-40)) with (1 # 1099511627776) in L2. change (2 ^ (-53)) with (1 # 9007199254740992) in R.
  change (2 ^ 32) with 4294967296 in H1. lra.
Qed.
Lemma nbits_lo c n : 1 <= c -> log2_ceil (fadd c 1) n -> 2 ^ (n - 2) < c.
Proof.
  intros H0 [L1 _]. unfold fadd in L1.
  assert (G : 2 ^ (n - 1) < c + 1).
  { destruct (Qlt_le_dec (2 ^ (n - 1)) (c + 1)) as [L|L]; [exact L|exfalso]. apply rnd_mono in L.
    assert (E : rnd (2 ^ (n - 1)) == 2 ^ (n - 1)). { pose proof (rnd_dyadic 1 (n - 1) ltac:(lia)) as R. change (inject_Z 1) with 1 in R. rewrite !Qmult_1_l in R. exact R. }
    lra. }
  pose proof (pow_succ (n - 1)) as S. replace (n - 1 - 1)%Z with (n - 2)%Z in S by lia. rewrite S in G.
  destruct (Z.le_gt_cases 2 n) as [L|L].
  - assert (1 <= 2 ^ (n - 2)) by (change 1 with (2 ^ 0); apply pow_mono; lia). lra.
  - assert (2 ^ (n - 2) <= 2 ^ (-1)) by (apply pow_mono; lia). change (2 ^ (-1)) with (1 # 2) in H. lra.
Qed.

(** The coefficients times [2 ^ shift] lie within a signed number of [width] bits, with
    either sign. *)
Definition fits (width : Z) (l : list Q) (shift : Z) : Prop := Forall (fun v => Qabs v * 2 ^ shift < 2 ^ (width - 1)) l.

Lemma shift_fits width_c b a n : coef_max (b ++ a) < 2 ^ 32 -> iir_nbits b a n -> fits width_c (b ++ a) (iir_shift width_c n).
Proof.
  intros H N. apply (nbits_hi _ _ (coef_max_0 _) H) in N. apply Forall_forall. intros v Hv. apply coef_max_ge in Hv.
  unfold iir_shift. replace (width_c - 1)%Z with (n + (width_c - n - 1))%Z by lia. rewrite pow_add. pose proof (pow_pos (width_c - n - 1)). nra.
Qed.

Lemma fixed_range width_c l shift v : (1 <= width_c)%Z -> fits width_c l shift -> In v l -> is_float v ->
  (- 2 ^ (width_c - 1) < to_fixed shift v < 2 ^ (width_c - 1))%Z.
Proof.
  intros Hw F I V. unfold fits in F. rewrite Forall_forall in F. specialize (F v I). unfold to_fixed. rewrite (fint_comp _ _ (fmul_exact v shift V)).
  destruct (fint_spec (v * 2 ^ shift)) as [_ X]. rewrite Qabs_Qmult, (Qabs_pos (2 ^ shift)) in X by (pose proof (pow_pos shift); lra).
  assert (Y : Qabs (inject_Z (fint (v * 2 ^ shift))) < inject_Z (2 ^ (width_c - 1))) by (rewrite pow_Z by lia; lra).
  apply Qabs_Qlt_condition in Y. destruct Y as [Y1 Y2]. rewrite <- inject_Z_opp in Y1. apply (proj1 (iZ_lt _ _)) in Y1, Y2. lia.
Qed.

Section Regs.
  Context (b a : list Q) (width_c n : Z).
  Context (Hw : (1 <= width_c)%Z) (HF : Forall is_float (b ++ a)) (HM : coef_max (b ++ a) < 2 ^ 32) (HN : iir_nbits b a n).
  Notation s := (iir_shift width_c n).
  Notation b_fp := (map (to_fixed s) b).
  Notation a_fp := (map (to_fixed s) a).
  Lemma fixed_0 : to_fixed s 0 = 0%Z.
  Proof.
    unfold to_fixed, fmul. assert (E : 0 * 2 ^ s == 0) by ring. rewrite (fint_comp (rnd (0 * 2 ^ s)) 0); [reflexivity|]. now rewrite E, rnd_0.
  Qed.
  Lemma nth_fixed l i : nth i (map (to_fixed s) l) 0%Z = to_fixed s (nth i l 0).
  Proof. rewrite <- fixed_0 at 1. apply map_nth. Qed.
  Lemma fixed_err v : is_float v -> Qabs (inject_Z (to_fixed s v) - v * 2 ^ s) < 1 /\ Qabs (inject_Z (to_fixed s v)) <= Qabs (v * 2 ^ s).
  Proof. intros V. unfold to_fixed. rewrite (fint_comp _ _ (fmul_exact v s V)). apply fint_spec. Qed.
  Lemma zero_float : is_float 0.
  Proof. exists 0%Z, 0%Z. split; [lia|]. ring. Qed.
  Lemma nth_float l i : Forall is_float l -> is_float (nth i l 0).
  Proof.
    intros H. destruct (Nat.lt_ge_cases i (length l)) as [L|L]; [|rewrite nth_overflow by exact L; apply zero_float].
    rewrite Forall_forall in H. apply H, nth_In, L.
  Qed.
  Lemma reg_b i : b_reg b_fp width_c (Z.of_nat i) = to_fixed s (nth i b 0).
  Proof.
    unfold b_reg, sh_c. rewrite Nat2Z.id, nth_fixed, wrap_swrap. apply swrap_id; [exact Hw|].
    destruct (Nat.lt_ge_cases i (length b)) as [L|L].
    - pose proof (fixed_range width_c (b ++ a) s (nth i b (0 # 1)) Hw (shift_fits width_c b a n HM HN)) as R.
      apply Forall_app in HF. specialize (R ltac:(apply in_or_app; left; now apply nth_In) (nth_float b i (proj1 HF))). lia.
    - rewrite nth_overflow by exact L. rewrite fixed_0. assert (0 < 2 ^ (width_c - 1))%Z by (apply Z.pow_pos_nonneg; lia). lia.
  Qed.
  Lemma reg_a i : a_reg a_fp width_c (Z.of_nat i) = Z.opp (to_fixed s (nth i a 0)).
  Proof.
    unfold a_reg, sh_c. rewrite Nat2Z.id, nth_fixed, wrap_swrap. apply swrap_id; [exact Hw|].
    destruct (Nat.lt_ge_cases i (length a)) as [L|L].
    - pose proof (fixed_range width_c (b ++ a) s (nth i a (0 # 1)) Hw (shift_fits width_c b a n HM HN)) as R.
      apply Forall_app in HF. specialize (R ltac:(apply in_or_app; right; now apply nth_In) (nth_float a i (proj2 HF))). lia.
    - rewrite nth_overflow by exact L. rewrite fixed_0. assert (0 < 2 ^ (width_c - 1))%Z by (apply Z.pow_pos_nonneg; lia). lia.
  Qed.
End Regs.

(** C125: whatever the coefficients, below 2^32, each coefficient register of the filter
    holds its coefficient (the denominator's negated) times 2 ^ shift_c, cut towards zero:
    less than one unit off and without wrapping. *)
Theorem C125_registers_partial : forall b a width_c nbits i,
  (1 <= width_c)%Z -> Forall is_float (b ++ a) -> coef_max (b ++ a) < 2 ^ 32 -> iir_nbits b a nbits ->
  let s := iir_shift width_c nbits in
  let breg := b_reg (map (to_fixed s) b) width_c (Z.of_nat i) in
  let areg := a_reg (map (to_fixed s) a) width_c (Z.of_nat i) in
  (Qabs (inject_Z breg - nth i b 0 * 2 ^ s) < 1 /\ Qabs (inject_Z breg) <= Qabs (nth i b 0 * 2 ^ s)) /\
  (Qabs (inject_Z areg + nth i a 0 * 2 ^ s) < 1 /\ Qabs (inject_Z areg) <= Qabs (nth i a 0 * 2 ^ s)).
Proof.
  intros b a wc n i Hw HF HM HN s breg areg. unfold breg, areg.
  rewrite (reg_b b a wc n Hw HF HM HN), (reg_a b a wc n Hw HF HM HN). fold s. apply Forall_app in HF. destruct HF as [F1 F2].
  split; [exact (fixed_err wc n _ (nth_float b i F1))|]. destruct (fixed_err wc n _ (nth_float a i F2)) as [X1 X2]. fold s in X1, X2.
  rewrite inject_Z_opp, Qabs_opp. split; [|exact X2]. rewrite <- Qabs_opp.
  setoid_replace (- (- inject_Z (to_fixed s (nth i a 0)) + nth i a 0 * 2 ^ s)) with (inject_Z (to_fixed s (nth i a 0)) - nth i a 0 * 2 ^ s) by ring. exact X1.
Qed.

(** The limit on the coefficients is needed: 2^60 wraps to the most negative value. *)
Theorem C125_registers_refuted : ~ (forall b a width_c nbits i,
  (1 <= width_c)%Z -> Forall is_float (b ++ a) -> iir_nbits b a nbits ->
  let s := iir_shift width_c nbits in
  Qabs (inject_Z (b_reg (map (to_fixed s) b) width_c (Z.of_nat i)) - nth i b 0 * 2 ^ s) < 1).
Proof.
  intros H. specialize (H [2 ^ 60] [1] 36%Z 60%Z 0%nat ltac:(lia)). cbv zeta in H.
  assert (X : Qabs (inject_Z (b_reg (map (to_fixed (iir_shift 36 60)) [2 ^ 60]) 36 (Z.of_nat 0)) - nth 0 [2 ^ 60] 0 * 2 ^ iir_shift 36 60) < 1).
  { apply H.
    - constructor; [exists 1%Z, 60%Z; split; [lia|reflexivity]|]. constructor; [exists 1%Z, 0%Z; split; [lia|reflexivity]|constructor].
    - unfold iir_nbits, log2_ceil. split; vm_compute; [reflexivity|discriminate]. }
  vm_compute in X. discriminate X.
Qed.

(** "Find the best fixed point shift" (iir.py:44): one bit more can be possible... *)
Theorem C125_best_shift_refuted : ~ (forall b a width_c nbits,
  (2 <= width_c)%Z -> Forall is_float (b ++ a) -> 1 <= coef_max (b ++ a) -> coef_max (b ++ a) < 2 ^ 32 -> iir_nbits b a nbits ->
  ~ fits width_c (b ++ a) (iir_shift width_c nbits + 1)).
Proof.
  intros H. apply (H [1 # 2] [1; - (3 # 2)] 36%Z 2%Z ltac:(lia)).
  - constructor; [exists 1%Z, (-1)%Z; split; [lia|reflexivity]|]. constructor; [exists 1%Z, 0%Z; split; [lia|reflexivity]|].
    constructor; [exists (-3)%Z, (-1)%Z; split; [lia|reflexivity]|constructor].
  - vm_compute. discriminate.
  - vm_compute. reflexivity.
  - unfold iir_nbits, log2_ceil. split; vm_compute; [reflexivity|discriminate].
  - constructor; [|constructor; [|constructor; [|constructor]]]; vm_compute; reflexivity.
Qed.
(** ... two never: the shift found fits, and is the best or one less (a filter's leading
    denominator coefficient is 1, so the greatest is at least 1). *)
Theorem C125_best_shift_partial : forall b a width_c nbits,
  Forall is_float (b ++ a) -> 1 <= coef_max (b ++ a) -> coef_max (b ++ a) < 2 ^ 32 -> iir_nbits b a nbits ->
  fits width_c (b ++ a) (iir_shift width_c nbits) /\
  (forall k, (iir_shift width_c nbits + 2 <= k)%Z -> ~ fits width_c (b ++ a) k).
Proof.
  intros b a wc n HF H1 HM HN. split; [now apply shift_fits|]. intros k Hk F.
  apply (nbits_lo _ _ H1) in HN. destruct (coef_max_in (b ++ a)) as [E|(v & I & E)]; [lra|].
  unfold fits in F. rewrite Forall_forall in F. specialize (F v I). rewrite E in F.
  assert (P : 2 ^ (iir_shift wc n + 2) <= 2 ^ k) by now apply pow_mono. unfold iir_shift in P.
  assert (X : 2 ^ (wc - 1) == 2 ^ (n - 2) * 2 ^ (wc - n - 1 + 2)) by (rewrite <- pow_add; replace (n - 2 + (wc - n - 1 + 2))%Z with (wc - 1)%Z by lia; reflexivity).
  rewrite X in F. pose proof (pow_pos (wc - n - 1 + 2)). pose proof (pow_pos (n - 2)). nra.
Qed.

(** ** What the conversion does to the outputs *)
(** The filter's difference equation with its real coefficients, on the stored inputs
    [X] and stored outputs [Y], newest first. *)
Definition ideal (b a : list Q) (X Y : list Z) : Q :=
  qsum (map (fun i => nth i b 0 * inject_Z (nth i X 0%Z)) (seq 0 (length a)))
  - qsum (map (fun i => nth i a 0 * inject_Z (nth (i - 1) Y 0%Z)) (seq 1 (length a - 1))).
(** The sum of the magnitudes of the samples it uses. *)
Definition magnitude (size : nat) (X Y : list Z) : Q :=
  qsum (map (fun i => Qabs (inject_Z (nth i X 0%Z))) (seq 0 size))
  + qsum (map (fun i => Qabs (inject_Z (nth (i - 1) Y 0%Z))) (seq 1 (size - 1))).

Lemma qsum_err (f : nat -> Q) (g h : nat -> Z) (s : Q) l :
  (forall i, In i l -> Qabs (inject_Z (g i) - f i * s) <= 1) ->
  Qabs (inject_Z (zsum (map (fun i => g i * h i)%Z l)) - qsum (map (fun i => f i * inject_Z (h i)) l) * s)
  <= qsum (map (fun i => Qabs (inject_Z (h i))) l).
Proof.
  induction l as [|i l IH]; intros H; cbn [map zsum qsum].
  - setoid_replace (inject_Z 0 - 0 * s) with 0 by (change (inject_Z 0) with 0; ring). cbn. lra.
  - specialize (IH (fun j Hj => H j (or_intror Hj))). specialize (H i (or_introl eq_refl)). rewrite inject_Z_plus, inject_Z_mult.
    set (P := inject_Z (zsum _)) in *. set (R := qsum (map (fun i => f i * _) l)) in *. set (M := qsum (map (fun i => Qabs _) l)) in *.
    setoid_replace (inject_Z (g i) * inject_Z (h i) + P - (f i * inject_Z (h i) + R) * s)
      with ((inject_Z (g i) - f i * s) * inject_Z (h i) + (P - R * s)) by ring.
    eapply Qle_trans; [apply Qabs_triangle|]. rewrite Qabs_Qmult. pose proof (Qabs_nonneg (inject_Z (h i))).
    assert (Qabs (inject_Z (g i) - f i * s) * Qabs (inject_Z (h i)) <= 1 * Qabs (inject_Z (h i))) by (now apply Qmult_le_compat_r). lra.
Qed.

Lemma nbits_0 c n : 0 <= c -> log2_ceil (fadd c 1) n -> (0 <= n)%Z.
Proof.
  intros H [_ L]. unfold fadd in L. assert (R : rnd 1 <= rnd (c + 1)) by (apply rnd_mono; lra). assert (R1 : rnd 1 == 1) by reflexivity. rewrite R1 in R.
  destruct (Z.le_gt_cases 0 n) as [G|G]; [exact G|exfalso].
  assert (P : 2 ^ n <= 2 ^ (-1)) by (apply pow_mono; lia). change (2 ^ (-1)) with (1 # 2) in P. change (2 ^ (-40)) with (1 # 1099511627776) in L.
  lra.
Qed.

Section Acc.
  Context (b a : list Q) (width width_s width_c n : Z).
  Context (Hws : (1 <= width_s)%Z) (Hw : (1 <= width_c)%Z) (HF : Forall is_float (b ++ a)) (HM : coef_max (b ++ a) < 2 ^ 32) (HN : iir_nbits b a n).
  Notation s := (iir_shift width_c n).
  Context (Hs : (0 <= s)%Z).
  Notation b_fp := (map (to_fixed s) b).
  Notation a_fp := (map (to_fixed s) a).

  Lemma acc_err (X Y : list Z) :
    let A := (zsum (map (fun i => nth i b_fp 0 * nth i X 0)%Z (seq 0 (length a_fp)))
              - zsum (map (fun i => nth i a_fp 0 * nth (i - 1) Y 0)%Z (seq 1 (length a_fp - 1))))%Z in
    Qabs (inject_Z A - ideal b a X Y * 2 ^ s) <= magnitude (length a) X Y.
  Proof.
    intros A. unfold A. rewrite !map_length. unfold ideal, magnitude.
    assert (G : forall l i, Forall is_float l -> Qabs (inject_Z (nth i (map (to_fixed s) l) 0%Z) - nth i l 0 * 2 ^ s) <= 1).
    { intros l i Hl. rewrite nth_fixed. destruct (fixed_err width_c n _ (nth_float l i Hl)) as [E _]. lra. }
    apply Forall_app in HF. destruct HF as [F1 F2].
    pose proof (qsum_err (fun i => nth i b 0) (fun i => nth i b_fp 0%Z) (fun i => nth i X 0%Z) (2 ^ s) (seq 0 (length a)) (fun i _ => G b i F1)) as E1.
    pose proof (qsum_err (fun i => nth i a 0) (fun i => nth i a_fp 0%Z) (fun i => nth (i - 1) Y 0%Z) (2 ^ s) (seq 1 (length a - 1)) (fun i _ => G a i F2)) as E2.
    cbv beta in E1, E2. unfold Zminus. rewrite inject_Z_plus, inject_Z_opp.
    set (P1 := inject_Z (zsum _)) in *. set (P2 := inject_Z (zsum (map _ (seq 1 _)))) in *.
    set (R1 := qsum (map (fun i => nth i b 0 * _) _)) in *. set (R2 := qsum (map (fun i => nth i a 0 * _) _)) in *.
    setoid_replace (P1 + - P2 - (R1 - R2) * 2 ^ s) with ((P1 - R1 * 2 ^ s) + - (P2 - R2 * 2 ^ s)) by ring.
    eapply Qle_trans; [apply Qabs_triangle|]. rewrite Qabs_opp. lra.
  Qed.

  Lemma cut_err (A : Z) (R B : Q) k w : (0 <= k)%Z -> (1 <= w)%Z -> (w + k = width_s)%Z -> 0 <= B ->
    Qabs (inject_Z A - R * 2 ^ s) <= B ->
    Qabs R + B / 2 ^ s + 2 ^ k <= 2 ^ (width_s - 1) ->
    Qabs (inject_Z (swrap w (Z.shiftr (swrap (width_s + width_c) A) (s + k))) * 2 ^ k - R) < 2 ^ k + B / 2 ^ s.
  Proof.
    intros Hk Hwd Hwk HB HA HR. pose proof (pow_pos s) as PS. pose proof (pow_pos k) as PK.
    assert (N0 : (0 <= n)%Z) by (apply (nbits_0 _ _ (coef_max_0 (b ++ a)) HN)).
    set (E := B / 2 ^ s) in *. assert (EB : B == E * 2 ^ s) by (unfold E; field; lra).
    assert (E0 : 0 <= E) by (unfold E; apply Qle_shift_div_l; lra).
    (* bounds of A / 2^s *)
    assert (BA : - (Qabs R + E) * 2 ^ s <= inject_Z A /\ inject_Z A <= (Qabs R + E) * 2 ^ s).
    { rewrite EB in HA. apply Qabs_Qle_condition in HA. pose proof (Qle_Qabs R) as R1. pose proof (Qle_Qabs (- R)) as R2. rewrite Qabs_opp in R2.
      assert (X1 : R * 2 ^ s <= Qabs R * 2 ^ s) by (apply Qmult_le_compat_r; lra).
      assert (X2 : - R * 2 ^ s <= Qabs R * 2 ^ s) by (apply Qmult_le_compat_r; lra). lra. }
    assert (PW : 2 ^ (width_s - 1) == 2 ^ (w - 1) * 2 ^ k) by (rewrite <- pow_add; replace (w - 1 + k)%Z with (width_s - 1)%Z by lia; reflexivity).
    assert (BD : Qabs R + E <= (2 ^ (w - 1) - 1) * 2 ^ k) by lra.
    assert (PA : 2 ^ (w - 1) * 2 ^ k * 2 ^ s <= 2 ^ (width_s + width_c - 1)).
    { rewrite <- PW, <- pow_add. apply pow_mono. unfold iir_shift. lia. }
    assert (NW : swrap (width_s + width_c) A = A).
    { apply swrap_id; [lia|]. assert (Y : (- 2 ^ (width_s + width_c - 1) <= A)%Z /\ (A < 2 ^ (width_s + width_c - 1))%Z); [|lia].
      assert (Z1 : (Qabs R + E) * 2 ^ s <= (2 ^ (w - 1) - 1) * 2 ^ k * 2 ^ s) by (apply Qmult_le_compat_r; lra).
      assert (Z2 : 0 < 2 ^ k * 2 ^ s) by (apply Qmult_lt_0_compat; assumption).
      split.
      - apply iZ_le. rewrite inject_Z_opp, pow_Z by lia. lra.
      - apply iZ_lt. rewrite pow_Z by lia. lra. }
    rewrite NW, Z.shiftr_div_pow2 by lia. set (y := (A / 2 ^ (s + k))%Z).
    assert (Y : inject_Z y * (2 ^ s * 2 ^ k) <= inject_Z A /\ inject_Z A < (inject_Z y + 1) * (2 ^ s * 2 ^ k)).
    { assert (0 < 2 ^ (s + k))%Z by (apply Z.pow_pos_nonneg; lia). pose proof (Z.div_mod A (2 ^ (s + k)) ltac:(lia)) as D. fold y in D.
      pose proof (Z.mod_pos_bound A (2 ^ (s + k)) ltac:(lia)) as M.
      rewrite <- pow_add, <- pow_Z by lia. change 1 with (inject_Z 1). rewrite <- inject_Z_plus, <- !inject_Z_mult. split; [apply iZ_le|apply iZ_lt]; nia. }
    destruct Y as [Y1 Y2]. destruct BA as [B1 B2].
    assert (Q1 : inject_Z y * 2 ^ k <= inject_Z A / 2 ^ s) by (apply Qle_shift_div_l; [lra|]; lra).
    assert (Q2 : inject_Z A / 2 ^ s < (inject_Z y + 1) * 2 ^ k) by (apply Qlt_shift_div_r; [lra|]; lra).
    assert (Q3 : - (Qabs R + E) <= inject_Z A / 2 ^ s) by (apply Qle_shift_div_l; [lra|]; lra).
    assert (Q4 : inject_Z A / 2 ^ s <= Qabs R + E) by (apply Qle_shift_div_r; [lra|]; lra).
    assert (Q5 : R - E <= inject_Z A / 2 ^ s /\ inject_Z A / 2 ^ s <= R + E).
    { rewrite EB in HA. apply Qabs_Qle_condition in HA. split; [apply Qle_shift_div_l; lra|apply Qle_shift_div_r; lra]. }
    set (z := inject_Z A / 2 ^ s) in *. clearbody z.
    assert (RG : (- 2 ^ (w - 1) <= y < 2 ^ (w - 1))%Z).
    { split.
      - destruct (Z.le_gt_cases (- 2 ^ (w - 1)) y) as [G|G]; [exact G|exfalso].
        assert (G' : inject_Z y + 1 <= - 2 ^ (w - 1)). { rewrite <- pow_Z by lia. change 1 with (inject_Z 1). rewrite <- inject_Z_plus, <- inject_Z_opp. apply iZ_le. lia. }
        assert ((inject_Z y + 1) * 2 ^ k <= - 2 ^ (w - 1) * 2 ^ k) by (apply Qmult_le_compat_r; lra). lra.
      - destruct (Z.le_gt_cases (2 ^ (w - 1)) y) as [G|G]; [exfalso|exact G].
        assert (G' : 2 ^ (w - 1) <= inject_Z y). { rewrite <- pow_Z by lia. now apply iZ_le. }
        assert (2 ^ (w - 1) * 2 ^ k <= inject_Z y * 2 ^ k) by (apply Qmult_le_compat_r; lra). lra. }
    rewrite swrap_id by assumption. apply Qabs_Qlt_condition. split; lra.
  Qed.
End Acc.

(** C125: one step of the filter against its real difference equation.  [accs] are the
    accumulators of C35, for samples newest first; the stored output is [y_of], the
    delivered one the upper [width] bits.  Unless the result is too large for the output,
    the stored output is less than one unit off plus one unit of the coefficients for each
    sample used, and the delivered one less than one unit of its own plus the same. *)
Theorem C125_accuracy : forall b a width width_s width_c nbits x xs,
  (1 <= width <= width_s)%Z -> (1 <= width_c)%Z ->
  Forall is_float (b ++ a) -> coef_max (b ++ a) < 2 ^ 32 -> iir_nbits b a nbits ->
  let s := iir_shift width_c nbits in (0 <= s)%Z ->
  let acc := accs (map (to_fixed s) b) (map (to_fixed s) a) width width_s width_c s in
  let Y := map (y_of width_s s) (acc xs) in
  let X := map (fun v => v * 2 ^ (width_s - width))%Z (x :: xs) in
  let R := ideal b a X Y in let E := magnitude (length a) X Y / 2 ^ s in
  let new := hd 0%Z (acc (x :: xs)) in
  let stored := y_of width_s s new in
  let delivered := swrap width (Z.shiftr new (s + (width_s - width))) in
  (Qabs R + E + 1 <= 2 ^ (width_s - 1) -> Qabs (inject_Z stored - R) < 1 + E) /\
  (Qabs R + E + 2 ^ (width_s - width) <= 2 ^ (width_s - 1) ->
   Qabs (inject_Z delivered * 2 ^ (width_s - width) - R) < 2 ^ (width_s - width) + E).
Proof.
  intros b a width ws wc n x xs Hw Hc HF HM HN s Hs acc Y X R E new stored delivered.
  set (A := (zsum (map (fun i => nth i (map (to_fixed s) b) 0 * nth i X 0)%Z (seq 0 (length (map (to_fixed s) a))))
              - zsum (map (fun i => nth i (map (to_fixed s) a) 0 * nth (i - 1) Y 0)%Z (seq 1 (length (map (to_fixed s) a) - 1))))%Z).
  assert (NE : new = swrap (ws + wc) A).
  { unfold new, acc. cbn [accs hd]. f_equal. unfold A. f_equal. f_equal. apply map_ext. intros i. f_equal. unfold X.
    change (0)%Z with ((fun v => v * 2 ^ (ws - width))%Z 0%Z) at 2. now rewrite map_nth. }
  pose proof (acc_err b a wc n HF X Y) as AE. cbv zeta in AE. fold s A R in AE.
  assert (M0 : 0 <= magnitude (length a) X Y) by (eapply Qle_trans; [apply Qabs_nonneg|exact AE]).
  split; intros H.
  - unfold stored, y_of. rewrite NE. replace s with (s + 0)%Z at 1 by lia.
    pose proof (cut_err b a ws wc n ltac:(lia) HN Hs A R _ 0 ws ltac:(lia) ltac:(lia) ltac:(lia) M0 AE) as C. change (2 ^ 0) with 1 in C.
    rewrite Qmult_1_r in C. apply C, H.
  - unfold delivered. rewrite NE.
    exact (cut_err b a ws wc n ltac:(lia) HN Hs A R _ (ws - width) width ltac:(lia) ltac:(lia) ltac:(lia) M0 AE H).
Qed.

(** A first-order low pass: b = [1/4, 1/4], a = [1, -1/2], 36-bit coefficients. *)
Example C125_nonvacuous :
  let b := [1 # 4; 1 # 4] in let a := [1; - (1 # 2)] in
  Forall is_float (b ++ a) /\ coef_max (b ++ a) < 2 ^ 32 /\ 1 <= coef_max (b ++ a) /\ iir_nbits b a 1 /\
  iir_shift 36 1 = 34%Z /\ map (to_fixed 34) b = [2 ^ 32; 2 ^ 32]%Z /\ map (to_fixed 34) a = [2 ^ 34; - 2 ^ 33]%Z /\
  (let acc := accs (map (to_fixed 34) b) (map (to_fixed 34) a) 16 25 36 34 in
   let Y := map (y_of 25 34) (acc [300; 100]%Z) in
   let X := map (fun v => v * 2 ^ (25 - 16))%Z [-7; 300; 100]%Z in
   Qabs (ideal b a X Y) + magnitude 2 X Y / 2 ^ 34 + 2 ^ (25 - 16) <= 2 ^ (25 - 1)).
Proof.
  cbv zeta. split.
  - constructor; [exists 1%Z, (-2)%Z; split; [lia|reflexivity]|]. constructor; [exists 1%Z, (-2)%Z; split; [lia|reflexivity]|].
    constructor; [exists 1%Z, 0%Z; split; [lia|reflexivity]|]. constructor; [exists (-1)%Z, (-1)%Z; split; [lia|reflexivity]|constructor].
  - split; [vm_compute; reflexivity|]. split; [vm_compute; discriminate|]. split; [unfold iir_nbits, log2_ceil; split; vm_compute; [reflexivity|discriminate]|].
    split; [reflexivity|]. split; [vm_compute; reflexivity|]. split; [vm_compute; reflexivity|]. vm_compute. discriminate.
Qed.

Print Assumptions C125_registers_partial.
Print Assumptions C125_registers_refuted.
Print Assumptions C125_best_shift_refuted.
Print Assumptions C125_best_shift_partial.
Print Assumptions C125_accuracy.
