(** PLL parameters: C66, C67, C68, C69, C97, C98, C99. *)
From Coq Require Import Lqa.
From Verif Require Import Pll_model Float_proofs.

(** ** Specification: legal settings, errors compared lexicographically. *)
Fixpoint lex_le (a b : list Q) : Prop :=
  match a, b with
  | x :: a', y :: b' => x < y \/ (x == y /\ lex_le a' b')
  | _, _ => True
  end.
Definition z_in (lo x hi : Z) : Prop := (lo <= x <= hi)%Z.
Definition q_in (lo x hi : Q) : Prop := lo <= x /\ x <= hi.

(** ** Tools *)
Lemma between_spec lo x hi : between lo x hi = true <-> q_in lo x hi.
Proof. unfold between, q_in. rewrite andb_true_iff, !Qle_bool_iff. tauto. Qed.
Lemma Qlt_bool_spec a b : Qlt_bool a b = true <-> a < b.
Proof.
  unfold Qlt_bool. rewrite negb_true_iff. split.
  - intros H. apply Qnot_le_lt. intros X. apply Qle_bool_iff in X. congruence.
  - intros H. destruct (Qle_bool b a) eqn:E; [|reflexivity]. apply Qle_bool_iff in E. lra.
Qed.
Lemma lex_le_refl a : lex_le a a.
Proof. induction a as [|x a IH]; cbn; [auto|]. right. split; [reflexivity|exact IH]. Qed.
Lemma lex_le_trans a b c : length a = length b -> lex_le a b -> lex_le b c -> lex_le a c.
Proof.
  revert b c. induction a as [|x a IH]; intros [|y b] [|z c] L; cbn in *; auto; try discriminate.
  intros [H1|[H1 H2]] [H3|[H3 H4]]; [left; lra|left; lra|left; lra|right]. split; [lra|]. apply (IH b c); auto.
Qed.
Lemma lex_lt_le a b : length a = length b -> if lex_lt a b then lex_le a b else lex_le b a.
Proof.
  revert b. induction a as [|x a IH]; intros [|y b] L; cbn in *; auto; try discriminate.
  destruct (Qlt_bool x y) eqn:E1; cbn [orb].
  - apply Qlt_bool_spec in E1. auto.
  - assert (N : ~ x < y) by (rewrite <- Qlt_bool_spec; congruence). destruct (Qeq_bool x y) eqn:E2; cbn [andb].
    + apply Qeq_bool_iff in E2. specialize (IH b ltac:(congruence)). destruct (lex_lt a b); right; split; auto; lra.
    + left. apply Qeq_bool_neq in E2. apply Qnot_lt_le in N. apply Qle_lteq in N. destruct N as [N|N]; [exact N|]. symmetry in N. contradiction.
Qed.
Lemma min_key_spec {A} (key : A -> list Q) n l : (forall x, length (key x) = n) ->
  match min_key key l with
  | None => l = []
  | Some x => In x l /\ forall y, In y l -> lex_le (key x) (key y)
  end.
Proof.
  intros L. destruct l as [|a l]; [reflexivity|]. cbn [min_key].
  assert (G : forall l best seen, In best seen -> (forall y, In y seen -> lex_le (key best) (key y)) ->
    let r := fold_left (fun best y => if lex_lt (key y) (key best) then y else best) l best in
    In r (seen ++ l) /\ forall y, In y (seen ++ l) -> lex_le (key r) (key y)).
  { clear a l. induction l as [|x l IH]; intros best seen H1 H2; cbn [fold_left].
    - rewrite app_nil_r. auto.
    - replace (seen ++ x :: l) with ((seen ++ [x]) ++ l) by (rewrite <- app_assoc; reflexivity).
      pose proof (lex_lt_le (key x) (key best) ltac:(now rewrite !L)) as C. apply IH.
      + apply in_app_iff. destruct (lex_lt _ _); [right; now left|auto].
      + intros y Y. apply in_app_iff in Y. destruct (lex_lt (key x) (key best)).
        * destruct Y as [Y|[<-|[]]]; [|apply lex_le_refl]. apply (lex_le_trans _ (key best)); auto. now rewrite !L.
        * destruct Y as [Y|[<-|[]]]; auto. }
  apply (G l a [a]); [now left|]. intros y [<-|[]]. apply lex_le_refl.
Qed.
Lemma irange_In a n k : In k (irange a n) <-> (a <= k < a + n)%Z.
Proof.
  unfold irange. rewrite in_map_iff. split.
  - intros (x & <- & H). apply in_seq in H. lia.
  - intros H. exists (Z.to_nat (k - a)). split; [lia|]. apply in_seq. lia.
Qed.
Lemma if_nil_In {A} (b : bool) (x : A) l : In x (if b then l else []) <-> b = true /\ In x l.
Proof. destruct b; cbn; intuition congruence. Qed.

(** ** Spacing of fractions *)
Lemma inject_Z_le_iff a b : inject_Z a <= inject_Z b <-> (a <= b)%Z.
Proof. rewrite (Zle_Qle a b). reflexivity. Qed.
Lemma iZ_pos n : (0 < n)%Z -> 0 < inject_Z n.
Proof. intros H. change 0 with (inject_Z 0). now apply iZ_lt. Qed.
Lemma frac_gap a b c d : (0 < b)%Z -> (0 < d)%Z -> ~ inject_Z a / inject_Z b <= inject_Z c / inject_Z d ->
  inject_Z c / inject_Z d + / inject_Z (b * d) <= inject_Z a / inject_Z b.
Proof.
  intros B D H. apply Qnot_le_lt in H. pose proof (iZ_pos b B) as B'. pose proof (iZ_pos d D) as D'.
  assert (N : (c * b < a * d)%Z).
  { apply iZ_lt. rewrite !inject_Z_mult. 
    setoid_replace (inject_Z c * inject_Z b) with (inject_Z c / inject_Z d * (inject_Z b * inject_Z d)) by (field; lra).
    setoid_replace (inject_Z a * inject_Z d) with (inject_Z a / inject_Z b * (inject_Z b * inject_Z d)) by (field; lra).
    apply Qmult_lt_compat_r; [nra|exact H]. }
  assert (N' : (c * b + 1 <= a * d)%Z) by lia. apply iZ_le in N'. rewrite inject_Z_plus, !inject_Z_mult in N'. change (inject_Z 1) with 1 in N'.
  rewrite inject_Z_mult. setoid_replace (inject_Z c / inject_Z d + / (inject_Z b * inject_Z d)) with ((inject_Z c * inject_Z b + 1) / (inject_Z b * inject_Z d)) by (field; lra).
  setoid_replace (inject_Z a / inject_Z b) with (inject_Z a * inject_Z d / (inject_Z b * inject_Z d)) by (field; lra).
  apply Qmult_le_compat_r; [exact N'|]. apply Qlt_le_weak, Qinv_lt_0_compat. nra.
Qed.
(** A fraction with a small denominator that is almost at most another one is at most it. *)
Lemma frac_le a b c d m : (0 < b)%Z -> (0 < d)%Z -> (b * d <= m)%Z -> inject_Z a / inject_Z b < inject_Z c / inject_Z d + / inject_Z m ->
  inject_Z a / inject_Z b <= inject_Z c / inject_Z d.
Proof.
  intros B D M H. destruct (Qlt_le_dec (inject_Z c / inject_Z d) (inject_Z a / inject_Z b)) as [L|L]; [exfalso|exact L].
  assert (G := frac_gap a b c d B D ltac:(lra)). assert (I : / inject_Z m <= / inject_Z (b * d)).
  { pose proof (iZ_pos (b * d) ltac:(nia)) as P. apply iZ_le in M. apply Qle_shift_inv_r; [lra|]. setoid_replace (/ inject_Z (b * d) * inject_Z m) with (inject_Z m / inject_Z (b * d)) by (field; lra). apply Qle_shift_div_l; lra. }
  lra.
Qed.

(** ** C66 *)
(** The frequencies really obtained, exactly. *)
Definition ecp5_pfd (i_freq : Z) (v : ecp5_set) : Q := inject_Z i_freq / inject_Z (e_i_div v).
Definition ecp5_out (i_freq : Z) (v : ecp5_set) : Q := ecp5_pfd i_freq v * inject_Z (e_fb_div v).
Definition ecp5_vco (i_freq : Z) (v : ecp5_set) : Q := ecp5_out i_freq v * inject_Z (e_op_div v).
Definition ecp5_legal (i_freq : Z) (v : ecp5_set) : Prop :=
  z_in 1 (e_i_div v) 128 /\ z_in 1 (e_fb_div v) 80 /\ z_in 1 (e_op_div v) 128 /\
  q_in 3125000 (ecp5_pfd i_freq v) 400000000 /\ q_in 400000000 (ecp5_vco i_freq v) 800000000 /\ q_in 10000000 (ecp5_out i_freq v) 400000000.
Definition ecp5_out_error (i_freq o_freq : Z) (v : ecp5_set) : Q := Qabs (ecp5_out i_freq v - inject_Z o_freq).
Definition ecp5_vco_dist (i_freq : Z) (v : ecp5_set) : Q := Qabs (ecp5_vco i_freq v - 600000000).
Definition ecp5_pfd_dist (i_freq : Z) (v : ecp5_set) : Q := Qabs (ecp5_pfd i_freq v - 200000000).

Definition e_range (v : ecp5_set) : Prop := z_in 1 (e_i_div v) 128 /\ z_in 1 (e_fb_div v) 80 /\ z_in 1 (e_op_div v) 128.
Lemma e_variants_In i v : In v (e_variants i) <->
  e_range v /\ q_in 3125000 (e_pfd i v) 400000000 /\ q_in 400000000 (e_vco i v) 800000000 /\ q_in 10000000 (e_op i v) 400000000.
Proof.
  unfold e_variants, e_range, z_in. rewrite in_flat_map. split.
  - intros (a & Ha & H). apply if_nil_In in H. destruct H as [H1 H]. apply in_flat_map in H. destruct H as (b & Hb & H).
    apply in_flat_map in H. destruct H as (c & Hc & H). apply if_nil_In in H. destruct H as [H2 H]. apply if_nil_In in H. destruct H as [H3 [<-|[]]].
    apply irange_In in Ha, Hb, Hc. apply between_spec in H1, H2, H3. cbn [e_i_div e_fb_div e_op_div] in *.
    split; [lia|]. split; [assumption|]. split; assumption.
  - intros ((H1 & H2 & H3) & H4 & H5 & H6). exists (e_i_div v). rewrite irange_In. split; [lia|]. apply if_nil_In. rewrite between_spec. split; [exact H4|].
    apply in_flat_map. exists (e_fb_div v). rewrite irange_In. split; [lia|]. apply in_flat_map. exists (e_op_div v). rewrite irange_In. split; [lia|].
    destruct v as [a b c]. cbn [e_i_div e_fb_div e_op_div] in *. rewrite !if_nil_In, !between_spec. split; [exact H5|]. split; [exact H6|]. now left.
Qed.
(** The computed frequencies are the exact ones up to 8 roundings. *)
Lemma e_close i v : (0 < i)%Z -> e_range v ->
  close 2 (ecp5_pfd i v) (e_pfd i v) /\ close 6 (ecp5_vco i v) (e_vco i v) /\ close 8 (ecp5_out i v) (e_op i v).
Proof.
  intros Hi (R1 & R2 & R3). unfold z_in in *.
  pose proof (iZ_pos i Hi) as I. pose proof (iZ_pos (e_i_div v) ltac:(lia)) as D. pose proof (iZ_pos (e_fb_div v) ltac:(lia)) as F. pose proof (iZ_pos (e_op_div v) ltac:(lia)) as O.
  assert (C1 : close 2 (ecp5_pfd i v) (e_pfd i v)).
  { apply (close_rnd 0); [discriminate|discriminate|]. apply close_refl. unfold ecp5_pfd. apply Qlt_shift_div_l; lra. }
  assert (C2 : close 6 (ecp5_vco i v) (e_vco i v)).
  { apply (close_rnd 4); [discriminate|discriminate|]. apply close_mul_c; [exact O|]. apply (close_rnd 2); [discriminate|discriminate|]. apply close_mul_c; [exact F|exact C1]. }
  split; [exact C1|]. split; [exact C2|]. apply (close_rnd 6); [discriminate|discriminate|].
  apply (close_comp 6 (ecp5_vco i v / inject_Z (e_op_div v)) _ (e_vco i v / inject_Z (e_op_div v))); [|reflexivity|now apply close_div_c].
  unfold ecp5_vco. field. lra.
Qed.
(** Nothing is rounded when the input divider divides the input frequency. *)
Lemma e_exact i v : (0 < i)%Z -> e_range v -> (e_i_div v | i)%Z -> ecp5_vco i v <= 800000000 -> 
  e_pfd i v == ecp5_pfd i v /\ e_vco i v == ecp5_vco i v /\ e_op i v == ecp5_out i v.
Proof.
  intros Hi (R1 & R2 & R3) [p Ep] V. unfold z_in in *. assert (P : (0 < p)%Z) by nia.
  pose proof (iZ_pos (e_i_div v) ltac:(lia)) as D. pose proof (iZ_pos (e_fb_div v) ltac:(lia)) as F. pose proof (iZ_pos (e_op_div v) ltac:(lia)) as O.
  assert (E1 : ecp5_pfd i v == inject_Z p) by (unfold ecp5_pfd; rewrite Ep, inject_Z_mult; field; lra).
  assert (E2 : ecp5_out i v == inject_Z (p * e_fb_div v)) by (unfold ecp5_out; rewrite E1, inject_Z_mult; reflexivity).
  assert (E3 : ecp5_vco i v == inject_Z (p * e_fb_div v * e_op_div v)) by (unfold ecp5_vco; rewrite E2, <- inject_Z_mult; reflexivity).
  assert (B : (p * e_fb_div v * e_op_div v <= 800000000)%Z) by (apply iZ_le; rewrite <- E3; exact V).
  assert (B2 : (p * e_fb_div v <= p * e_fb_div v * e_op_div v)%Z) by nia. assert (B1 : (p <= p * e_fb_div v)%Z) by nia.
  assert (G1 : e_pfd i v == inject_Z p) by (unfold e_pfd, fdiv; fold (ecp5_pfd i v); rewrite E1; apply rnd_Z; lia).
  assert (G2 : e_vco i v == inject_Z (p * e_fb_div v * e_op_div v)).
  { unfold e_vco, fmul. rewrite G1, <- inject_Z_mult, (rnd_Z (p * e_fb_div v)) by nia. rewrite <- inject_Z_mult. apply rnd_Z. nia. }
  rewrite E1, E2, E3, G1, G2. split; [reflexivity|]. split; [reflexivity|].
  unfold e_op, fdiv. rewrite G2. setoid_replace (inject_Z (p * e_fb_div v * e_op_div v) / inject_Z (e_op_div v)) with (inject_Z (p * e_fb_div v)) by (rewrite (inject_Z_mult (p * e_fb_div v)); field; lra).
  apply rnd_Z. nia.
Qed.
(** The exact frequencies as fractions. *)
Lemma e_fracs i v : e_range v ->
  ecp5_out i v == inject_Z (i * e_fb_div v) / inject_Z (e_i_div v) /\ ecp5_vco i v == inject_Z (i * e_fb_div v * e_op_div v) / inject_Z (e_i_div v).
Proof.
  intros (R1 & R2 & R3). unfold z_in in *. pose proof (iZ_pos (e_i_div v) ltac:(lia)). unfold ecp5_vco, ecp5_out, ecp5_pfd. rewrite !inject_Z_mult. split; field; lra.
Qed.
Lemma z_over_1 n : inject_Z n == inject_Z n / inject_Z 1.
Proof. change (inject_Z 1) with 1. field. Qed.
(** A fraction with denominator at most 128 compared with a whole number. *)
Lemma frac_at_most x a b h : (1 <= b <= 128)%Z -> x == inject_Z a / inject_Z b -> x < inject_Z h + (1 # 128) -> x <= inject_Z h.
Proof.
  intros B E H. rewrite E in *. rewrite (z_over_1 h) in *. apply (frac_le a b h 1 128); [lia|lia|lia|exact H].
Qed.
Lemma frac_at_least x a b l : (1 <= b <= 128)%Z -> x == inject_Z a / inject_Z b -> inject_Z l < x + (1 # 128) -> inject_Z l <= x.
Proof.
  intros B E H. rewrite E in *. rewrite (z_over_1 l) in *. apply (frac_le l 1 a b 128); [lia|lia|lia|exact H].
Qed.
(** What the code takes for legal is legal. *)
Lemma e_variants_legal i v : z_in 8000000 i 400000000 -> In v (e_variants i) -> ecp5_legal i v.
Proof.
  intros Hi H. apply e_variants_In in H. destruct H as (R & [P1 P2] & [V1 V2] & [O1 O2]). unfold z_in in Hi.
  destruct (e_close i v ltac:(lia) R) as ((_ & C1 & C2) & (_ & C3 & C4) & (_ & C5 & C6)). destruct (e_fracs i v R) as [F1 F2].
  unfold u53 in *. pose proof R as (R1 & R2 & R3). unfold z_in in R1. split; [apply R|]. split; [apply R|]. split; [apply R|]. unfold q_in. repeat split.
  - apply (frac_at_least (ecp5_pfd i v) i (e_i_div v) 3125000 R1 (Qeq_refl _)). change (inject_Z 3125000) with 3125000. lra.
  - apply (frac_at_most (ecp5_pfd i v) i (e_i_div v) 400000000 R1 (Qeq_refl _)). change (inject_Z 400000000) with 400000000. lra.
  - apply (frac_at_least _ _ _ 400000000 R1 F2). change (inject_Z 400000000) with 400000000. lra.
  - apply (frac_at_most _ _ _ 800000000 R1 F2). change (inject_Z 800000000) with 800000000. lra.
  - apply (frac_at_least _ _ _ 10000000 R1 F1). change (inject_Z 10000000) with 10000000. lra.
  - apply (frac_at_most _ _ _ 400000000 R1 F1). change (inject_Z 400000000) with 400000000. lra.
Qed.
Lemma legal_range i v : ecp5_legal i v -> e_range v.
Proof. intros (A & B & C & _). repeat split; apply A || apply B || apply C. Qed.
Lemma pfd_kept i v : ecp5_legal i v -> q_in 3125000 (e_pfd i v) 400000000.
Proof.
  intros (_ & _ & _ & [P1 P2] & _). unfold e_pfd, fdiv. fold (ecp5_pfd i v). split.
  - assert (E : rnd 3125000 == 3125000) by reflexivity. rewrite <- E. now apply rnd_mono.
  - assert (E : rnd 400000000 == 400000000) by reflexivity. rewrite <- E. now apply rnd_mono.
Qed.
(** Legal settings are found unless they touch a limit with a fractional frequency. *)
Lemma legal_exact_In i v : (0 < i)%Z -> ecp5_legal i v -> (e_i_div v | i)%Z -> In v (e_variants i).
Proof.
  intros Hi L D. pose proof (legal_range i v L) as R. destruct L as (_ & _ & _ & P & V & O).
  destruct (e_exact i v Hi R D (proj2 V)) as (E1 & E2 & E3). apply e_variants_In. unfold q_in in *. rewrite E1, E2, E3. auto.
Qed.
Lemma legal_inside_In i v : (0 < i)%Z -> ecp5_legal i v -> 
  400000000 + (1 # 128) <= ecp5_vco i v -> ecp5_vco i v <= 800000000 - (1 # 128) -> 10000000 + (1 # 128) <= ecp5_out i v -> ecp5_out i v <= 400000000 - (1 # 128) ->
  In v (e_variants i).
Proof.
  intros Hi L V1 V2 O1 O2. pose proof (legal_range i v L) as R. apply e_variants_In. split; [exact R|]. split; [now apply pfd_kept|].
  destruct (e_close i v Hi R) as ((_ & C1 & C2) & (_ & C3 & C4) & (_ & C5 & C6)). unfold u53 in *. unfold q_in. repeat split; lra.
Qed.
(** Whole output frequencies can be had with a whole PFD frequency. *)
Lemma legal_whole i v n : (0 < i)%Z -> ecp5_legal i v -> ecp5_out i v == inject_Z n ->
  exists w, ecp5_legal i w /\ (e_i_div w | i)%Z /\ ecp5_out i w == ecp5_out i v /\ ecp5_vco i w == ecp5_vco i v.
Proof.
  intros Hi L E. pose proof (legal_range i v L) as R. destruct R as (R1 & R2 & R3). unfold z_in in *. set (d := e_i_div v) in *. set (b := e_fb_div v) in *.
  pose proof (Z.gcd_divide_l i d) as [p Ep]. pose proof (Z.gcd_divide_r i d) as [q Eq]. set (g := Z.gcd i d) in *.
  assert (G : (0 < g)%Z). { assert (0 <= g)%Z by apply Z.gcd_nonneg. destruct (Z.eq_dec g 0) as [Z0|Z0]; [rewrite Z0 in Ep; lia|lia]. }
  assert (Pp : (0 < p)%Z) by nia. assert (Pq : (0 < q)%Z) by nia.
  pose proof (iZ_pos d ltac:(lia)) as D.
  assert (N : (n * d = i * b)%Z). { apply inject_Z_injective. rewrite inject_Z_mult, <- E. destruct (e_fracs i v (legal_range i v L)) as [F _]. fold d b in F. rewrite F. field. lra. }
  assert (CP : Z.gcd p q = 1%Z).
  { assert (X : (Z.gcd (p * g) (q * g) = Z.gcd p q * g)%Z) by (rewrite Z.gcd_mul_mono_r, Z.abs_eq by lia; reflexivity).
    rewrite <- Ep, <- Eq in X. fold g in X. nia. }
  assert (Q : (q | b)%Z). { apply (Z.gauss q p b); [exists n; nia|]. rewrite Z.gcd_comm. exact CP. }
  destruct Q as [t Et]. assert (Pt : (0 < t)%Z) by nia.
  assert (Eg : (q * n * g = q * (p * t) * g)%Z) by nia. assert (En : n = (p * t)%Z) by nia. clear Eg.
  set (w := Ecp5 g t (e_op_div v)).
  assert (F1 : ecp5_pfd i w == inject_Z p). { unfold ecp5_pfd, w. cbn [e_i_div]. rewrite Ep, inject_Z_mult. pose proof (iZ_pos g G). field. lra. }
  assert (F2 : ecp5_out i w == inject_Z n). { unfold ecp5_out. rewrite F1. unfold w. cbn [e_fb_div]. rewrite <- inject_Z_mult, En. reflexivity. }
  assert (F3 : ecp5_vco i w == ecp5_vco i v). { unfold ecp5_vco. rewrite F2, E. reflexivity. }
  destruct L as (_ & _ & _ & [P1 P2] & V & O). exists w. split; [|split; [exists p; exact Ep|split; [rewrite F2, E; reflexivity|exact F3]]].
  unfold ecp5_legal, q_in, z_in in *. cbn [e_i_div e_fb_div e_op_div w]. split; [nia|]. split; [nia|]. split; [exact R3|]. rewrite F3. split; [|split; [exact V|rewrite F2, <- E; exact O]].
  rewrite F1. split.
  - eapply Qle_trans; [exact P1|]. unfold ecp5_pfd. fold d. apply Qle_shift_div_r; [exact D|]. rewrite <- inject_Z_mult. apply iZ_le. nia.
  - apply Qle_trans with (inject_Z n); [apply iZ_le; nia|]. rewrite <- E. apply O.
Qed.
(** For any legal settings there are ones the code considers with the same output and a VCO
    frequency at least as good. *)
Lemma legal_found i v : z_in 8000000 i 400000000 -> ecp5_legal i v ->
  exists w, In w (e_variants i) /\ ecp5_legal i w /\ ecp5_out i w == ecp5_out i v /\ ecp5_vco_dist i w <= ecp5_vco_dist i v.
Proof.
  intros Hi L. unfold z_in in Hi. pose proof (legal_range i v L) as R. pose proof R as (R1 & R2 & R3). unfold z_in in R1, R2, R3.
  destruct (e_fracs i v R) as [F1 F2].
  destruct (Z.eq_dec ((i * e_fb_div v) mod e_i_div v) 0) as [M|M].
  { pose proof (Z.div_mod (i * e_fb_div v) (e_i_div v) ltac:(lia)) as DM. rewrite M in DM. set (n := (i * e_fb_div v / e_i_div v)%Z) in *.
    assert (E : ecp5_out i v == inject_Z n). { rewrite F1, DM, Z.add_0_r, inject_Z_mult. pose proof (iZ_pos (e_i_div v) ltac:(lia)). field. lra. }
    destruct (legal_whole i v n ltac:(lia) L E) as (w & W1 & W2 & W3 & W4). exists w. split; [apply legal_exact_In; auto; lia|]. split; [exact W1|]. split; [exact W3|]. unfold ecp5_vco_dist. rewrite W4. lra. }
  assert (NW : forall n, ~ ecp5_out i v == inject_Z n).
  { intros n E. apply M. apply Z.mod_divide; [lia|]. exists n. apply inject_Z_injective. rewrite (inject_Z_mult n), <- E, F1. pose proof (iZ_pos (e_i_div v) ltac:(lia)). field. lra. }
  pose proof L as (_ & _ & _ & P & [V1 V2] & [O1 O2]).
  assert (O1' : 10000000 + (1 # 128) <= ecp5_out i v).
  { apply Qnot_lt_le. intros X. apply (NW 10000000%Z). assert (Y := frac_at_most _ _ _ 10000000 R1 F1). change (inject_Z 10000000) with 10000000 in *. specialize (Y X). lra. }
  assert (O2' : ecp5_out i v <= 400000000 - (1 # 128)).
  { apply Qnot_lt_le. intros X. apply (NW 400000000%Z). assert (Y := frac_at_least _ _ _ 400000000 R1 F1). change (inject_Z 400000000) with 400000000 in *. specialize (Y ltac:(lra)). lra. }
  pose proof (iZ_pos (e_op_div v) ltac:(lia)) as OP.
  destruct (Qlt_le_dec (ecp5_vco i v) (400000000 + (1 # 128))) as [X|V1'].
  { assert (V : ecp5_vco i v == 400000000) by (assert (Y := frac_at_most _ _ _ 400000000 R1 F2); change (inject_Z 400000000) with 400000000 in *; specialize (Y X); lra).
    assert (B : (e_op_div v < 128)%Z). { apply iZ_lt. change (inject_Z 128) with 128. unfold ecp5_vco in V. nra. }
    set (w := Ecp5 (e_i_div v) (e_fb_div v) (e_op_div v + 1)).
    assert (Ow : ecp5_out i w == ecp5_out i v) by reflexivity. assert (Vw : ecp5_vco i w == 400000000 + ecp5_out i v).
    { unfold ecp5_vco at 1. rewrite Ow. unfold w. cbn [e_op_div]. rewrite inject_Z_plus, Qmult_plus_distr_r, <- V. unfold ecp5_vco. change (inject_Z 1) with 1. ring. }
    assert (Lw : ecp5_legal i w) by (unfold ecp5_legal, z_in, q_in; rewrite Ow, Vw; cbn [e_i_div e_fb_div e_op_div w]; repeat split; lia || apply P || lra).
    exists w. split; [apply legal_inside_In; auto; rewrite ?Ow, ?Vw; lia || lra|]. split; [exact Lw|]. split; [exact Ow|]. unfold ecp5_vco_dist. rewrite V, Vw. 
    apply Qabs_Qle_condition. assert (Z : Qabs (400000000 - 600000000) == 200000000) by reflexivity. rewrite Z. lra. }
  destruct (Qlt_le_dec (800000000 - (1 # 128)) (ecp5_vco i v)) as [X|V2'].
  { assert (V : ecp5_vco i v == 800000000) by (assert (Y := frac_at_least _ _ _ 800000000 R1 F2); change (inject_Z 800000000) with 800000000 in *; specialize (Y ltac:(lra)); lra).
    assert (B : (2 < e_op_div v)%Z). { apply iZ_lt. change (inject_Z 2) with 2. unfold ecp5_vco in V. nra. }
    assert (B' : 3 <= inject_Z (e_op_div v)) by (change 3 with (inject_Z 3); apply iZ_le; lia).
    assert (O3 : 3 * ecp5_out i v <= 800000000) by (unfold ecp5_vco in V; nra).
    set (w := Ecp5 (e_i_div v) (e_fb_div v) (e_op_div v - 1)).
    assert (Ow : ecp5_out i w == ecp5_out i v) by reflexivity. assert (Vw : ecp5_vco i w == 800000000 - ecp5_out i v).
    { unfold ecp5_vco at 1. rewrite Ow. unfold w. cbn [e_op_div]. unfold Z.sub. rewrite inject_Z_plus, <- V. unfold ecp5_vco. change (inject_Z (- (1))) with (- (1)). ring. }
    assert (Lw : ecp5_legal i w) by (unfold ecp5_legal, z_in, q_in; rewrite Ow, Vw; cbn [e_i_div e_fb_div e_op_div w]; repeat split; lia || apply P || lra).
    exists w. split; [apply legal_inside_In; auto; rewrite ?Ow, ?Vw; lia || lra|]. split; [exact Lw|]. split; [exact Ow|]. unfold ecp5_vco_dist. rewrite V, Vw. 
    apply Qabs_Qle_condition. assert (Z : Qabs (800000000 - 600000000) == 200000000) by reflexivity. rewrite Z. lra. }
  exists v. split; [apply legal_inside_In; auto; lia|]. split; [exact L|]. split; [reflexivity|lra].
Qed.
(** Computed distances are the exact ones up to a millionth of a hertz. *)
Lemma dist_close x y c : close 8 x y -> x <= 800000000 -> Qabs (y - c) <= 800000000 ->
  Qabs (fsub y c) <= Qabs (x - c) + (1 # 1000000) /\ Qabs (x - c) <= Qabs (fsub y c) + (1 # 1000000).
Proof.
  intros (X & C1 & C2) B D. unfold fsub. pose proof (rnd_abs (y - c) 800000000 D) as R. set (r := rnd (y - c)) in *. clearbody r.
  unfold u53 in *. apply Qabs_Qle_condition in R. split.
  - apply Qabs_Qle_condition. assert (A := Qle_refl (Qabs (x - c))). apply Qabs_Qle_condition in A. split; lra.
  - apply Qabs_Qle_condition. assert (A := Qle_refl (Qabs r)). apply Qabs_Qle_condition in A. split; lra.
Qed.
Lemma abs_frac x a b c : (0 < b)%Z -> x == inject_Z a / inject_Z b -> Qabs (x - inject_Z c) == inject_Z (Z.abs (a - c * b)) / inject_Z b.
Proof.
  intros B E. pose proof (iZ_pos b B) as P.
  assert (F : x - inject_Z c == inject_Z (a - c * b) / inject_Z b) by (rewrite E; unfold Z.sub; rewrite inject_Z_plus, inject_Z_opp, inject_Z_mult; field; lra).
  rewrite F. unfold Qdiv. rewrite Qabs_Qmult, (Qabs_pos (/ inject_Z b)) by (apply Qlt_le_weak, Qinv_lt_0_compat; exact P). reflexivity.
Qed.
Lemma lex_le_hd x y a b : lex_le (x :: a) (y :: b) -> x <= y.
Proof. cbn. intros [H|[H _]]; lra. Qed.
Lemma out_diff a b o : q_in 10000000 a 400000000 -> z_in 10000000 o 400000000 -> b == a - inject_Z o -> Qabs b <= 800000000.
Proof.
  intros [A1 A2] [O1 O2] ->. apply iZ_le in O1, O2. change (inject_Z 10000000) with 10000000 in O1. change (inject_Z 400000000) with 400000000 in O2.
  apply Qabs_Qle_condition. split; lra.
Qed.
Lemma e_out_best i o v w : z_in 8000000 i 400000000 -> z_in 10000000 o 400000000 -> In v (e_variants i) ->
  (forall y, In y (e_variants i) -> lex_le (e_error i o v) (e_error i o y)) -> In w (e_variants i) ->
  ecp5_out_error i o v <= ecp5_out_error i o w.
Proof.
  intros Hi Ho Hv Hb Hw. specialize (Hb w Hw). apply lex_le_hd in Hb.
  pose proof (e_variants_legal i v Hi Hv) as Lv. pose proof (e_variants_legal i w Hi Hw) as Lw. unfold z_in in Hi.
  apply e_variants_In in Hv, Hw. destruct Hv as (Rv & _ & _ & Ov), Hw as (Rw & _ & _ & Ow).
  destruct (e_close i v ltac:(lia) Rv) as (_ & _ & Cv). destruct (e_close i w ltac:(lia) Rw) as (_ & _ & Cw).
  assert (Bv : ecp5_out i v <= 400000000) by apply Lv. assert (Bw : ecp5_out i w <= 400000000) by apply Lw.
  assert (Dv := proj2 (dist_close _ _ (inject_Z o) Cv ltac:(lra) (out_diff _ _ o Ov Ho (Qeq_refl _)))).
  assert (Dw := proj1 (dist_close _ _ (inject_Z o) Cw ltac:(lra) (out_diff _ _ o Ow Ho (Qeq_refl _)))).
  assert (N : ecp5_out_error i o v <= ecp5_out_error i o w + (2 # 1000000)) by (unfold ecp5_out_error; lra).
  destruct (e_fracs i v Rv) as [Fv _]. destruct (e_fracs i w Rw) as [Fw _]. destruct Rv as (Rv & _), Rw as (Rw & _). unfold z_in in *.
  pose proof (abs_frac (ecp5_out i v) (i * e_fb_div v) (e_i_div v) o ltac:(lia) Fv) as Ev. pose proof (abs_frac (ecp5_out i w) (i * e_fb_div w) (e_i_div w) o ltac:(lia) Fw) as Ew. fold (ecp5_out_error i o v) in Ev. fold (ecp5_out_error i o w) in Ew.
  rewrite Ev, Ew in *. apply (frac_le _ _ _ _ 16384); [lia|lia|nia|]. assert (I : / inject_Z 16384 == 1 # 16384) by reflexivity. rewrite I. lra.
Qed.
Lemma ecp5_exists i : z_in 8000000 i 400000000 -> exists v, ecp5_legal i v.
Proof.
  intros H. unfold z_in in H.
  assert (exists fb, (1 <= fb <= 2 /\ 10000000 <= i * fb <= 400000000)%Z) as (fb & Hfb & Hg).
  { destruct (Z_lt_le_dec i 10000000); [exists 2%Z|exists 1%Z]; lia. }
  set (g := (i * fb)%Z) in *. set (d := ((400000000 + g - 1) / g)%Z).
  assert (Hd : (400000000 <= g * d < 400000000 + g)%Z).
  { unfold d. pose proof (Z.div_mod (400000000 + g - 1) g ltac:(lia)). pose proof (Z.mod_pos_bound (400000000 + g - 1) g ltac:(lia)). lia. }
  assert (Hd1 : (1 <= d <= 128)%Z) by nia.
  exists (Ecp5 1 fb d). 
  assert (E1 : ecp5_pfd i (Ecp5 1 fb d) == inject_Z i) by (unfold ecp5_pfd; cbn [e_i_div]; change (inject_Z 1) with 1; field).
  assert (E2 : ecp5_out i (Ecp5 1 fb d) == inject_Z g) by (unfold ecp5_out; rewrite E1; unfold g; rewrite inject_Z_mult; reflexivity).
  assert (E3 : ecp5_vco i (Ecp5 1 fb d) == inject_Z (g * d)) by (unfold ecp5_vco; rewrite E2, inject_Z_mult; reflexivity).
  unfold ecp5_legal, z_in, q_in. rewrite E3, E2, E1. cbn [e_i_div e_fb_div e_op_div].
  change 3125000 with (inject_Z 3125000). change 400000000 with (inject_Z 400000000). change 800000000 with (inject_Z 800000000). change 10000000 with (inject_Z 10000000).
  rewrite !inject_Z_le_iff. repeat split; lia.
Qed.
Lemma ecp5_succeeds i o : z_in 8000000 i 400000000 -> exists v, ecp5_settings i o = Some v /\ In v (e_variants i) /\
  forall y, In y (e_variants i) -> lex_le (e_error i o v) (e_error i o y).
Proof.
  intros Hi. destruct (ecp5_exists i Hi) as (w0 & L). destruct (legal_found i w0 Hi L) as (w & W & _).
  pose proof (min_key_spec (e_error i o) 3 (e_variants i) (fun _ => eq_refl)) as M. unfold ecp5_settings.
  destruct (min_key (e_error i o) (e_variants i)) as [v|]; [|rewrite M in W; destruct W].
  destruct M as [M1 M2]. exists v. auto.
Qed.
(** compute succeeds for every accepted input frequency, with settings that are legal and
    whose output frequency is as close to the asked one as that of any other legal settings.
    When it can be met exactly it is, and the VCO frequency is as close to 600 MHz as that
    of any other legal settings that meet it. *)
Theorem C66_ecp5_partial : forall i_freq o_freq, z_in 8000000 i_freq 400000000 -> z_in 10000000 o_freq 400000000 ->
  exists v, ecp5_settings i_freq o_freq = Some v /\ ecp5_legal i_freq v /\
    (forall w, ecp5_legal i_freq w -> ecp5_out_error i_freq o_freq v <= ecp5_out_error i_freq o_freq w) /\
    (forall w, ecp5_legal i_freq w -> ecp5_out i_freq w == inject_Z o_freq ->
       ecp5_out i_freq v == inject_Z o_freq /\ ecp5_vco_dist i_freq v <= ecp5_vco_dist i_freq w).
Proof.
  intros i o Hi Ho. destruct (ecp5_succeeds i o Hi) as (v & E & V & B). exists v. split; [exact E|]. pose proof (e_variants_legal i v Hi V) as L. split; [exact L|].
  assert (O : forall w, ecp5_legal i w -> ecp5_out_error i o v <= ecp5_out_error i o w).
  { intros w W. destruct (legal_found i w Hi W) as (w' & W1 & W2 & W3 & _). pose proof (e_out_best i o v w' Hi Ho V B W1) as X. unfold ecp5_out_error in *. rewrite W3 in X. exact X. }
  split; [exact O|]. intros w W Ew.
  assert (Ov : ecp5_out i v == inject_Z o).
  { specialize (O w W). unfold ecp5_out_error in O. rewrite Ew in O. setoid_replace (inject_Z o - inject_Z o) with 0 in O by ring. change (Qabs 0) with 0 in O. apply Qabs_Qle_condition in O. lra. }
  split; [exact Ov|]. unfold z_in in Hi.
  destruct (legal_whole i w o ltac:(lia) W Ew) as (w' & W1 & W2 & W3 & W4). pose proof (legal_exact_In i w' ltac:(lia) W1 W2) as W5.
  pose proof (legal_range i w' W1) as Rw. destruct (e_exact i w' ltac:(lia) Rw W2 (proj2 (proj1 (proj2 (proj2 (proj2 (proj2 W1))))))) as (X1 & X2 & X3).
  specialize (B w' W5). unfold e_error in B. cbn [lex_le] in B.
  assert (Z : Qabs (fsub (e_op i w') (inject_Z o)) == 0) by (unfold fsub; rewrite X3, W3, Ew; setoid_replace (inject_Z o - inject_Z o) with 0 by ring; rewrite rnd_0; reflexivity).
  pose proof (Qabs_nonneg (fsub (e_op i v) (inject_Z o))) as NN. rewrite Z in B. destruct B as [B|[_ B]]; [lra|].
  assert (B' : Qabs (fsub (e_vco i v) 600000000) <= Qabs (fsub (e_vco i w') 600000000)) by (destruct B as [B|[B _]]; lra). clear B.
  (* both VCO frequencies are whole *)
  set (nv := (o * e_op_div v)%Z). set (nw := (o * e_op_div w')%Z).
  assert (Nv : ecp5_vco i v == inject_Z nv) by (unfold ecp5_vco, nv; rewrite Ov, inject_Z_mult; reflexivity).
  assert (Nw : ecp5_vco i w' == inject_Z nw) by (unfold ecp5_vco, nw; rewrite W3, Ew, inject_Z_mult; reflexivity).
  pose proof (e_variants_In i v) as [Hv _]. destruct (Hv V) as (Rv & _ & [Q1 Q2] & _). destruct (e_close i v ltac:(lia) Rv) as (_ & Cv & _).
  pose proof L as (_ & _ & _ & _ & [L1 L2] & _). pose proof W1 as (_ & _ & _ & _ & [L3 L4] & _).
  assert (Dv := proj2 (dist_close _ _ 600000000 (close_weak 6 8 _ _ ltac:(discriminate) Cv) L2 ltac:(apply Qabs_Qle_condition; split; lra))).
  assert (Dw : Qabs (fsub (e_vco i w') 600000000) == Qabs (ecp5_vco i w' - 600000000)).
  { unfold fsub. rewrite X2, Nw. rewrite Nw in L3, L4. assert (Y : inject_Z nw - 600000000 == inject_Z (nw - 600000000)) by (unfold Z.sub; rewrite inject_Z_plus; reflexivity). rewrite Y. rewrite rnd_Z; [reflexivity|].
    assert (L3' : (400000000 <= nw)%Z) by (apply iZ_le; exact L3). assert (L4' : (nw <= 800000000)%Z) by (apply iZ_le; exact L4). lia. }
  unfold ecp5_vco_dist. rewrite <- W4. rewrite Dw in B'.
  assert (G : Qabs (ecp5_vco i v - 600000000) <= Qabs (ecp5_vco i w' - 600000000) + (1 # 1000000)) by lra.
  rewrite Nv, Nw in G |- *. clear - G.
  assert (Y : forall n, Qabs (inject_Z n - 600000000) == inject_Z (Z.abs (n - 600000000))) by (intros n; unfold Z.sub; change (- (600000000))%Z with (-600000000)%Z; assert (T : inject_Z n - 600000000 == inject_Z (n + -600000000)) by (rewrite inject_Z_plus; reflexivity); rewrite T; reflexivity).
  rewrite !Y in *. apply iZ_le. assert (H : (Z.abs (nv - 600000000) < Z.abs (nw - 600000000) + 1)%Z) by (apply iZ_lt; rewrite inject_Z_plus; change (inject_Z 1) with 1; lra). lia.
Qed.
Example C66_nonvacuous : z_in 8000000 100000000 400000000 /\ z_in 10000000 50000000 400000000 /\
  ecp5_legal 100000000 (Ecp5 2 1 12) /\ ecp5_out 100000000 (Ecp5 2 1 12) == inject_Z 50000000.
Proof.
  unfold ecp5_legal, ecp5_vco, ecp5_out, ecp5_pfd, z_in, q_in. cbn [e_i_div e_fb_div e_op_div].
  repeat split; try lia; try reflexivity; vm_compute; discriminate.
Qed.

(** ** C67 *)
Definition xil_vco (i_freq : Z) (v : xil_set) : Q := inject_Z i_freq * inject_Z (x_mult v) / inject_Z (x_divclk v).
Definition xil_out (i_freq : Z) (v : xil_set) : Q := xil_vco i_freq v / inject_Z (x_div0 v).
Definition xil_legal (i_freq : Z) (v : xil_set) : Prop :=
  z_in 1 (x_divclk v) 56 /\ z_in 2 (x_mult v) 64 /\ z_in 1 (x_div0 v) 128 /\
  q_in 800000000 (xil_vco i_freq v) 1600000000 /\ q_in 6250000 (xil_out i_freq v) 800000000.
Definition xil_out_error (i_freq o_freq : Z) (v : xil_set) : Q := Qabs (xil_out i_freq v - inject_Z o_freq).
Definition xil_vco_dist (i_freq : Z) (v : xil_set) : Q := Qabs (xil_vco i_freq v - 1200000000).

Definition x_range (v : xil_set) : Prop := z_in 1 (x_divclk v) 56 /\ z_in 2 (x_mult v) 64 /\ z_in 1 (x_div0 v) 128.
Lemma x_variants_In' i v : In v (x_variants i) <-> x_range v /\ q_in 800000000 (x_vco i v) 1600000000 /\ q_in 6250000 (x_out0 i v) 800000000.
Proof.
  unfold x_variants, x_range, z_in. rewrite in_flat_map. split.
  - intros (a & Ha & H). apply in_flat_map in H. destruct H as (b & Hb & H). apply if_nil_In in H. destruct H as [H1 H].
    apply in_flat_map in H. destruct H as (c & Hc & H). apply if_nil_In in H. destruct H as [H2 [<-|[]]].
    apply in_rev in Hb. apply irange_In in Ha, Hb, Hc. apply between_spec in H1, H2. cbn [x_divclk x_mult x_div0] in *.
    split; [lia|]. split; assumption.
  - intros ((H1 & H2 & H3) & H4 & H5). exists (x_divclk v). rewrite irange_In. split; [lia|]. apply in_flat_map. exists (x_mult v). rewrite <- in_rev, irange_In. split; [lia|].
    apply if_nil_In. rewrite between_spec. split; [exact H4|]. apply in_flat_map. exists (x_div0 v). rewrite irange_In. split; [lia|].
    destruct v as [a b c]. cbn [x_divclk x_mult x_div0] in *. rewrite if_nil_In, between_spec. split; [exact H5|]. now left.
Qed.
Lemma x_vco_rnd i v : x_vco i v == rnd (xil_vco i v).
Proof. unfold x_vco, fdiv, xil_vco. now rewrite inject_Z_mult. Qed.
Lemma x_close i v : (0 < i)%Z -> x_range v -> close 2 (xil_vco i v) (x_vco i v) /\ close 4 (xil_out i v) (x_out0 i v).
Proof.
  intros Hi (R1 & R2 & R3). unfold z_in in *.
  pose proof (iZ_pos i Hi) as I. pose proof (iZ_pos (x_divclk v) ltac:(lia)) as D. pose proof (iZ_pos (x_mult v) ltac:(lia)) as M. pose proof (iZ_pos (x_div0 v) ltac:(lia)) as O.
  assert (C1 : close 2 (xil_vco i v) (x_vco i v)).
  { apply (close_comp 2 (xil_vco i v) _ (rnd (xil_vco i v))); [reflexivity|symmetry; apply x_vco_rnd|]. apply (close_rnd 0); [discriminate|discriminate|]. apply close_refl. unfold xil_vco. apply Qlt_shift_div_l; [lra|]. nra. }
  split; [exact C1|]. apply (close_rnd 2); [discriminate|discriminate|]. now apply close_div_c.
Qed.
Lemma x_fracs i v : x_range v -> xil_vco i v == inject_Z (i * x_mult v) / inject_Z (x_divclk v) /\ xil_out i v == inject_Z (i * x_mult v) / inject_Z (x_divclk v * x_div0 v).
Proof.
  intros (R1 & R2 & R3). unfold z_in in *. pose proof (iZ_pos (x_divclk v) ltac:(lia)). pose proof (iZ_pos (x_div0 v) ltac:(lia)).
  unfold xil_out, xil_vco. rewrite !inject_Z_mult. split; field; lra.
Qed.
Lemma rnd_ge x n : (Z.abs n <= 2 ^ 53)%Z -> inject_Z n <= x -> inject_Z n <= rnd x.
Proof. intros N H. rewrite <- (rnd_Z n N). now apply rnd_mono. Qed.
Lemma rnd_le x n : (Z.abs n <= 2 ^ 53)%Z -> x <= inject_Z n -> rnd x <= inject_Z n.
Proof. intros N H. rewrite <- (rnd_Z n N). now apply rnd_mono. Qed.
(** What the code takes for legal is what is legal. *)
Lemma x_variants_In i v : z_in 19000000 i 800000000 -> In v (x_variants i) <-> xil_legal i v.
Proof.
  intros Hi. unfold z_in in Hi. rewrite x_variants_In'. split.
  - intros (R & [V1 V2] & [O1 O2]). destruct (x_close i v ltac:(lia) R) as ((_ & C1 & C2) & (_ & C3 & C4)). destruct (x_fracs i v R) as [F1 F2]. pose proof R as (R1 & R2 & R3). unfold z_in in R1, R2, R3.
    split; [apply R|]. split; [apply R|]. split; [apply R|]. unfold u53 in *. unfold q_in.
    repeat split.
    + apply (frac_at_least _ _ _ 800000000 ltac:(split; [apply R1|lia]) F1). change (inject_Z 800000000) with 800000000. lra.
    + apply (frac_at_most _ _ _ 1600000000 ltac:(split; [apply R1|lia]) F1). change (inject_Z 1600000000) with 1600000000. lra.
    + change 6250000 with (inject_Z 6250000). rewrite F2, (z_over_1 6250000). apply (frac_le _ _ _ _ 7168); [lia|nia|nia|]. rewrite <- F2, <- z_over_1. assert (I : / inject_Z 7168 == 1 # 7168) by reflexivity. rewrite I. change (inject_Z 6250000) with 6250000. lra.
    + change 800000000 with (inject_Z 800000000). rewrite F2, (z_over_1 800000000). apply (frac_le _ _ _ _ 7168); [nia|lia|nia|]. rewrite <- F2, <- z_over_1. assert (I : / inject_Z 7168 == 1 # 7168) by reflexivity. rewrite I. change (inject_Z 800000000) with 800000000. lra.
  - intros (R1 & R2 & R3 & [V1 V2] & [O1 O2]). split; [repeat split; apply R1 || apply R2 || apply R3|]. unfold q_in. rewrite x_vco_rnd. unfold z_in in *. pose proof (iZ_pos (x_div0 v) ltac:(lia)) as D.
    split; [split; [apply (rnd_ge _ 800000000); [lia|exact V1]|apply (rnd_le _ 1600000000); [lia|exact V2]]|].
    assert (E : xil_vco i v == xil_out i v * inject_Z (x_div0 v)) by (unfold xil_out; field; lra).
    unfold x_out0, fdiv. rewrite x_vco_rnd. split.
    + apply (rnd_ge _ 6250000); [lia|]. apply Qle_shift_div_l; [exact D|]. rewrite <- inject_Z_mult. apply rnd_ge; [lia|]. rewrite E, inject_Z_mult. apply Qmult_le_compat_r; [exact O1|lra].
    + apply (rnd_le _ 800000000); [lia|]. apply Qle_shift_div_r; [exact D|]. rewrite <- inject_Z_mult. apply rnd_le; [lia|]. rewrite E, inject_Z_mult. apply Qmult_le_compat_r; [exact O2|lra].
Qed.
Lemma xil_exists i : z_in 19000000 i 800000000 -> exists v, xil_legal i v.
Proof.
  intros H. unfold z_in in H.
  assert (exists k, (2 <= k <= 64 /\ 800000000 <= i * k <= 1600000000)%Z) as (k & Hk & Hv).
  { destruct (Z_lt_le_dec 400000000 i); [exists 2%Z; lia|]. exists ((800000000 + i - 1) / i)%Z.
    pose proof (Z.div_mod (800000000 + i - 1) i ltac:(lia)). pose proof (Z.mod_pos_bound (800000000 + i - 1) i ltac:(lia)). nia. }
  exists (Xil 1 k 2). unfold xil_legal, xil_out, xil_vco, z_in. cbn [x_divclk x_mult x_div0].
  assert (E1 : inject_Z i * inject_Z k / inject_Z 1 == inject_Z (i * k)) by (rewrite inject_Z_mult; change (inject_Z 1) with 1; field).
  assert (L : inject_Z 800000000 <= inject_Z (i * k) /\ inject_Z (i * k) <= inject_Z 1600000000) by (rewrite !inject_Z_le_iff; lia).
  unfold q_in. rewrite E1. change (inject_Z 800000000) with 800000000 in L. change (inject_Z 1600000000) with 1600000000 in L. change (inject_Z 2) with 2.
  assert (E2 : inject_Z (i * k) / 2 == inject_Z (i * k) * (1 # 2)) by field. rewrite E2. 
  repeat split; lia || lra.
Qed.
Lemma xil_succeeds i o : z_in 19000000 i 800000000 -> exists v, xil_settings i o = Some v /\ xil_legal i v /\
  forall y, xil_legal i y -> lex_le (x_error i o v) (x_error i o y).
Proof.
  intros Hi. destruct (xil_exists i Hi) as (w0 & W0). apply (x_variants_In i _ Hi) in W0.
  pose proof (min_key_spec (x_error i o) 2 (x_variants i) (fun _ => eq_refl)) as M. unfold xil_settings.
  destruct (min_key (x_error i o) (x_variants i)) as [v|]; [|rewrite M in W0; destruct W0].
  destruct M as [M1 M2]. exists v. split; [reflexivity|]. split; [now apply x_variants_In|]. intros w W. apply M2. now apply x_variants_In.
Qed.
Lemma x_diff a o : q_in 6250000 a 800000000 -> z_in 6250000 o 800000000 -> Qabs (a - inject_Z o) <= 800000000.
Proof.
  intros [A1 A2] [O1 O2]. apply iZ_le in O1, O2. change (inject_Z 6250000) with 6250000 in O1. change (inject_Z 800000000) with 800000000 in O2.
  apply Qabs_Qle_condition. split; lra.
Qed.
(** Nothing is rounded for a setting that meets a whole output frequency. *)
Lemma x_exact i o v : xil_legal i v -> (Z.abs o <= 800000000)%Z -> xil_out i v == inject_Z o ->
  x_vco i v == xil_vco i v /\ x_out0 i v == inject_Z o /\ xil_vco i v == inject_Z (o * x_div0 v).
Proof.
  intros (R1 & R2 & R3 & _) Ho E. unfold z_in in *. pose proof (iZ_pos (x_div0 v) ltac:(lia)) as D.
  assert (F : xil_vco i v == inject_Z (o * x_div0 v)). { rewrite inject_Z_mult, <- E. unfold xil_out. field. lra. }
  assert (G : x_vco i v == xil_vco i v) by (rewrite x_vco_rnd, F; apply rnd_Z; rewrite Z.abs_mul; nia).
  split; [exact G|]. split; [|exact F]. unfold x_out0, fdiv. rewrite G. fold (xil_out i v). rewrite E. apply rnd_Z. lia.
Qed.
(** What a setting that meets the output frequency exactly is judged by. *)
Lemma x_error_exact i o v : xil_legal i v -> z_in 6250000 o 800000000 -> xil_out i v == inject_Z o ->
  Qabs (fsub (x_out0 i v) (inject_Z o)) == 0 /\ Qabs (fsub (x_vco i v) 1200000000) == xil_vco_dist i v.
Proof.
  intros L Ho E. unfold z_in in Ho. destruct (x_exact i o v L ltac:(lia) E) as (X1 & X2 & X3). unfold fsub. split.
  - rewrite X2. setoid_replace (inject_Z o - inject_Z o) with 0 by ring. rewrite rnd_0. reflexivity.
  - unfold xil_vco_dist. rewrite X1, X3. assert (Y : inject_Z (o * x_div0 v) - 1200000000 == inject_Z (o * x_div0 v - 1200000000)) by (unfold Z.sub; rewrite inject_Z_plus; reflexivity).
    rewrite Y, rnd_Z; [reflexivity|]. destruct L as (_ & _ & R & _). unfold z_in in R. assert (0 <= o * x_div0 v <= 800000000 * 128)%Z by nia. lia.
Qed.
(** compute succeeds for every accepted input frequency, with settings that are legal and whose output
    frequency is, up to a millionth of a hertz, as close to the asked one as that of any
    other legal settings.  When it can be met exactly it is, and the VCO frequency is as
    close to 1200 MHz as that of any other legal settings that meet it. *)
Theorem C67_xilinx_partial : forall i_freq o_freq, z_in 19000000 i_freq 800000000 -> z_in 6250000 o_freq 800000000 ->
  exists v, xil_settings i_freq o_freq = Some v /\ xil_legal i_freq v /\
    (forall w, xil_legal i_freq w -> xil_out_error i_freq o_freq v <= xil_out_error i_freq o_freq w + (2 # 1000000)) /\
    (forall w, xil_legal i_freq w -> xil_out i_freq w == inject_Z o_freq ->
       xil_out i_freq v == inject_Z o_freq /\ xil_vco_dist i_freq v <= xil_vco_dist i_freq w).
Proof.
  intros i o Hi Ho. destruct (xil_succeeds i o Hi) as (v & E & L & B). exists v. split; [exact E|]. split; [exact L|].
  unfold z_in in Hi. assert (Rv : x_range v) by (destruct L as (A & A' & A'' & _); repeat split; apply A || apply A' || apply A'').
  destruct (x_close i v ltac:(lia) Rv) as (_ & Cv). pose proof L as (_ & _ & _ & _ & Ov).
  pose proof (proj1 (x_variants_In' i v) (proj2 (x_variants_In i v Hi) L)) as (_ & _ & Ov').
  assert (Dv := proj2 (dist_close _ _ (inject_Z o) (close_weak 4 8 _ _ ltac:(discriminate) Cv) (proj2 Ov) (x_diff _ o Ov' Ho))).
  split.
  - intros w W. specialize (B w W). apply lex_le_hd in B. pose proof W as (A & A' & A'' & _ & Ow). assert (Rw : x_range w) by (repeat split; apply A || apply A' || apply A'').
    destruct (x_close i w ltac:(lia) Rw) as (_ & Cw). pose proof (proj1 (x_variants_In' i w) (proj2 (x_variants_In i w Hi) W)) as (_ & _ & Ow').
    assert (Dw := proj1 (dist_close _ _ (inject_Z o) (close_weak 4 8 _ _ ltac:(discriminate) Cw) (proj2 Ow) (x_diff _ o Ow' Ho))). unfold xil_out_error. lra.
  - intros w W Ew. specialize (B w W). destruct (x_error_exact i o w W Ho Ew) as [Z1 Z2]. unfold x_error in B. cbn [lex_le] in B. rewrite Z1, Z2 in B.
    pose proof (Qabs_nonneg (fsub (x_out0 i v) (inject_Z o))) as NN.
    assert (Zv : Qabs (fsub (x_out0 i v) (inject_Z o)) == 0) by (destruct B as [B|[B _]]; lra).
    assert (Eo : xil_out i v == inject_Z o).
    { rewrite Zv in Dv. apply Qabs_Qle_condition in Dv. destruct (x_fracs i v Rv) as [_ F]. destruct Rv as (R1 & R2 & R3). unfold z_in in *. rewrite F, (z_over_1 o) in *.
      assert (I : / inject_Z 7168 == 1 # 7168) by reflexivity.
      apply Qle_antisym; [apply (frac_le _ _ _ _ 7168)|apply (frac_le _ _ _ _ 7168)]; try nia; rewrite I; lra. }
    split; [exact Eo|]. destruct (x_error_exact i o v L Ho Eo) as [_ Zv2]. rewrite Zv2 in B. destruct B as [B|[_ [B|[B _]]]]; lra.
Qed.
Lemma xil_good : xil_legal 100000000 (Xil 1 12 12).
Proof. unfold xil_legal, xil_out, xil_vco, z_in, q_in. cbn [x_divclk x_mult x_div0]. repeat split; try lia; vm_compute; discriminate. Qed.
Example C67_nonvacuous : xil_legal 100000000 (Xil 1 12 12) /\ xil_out 100000000 (Xil 1 12 12) == inject_Z 100000000 /\ z_in 19000000 100000000 800000000.
Proof. split; [exact xil_good|]. split; [reflexivity|unfold z_in; lia]. Qed.

(** ** C69: dividers *)
(** ECP5: every divider handed over is a whole number of the primitive's range 1..128
    (feedback 1..80). *)
Theorem C69_ecp5 : forall i_freq o_freq v os_freq, ecp5_settings i_freq o_freq = Some v -> q_in 10000000 os_freq 400000000 ->
  z_in 1 (e_i_div v) 128 /\ z_in 1 (e_fb_div v) 80 /\ z_in 1 (e_op_div v) 128 /\
  exists n : Z, e_os_div i_freq v os_freq == inject_Z n /\ z_in 1 n 80.
Proof.
  intros i o v f E [F1 F2]. pose proof (min_key_spec (e_error i o) 3 (e_variants i) (fun _ => eq_refl)) as M. unfold ecp5_settings in E. rewrite E in M.
  destruct M as [M _]. apply e_variants_In in M. destruct M as ((H1 & H2 & H3) & H4 & [H5 H5'] & H6). split; [exact H1|]. split; [exact H2|]. split; [exact H3|].
  assert (A : 1 <= e_vco i v / f) by (apply Qle_shift_div_l; lra). assert (B : e_vco i v / f <= 80) by (apply Qle_shift_div_r; lra).
  exists (Qfloor (e_vco i v / f)). split; [apply ffloordiv_spec; lra|]. split.
  - change 1%Z with (Qfloor 1). apply Qfloor_resp_le. exact A.
  - change 80%Z with (Qfloor 80). apply Qfloor_resp_le. exact B.
Qed.
(** 7-series: the divider of a secondary output is not whole in general, nor below 129. *)
Lemma xil_100 v : xil_settings 100000000 100000000 = Some v -> x_vco 100000000 v == 1200000000.
Proof.
  intros E. destruct (C67_xilinx_partial 100000000 100000000) as (v' & E' & L & _ & O); [unfold z_in; lia|unfold z_in; lia|]. rewrite E in E'. injection E' as <-.
  destruct (O _ xil_good ltac:(reflexivity)) as [O1 O2]. assert (Z : xil_vco_dist 100000000 (Xil 1 12 12) == 0) by reflexivity. rewrite Z in O2.
  destruct (x_exact 100000000 100000000 v L ltac:(lia) O1) as (X1 & _ & _). rewrite X1. unfold xil_vco_dist in O2. apply Qabs_Qle_condition in O2. lra.
Qed.
Theorem C69_xilinx_refuted : exists i_freq o_freq v, xil_settings i_freq o_freq = Some v /\
  (exists f, q_in 6250000 f 800000000 /\ ~ exists n : Z, x_out_div i_freq v f == inject_Z n) /\
  (exists f, q_in 6250000 f 800000000 /\ 128 < x_out_div i_freq v f).
Proof.
  destruct (xil_succeeds 100000000 100000000) as (v & E & _); [unfold z_in; lia|]. exists 100000000%Z, 100000000%Z, v. split; [exact E|].
  pose proof (xil_100 v E) as V. unfold x_out_div, fdiv. split.
  - exists 700000000. split; [unfold q_in; lra|]. intros (n & N). rewrite V in N.
    assert (X : 1 < rnd (1200000000 / 700000000)) by reflexivity. assert (Y : rnd (1200000000 / 700000000) < 2) by reflexivity. rewrite N in X, Y.
    change 1 with (inject_Z 1) in X. change 2 with (inject_Z 2) in Y. apply (proj1 (iZ_lt _ _)) in X. apply (proj1 (iZ_lt _ _)) in Y. lia.
  - exists 6250000. split; [unfold q_in; lra|]. rewrite V. reflexivity.
Qed.
(** What holds: the primary dividers are whole and in range; the secondary one is the
    ratio, up to one part in 2^50, and exactly it when both frequencies are whole and the
    one divides the other. *)
Theorem C69_xilinx_partial : forall i_freq o_freq v f, z_in 19000000 i_freq 800000000 -> xil_settings i_freq o_freq = Some v -> q_in 6250000 f 800000000 ->
  z_in 1 (x_divclk v) 56 /\ z_in 2 (x_mult v) 64 /\ z_in 1 (x_div0 v) 128 /\
  q_in 1 (x_out_div i_freq v f) 256 /\
  Qabs (x_out_div i_freq v f - xil_vco i_freq v / f) <= xil_vco i_freq v / f * 2 ^ (-50) /\
  (forall k n : Z, xil_vco i_freq v == inject_Z k -> inject_Z k == inject_Z n * f -> x_out_div i_freq v f == inject_Z n).
Proof.
  intros i o v f Hi E [F1 F2]. destruct (xil_succeeds i o Hi) as (v' & E' & L & _). rewrite E in E'. injection E' as <-.
  pose proof (proj1 (x_variants_In' i v) (proj2 (x_variants_In i v Hi) L)) as (R & [V1 V2] & _). destruct (x_close i v ltac:(unfold z_in in Hi; lia) R) as [C _].
  destruct L as (H1 & H2 & H3 & H4 & H5). split; [exact H1|]. split; [exact H2|]. split; [exact H3|]. unfold x_out_div, fdiv. split; [|split].
  - split; [apply (rnd_ge _ 1); [lia|]; change (inject_Z 1) with 1; apply Qle_shift_div_l; lra|apply (rnd_le _ 256); [lia|]; change (inject_Z 256) with 256; apply Qle_shift_div_r; lra].
  - destruct (close_rnd 2 _ _ ltac:(discriminate) ltac:(discriminate) (close_div_c 2 _ _ f ltac:(lra) C)) as (P & C1 & C2). apply Qabs_Qle_condition. assert (T : 2 ^ (-50) == 8 * u53) by reflexivity. rewrite T. unfold u53 in *. split; lra.
  - intros k n Ek En. assert (X : x_vco i v == inject_Z k).
    { rewrite x_vco_rnd, Ek. apply rnd_Z. unfold q_in in H4. rewrite Ek in H4. destruct H4 as [K1 K2]. assert (800000000 <= k)%Z by (apply iZ_le; exact K1). assert (k <= 1600000000)%Z by (apply iZ_le; exact K2). lia. }
    rewrite X, En. setoid_replace (inject_Z n * f / f) with (inject_Z n) by (field; lra). apply rnd_Z.
    assert (N1 : 0 < inject_Z n) by (apply Qnot_le_lt; intros Y; rewrite X, En in V1; nra). assert (N2 : inject_Z n <= inject_Z 256) by (apply Qnot_lt_le; intros Y; change (inject_Z 256) with 256 in Y; rewrite X, En in V2; nra).
    apply (proj1 (iZ_le _ _)) in N2. change 0 with (inject_Z 0) in N1. apply (proj1 (iZ_lt _ _)) in N1. lia.
Qed.
Example C69_nonvacuous : (exists v, ecp5_settings 100000000 100000000 = Some v) /\ (exists v, xil_settings 100000000 100000000 = Some v /\ xil_vco 100000000 v == inject_Z 1200000000 /\ inject_Z 1200000000 == inject_Z 24 * 50000000).
Proof.
  split; [destruct (ecp5_succeeds 100000000 100000000) as (v & E & _); [unfold z_in; lia|]; eauto|].
  destruct (C67_xilinx_partial 100000000 100000000) as (v & E & L & _ & O); [unfold z_in; lia|unfold z_in; lia|]. exists v. split; [exact E|]. split; [|reflexivity].
  destruct (O _ xil_good ltac:(reflexivity)) as [O1 O2]. destruct (x_exact 100000000 100000000 v L ltac:(lia) O1) as (X1 & _ & _). rewrite <- X1. apply (xil_100 v E).
Qed.

(** ** C97: the frequency an ECP5 secondary output really has *)
Definition ecp5_os_actual (i_freq : Z) (v : ecp5_set) (os_freq : Q) : Q := ecp5_vco i_freq v / e_os_div i_freq v os_freq.
Lemma ecp5_good : ecp5_legal 100000000 (Ecp5 1 1 6).
Proof. unfold ecp5_legal, ecp5_vco, ecp5_out, ecp5_pfd, z_in, q_in. cbn [e_i_div e_fb_div e_op_div]. repeat split; try lia; vm_compute; discriminate. Qed.
Lemma ecp5_100 v : ecp5_settings 100000000 100000000 = Some v -> ecp5_vco 100000000 v == 600000000.
Proof.
  intros E. destruct (C66_ecp5_partial 100000000 100000000) as (v' & E' & L & _ & O); [unfold z_in; lia|unfold z_in; lia|]. rewrite E in E'. injection E' as <-.
  destruct (O _ ecp5_good ltac:(reflexivity)) as [_ O2]. assert (Z : ecp5_vco_dist 100000000 (Ecp5 1 1 6) == 0) by reflexivity. rewrite Z in O2.
  unfold ecp5_vco_dist in O2. apply Qabs_Qle_condition in O2. lra.
Qed.
Lemma settings_close i o v : z_in 8000000 i 400000000 -> ecp5_settings i o = Some v ->
  e_range v /\ ecp5_legal i v /\ close 6 (ecp5_vco i v) (e_vco i v) /\ close 8 (ecp5_out i v) (e_op i v) /\ q_in 400000000 (e_vco i v) 800000000.
Proof.
  intros Hi E. destruct (ecp5_succeeds i o Hi) as (v' & E' & V & _). rewrite E in E'. injection E' as <-. pose proof (e_variants_legal i v Hi V) as L.
  apply e_variants_In in V. destruct V as (R & _ & V & _). destruct (e_close i v ltac:(unfold z_in in Hi; lia) R) as (_ & C1 & C2). auto.
Qed.
(** 100 MHz in, 100 MHz primary and a 400 MHz secondary output: the secondary runs at 600 MHz,
    above the legal 400 MHz. *)
Theorem C97_refuted : exists i_freq o_freq v os_freq, ecp5_settings i_freq o_freq = Some v /\ q_in 10000000 os_freq 400000000 /\
  ecp5_os_actual i_freq v os_freq == (3 # 2) * os_freq /\ ~ q_in 10000000 (ecp5_os_actual i_freq v os_freq) 400000000.
Proof.
  destruct (ecp5_succeeds 100000000 100000000) as (v & E & _); [unfold z_in; lia|]. exists 100000000%Z, 100000000%Z, v, 400000000. split; [exact E|].
  pose proof (ecp5_100 v E) as V. destruct (settings_close 100000000 100000000 v ltac:(unfold z_in; lia) E) as (_ & _ & (_ & C1 & C2) & _). rewrite V in C1, C2. unfold u53 in *.
  assert (D : e_os_div 100000000 v 400000000 == 1).
  { unfold e_os_div. rewrite ffloordiv_spec; [|reflexivity|apply Qle_shift_div_l; lra|apply Qlt_shift_div_r; lra].
    rewrite (Qfloor_unique _ 1); [reflexivity|change (inject_Z 1) with 1; apply Qle_shift_div_l; lra|change (inject_Z 1) with 1; apply Qlt_shift_div_r; lra]. }
  unfold q_in, ecp5_os_actual. rewrite D. split; [lra|]. assert (A : ecp5_vco 100000000 v / 1 == 600000000) by (rewrite V; reflexivity). rewrite A. split; [reflexivity|]. lra.
Qed.
(** What holds, up to one part in 2^49: it is not slower than asked and not twice as fast.  It is
    as asked when the frequency divides the VCO frequency and the input divider divides the
    input frequency. *)
Theorem C97_bounds_partial : forall i_freq o_freq v os_freq, z_in 8000000 i_freq 400000000 ->
  ecp5_settings i_freq o_freq = Some v -> q_in 10000000 os_freq 400000000 ->
  let f := ecp5_os_actual i_freq v os_freq in
  os_freq * (1 - 2 ^ (-49)) <= f /\ f < 2 * os_freq * (1 + 2 ^ (-49)) /\
  ((exists n : Z, ecp5_vco i_freq v == inject_Z n * os_freq) -> (e_i_div v | i_freq)%Z -> f == os_freq).
Proof.
  intros i o v f Hi E [F1 F2]. destruct (settings_close _ _ v Hi E) as (R & L & (W0 & C1 & C2) & _ & [V1 V2]). cbv zeta. unfold ecp5_os_actual.
  assert (A : 1 <= e_vco i v / f) by (apply Qle_shift_div_l; lra). assert (B : e_vco i v / f <= 80) by (apply Qle_shift_div_r; lra).
  assert (D : e_os_div i v f == inject_Z (Qfloor (e_vco i v / f))) by (apply ffloordiv_spec; lra). rewrite D.
  pose proof (Qfloor_le (e_vco i v / f)) as N. pose proof (Qlt_floor (e_vco i v / f)) as N'.
  set (d := Qfloor (e_vco i v / f)) in *. set (w := e_vco i v) in *. set (x := ecp5_vco i v) in *.
  assert (D1 : 1 <= inject_Z d) by (change 1 with (inject_Z 1); apply inject_Z_le_iff; change 1%Z with (Qfloor 1); apply Qfloor_resp_le; exact A).
  rewrite inject_Z_plus in N'. change (inject_Z 1) with 1 in N'.
  assert (Ew : w == (w / f) * f) by (field; lra).
  assert (W1 : inject_Z d * f <= w) by (rewrite Ew; apply Qmult_le_compat_r; lra).
  assert (W2 : w < (inject_Z d + 1) * f) by (rewrite Ew at 1; apply Qmult_lt_compat_r; lra).
  assert (T : 2 ^ (-49) == 16 * u53) by reflexivity. rewrite T.
  assert (C3 : w * (1 - 8 * u53) <= x) by (unfold u53 in *; lra). assert (C4 : x <= w * (1 + 8 * u53)) by (unfold u53 in *; lra).
  assert (DF : 0 < inject_Z d * f) by nra.
  split; [|split].
  - apply Qle_shift_div_l; [lra|]. eapply Qle_trans; [|exact C3]. apply Qle_trans with (inject_Z d * f * (1 - 8 * u53)); [unfold u53; lra|]. apply Qmult_le_compat_r; [exact W1|discriminate].
  - apply Qlt_shift_div_r; [lra|]. eapply Qle_lt_trans; [exact C4|]. apply Qlt_le_trans with ((inject_Z d + 1) * f * (1 + 8 * u53)); [apply Qmult_lt_compat_r; [reflexivity|exact W2]|].
    assert (f <= inject_Z d * f) by nra. unfold u53. lra.
  - intros (n & En) DV. destruct (e_exact i v ltac:(unfold z_in in Hi; lia) R DV (proj2 (proj1 (proj2 (proj2 (proj2 (proj2 L))))))) as (_ & X & _). fold w x in X. 
    assert (n = d).
    { unfold d. symmetry. apply Qfloor_unique; rewrite X, En; (setoid_replace (inject_Z n * f / f) with (inject_Z n) by (field; lra)); lra. }
    subst n. rewrite En. field. lra.
Qed.
Example C97_nonvacuous : z_in 8000000 100000000 400000000 /\ q_in 10000000 50000000 400000000 /\
  exists v, ecp5_settings 100000000 100000000 = Some v /\ ecp5_vco 100000000 v == inject_Z 12 * 50000000.
Proof.
  split; [unfold z_in; lia|]. split; [unfold q_in; lra|]. destruct (ecp5_succeeds 100000000 100000000) as (v & E & _); [unfold z_in; lia|]. exists v. split; [exact E|].
  rewrite (ecp5_100 v E). reflexivity.
Qed.

(** ** C98: the ECP5 coarse phase *)
(** The phase of a secondary output relative to the primary, in VCO cycles, is the asked part of the
    asked period; the primary's own is half its divider; both up to 10^-12. *)
Theorem C98_phase_partial : forall i_freq o_freq v os_freq os_phase, z_in 8000000 i_freq 400000000 -> ecp5_settings i_freq o_freq = Some v ->
  q_in 10000000 os_freq 400000000 -> q_in 0 os_phase 360 ->
  Qabs (e_op_cphase i_freq v - inject_Z (e_op_div v) / 2) <= 1 # 1000000000000 /\
  Qabs (e_os_cphase i_freq v os_freq os_phase - e_op_cphase i_freq v - os_phase / 360 * (ecp5_vco i_freq v / os_freq)) <= 1 # 1000000000000.
Proof.
  intros i o v f ph Hi E [F1 F2] [P1 P2]. destruct (settings_close _ _ v Hi E) as (R & L & CV & CO & [V1 V2]).
  pose proof R as (_ & _ & R3). unfold z_in in R3. pose proof (iZ_pos (e_op_div v) ltac:(lia)) as D.
  assert (D2 : inject_Z (e_op_div v) <= 128) by (change 128 with (inject_Z 128); apply iZ_le; lia).
  assert (Vo : 0 < ecp5_vco i v) by apply CV. assert (Oo : 0 < ecp5_out i v) by apply CO.
  assert (C : close 24 (inject_Z (e_op_div v) / 2) (e_op_cphase i v)).
  { unfold e_op_cphase, fmul, fdiv. apply (close_rnd 22); [discriminate|discriminate|]. 
    apply (close_comp 22 (1 / ecp5_out i v * (1 # 2) * ecp5_vco i v) _ (rnd (rnd (1 / e_op i v) * (1 # 2)) * e_vco i v)); [unfold ecp5_vco; field; lra|reflexivity|].
    apply (close_weak (13 + 6 + 1)); [discriminate|]. apply close_mul; [discriminate|discriminate|discriminate|discriminate| |exact CV].
    apply (close_rnd 11); [discriminate|discriminate|]. apply close_mul_c; [reflexivity|]. apply (close_rnd 9); [discriminate|discriminate|].
    apply (close_inv 8); [discriminate|discriminate|exact CO]. }
  assert (C' := C). destruct C' as (_ & A1 & A2). split.
  { apply Qabs_Qle_condition. unfold u53 in *. assert (inject_Z (e_op_div v) / 2 == inject_Z (e_op_div v) * (1 # 2)) by field. rewrite H in *. split; lra. }
  unfold e_os_cphase. set (c := e_op_cphase i v) in *. set (k := fmul (fdiv (fmul (fdiv 1 f) ph) 360) (e_vco i v)). set (t := ph / 360 * (ecp5_vco i v / f)).
  assert (T0 : 0 <= t). { unfold t. apply Qmult_le_0_compat; [apply Qle_shift_div_l; lra|apply Qle_shift_div_l; lra]. }
  assert (T1 : t <= 80). { unfold t. assert (ph / 360 <= 1) by (apply Qle_shift_div_r; lra). assert (ecp5_vco i v / f <= 80) by (apply Qle_shift_div_r; [lra|]; destruct L as (_ & _ & _ & _ & [_ L] & _); lra).
    assert (0 <= ph / 360) by (apply Qle_shift_div_l; lra). assert (0 <= ecp5_vco i v / f) by (apply Qle_shift_div_l; lra). nra. }
  assert (K : Qabs (k - t) <= 20 * u53 * 80).
  { destruct (Qeq_dec ph 0) as [Z|Z].
    - assert (Kz : k == 0). { unfold k, fmul, fdiv. rewrite Z, Qmult_0_r, rnd_0. setoid_replace (0 / 360) with 0 by reflexivity. rewrite rnd_0, Qmult_0_l. apply rnd_0. }
      assert (Tz : t == 0). { unfold t. rewrite Z. setoid_replace (0 / 360) with 0 by reflexivity. apply Qmult_0_l. }
      rewrite Kz, Tz. discriminate.
    - assert (CK : close 17 t k).
      { unfold k, t, fmul, fdiv. apply (close_rnd 15); [discriminate|discriminate|].
        apply (close_comp 15 (1 / f * ph / 360 * ecp5_vco i v) _ (rnd (rnd (rnd (1 / f) * ph) / 360) * e_vco i v)); [field; lra|reflexivity|].
        apply (close_weak (6 + 6 + 1)); [discriminate|]. apply close_mul; [discriminate|discriminate|discriminate|discriminate| |exact CV].
        apply (close_rnd 4); [discriminate|discriminate|]. apply close_div_c; [reflexivity|]. apply (close_rnd 2); [discriminate|discriminate|]. apply close_mul_c; [lra|].
        apply (close_rnd 0); [discriminate|discriminate|]. apply close_refl. apply Qlt_shift_div_l; lra. }
      destruct CK as (_ & B1 & B2). apply Qabs_Qle_condition. unfold u53 in *. split; lra. }
  unfold fadd. assert (CB : Qabs (c + k) <= 1000).
  { apply Qabs_Qle_condition in K. apply Qabs_Qle_condition. unfold u53 in *. assert (inject_Z (e_op_div v) / 2 == inject_Z (e_op_div v) * (1 # 2)) by field. rewrite H in *. split; lra. }
  pose proof (rnd_abs _ _ CB) as RA. apply Qabs_Qle_condition in RA, K. apply Qabs_Qle_condition. unfold u53 in *. split; lra.
Qed.
Lemma ecp5_good2 : ecp5_legal 200000000 (Ecp5 1 1 3).
Proof. unfold ecp5_legal, ecp5_vco, ecp5_out, ecp5_pfd, z_in, q_in. cbn [e_i_div e_fb_div e_op_div]. repeat split; try lia; vm_compute; discriminate. Qed.
Lemma ecp5_200 v : ecp5_settings 200000000 200000000 = Some v -> e_op_div v = 3%Z.
Proof.
  intros E. destruct (C66_ecp5_partial 200000000 200000000) as (v' & E' & L & _ & O); [unfold z_in; lia|unfold z_in; lia|]. rewrite E in E'. injection E' as <-.
  destruct (O _ ecp5_good2 ltac:(reflexivity)) as [O1 O2]. assert (Z : ecp5_vco_dist 200000000 (Ecp5 1 1 3) == 0) by reflexivity. rewrite Z in O2.
  unfold ecp5_vco_dist in O2. apply Qabs_Qle_condition in O2. assert (V : ecp5_vco 200000000 v == 600000000) by lra.
  unfold ecp5_vco in V. rewrite O1 in V. apply inject_Z_injective. change (inject_Z 200000000) with 200000000 in V. change (inject_Z 3) with 3. lra.
Qed.
(** 200 MHz in and out: the phase parameter of the primary output is 3/2. *)
Theorem C98_refuted : exists i_freq o_freq v, ecp5_settings i_freq o_freq = Some v /\ z_in 8000000 i_freq 400000000 /\ z_in 10000000 o_freq 400000000 /\
  ~ exists n : Z, e_op_cphase i_freq v == inject_Z n.
Proof.
  destruct (ecp5_succeeds 200000000 200000000) as (v & E & _); [unfold z_in; lia|]. exists 200000000%Z, 200000000%Z, v. split; [exact E|].
  split; [unfold z_in; lia|]. split; [unfold z_in; lia|]. intros (n & N).
  destruct (C98_phase_partial 200000000 200000000 v 100000000 0) as [A _]; [unfold z_in; lia|exact E|unfold q_in; lra|unfold q_in; lra|].
  rewrite (ecp5_200 v E), N in A. apply Qabs_Qle_condition in A. assert (T : inject_Z 3 / 2 == 3 # 2) by reflexivity. rewrite T in A.
  assert (X : inject_Z 1 < inject_Z n) by (change (inject_Z 1) with 1; lra). assert (Y : inject_Z n < inject_Z 2) by (change (inject_Z 2) with 2; lra).
  apply (proj1 (iZ_lt _ _)) in X. apply (proj1 (iZ_lt _ _)) in Y. lia.
Qed.
Example C98_nonvacuous : exists v, ecp5_settings 200000000 200000000 = Some v /\ q_in 10000000 100000000 400000000 /\ q_in 0 90 360.
Proof. destruct (ecp5_succeeds 200000000 200000000) as (v & E & _); [unfold z_in; lia|]. exists v. split; [exact E|]. unfold q_in. lra. Qed.

(** ** C68: freezing *)
Section Freeze.
  Context {S : Type} (settings : option S) (lo hi : Q) (most : nat).
  Lemma pll_run_app a b o : pll_run settings lo hi most (a ++ b) o = pll_run settings lo hi most b (pll_run settings lo hi most a o).
  Proof. apply fold_left_app. Qed.
  Lemma pll_frozen op o : pl_set o <> None -> fst (pll_step settings lo hi most o op) = o.
  Proof. intros H. destruct op, (pl_set o) eqn:E; cbn [pll_step]; rewrite ?E; cbn; congruence. Qed.
  Lemma pll_run_frozen ops o : pl_set o <> None -> pll_run settings lo hi most ops o = o.
  Proof. intros H. induction ops as [|op ops IH]; [reflexivity|]. unfold pll_run in *. cbn [fold_left]. now rewrite pll_frozen. Qed.
  Definition pll_inv (o : pll_obj S) : Prop :=
    (length (pl_outs o) <= most)%nat /\ NoDup (map fst (pl_outs o)) /\
    (forall d f p, In (d, (f, p)) (pl_outs o) -> q_in lo f hi /\ q_in 0 p 360).
  Lemma existsb_domain d (l : list (string * (Q * Q))) : existsb (fun e => String.eqb d (fst e)) l = false -> ~ In d (map fst l).
  Proof.
    intros H X. apply in_map_iff in X. destruct X as (e & <- & X).
    enough (existsb (fun e0 => String.eqb (fst e) (fst e0)) l = true) by congruence. apply existsb_exists. exists e. split; [exact X|apply String.eqb_refl].
  Qed.
  Lemma pll_inv_step op o : pll_inv o -> pll_inv (fst (pll_step settings lo hi most o op)).
  Proof.
    intros (I1 & I2 & I3). destruct op as [d f p|]; cbn [pll_step].
    - destruct (pl_set o); [repeat split; auto; eapply I3; eauto|].
      destruct (between lo f hi) eqn:B1; [|repeat split; auto; eapply I3; eauto].
      destruct (between 0 p 360) eqn:B2; [|repeat split; auto; eapply I3; eauto].
      destruct (Nat.eqb_spec (length (pl_outs o)) most) as [B3|B3]; [repeat split; auto; eapply I3; eauto|].
      destruct (existsb (fun e => String.eqb d (fst e)) (pl_outs o)) eqn:B4; [repeat split; auto; eapply I3; eauto|].
      cbn [negb orb fst]. unfold pll_inv. cbn [pl_outs]. split; [rewrite app_length; cbn; lia|]. split.
      + rewrite map_app. cbn [map fst]. apply existsb_domain in B4. clear - I2 B4.
        induction (map fst (pl_outs o)) as [|x l IH]; cbn; [constructor; [intros []|constructor]|]. inversion I2; subst. constructor.
        * intros X. apply in_app_iff in X. destruct X as [X|[X|[]]]; [auto|]. subst. apply B4. now left.
        * apply IH; auto. intros X. apply B4. now right.
      + intros d' f' p' X. apply in_app_iff in X. destruct X as [X|[X|[]]]; [eauto|]. injection X as <- <- <-. apply between_spec in B1, B2. auto.
    - destruct (pl_set o); [repeat split; auto; eapply I3; eauto|]. destruct settings; repeat split; auto; eapply I3; eauto.
  Qed.
  Lemma pll_inv_run ops o : pll_inv o -> pll_inv (pll_run settings lo hi most ops o).
  Proof. revert o. induction ops as [|op ops IH]; intros o H; [exact H|]. apply IH, pll_inv_step, H. Qed.
  Lemma pll_os_run ops : let o := pll_run settings lo hi most ops pll_new in
    match pl_set o with None => pl_os o = [] | Some s => settings = Some s /\ pl_os o = pl_outs o end.
  Proof.
    cbv zeta. induction ops as [|op ops IH] using rev_ind; [reflexivity|]. rewrite pll_run_app. set (o := pll_run settings lo hi most ops pll_new) in *. clearbody o.
    unfold pll_run. cbn [fold_left]. destruct op as [d f p|]; cbn [pll_step]; destruct (pl_set o) eqn:E; cbn [fst]; rewrite ?E; auto.
    - match goal with |- context[if ?b then _ else _] => destruct b end; cbn [fst]; [now rewrite E|exact IH].
    - destruct settings; cbn [fst pl_set pl_os pl_outs]; [auto|]. now rewrite E.
  Qed.
  Lemma pll_general s ops more : settings = Some s ->
    let o := pll_run settings lo hi most (ops ++ [Compute]) pll_new in
    snd (pll_step settings lo hi most (pll_run settings lo hi most ops pll_new) Compute) = true /\
    pl_set o = Some s /\ pl_os o = pl_outs (pll_run settings lo hi most ops pll_new) /\
    pll_run settings lo hi most more o = o /\
    snd (pll_step settings lo hi most (pll_run settings lo hi most more o) Compute) = true /\
    (forall d f p, snd (pll_step settings lo hi most (pll_run settings lo hi most more o) (AddSecondary d f p)) = false).
  Proof.
    intros Hs. cbv zeta. rewrite pll_run_app. pose proof (pll_os_run ops) as H. cbv zeta in H. set (o := pll_run settings lo hi most ops pll_new) in *. clearbody o.
    change (pll_run settings lo hi most [Compute] o) with (fst (pll_step settings lo hi most o Compute)).
    assert (F : snd (pll_step settings lo hi most o Compute) = true /\ pl_set (fst (pll_step settings lo hi most o Compute)) = Some s /\ pl_os (fst (pll_step settings lo hi most o Compute)) = pl_outs o).
    { cbn [pll_step]. destruct (pl_set o) as [s'|] eqn:E; cbn [fst snd].
      - destruct H as [H1 H2]. split; [reflexivity|]. split; [congruence|exact H2].
      - rewrite Hs. cbn. auto. }
    destruct F as (F1 & F2 & F3). set (o' := fst (pll_step settings lo hi most o Compute)) in *. clearbody o'.
    split; [exact F1|]. split; [exact F2|]. split; [exact F3|]. rewrite pll_run_frozen by congruence. split; [reflexivity|]. cbn [pll_step]. rewrite F2. auto.
  Qed.
End Freeze.
(** What the user sees of a parameter object: the settings and the secondary outputs. *)
Definition ecp5_run (i_freq o_freq : Z) := pll_run (ecp5_settings i_freq o_freq) 10000000 400000000 3.
Definition ecp5_call (i_freq o_freq : Z) := pll_step (ecp5_settings i_freq o_freq) 10000000 400000000 3.
Definition xil_run (i_freq o_freq : Z) := pll_run (xil_settings i_freq o_freq) 6250000 800000000 5.
Definition xil_call (i_freq o_freq : Z) := pll_step (xil_settings i_freq o_freq) 6250000 800000000 5.
(** After a compute, whatever calls follow: the object is unchanged, compute succeeds again and
    every addition fails. *)
Theorem C68_ecp5_freeze : forall i_freq o_freq ops more, z_in 8000000 i_freq 400000000 ->
  let o := ecp5_run i_freq o_freq (ops ++ [Compute]) pll_new in
  pl_set o = ecp5_settings i_freq o_freq /\ pl_os o = pl_outs (ecp5_run i_freq o_freq ops pll_new) /\
  snd (ecp5_call i_freq o_freq (ecp5_run i_freq o_freq ops pll_new) Compute) = true /\
  ecp5_run i_freq o_freq more o = o /\
  snd (ecp5_call i_freq o_freq (ecp5_run i_freq o_freq more o) Compute) = true /\
  (forall d f p, snd (ecp5_call i_freq o_freq (ecp5_run i_freq o_freq more o) (AddSecondary d f p)) = false).
Proof.
  intros i o ops more H. destruct (ecp5_succeeds i o H) as (v & E & _). unfold ecp5_run, ecp5_call.
  pose proof (pll_general (ecp5_settings i o) 10000000 400000000 3 v ops more E) as G. cbv zeta in *. destruct G as (G1 & G2 & G3 & G4 & G5 & G6). split; [rewrite G2; symmetry; exact E|]. repeat (split; [assumption|]). assumption.
Qed.
Theorem C68_xilinx_freeze : forall i_freq o_freq ops more, z_in 19000000 i_freq 800000000 ->
  let o := xil_run i_freq o_freq (ops ++ [Compute]) pll_new in
  pl_set o = xil_settings i_freq o_freq /\ pl_os o = pl_outs (xil_run i_freq o_freq ops pll_new) /\
  snd (xil_call i_freq o_freq (xil_run i_freq o_freq ops pll_new) Compute) = true /\
  xil_run i_freq o_freq more o = o /\
  snd (xil_call i_freq o_freq (xil_run i_freq o_freq more o) Compute) = true /\
  (forall d f p, snd (xil_call i_freq o_freq (xil_run i_freq o_freq more o) (AddSecondary d f p)) = false).
Proof.
  intros i o ops more H. destruct (xil_succeeds i o H) as (v & E & _). unfold xil_run, xil_call.
  pose proof (pll_general (xil_settings i o) 6250000 800000000 5 v ops more E) as G. cbv zeta in *. destruct G as (G1 & G2 & G3 & G4 & G5 & G6). split; [rewrite G2; symmetry; exact E|]. repeat (split; [assumption|]). assumption.
Qed.
(** Never more than 3 / 5 secondary outputs, in different domains, with legal frequencies and phases;
    an addition before the freeze is accepted exactly when it keeps to this, and is then the last
    output. *)
Theorem C68_outputs : forall i_freq o_freq ops,
  (let o := ecp5_run i_freq o_freq ops pll_new in
   (length (pl_outs o) <= 3)%nat /\ NoDup (map fst (pl_outs o)) /\
   (forall d f p, In (d, (f, p)) (pl_outs o) -> q_in 10000000 f 400000000 /\ q_in 0 p 360)) /\
  (let o := xil_run i_freq o_freq ops pll_new in
   (length (pl_outs o) <= 5)%nat /\ NoDup (map fst (pl_outs o)) /\
   (forall d f p, In (d, (f, p)) (pl_outs o) -> q_in 6250000 f 800000000 /\ q_in 0 p 360)).
Proof. intros i o ops. split; apply pll_inv_run; (split; [cbn; lia|split; [constructor|intros d f p []]]). Qed.
Lemma pll_accept {S} (settings : option S) lo hi most o d f p : pl_set o = None -> pll_inv lo hi most o ->
  let r := pll_step settings lo hi most o (AddSecondary d f p) in
  (snd r = true <-> (length (pl_outs o) < most)%nat /\ ~ In d (map fst (pl_outs o)) /\ q_in lo f hi /\ q_in 0 p 360) /\
  pl_outs (fst r) = pl_outs o ++ (if snd r then [(d, (f, p))] else []).
Proof.
  intros E (I1 & _). cbv zeta. cbn [pll_step]. rewrite E.
  destruct (between lo f hi) eqn:B1; cbn [negb orb fst snd].
  2:{ split; [|now rewrite app_nil_r]. split; [discriminate|]. intros (_ & _ & B & _). apply between_spec in B. congruence. }
  destruct (between 0 p 360) eqn:B2; cbn [negb orb fst snd].
  2:{ split; [|now rewrite app_nil_r]. split; [discriminate|]. intros (_ & _ & _ & B). apply between_spec in B. congruence. }
  destruct (Nat.eqb_spec (length (pl_outs o)) most) as [B3|B3]; cbn [negb orb fst snd].
  1:{ split; [|now rewrite app_nil_r]. split; [discriminate|]. intros (B & _). lia. }
  destruct (existsb (fun e => String.eqb d (fst e)) (pl_outs o)) eqn:B4; cbn [negb orb fst snd].
  - split; [|now rewrite app_nil_r]. split; [discriminate|]. intros (_ & B & _). exfalso. apply B. apply existsb_exists in B4.
    destruct B4 as (e & X & B4). apply String.eqb_eq in B4. subst. now apply in_map.
  - split; [|reflexivity]. apply between_spec in B1, B2. apply existsb_domain in B4. split; [intros _; split; [lia|auto]|auto].
Qed.
Theorem C68_accepts : forall i_freq o_freq ops d f p,
  (let o := ecp5_run i_freq o_freq ops pll_new in let r := ecp5_call i_freq o_freq o (AddSecondary d f p) in
   pl_set o = None ->
   (snd r = true <-> (length (pl_outs o) < 3)%nat /\ ~ In d (map fst (pl_outs o)) /\ q_in 10000000 f 400000000 /\ q_in 0 p 360) /\
   pl_outs (fst r) = pl_outs o ++ (if snd r then [(d, (f, p))] else [])) /\
  (let o := xil_run i_freq o_freq ops pll_new in let r := xil_call i_freq o_freq o (AddSecondary d f p) in
   pl_set o = None ->
   (snd r = true <-> (length (pl_outs o) < 5)%nat /\ ~ In d (map fst (pl_outs o)) /\ q_in 6250000 f 800000000 /\ q_in 0 p 360) /\
   pl_outs (fst r) = pl_outs o ++ (if snd r then [(d, (f, p))] else [])).
Proof. intros i o ops d f p. split; cbv zeta; intros E; apply pll_accept; auto; apply pll_inv_run; (split; [cbn; lia|split; [constructor|intros d' f' p' []]]). Qed.
Example C68_nonvacuous :
  let o := xil_run 100000000 100000000 [AddSecondary "a" 50000000 90; AddSecondary "a" 50000000 0; AddSecondary "b" 900000000 0; AddSecondary "c" 25000000 0] pll_new in
  pl_set o = None /\ map fst (pl_outs o) = ["a"%string; "c"%string].
Proof. split; lazy; reflexivity. Qed.

(** ** C99: a secondary output can claim the clock domain of the primary one *)
Theorem C99_refuted : forall i_freq o_freq o_domain,
  exists ops, In o_domain (map fst (pl_outs (ecp5_run i_freq o_freq ops pll_new))) /\ In o_domain (map fst (pl_outs (xil_run i_freq o_freq ops pll_new))).
Proof. intros i o d. exists [AddSecondary d 100000000 0]. split; left; reflexivity. Qed.
(** What holds is the distinctness of the secondary ones. *)
Theorem C99_secondary_partial : forall i_freq o_freq ops,
  NoDup (map fst (pl_outs (ecp5_run i_freq o_freq ops pll_new))) /\ NoDup (map fst (pl_outs (xil_run i_freq o_freq ops pll_new))).
Proof. intros i o ops. destruct (C68_outputs i o ops) as [(_ & A & _) (_ & B & _)]. auto. Qed.
Example C99_nonvacuous : exists o : pll_obj ecp5_set, o = ecp5_run 100000000 100000000 [AddSecondary "sync" 100000000 0] pll_new /\ pl_outs o <> [].
Proof. eexists. split; [reflexivity|]. discriminate. Qed.

Print Assumptions C66_ecp5_partial.
Print Assumptions C67_xilinx_partial.
Print Assumptions C68_ecp5_freeze.
Print Assumptions C68_xilinx_freeze.
Print Assumptions C68_outputs.
Print Assumptions C68_accepts.
Print Assumptions C69_ecp5.
Print Assumptions C69_xilinx_refuted.
Print Assumptions C69_xilinx_partial.
Print Assumptions C97_refuted.
Print Assumptions C97_bounds_partial.
Print Assumptions C98_phase_partial.
Print Assumptions C98_refuted.
Print Assumptions C99_refuted.
Print Assumptions C99_secondary_partial.
