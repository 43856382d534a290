(** What the rounding of floats breaks in the choice of PLL settings: C66, C67, C97. *)
From Coq Require Import Lqa.
From Verif Require Import Pll_model Float_proofs Pll_props Plltie_props.

(** Fractions compared by cross-multiplication. *)
Lemma frac_ge m a n d : (0 < a)%Z -> n # d <= inject_Z m / inject_Z a -> (n * a <= m * Zpos d)%Z.
Proof.
  intros Ha H. assert (A : 0 < inject_Z a) by (change 0 with (inject_Z 0); now apply iZ_lt).
  assert (E : inject_Z m / inject_Z a * inject_Z a == inject_Z m) by (field; lra).
  assert (G : (n # d) * inject_Z a <= inject_Z m) by (rewrite <- E; apply Qmult_le_compat_r; [exact H|lra]).
  unfold Qle in G. cbn [Qnum Qden Qmult inject_Z] in G. lia.
Qed.
Lemma frac_le m a n d : (0 < a)%Z -> inject_Z m / inject_Z a <= n # d -> (m * Zpos d <= n * a)%Z.
Proof.
  intros Ha H. assert (A : 0 < inject_Z a) by (change 0 with (inject_Z 0); now apply iZ_lt).
  assert (E : inject_Z m / inject_Z a * inject_Z a == inject_Z m) by (field; lra).
  assert (G : inject_Z m <= (n # d) * inject_Z a) by (rewrite <- E; apply Qmult_le_compat_r; [exact H|lra]).
  unfold Qle in G. cbn [Qnum Qden Qmult inject_Z] in G. lia.
Qed.
Lemma ecp5_ints i v : ecp5_legal i v -> exists a b c, v = Ecp5 a b c /\ (1 <= a <= 128 /\ 1 <= b <= 80 /\ 1 <= c <= 128 /\
  3125000 * a <= i /\ 400000000 * a <= i * b * c <= 800000000 * a)%Z /\ ecp5_out i v == inject_Z (i * b) / inject_Z a.
Proof.
  destruct v as [a b c]. unfold ecp5_legal, ecp5_vco, ecp5_out, ecp5_pfd, z_in, q_in. cbn [e_i_div e_fb_div e_op_div].
  intros (Ha & Hb & Hc & [P _] & [V1 V2] & _). exists a, b, c. split; [reflexivity|].
  assert (A : 0 < inject_Z a) by (change 0 with (inject_Z 0); apply iZ_lt; lia).
  assert (E : inject_Z i / inject_Z a * inject_Z b == inject_Z (i * b) / inject_Z a) by (rewrite inject_Z_mult; field; lra). split; [|exact E].
  assert (F : inject_Z i / inject_Z a * inject_Z b * inject_Z c == inject_Z (i * b * c) / inject_Z a) by (rewrite !inject_Z_mult; field; lra).
  rewrite F in V1, V2. apply frac_ge in P; [|lia]. apply frac_ge in V1; [|lia]. apply frac_le in V2; [|lia]. lia.
Qed.
Lemma xil_ints i v : xil_legal i v -> exists a b c, v = Xil a b c /\ (1 <= a <= 56 /\ 2 <= b <= 64 /\ 1 <= c <= 128 /\
  800000000 * a <= i * b <= 1600000000 * a)%Z /\ xil_out i v == inject_Z (i * b) / inject_Z (a * c).
Proof.
  destruct v as [a b c]. unfold xil_legal, xil_out, xil_vco, z_in, q_in. cbn [x_divclk x_mult x_div0].
  intros (Ha & Hb & Hc & [V1 V2] & _). exists a, b, c. split; [reflexivity|].
  assert (A : 0 < inject_Z a) by (change 0 with (inject_Z 0); apply iZ_lt; lia). assert (C : 0 < inject_Z c) by (change 0 with (inject_Z 0); apply iZ_lt; lia).
  split; [|rewrite !inject_Z_mult; field; lra]. rewrite <- inject_Z_mult in V1, V2. apply frac_ge in V1; [|lia]. apply frac_le in V2; [|lia]. lia.
Qed.
Lemma abs_le x o e : Qabs (x - o) <= e -> o - e <= x /\ x <= o + e.
Proof. intros H. apply Qabs_Qle_condition in H. lra. Qed.
Lemma e_len i o v : length (e_error i o v) = 3%nat. Proof. reflexivity. Qed.
Lemma x_len i o v : length (x_error i o v) = 2%nat. Proof. reflexivity. Qed.
(** The candidates with the given output frequency, and the best of them. *)
Lemma ecp5_pick i o a b c cs : z_in 8000000 i 400000000 -> z_in 10000000 o 400000000 -> ecp5_legal i (Ecp5 a b c) -> In (Ecp5 a b c) (e_variants i) ->
  (forall v, ecp5_legal i v -> ecp5_out_error i o v <= ecp5_out_error i o (Ecp5 a b c) -> exists c', v = Ecp5 a b c' /\ In c' cs) ->
  forallb (fun c' => (c' =? c)%Z || lex_lt (e_error i o (Ecp5 a b c)) (e_error i o (Ecp5 a b c'))) cs = true ->
  ecp5_settings i o = Some (Ecp5 a b c).
Proof.
  intros Hi Ho L V H F. destruct (C66_ecp5_partial i o Hi Ho) as (v & E & Lv & Bv & _). rewrite E. f_equal.
  destruct (H v Lv (Bv _ L)) as (c' & -> & C). rewrite forallb_forall in F. specialize (F c' C). apply orb_prop in F. destruct F as [F|F].
  - apply Z.eqb_eq in F. now subst.
  - exfalso. destruct (e_best i o _ E) as [_ M]. exact (lex_lt_false (e_error i o (Ecp5 a b c)) (e_error i o (Ecp5 a b c')) (eq_trans (e_len _ _ _) (eq_sym (e_len _ _ _))) F (M _ V)).
Qed.

(** 67 MHz from 10 MHz: dividers 3 and 20 give 66.67 MHz, and with output divider 9 the VCO would run at
    exactly 600 MHz.  The output divider taken is 8, with the VCO at 533.33 MHz, because
    600 MHz / 9 is rounded further away from 67 MHz than 533.33 MHz / 8. *)
Lemma ecp5_10_67 : ecp5_settings 10000000 67000000 = Some (Ecp5 3 20 8).
Proof.
  apply (ecp5_pick _ _ _ _ _ (irange 6 7)); [unfold z_in; lia|unfold z_in; lia| | | |vm_compute; reflexivity].
  - unfold ecp5_legal, ecp5_vco, ecp5_out, ecp5_pfd, z_in, q_in. cbn [e_i_div e_fb_div e_op_div]. repeat split; try lia; vm_compute; discriminate.
  - apply (proj1 (considered_In _ _)). unfold ecp5_considered, z_in, q_in. cbn [e_i_div e_fb_div e_op_div]. repeat split; try lia; vm_compute; discriminate.
  - intros v L H. destruct (ecp5_ints _ _ L) as (a & b & c & -> & (Ha & Hb & Hc & P & V) & E). unfold ecp5_out_error in H.
    rewrite E in H. apply abs_le in H. destruct H as [H1 H2].
    assert (X : inject_Z 67000000 - Qabs (ecp5_out 10000000 (Ecp5 3 20 8) - inject_Z 67000000) == 200000000 # 3) by reflexivity.
    assert (Y : inject_Z 67000000 + Qabs (ecp5_out 10000000 (Ecp5 3 20 8) - inject_Z 67000000) == 202000000 # 3) by reflexivity.
    rewrite X in H1. rewrite Y in H2. apply frac_ge in H1; [|lia]. apply frac_le in H2; [|lia].
    assert (A : (a = 1 \/ a = 2 \/ a = 3)%Z) by lia. assert (R : (a = 3 /\ b = 20)%Z) by (destruct A as [->|[->| ->]]; lia). destruct R as [-> ->].
    exists c. split; [reflexivity|]. apply irange_In. lia.
Qed.
Theorem C66_vco_refuted : exists i_freq o_freq v w, z_in 8000000 i_freq 400000000 /\ z_in 10000000 o_freq 400000000 /\
  ecp5_settings i_freq o_freq = Some v /\ ecp5_legal i_freq w /\
  ecp5_out_error i_freq o_freq w == ecp5_out_error i_freq o_freq v /\ ecp5_vco_dist i_freq w == 0 /\ 66000000 < ecp5_vco_dist i_freq v.
Proof.
  exists 10000000%Z, 67000000%Z, (Ecp5 3 20 8), (Ecp5 3 20 9). split; [unfold z_in; lia|]. split; [unfold z_in; lia|]. split; [exact ecp5_10_67|].
  split; [|split; [reflexivity|split; reflexivity]].
  unfold ecp5_legal, ecp5_vco, ecp5_out, ecp5_pfd, z_in, q_in. cbn [e_i_div e_fb_div e_op_div]. repeat split; try lia; vm_compute; discriminate.
Qed.
(** 91 MHz from 44 MHz: 31 / 15 and 62 / 3 / 10 both give 90.93 MHz, the first with the VCO
    164 MHz from 1200 MHz; the second, 291 MHz from it, is taken. *)
Definition xil_near : list xil_set :=
  flat_map (fun a => flat_map (fun b => flat_map (fun c =>
    if (15 * Z.abs (44 * b - 91 * (a * c)) <=? a * c + 1)%Z then [Xil a b c] else []) (irange 1 20)) (irange 2 63)) (irange 1 3).
Lemma xil_44_91 : xil_settings 44000000 91000000 = Some (Xil 3 62 10).
Proof.
  assert (Hi : z_in 19000000 44000000 800000000) by (unfold z_in; lia). assert (Ho : z_in 6250000 91000000 800000000) by (unfold z_in; lia).
  assert (L0 : xil_legal 44000000 (Xil 3 62 10)).
  { unfold xil_legal, xil_out, xil_vco, z_in, q_in. cbn [x_divclk x_mult x_div0]. repeat split; try lia; vm_compute; discriminate. }
  destruct (xil_succeeds 44000000 91000000 Hi) as (v & E & L & B). rewrite E. f_equal.
  destruct (C67_xilinx_partial 44000000 91000000 Hi Ho) as (v' & E' & _ & O & _). rewrite E in E'. injection E' as <-.
  specialize (O _ L0). specialize (B _ L0). clear E.
  assert (N : In v xil_near).
  { destruct (xil_ints _ _ L) as (a & b & c & -> & (Ha & Hb & Hc & V) & X). unfold xil_out_error in O. rewrite X in O. apply abs_le in O. destruct O as [H1 H2].
    assert (Y1 : 90933333 # 1 <= inject_Z 91000000 - (Qabs (xil_out 44000000 (Xil 3 62 10) - inject_Z 91000000) + (2 # 1000000))) by (vm_compute; discriminate).
    assert (Y2 : inject_Z 91000000 + (Qabs (xil_out 44000000 (Xil 3 62 10) - inject_Z 91000000) + (2 # 1000000)) <= 91066667 # 1) by (vm_compute; discriminate).
    assert (P : (0 < a * c)%Z) by nia.
    apply (Qle_trans _ _ _ Y1) in H1. pose proof (Qle_trans _ _ _ H2 Y2) as H2'. apply frac_ge in H1; [|exact P]. apply frac_le in H2'; [|exact P].
    assert (A : (a <= 3)%Z) by lia. assert (C : (c <= 20)%Z) by nia.
    unfold xil_near. apply in_flat_map. exists a. split; [apply irange_In; lia|]. apply in_flat_map. exists b. split; [apply irange_In; lia|]. apply in_flat_map. exists c. split; [apply irange_In; lia|].
    set (p := (a * c)%Z) in *. destruct (Z.leb_spec (15 * Z.abs (44 * b - 91 * p)) (p + 1)) as [_|G]; [now left|exfalso]. assert (p <= 60)%Z by nia. lia. }
  assert (K : forallb (fun w => match w with Xil a b c => (a =? 3)%Z && (b =? 62)%Z && (c =? 10)%Z end || lex_lt (x_error 44000000 91000000 (Xil 3 62 10)) (x_error 44000000 91000000 w)) xil_near = true) by (vm_compute; reflexivity).
  rewrite forallb_forall in K. specialize (K v N). apply orb_prop in K. destruct K as [K|K].
  - destruct v as [a b c]. apply andb_prop in K. destruct K as [K K3]. apply andb_prop in K. destruct K as [K1 K2]. apply Z.eqb_eq in K1, K2, K3. now subst.
  - exfalso. exact (lex_lt_false (x_error 44000000 91000000 (Xil 3 62 10)) (x_error 44000000 91000000 v) (eq_trans (x_len _ _ _) (eq_sym (x_len _ _ _))) K B).
Qed.
Theorem C67_vco_refuted : exists i_freq o_freq v w, z_in 19000000 i_freq 800000000 /\ z_in 6250000 o_freq 800000000 /\
  xil_settings i_freq o_freq = Some v /\ xil_legal i_freq w /\
  xil_out_error i_freq o_freq w == xil_out_error i_freq o_freq v /\ xil_vco_dist i_freq w == 164000000 /\ 290000000 < xil_vco_dist i_freq v.
Proof.
  exists 44000000%Z, 91000000%Z, (Xil 3 62 10), (Xil 1 31 15). split; [unfold z_in; lia|]. split; [unfold z_in; lia|]. split; [exact xil_44_91|].
  split; [|split; [reflexivity|split; reflexivity]].
  unfold xil_legal, xil_out, xil_vco, z_in, q_in. cbn [x_divclk x_mult x_div0]. repeat split; try lia; vm_compute; discriminate.
Qed.
(** 40.333333 MHz from 11 MHz puts the VCO at exactly 605 MHz, five times 121 MHz; a secondary output of
    121 MHz is given the divider 4 and runs at 151.25 MHz, because the VCO frequency is
    rounded to just below 605 MHz. *)
Lemma ecp5_11_40 : ecp5_settings 11000000 40333333 = Some (Ecp5 3 11 15).
Proof.
  apply (ecp5_pick _ _ _ _ _ (irange 10 10)); [unfold z_in; lia|unfold z_in; lia| | | |vm_compute; reflexivity].
  - unfold ecp5_legal, ecp5_vco, ecp5_out, ecp5_pfd, z_in, q_in. cbn [e_i_div e_fb_div e_op_div]. repeat split; try lia; vm_compute; discriminate.
  - apply (proj1 (considered_In _ _)). unfold ecp5_considered, z_in, q_in. cbn [e_i_div e_fb_div e_op_div]. repeat split; try lia; vm_compute; discriminate.
  - intros v L H. destruct (ecp5_ints _ _ L) as (a & b & c & -> & (Ha & Hb & Hc & P & V) & E). unfold ecp5_out_error in H.
    rewrite E in H. apply abs_le in H. destruct H as [H1 H2].
    assert (X : inject_Z 40333333 - Qabs (ecp5_out 11000000 (Ecp5 3 11 15) - inject_Z 40333333) == 120999998 # 3) by reflexivity.
    assert (Y : inject_Z 40333333 + Qabs (ecp5_out 11000000 (Ecp5 3 11 15) - inject_Z 40333333) == 121000000 # 3) by reflexivity.
    rewrite X in H1. rewrite Y in H2. apply frac_ge in H1; [|lia]. apply frac_le in H2; [|lia].
    assert (A : (a = 1 \/ a = 2 \/ a = 3)%Z) by lia. assert (R : (a = 3 /\ b = 11)%Z) by (destruct A as [->|[->| ->]]; lia). destruct R as [-> ->].
    exists c. split; [reflexivity|]. apply irange_In. lia.
Qed.
Theorem C97_divides_refuted : exists i_freq o_freq v os_freq, z_in 8000000 i_freq 400000000 /\ z_in 10000000 o_freq 400000000 /\
  ecp5_settings i_freq o_freq = Some v /\ q_in 10000000 os_freq 400000000 /\
  ecp5_vco i_freq v == 5 * os_freq /\ ecp5_os_actual i_freq v os_freq == (5 # 4) * os_freq.
Proof.
  exists 11000000%Z, 40333333%Z, (Ecp5 3 11 15), 121000000. split; [unfold z_in; lia|]. split; [unfold z_in; lia|]. split; [exact ecp5_11_40|].
  split; [unfold q_in; lra|]. split; reflexivity.
Qed.

Print Assumptions C66_vco_refuted.
Print Assumptions C67_vco_refuted.
Print Assumptions C97_divides_refuted.
