From Verif Require Import Stream Bits Math_model Math_proofs Iir_model Iir_spec.

Lemma swrap_mod w x : 1 <= w -> swrap w x mod 2 ^ w = x mod 2 ^ w.
Proof.
  intros. unfold swrap. rewrite Zminus_mod_idemp_l. f_equal. lia.
Qed.
Lemma swrap_eqm w x y : x mod 2 ^ w = y mod 2 ^ w -> swrap w x = swrap w y.
Proof.
  intros H. unfold swrap. f_equal. rewrite <- (Zplus_mod_idemp_l x), H, Zplus_mod_idemp_l. reflexivity.
Qed.
Lemma swrap_range w x : 1 <= w -> - 2 ^ (w - 1) <= swrap w x < 2 ^ (w - 1).
Proof.
  intros. unfold swrap. assert (2 ^ w = 2 * 2 ^ (w - 1)) by (rewrite <- Z.pow_succ_r by lia; f_equal; lia).
  pose proof (Z.mod_pos_bound (x + 2 ^ (w - 1)) (2 ^ w) ltac:(apply Z.pow_pos_nonneg; lia)). lia.
Qed.
Lemma swrap_id w x : 1 <= w -> - 2 ^ (w - 1) <= x < 2 ^ (w - 1) -> swrap w x = x.
Proof.
  intros. unfold swrap. assert (2 ^ w = 2 * 2 ^ (w - 1)) by (rewrite <- Z.pow_succ_r by lia; f_equal; lia).
  rewrite Z.mod_small by lia. lia.
Qed.
Lemma wrap_swrap w x : wrap (Shape w true) x = swrap w x.
Proof. reflexivity. Qed.

Lemma zsum_app l m : zsum (l ++ m) = zsum l + zsum m.
Proof. induction l; simpl; lia. Qed.

Lemma nth_removelast {X} (l : list X) i d : (S i < length l)%nat -> nth i (removelast l) d = nth i l d.
Proof.
  revert i. induction l as [|x l IH]; intros i H; [simpl in H; lia|].
  destruct l as [|y l]; [simpl in H; lia|]. destruct i; [reflexivity|]. cbn [removelast nth]. apply IH. simpl in *. lia.
Qed.
Lemma removelast_length {X} (l : list X) : length (removelast l) = (length l - 1)%nat.
Proof. induction l as [|x [|y l] IH]; simpl in *; auto. rewrite IH. lia. Qed.

Section P.
  Context (b a : list Z) (width width_s width_c shift_c : Z).
  Let size := length a.
  Hypothesis Hsize : (2 <= size)%nat.
  Hypothesis Hw : 1 <= width.
  Hypothesis Hws : width <= width_s.
  Hypothesis Hwc : 1 <= width_c.
  Hypothesis Hb : forall i, - 2 ^ (width_c - 1) < nth i b 0 < 2 ^ (width_c - 1).
  Hypothesis Ha : forall i, - 2 ^ (width_c - 1) < nth i a 0 < 2 ^ (width_c - 1).
  Let ss := width_s - width.
  Let W := width_s + width_c.
  Let M := 2 ^ W.
  Let m := iir_filter b a width width_s width_c shift_c.

  Definition xr (x : Z) := - 2 ^ (width - 1) <= x < 2 ^ (width - 1).
  Definition sr (x : Z) := - 2 ^ (width_s - 1) <= x < 2 ^ (width_s - 1).

  Let yy := y_of width_s shift_c.
  Let aa := accs b a width width_s width_c shift_c.
  Let out := iir_out b a width width_s width_c shift_c.

  Lemma yy_sr x : sr (yy x).
  Proof. apply swrap_range. lia. Qed.
  Lemma scale_sr x : xr x -> sr (x * 2 ^ ss).
  Proof.
    unfold xr, sr. intros. replace (width_s - 1) with ((width - 1) + ss) by (unfold ss; lia).
    rewrite Z.pow_add_r by (unfold ss; lia). assert (0 < 2 ^ ss) by (apply Z.pow_pos_nonneg; unfold ss; lia). nia.
  Qed.
  Lemma zero_sr : sr 0.
  Proof. unfold sr. assert (0 < 2 ^ (width_s - 1)) by (apply Z.pow_pos_nonneg; lia). lia. Qed.
  Lemma nth_xr l i : Forall xr l -> xr (nth i l 0).
  Proof.
    intros H. destruct (Nat.lt_ge_cases i (length l)).
    - rewrite Forall_forall in H. apply H. now apply nth_In.
    - rewrite nth_overflow by lia. unfold xr. assert (0 < 2 ^ (width - 1)) by (apply Z.pow_pos_nonneg; lia). lia.
  Qed.

  Lemma aa_length xs : length (aa xs) = length xs.
  Proof. induction xs; simpl; auto. Qed.

  Definition beat_out (p : beat Z) (acc : Z) : beat Z :=
    Beat (bfirst p) (blast p) (swrap width (Z.shiftr acc (shift_c + ss))).

  Lemma combine_snoc {X Y} (l : list X) (k : list Y) x y : length l = length k ->
    combine (l ++ [x]) (k ++ [y]) = combine l k ++ [(x, y)].
  Proof. revert k. induction l; intros [|? k] H; simpl in *; try lia; auto. f_equal. apply IHl. lia. Qed.

  Lemma out_snoc l p : exists acc,
    aa (rev (map bdata (l ++ [p]))) = acc :: aa (rev (map bdata l)) /\
    out (l ++ [p]) = out l ++ [beat_out p acc].
  Proof.
    eexists. split.
    - rewrite map_app, rev_app_distr. cbn [map rev app]. reflexivity.
    - unfold out, iir_out. rewrite map_app, rev_app_distr. cbn [map rev app]. cbn [accs rev].
      rewrite combine_snoc; [rewrite map_app; reflexivity|].
      rewrite rev_length. fold aa. rewrite aa_length, rev_length, map_length. reflexivity.
  Qed.

  Definition T (s : iir_state) : Z :=
    f_sum s + (if f_vr s then f_cr s else 0) + (if cvalid (f_mul s) then bdata (cbeat (f_mul s)) else 0).
  Definition eqm (x y : Z) := x mod M = y mod M.

  Definition PB (xs : list Z) (k : nat) : Z := zsum (map (fun i => nth i b 0 * (nth i xs 0 * 2 ^ ss)) (seq 0 k)).
  Definition PA (ys : list Z) (k : nat) : Z := zsum (map (fun i => nth i a 0 * nth (i - 1) ys 0) (seq 1 k)).

  Lemma eqm_add x y z w : eqm x y -> eqm z w -> eqm (x + z) (y + w).
  Proof. unfold eqm. intros H1 H2. rewrite Zplus_mod, H1, H2, <- Zplus_mod. reflexivity. Qed.
  Lemma eqm_swrap x : eqm (swrap W x) x.
  Proof. apply swrap_mod. unfold W. lia. Qed.
  Lemma eqm_refl x : eqm x x. Proof. reflexivity. Qed.
  Lemma eqm_trans x y z : eqm x y -> eqm y z -> eqm x z. Proof. unfold eqm. congruence. Qed.

  Definition regs_ok (xs ys : list Z) (s : iir_state) : Prop :=
    length (f_i s) = size /\ length (f_o s) = size /\
    (forall i, (i < size)%nat -> nth i (f_i s) 0 = nth i xs 0 * 2 ^ ss) /\
    (forall i, (1 <= i < size)%nat -> nth i (f_o s) 0 = nth (i - 1) ys 0).
  Definition quiet (s : iir_state) : Prop := cvalid (f_mul s) = false /\ f_vr s = false.
  Definition nolast (s : iir_state) : Prop :=
    (cvalid (f_mul s) = true -> blast (cbeat (f_mul s)) = false) /\ (f_vr s = true -> f_lr s = false).

  Definition Inv (t : list (obs Z Z)) (s : iir_state) : Prop :=
    Forall xr (map bdata (accepted t)) ->
    match f_st s with
    | FIdle =>
        let xs := rev (map bdata (accepted t)) in
        emitted t = out (accepted t) /\ quiet s /\ f_idx s = 0 /\
        length (f_i s) = size /\ length (f_o s) = size /\
        (forall i, (i < size)%nat -> nth i (f_i s) 0 = nth i xs 0 * 2 ^ ss) /\
        (forall i, (i < size)%nat -> nth i (f_o s) 0 = nth i (map yy (aa xs)) 0)
    | st =>
        exists l p, accepted t = l ++ [p] /\ emitted t = out l /\
          f_first s = bfirst p /\ f_last s = blast p /\
          let xs := rev (map bdata (l ++ [p])) in
          let ys := map yy (aa (rev (map bdata l))) in
          regs_ok xs ys s /\
          match st with
          | FRunB => 0 <= f_idx s < Z.of_nat size /\ eqm (T s) (PB xs (Z.to_nat (f_idx s))) /\ nolast s
          | FRunA => 1 <= f_idx s < Z.of_nat size /\
                     eqm (T s) (PB xs size - PA ys (Z.to_nat (f_idx s - 1))) /\ nolast s
          | FWait => f_idx s = 0 /\ eqm (T s) (PB xs size - PA ys (size - 1)) /\
                     ((cvalid (f_mul s) = true /\ blast (cbeat (f_mul s)) = true /\ (f_vr s = true -> f_lr s = false)) \/
                      (cvalid (f_mul s) = false /\ f_vr s = true /\ f_lr s = true))
          | _ => f_idx s = 0 /\ quiet s /\ f_sum s = swrap W (PB xs size - PA ys (size - 1))
          end
    end.

  Lemma acc_eq l p : aa (rev (map bdata (l ++ [p]))) =
    swrap W (PB (rev (map bdata (l ++ [p]))) size - PA (map yy (aa (rev (map bdata l)))) (size - 1)) :: aa (rev (map bdata l)).
  Proof. rewrite map_app, rev_app_distr. reflexivity. Qed.

  Lemma PB_S xs k : PB xs (S k) = PB xs k + nth k b 0 * (nth k xs 0 * 2 ^ ss).
  Proof. unfold PB. rewrite seq_S, map_app, zsum_app. simpl. lia. Qed.
  Lemma PA_S ys k : PA ys (S k) = PA ys k + nth (S k) a 0 * nth k ys 0.
  Proof. unfold PA. rewrite seq_S, map_app, zsum_app. simpl. rewrite Nat.sub_0_r. lia. Qed.

  Lemma nth_yy l i : sr (nth i (map yy l) 0).
  Proof.
    destruct (Nat.lt_ge_cases i (length l)).
    - rewrite nth_indep with (d' := yy 0) by (rewrite map_length; lia). rewrite map_nth. apply yy_sr.
    - rewrite nth_overflow by (rewrite map_length; lia). apply zero_sr.
  Qed.

  Lemma prod_ok x c : sr x -> - 2 ^ (width_c - 1) <= c < 2 ^ (width_c - 1) ->
    wrap (mul_shape (sh_s width_s) (sh_c width_c)) (wrap (sh_s width_s) x * wrap (sh_c width_c) c) = swrap W (x * c).
  Proof.
    intros Hx Hc. change (swrap W (swrap width_s x * swrap width_c c) = swrap W (x * c)).
    rewrite (swrap_id width_s), (swrap_id width_c) by (auto; lia). reflexivity.
  Qed.

  (** one step of the multiply-accumulate pipeline *)
  Lemma mac_step s c r : (f_st s <> FIdle) ->
    let s' := nxt m s c r in
    let mi := iir_mul_in b a width_c s in
    f_vr s' = cvalid (f_mul s) /\ f_lr s' = blast (cbeat (f_mul s)) /\
    cvalid (f_mul s') = cvalid mi /\ blast (cbeat (f_mul s')) = blast (cbeat mi) /\
    f_sum s' = (if f_vr s then swrap W (f_sum s + f_cr s) else f_sum s) /\
    f_cr s' = bdata (cbeat (f_mul s)) /\
    bdata (cbeat (f_mul s')) = wrap (mul_shape (sh_s width_s) (sh_c width_c))
       (wrap (sh_s width_s) (fst (bdata (cbeat mi))) * wrap (sh_c width_c) (snd (bdata (cbeat mi)))) /\
    f_first s' = f_first s /\ f_last s' = f_last s.
  Proof.
    intros Hs. cbn [m iir_filter nxt]. unfold iir_next, the_mul. cbn [multiplier rdy nxt].
    rewrite orb_true_r. destruct (f_st s); try congruence;
    repeat match goal with |- context [if ?x <? ?y then _ else _] => destruct (x <? y) end;
    cbn; repeat split.
  Qed.

  Lemma T_step s c r : f_st s <> FIdle ->
    let mi := iir_mul_in b a width_c s in
    (cvalid mi = true -> sr (fst (bdata (cbeat mi))) /\ - 2 ^ (width_c - 1) <= snd (bdata (cbeat mi)) < 2 ^ (width_c - 1)) ->
    eqm (T (nxt m s c r)) (T s + (if cvalid mi then fst (bdata (cbeat mi)) * snd (bdata (cbeat mi)) else 0)).
  Proof.
    intros Hs mi Hr. destruct (mac_step s c r Hs) as (E1 & E2 & E3 & E4 & E5 & E6 & E7 & _). fold mi in E3, E4, E7.
    unfold T. rewrite E1, E3, E5, E6, E7.
    assert (A : eqm (if f_vr s then swrap W (f_sum s + f_cr s) else f_sum s) (f_sum s + (if f_vr s then f_cr s else 0))).
    { destruct (f_vr s); [apply eqm_swrap|rewrite Z.add_0_r; apply eqm_refl]. }
    destruct (cvalid mi) eqn:Ev.
    - destruct (Hr eq_refl) as [R1 R2]. rewrite prod_ok by auto.
      apply eqm_add; [|apply eqm_swrap]. apply eqm_add; [exact A|apply eqm_refl].
    - rewrite !Z.add_0_r. apply eqm_add; [exact A|apply eqm_refl].
  Qed.

  Lemma b_reg_ok i : b_reg b width_c i = nth (Z.to_nat i) b 0.
  Proof. unfold b_reg, sh_c. rewrite wrap_swrap, swrap_id; [reflexivity|lia|]. specialize (Hb (Z.to_nat i)). lia. Qed.
  Lemma a_reg_ok i : a_reg a width_c i = - nth (Z.to_nat i) a 0.
  Proof. unfold a_reg, sh_c. rewrite wrap_swrap, swrap_id; [reflexivity|lia|]. specialize (Ha (Z.to_nat i)). lia. Qed.

  Lemma idx_small x : 0 <= x < Z.of_nat size -> iir_idx a x = x.
  Proof. intros. unfold iir_idx, iir_size. apply trunc_range_small. exact H. Qed.

  Lemma inv_step t s c r : Inv t s -> Inv (t ++ [cout (scirc m) s (c, r)]) (nxt m s c r).
  Proof.
    intros HI HF. rewrite accepted_app, accepted_1 in *. rewrite emitted_app, emitted_1.
    assert (HF1 : Forall xr (map bdata (accepted t))) by (rewrite map_app in HF; apply Forall_app in HF; apply HF).
    specialize (HI HF1).
    cbn [scirc cout o_sink o_sready o_src o_rready fst snd] in *.
    change (rdy m s c r) with (iir_rdy s) in *. change (src m s c) with (iir_src width width_s shift_c s) in *.
    unfold iir_rdy, iir_src in *.
    destruct (f_st s) eqn:Est.
    - (* IDLE *)
      cbv zeta in HI. destruct HI as (Hem & [Hq1 Hq2] & Hidx & L1 & L2 & HI1 & HO).
      unfold xfer in *. cbn [cvalid andb] in *. rewrite andb_true_r in *. rewrite app_nil_r.
      cbn [m iir_filter nxt]. unfold iir_next, the_mul. cbn [multiplier rdy nxt]. rewrite Est, Hq1, Hq2.
      unfold iir_mul_in. rewrite Est. cbn [negb orb]. 
      destruct (cvalid c) eqn:Ec; cbn [f_st].
      + exists (accepted t), (cbeat c). split; [reflexivity|]. split; [exact Hem|]. split; [reflexivity|]. split; [reflexivity|].
        cbv zeta. rewrite map_app, rev_app_distr. cbn [map rev app].
        assert (Hx : xr (bdata (cbeat c))).
        { rewrite map_app in HF. apply Forall_app in HF. destruct HF as [_ HF]. now apply Forall_inv in HF. }
        split.
        * unfold regs_ok. cbn [f_i f_o length]. rewrite !removelast_length, L1, L2. split; [lia|]. split; [lia|]. split.
          -- intros [|i] Hi; cbn [nth].
             ++ change (swrap width_s (Z.shiftl (bdata (cbeat c)) ss) = bdata (cbeat c) * 2 ^ ss).
                rewrite Z.shiftl_mul_pow2 by (unfold ss; lia). apply swrap_id; [lia|]. now apply scale_sr.
             ++ rewrite nth_removelast by lia. apply HI1. lia.
          -- intros [|i] Hi; [lia|]. cbn [nth]. rewrite nth_removelast by lia. rewrite HO by lia. f_equal. lia.
        * cbn [f_idx]. rewrite Hidx. split; [lia|]. split.
          -- unfold T, PB. cbn. reflexivity.
          -- split; cbn; discriminate.
      + cbv zeta. rewrite app_nil_r. repeat split; auto.
    - (* RUN_B *)
      destruct HI as (l & p & El & Eo & Ef & Eb & (L1 & L2 & HI1 & HO) & Hidx & HT & HN1 & HN2). cbv zeta in *.
      set (xs := rev (map bdata (l ++ [p]))) in *. set (ys := map yy (aa (rev (map bdata l)))) in *.
      unfold xfer. cbn [cvalid andb]. rewrite andb_false_r, !app_nil_r.
      destruct (mac_step s c r ltac:(congruence)) as (E1 & E2 & E3 & E4 & E5 & E6 & E7 & E8 & E9).
      pose proof (T_step s c r ltac:(congruence)) as ET. cbv zeta in E3, E4, E7, ET.
      unfold iir_mul_in in E3, E4, ET. rewrite Est in E3, E4, ET. cbn [cvalid cbeat blast bdata fst snd] in E3, E4, ET.
      rewrite b_reg_ok in ET. rewrite (HI1 (Z.to_nat (f_idx s))) in ET by lia.
      assert (Hxs : Forall xr xs).
      { unfold xs. rewrite El in HF1. now apply Forall_rev. }
      specialize (ET ltac:(intros _; split; [apply scale_sr, nth_xr, Hxs|specialize (Hb (Z.to_nat (f_idx s))); lia])).
      assert (HT' : eqm (T (nxt m s c r)) (PB xs (S (Z.to_nat (f_idx s))))).
      { eapply eqm_trans; [exact ET|]. rewrite PB_S. apply eqm_add; [exact HT|]. rewrite Z.mul_comm. apply eqm_refl. }
      assert (Hnl : nolast (nxt m s c r)).
      { split; intros Hv; [rewrite E4; reflexivity|]. rewrite E1 in Hv. rewrite E2. auto. }
      assert (Hshape : nxt m s c r = Iir (if f_idx s <? Z.of_nat size - 1 then FRunB else FRunA)
         (if f_idx s <? Z.of_nat size - 1 then f_idx s + 1 else 1) (f_i s) (f_o s)
         (f_mul (nxt m s c r)) (f_cr (nxt m s c r)) (f_vr (nxt m s c r)) (f_lr (nxt m s c r)) (f_sum (nxt m s c r)) (f_first s) (f_last s)).
      { cbn [m iir_filter nxt]. unfold iir_next, the_mul. cbn [multiplier rdy nxt]. rewrite orb_true_r, Est. unfold iir_size. fold size.
        destruct (Z.ltb_spec (f_idx s) (Z.of_nat size - 1)); cbn; rewrite idx_small by lia; reflexivity. }
      set (s' := nxt m s c r) in *. clearbody s'. rewrite Hshape. clear Hshape E5 E6 E7.
      assert (HTs : forall st i, T (Iir st i (f_i s) (f_o s) (f_mul s') (f_cr s') (f_vr s') (f_lr s') (f_sum s') (f_first s) (f_last s)) = T s') by reflexivity.
      unfold Inv. cbn [f_st].
      destruct (Z.ltb_spec (f_idx s) (Z.of_nat size - 1)).
      + exists l, p. repeat (split; [assumption|]). cbv zeta. fold xs ys. split.
        * unfold regs_ok; cbn [f_i f_o]; auto.
        * rewrite HTs. cbn [f_idx]. split; [lia|]. split; [|exact Hnl].
          replace (Z.to_nat (f_idx s + 1)) with (S (Z.to_nat (f_idx s))) by lia. exact HT'.
      + exists l, p. repeat (split; [assumption|]). cbv zeta. fold xs ys. split.
        * unfold regs_ok; cbn [f_i f_o]; auto.
        * rewrite HTs. cbn [f_idx]. split; [lia|]. split; [|exact Hnl].
          replace size with (S (Z.to_nat (f_idx s))) by lia. replace (Z.to_nat (1 - 1)) with 0%nat by lia.
          unfold PA. cbn [seq map zsum]. rewrite Z.sub_0_r. exact HT'.
    - (* RUN_A *)
      destruct HI as (l & p & El & Eo & Ef & Eb & (L1 & L2 & HI1 & HO) & Hidx & HT & HN1 & HN2). cbv zeta in *.
      set (xs := rev (map bdata (l ++ [p]))) in *. set (ys := map yy (aa (rev (map bdata l)))) in *.
      unfold xfer. cbn [cvalid andb]. rewrite andb_false_r, !app_nil_r.
      destruct (mac_step s c r ltac:(congruence)) as (E1 & E2 & E3 & E4 & E5 & E6 & E7 & E8 & E9).
      pose proof (T_step s c r ltac:(congruence)) as ET. cbv zeta in E3, E4, E7, ET.
      unfold iir_mul_in in E3, E4, ET. rewrite Est in E3, E4, ET. cbn [cvalid cbeat blast bdata fst snd] in E3, E4, ET.
      rewrite a_reg_ok in ET. rewrite (HO (Z.to_nat (f_idx s))) in ET by lia.
      specialize (ET ltac:(intros _; split; [apply nth_yy|specialize (Ha (Z.to_nat (f_idx s))); lia])).
      assert (HT' : eqm (T (nxt m s c r)) (PB xs size - PA ys (Z.to_nat (f_idx s)))).
      { eapply eqm_trans; [exact ET|]. replace (Z.to_nat (f_idx s)) with (S (Z.to_nat (f_idx s - 1))) at 3 by lia.
        rewrite PA_S. replace (S (Z.to_nat (f_idx s - 1))) with (Z.to_nat (f_idx s)) by lia.
        replace (PB xs size - (PA ys (Z.to_nat (f_idx s - 1)) + nth (Z.to_nat (f_idx s)) a 0 * nth (Z.to_nat (f_idx s - 1)) ys 0))
          with (PB xs size - PA ys (Z.to_nat (f_idx s - 1)) + - (nth (Z.to_nat (f_idx s)) a 0 * nth (Z.to_nat (f_idx s - 1)) ys 0)) by lia.
        apply eqm_add; [exact HT|]. replace (Z.to_nat (f_idx s) - 1)%nat with (Z.to_nat (f_idx s - 1)) by lia.
        replace (nth (Z.to_nat (f_idx s - 1)) ys 0 * - nth (Z.to_nat (f_idx s)) a 0)
          with (- (nth (Z.to_nat (f_idx s)) a 0 * nth (Z.to_nat (f_idx s - 1)) ys 0)) by lia. apply eqm_refl. }
      assert (Hshape : nxt m s c r = Iir (if f_idx s <? Z.of_nat size - 1 then FRunA else FWait)
         (if f_idx s <? Z.of_nat size - 1 then f_idx s + 1 else 0) (f_i s) (f_o s)
         (f_mul (nxt m s c r)) (f_cr (nxt m s c r)) (f_vr (nxt m s c r)) (f_lr (nxt m s c r)) (f_sum (nxt m s c r)) (f_first s) (f_last s)).
      { cbn [m iir_filter nxt]. unfold iir_next, the_mul. cbn [multiplier rdy nxt]. rewrite orb_true_r, Est. unfold iir_size. fold size.
        destruct (Z.ltb_spec (f_idx s) (Z.of_nat size - 1)); cbn; rewrite ?idx_small by lia; reflexivity. }
      set (s' := nxt m s c r) in *. clearbody s'. rewrite Hshape. clear Hshape E5 E6 E7.
      assert (HTs : forall st i, T (Iir st i (f_i s) (f_o s) (f_mul s') (f_cr s') (f_vr s') (f_lr s') (f_sum s') (f_first s) (f_last s)) = T s') by reflexivity.
      unfold Inv. cbn [f_st]. unfold iir_size in E4. fold size in E4.
      destruct (Z.ltb_spec (f_idx s) (Z.of_nat size - 1)).
      + exists l, p. repeat (split; [assumption|]). cbv zeta. fold xs ys. split.
        * unfold regs_ok; cbn [f_i f_o]; auto.
        * rewrite HTs. cbn [f_idx]. split; [lia|]. split.
          -- replace (Z.to_nat (f_idx s + 1 - 1)) with (Z.to_nat (f_idx s)) by lia. exact HT'.
          -- split; cbn [f_mul f_vr f_lr]; intros Hv.
             ++ rewrite E4. apply Z.eqb_neq. lia.
             ++ rewrite E1 in Hv. rewrite E2. auto.
      + exists l, p. repeat (split; [assumption|]). cbv zeta. fold xs ys. split.
        * unfold regs_ok; cbn [f_i f_o]; auto.
        * rewrite HTs. cbn [f_idx f_mul f_vr f_lr]. split; [reflexivity|]. split.
          -- replace (size - 1)%nat with (Z.to_nat (f_idx s)) by lia. exact HT'.
          -- left. rewrite E3, E4. split; [reflexivity|]. split; [apply Z.eqb_eq; lia|].
             intros Hv. rewrite E1 in Hv. rewrite E2. auto.
    - (* WAIT *)
      destruct HI as (l & p & El & Eo & Ef & Eb & (L1 & L2 & HI1 & HO) & Hidx & HT & HL). cbv zeta in *.
      set (xs := rev (map bdata (l ++ [p]))) in *. set (ys := map yy (aa (rev (map bdata l)))) in *.
      unfold xfer. cbn [cvalid andb]. rewrite andb_false_r, !app_nil_r.
      destruct (mac_step s c r ltac:(congruence)) as (E1 & E2 & E3 & E4 & E5 & E6 & E7 & E8 & E9).
      pose proof (T_step s c r ltac:(congruence)) as ET. cbv zeta in E3, E4, E7, ET.
      unfold iir_mul_in in E3, E4, ET. rewrite Est in E3, E4, ET. cbn [cvalid cbeat blast bdata fst snd] in E3, E4, ET.
      specialize (ET ltac:(discriminate)). rewrite Z.add_0_r in ET.
      assert (Hshape : nxt m s c r = Iir (if f_vr s && f_lr s then FOutput else FWait)
         (f_idx s) (f_i s) (f_o s)
         (f_mul (nxt m s c r)) (f_cr (nxt m s c r)) (f_vr (nxt m s c r)) (f_lr (nxt m s c r)) (f_sum (nxt m s c r)) (f_first s) (f_last s)).
      { cbn [m iir_filter nxt]. unfold iir_next, the_mul. cbn [multiplier rdy nxt]. rewrite orb_true_r, Est. reflexivity. }
      set (s' := nxt m s c r) in *. clearbody s'. rewrite Hshape. clear Hshape E6 E7.
      unfold Inv. cbn [f_st].
      destruct HL as [(V1 & V2 & V3)|(V1 & V2 & V3)].
      + assert (EN : f_vr s && f_lr s = false) by (destruct (f_vr s); [now rewrite V3|reflexivity]).
        rewrite EN. exists l, p. repeat (split; [assumption|]). cbv zeta. fold xs ys. split.
        * unfold regs_ok; cbn [f_i f_o]; auto.
        * cbn [f_idx f_mul f_vr f_lr]. split; [assumption|]. split; [eapply eqm_trans; [exact ET|exact HT]|].
          right. rewrite E3, E1, E2. auto.
      + rewrite V2, V3. cbn [andb]. exists l, p. repeat (split; [assumption|]). cbv zeta. fold xs ys. split.
        * unfold regs_ok; cbn [f_i f_o]; auto.
        * unfold quiet. cbn [f_idx f_mul f_vr f_sum]. split; [assumption|]. split; [rewrite E3, E1; auto|].
          rewrite E5, V2. apply swrap_eqm. unfold T in HT. rewrite V1, V2, Z.add_0_r in HT. exact HT.
    - (* OUTPUT *)
      destruct HI as (l & p & El & Eo & Ef & Eb & (L1 & L2 & HI1 & HO) & Hidx & [Q1 Q2] & HS). cbv zeta in *.
      set (xs := rev (map bdata (l ++ [p]))) in *. set (ys := map yy (aa (rev (map bdata l)))) in *.
      unfold xfer. cbn [cvalid cbeat]. rewrite andb_false_r, app_nil_r. cbn [andb].
      assert (Hshape : nxt m s c r = Iir (if r then FIdle else FOutput) (f_idx s) (f_i s) (yy (f_sum s) :: tl (f_o s))
         (Chan false (Beat false false (wrap (mul_shape (sh_s width_s) (sh_c width_c)) (wrap (sh_s width_s) 0 * wrap (sh_c width_c) 0)))) (bdata (cbeat (f_mul s))) (cvalid (f_mul s)) (blast (cbeat (f_mul s))) (f_sum s) (f_first s) (f_last s)).
      { cbn [m iir_filter nxt]. unfold iir_next, the_mul. cbn [multiplier rdy nxt]. rewrite orb_true_r, Est, Q2.
        unfold iir_mul_in. rewrite Est. reflexivity. }
      rewrite Hshape. unfold Inv.
      assert (Hol : length (yy (f_sum s) :: tl (f_o s)) = size).
      { destruct (f_o s); cbn in *; lia. }
      assert (Hon : forall i, (1 <= i < size)%nat -> nth i (yy (f_sum s) :: tl (f_o s)) 0 = nth (i - 1) ys 0).
      { intros i Hi. rewrite <- HO by lia. destruct (f_o s); cbn in *; [lia|]. destruct i; [lia|]. reflexivity. }
      destruct r; cbn [f_st].
      + cbv zeta. rewrite El. fold xs. split.
        * rewrite Eo. destruct (out_snoc l p) as (acc & E1 & E2). rewrite E2. f_equal.
          rewrite acc_eq in E1. injection E1 as E1. fold xs ys in E1. rewrite HS, Ef, Eb, E1. reflexivity.
        * split; [split; cbn; auto|]. split; [cbn; auto|]. split; [cbn; auto|]. split; [exact Hol|]. cbn [f_i f_o]. split; [auto|].
          intros i Hi. unfold xs. rewrite acc_eq. fold xs ys. cbn [map]. fold ys. destruct i; [cbn [nth]; now rewrite HS|].
          rewrite Hon by lia. cbn [nth]. f_equal. lia.
      + exists l, p. rewrite app_nil_r. repeat (split; [assumption|]). cbv zeta. fold xs ys. split.
        * unfold regs_ok; cbn [f_i f_o]; auto.
        * cbn [f_idx f_sum]. unfold quiet. cbn. auto.
  Qed.

  Lemma inv_all ins : Inv (strace m ins) (state (scirc m) ins).
  Proof.
    apply (run_inv (scirc m) Inv).
    - intros _. cbn. unfold quiet. cbn. rewrite !repeat_length. fold size. repeat split; auto; intros i Hi.
      + rewrite nth_repeat. destruct i; reflexivity.
      + rewrite nth_repeat. destruct i; reflexivity.
    - intros t s [c r] HI. apply inv_step. exact HI.
  Qed.

  (** number of cycles before the output is offered *)
  Definition rank (s : iir_state) : Z :=
    match f_st s with
    | FIdle => 0
    | FRunB => 2 * Z.of_nat size + 1 - f_idx s
    | FRunA => Z.of_nat size + 2 - f_idx s
    | FWait => if f_vr s && f_lr s then 1 else 2
    | FOutput => 0
    end.

  Lemma rank_step t s c r : Inv t s -> Forall xr (map bdata (accepted t)) ->
    f_st s <> FIdle -> f_st s <> FOutput ->
    f_st (nxt m s c r) <> FIdle /\ rank (nxt m s c r) = rank s - 1 /\
    (f_st (nxt m s c r) = FOutput <-> rank s = 1).
  Proof.
    intros HI HF H1 H2. specialize (HI HF).
    destruct (mac_step s c r H1) as (E1 & E2 & _).
    assert (Hshape : f_st (nxt m s c r) = match f_st s with
       | FRunB => if f_idx s <? Z.of_nat size - 1 then FRunB else FRunA
       | FRunA => if f_idx s <? Z.of_nat size - 1 then FRunA else FWait
       | _ => if f_vr s && f_lr s then FOutput else FWait end /\
       (f_st s = FRunB -> f_idx (nxt m s c r) = if f_idx s <? Z.of_nat size - 1 then iir_idx a (f_idx s + 1) else iir_idx a 1) /\
       (f_st s = FRunA -> f_idx (nxt m s c r) = if f_idx s <? Z.of_nat size - 1 then iir_idx a (f_idx s + 1) else 0)).
    { cbn [m iir_filter nxt]. unfold iir_next, the_mul. cbn [multiplier rdy nxt]. rewrite orb_true_r. unfold iir_size. fold size.
      destruct (f_st s) eqn:Est; try congruence; destruct (f_idx s <? Z.of_nat size - 1); cbn; repeat split; congruence. }
    destruct Hshape as (S1 & S2 & S3). unfold rank. rewrite E1, E2.
    destruct (f_st s) eqn:Est; try congruence; rewrite S1.
    - specialize (S2 eq_refl). destruct HI as (l & p & _ & _ & _ & _ & _ & Hidx & _).
      rewrite S2. destruct (Z.ltb_spec (f_idx s) (Z.of_nat size - 1)); rewrite idx_small by lia;
        repeat split; try congruence; try lia; intros; try discriminate; lia.
    - specialize (S3 eq_refl). destruct HI as (l & p & _ & _ & _ & _ & _ & Hidx & _ & [HN1 HN2]).
      rewrite S3. destruct (Z.ltb_spec (f_idx s) (Z.of_nat size - 1)).
      + rewrite idx_small by lia. repeat split; try congruence; try lia; intros; try discriminate; lia.
      + assert (Hlast : cvalid (f_mul s) && blast (cbeat (f_mul s)) = false) by (destruct (cvalid (f_mul s)); [now rewrite HN1|reflexivity]).
        rewrite Hlast. repeat split; try congruence; try lia; intros; try discriminate; lia.
    - destruct HI as (l & p & _ & _ & _ & _ & _ & _ & _ & [(V1 & V2 & V3)|(V1 & V2 & V3)]).
      + assert (EN : f_vr s && f_lr s = false) by (destruct (f_vr s); [now rewrite V3|reflexivity]).
        rewrite EN, V1, V2. cbn. repeat split; try congruence; discriminate.
      + rewrite V2, V3. cbn. repeat split; congruence.
  Qed.
End P.
