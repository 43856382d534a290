(** Round trips through both converters. *)
From Verif Require Import Stream Bits Pipe_model Converter_model Converter_spec Converter_proofs.

Section RoundTrip.
  Variables (n k : Z) (rev : bool).
  Hypothesis Hn : 1 <= n.
  Hypothesis Hk : 1 <= k.

  Let dn := down_conv n k rev.
  Let up := up_conv n k rev.

  Lemma Forall2_packs_slices l ws :
    Forall (fun b => 0 <= bdata b < 2 ^ (n * k)) l ->
    Forall2 (packs n k rev) (map (slices n k rev) l) ws -> ws = l.
  Proof.
    revert ws. induction l as [|b l IH]; intros ws HF H; simpl in H; inversion H; subst; auto.
    inversion HF; subst. f_equal; [apply (packs_slices n k rev Hn Hk); auto|apply IH; auto].
  Qed.

  Lemma down_up_roundtrip ins :
    stable_sink (strace (compose dn up) ins) ->
    Forall (fun b => 0 <= bdata b < 2 ^ (n * k)) (accepted (strace (compose dn up) ins)) ->
    exists pend, accepted (strace (compose dn up) ins) = emitted (strace (compose dn up) ins) ++ pend
      /\ (length pend <= 1)%nat.
  Proof.
    intros Hst HF.
    destruct (compose_split dn up ins) as (i1 & i2 & _ & _ & _ & _ & _ & Ha & Hm & He & K1 & K2 & _).
    assert (Hst1 : stable_sink (strace dn i1)) by (eapply stable_sink_map; eauto).
    pose proof (down_inv_run n k rev Hn Hk i1 Hst1) as [Hr Hd].
    set (mux := state (scirc (down_conv n k rev)) i1) in *.
    fold dn in Hd.
    destruct (up_packs n k rev Hn Hk i2) as (pend & HP & HL & _). fold up in HP.
    rewrite <- He, Ha in *. rewrite <- Hm in HP.
    assert (HG : fst (group k (emitted (strace dn i1))) = map (slices n k rev) (accepted (strace dn i1))).
    { destruct (Z.eqb_spec mux 0).
      - rewrite Hd. unfold group. rewrite group_flat_slices by auto. reflexivity.
      - destruct Hd as (t' & o & _ & _ & _ & ->). unfold group.
        rewrite fold_left_app, group_flat_slices, fold_group_partial by (auto; lia). reflexivity. }
    rewrite HG in HP. apply Forall2_packs_slices in HP; auto.
    exists pend. auto.
  Qed.

  (** Only the final beat of a complete group can carry last. *)
  Lemma group_lasts l :
    (forall g i b, In g (fst (group k l)) -> nth_error g i = Some b -> blast b = true -> S i = length g) /\
    (forall b, In b (snd (group k l)) -> blast b = false).
  Proof.
    induction l as [|x l [IH1 IH2]] using rev_ind.
    - split; simpl; intros; contradiction.
    - rewrite group_snoc. unfold group_step. destruct (group k l) as [gs rem]. cbn [fst snd] in *.
      destruct ((Z.of_nat (length (rem ++ [x])) =? k) || blast x) eqn:E; cbn [fst snd].
      + split; [|intros b []]. intros g i b Hin Hi Hb.
        apply in_app_or in Hin. destruct Hin as [Hin|[<-|[]]]; [eauto|].
        apply nth_error_snoc in Hi; try exact n. destruct Hi as [[Hi _]|[-> ->]].
        * apply nth_error_In in Hi. apply IH2 in Hi. congruence.
        * rewrite app_length. simpl. lia.
      + split; [auto|]. intros b Hin. apply in_app_or in Hin. destruct Hin as [Hin|[<-|[]]]; auto.
        apply orb_false_iff in E. apply E.
  Qed.

  Lemma nth_error_ext {X} (l l' : list X) : (forall i, nth_error l i = nth_error l' i) -> l = l'.
  Proof.
    revert l'. induction l as [|x l IH]; intros [|y l'] H; auto.
    - specialize (H O). discriminate.
    - specialize (H O). discriminate.
    - pose proof (H O) as H0. simpl in H0. injection H0 as ->. f_equal. apply IH. intros i. apply (H (S i)).
  Qed.

  Lemma slices_packs g w :
    packs n k rev g w -> Z.of_nat (length g) = k ->
    Forall (fun b => 0 <= bdata b < 2 ^ n) g ->
    map bdata (slices n k rev w) = map bdata g.
  Proof.
    intros (H1 & H2 & H3 & H4) HL HF. apply nth_error_ext. intros i.
    destruct (Nat.lt_ge_cases i (length g)).
    - destruct (nth_error g i) as [b|] eqn:E; [|apply nth_error_None in E; lia].
      rewrite (map_nth_error _ _ _ E), (map_nth_error _ _ _ (slices_nth n k rev w i ltac:(lia))). cbn.
      rewrite (H4 _ _ E). rewrite Forall_forall in HF. rewrite Z.mod_small; auto.
      apply HF. eapply nth_error_In; eauto.
    - rewrite !(proj2 (nth_error_None _ _)); auto; rewrite map_length; auto.
      rewrite slices_length by auto. lia.
  Qed.

  Lemma existsb_only {X} (f : X -> bool) (l : list X) i b :
    nth_error l i = Some b ->
    (forall j x, nth_error l j = Some x -> f x = true -> j = i) -> existsb f l = f b.
  Proof.
    intros Hi H. destruct (f b) eqn:E.
    - apply existsb_exists. exists b. split; auto. eapply nth_error_In; eauto.
    - destruct (existsb f l) eqn:E2; auto. apply existsb_exists in E2. destruct E2 as (x & Hx & Hfx).
      apply In_nth_error in Hx. destruct Hx as [j Hj]. rewrite (H _ _ Hj Hfx) in Hj. congruence.
  Qed.

  Lemma slices_packs_marks g w :
    packs n k rev g w -> Z.of_nat (length g) = k ->
    Forall (fun b => 0 <= bdata b < 2 ^ n) g ->
    (forall i b, nth_error g i = Some b -> bfirst b = true -> i = O) ->
    (forall i b, nth_error g i = Some b -> blast b = true -> S i = length g) ->
    slices n k rev w = g.
  Proof.
    intros HP HL HF Hf Hl. pose proof (slices_packs g w HP HL HF) as Hd.
    destruct HP as (H1 & H2 & _ & _). apply nth_error_ext. intros i.
    destruct (Nat.lt_ge_cases i (length g)).
    - destruct (nth_error g i) as [b|] eqn:E; [|apply nth_error_None in E; lia].
      rewrite (slices_nth n k rev w i ltac:(lia)). f_equal.
      destruct (nth_error g 0) as [b0|] eqn:E0; [|apply nth_error_None in E0; lia].
      destruct (nth_error g (length g - 1)) as [bl|] eqn:E1; [|apply nth_error_None in E1; lia].
      rewrite (existsb_only bfirst g 0 b0) in H1; auto.
      rewrite (existsb_only blast g (length g - 1) bl) in H2; auto.
      2:{ intros j x Hj Hx. specialize (Hl _ _ Hj Hx). lia. }
      assert (Hdat : field n (position k rev (Z.of_nat i)) (bdata w) = bdata b).
      { assert (EE : nth_error (map bdata (slices n k rev w)) i = nth_error (map bdata g) i) by (now rewrite Hd).
        rewrite (map_nth_error _ _ _ E), (map_nth_error _ _ _ (slices_nth n k rev w i ltac:(lia))) in EE.
        cbn in EE. congruence. }
      rewrite Hdat, H1, H2. destruct b as [fb lb db]. cbn in *.
      f_equal.
      + destruct (Nat.eqb_spec i 0).
        * subst i. cbn in E. rewrite E0 in E. injection E as ->. cbn. now rewrite andb_true_r.
        * rewrite andb_false_r. destruct fb; auto. specialize (Hf _ _ E eq_refl). lia.
      + destruct (Nat.eqb_spec i (Z.to_nat k - 1)).
        * replace (length g - 1)%nat with i in E1 by lia. rewrite E in E1. injection E1 as <-. cbn. now rewrite andb_true_r.
        * rewrite andb_false_r. destruct lb; auto. specialize (Hl _ _ E eq_refl). lia.
    - rewrite !(proj2 (nth_error_None _ _)); auto.
      rewrite slices_length by auto. lia.
  Qed.

  (** The word pending in the up-converter is the one offered. *)
  Lemma up_offered ins t' o :
    strace up ins = t' ++ [o] -> cvalid (o_src o) = true -> o_rready o = false ->
    exists gs' g, fst (group k (accepted (strace up ins))) = gs' ++ [g] /\
      Forall2 (packs n k rev) gs' (emitted (strace up ins)) /\ packs n k rev g (cbeat (o_src o)) /\
      snd (group k (accepted (strace up ins))) = [].
  Proof.
    intros Ht Hv Hr.
    destruct (trace_split_from (scirc up) _ _ _ _ _ Ht) as (a & [c r] & b & E1 & E2 & E3 & E4).
    destruct b; [|discriminate].
    pose proof (up_inv_run n k rev Hn Hk ins) as [Hd H]. fold up in Hd, H.
    assert (HS : up_src (state (scirc up) ins) = o_src o).
    { rewrite E1. unfold state. rewrite state_from_app. cbn [state_from].
      subst o. cbn in *. subst r. destruct (state_from _ _ _) as [dm sb f l d]. cbn in *. subst sb.
      unfold up_src, up_next, up_rdy; cbn. rewrite andb_false_r. reflexivity. }
    destruct (up_strobe (state (scirc up) ins)) eqn:Hs.
    - destruct H as [Hrem (g & gs' & Hgs & HF & Hg)].
      exists gs', g. repeat split; auto; try (rewrite <- HS; apply Hg).
    - rewrite <- HS in Hv. cbn in Hv. congruence.
  Qed.

  Lemma Forall2_flat {X} (f : beat Z -> list X) (h : list (beat Z) -> list X) gs ws :
    Forall2 (packs n k rev) gs ws ->
    (forall g w, In g gs -> packs n k rev g w -> f w = h g) ->
    flat_map f ws = flat_map h gs.
  Proof.
    intros H. induction H; intros HE; simpl; auto.
    rewrite (HE x y); [|now left|auto]. f_equal. apply IHForall2. intros; apply HE; auto. now right.
  Qed.

  (** Generic form: [view] is what we compare (data only, or whole beats). *)
  Lemma up_down_generic {X} (view : list (beat Z) -> list X) ins :
    (forall a b, view (a ++ b) = view a ++ view b) ->
    (forall a, length (view a) = length a) ->
    (forall j a, view (firstn j a) = firstn j (view a)) ->
    (forall g w, In g (fst (group k (accepted (strace (compose up dn) ins)))) ->
        packs n k rev g w -> view (slices n k rev w) = view g) ->
    exists rest, view (accepted (strace (compose up dn) ins)) =
                 view (emitted (strace (compose up dn) ins)) ++ rest /\
                 Z.of_nat (length rest) <= k.
  Proof.
    intros Vapp Vlen Vfst HV.
    destruct (compose_split up dn ins) as (i1 & i2 & L1 & L2 & _ & _ & _ & Ha & Hm & He & _ & _ & K3 & K4 & _).
    rewrite <- He, Ha in *.
    assert (Hst2 : stable_sink (strace dn i2)).
    { eapply stable_src_sink; eauto. apply up_stable. }
    pose proof (down_inv_run n k rev Hn Hk i2 Hst2) as [Hr Hd].
    set (mux := state (scirc (down_conv n k rev)) i2) in *. fold dn in Hd.
    pose proof (group_concat k (accepted (strace up i1))) as HC.
    pose proof (group_rem_lt k (accepted (strace up i1)) Hk) as HR.
    set (gs := fst (group k (accepted (strace up i1)))) in *.
    set (rem := snd (group k (accepted (strace up i1)))) in *.
    assert (Vnil : view [] = []) by (destruct (view []) eqn:E; auto; pose proof (Vlen []) as H; rewrite E in H; discriminate).
    assert (Vcat : forall l, view (concat l) = flat_map view l).
    { induction l; simpl; auto. rewrite Vapp. now rewrite IHl. }
    assert (Vflat : forall l, view (flat_map (slices n k rev) l) = flat_map (fun w => view (slices n k rev w)) l).
    { induction l; simpl; auto. rewrite Vapp. now rewrite IHl. }
    rewrite <- HC, Vapp, Vcat.
    destruct (Z.eqb_spec mux 0).
    - destruct (up_packs n k rev Hn Hk i1) as (pend & HP & HL & Hrem0). fold up gs in HP. fold up rem in Hrem0.
      rewrite Hd, Vflat, <- Hm.
      rewrite <- (Forall2_flat _ view _ _ HP HV). rewrite flat_map_app, <- app_assoc.
      eexists. split; [reflexivity|]. rewrite app_length, Vlen.
      destruct pend as [|w [|? ?]]; simpl in *; try lia.
      rewrite Hrem0 by discriminate. rewrite app_nil_r, Vlen, slices_length by auto. simpl. lia.
    - destruct Hd as (t2 & o & Ho & Hov & Hor & ->).
      assert (Hlast : exists t1 o1, strace up i1 = t1 ++ [o1] /\ o_src o1 = o_sink o /\ o_rready o1 = o_sready o).
      { rewrite Ho in K3, K4. rewrite !map_app in K3, K4. simpl in K3, K4.
        destruct (exists_last (l := strace up i1)) as (t1 & o1 & E1).
        - intros E. rewrite E in K3. destruct (map o_sink t2); discriminate.
        - exists t1, o1. rewrite E1 in K3, K4. rewrite map_app in K3, K4. simpl in K3, K4.
          apply app_inj_tail in K3. apply app_inj_tail in K4. repeat split; tauto. }
      destruct Hlast as (t1 & o1 & Ht1 & Hs1 & Hr1).
      destruct (up_offered i1 t1 o1 Ht1) as (gs' & g & Hgs & HF & Hg & Hrem); try congruence.
      fold gs in Hgs. fold rem in Hrem. rewrite Hrem in *. rewrite Vapp, Vflat, Vnil, app_nil_r.
      rewrite Hgs, flat_map_app. simpl. rewrite app_nil_r, <- Hm.
      rewrite <- (Forall2_flat (fun w => view (slices n k rev w)) view _ _ HF).
      2:{ intros g0 w Hin. apply HV. rewrite Hgs. apply in_or_app; auto. }
      exists (skipn (Z.to_nat mux) (view g)). split.
      + rewrite <- app_assoc. f_equal. rewrite Vfst, <- Hs1.
        rewrite (HV g (cbeat (o_src o1))); auto. 2:{ rewrite Hgs. apply in_or_app. right; now left. }
        symmetry. apply firstn_skipn.
      + rewrite skipn_length.
        assert (Hlen : length (view g) = Z.to_nat k).
        { rewrite <- (HV g (cbeat (o_src o1))); auto. 2:{ rewrite Hgs. apply in_or_app. right; now left. }
          rewrite Vlen. apply slices_length; auto. }
        lia.
  Qed.

  Lemma in_group_in_accepted l g b : In g (fst (group k l)) -> In b g -> In b l.
  Proof.
    intros Hg Hb. rewrite <- (group_concat k l). apply in_or_app. left.
    apply in_concat. eauto.
  Qed.

  Lemma up_down_roundtrip_data ins :
    Forall (fun b => 0 <= bdata b < 2 ^ n) (accepted (strace (compose up dn) ins)) ->
    Forall (fun g => Z.of_nat (length g) = k) (fst (group k (accepted (strace (compose up dn) ins)))) ->
    exists rest, map bdata (accepted (strace (compose up dn) ins)) =
                 map bdata (emitted (strace (compose up dn) ins)) ++ rest /\
                 Z.of_nat (length rest) <= k.
  Proof.
    intros HD HG. apply up_down_generic.
    - intros; apply map_app.
    - intros; apply map_length.
    - intros; symmetry; apply firstn_map.
    - intros g w Hg HP. rewrite Forall_forall in HG. apply slices_packs; auto.
      apply Forall_forall. rewrite Forall_forall in HD. intros b Hb. apply HD. eapply in_group_in_accepted; eauto.
  Qed.

  Lemma up_down_roundtrip_marks ins :
    Forall (fun b => 0 <= bdata b < 2 ^ n) (accepted (strace (compose up dn) ins)) ->
    Forall (fun g => Z.of_nat (length g) = k /\
                     forall i b, nth_error g i = Some b -> bfirst b = true -> i = O)
           (fst (group k (accepted (strace (compose up dn) ins)))) ->
    exists rest, accepted (strace (compose up dn) ins) =
                 emitted (strace (compose up dn) ins) ++ rest /\
                 Z.of_nat (length rest) <= k.
  Proof.
    intros HD HG. apply (up_down_generic (fun l => l)); auto.
    intros g w Hg HP. rewrite Forall_forall in HG. destruct (HG g Hg). apply slices_packs_marks; auto.
    - apply Forall_forall. rewrite Forall_forall in HD. intros b Hb. apply HD. eapply in_group_in_accepted; eauto.
    - intros i b. apply (proj1 (group_lasts _) _ _ _ Hg).
  Qed.
End RoundTrip.
