From Verif Require Import Stream Bits Pipe_model Converter_model Converter_spec.

(* ---------------- group ---------------- *)
Lemma group_snoc k l b : group k (l ++ [b]) = group_step k (group k l) b.
Proof. unfold group. rewrite fold_left_app. reflexivity. Qed.

Lemma group_rem_lt k l : 1 <= k -> 0 <= Z.of_nat (length (snd (group k l))) < k.
Proof.
  intros Hk. induction l as [|b l IH] using rev_ind.
  - simpl. lia.
  - rewrite group_snoc. unfold group_step. destruct (group k l) as [gs rem]. simpl in *.
    rewrite app_length. simpl.
    destruct (Z.eqb_spec (Z.of_nat (length rem + 1)) k); simpl; [lia|].
    destruct (blast b); simpl; [lia|]. rewrite app_length. simpl. lia.
Qed.

Lemma group_concat k l : concat (fst (group k l)) ++ snd (group k l) = l.
Proof.
  induction l as [|b l IH] using rev_ind; [reflexivity|].
  rewrite group_snoc. unfold group_step. destruct (group k l) as [gs rem]. simpl in *.
  destruct (_ || _); simpl.
  - rewrite concat_app. simpl. rewrite !app_nil_r, app_assoc, IH. reflexivity.
  - rewrite app_assoc, IH. reflexivity.
Qed.

Lemma position_lane k rev i : position k rev i = lane k rev i.
Proof. unfold position, lane. destruct rev; lia. Qed.

Lemma lane_range k rev i : 0 <= i < k -> 0 <= lane k rev i < k.
Proof. unfold lane. destruct rev; lia. Qed.

Lemma lane_inj k rev i j : lane k rev i = lane k rev j -> i = j.
Proof. unfold lane. destruct rev; lia. Qed.

Lemma lane_invol k rev i : lane k rev (lane k rev i) = i.
Proof. unfold lane; destruct rev; lia. Qed.

Lemma field_slice n p w : 0 <= n -> 0 <= p -> field n p w = slice (n * p) n w.
Proof. intros. unfold field. rewrite slice_div_mod by nia. reflexivity. Qed.

(* ---------------- up ---------------- *)
Section UpProofs.
  Variables (n k : Z) (rev : bool).
  Hypothesis Hn : 1 <= n.
  Hypothesis Hk : 1 <= k.

  Let m := up_conv n k rev.

  (** the register holds group [g] (possibly partial) *)
  Definition reg_packs (g : list (beat Z)) (s : up_state) : Prop :=
    packs n k rev g (Beat (up_first s) (up_last s) (up_data s)).

  Definition up_inv (t : list (obs Z Z)) (s : up_state) : Prop :=
    let gs := fst (group k (accepted t)) in
    let rem := snd (group k (accepted t)) in
    up_demux s = Z.of_nat (length rem) /\
    if up_strobe s then
      rem = [] /\ exists g gs', gs = gs' ++ [g] /\
        Forall2 (packs n k rev) gs' (emitted t) /\ reg_packs g s
    else
      Forall2 (packs n k rev) gs (emitted t) /\ reg_packs rem s.

  Lemma data_range_lane d x i : 0 <= i < k -> 0 <= d < 2 ^ (n * k) ->
    0 <= set_slice (n * lane k rev i) n d x < 2 ^ (n * k).
  Proof.
    intros. pose proof (lane_range k rev i). apply set_slice_range; nia.
  Qed.

  Lemma nth_error_snoc {X} (l : list X) b i x :
    nth_error (l ++ [b]) i = Some x ->
    (nth_error l i = Some x /\ (i < length l)%nat) \/ (i = length l /\ x = b).
  Proof.
    intros H. destruct (Nat.lt_ge_cases i (length l)).
    - left. rewrite nth_error_app1 in H; auto.
    - right. rewrite nth_error_app2 in H by auto.
      destruct (i - length l)%nat eqn:E; simpl in H; [|destruct n0; discriminate].
      injection H as ->. split; auto. lia.
  Qed.

  (** Loading one more lane. *)
  Lemma packs_load g f l d b (f' l' : bool) :
    Z.of_nat (length g) < k ->
    packs n k rev g (Beat f l d) ->
    f' = bfirst b || f -> l' = blast b || l ->
    packs n k rev (g ++ [b])
      (Beat f' l' (set_slice (n * lane k rev (Z.of_nat (length g))) n d (bdata b))).
  Proof.
    intros Hl (H1 & H2 & H3 & H4) -> ->. cbn in *. unfold packs; cbn.
    rewrite !existsb_app; cbn. rewrite !orb_false_r.
    split; [|split; [|split]].
    - rewrite H1. apply orb_comm.
    - rewrite H2. apply orb_comm.
    - apply data_range_lane; auto. lia.
    - intros i b' Hi. apply nth_error_snoc in Hi. destruct Hi as [[Hi Hlt]|[-> ->]].
      + rewrite <- (H4 _ _ Hi), position_lane. rewrite !field_slice by (pose proof (lane_range k rev (Z.of_nat i)); lia).
        pose proof (lane_range k rev (Z.of_nat i) ltac:(lia)).
        pose proof (lane_range k rev (Z.of_nat (length g)) ltac:(lia)).
        assert (lane k rev (Z.of_nat i) <> lane k rev (Z.of_nat (length g))).
        { intros E. apply lane_inj in E. lia. }
        apply slice_set_other; nia.
      + rewrite position_lane. pose proof (lane_range k rev (Z.of_nat (length g)) ltac:(lia)).
        rewrite field_slice by lia. rewrite slice_set_same by nia. now rewrite slice0_mod by lia.
  Qed.

  Lemma packs_forget g f l d : packs n k rev g (Beat f l d) -> packs n k rev [] (Beat false false d).
  Proof.
    intros (_ & _ & H & _). repeat split; cbn in *; try lia; try reflexivity. destruct i; discriminate.
  Qed.

  Lemma up_inv_step t s i : up_inv t s -> up_inv (t ++ [cout (scirc m) s i]) (cnext (scirc m) s i).
  Proof.
    destruct i as [c r]. unfold up_inv. intros [Hd H].
    rewrite accepted_app, emitted_app, accepted_1, emitted_1.
    pose proof (group_rem_lt k (accepted t) Hk) as Hlt.
    cbn [m scirc cout cnext up_conv src rdy nxt fst snd o_sink o_sready o_src o_rready].
    unfold xfer, up_src. cbn [cvalid cbeat].
    destruct s as [dm sb f l d]. cbn [up_demux up_strobe up_first up_last up_data] in *.
    (* common facts about a load when the register currently represents [g] = rem *)
    destruct sb.
    - destruct H as [Hrem (g & gs' & Hgs & HF & Hg)].
      rewrite Hrem in *. cbn [length Z.of_nat] in *. subst dm.
      unfold up_next, up_rdy. cbn [negb orb andb up_strobe up_demux up_first up_last up_data].
      destruct r.
      + (* word taken *)
        cbn [andb]. rewrite andb_true_r.
        assert (HE : Forall2 (packs n k rev) (fst (group k (accepted t))) (emitted t ++ [Beat f l d])).
        { rewrite Hgs. apply Forall2_app; auto. }
        destruct (cvalid c); cbn [andb].
        * rewrite group_snoc. unfold group_step. rewrite Hrem. cbn [app length].
          replace (0 <? k) with true by (symmetry; apply Z.ltb_lt; lia). cbn [Z.leb Z.compare andb].
          replace (Z.of_nat 1 =? k) with (0 =? k - 1).
          2:{ destruct (Z.eqb_spec 0 (k-1)), (Z.eqb_spec (Z.of_nat 1) k); lia. }
          apply packs_forget in Hg. eapply (packs_load [] _ _ _ (cbeat c)) in Hg; [|cbn; lia|reflexivity|reflexivity].
          rewrite !orb_false_r in Hg. cbn [app length] in Hg.
          destruct ((0 =? k - 1) || blast (cbeat c)) eqn:EL; cbn [fst snd].
          -- split; [reflexivity|]. split; [reflexivity|].
             exists [cbeat c], (fst (group k (accepted t))). split; [reflexivity|]. split; auto.
          -- split.
             ++ cbn. apply trunc_range_small. apply orb_false_iff in EL. destruct EL as [EL _].
                apply Z.eqb_neq in EL. lia.
             ++ split; auto.
        * rewrite app_nil_r, Hrem. split; [reflexivity|]. split; auto.
          eapply packs_forget; eauto.
      + (* stalled *)
        cbn [andb]. rewrite andb_false_r. cbn [andb]. rewrite !app_nil_r, Hrem.
        split; [reflexivity|]. split; [reflexivity|]. exists g, gs'. repeat split; auto; apply Hg.
    - destruct H as [HF Hg].
      unfold up_next, up_rdy. cbn [negb orb andb up_strobe up_demux up_first up_last up_data].
      rewrite andb_true_r, app_nil_r.
      destruct (cvalid c); cbn [andb].
      + rewrite group_snoc. unfold group_step. rewrite app_length. cbn [length].
        replace ((0 <=? dm) && (dm <? k)) with true.
        2:{ symmetry. apply andb_true_iff. split; [apply Z.leb_le|apply Z.ltb_lt]; lia. }
        replace (Z.of_nat (length (snd (group k (accepted t))) + 1) =? k) with (dm =? k - 1).
        2:{ destruct (Z.eqb_spec dm (k-1)), (Z.eqb_spec (Z.of_nat (length (snd (group k (accepted t))) + 1)) k); lia. }
        eapply (packs_load _ _ _ _ (cbeat c)) in Hg; [|lia|reflexivity|reflexivity].
        rewrite <- Hd in Hg. cbn [up_first up_last up_data] in Hg.
        destruct ((dm =? k - 1) || blast (cbeat c)) eqn:EL; cbn [fst snd].
        * split; [reflexivity|]. split; [reflexivity|].
          eexists _, (fst (group k (accepted t))). split; [reflexivity|]. split; auto.
        * split.
          -- rewrite app_length. cbn. rewrite trunc_range_small; [lia|].
             apply orb_false_iff in EL. destruct EL as [EL _]. apply Z.eqb_neq in EL. lia.
          -- destruct r; split; auto.
      + rewrite app_nil_r. split; [assumption|]. destruct r; split; auto.
  Qed.

  Lemma up_inv_run ins : up_inv (strace m ins) (state (scirc m) ins).
  Proof.
    apply (run_inv (scirc m) up_inv).
    - split; [reflexivity|]. split; [constructor|]. repeat split; cbn; try reflexivity; try lia.
      destruct i; discriminate.
    - intros. now apply up_inv_step.
  Qed.

  Lemma up_packs ins :
    exists pend, Forall2 (packs n k rev) (fst (group k (accepted (strace m ins)))) (emitted (strace m ins) ++ pend)
      /\ (length pend <= 1)%nat
      /\ (pend <> [] -> snd (group k (accepted (strace m ins))) = []).
  Proof.
    pose proof (up_inv_run ins) as [Hd H]. set (s := state (scirc m) ins) in *.
    destruct (up_strobe s).
    - destruct H as [Hrem (g & gs' & -> & HF & Hg)].
      exists [Beat (up_first s) (up_last s) (up_data s)]. split; [|auto].
      apply Forall2_app; auto.
    - destruct H as [HF _]. exists []. rewrite app_nil_r. repeat split; auto; congruence.
  Qed.

  Lemma up_stable ins : stable_src (strace m ins).
  Proof.
    apply (stable_src_intro m (fun _ => True)); auto.
    intros [dm sb f l d] c c' _. cbn. intros ->. unfold up_src, up_next, up_rdy; cbn.
    rewrite andb_false_r. reflexivity.
  Qed.
End UpProofs.

(* ---------------- unused lanes ---------------- *)
Section UpStale.
  Variables (n k : Z) (rev : bool).
  Hypothesis Hn : 1 <= n.
  Hypothesis Hk : 1 <= k.

  Let m := up_conv n k rev.
  Let z : beat Z := Beat false false 0.
  Definition same_lanes (from : nat) (d e : Z) : Prop :=
    forall i, Z.of_nat from <= i < k -> field n (position k rev i) d = field n (position k rev i) e.
  Definition stale_ok (gs : list (list (beat Z))) (ws : list (beat Z)) : Prop :=
    forall j g w p, nth_error gs j = Some g -> nth_error ws j = Some w -> nth_error (z :: ws) j = Some p ->
      same_lanes (length g) (bdata w) (bdata p).

  Lemma stale_more gs g ws : (length ws <= length gs)%nat -> stale_ok gs ws -> stale_ok (gs ++ [g]) ws.
  Proof.
    intros L H j g' w p Hg Hw Hp. assert (j < length ws)%nat by (apply nth_error_Some; congruence).
    rewrite nth_error_app1 in Hg by lia. eapply H; eauto.
  Qed.
  Lemma nth_last (ws : list (beat Z)) : nth_error (z :: ws) (length ws) = Some (last ws z).
  Proof.
    induction ws as [|w ws IH] using rev_ind; [reflexivity|].
    rewrite last_last, app_length, Nat.add_1_r. cbn [nth_error]. now rewrite nth_error_app2, Nat.sub_diag by lia.
  Qed.
  Lemma stale_snoc gs g ws w : length gs = length ws -> stale_ok (gs ++ [g]) ws ->
    same_lanes (length g) (bdata w) (bdata (last ws z)) -> stale_ok (gs ++ [g]) (ws ++ [w]).
  Proof.
    intros L H HS j g' w' p Hg Hw Hp.
    apply nth_error_snoc in Hw. destruct Hw as [[Hw Lt]|[-> ->]].
    - eapply H; eauto. change (z :: ws ++ [w]) with ((z :: ws) ++ [w]) in Hp.
      rewrite nth_error_app1 in Hp by (cbn; lia). exact Hp.
    - rewrite <- L in Hg. rewrite nth_error_app2, Nat.sub_diag in Hg by lia. injection Hg as <-.
      change (z :: ws ++ [w]) with ((z :: ws) ++ [w]) in Hp.
      rewrite nth_error_app1 in Hp by (cbn; lia). rewrite nth_last in Hp. injection Hp as <-. exact HS.
  Qed.
  Lemma same_load from d e x : same_lanes from d e -> Z.of_nat from < k ->
    same_lanes (S from) (set_slice (n * lane k rev (Z.of_nat from)) n d x) e.
  Proof.
    intros H L i Hi. rewrite <- (H i) by lia. rewrite position_lane.
    pose proof (lane_range k rev i ltac:(lia)). pose proof (lane_range k rev (Z.of_nat from) ltac:(lia)).
    rewrite !field_slice by lia.
    assert (lane k rev i <> lane k rev (Z.of_nat from)) by (intros E; apply lane_inj in E; lia).
    apply slice_set_other; nia.
  Qed.

  Definition stale_inv (t : list (obs Z Z)) (s : up_state) : Prop :=
    let gs := fst (group k (accepted t)) in
    let rem := snd (group k (accepted t)) in
    up_demux s = Z.of_nat (length rem) /\
    stale_ok gs (emitted t) /\
    if up_strobe s then
      rem = [] /\ exists g gs', gs = gs' ++ [g] /\ length gs' = length (emitted t) /\
        same_lanes (length g) (up_data s) (bdata (last (emitted t) z))
    else
      length gs = length (emitted t) /\ same_lanes (length rem) (up_data s) (bdata (last (emitted t) z)).

  Lemma stale_inv_step t s i : stale_inv t s -> stale_inv (t ++ [cout (scirc m) s i]) (cnext (scirc m) s i).
  Proof.
    destruct i as [c r]. unfold stale_inv. intros (Hd & HS & H).
    rewrite accepted_app, emitted_app, accepted_1, emitted_1.
    pose proof (group_rem_lt k (accepted t) Hk) as Hlt.
    cbn [m scirc cout cnext up_conv src rdy nxt fst snd o_sink o_sready o_src o_rready].
    unfold xfer, up_src. cbn [cvalid cbeat].
    destruct s as [dm sb f l d]. cbn [up_demux up_strobe up_first up_last up_data] in *.
    destruct sb.
    - destruct H as [Hrem (g & gs' & Hgs & HL & Hg)].
      rewrite Hrem in *. cbn [length Z.of_nat] in *. subst dm.
      unfold up_next, up_rdy. cbn [negb orb andb up_strobe up_demux up_first up_last up_data].
      destruct r.
      + cbn [andb]. rewrite andb_true_r.
        assert (HE : stale_ok (fst (group k (accepted t))) (emitted t ++ [Beat f l d])).
        { rewrite Hgs in HS |- *. apply stale_snoc; auto. }
        assert (HL' : length (fst (group k (accepted t))) = length (emitted t ++ [Beat f l d])).
        { rewrite Hgs, !app_length. cbn. lia. }
        assert (Hr : same_lanes 0 d (bdata (last (emitted t ++ [Beat f l d]) z))).
        { rewrite last_last. intros i Hi. reflexivity. }
        destruct (cvalid c); cbn [andb].
        * rewrite group_snoc. unfold group_step. rewrite Hrem. cbn [app length].
          replace (0 <? k) with true by (symmetry; apply Z.ltb_lt; lia). cbn [Z.leb Z.compare andb].
          replace (Z.of_nat 1 =? k) with (0 =? k - 1).
          2:{ destruct (Z.eqb_spec 0 (k-1)), (Z.eqb_spec (Z.of_nat 1) k); lia. }
          apply (same_load 0 _ _ (bdata (cbeat c))) in Hr; [|lia]. cbn [Z.of_nat] in Hr.
          destruct ((0 =? k - 1) || blast (cbeat c)) eqn:EL; cbn [fst snd].
          -- split; [reflexivity|]. split; [apply stale_more; auto; lia|]. split; [reflexivity|].
             exists [cbeat c], (fst (group k (accepted t))). auto.
          -- split; [|split; auto].
             cbn. apply trunc_range_small. apply orb_false_iff in EL. destruct EL as [EL _].
             apply Z.eqb_neq in EL. lia.
        * rewrite app_nil_r, Hrem. split; [reflexivity|]. split; auto.
      + cbn [andb]. rewrite andb_false_r. cbn [andb]. rewrite !app_nil_r, Hrem.
        split; [reflexivity|]. split; [auto|]. split; [reflexivity|]. exists g, gs'. auto.
    - destruct H as [HL Hg].
      unfold up_next, up_rdy. cbn [negb orb andb up_strobe up_demux up_first up_last up_data].
      rewrite andb_true_r, app_nil_r.
      destruct (cvalid c); cbn [andb].
      + rewrite group_snoc. unfold group_step. rewrite app_length. cbn [length].
        replace ((0 <=? dm) && (dm <? k)) with true.
        2:{ symmetry. apply andb_true_iff. split; [apply Z.leb_le|apply Z.ltb_lt]; lia. }
        replace (Z.of_nat (length (snd (group k (accepted t))) + 1) =? k) with (dm =? k - 1).
        2:{ destruct (Z.eqb_spec dm (k-1)), (Z.eqb_spec (Z.of_nat (length (snd (group k (accepted t))) + 1)) k); lia. }
        apply (same_load _ _ _ (bdata (cbeat c))) in Hg; [|lia]. rewrite <- Hd in Hg.
        destruct ((dm =? k - 1) || blast (cbeat c)) eqn:EL; cbn [fst snd].
        * split; [reflexivity|]. split; [apply stale_more; auto; lia|]. split; [reflexivity|].
          eexists _, (fst (group k (accepted t))). split; [reflexivity|]. split; auto.
          rewrite app_length. cbn [length]. now rewrite Nat.add_1_r.
        * split.
          -- rewrite app_length. cbn. rewrite trunc_range_small; [lia|].
             apply orb_false_iff in EL. destruct EL as [EL _]. apply Z.eqb_neq in EL. lia.
          -- rewrite app_length, Nat.add_1_r. destruct r; split; auto.
      + rewrite app_nil_r. split; [assumption|]. destruct r; split; auto.
  Qed.

  Lemma stale_inv_run ins : stale_inv (strace m ins) (state (scirc m) ins).
  Proof.
    apply (run_inv (scirc m) stale_inv).
    - split; [reflexivity|]. split; [intros j g w p Hg; destruct j; discriminate|].
      split; [reflexivity|]. intros i Hi. reflexivity.
    - intros. now apply stale_inv_step.
  Qed.
End UpStale.

(* ---------------- down ---------------- *)
Section DownProofs.
  Variables (n k : Z) (rev : bool).
  Hypothesis Hn : 1 <= n.
  Hypothesis Hk : 1 <= k.

  Let m := down_conv n k rev.

  Lemma slices_length b : length (slices n k rev b) = Z.to_nat k.
  Proof. unfold slices. now rewrite map_length, seq_length. Qed.

  Lemma slices_nth b i : (i < Z.to_nat k)%nat ->
    nth_error (slices n k rev b) i =
    Some (Beat (bfirst b && Nat.eqb i 0) (blast b && Nat.eqb i (Z.to_nat k - 1))
               (field n (position k rev (Z.of_nat i)) (bdata b))).
  Proof.
    intros. unfold slices. erewrite map_nth_error; [reflexivity|].
    rewrite nth_error_nth' with (d := O) by (now rewrite seq_length).
    rewrite seq_nth by auto. reflexivity.
  Qed.

  Lemma firstn_snoc {X} (l : list X) i x : nth_error l i = Some x -> firstn (S i) l = firstn i l ++ [x].
  Proof.
    revert l. induction i; intros [|y l] H; try discriminate; simpl in *.
    - congruence.
    - f_equal. apply IHi; auto.
  Qed.

  Lemma down_src_slice j c : 0 <= j < k ->
    nth_error (slices n k rev (cbeat c)) (Z.to_nat j) = Some (cbeat (down_src n k rev j c)).
  Proof.
    intros. rewrite slices_nth by lia. unfold down_src; cbn.
    replace (0 <=? j) with true by (symmetry; apply Z.leb_le; lia).
    replace (j <? k) with true by (symmetry; apply Z.ltb_lt; lia). cbn [andb].
    f_equal. rewrite Z2Nat.id by lia. rewrite position_lane.
    pose proof (lane_range k rev j H). rewrite field_slice by lia.
    f_equal.
    - f_equal. destruct (Z.eqb_spec j 0); destruct (Nat.eqb_spec (Z.to_nat j) 0); auto; lia.
    - f_equal. destruct (Z.eqb_spec j (k-1)); destruct (Nat.eqb_spec (Z.to_nat j) (Z.to_nat k - 1)); auto; lia.
  Qed.

  (** Invariant: [mux] slices of the currently offered beat have been sent. *)
  Definition down_inv (t : list (obs Z Z)) (mux : Z) : Prop :=
    0 <= mux < k /\
    if mux =? 0 then emitted t = flat_map (slices n k rev) (accepted t)
    else exists t' o, t = t' ++ [o] /\ cvalid (o_sink o) = true /\ o_sready o = false /\
         emitted t = flat_map (slices n k rev) (accepted t) ++
                     firstn (Z.to_nat mux) (slices n k rev (cbeat (o_sink o))).

  Lemma down_inv_run ins : stable_sink (strace m ins) ->
    down_inv (strace m ins) (state (scirc m) ins).
  Proof.
    apply (run_inv_hyp (scirc m) stable_sink down_inv).
    - apply stable_sink_prefix.
    - split; [cbn; lia|]. reflexivity.
    - intros t mux [c r] Hst [Hr H].
      rewrite <- app_nil_r in Hst.
      cbn [m scirc cout cnext down_conv src rdy nxt fst snd] in *.
      set (o := Obs c (down_rdy k mux r) (down_src n k rev mux c) r) in *.
      (* what was sent of the current beat before this cycle *)
      assert (Hsent : cvalid c = true ->
        emitted t = flat_map (slices n k rev) (accepted t) ++ firstn (Z.to_nat mux) (slices n k rev (cbeat c))).
      { intros Hv. destruct (Z.eqb_spec mux 0).
        - subst. simpl. now rewrite app_nil_r.
        - destruct H as (t' & o' & -> & Hv' & Hr' & He).
          assert (o_sink o = o_sink o').
          { rewrite app_nil_r, <- app_assoc in Hst. apply (Hst t' o' o []); auto. }
          rewrite <- H in He. exact He. }
      assert (Hval : mux <> 0 -> cvalid c = true).
      { intros Hm. destruct (Z.eqb_spec mux 0); [lia|].
        destruct H as (t' & o' & -> & Hv' & Hr' & He).
        assert (E : o_sink o = o_sink o').
        { rewrite app_nil_r, <- app_assoc in Hst. apply (Hst t' o' o []); auto. }
        cbn in E. congruence. }
      unfold down_inv. rewrite accepted_app, emitted_app, accepted_1, emitted_1.
      cbn [o o_sink o_sready o_src o_rready]. unfold xfer.
      cbn [down_src cvalid]. unfold down_next, down_rdy.
      destruct (cvalid c) eqn:Hv; cbn [andb].
      + destruct r; cbn [andb].
        * rewrite andb_true_r. destruct (Z.eqb_spec mux (k - 1)) as [E|E].
          -- split; [lia|]. cbn [Z.eqb]. rewrite flat_map_app. simpl flat_map. rewrite app_nil_r.
             rewrite (Hsent eq_refl), <- app_assoc. f_equal.
             rewrite <- firstn_snoc with (x := cbeat (down_src n k rev mux c)) by (apply down_src_slice; lia).
             apply firstn_all2. rewrite slices_length. lia.
          -- rewrite trunc_range_small by lia. split; [lia|].
             destruct (Z.eqb_spec (mux + 1) 0); [lia|].
             exists t, o. cbn [o o_sink o_sready]. unfold down_rdy.
             replace (mux =? k - 1) with false by (symmetry; apply Z.eqb_neq; lia).
             repeat split; auto. rewrite app_nil_r, (Hsent eq_refl), <- app_assoc. f_equal.
             replace (Z.to_nat (mux + 1)) with (S (Z.to_nat mux)) by lia.
             symmetry. apply firstn_snoc. apply down_src_slice; lia.
        * rewrite andb_false_r, !app_nil_r. split; [lia|].
          destruct (Z.eqb_spec mux 0) as [E|E].
          -- exact H.
          -- exists t, o. cbn. unfold down_rdy. rewrite andb_false_r. repeat split; auto.
      + rewrite !app_nil_r. split; [lia|]. destruct (Z.eqb_spec mux 0) as [E|E].
        * exact H.
        * specialize (Hval E). discriminate.
  Qed.

  Lemma down_stable ins : stable_sink (strace m ins) -> stable_src (strace m ins).
  Proof.
    apply (stable_src_intro_sink m (fun _ => True)); auto.
    intros s c c' _ Hv H. cbn in *. unfold down_rdy in H. rewrite andb_false_r in H.
    rewrite (H Hv eq_refl). unfold down_next. now rewrite andb_false_r.
  Qed.

  (** Slices determine the word. *)
  Lemma packs_slices b w : 0 <= bdata b < 2 ^ (n * k) -> packs n k rev (slices n k rev b) w -> w = b.
  Proof.
    intros Hb (H1 & H2 & H3 & H4).
    assert (Hf : existsb bfirst (slices n k rev b) = bfirst b).
    { destruct (existsb bfirst (slices n k rev b)) eqn:E.
      - apply existsb_exists in E. destruct E as (x & Hx & Hxf). unfold slices in Hx.
        apply in_map_iff in Hx. destruct Hx as (i & <- & _). cbn in Hxf.
        apply andb_true_iff in Hxf. symmetry; apply Hxf.
      - destruct (bfirst b) eqn:Hbf; auto.
        assert (Hin := nth_error_In _ _ (slices_nth b 0 ltac:(lia))).
        assert (existsb bfirst (slices n k rev b) = true).
        { apply existsb_exists. eexists; split; [exact Hin|]. cbn. now rewrite Hbf. }
        congruence. }
    assert (Hl : existsb blast (slices n k rev b) = blast b).
    { destruct (existsb blast (slices n k rev b)) eqn:E.
      - apply existsb_exists in E. destruct E as (x & Hx & Hxf). unfold slices in Hx.
        apply in_map_iff in Hx. destruct Hx as (i & <- & _). cbn in Hxf.
        apply andb_true_iff in Hxf. symmetry; apply Hxf.
      - destruct (blast b) eqn:Hbf; auto.
        assert (Hin := nth_error_In _ _ (slices_nth b (Z.to_nat k - 1) ltac:(lia))).
        assert (existsb blast (slices n k rev b) = true).
        { apply existsb_exists. eexists; split; [exact Hin|]. cbn. rewrite Hbf. now rewrite Nat.eqb_refl. }
        congruence. }
    assert (Hdat : bdata w = bdata b).
    { apply (lanes_ext n k); auto; try lia. intros i Hi.
      pose proof (lane_range k rev i Hi) as Hli.
      assert (HH := H4 _ _ (slices_nth b (Z.to_nat (lane k rev i)) ltac:(lia))).
      cbn in HH. rewrite Z2Nat.id, position_lane, lane_invol in HH by lia.
      rewrite !field_slice in HH by lia. rewrite HH.
      apply Z.mod_small. apply slice_range. lia. }
    destruct w, b; cbn in *; congruence.
  Qed.

  (** Grouping the slices of a list of wide words gives back the words. *)

  Lemma fold_group_partial b j gs :
    (j < Z.to_nat k)%nat ->
    fold_left (group_step k) (firstn j (slices n k rev b)) (gs, []) = (gs, firstn j (slices n k rev b)).
  Proof.
    induction j; intros Hj; [reflexivity|].
    pose proof (slices_nth b j ltac:(lia)) as E.
    rewrite (firstn_snoc _ _ _ E). rewrite fold_left_app, IHj by lia. cbn [fold_left].
    unfold group_step. cbn [snd fst]. rewrite app_length. cbn [length].
    rewrite firstn_length_le by (rewrite slices_length; lia).
    destruct (Z.eqb_spec (Z.of_nat (j + 1)) k); [lia|]. cbn [orb blast].
    destruct (Nat.eqb_spec j (Z.to_nat k - 1)); [lia|]. now rewrite andb_false_r.
  Qed.

  Lemma fold_group_slices b gs :
    fold_left (group_step k) (slices n k rev b) (gs, []) = (gs ++ [slices n k rev b], []).
  Proof.
    pose proof (slices_nth b (Z.to_nat k - 1) ltac:(lia)) as E.
    assert (HH : slices n k rev b = firstn (Z.to_nat k - 1) (slices n k rev b) ++
       [Beat (bfirst b && Nat.eqb (Z.to_nat k - 1) 0) (blast b && Nat.eqb (Z.to_nat k - 1) (Z.to_nat k - 1))
               (field n (position k rev (Z.of_nat (Z.to_nat k - 1))) (bdata b))]).
    { rewrite <- (firstn_snoc _ _ _ E). symmetry. apply firstn_all2. rewrite slices_length. lia. }
    rewrite HH at 1. rewrite fold_left_app, fold_group_partial by lia.
    cbn [fold_left]. unfold group_step. cbn [fst snd]. rewrite <- HH, slices_length.
    destruct (Z.eqb_spec (Z.of_nat (Z.to_nat k)) k); [reflexivity|lia].
  Qed.

  Lemma group_flat_slices l gs :
    fold_left (group_step k) (flat_map (slices n k rev) l) (gs, []) = (gs ++ map (slices n k rev) l, []).
  Proof.
    revert gs. induction l as [|b l IH]; intros gs.
    - simpl. now rewrite app_nil_r.
    - simpl. rewrite fold_left_app, fold_group_slices, IH, <- app_assoc. reflexivity.
  Qed.
End DownProofs.
