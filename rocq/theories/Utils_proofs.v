From Verif Require Import Stream Pipe_model Timer_model Timer_proofs Utils_model Utils_spec.

(* ---------------- Stitcher ---------------- *)
Lemma count_if_snoc {X} (f : X -> bool) l x : count_if f (l ++ [x]) = count_if f l + (if f x then 1 else 0).
Proof. unfold count_if. rewrite filter_app, app_length. simpl. destruct (f x); simpl; lia. Qed.

Lemma count_if_nil {X} (f : X -> bool) : count_if f [] = 0.
Proof. reflexivity. Qed.

Lemma mod_succ x c : 1 <= c -> 0 <= x ->
  (x + 1) mod c = if x mod c <? c - 1 then x mod c + 1 else 0.
Proof.
  intros Hc Hx. pose proof (Z.mod_pos_bound x c ltac:(lia)). pose proof (Z.div_mod x c ltac:(lia)).
  destruct (Z.ltb_spec (x mod c) (c - 1)).
  - symmetry. apply Z.mod_unique with (q := x / c); lia.
  - symmetry. apply Z.mod_unique with (q := x / c + 1); lia.
Qed.

Lemma count_if_nonneg {X} (f : X -> bool) l : 0 <= count_if f l.
Proof. unfold count_if; lia. Qed.

Section Stitch.
  Context {A : Type} (count : Z).
  Hypothesis Hc : 1 <= count.
  Let m := @stitcher A count.

  Definition sti_inv (t : list (obs A A)) (s : sti_state) : Prop :=
    sti_f s = count_if bfirst (accepted t) mod count /\
    sti_l s = count_if blast (accepted t) mod count.

  Lemma sti_idx_ok x go : 0 <= x -> sti_idx_next count (x mod count) go = (x + if go then 1 else 0) mod count.
  Proof.
    intros. unfold sti_idx_next. destruct go; [|now rewrite Z.add_0_r].
    rewrite mod_succ by lia. pose proof (Z.mod_pos_bound x count ltac:(lia)).
    destruct (Z.ltb_spec (x mod count) (count - 1)); auto. apply trunc_range_small. lia.
  Qed.

  Lemma sti_inv_run ins : sti_inv (strace m ins) (state (scirc m) ins).
  Proof.
    apply (run_inv (scirc m) sti_inv).
    - split; reflexivity.
    - intros t s [c r] [H1 H2]. unfold sti_inv. rewrite accepted_app, accepted_1.
      cbn [m scirc cout cnext stitcher src rdy nxt fst snd o_sink o_sready sti_f sti_l].
      unfold xfer. rewrite H1, H2, !sti_idx_ok by apply count_if_nonneg.
      destruct (cvalid c && r); cbn [andb].
      + rewrite !count_if_snoc. auto.
      + rewrite app_nil_r, !Z.add_0_r. auto.
  Qed.

  Lemma stitch_exact ins t1 o t2 :
    strace m ins = t1 ++ o :: t2 ->
    o_src o = Chan (cvalid (o_sink o)) (stitched count (accepted t1) (cbeat (o_sink o))) /\
    o_sready o = o_rready o.
  Proof.
    intros H. apply trace_one in H. destruct H as (a & [c r] & b & -> & <- & ->).
    destruct (sti_inv_run a) as [H1 H2]. cbn in *. unfold stitched. rewrite <- H1, <- H2. auto.
  Qed.

  Lemma emitted_accepted_len {B} (t : list (obs A B)) :
    (forall o, In o t -> cvalid (o_src o) = cvalid (o_sink o) /\ o_sready o = o_rready o) ->
    length (emitted t) = length (accepted t).
  Proof.
    induction t as [|o t IH]; intros H; auto. simpl. rewrite !app_length, IH by (intros; apply H; now right).
    f_equal. unfold xfer. destruct (H o) as [-> ->]; [now left|]. destruct (_ && _); auto.
  Qed.

  (** the list view *)
  Fixpoint stitch_list (before l : list (beat A)) : list (beat A) :=
    match l with [] => [] | b :: r => stitched count before b :: stitch_list (before ++ [b]) r end.

  Lemma stitch_list_snoc before l b :
    stitch_list before (l ++ [b]) = stitch_list before l ++ [stitched count (before ++ l) b].
  Proof.
    revert before. induction l as [|x l IH]; intros before; simpl.
    - now rewrite app_nil_r.
    - rewrite IH, <- app_assoc. reflexivity.
  Qed.

  Lemma stitch_emitted ins : emitted (strace m ins) = stitch_list [] (accepted (strace m ins)).
  Proof.
    induction ins as [|[c r] ins IH] using rev_ind; [reflexivity|].
    rewrite trace_app, accepted_app, emitted_app, IH. cbn [trace_from].
    rewrite accepted_1, emitted_1.
    assert (E := stitch_exact (ins ++ [(c, r)]) (strace m ins) (cout (scirc m) (state (scirc m) ins) (c, r)) []).
    rewrite trace_app in E. specialize (E eq_refl). destruct E as [E1 E2].
    rewrite E1, E2. unfold xfer. cbn [cvalid cbeat]. 
    destruct (_ && _); [|now rewrite !app_nil_r].
    rewrite stitch_list_snoc. reflexivity.
  Qed.

  Lemma stitch_lasts l : count_if blast (stitch_list [] l) = count_if blast l / count.
  Proof.
    induction l as [|b l IH] using rev_ind; [unfold count_if; simpl; now rewrite Z.div_0_l by lia|].
    rewrite stitch_list_snoc, !count_if_snoc, IH. cbn [blast stitched app].
    pose proof (count_if_nonneg blast l) as Hx. set (x := count_if blast l) in *.
    pose proof (Z.div_mod x count ltac:(lia)). pose proof (Z.mod_pos_bound x count ltac:(lia)).
    destruct (blast b); cbn [andb]; [|now rewrite !Z.add_0_r].
    destruct (Z.eqb_spec (x mod count) (count - 1)).
    - apply Z.div_unique with (r := 0); lia.
    - rewrite Z.add_0_r. apply Z.div_unique with (r := x mod count + 1); lia.
  Qed.
End Stitch.

(* ---------------- LastInserter ---------------- *)
Section LastIns.
  Context {A : Type} (count : Z).
  Hypothesis Hc : 1 <= count.
  Let m := @last_inserter A count.

  Lemma open_len_snoc (l : list (beat A)) b : open_len (l ++ [b]) = if blast b then 0 else open_len l + 1.
  Proof. unfold open_len. rewrite fold_left_app. reflexivity. Qed.

  Lemma open_len_nonneg (l : list (beat A)) : 0 <= open_len l.
  Proof. induction l using rev_ind; [unfold open_len; simpl; lia|]. rewrite open_len_snoc. destruct (blast x); lia. Qed.

  Definition li_inv (t : list (obs A A)) (s : Z) : Prop := s = open_len (emitted t) /\ s < count.

  Lemma li_inv_run ins : li_inv (strace m ins) (state (scirc m) ins).
  Proof.
    apply (run_inv (scirc m) li_inv).
    - split; [reflexivity|cbn; lia].
    - intros t s [c r] [H1 H2]. unfold li_inv. rewrite emitted_app, emitted_1.
      cbn [m scirc cout cnext last_inserter src rdy nxt fst snd o_src o_rready]. unfold xfer. cbn [cvalid cbeat].
      pose proof (open_len_nonneg (emitted t)).
      destruct (cvalid c && r).
      + rewrite open_len_snoc. cbn [blast]. destruct (Z.eqb_spec s (count - 1)); cbn [orb negb].
        * lia.
        * destruct (blast (cbeat c)); cbn [negb]; [lia|]. rewrite trunc_range_small by lia. lia.
      + rewrite app_nil_r. auto.
  Qed.

  Lemma last_insert_exact ins t1 o t2 :
    strace m ins = t1 ++ o :: t2 ->
    o_src o = Chan (cvalid (o_sink o))
                (Beat (bfirst (cbeat (o_sink o)))
                      (blast (cbeat (o_sink o)) || (open_len (emitted t1) =? count - 1))
                      (bdata (cbeat (o_sink o)))) /\
    o_sready o = o_rready o.
  Proof.
    intros H. apply trace_one in H. destruct H as (a & [c r] & b & -> & <- & ->).
    destruct (li_inv_run a) as [H1 H2]. cbn in *. rewrite <- H1, orb_comm. auto.
  Qed.

  Lemma insert_lasts_snoc k n (l : list (beat A)) b :
    insert_lasts k n (l ++ [b]) = insert_lasts k n l ++
      [Beat (bfirst b) (blast b || (fold_left open_step (insert_lasts k n l) n =? k - 1)) (bdata b)].
  Proof.
    revert n. induction l as [|x l IH]; intros n; [reflexivity|]. cbn [app insert_lasts fold_left].
    rewrite IH. reflexivity.
  Qed.

  Lemma last_insert_list ins : emitted (strace m ins) = insert_lasts count 0 (accepted (strace m ins)).
  Proof.
    induction ins as [|[c r] ins IH] using rev_ind; [reflexivity|].
    rewrite trace_app, accepted_app, emitted_app. cbn [trace_from].
    rewrite accepted_1, emitted_1.
    assert (E := last_insert_exact (ins ++ [(c, r)]) (strace m ins) (cout (scirc m) (state (scirc m) ins) (c, r)) []).
    rewrite trace_app in E. specialize (E eq_refl). destruct E as [E1 E2].
    rewrite E1, E2. unfold xfer. cbn [cvalid cbeat].
    destruct (_ && _); [|now rewrite !app_nil_r].
    rewrite insert_lasts_snoc, <- IH. reflexivity.
  Qed.

  Lemma last_insert_bound ins : open_len (emitted (strace m ins)) < count.
  Proof. destruct (li_inv_run ins) as [H1 H2]. fold m in H1. lia. Qed.
End LastIns.

Lemma Forall2_len {X Y} (R : X -> Y -> Prop) l l' : Forall2 R l l' -> length l = length l'.
Proof. induction 1; simpl; auto. Qed.

(* ---------------- LastOnTimeout ---------------- *)
Section LotProofs.
  Context {A : Type} (d : A) (timeout : Z).
  Hypothesis Ht : 0 <= timeout.
  Let m := last_on_timeout d timeout.

  (** sink idle history *)
  Definition idles (t : list (obs A A)) : list bool := map (fun o => negb (cvalid (o_sink o))) t.

  Definition lot_R (a e : beat A) : Prop := bdata e = bdata a /\ (blast a = true -> blast e = true).

  Definition lot_inv (t : list (obs A A)) (s : lot_state A) : Prop :=
    lot_count s = Z.max 0 (timeout - trail (idles t)) /\
    if lot_loaded s then
      exists l w, accepted t = l ++ [w] /\ Forall2 lot_R l (emitted t) /\
                  lot_data s = bdata w /\ lot_last s = blast w
    else Forall2 lot_R (accepted t) (emitted t).

  Lemma lot_count_step t (s : lot_state A) c o : o_sink o = c -> lot_count s = Z.max 0 (timeout - trail (idles t)) ->
    wt_next timeout (lot_count s) (negb (cvalid c)) = Z.max 0 (timeout - trail (idles (t ++ [o]))).
  Proof.
    intros Ho H. unfold idles. rewrite map_app. cbn [map]. rewrite Ho, trail_snoc. fold (idles t).
    pose proof (trail_nonneg (idles t)). rewrite H. unfold wt_next, wt_done.
    destruct (negb (cvalid c)); [|lia].
    destruct (Z.eqb_spec (Z.max 0 (timeout - trail (idles t))) 0); cbn; [lia|].
    rewrite trunc_range_small by lia. lia.
  Qed.

  Lemma lot_inv_run ins : lot_inv (strace m ins) (state (scirc m) ins).
  Proof.
    apply (run_inv (scirc m) lot_inv).
    - split; [cbn; unfold trail; cbn; lia|constructor].
    - intros t s [c r] [H1 H2]. unfold lot_inv. split.
      + cbn [m scirc cout cnext last_on_timeout src rdy nxt fst snd].
        erewrite <- lot_count_step; [|reflexivity|exact H1]. cbn [o_sink].
        unfold lot_next. destruct (cvalid c && _); [reflexivity|].
        destruct (_ && r); reflexivity.
      + rewrite accepted_app, emitted_app, accepted_1, emitted_1.
        cbn [m scirc cout cnext last_on_timeout src rdy nxt fst snd o_sink o_sready o_src o_rready].
        unfold xfer, lot_next, lot_rdy, lot_src. cbn [cvalid cbeat].
        destruct s as [cnt l ld dt]. cbn [lot_loaded lot_last lot_data lot_count] in *.
        set (dn := wt_done cnt) in *.
        destruct ld; cbn [andb].
        * destruct H2 as (l0 & w & Ha & HF & Hd & Hl).
          destruct (cvalid c) eqn:Hv; cbn [andb orb negb]; rewrite ?orb_true_r, ?orb_false_r; cbn [andb orb negb].
          -- destruct r; cbn [andb lot_loaded].
             ++ eexists _, (cbeat c). repeat split.
                rewrite Ha. apply Forall2_app; auto. constructor; [|constructor].
                split; cbn; auto. intros E. rewrite Hl, E. reflexivity.
             ++ exists l0, w. rewrite !app_nil_r. auto.
          -- rewrite !app_nil_r. destruct (l || dn) eqn:E; cbn [andb].
             ++ destruct r; cbn [lot_loaded].
                ** rewrite Ha. apply Forall2_app; auto. constructor; [|constructor]. split; cbn; auto.
                ** exists l0, w. rewrite !app_nil_r. auto.
             ++ exists l0, w. rewrite !app_nil_r. auto.
        * rewrite !app_nil_r. destruct (cvalid c); cbn [negb orb andb lot_loaded].
          -- eexists _, (cbeat c). repeat split; auto.
          -- rewrite app_nil_r. auto.
  Qed.

  Lemma lot_lossless ins :
    exists l held, accepted (strace m ins) = l ++ held /\ (length held <= 1)%nat /\
      Forall2 lot_R l (emitted (strace m ins)).
  Proof.
    destruct (lot_inv_run ins) as [_ H]. fold m in H. destruct (lot_loaded _).
    - destruct H as (l & w & Ha & HF & _). exists l, [w]. auto.
    - exists (accepted (strace m ins)), []. rewrite app_nil_r. auto.
  Qed.

  Lemma lot_exact ins t1 o t2 :
    strace m ins = t1 ++ o :: t2 ->
    (length (accepted t1) = length (emitted t1) /\ cvalid (o_src o) = false) \/
    (exists l w, accepted t1 = l ++ [w] /\ length l = length (emitted t1) /\
       let expired := timeout <=? trail (idles t1) in
       o_src o = Chan (blast w || cvalid (o_sink o) || expired)
                      (Beat false (blast w || expired) (bdata w))).
  Proof.
    intros H. apply trace_one in H. destruct H as (a & [c r] & b & -> & <- & ->).
    destruct (lot_inv_run a) as [H1 H2]. fold m in H1, H2.
    cbn [m scirc cout last_on_timeout src rdy nxt fst snd o_src o_sink]. unfold lot_src.
    set (s := state _ _) in *.
    destruct (lot_loaded s).
    - right. destruct H2 as (l & w & Ha & HF & Hd & Hl). exists l, w.
      split; auto. split; [eapply Forall2_len; eauto|]. cbv zeta. cbn [andb].
      rewrite Hd, Hl. unfold wt_done. rewrite H1.
      pose proof (trail_nonneg (idles (strace m a))).
      replace (Z.max 0 (timeout - trail (idles (strace m a))) =? 0) with (timeout <=? trail (idles (strace m a))).
      2:{ destruct (Z.leb_spec timeout (trail (idles (strace m a)))), (Z.eqb_spec (Z.max 0 (timeout - trail (idles (strace m a)))) 0); lia. }
      reflexivity.
    - left. split; [eapply Forall2_len; eauto|reflexivity].
  Qed.

  Lemma idle_for_trail (t : list (obs A A)) : idle_for timeout t <-> timeout <= trail (idles t).
  Proof.
    rewrite trail_spec by auto. split.
    - intros (a & b & -> & Hl & HF). exists (idles a). unfold idles. rewrite map_app. f_equal.
      clear - Hl HF. rewrite <- Hl, Nat2Z.id. clear Hl. induction HF as [|o b Ho _ IH]; [reflexivity|].
      cbn. rewrite Ho, IH. reflexivity.
    - intros [a E]. unfold idles in E. apply map_eq_app in E. destruct E as (u & v & -> & _ & Ev).
      exists u, v. split; auto. split.
      + rewrite <- (map_length (fun o => negb (cvalid (o_sink o)))), Ev, repeat_length. lia.
      + apply Forall_forall. intros o Ho. apply (in_map (fun o => negb (cvalid (o_sink o)))) in Ho.
        rewrite Ev in Ho. apply repeat_spec in Ho. now apply negb_true_iff in Ho.
  Qed.

  (** Stability of everything but [last]; [last] can only be withdrawn when it
      came from the timeout. *)
  Lemma lot_stable ins t1 o o' t2 :
    stable_sink (strace m ins) ->
    strace m ins = t1 ++ o :: o' :: t2 ->
    cvalid (o_src o) = true -> o_rready o = false ->
    cvalid (o_src o') = true /\ bdata (cbeat (o_src o')) = bdata (cbeat (o_src o)) /\
    bfirst (cbeat (o_src o')) = bfirst (cbeat (o_src o)) /\
    (trail (idles t1) < timeout -> cvalid (o_sink o) = true -> blast (cbeat (o_src o')) = blast (cbeat (o_src o))) /\
    (blast (cbeat (o_src o)) = true -> cvalid (o_sink o') = false -> blast (cbeat (o_src o')) = true).
  Proof.
    intros Hst H Hv Hr. pose proof (Hst _ _ _ _ H) as Hk. apply trace_two in H.
    destruct H as (a & [c r] & [c' r'] & b & -> & <- & -> & ->).
    cbn [m scirc cout cnext last_on_timeout src rdy nxt fst snd o_src o_rready o_sink o_sready] in *. subst r.
    destruct (lot_inv_run a) as [Hcnt _]. fold m in Hcnt.
    set (s := state _ _) in *. clearbody s. destruct s as [cnt l ld dt]. cbn [lot_count] in Hcnt.
    unfold lot_next, lot_rdy in *. rewrite Hv in *. cbn [negb orb] in *.
    rewrite !andb_false_r. unfold lot_src in *. cbn [lot_loaded lot_last lot_data lot_count cvalid cbeat bfirst bdata blast] in *.
    apply andb_true_iff in Hv. destruct Hv as [-> Hv]. cbn [andb].
    pose proof (trail_nonneg (idles (strace m a))) as HT.
    assert (Hdone_keep : cvalid c = false -> wt_done cnt = true -> wt_done (wt_next timeout cnt (negb (cvalid c))) = true).
    { intros -> Hd. unfold wt_next. cbn [negb]. rewrite Hd. cbn. exact Hd. }
    split; [|split; [reflexivity|split; [reflexivity|split]]].
    - destruct (cvalid c) eqn:Ec.
      + rewrite (Hk eq_refl eq_refl), Ec. now rewrite orb_true_r.
      + rewrite orb_false_r in Hv. apply orb_true_iff in Hv. destruct Hv as [->|Hv]; [reflexivity|].
        rewrite Hdone_keep by auto. now rewrite !orb_true_r.
    - intros Hlt Hc. f_equal. rewrite Hc. unfold wt_next. cbn [negb]. unfold wt_done.
      rewrite Hcnt. destruct (Z.eqb_spec timeout 0); [lia|].
      destruct (Z.eqb_spec (Z.max 0 (timeout - trail (idles (strace m a)))) 0); lia.
    - intros Hbl Hc'. destruct (cvalid c) eqn:Ec.
      + rewrite (Hk eq_refl eq_refl) in Hc'. congruence.
      + apply orb_true_iff in Hbl. destruct Hbl as [->|Hd]; [reflexivity|].
        rewrite Hdone_keep by auto. now rewrite orb_true_r.
  Qed.
End LotProofs.
