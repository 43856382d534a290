(** The start-up and frame sequences of the SSD1306 driver. *)
From Verif Require Import Stream Mem_model Mem_spec Mem_proofs Mem_props I2cstream_proofs I2cinit_props Lcd_model Lcd_spec Lcd_proofs.

(** A reader inside another circuit. *)
Definition rback (o : mr_obs) : bool * bool := (ro_rewind o, ro_rready o).
Definition taken (ti : list mr_obs) : list Z := map bdata (mr_delivered (since ro_rewind ti)).

Lemma reader_facts l ti s : l <> [] ->
  ti = trace (mem_reader_buffered l) (map rback ti) -> s = state (mem_reader_buffered l) (map rback ti) ->
  let k := length (taken ti) in
  taken ti = firstn k l /\
  (cvalid (snd s) = true -> (k < length l)%nat /\ bfirst (cbeat (snd s)) = false /\ bdata (cbeat (snd s)) = nth k l 0) /\
  (mr_done (fst s) && negb (cvalid (snd s)) = true -> taken ti = l).
Proof.
  intros Hl Et Es k.
  assert (Hk : k = length (mr_delivered (since ro_rewind ti))) by (unfold k, taken; apply map_length).
  assert (F : taken ti = firstn k l).
  { pose proof (C30_reader_replays l true (map rback ti) Hl) as R. cbn [memory_reader] in R. rewrite <- Et in R.
    unfold taken. rewrite R, <- Hk, <- firstn_map. f_equal. apply packet_data. }
  split; [exact F|].
  set (o := MrObs false (snd s) false (mr_done (fst s))).
  assert (E : trace (mem_reader_buffered l) (map rback ti ++ [(false, false)]) = ti ++ o :: []).
  { rewrite trace_app, <- Et, <- Es. reflexivity. }
  destruct (C30_reader_exact l true _ ti o [] Hl E) as (H1 & H2 & H3). rewrite <- Hk in *.
  cbn [ro_rewind ro_src ro_done o andb] in *. specialize (H1 eq_refl). split.
  - intros Hv. rewrite (H2 Hv). rewrite H1 in Hv. apply andb_prop in Hv. destruct Hv as [_ Hv]. apply Nat.ltb_lt in Hv.
    repeat split. exact Hv.
  - intros X. apply andb_prop in X. destruct X as [X1 X2]. rewrite H3 in X1. apply negb_true_iff in X2. rewrite X2 in X1.
    apply Nat.eqb_eq in X1. rewrite F. replace k with (length l) by lia. apply firstn_all.
Qed.

Lemma taken_snoc ti o : taken (ti ++ [o]) =
  if ro_rewind o then [] else taken ti ++ (if cvalid (ro_src o) && ro_rready o then [bdata (cbeat (ro_src o))] else []).
Proof.
  unfold taken. rewrite since_snoc. destruct (ro_rewind o); [reflexivity|].
  rewrite mr_delivered_snoc, map_app. f_equal. unfold xfer. now destruct (_ && _).
Qed.

Lemma show_snoc g k us u : show g k (us ++ [u]) =
  show g k us ++ (if show_pos g k us =? 0 then cmds (display_cmds g) else []) ++
  [Beat false (blast u || (show_pos g k us =? l_size g - 1)) (true, bdata u)].
Proof.
  revert k. induction us as [|v us IH]; intros k; cbn [app show show_pos]; [reflexivity|].
  rewrite IH. now rewrite <- app_assoc.
Qed.
Lemma show_pos_snoc g k us u : show_pos g k (us ++ [u]) =
  if blast u || (show_pos g k us =? l_size g - 1) then 0 else show_pos g k us + 1.
Proof. revert k. induction us as [|v us IH]; intros k; cbn [app show_pos]; [reflexivity|]. apply IH. Qed.

Lemma lcd_size g : In g lcds -> 2 <= l_size g.
Proof. intros H. cbn in H. intuition (subst; cbn; lia). Qed.

Section Boot.
  Context (g : lcd) (por : bool) (Hg : In g lcds).
  Let c := ssd1306 g por.
  Definition dI (t : list ld_obs) : list Z := taken (map ld_init t).
  Definition dD (t : list ld_obs) : list Z := taken (map ld_disp t).

  Lemma readers ins : let t := trace c ins in let s := state c ins in
    (let k := length (dI t) in
     dI t = firstn k (init_cmds g) /\
     (cvalid (snd (linit g s)) = true -> bfirst (cbeat (snd (linit g s))) = false) /\
     (mr_done (fst (linit g s)) && negb (cvalid (snd (linit g s))) = true -> dI t = init_cmds g)) /\
    (let k := length (dD t) in
     dD t = firstn k (display_cmds g) /\
     (cvalid (snd (ldisp g s)) = true -> bfirst (cbeat (snd (ldisp g s))) = false) /\
     (mr_done (fst (ldisp g s)) && negb (cvalid (snd (ldisp g s))) = true -> dD t = display_cmds g)).
  Proof.
    intros t s. split.
    - destruct (part_trace c (mem_reader_buffered (init_cmds g)) rback (fun s => linit g s) (ld_iin g) ld_init) with (ins := ins) as [E1 E2].
      + intros x [? ?]. reflexivity.
      + reflexivity.
      + intros x i. unfold c, ssd1306. cbn [cnext]. destruct (lf g x); repeat lazymatch goal with |- _ (if ?b then _ else _) = _ => destruct b end; reflexivity.
      + reflexivity.
      + destruct (reader_facts (init_cmds g) _ _ ltac:(discriminate) E1 E2) as (R1 & R2 & R3).
        split; [exact R1|]. split; [intros Hv; now destruct (R2 Hv) as (_ & ? & _)|exact R3].
    - destruct (part_trace c (mem_reader_buffered (display_cmds g)) rback (fun s => ldisp g s) (ld_din g) ld_disp) with (ins := ins) as [E1 E2].
      + intros x [? ?]. reflexivity.
      + reflexivity.
      + intros x i. unfold c, ssd1306. cbn [cnext]. destruct (lf g x); repeat lazymatch goal with |- _ (if ?b then _ else _) = _ => destruct b end; reflexivity.
      + reflexivity.
      + destruct (reader_facts (display_cmds g) _ _ ltac:(discriminate) E1 E2) as (R1 & R2 & R3).
        split; [exact R1|]. split; [intros Hv; now destruct (R2 Hv) as (_ & ? & _)|exact R3].
  Qed.

  Definition ld_inv (t : list ld_obs) (s : ld_state g) : Prop :=
    let U := ld_user t in let W := ld_fed t in
    0 <= lcnt g s < l_size g /\
    (lf g s <> LUnknown -> exists o, In o t /\ ld_reset o || por = true) /\
    match lf g s with
    | LUnknown | LReset => W = [] /\ U = [] /\ lrdy g s = false /\ lcnt g s = 0
    | LInit => U = [] /\ lrdy g s = false /\ lcnt g s = 0 /\ W = cmds (dI t) /\ dD t = []
    | LDisplay =>
        lcnt g s = 0 /\
        if lrdy g s then show_pos g 0 U = 0 /\ W = boot g ++ show g 0 U ++ cmds (dD t)
        else U = [] /\ W = cmds (init_cmds g) ++ cmds (dD t)
    | LFrame =>
        if lrdy g s then show_pos g 0 U = lcnt g s /\
          W = boot g ++ show g 0 U ++ (if lcnt g s =? 0 then cmds (display_cmds g) else [])
        else U = [] /\ W = cmds (init_cmds g) ++ cmds (display_cmds g) ++ repeat (Beat false false (true, 0)) (Z.to_nat (lcnt g s))
    end.

  Lemma ld_user_snoc t o : ld_user (t ++ [o]) = ld_user t ++ xfer (ld_sink o) (ld_sready o).
  Proof. unfold ld_user. rewrite flat_map_app. cbn [flat_map]. now rewrite app_nil_r. Qed.
  Lemma ld_fed_snoc t o : ld_fed (t ++ [o]) = ld_fed t ++ xfer (o_sink (lo_io (ld_wrap o))) (o_sready (lo_io (ld_wrap o))).
  Proof. unfold ld_fed. rewrite map_app. cbn [map]. apply lw_taken_snoc. Qed.

  Lemma started_prefix t u : started_once por (t ++ u) -> started_once por t.
  Proof.
    intros H t1 o t2 o' t3 -> Ho. apply (H t1 o t2 o' (t3 ++ u)); [|exact Ho]. rewrite <- !app_assoc. cbn [app]. now rewrite <- !app_assoc.
  Qed.

  Lemma ld_run ins : started_once por (trace c ins) -> ld_inv (trace c ins) (state c ins).
  Proof.
    intros H. enough (ld_inv (trace c ins) (state c ins) /\ exists ins', trace c ins = trace c ins' /\ state c ins = state c ins') by tauto.
    revert ins H. apply (run_inv_hyp c (started_once por) (fun t s => ld_inv t s /\ exists ins, t = trace c ins /\ s = state c ins) started_prefix).
    - split; [|exists []; auto]. pose proof (lcd_size g Hg). unfold ld_inv. cbn. repeat split; try congruence; lia.
    - intros t s i Hst [(Hc & Hstart & Hs) (ins & -> & ->)]. split.
      2: { exists (ins ++ [i]). rewrite trace_app. unfold state. rewrite state_from_app. auto. }
      destruct (readers ins) as ((I1 & I2 & I3) & (D1 & D2 & D3)).
      set (t := trace c ins) in *. set (s := state c ins) in *. clearbody s t.
      set (o := cout c s i) in *.
      assert (Hr : lf g s <> LUnknown -> li_reset i = false).
      { intros X. destruct (Hstart X) as (x & Hx & Hx'). apply in_split in Hx. destruct Hx as (u & v & ->).
        rewrite <- app_assoc in Hst. exact (Hst u x v o [] eq_refl Hx'). }
      assert (O1 : ld_reset o = li_reset i) by reflexivity.
      assert (O2 : ld_sink o = li_sink i) by reflexivity.
      assert (O3 : ld_sready o = ld_srdy g s i) by reflexivity.
      assert (O4 : lo_io (ld_wrap o) = Obs (ld_wsink g s i) (ld_wrdy g s i) (lw_src (lwrap g s) (ld_wsink g s i)) (li_rready i)) by reflexivity.
      assert (O5 : ld_init o = MrObs (fst (ld_iin g s i)) (snd (linit g s)) (snd (ld_iin g s i)) (mr_done (fst (linit g s)))) by reflexivity.
      assert (O6 : ld_disp o = MrObs (fst (ld_din g s i)) (snd (ldisp g s)) (snd (ld_din g s i)) (mr_done (fst (ldisp g s)))) by reflexivity.
      assert (Hstart' : lf g s <> LUnknown \/ li_reset i || por = true -> exists o', In o' (t ++ [o]) /\ ld_reset o' || por = true).
      { intros [X|X]; [destruct (Hstart X) as (o' & ? & ?); exists o'; split; [apply in_or_app|]; auto|].
        exists o. split; [apply in_or_app; cbn; auto|]. now rewrite O1. }
      clearbody o. unfold ld_inv. rewrite ld_user_snoc, ld_fed_snoc.
      unfold dI, dD in *. rewrite !map_app. cbn [map]. rewrite !taken_snoc, O2, O3, O4, O5, O6. cbn [o_sink o_sready ro_rewind ro_src ro_rready].
      unfold c, ssd1306. cbn [cnext].
      unfold ld_srdy, ld_wsink, ld_din, ld_iin, ld_endframe, ld_fire, ld_go, ld_wsink in *.
      set (wr := ld_wrdy g s i) in *. clearbody wr.
      destruct (lf g s) eqn:Ef.
      + (* UNKNOWN *)
        destruct Hs as (W0 & U0 & R0 & C0). rewrite W0, U0. unfold xfer. cbn [cvalid andb]. rewrite andb_false_r.
        destruct (li_reset i || por) eqn:Es; cbn [lf lcnt lrdy]; repeat split; auto; try lia; congruence.
      + (* RESET *)
        destruct Hs as (W0 & U0 & R0 & C0). rewrite W0, U0. unfold xfer. cbn [cvalid andb fst]. rewrite andb_false_r.
        cbn [lf lcnt lrdy]. split; [lia|]. split; [intros; apply Hstart'; left; discriminate|]. repeat split; auto.
      + (* INIT *)
        destruct Hs as (U0 & R0 & C0 & W0 & D0). rewrite U0, W0, D0. unfold xfer. cbn [cvalid cbeat fst snd app]. rewrite !andb_false_r.
        cbn [lf lcnt lrdy]. split; [lia|]. split; [intros; apply Hstart'; left; discriminate|].
        destruct (cvalid (snd (linit g s))) eqn:Ev.
        * rewrite (I2 eq_refl). rewrite andb_false_r. cbn [andb]. repeat split; auto.
          unfold cmds. rewrite map_app. f_equal. destruct wr; reflexivity.
        * cbn [andb negb]. rewrite andb_true_r. destruct (mr_done (fst (linit g s))) eqn:Ed.
          -- split; [exact C0|]. rewrite R0. split; [reflexivity|]. cbn in I3. rewrite I3 by reflexivity. now rewrite app_nil_r.
          -- repeat split; auto. now rewrite !app_nil_r.
      + (* DISPLAY *)
        rewrite Hr by discriminate. destruct Hs as [C0 Hs]. cbn [negb andb].
        assert (Hu : xfer (li_sink i) false = []) by (unfold xfer; now rewrite andb_false_r). rewrite Hu, app_nil_r.
        destruct (negb (lrdy g s) || cvalid (li_sink i)) eqn:Eg.
        * cbn [lf lcnt lrdy cvalid cbeat fst snd andb].
          split; [lia|]. split; [intros; apply Hstart'; left; discriminate|].
          assert (Hw : xfer (Chan (cvalid (snd (ldisp g s))) (Beat (bfirst (cbeat (snd (ldisp g s)))) true (false, bdata (cbeat (snd (ldisp g s)))))) wr =
                  cmds (if cvalid (snd (ldisp g s)) && wr then [bdata (cbeat (snd (ldisp g s)))] else [])).
          { unfold xfer. cbn [cvalid cbeat]. destruct (cvalid (snd (ldisp g s))) eqn:Ev; [|reflexivity]. rewrite (D2 eq_refl). now destruct wr. }
          rewrite Hw. unfold cmds in *. rewrite !map_app.
          destruct (mr_done (fst (ldisp g s)) && negb (cvalid (snd (ldisp g s)))) eqn:Ed.
          -- apply andb_prop in Ed. destruct Ed as [_ Ed2]. apply negb_true_iff in Ed2. rewrite Ed2.
             cbn [andb map]. rewrite app_nil_r. rewrite (D3 eq_refl) in Hs.
             destruct (lrdy g s); rewrite C0; [exact Hs|]. cbn [Z.to_nat repeat]. rewrite app_nil_r. exact Hs.
          -- split; [exact C0|]. destruct (lrdy g s); destruct Hs as [H1 H2]; rewrite H2; (split; [assumption|]);
             now rewrite <- !app_assoc.
        * cbn [lf lcnt lrdy cvalid xfer andb fst snd]. rewrite andb_false_r, !app_nil_r.
          split; [lia|]. split; [intros; apply Hstart'; left; discriminate|]. auto.
      + (* FRAMEBUFFER *)
        cbn [fst snd]. rewrite !andb_false_r. cbn [andb].
        assert (Hsz := lcd_size g Hg).
        destruct (lrdy g s) eqn:Er; cbn [cvalid cbeat blast andb].
        * destruct Hs as [Hp HW]. rewrite HW. unfold xfer. cbn [cvalid cbeat].
          destruct (cvalid (li_sink i) && wr) eqn:Ex; cbn [lf lcnt lrdy].
          -- rewrite show_pos_snoc, show_snoc, Hp. unfold ld_final. rewrite (orb_comm (lcnt g s =? l_size g - 1)).
             destruct (blast (cbeat (li_sink i)) || (lcnt g s =? l_size g - 1)) eqn:El; cbn [lf lcnt lrdy].
             ++ split; [lia|]. split; [intros; apply Hstart'; left; discriminate|]. split; [reflexivity|]. split; [reflexivity|].
                cbn [cmds map]. rewrite app_nil_r, <- !app_assoc. reflexivity.
             ++ apply orb_false_iff in El. destruct El as [_ El]. apply Z.eqb_neq in El. rewrite trunc_range_small by lia.
                split; [lia|]. split; [intros; apply Hstart'; left; discriminate|]. split; [reflexivity|].
                destruct (Z.eqb_spec (lcnt g s + 1) 0); [lia|]. rewrite app_nil_r, <- !app_assoc. reflexivity.
          -- rewrite !app_nil_r. split; [lia|]. split; [intros; apply Hstart'; left; discriminate|]. auto.
        * destruct Hs as [HU HW]. rewrite HU, HW. unfold xfer. cbn [cvalid cbeat andb]. rewrite andb_false_r. cbn [app].
          destruct wr; cbn [lf lcnt lrdy].
          -- unfold ld_final. destruct (Z.eqb_spec (lcnt g s) (l_size g - 1)) as [El|El]; cbn [lf lcnt lrdy].
             ++ split; [lia|]. split; [intros; apply Hstart'; left; discriminate|]. split; [reflexivity|]. split; [reflexivity|].
                cbn [cmds map show]. rewrite !app_nil_r. unfold boot, blank. replace (Z.to_nat (l_size g) - 1)%nat with (Z.to_nat (lcnt g s)) by lia. now rewrite <- !app_assoc.
             ++ rewrite trunc_range_small by lia.
                split; [lia|]. split; [intros; apply Hstart'; left; discriminate|]. split; [reflexivity|].
                rewrite <- !app_assoc. do 2 f_equal. replace (Z.to_nat (lcnt g s + 1)) with (S (Z.to_nat (lcnt g s))) by lia.
                cbn [repeat]. now rewrite repeat_cons.
          -- rewrite !app_nil_r. split; [lia|]. split; [intros; apply Hstart'; left; discriminate|]. auto.
  Qed.

  (** The wrapper inside the driver. *)
  Definition wback (o : lw_obs) : chan (bool * Z) * bool * bool := (o_sink (lo_io o), o_rready (lo_io o), lo_err o).
  Lemma wrap_trace ins : exists ins', map ld_wrap (trace c ins) = trace lcd_wrapper ins' /\ lwrap g (state c ins) = state lcd_wrapper ins'.
  Proof.
    eexists. apply (part_trace c lcd_wrapper wback (fun s => lwrap g s) (fun s i => (ld_wsink g s i, li_rready i, li_err i)) ld_wrap).
    - intros x [[? ?] ?]. reflexivity.
    - reflexivity.
    - intros x i. unfold c, ssd1306. cbn [cnext].
      destruct (lf g x); repeat lazymatch goal with |- _ (if ?b then _ else _) = _ => destruct b end; reflexivity.
    - reflexivity.
  Qed.

  (** The wrapper's sink obeys the stream rule when the user's does. *)
  Lemma wsink_stable ins : started_once por (trace c ins) -> ld_stable (trace c ins) ->
    stable_sink (map lo_io (map ld_wrap (trace c ins))).
  Proof.
    intros H Hu t1 o o' t2 E Hv Hr.
    assert (E' : exists s1 s2 x y, trace c ins = s1 ++ x :: y :: s2 /\ lo_io (ld_wrap x) = o /\ lo_io (ld_wrap y) = o').
    { rewrite map_map in E. apply map_eq_app in E. destruct E as (s1 & l & E & _ & E2). apply map_eq_cons in E2.
      destruct E2 as (x & l' & -> & Hx & E2). apply map_eq_cons in E2. destruct E2 as (y & s2 & -> & Hy & _). exists s1, s2, x, y. auto. }
    clear E. destruct E' as (s1 & s2 & x & y & E & <- & <-).
    assert (Hk := Hu _ _ _ _ E). rewrite E in H. clear Hu. apply trace_two in E.
    destruct E as (a & i & i' & b & -> & Ea & -> & ->). rewrite <- Ea in H.
    assert (Ha : started_once por (trace c a)) by (eapply started_prefix; exact H).
    assert (Hst : lf g (state c a) <> LUnknown -> li_reset i = false /\ li_reset i' = false).
    { intros X. destruct (ld_run a Ha) as (_ & Hs & _). destruct (Hs X) as (z & Hz & Hz'). apply in_split in Hz.
      destruct Hz as (u & v & Ez). rewrite Ez, <- app_assoc in H. cbn [app] in H. split.
      - exact (H u z v _ _ eq_refl Hz').
      - apply (H u z (v ++ [cout c (state c a) i]) (cout c (cnext c (state c a) i) i') s2); [|exact Hz'].
        now rewrite <- app_assoc. }
    set (s := state c a) in *. clearbody s.
    change (o_sink (lo_io (ld_wrap (cout c s i)))) with (ld_wsink g s i) in *.
    change (o_sink (lo_io (ld_wrap (cout c (cnext c s i) i')))) with (ld_wsink g (cnext c s i) i') in *.
    change (o_sready (lo_io (ld_wrap (cout c s i)))) with (ld_wrdy g s i) in *.
    change (ld_sink (cout c s i)) with (li_sink i) in *. change (ld_sink (cout c (cnext c s i) i')) with (li_sink i') in *.
    change (ld_sready (cout c s i)) with (ld_srdy g s i) in *.
    clear H Ha Ea. unfold c, ssd1306. cbn [cnext]. unfold ld_srdy in Hk. unfold ld_fire, ld_iin, ld_din, ld_wsink, ld_go in *.
    assert (Hold : forall l (x : cst (mem_reader_buffered l)), cvalid (snd x) = true ->
              snd (cnext (mem_reader_buffered l) x (false, false)) = snd x).
    { intros l [m k] X. cbn in *. unfold Pipe_model.pv_en. now rewrite X. }
    destruct (lf g s) eqn:Ef; try discriminate.
    - cbn [cvalid] in Hv. rewrite Hv, andb_false_r. cbn [lf linit snd]. rewrite Hr.
      rewrite Hold by exact Hv. now rewrite Hv.
    - destruct Hst as [R1 R2]; [discriminate|]. rewrite R1 in *. cbn [negb andb] in *.
      destruct (negb (lrdy g s) || cvalid (li_sink i)) eqn:Eg; [|discriminate]. cbn [cvalid] in Hv.
      rewrite Hv, andb_false_r. cbn [lf lrdy ldisp negb andb snd]. rewrite R2, Hr. cbn [negb andb].
      assert (X : negb (lrdy g s) || cvalid (li_sink i') = true).
      { destruct (lrdy g s); [|reflexivity]. cbn [negb orb] in *. rewrite Hk; auto. }
      rewrite X, Hold by exact Hv. now rewrite Hv.
    - rewrite Hr, andb_false_r in *. cbn [lf lrdy]. unfold ld_final. cbn [lcnt].
      destruct (lrdy g s); [|reflexivity]. cbn [cvalid andb] in *. rewrite Hk; auto.
  Qed.
End Boot.
