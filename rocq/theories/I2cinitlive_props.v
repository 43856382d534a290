(** I2CRegisterInit: bounded completion, C112. *)
From Verif Require Import Stream Bits Progress I2c_model I2c_spec I2c_proofs I2c_live I2c_props I2cstream_model I2cstream_spec I2cstream_proofs I2cwriter_props I2clive_props.
From Verif Require Import Pipe_model Mem_model I2cinit_model I2cinit_props.

(** ** C112: I2CRegisterInit completes. *)
Section Init.
  Context (addr : Z) (regs : list (Z * Z)) (expose : bool) (period : Z) (stretch oe : bool) (HP : 4 <= period) (HR : regs <> []).
  Let c := reg_init addr regs expose period stretch oe.
  Let W := cmd_bound period.
  Let tab := ri_table addr regs.
  Notation smem s := (rs_mem addr regs period stretch oe s).
  Notation sw s := (rs_w addr regs period stretch oe s).
  Notation sdone s := (rs_done addr regs period stretch oe s).
  Definition ril_inv (s : cst c) : Prop :=
    iwl_inv period (sw s) /\ iw_retry (sw s) = false /\
    match iw_f (sw s) with IwStart | IwWStart | IwWrite => cvalid (snd (smem s)) = true | _ => True end /\
    (mr_done (fst (smem s)) = false -> 0 <= mr_rd (fst (smem s)) < mr_depth tab) /\
    (mr_done (fst (smem s)) = true -> cvalid (snd (smem s)) = true /\ blast (cbeat (snd (smem s))) = true).
  Definition ril_m (s : cst c) : nat :=
    (((if mr_done (fst (smem s)) then 0 else Z.to_nat (mr_depth tab - mr_rd (fst (smem s)))) * (18 * W + 2)
     + (if mr_wait (fst (smem s)) then 1 else 0)
     + (if cvalid (snd (smem s)) then 18 * W + 1 else 0)) + iw_m period stretch oe (sw s))%nat.


  Lemma ril_fsm w k p : iw_retry w = false -> iw_refused w = false ->
    match iw_f w with IwStart | IwWStart | IwWrite => cvalid k = true | _ => True end ->
    iw_retry (iw_next period stretch oe w k p) = false /\
    match iw_f (iw_next period stretch oe w k p) with IwStart | IwWStart | IwWrite => cvalid k = true /\ iw_take w = false | _ => True end.
  Proof.
    intros H1 H2 H3. assert (U : iw_use_cache w = false) by (unfold iw_use_cache; now rewrite H1).
    unfold iw_next, iw_take, iw_is_write. rewrite U, H1. rewrite orb_false_r. cbn [negb andb].
    unfold iw_refused in H2. destruct (iw_f w).
    - destruct (iw_idle w), (cvalid k); cbn; auto.
    - cbn; auto.
    - destruct (iw_idle w); cbn; auto.
    - cbn; auto.
    - destruct (iw_idle w); [|cbn; auto]. cbn [andb] in H2. apply negb_false_iff in H2. rewrite H2. cbn [negb].
      destruct (2 <? iw_stage w); [cbn; auto|]. destruct (cvalid k); cbn; auto.
    - cbn; auto.
    - destruct (iw_idle w); cbn; auto.
  Qed.

  Lemma ril_step s u p : sdone s = false -> ril_inv s ->
    scl_follows stretch oe (wo_i2c (ri_w (cout c s (u, p)))) -> iw_refused (sw s) = false ->
    sdone (cnext c s (u, p)) = true \/ (ril_inv (cnext c s (u, p)) /\ (1 + ril_m (cnext c s (u, p)) <= ril_m s)%nat).
  Proof.
    intros Hd (Hw & Hret & Hval & Hr & Hl) Hf Hn. set (k := ri_msrc addr regs period stretch oe s).
    assert (HT : ri_tomem addr regs expose period stretch oe s = true) by (unfold ri_tomem; rewrite Hd; apply orb_true_r).
    assert (HS : ri_wsink addr regs expose period stretch oe s u = k) by (unfold ri_wsink; now rewrite HT).
    assert (HM : ri_mready addr regs expose period stretch oe s = iw_take (sw s)) by (unfold ri_mready; now rewrite HT).
    cbn [c reg_init cout ri_w i2c_writer wo_i2c] in Hf. rewrite HS in Hf.
    pose proof (iw_step period stretch oe HP (sw s) k p Hw Hf Hn) as H1. pose proof (iwl_inv_next period stretch oe HP (sw s) k p Hw) as H2.
    pose proof (iw_m_bound period stretch oe HP _ H2) as H3. fold W in H3.
    destruct (ril_fsm (sw s) k p Hret Hn Hval) as [F1 F2].
    unfold ril_inv, ril_m. cbn [c reg_init cnext rs_done rs_w rs_mem i2c_writer]. rewrite HS, HM, Hd. fold k. fold tab.
    cbn [mem_reader_buffered cnext fst snd pipe_valid nxt rdy].
    change (snd (smem s)) with k in *. set (mm := fst (smem s)) in *.
    assert (TK : iw_take (sw s) = true -> cvalid k = true).
    { unfold iw_take, iw_is_write. destruct (iw_f (sw s)); auto; rewrite andb_false_r; discriminate. }
    set (w := sw s) in *. set (w' := iw_next period stretch oe w k p) in *. unfold pv_en.
    assert (TR : mr_done mm = false -> mr_rd mm <> mr_depth tab - 1 -> trunc (range_width (mr_depth tab)) (mr_rd mm + 1) = mr_rd mm + 1).
    { intros Y X. specialize (Hr Y). apply trunc_range_small; lia. }
    destruct (cvalid k) eqn:Ek; cbn [negb orb].
    - destruct (iw_take w) eqn:Et.
      + cbn [andb]. destruct (blast (cbeat k)) eqn:El; [now left|]. right.
        destruct (mr_done mm) eqn:Em; [destruct (Hl eq_refl); discriminate|]. specialize (Hr eq_refl).
        assert (F3 : forall P : Prop, match iw_f w' with IwStart | IwWStart | IwWrite => P | _ => True end).
        { intros P. destruct (iw_f w'); try exact I; destruct F2; discriminate. }
        unfold mr_next, mr_src. cbn [cvalid cbeat blast mr_done mr_wait mr_rd mr_rp]. rewrite Em. cbn [negb andb]. rewrite !andb_true_r. unfold mr_last.
        destruct (mr_wait mm) eqn:Ew; cbn [negb].
        * split; [split; [auto|split; [auto|split; [apply F3|split; [auto|discriminate]]]]|]. lia.
        * destruct (Z.eqb_spec (mr_rd mm) (mr_depth tab - 1)) as [E|E].
          -- split; [split; [auto|split; [auto|split; [apply F3|split; [discriminate|auto]]]]|].
             rewrite E. replace (mr_depth tab - (mr_depth tab - 1)) with 1 by lia. change (Z.to_nat 1) with 1%nat. lia.
          -- rewrite TR by auto. split; [split; [auto|split; [auto|split; [apply F3|split; [lia|discriminate]]]]|].
             replace (Z.to_nat (mr_depth tab - mr_rd mm)) with (S (Z.to_nat (mr_depth tab - (mr_rd mm + 1)))) by lia. lia.
      + cbn [andb]. right. specialize (H1 eq_refl). unfold mr_next, mr_src. cbn [cvalid cbeat blast mr_done mr_wait mr_rd mr_rp]. rewrite andb_false_r.
        rewrite Ek. split; [split; [auto|split; [auto|split; [|split; auto]]]|].
        * destruct (iw_f w'); auto.
        * destruct (mr_wait mm); lia.
    - right. destruct (mr_done mm) eqn:Em; [destruct (Hl eq_refl); discriminate|]. cbn [andb]. specialize (Hr eq_refl).
      destruct (iw_take w) eqn:Et; [specialize (TK eq_refl); discriminate|]. specialize (H1 eq_refl).
      assert (F3 : forall P : Prop, match iw_f w' with IwStart | IwWStart | IwWrite => P | _ => True end).
      { intros P. destruct (iw_f w'); try exact I; destruct F2; discriminate. }
      unfold mr_next, mr_src. cbn [cvalid cbeat blast mr_done mr_wait mr_rd mr_rp]. rewrite Em. cbn [negb andb]. rewrite !andb_true_r. unfold mr_last.
      destruct (mr_wait mm) eqn:Ew; cbn [negb].
      + split; [split; [auto|split; [auto|split; [apply F3|split; [auto|discriminate]]]]|]. lia.
      + destruct (Z.eqb_spec (mr_rd mm) (mr_depth tab - 1)) as [E|E].
        * split; [split; [auto|split; [auto|split; [apply F3|split; [discriminate|auto]]]]|].
          rewrite E. replace (mr_depth tab - (mr_depth tab - 1)) with 1 by lia. change (Z.to_nat 1) with 1%nat. lia.
        * rewrite TR by auto. split; [split; [auto|split; [auto|split; [apply F3|split; [lia|discriminate]]]]|].
          replace (Z.to_nat (mr_depth tab - mr_rd mm)) with (S (Z.to_nat (mr_depth tab - (mr_rd mm + 1)))) by lia. lia.
  Qed.

  (** The writer inside, as a run of the writer. *)
  Lemma ri_w_state ins :
    let t := map ri_w (trace c ins) in
    let wi := map (fun o => (wo_sink o, (ii_sda_pad (io_in (wo_i2c o)), ii_scl_pad (io_in (wo_i2c o))))) t in
    t = trace (i2c_writer period stretch oe) wi /\ sw (state c ins) = state (i2c_writer period stretch oe) wi.
  Proof.
    refine (part_trace c (i2c_writer period stretch oe) (fun o => (wo_sink o, (ii_sda_pad (io_in (wo_i2c o)), ii_scl_pad (io_in (wo_i2c o))))) (rs_w _ _ _ _ _)
      (fun s '(u, p) => (ri_wsink _ _ expose _ _ _ s u, p)) ri_w _ eq_refl _ _ ins).
    - intros s [r [a b]]. reflexivity.
    - intros s [u p]. reflexivity.
    - intros s [u p]. reflexivity.
  Qed.

  (** What is not refused on the bus is not refused to the writer. *)
  Lemma ri_not_refused a u p : ~ refused_write (map ri_w (trace c a)) (ri_w (cout c (state c a) (u, p))) ->
    iw_refused (sw (state c a)) = false.
  Proof.
    intros H. destruct (iw_refused (sw (state c a))) eqn:E; [|reflexivity]. exfalso. apply H.
    destruct (ri_w_state a) as [E1 E2]. unfold iw_refused in E. destruct (iw_f (sw (state c a))) eqn:Ef; try discriminate.
    apply andb_prop in E. destruct E as [E3 E4]. split; [|split; [now apply negb_true_iff in E3|now apply negb_true_iff in E4]].
    rewrite E1. apply (iwl_run period stretch oe HP). rewrite <- E2. exact Ef.
  Qed.

  Lemma ri_complete b : forall a,
    sdone (state c a) = false -> ril_inv (state c a) -> (ril_m (state c a) < length b)%nat ->
    Forall (fun o => scl_follows stretch oe (wo_i2c (ri_w o))) (trace_from c (state c a) b) ->
    (forall t1 o t2, trace c (a ++ b) = t1 ++ o :: t2 -> ~ refused_write (map ri_w t1) (ri_w o)) ->
    exists t1 o t2, trace_from c (state c a) b = t1 ++ o :: t2 /\ ri_done o = true /\ (length t1 <= ril_m (state c a) + 1)%nat.
  Proof.
    induction b as [|[u p] b IH]; intros a Hd HI Hm HF HN; [cbn in Hm; lia|].
    cbn [trace_from] in HF |- *. apply Forall_cons_iff in HF. destruct HF as [HF1 HF2].
    pose proof (ri_not_refused a u p) as Hn.
    assert (E : trace c (a ++ (u, p) :: b) = trace c a ++ cout c (state c a) (u, p) :: trace_from c (cnext c (state c a) (u, p)) b).
    { rewrite trace_app. reflexivity. }
    specialize (Hn (HN _ _ _ E)). destruct (ril_step (state c a) u p Hd HI HF1 Hn) as [D|[HI' Hm']].
    - destruct b as [|[u' p'] b]; [cbn in Hm; exfalso|].
      + assert (HW : (0 < W)%nat) by (pose proof (W_pos period HP); unfold W; lia). destruct HI as (_ & _ & HV & H3 & H4). unfold ril_m in Hm.
        cbn [c reg_init cnext rs_done] in D. rewrite Hd in D. destruct (_ && _) eqn:D1 in D; [|discriminate].
        apply andb_prop in D1. destruct D1 as [D1 _]. apply andb_prop in D1. destruct D1 as [D1 _].
        change (cvalid (snd (smem (state c a))) = true) in D1. rewrite D1 in Hm. lia.
      + exists [cout c (state c a) (u, p)]. eexists _, _. split; [cbn [app trace_from]; reflexivity|]. split; [exact D|cbn; lia].
    - destruct (sdone (cnext c (state c a) (u, p))) eqn:D.
      + destruct b as [|[u' p'] b]; [cbn in Hm; lia|].
        exists [cout c (state c a) (u, p)]. eexists _, _. split; [cbn [app trace_from]; reflexivity|]. split; [exact D|cbn; lia].
      + assert (ES : state c (a ++ [(u, p)]) = cnext c (state c a) (u, p)) by (unfold state; rewrite state_from_app; reflexivity).
        destruct (IH (a ++ [(u, p)])) as (t1 & o & t2 & E1 & E2 & E3); rewrite ?ES; auto.
        * cbn [length] in Hm. lia.
        * rewrite <- app_assoc. exact HN.
        * rewrite ES in E1, E3. exists (cout c (state c a) (u, p) :: t1), o, t2. cbn [app length]. rewrite E1. repeat split; auto. lia.
  Qed.
End Init.

(** When no write is refused and SCL is not stretched, done comes within 19 command
    times per byte of the table (and one spare). *)
Theorem C112_init_completes : forall addr regs expose period stretch oe ins, 4 <= period -> regs <> [] ->
  let t := trace (reg_init addr regs expose period stretch oe) ins in
  let bound := (19 * (3 * length regs + 1) * cmd_bound period)%nat in
  Forall (fun o => scl_follows stretch oe (wo_i2c (ri_w o))) t ->
  (forall t1 o t2, t = t1 ++ o :: t2 -> ~ refused_write (map ri_w t1) (ri_w o)) ->
  (bound < length t)%nat ->
  exists t1 o t2, t = t1 ++ o :: t2 /\ ri_done o = true /\ (length t1 <= bound)%nat.
Proof.
  intros addr regs expose period stretch oe ins HP HR t bound HF HN HL. set (c := reg_init addr regs expose period stretch oe) in *.
  assert (HW : (8 < cmd_bound period)%nat) by (unfold cmd_bound; pose proof (Z.div_pos period 4 ltac:(lia) ltac:(lia)); lia).
  assert (HD : mr_depth (ri_table addr regs) = Z.of_nat (3 * length regs)).
  { unfold mr_depth. f_equal. clear. unfold ri_table. induction regs as [|r rs IH]; [reflexivity|]. cbn [flat_map app length]. rewrite IH. lia. }
  assert (HM : (ril_m addr regs expose period stretch oe (creset c) + 1 <= bound)%nat).
  { unfold ril_m, bound. cbn [c reg_init creset ri_reset rs_mem rs_w mem_reader_buffered i2c_writer fst snd mr_reset mr_done mr_wait mr_rd].
    cbn [pv_reset cvalid]. rewrite HD.
    assert (E : (iw_m period stretch oe iw_reset < 18 * cmd_bound period)%nat).
    { apply iw_m_bound; auto. pose proof (iwl_run period stretch oe HP []) as (_ & H & _). exact H. }
    revert E. generalize (iw_m period stretch oe iw_reset). intros n E.
    replace (Z.to_nat _) with (3 * length regs)%nat by lia.
    clear - HW E. generalize dependent (cmd_bound period). generalize (3 * length regs)%nat. intros; nia. }
  destruct (ri_complete addr regs expose period stretch oe HP ins []) as (t1 & o & t2 & E1 & E2 & E3); auto.
  - split; [|split; [reflexivity|split; [exact I|split; [|discriminate]]]].
    + pose proof (iwl_run period stretch oe HP []) as (_ & H & _). exact H.
    + intros _. rewrite HD. cbn. destruct regs; [congruence|cbn [length]; lia].
  - change (state _ []) with (creset c). unfold t in HL. rewrite trace_length in HL. lia.
  - exists t1, o, t2. split; [exact E1|]. split; [exact E2|]. change (state _ []) with (creset c) in E3. lia.
Qed.

(** Two registers, everything acknowledged. *)
Fixpoint no_refusalb (w : bool) (t : list ri_obs) : bool :=
  match t with
  | [] => true
  | o :: t => (negb w || io_busy (wo_i2c (ri_w o)) || io_ack (wo_i2c (ri_w o))) &&
              no_refusalb (match io_cmd (wo_i2c (ri_w o)) with Some (CWrite _) => true | Some _ => false | None => w end) t
  end.
Definition after_write (t : list ri_obs) : bool :=
  match last_cmd (map wo_i2c (map ri_w t)) with Some (CWrite _) => true | _ => false end.
Lemma no_refusalb_ok t : forall t0, no_refusalb (after_write t0) t = true ->
  forall t1 o t2, t = t1 ++ o :: t2 -> ~ refused_write (map ri_w (t0 ++ t1)) (ri_w o).
Proof.
  induction t as [|x t IH]; intros t0 H t1 o t2 E; [destruct t1; discriminate|].
  cbn [no_refusalb] in H. apply andb_prop in H. destruct H as [H1 H2]. destruct t1 as [|y t1]; injection E as -> E.
  - rewrite app_nil_r. intros ((z & K1) & K2 & K3). unfold after_write in H1. rewrite K1, K2, K3 in H1. discriminate.
  - subst t. replace (t0 ++ y :: t1) with ((t0 ++ [y]) ++ t1) by (rewrite <- app_assoc; reflexivity).
    apply (IH (t0 ++ [y])) with (t2 := t2); [|reflexivity]. rewrite <- H2. f_equal. unfold after_write.
    rewrite !map_app. cbn [map]. rewrite last_cmd_snoc. destruct (io_cmd (wo_i2c (ri_w y))) as [[]|]; reflexivity.
Qed.
Example C112_nonvacuous :
  let t := trace (reg_init 0x3c [(1, 0x23); (2, 0x45)] true 4 false true) (repeat (ri_byte 0x77 false) 32000) in
  Forall (fun o => scl_follows false true (wo_i2c (ri_w o))) t /\
  (forall t1 o t2, t = t1 ++ o :: t2 -> ~ refused_write (map ri_w t1) (ri_w o)) /\
  (19 * (3 * 2 + 1) * cmd_bound 4 < length t)%nat /\
  map ri_done (firstn 430 t) = repeat false 413 ++ repeat true 17.
Proof.
  intros t. split; [apply Forall_forall; intros o _ H; discriminate|].
  split; [apply (no_refusalb_ok t []); vm_compute; reflexivity|].
  split; [apply Nat.ltb_lt; vm_compute; reflexivity|vm_compute; reflexivity].
Qed.
Print Assumptions C112_init_completes.
