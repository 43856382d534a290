(** Invariants of ulpi_wrapper's register writes: the same argument for the function control
    register (mode) and the OTG control register. *)
From Verif Require Import Hdl Ulpiw_model Ulpiw_spec Ulpirx_props Ulpitx_proofs.

Inductive which := Wm | Wo.
Definition reg (w : which) : Z := match w with Wm => 4 | Wo => 10 end.
Definition upd (w : which) (s : uw_state) : bool := match w with Wm => m_upd (u_mode s) | Wo => g_upd (u_otg s) end.
Definition wrq (w : which) (m : uw_main) : bool := match w with Wm => w_mwr m | Wo => w_owr m end.
Definition same (w : which) (a b : setting) : Prop := match w with Wm => same_mode a b | Wo => same_otg a b end.
Definition setq (w : which) (s : uw_state) (x : setting) : Prop :=
  match w with
  | Wm => m_op (u_mode s) = s_op x /\ m_term (u_mode s) = s_term x /\ m_xcvr (u_mode s) = s_xcvr x
  | Wo => g_dm (u_otg s) = s_dm x /\ g_dp (u_otg s) = s_dp x
  end.
Definition val (w : which) (rst : bool) (x : setting) : Z := match w with Wm => func_value rst x | Wo => otg_value x end.
Definition going (w : which) (s : uw_state) : bool := in_write (w_st (u_main s)) (wrq w (u_main s)).
Definition fin (w : which) (s : uw_state) (i : uw_in) : bool := complete (wrq w (u_main s)) (w_st (u_main s)) i.

Lemma writes_app a l m : writes a (l ++ m) = writes a l ++ writes a m.
Proof. apply flat_map_app. Qed.

(** The writes a cycle logs. *)
Lemma write_event w t s i bus : phy_ok (t ++ [cout uw s i]) -> tx_inv t s bus ->
  writes (reg w) (snd (pstep t (cout uw s i))) = if fin w s i then [w_dataq (u_main s)] else [].
Proof.
  intros HK (ID & _ & II). assert (HT : u_dir s = true -> ui_dir i = false -> ui_nxt i = false) by (intros A B; rewrite ID in A; exact (phy_ok_last t _ HK A B)).
  unfold pstep, fin, complete. rewrite <- ID. clear ID HK. revert II HT. generalize (phy_state t) as p. intros p.
  unfold bus_inv, phy_step, uo_dir, uo_nxt. cbn [cout uw uo_in uo_data uo_stp]. destruct (u_main s) as [st dt stp dq mw ow]. cbn [w_st w_data w_stp w_dataq w_mwr w_owr wrq].
  destruct (u_dir s), (ui_dir i), (ui_nxt i); intros II HT; try (discriminate (HT eq_refl eq_refl)); cbn [negb andb];
    destruct st; cbn [uw_st_eqb andb]; rewrite ?andb_false_r.
  all: try (destruct II as (_ & _ & [->|[-> ->]]); cbn [snd writes flat_map]; try reflexivity; destruct (64 <=? dt), (dt <? 128), (128 <=? dt), (dt <? 192); cbn [andb snd writes flat_map]; reflexivity).
  all: try (destruct II as (_ & _ & -> & _); cbn [snd writes flat_map]; try reflexivity; destruct (64 <=? dt), (dt <? 128), (128 <=? dt), (dt <? 192); cbn [andb snd writes flat_map]; reflexivity).
  all: try (destruct II as (-> & b & _ & [[-> _]|[-> _]]); cbn [snd writes flat_map]; try reflexivity; destruct (64 <=? dt), (dt <? 128), (128 <=? dt), (dt <? 192); cbn [andb snd writes flat_map]; reflexivity).
  all: destruct II as (-> & _ & HC & HD & HQ).
  all: try (rewrite (HQ eq_refl); reflexivity).
  all: specialize (HD eq_refl); subst dt; destruct HC as [(-> & -> & HC)|(-> & -> & HC)]; rewrite (HC eq_refl); destruct w; reflexivity.
Qed.

(** The next state, as far as one of the registers is concerned. *)
Lemma upd_next w s i : (forall x, setq w s x -> same w x (ui_set i) -> upd w (cnext uw s i) = upd w s && negb (fin w s i)) /\
  (fin w s i = false -> upd w s = true -> upd w (cnext uw s i) = true) /\
  (fin w s i = false -> (forall x, setq w s x -> ~ same w x (ui_set i)) -> upd w (cnext uw s i) = true).
Proof.
  unfold fin. destruct w; cbn [upd setq same wrq cnext uw u_mode u_otg]; unfold mode_next, otg_next; cbn [m_upd g_upd].
  - destruct (complete (w_mwr (u_main s)) (w_st (u_main s)) i); (split; [|split]).
    + intros x (A & B & C) (A' & B' & C'). rewrite A, B, C, A', B', C', !Z.eqb_refl, xorb_nilpotent. cbn [negb orb]. now destruct (m_upd (u_mode s)).
    + discriminate.
    + discriminate.
    + intros x (A & B & C) (A' & B' & C'). rewrite A, B, C, A', B', C', !Z.eqb_refl, xorb_nilpotent. cbn [negb orb]. now destruct (m_upd (u_mode s)).
    + intros _ ->. cbn [andb]. now destruct (_ || _ || _).
    + intros _ H. rewrite andb_false_r. destruct (negb (m_op (u_mode s) =? s_op (ui_set i)) || _ || _) eqn:E; [reflexivity|].
      exfalso. apply orb_false_iff in E. destruct E as [E E3]. apply orb_false_iff in E. destruct E as [E1 E2]. apply negb_false_iff, Z.eqb_eq in E1, E3. apply xorb_eq in E2.
      apply (H (ui_set i)); repeat split; assumption.
  - destruct (complete (w_owr (u_main s)) (w_st (u_main s)) i); (split; [|split]).
    + intros x (A & B) (A' & B'). rewrite A, B, A', B', !xorb_nilpotent. cbn [orb]. now destruct (g_upd (u_otg s)).
    + discriminate.
    + discriminate.
    + intros x (A & B) (A' & B'). rewrite A, B, A', B', !xorb_nilpotent. cbn [orb]. now destruct (g_upd (u_otg s)).
    + intros _ ->. cbn [andb]. now destruct (_ || _).
    + intros _ H. rewrite andb_false_r. destruct (xorb (g_dp (u_otg s)) (s_dp (ui_set i)) || _) eqn:E; [reflexivity|].
      exfalso. apply orb_false_iff in E. destruct E as [E1 E2]. apply xorb_eq in E1, E2. apply (H (ui_set i)); repeat split; assumption.
Qed.
Lemma setq_next w s i : setq w (cnext uw s i) (ui_set i).
Proof. destruct w; repeat split. Qed.
Lemma rst_next s i : m_rst (u_mode (cnext uw s i)) = if m_upd (u_mode s) && fin Wm s i then false else m_rst (u_mode s).
Proof. reflexivity. Qed.
Lemma setq_same w s a b : setq w s a -> same w a b -> setq w s b.
Proof. destruct w; cbn; unfold same_mode, same_otg; intuition congruence. Qed.
Lemma val_same w r a b : same w a b -> val w r a = val w r b.
Proof. destruct w; cbn [same val]; [intros (A & B & C); unfold func_value; now rewrite A, B, C|intros (A & B); unfold otg_value; now rewrite A, B]. Qed.

Lemma func_value_ctrl r x : func_value r x = func_ctrl r (s_op x) (s_term x) (s_xcvr x).
Proof. unfold func_value, func_ctrl, b2z. destruct r, (s_term x); lia. Qed.
Lemma otg_value_ctrl x : otg_value x = otg_ctrl (s_dm x) (s_dp x).
Proof. unfold otg_value, otg_ctrl, b2z. destruct (s_dm x), (s_dp x); lia. Qed.

(** A write that is going on in the next cycle went on before, with the same value, or
    starts now with the registered settings. *)
Lemma going_next w s i : going w (cnext uw s i) = true ->
  (going w s = true /\ fin w s i && negb (u_dir s) = false /\ w_dataq (main_next s i) = w_dataq (u_main s) /\
   (w_st (u_main s) = WReg -> u_dir s = true -> ui_dir i = true /\ w_st (main_next s i) = WReg)) \/
  (upd w s = true /\ w_st (u_main s) = WIdle /\ forall x, setq w s x -> w_dataq (main_next s i) = val w (m_rst (u_mode s)) x).
Proof.
  unfold going, fin, complete, in_write. cbn [cnext uw u_main]. unfold main_next. destruct (u_main s) as [st dt stp dq mw ow]. cbn [w_st w_data w_stp w_dataq w_mwr w_owr].
  destruct (u_dir s), (ui_dir i), (ui_nxt i); cbn [xorb andb negb]; destruct st; cbn [uw_st_eqb orb andb w_st w_mwr w_owr w_dataq wrq]; try discriminate.
  all: try (intros H; left; split; [exact H|]; split; [rewrite ?andb_false_r; reflexivity|]; split; [reflexivity|]; intros E1 E2; try discriminate; split; reflexivity).
  all: destruct w; cbn [wrq upd setq val w_mwr w_owr].
  all: destruct (m_upd (u_mode s)); cbn [w_st uw_st_eqb orb andb w_mwr w_owr w_dataq].
  all: try discriminate.
  all: try (intros _; right; split; [reflexivity|]; split; [reflexivity|]; intros x (A & B & C); rewrite func_value_ctrl; now rewrite A, B, C).
  all: destruct (g_upd (u_otg s)); cbn [w_st uw_st_eqb orb andb w_mwr w_owr w_dataq].
  all: try discriminate.
  all: try (intros _; right; split; [reflexivity|]; split; [reflexivity|]; intros x (A & B); rewrite otg_value_ctrl; now rewrite A, B).
  all: destruct (tx_have (u_buf s)); cbn [w_st uw_st_eqb orb andb]; discriminate.
Qed.

(** ** Global facts *)
Lemma prev_set_snoc t o : prev_set (t ++ [o]) = uo_set o.
Proof. unfold prev_set. rewrite rev_app_distr. reflexivity. Qed.
Lemma setq_run w ins : setq w (state uw ins) (prev_set (trace uw ins)).
Proof.
  apply (run_inv uw (fun t s => setq w s (prev_set t))); [destruct w; repeat split|]. intros t s i _. rewrite prev_set_snoc. apply setq_next.
Qed.
Lemma fin_st w s i : fin w s i = true -> w_st (u_main s) = WReg /\ wrq w (u_main s) = true /\ ui_nxt i = true /\ ui_dir i = false.
Proof.
  unfold fin, complete. intros H. apply andb_true_iff in H. destruct H as [H H4]. apply andb_true_iff in H. destruct H as [H H3]. apply andb_true_iff in H. destruct H as [H1 H2].
  apply negb_true_iff in H4. destruct (w_st (u_main s)); try discriminate H1. auto.
Qed.
(** A write going on is one that was asked for; the reset bit is pending until the first
    mode write. *)
Definition glob (t : list uw_obs) (s : uw_state) : Prop :=
  (exists bus, tx_inv t s bus) /\ (forall w, going w s = true -> upd w s = true) /\
  m_rst (u_mode s) = match writes 4 (phy_log t) with [] => true | _ => false end.
Lemma glob_step t s i : phy_ok (t ++ [cout uw s i]) -> glob t s -> glob (t ++ [cout uw s i]) (cnext uw s i).
Proof.
  intros HK ((bus & I) & G & R). destruct (tx_step t s i bus HK I) as (bus' & _ & I' & _ & LG & _).
  assert (HT : u_dir s = true -> ui_dir i = false -> ui_nxt i = false) by (intros A B; destruct I as (ID & _); rewrite ID in A; exact (phy_ok_last t _ HK A B)).
  assert (FD : forall w, fin w s i = true -> u_dir s = false).
  { intros w F. destruct (fin_st w s i F) as (_ & _ & F3 & F4). destruct (u_dir s) eqn:D; [|reflexivity]. rewrite (HT eq_refl F4) in F3. discriminate F3. }
  split; [now exists bus'|]. split.
  - intros w H. destruct (going_next w s i H) as [(H1 & H2 & _)|(H1 & H2 & _)].
    + destruct (upd_next w s i) as (_ & U & _). apply U; [|now apply G]. destruct (fin w s i) eqn:F; [|reflexivity]. rewrite (FD w F) in H2. discriminate H2.
    + destruct (upd_next w s i) as (_ & U & _). apply U; [|exact H1]. destruct (fin w s i) eqn:F; [|reflexivity]. destruct (fin_st w s i F) as (F1 & _). congruence.
  - rewrite rst_next, LG, writes_app. pose proof (write_event Wm t s i bus HK I) as WE. cbn [reg] in WE. rewrite WE.
    destruct (fin Wm s i) eqn:F.
    + destruct (fin_st Wm s i F) as (F1 & F2 & _). rewrite (G Wm ltac:(unfold going, in_write; rewrite F1, F2; reflexivity) : m_upd (u_mode s) = true). cbn [andb].
      destruct (writes 4 (phy_log t)); reflexivity.
    + rewrite andb_false_r, app_nil_r. exact R.
Qed.
Lemma glob_run ins : phy_ok (trace uw ins) -> glob (trace uw ins) (state uw ins).
Proof.
  apply (run_inv_hyp uw phy_ok glob); [exact phy_ok_app| |intros t s i; apply glob_step].
  split; [exists []; exact tx_reset|]. split; [intros []; discriminate|reflexivity].
Qed.

(** ** After the last change *)
Definition asked (w : which) (x : setting) (s : uw_state) : Prop :=
  upd w s = true /\ setq w s x /\ (going w s = true -> (w_st (u_main s) = WReg /\ u_dir s = true) \/ w_dataq (u_main s) = val w (m_rst (u_mode s)) x).
Definition written (w : which) (x : setting) (s : uw_state) : Prop := upd w s = false /\ setq w s x /\ going w s = false.

Lemma asked_step w x t s i : phy_ok (t ++ [cout uw s i]) -> glob t s -> asked w x s -> same w x (ui_set i) ->
  let e := writes (reg w) (snd (pstep t (cout uw s i))) in
  (e = [] /\ asked w x (cnext uw s i) /\ (w = Wm -> m_rst (u_mode (cnext uw s i)) = m_rst (u_mode s))) \/ (e = [val w (m_rst (u_mode s)) x] /\ written w x (cnext uw s i)).
Proof.
  intros HK ((bus & I) & G & _) (U & Q & D) SA e. unfold e. rewrite (write_event w t s i bus HK I).
  assert (HT : u_dir s = true -> ui_dir i = false -> ui_nxt i = false) by (intros A B; destruct I as (ID & _); rewrite ID in A; exact (phy_ok_last t _ HK A B)).
  destruct (upd_next w s i) as (U1 & U2 & _). specialize (U1 x Q SA).
  assert (Q' : setq w (cnext uw s i) x). { apply (setq_same w _ (ui_set i)); [apply setq_next|]. clear -SA. destruct w; cbn in *; unfold same_mode, same_otg in *; intuition congruence. }
  destruct (fin w s i) eqn:F.
  - right. destruct (fin_st w s i F) as (F1 & F2 & F3 & F4). assert (GO : going w s = true) by (unfold going, in_write; rewrite F1, F2; reflexivity).
    assert (UD : u_dir s = false) by (destruct (u_dir s); [rewrite (HT eq_refl F4) in F3; discriminate F3|reflexivity]).
    destruct (D GO) as [[_ C]|C]; [congruence|]. split; [now rewrite C|]. split; [rewrite U1, U; reflexivity|]. split; [exact Q'|].
    destruct (going w (cnext uw s i)) eqn:GN; [|reflexivity]. destruct (going_next w s i GN) as [(_ & C2 & _)|(_ & C2 & _)]; [rewrite F, UD in C2; discriminate C2|congruence].
  - left. split; [reflexivity|].
    assert (RS : w = Wm -> m_rst (u_mode (cnext uw s i)) = m_rst (u_mode s)) by (intros ->; rewrite rst_next, F, andb_false_r; reflexivity).
    assert (VV : val w (m_rst (u_mode (cnext uw s i))) x = val w (m_rst (u_mode s)) x) by (destruct w; [now rewrite RS|reflexivity]).
    split; [|exact RS]. split; [rewrite U1, U; reflexivity|]. split; [exact Q'|]. intros GN. destruct (going_next w s i GN) as [(C1 & C2 & C3 & C4)|(_ & C2 & C3)].
    + destruct (D C1) as [[A B]|A]; [left; destruct (C4 A B) as [C5 C6]; split; [exact C6|exact C5]|right; rewrite VV; cbn [cnext uw u_main]; now rewrite C3].
    + right. rewrite VV. cbn [cnext uw u_main]. now apply C3.
Qed.
Lemma written_step w x t s i : phy_ok (t ++ [cout uw s i]) -> glob t s -> written w x s -> same w x (ui_set i) ->
  writes (reg w) (snd (pstep t (cout uw s i))) = [] /\ written w x (cnext uw s i).
Proof.
  intros HK ((bus & I) & G & _) (U & Q & D) SA. rewrite (write_event w t s i bus HK I). destruct (upd_next w s i) as (U1 & _ & _). specialize (U1 x Q SA).
  assert (F : fin w s i = false). { destruct (fin w s i) eqn:F; [|reflexivity]. destruct (fin_st w s i F) as (F1 & F2 & _). unfold going, in_write in D. rewrite F1, F2 in D. discriminate D. }
  rewrite F. split; [reflexivity|]. split; [rewrite U1, U; reflexivity|]. split; [apply (setq_same w _ (ui_set i)); [apply setq_next|]; clear -SA; destruct w; cbn in *; unfold same_mode, same_otg in *; intuition congruence|].
  destruct (going w (cnext uw s i)) eqn:GN; [|reflexivity]. destruct (going_next w s i GN) as [(C & _)|(C & _)]; congruence.
Qed.
Lemma written_run w x ins : forall t s, phy_ok (t ++ trace_from uw s ins) -> glob t s -> written w x s -> Forall (fun i => same w x (ui_set i)) ins ->
  exists new, phy_log (t ++ trace_from uw s ins) = phy_log t ++ new /\ writes (reg w) new = [] /\ written w x (state_from uw s ins) /\ glob (t ++ trace_from uw s ins) (state_from uw s ins).
Proof.
  induction ins as [|i ins IH]; intros t s HK G W F; [exists []; cbn [trace_from state_from]; rewrite !app_nil_r; auto|].
  cbn [trace_from state_from] in *. inversion F as [|? ? F1 F2]; subst.
  change (t ++ cout uw s i :: trace_from uw (cnext uw s i) ins) with (t ++ [cout uw s i] ++ trace_from uw (cnext uw s i) ins) in *. rewrite app_assoc in *.
  destruct (written_step w x t s i (phy_ok_app _ _ HK) G W F1) as [E W']. destruct (IH _ _ HK (glob_step t s i (phy_ok_app _ _ HK) G) W' F2) as (new & L & E' & W2 & G2).
  exists (snd (pstep t (cout uw s i)) ++ new). rewrite L. destruct (phy_snoc t (cout uw s i)) as [_ ->]. rewrite writes_app, E, E', <- app_assoc. auto.
Qed.
Lemma asked_run w x ins : forall t s, phy_ok (t ++ trace_from uw s ins) -> glob t s -> asked w x s -> Forall (fun i => same w x (ui_set i)) ins ->
  exists new, phy_log (t ++ trace_from uw s ins) = phy_log t ++ new /\ glob (t ++ trace_from uw s ins) (state_from uw s ins) /\
  ((writes (reg w) new = [] /\ asked w x (state_from uw s ins)) \/ (writes (reg w) new = [val w (m_rst (u_mode s)) x] /\ written w x (state_from uw s ins))).
Proof.
  induction ins as [|i ins IH]; intros t s HK G W F; [exists []; cbn [trace_from state_from]; rewrite !app_nil_r; auto|].
  cbn [trace_from state_from] in *. inversion F as [|? ? F1 F2]; subst.
  change (t ++ cout uw s i :: trace_from uw (cnext uw s i) ins) with (t ++ [cout uw s i] ++ trace_from uw (cnext uw s i) ins) in *. rewrite app_assoc in *.
  pose proof (glob_step t s i (phy_ok_app _ _ HK) G) as G1. destruct (phy_snoc t (cout uw s i)) as [_ L0].
  destruct (asked_step w x t s i (phy_ok_app _ _ HK) G W F1) as [(E & W' & R)|(E & W')].
  - destruct (IH _ _ HK G1 W' F2) as (new & L & G2 & C). exists (snd (pstep t (cout uw s i)) ++ new). rewrite L, L0, writes_app, E, <- app_assoc. cbn [app]. split; [reflexivity|]. split; [exact G2|].
    destruct C as [C|[C1 C2]]; [left; exact C|right]. split; [|exact C2]. rewrite C1. destruct w; [now rewrite R|reflexivity].
  - destruct (written_run w x ins _ _ HK G1 W' F2) as (new & L & E' & W2 & G2). exists (snd (pstep t (cout uw s i)) ++ new). rewrite L, L0, writes_app, E, E', <- app_assoc. auto.
Qed.

(** The cycle of the change. *)
Lemma change_step w t s i i' : phy_ok (t ++ [cout uw s i]) -> glob t s -> setq w s (prev_set t) -> ~ same w (ui_set i) (prev_set t) ->
  let o := cout uw s i in let o' := cout uw (cnext uw s i) i' in ~ writing (reg w) t o -> ~ writing (reg w) (t ++ [o]) o' -> asked w (ui_set i) (cnext uw s i).
Proof.
  intros HK G Q NS o o' W1 W2. pose proof (glob_step t s i HK G) as G1. destruct G as ((bus & I) & G & _). destruct G1 as ((bus' & I') & _).
  destruct I as (ID & _ & II). destruct I' as (_ & _ & II').
  assert (HT : u_dir s = true -> ui_dir i = false -> ui_nxt i = false) by (intros A B; rewrite ID in A; exact (phy_ok_last t _ HK A B)).
  split; [|split; [apply setq_next|]].
  - destruct (upd_next w s i) as (_ & _ & U). apply U.
    + destruct (fin w s i) eqn:F; [|reflexivity]. exfalso. apply W1. left. destruct (fin_st w s i F) as (F1 & F2 & F3 & F4).
      assert (UD : u_dir s = false) by (destruct (u_dir s); [rewrite (HT eq_refl F4) in F3; discriminate F3|reflexivity]).
      unfold bus_inv in II. rewrite F1 in II. destruct II as (_ & _ & II & _). destruct w; cbn [wrq reg] in *; destruct II as [(A & B & C)|(A & B & C)]; try congruence; now apply C.
    + intros x Qx SX. apply NS. clear -Q Qx SX. destruct w; cbn in *; unfold same_mode, same_otg in *; intuition congruence.
  - intros GN. left. unfold going, in_write in GN. unfold bus_inv in II'. unfold o' in W2.
    destruct (w_st (u_main (cnext uw s i))) eqn:ES; cbn [uw_st_eqb orb andb] in GN; try discriminate GN.
    + exfalso. apply W2. right. destruct II' as (_ & _ & IP & II'). split; [exact IP|]. cbn [cout uw uo_data]. destruct w; cbn [wrq reg] in *; destruct II' as [(A & B & C)|(A & B & C)]; try congruence; exact A.
    + split; [reflexivity|]. destruct (u_dir (cnext uw s i)) eqn:UD; [reflexivity|]. exfalso. apply W2. left. destruct II' as (_ & _ & II' & _).
      destruct w; cbn [wrq reg] in *; destruct II' as [(A & B & C)|(A & B & C)]; try congruence; now apply C.
Qed.
