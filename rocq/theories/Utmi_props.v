(** UTMITranslator as a whole (C152). *)
From Verif Require Import Hdl Usb_model Usb_props Ulpiw_model Ulpiw_spec Ulpirx_props Ulpitx_proofs Ulpitx_props Utmi_model.
From Coq Require Import Lia.

(** C152: a reset in any cycle of any run.  At once nothing is on the ULPI bus but stp, and nothing
    is being received; from the next cycle on everything is as after power-up. *)
Theorem C152_reset : forall before i after, exists o,
  trace utmi_translator (before ++ TrIn true i :: after) = trace utmi_translator before ++ o :: trace utmi_translator after /\
  uo_data (to_uw o) = 0 /\ uo_stp (to_uw o) = true /\ uo_rxv (to_uw o) = false /\ uo_rxa (to_uw o) = false /\ uo_rxe (to_uw o) = false.
Proof.
  intros before i after. rewrite trace_app. cbn [trace_from]. eexists. split; [reflexivity|]. repeat split.
Qed.

(** C152: between resets the parts are those of C105 and C128-C133: the core behaves as
    [ulpi_wrapper], the data pins are driven exactly while dir is low, and the PHY is held in reset
    for the first 119 cycles and never again. *)
Theorem C152_parts : forall ins,
  let t := trace utmi_translator (map (TrIn false) ins) in
  map to_uw t = trace ulpi_wrapper ins /\
  Forall (fun o => to_oe o = negb (uo_dir (to_uw o))) t /\
  map to_rst t = map (fun k => (k <? 119)%nat) (seq 0 (length ins)).
Proof.
  intros ins t.
  assert (G : map to_uw t = trace ulpi_wrapper ins /\
    map (fun o => UtObs (uo_dir (to_uw o)) (to_oe o) (to_rst o)) t = trace utmi_por (map ui_dir ins)).
  { unfold t, trace. change (creset utmi_translator) with (creset utmi_por, creset ulpi_wrapper).
    generalize (creset utmi_por) as p, (creset ulpi_wrapper) as w. clear. induction ins as [|i ins IH]; intros p w; [split; reflexivity|].
    cbn [map trace_from]. destruct (IH (cnext utmi_por p (ui_dir i)) (cnext ulpi_wrapper w i)) as [I1 I2]. split; f_equal; [exact I1|exact I2]. }
  destruct G as [G1 G2]. split; [exact G1|]. rewrite C105_reset_partial in G2.
  assert (K : forall l (d : list bool) k, map (fun o => UtObs (uo_dir (to_uw o)) (to_oe o) (to_rst o)) l =
      map (fun x : nat * bool => UtObs (snd x) (negb (snd x)) (Z.of_nat (fst x) <? 119)) (combine (seq k (length d)) d) ->
      Forall (fun o => to_oe o = negb (uo_dir (to_uw o))) l /\ map to_rst l = map (fun k => (k <? 119)%nat) (seq k (length d))).
  { clear. induction l as [|o l IH]; intros d k H; destruct d as [|x d]; try discriminate; cbn [length seq combine map fst snd] in *; [auto|].
    injection H as H1 H2 H3 H4. destruct (IH d (S k) H4) as [I1 I2]. split; [constructor; [congruence|exact I1]|]. f_equal; [|exact I2].
    rewrite H3. destruct (Nat.ltb_spec k 119), (Z.ltb_spec (Z.of_nat k) 119); reflexivity || lia. }
  destruct (K _ _ _ G2) as [K1 K2]. split; [exact K1|]. now rewrite map_length in K2.
Qed.

(** A PHY that takes nothing is told nothing. *)
Lemma nothing_taken t : Forall (fun o => uo_nxt o = false) t -> phy_log t = [] /\ phy_state t = PIdle.
Proof.
  induction t as [|o t IH] using rev_ind; [split; reflexivity|]. intros H. apply Forall_app in H. destruct H as [H1 H2]. destruct (IH H1) as [L S]. inversion H2 as [|? ? N _]; subst.
  destruct (phy_snoc t o) as [P1 P2]. rewrite P1, P2, L. unfold pstep. rewrite S. unfold phy_step. rewrite N, andb_false_r. split; reflexivity.
Qed.

(** C152: after power-up or a reset, with a PHY that takes nothing while it is held in reset and
    settings that stay as they are, the PHY is told nothing during its reset; afterwards each of
    the two settings registers whose value is not the translator's reset value is written exactly
    once, function control with the reset bit, as soon as the PHY lets the link have the bus for 9
    bytes. *)
Theorem C152_configured : forall ins x,
  let T := trace utmi_translator (map (TrIn false) ins) in let t := map to_uw T in
  phy_ok t -> Forall (fun o => uo_set o = x) t ->
  Forall (fun o => to_rst o = true -> uo_nxt (to_uw o) = false) T ->
  phy_log (firstn 119 t) = [] /\
  (forall a, a <> 4 -> a <> 10 -> writes a (phy_log t) = []) /\
  (~ same_mode x (prev_set []) -> writes 4 (phy_log t) = [] \/ writes 4 (phy_log t) = [func_value true x]) /\
  (~ same_otg x (prev_set []) -> writes 10 (phy_log t) = [] \/ writes 10 (phy_log t) = [otg_value x]) /\
  (forall u z r, t = u ++ z :: r -> u <> [] -> uo_dir z = false -> Forall (fun o => uo_dir o = false /\ uo_txv o = false) r -> (9 <= nxt_count r)%nat ->
     (~ same_mode x (prev_set []) -> writes 4 (phy_log t) = [func_value true x]) /\
     (~ same_otg x (prev_set []) -> writes 10 (phy_log t) = [otg_value x])).
Proof.
  intros ins x T t HK HS HN. destruct (C152_parts ins) as (HT & _ & HR). fold T in HT, HR. fold t in HT. split; [|split; [|]].
  - apply nothing_taken. unfold t. rewrite firstn_map. apply Forall_map.
    assert (G : forall l k n, map to_rst l = map (fun k => (k <? 119)%nat) (seq k n) -> Forall (fun o => to_rst o = true -> uo_nxt (to_uw o) = false) l ->
      Forall (fun o => uo_nxt (to_uw o) = false) (firstn (119 - k) l)).
    { clear. induction l as [|o l IH]; intros k n H F; [rewrite firstn_nil; constructor|]. destruct n as [|n]; [discriminate|]. cbn [seq map] in H. injection H as H1 H2. inversion F as [|? ? F1 F2]; subst.
      destruct (119 - k)%nat as [|m] eqn:E; [constructor|]. cbn [firstn]. constructor; [apply F1; rewrite H1; apply Nat.ltb_lt; lia|].
      replace m with (119 - S k)%nat by lia. now apply (IH (S k) n). }
    exact (G T 0%nat _ HR HN).
  - intros a A4 A10. pose proof (C132_values ins) as K. cbv zeta in K. rewrite <- HT in K. destruct (K HK) as [K' _]. clear K. unfold writes.
    induction (phy_log t) as [|e l IH]; [reflexivity|]. cbn [flat_map]. rewrite IH by (intros a' d H; apply (K' a' d); now right). rewrite app_nil_r.
    destruct e as [| | |a' d]; try reflexivity. destruct (Z.eqb_spec a' a) as [->|]; [|reflexivity]. destruct (K' a d ltac:(now left)); contradiction.
  - clearbody t. destruct ins as [|i [|j ins]].
    + rewrite HT. cbn. repeat split; auto; destruct u; discriminate.
    + assert (E : phy_log t = []) by (rewrite HT; unfold phy_log; cbn; rewrite !andb_false_r; reflexivity). rewrite E. cbn. split; [auto|]. split; [auto|].
      intros u z r Et NU _ _ NX. exfalso. rewrite HT in Et. destruct u as [|? [|? ?]]; [congruence|discriminate|discriminate].
    + set (o := cout uw (creset uw) i) in *. set (y := cout uw (cnext uw (creset uw) i) j) in *. set (t2 := trace_from uw (cnext uw (cnext uw (creset uw) i) j) ins).
      assert (Et : trace uw (i :: j :: ins) = [] ++ o :: y :: t2) by reflexivity.
      assert (E0 : phy_log ([] ++ [o]) = [] /\ phy_state ([] ++ [o]) = PIdle).
      { unfold phy_log, phy_state. cbn. rewrite !andb_false_r. split; reflexivity. }
      assert (Y0 : uo_data y = 0) by (cbn; unfold main_next; cbn; destruct (ui_dir i), (ui_nxt i); reflexivity).
      rewrite HT, Et in HK, HS. inversion HS as [|? ? SO HS']; subst.
      assert (W1 : forall a, 0 < a -> ~ writing a [] o) by (intros a Ha [W|[_ W]]; [discriminate|]; change (0 = 128 + a) in W; lia).
      assert (W2 : forall a, 0 < a -> ~ writing a ([] ++ [o]) y) by (intros a Ha [W|[_ W]]; [destruct E0 as [_ E0]; rewrite E0 in W; discriminate|]; rewrite Y0 in W; lia).
      assert (SM : Forall (fun q => same_mode (uo_set o) (uo_set q)) (y :: t2)) by (eapply Forall_impl; [|exact HS']; intros q Hq; cbv beta in Hq; rewrite Hq; repeat split).
      assert (SO' : Forall (fun q => same_otg (uo_set o) (uo_set q)) (y :: t2)) by (eapply Forall_impl; [|exact HS']; intros q Hq; cbv beta in Hq; rewrite Hq; repeat split).
      rewrite Et. set (tt := [] ++ o :: y :: t2) in *.
      assert (M : ~ same_mode (uo_set o) (prev_set []) -> (writes 4 (phy_log tt) = [] \/ writes 4 (phy_log tt) = [func_value true (uo_set o)]) /\
        (forall u z r, y :: t2 = u ++ z :: r -> uo_dir z = false -> Forall (quiet (uo_set z)) r -> (9 <= nxt_count r)%nat -> writes 4 (phy_log tt) = [func_value true (uo_set o)])).
      { intros D. destruct (C132_mode_partial _ [] o y t2 Et HK D SM (W1 4 ltac:(lia)) (W2 4 ltac:(lia))) as (new & L & K1 & K2). fold tt in L. destruct E0 as [E0 _]. rewrite E0 in L, K1, K2. cbn [app] in L. rewrite L. split; [exact K1|exact K2]. }
      assert (G : ~ same_otg (uo_set o) (prev_set []) -> (writes 10 (phy_log tt) = [] \/ writes 10 (phy_log tt) = [otg_value (uo_set o)]) /\
        (forall u z r, y :: t2 = u ++ z :: r -> uo_dir z = false -> Forall (quiet (uo_set z)) r -> (9 <= nxt_count r)%nat -> writes 10 (phy_log tt) = [otg_value (uo_set o)])).
      { intros D. destruct (C132_otg_partial _ [] o y t2 Et HK D SO' (W1 10 ltac:(lia)) (W2 10 ltac:(lia))) as (new & L & K1 & K2). fold tt in L. destruct E0 as [E0 _]. rewrite E0 in L. cbn [app] in L. rewrite L. split; [exact K1|exact K2]. }
      split; [intros D; apply (M D)|]. split; [intros D; apply (G D)|]. intros u z r E NU DZ Q NX. destruct u as [|q u]; [congruence|]. injection E as <- E.
      assert (QQ : Forall (quiet (uo_set z)) r).
      { rewrite E in HS'. apply Forall_app in HS'. destruct HS' as [_ HS']. inversion HS' as [|? ? Z1 Z2]; subst. rewrite Z1. rewrite Forall_forall in *. intros q Hq. destruct (Q q Hq). repeat split; auto. }
      split; intros D; [apply (proj2 (M D) u z r)|apply (proj2 (G D) u z r)]; assumption.
Qed.

(** A full speed device: two cycles with the PHY driving the bus, 117 while it is in reset, then
    the PHY takes what it is given; a reset, and all again. *)
Definition fs := Setting 0 1 true false false.
Definition fs_cyc (dir nxt : bool) : uw_in := UwIn dir nxt 0 false 0 fs.
Definition fs_run : list uw_in := repeat (fs_cyc true false) 2 ++ repeat (fs_cyc false false) 120 ++ repeat (fs_cyc false true) 20.
Example C152_nonvacuous :
  let T := trace utmi_translator (map (TrIn false) fs_run) in let t := map to_uw T in
  phy_ok t /\ Forall (fun o => uo_set o = fs) t /\ Forall (fun o => to_rst o = true -> uo_nxt (to_uw o) = false) T /\
  phy_log t = [PWrite 4 (func_value true fs); PWrite 10 (otg_value fs)] /\
  exists o, trace utmi_translator (map (TrIn false) fs_run ++ TrIn true (fs_cyc true true) :: map (TrIn false) fs_run) = T ++ o :: T.
Proof.
  cbv zeta. split; [apply okb_spec; vm_compute; reflexivity|]. split; [repeat constructor|]. split.
  { apply Forall_forall. assert (B : forallb (fun o => negb (to_rst o && uo_nxt (to_uw o))) (trace utmi_translator (map (TrIn false) fs_run)) = true) by (vm_compute; reflexivity).
    rewrite forallb_forall in B. intros o Ho R. specialize (B o Ho). rewrite R in B. now apply negb_true_iff in B. }
  split; [vm_compute; reflexivity|]. destruct (C152_reset (map (TrIn false) fs_run) (fs_cyc true true) (map (TrIn false) fs_run)) as (o & E & _). exists o. exact E.
Qed.

Print Assumptions C152_reset.
Print Assumptions C152_parts.
Print Assumptions C152_configured.
