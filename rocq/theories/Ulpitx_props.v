(** Transmitting and configuring through ulpi_wrapper: C130 - C133. *)
From Verif Require Import Hdl Ulpiw_model Ulpiw_spec Ulpirx_props Ulpitx_proofs Ulpiset_proofs.

(** ** C130 *)
(** The PHY takes the bytes the core handed over, in order, the first of each packet as four
    bits of the command; at most three are under way. *)
Theorem C130_bytes : forall ins, let t := trace uw ins in phy_ok t ->
  exists sent rest, tx_taken t = sent ++ rest /\ Forall2 stands_for (filter is_sent (phy_log t)) sent /\ (length rest <= 3)%nat.
Proof.
  intros ins t HK. destruct (bytes_run ins HK) as (sent & bus & F & I & E). exists sent, (bus ++ bufl (u_buf (state uw ins))). split; [exact E|]. split; [exact F|].
  rewrite app_length. pose proof (tx_bus_len _ _ _ I). pose proof (buf_len (u_buf (state uw ins))). lia.
Qed.

Lemma quiet_end ins t1 x t2 : trace uw ins = t1 ++ x :: t2 -> phy_ok (trace uw ins) -> uo_dir x = false -> Forall (quiet (uo_set x)) t2 ->
  exists bus, tx_inv (trace uw ins) (state uw ins) bus /\ (work (state uw ins) <= 9 - nxt_count t2)%nat.
Proof.
  intros E HK DX Q. pose proof E as E0. change (x :: t2) with ([x] ++ t2) in E. apply trace_seg in E. destruct E as (a & b & d & -> & <- & EB & ED).
  destruct b as [|i [|? ?]]; try discriminate EB. cbn [trace_from state_from] in EB, ED. injection EB as <-.
  rewrite E0 in HK. set (o := cout uw (state uw a) i) in *. assert (HK' : phy_ok ((trace uw a ++ [o]) ++ t2)) by (rewrite <- app_assoc; exact HK). clear HK. rename HK' into HK.
  assert (HA : trace uw (a ++ [i]) = trace uw a ++ [o]) by (rewrite trace_app; reflexivity).
  assert (SA : state uw (a ++ [i]) = cnext uw (state uw a) i) by (unfold state; rewrite state_from_app; reflexivity).
  destruct (bytes_run (a ++ [i])) as (_ & bus & _ & I & _); [rewrite HA; exact (phy_ok_app _ _ HK)|]. rewrite HA, SA in I.
  rewrite <- ED in HK, Q.
  destruct (quiet_run _ _ bus (ui_set i) d HK I DX (settled_next (state uw a) i) Q) as (bus' & I' & W & _).
  exists bus'. rewrite E0, <- ED. match goal with |- context [state uw ?z] => replace (state uw z) with (state_from uw (cnext uw (state uw a) i) d) by (unfold state; rewrite ?state_from_app; reflexivity) end.
  split; [rewrite <- app_assoc in I'; exact I'|]. pose proof (work_bound _ _ _ I). lia.
Qed.

(** Once the PHY leaves the bus to the link and the core is quiet, ten cycles with nxt are
    enough for everything handed over to be taken and the packet to be stopped. *)
Theorem C130_progress : forall ins t1 x t2, let t := trace uw ins in t = t1 ++ x :: t2 -> phy_ok t ->
  uo_dir x = false -> Forall (quiet (uo_set x)) t2 -> (10 <= nxt_count t2)%nat ->
  Forall2 stands_for (filter is_sent (phy_log t)) (tx_taken t) /\ phy_state t = PIdle.
Proof.
  intros ins t1 x t2 t E HK DX Q N. unfold t in *. split.
  - destruct (quiet_end ins t1 x t2 E HK DX Q) as (bus & I & W). destruct (bytes_run ins HK) as (sent & bus0 & F & I0 & EQ).
    destruct (work_zero _ _ _ I0 ltac:(lia)) as (_ & _ & _ & BL & ->). rewrite EQ, BL, !app_nil_r. exact F.
  - destruct t2 as [|z u _] using rev_ind; [cbn in N; lia|].
    assert (NU : (9 <= nxt_count u)%nat) by (unfold nxt_count in *; rewrite filter_app, app_length in N; cbn [filter] in N; destruct (uo_nxt z); cbn [length] in N; lia).
    apply Forall_app in Q. destruct Q as [Q _].
    assert (E2 : exists ins' i, trace uw ins' = t1 ++ x :: u /\ z = cout uw (state uw ins') i /\ trace uw ins = trace uw ins' ++ [z]).
    { rewrite app_comm_cons, app_assoc in E. pose proof E as E'. unfold trace in E'. apply trace_split_from in E'. destruct E' as (a & i & b & _ & A & B & _).
      exists a, i. split; [exact A|]. split; [exact B|]. rewrite E. f_equal. symmetry. exact A. }
    destruct E2 as (ins' & i & E1 & EZ & ET). rewrite ET in *.
    destruct (quiet_end ins' t1 x u E1 (phy_ok_app _ _ HK) DX Q) as (bus & I & W).
    destruct (work_zero _ _ _ I ltac:(lia)) as (ST & _). destruct (phy_snoc (trace uw ins') z) as [-> _].
    destruct I as (_ & _ & II). unfold bus_inv in II. rewrite ST in II. destruct II as (WD & _ & IP). unfold pstep, phy_step. rewrite EZ. cbn [cout uw uo_data uo_stp]. rewrite WD.
    replace (64 <=? 0) with false by reflexivity. replace (128 <=? 0) with false by reflexivity.
    destruct IP as [->|[-> ->]]; [rewrite !andb_false_r|]; reflexivity.
Qed.

(** ** C131 *)
(** What holds: if packets are spaced and not handed over while receiving, the packets on
    the bus are the packets of the core. *)
Theorem C131_packets_partial : forall ins, let t := trace uw ins in phy_ok t -> spaced t -> calm t ->
  exists done, fst (bus_packets t) = map on_bus done /\
  ((packets t = done /\ snd (bus_packets t) = []) \/
   (exists sent rest, packets t = done ++ [sent ++ rest] /\ snd (bus_packets t) = on_bus sent /\ (length rest <= 3)%nat)).
Proof.
  intros ins t H1 H2 H3. destruct (pk_run ins H1 H2 H3) as (bus & snt & pre & I & _ & _ & EB & _ & C). fold t in I, EB, C. exists pre. rewrite EB. cbn [fst snd]. split; [reflexivity|].
  destruct C as [(A & _ & B)|(p & A & B & _)].
  - left. split; [exact A|]. destruct snt; [reflexivity|discriminate B].
  - right. exists snt, (bus ++ bufl (u_buf (state uw ins))). rewrite A, B. split; [reflexivity|]. split; [reflexivity|].
    rewrite app_length. pose proof (tx_bus_len _ _ _ I). pose proof (buf_len (u_buf (state uw ins))). lia.
Qed.

Fixpoint okb (was : bool) (t : list uw_obs) : bool :=
  match t with [] => true | o :: t' => negb (was && negb (uo_dir o) && uo_nxt o) && okb (uo_dir o) t' end.
Lemma okb_spec t : okb false t = true -> phy_ok t.
Proof.
  intros H a x y b -> Hx Hy. assert (G : forall w, okb w (a ++ x :: y :: b) = true -> uo_nxt y = false); [clear H|exact (G _ H)].
  induction a as [|z a IH]; intros w H.
  - cbn [app okb] in H. rewrite Hx, Hy in H. destruct (uo_nxt y); [|reflexivity]. cbn in H. rewrite !andb_false_r in H. discriminate H.
  - cbn [app okb] in H. apply andb_true_iff in H. destruct H as [_ H]. exact (IH _ H).
Qed.

Definition tx_cyc (set : setting) (dir nxt : bool) (d : option Z) : uw_in :=
  UwIn dir nxt 0 (match d with Some _ => true | None => false end) (match d with Some b => b | None => 0 end) set.
Definition rset := Setting 3 0 false true true.
Notation tc := (tx_cyc rset).

(** C131 is false: a packet handed over while the previous one is still in the buffer is
    appended to it... *)
Theorem C131_merged_refuted : exists ins, let t := trace uw ins in phy_ok t /\ calm t /\
  packets t = [[195; 1]; [75; 2]] /\ bus_packets t = ([[3; 1; 75; 2]], []).
Proof.
  exists [tc false false (Some 195); tc false false (Some 1); tc false false None; tc false true (Some 75); tc false true (Some 2); tc false true None; tc false true None; tc false true None; tc false true None].
  cbv zeta. split; [apply okb_spec; vm_compute; reflexivity|]. split; [repeat (constructor; [intros _; vm_compute; reflexivity|]); constructor|]. split; vm_compute; reflexivity.
Qed.
(** ... and a packet is cut in two when the PHY starts receiving in between. *)
Theorem C131_cut_refuted : exists ins, let t := trace uw ins in phy_ok t /\
  packets t = [[195; 1; 2; 3; 4]] /\ bus_packets t = ([[3; 1; 2]; [3; 4]], []).
Proof.
  exists ([tc false false (Some 195); tc false false (Some 1); tc false false (Some 2); tc true true (Some 3); tc true true (Some 3); tc false false (Some 3)] ++
    repeat (tc false true (Some 3)) 8 ++ [tc false true (Some 4); tc false true None; tc false true None; tc false true None; tc false true None]).
  cbv zeta. split; [apply okb_spec; vm_compute; reflexivity|]. split; vm_compute; reflexivity.
Qed.

(** ** C132 *)
Definition first_of (l : list Z) : bool := match l with [] => true | _ => false end.

Lemma quiet_end_seg ins t1 x t2 u z v : trace uw ins = t1 ++ x :: t2 -> t2 = u ++ z :: v -> phy_ok (trace uw ins) ->
  uo_dir z = false -> Forall (quiet (uo_set z)) v -> (9 <= nxt_count v)%nat ->
  m_upd (u_mode (state uw ins)) = false /\ g_upd (u_otg (state uw ins)) = false.
Proof.
  intros E -> HK DZ Q N. rewrite app_comm_cons, app_assoc in E. destruct (quiet_end ins _ z v E HK DZ Q) as (bus & I & W).
  destruct (work_zero _ _ _ I ltac:(lia)) as (_ & A & B & _). auto.
Qed.

Lemma setting_partial w ins t1 x y t2 : let t := t1 ++ x :: y :: t2 in trace uw ins = t -> phy_ok t ->
  ~ same w (uo_set x) (prev_set t1) -> Forall (fun o => same w (uo_set x) (uo_set o)) (y :: t2) ->
  ~ writing (reg w) t1 x -> ~ writing (reg w) (t1 ++ [x]) y ->
  exists new, phy_log t = phy_log (t1 ++ [x]) ++ new /\
  let v := val w (first_of (writes 4 (phy_log (t1 ++ [x])))) (uo_set x) in
  (writes (reg w) new = [] \/ writes (reg w) new = [v]) /\
  (forall u z r, y :: t2 = u ++ z :: r -> uo_dir z = false -> Forall (quiet (uo_set z)) r -> (9 <= nxt_count r)%nat -> writes (reg w) new = [v]).
Proof.
  intros t E HK NS F W1 W2. pose proof E as E0. unfold t in E. change (x :: y :: t2) with ([x] ++ y :: t2) in E. apply trace_seg in E. destruct E as (a & b & d & EI & <- & EB & ED).
  destruct b as [|i [|? ?]]; try discriminate EB. cbn [trace_from state_from] in EB, ED. apply (f_equal (hd x)) in EB. cbn [hd] in EB.
  assert (HK1 : phy_ok (trace uw a ++ [x])) by (apply (phy_ok_app _ (y :: t2)); rewrite <- app_assoc; exact HK).
  pose proof (glob_run a (phy_ok_app _ _ HK1)) as G. pose proof (setq_run w a) as Q.
  destruct d as [|i' d]; [discriminate ED|]. assert (EY : y = cout uw (cnext uw (state uw a) i) i') by (cbn [trace_from] in ED; congruence).
  rewrite <- EB in HK1, W1, W2, NS. rewrite EY in W2.
  pose proof (change_step w _ _ i i' HK1 G Q NS W1 W2) as AS. pose proof (glob_step _ _ i HK1 G) as G1.
  assert (HK2 : phy_ok ((trace uw a ++ [cout uw (state uw a) i]) ++ trace_from uw (cnext uw (state uw a) i) (i' :: d))) by (rewrite ED, EB, <- app_assoc; exact HK).
  assert (FI : Forall (fun j => same w (ui_set i) (ui_set j)) (i' :: d)).
  { clear -F ED EB. rewrite <- ED, <- EB in F. revert F. generalize (cnext uw (state uw a) i) as s. generalize (i' :: d) as l. induction l as [|j l IH]; intros s F; [constructor|].
    cbn [trace_from] in F. inversion F as [|? ? F1 F2]; subst. constructor; [exact F1|exact (IH _ F2)]. }
  destruct (asked_run w (ui_set i) (i' :: d) _ _ HK2 G1 AS FI) as (new & L & G2 & C). exists new.
  rewrite ED, EB in L. rewrite <- app_assoc in L. cbn [app] in L. unfold t. split; [exact L|].
  assert (V : m_rst (u_mode (cnext uw (state uw a) i)) = first_of (writes 4 (phy_log (trace uw a ++ [x])))) by (destruct G1 as (_ & _ & R); rewrite EB in R; exact R).
  rewrite V in C. change (ui_set i) with (uo_set (cout uw (state uw a) i)) in C. rewrite EB in C. cbv zeta. split; [destruct C as [[C _]|[C _]]; auto|].
  intros u z r EU DZ QZ N. destruct C as [[_ (U & _)]|[C _]]; [|exact C]. exfalso.
  assert (HK3 : phy_ok (trace uw ins)) by (rewrite E0; exact HK).
  destruct (quiet_end_seg ins (trace uw a) x (y :: t2) u z r E0 EU HK3 DZ QZ N) as [M1 M2].
  assert (ST : state uw ins = state_from uw (cnext uw (state uw a) i) (i' :: d)) by (rewrite EI; unfold state; rewrite !state_from_app; reflexivity).
  rewrite <- ST in U. destruct w; cbn [upd] in U; congruence.
Qed.

(** What holds: after a change of the mode settings while no write to the function control
    register is under way, such a write carries the new settings, there is at most one, and
    there is one once the PHY leaves the bus to the link for nine cycles with nxt. *)
Theorem C132_mode_partial : forall ins t1 x y t2, let t := t1 ++ x :: y :: t2 in trace uw ins = t -> phy_ok t ->
  ~ same_mode (uo_set x) (prev_set t1) -> Forall (fun o => same_mode (uo_set x) (uo_set o)) (y :: t2) ->
  ~ writing 4 t1 x -> ~ writing 4 (t1 ++ [x]) y ->
  exists new, phy_log t = phy_log (t1 ++ [x]) ++ new /\
  let v := func_value (first_of (writes 4 (phy_log (t1 ++ [x])))) (uo_set x) in
  (writes 4 new = [] \/ writes 4 new = [v]) /\
  (forall u z r, y :: t2 = u ++ z :: r -> uo_dir z = false -> Forall (quiet (uo_set z)) r -> (9 <= nxt_count r)%nat -> writes 4 new = [v]).
Proof. exact (setting_partial Wm). Qed.
Theorem C132_otg_partial : forall ins t1 x y t2, let t := t1 ++ x :: y :: t2 in trace uw ins = t -> phy_ok t ->
  ~ same_otg (uo_set x) (prev_set t1) -> Forall (fun o => same_otg (uo_set x) (uo_set o)) (y :: t2) ->
  ~ writing 10 t1 x -> ~ writing 10 (t1 ++ [x]) y ->
  exists new, phy_log t = phy_log (t1 ++ [x]) ++ new /\
  (writes 10 new = [] \/ writes 10 new = [otg_value (uo_set x)]) /\
  (forall u z r, y :: t2 = u ++ z :: r -> uo_dir z = false -> Forall (quiet (uo_set z)) r -> (9 <= nxt_count r)%nat -> writes 10 new = [otg_value (uo_set x)]).
Proof. exact (setting_partial Wo). Qed.

(** Only these two registers are ever written. *)
Lemma only_regs : forall ins, phy_ok (trace uw ins) -> forall a d, In (PWrite a d) (phy_log (trace uw ins)) -> a = 4 \/ a = 10.
Proof.
  intros ins HK. pose proof (fun t s => exists bus, tx_inv t s bus) as dummy. clear dummy.
  cut ((exists bus, tx_inv (trace uw ins) (state uw ins) bus) /\ forall a d, In (PWrite a d) (phy_log (trace uw ins)) -> a = 4 \/ a = 10); [tauto|].
  revert HK. apply (run_inv_hyp uw phy_ok (fun t s => (exists bus, tx_inv t s bus) /\ forall a d, In (PWrite a d) (phy_log t) -> a = 4 \/ a = 10)); [exact phy_ok_app| |].
  - split; [exists []; exact tx_reset|intros a d []].
  - intros t s i HK [[bus I] F]. destruct (tx_step t s i bus HK I) as (bus' & out & I' & SB & LG & _). split; [now exists bus'|].
    intros a d H. rewrite LG in H. apply in_app_or in H. destruct H as [H|H]; [exact (F a d H)|].
    destruct (sent_cases _ _ _ _ SB) as [(_ & _ & C & _)|[(_ & _ & C & _)|[(b & _ & _ & C & _)|[(b & _ & _ & C & _)|[(_ & _ & C & _)|(a' & d' & A & _ & C & _)]]]]]; rewrite <- C in H;
      try (destruct H as [H|[]]; discriminate H); try destruct H.
    + injection H as -> ->. destruct I as (_ & _ & II). unfold bus_inv in II. rewrite <- A in II. destruct (w_st (u_main s)).
      * destruct II as (_ & _ & [II|[II _]]); discriminate II.
      * destruct II as (_ & _ & II & _); discriminate II.
      * destruct II as (_ & b & _ & [[II _]|[II _]]); discriminate II.
      * destruct II as (_ & _ & II & _ & IQ). destruct (u_dir s); [discriminate (IQ eq_refl)|].
        destruct II as [(_ & _ & II)|(_ & _ & II)]; specialize (II eq_refl); injection II as ->; auto.
    + destruct H.
Qed.

(** Every value written is that of settings the core has shown; the reset bit goes with the
    first function control write and with no other. *)
Definition func_ok (t : list uw_obs) (k : nat) (d : Z) : Prop := exists o, In o t /\ d = func_value (k =? 0)%nat (uo_set o).
Lemma seen_run ins : phy_ok (trace uw ins) ->
  glob (trace uw ins) (state uw ins) /\
  (upd Wm (state uw ins) = true -> exists o, In o (trace uw ins) /\ setq Wm (state uw ins) (uo_set o)) /\
  (going Wm (state uw ins) = true -> exists o, In o (trace uw ins) /\ w_dataq (u_main (state uw ins)) = func_value (m_rst (u_mode (state uw ins))) (uo_set o)) /\
  (forall k d, nth_error (writes 4 (phy_log (trace uw ins))) k = Some d -> func_ok (trace uw ins) k d).
Proof.
  apply (run_inv_hyp uw phy_ok (fun t s => glob t s /\ (upd Wm s = true -> exists o, In o t /\ setq Wm s (uo_set o)) /\
    (going Wm s = true -> exists o, In o t /\ w_dataq (u_main s) = func_value (m_rst (u_mode s)) (uo_set o)) /\
    (forall k d, nth_error (writes 4 (phy_log t)) k = Some d -> func_ok t k d))); [exact phy_ok_app| |].
  - split; [split; [exists []; exact tx_reset|split; [intros []; discriminate|reflexivity]]|]. split; [discriminate|]. split; [discriminate|]. intros [|k] d H; discriminate H.
  - intros t s i HK (G & U & GO & F). pose proof (glob_step t s i HK G) as G1. split; [exact G1|].
    set (o := cout uw s i) in *. assert (LAST : In o (t ++ [o])) by (apply in_or_app; right; left; reflexivity).
    split; [intros _; exists o; split; [exact LAST|exact (setq_next Wm s i)]|].
    destruct G as ((bus & I) & GU & RS). pose proof (write_event Wm t s i bus HK I) as WE. fold o in WE. cbn [reg] in WE.
    assert (HT : u_dir s = true -> ui_dir i = false -> ui_nxt i = false) by (intros A B; destruct I as (ID & _); rewrite ID in A; exact (phy_ok_last t _ HK A B)).
    split.
    + intros GN. change (u_main (cnext uw s i)) with (main_next s i). destruct (going_next Wm s i GN) as [(C1 & C2 & C3 & _)|(C1 & C2 & C3)].
      * destruct (GO C1) as (p & P1 & P2). exists p. split; [apply in_or_app; now left|]. rewrite rst_next.
        destruct (fin Wm s i) eqn:FI; [|rewrite andb_false_r, C3; exact P2]. destruct (fin_st Wm s i FI) as (_ & _ & F3 & F4).
        destruct (u_dir s); [rewrite (HT eq_refl F4) in F3; discriminate F3|discriminate C2].
      * destruct (U C1) as (p & P1 & P2). exists p. split; [apply in_or_app; now left|]. rewrite rst_next, (C3 _ P2).
        assert (FI : fin Wm s i = false) by (destruct (fin Wm s i) eqn:FI; [destruct (fin_st Wm s i FI) as (F1 & _); congruence|reflexivity]). rewrite FI, andb_false_r. reflexivity.
    + intros k d H. destruct (phy_snoc t o) as [_ LG]. rewrite LG, writes_app, WE in H.
      assert (OLD : forall k d, nth_error (writes 4 (phy_log t)) k = Some d -> func_ok (t ++ [o]) k d).
      { intros k0 d0 H0. destruct (F k0 d0 H0) as (p & P1 & P2). exists p. split; [apply in_or_app; now left|exact P2]. }
      destruct (fin Wm s i) eqn:FI; [|rewrite app_nil_r in H; now apply OLD].
      destruct (Nat.lt_ge_cases k (length (writes 4 (phy_log t)))) as [L|L]; [rewrite nth_error_app1 in H by exact L; now apply OLD|].
      rewrite nth_error_app2 in H by exact L. destruct (k - length (writes 4 (phy_log t)))%nat as [|q] eqn:EK; [|destruct q; discriminate H]. cbn [nth_error] in H. injection H as <-.
      destruct (fin_st Wm s i FI) as (F1 & F2 & _). destruct (GO ltac:(unfold going, in_write; rewrite F1, F2; reflexivity)) as (p & P1 & P2).
      exists p. split; [apply in_or_app; now left|]. rewrite P2, RS. f_equal. assert (k = length (writes 4 (phy_log t))) by lia. subst k. now destruct (writes 4 (phy_log t)).
Qed.
Theorem C132_values : forall ins, let t := trace uw ins in phy_ok t ->
  (forall a d, In (PWrite a d) (phy_log t) -> a = 4 \/ a = 10) /\
  (forall k d, nth_error (writes 4 (phy_log t)) k = Some d -> exists o, In o t /\ d = func_value (k =? 0)%nat (uo_set o)).
Proof. intros ins t HK. split; [exact (only_regs ins HK)|]. destruct (seen_run ins HK) as (_ & _ & _ & F). exact F. Qed.

(** C132 is false: settings that change while a write is under way are never written,
    whatever the PHY does afterwards. *)
Definition peri := Setting 0 1 true false false.
Definition chirp := Setting 2 0 true false false.
Definition lost_in : list uw_in :=
  [tx_cyc peri false false None; tx_cyc peri false false None; tx_cyc chirp false true None; tx_cyc chirp false true None].
Theorem C132_lost_refuted : forall rest, Forall (fun i => ui_set i = chirp) rest ->
  let t := trace uw (lost_in ++ rest) in phy_ok t -> writes 4 (phy_log t) = [func_value true peri].
Proof.
  intros rest F t HK. unfold t in *. rewrite trace_app in *. unfold state in *.
  assert (HK0 : phy_ok (trace uw lost_in)) by exact (phy_ok_app _ _ HK).
  pose proof (glob_run lost_in HK0) as G. unfold state in G.
  assert (W : written Wm chirp (state_from uw (creset uw) lost_in)) by (vm_compute; repeat split).
  destruct (written_run Wm chirp rest _ _ HK G W) as (new & L & E & _).
  - clear -F. induction F as [|i l H _ IH]; constructor; [rewrite H; repeat split|exact IH].
  - rewrite L, writes_app. cbn [reg] in E. rewrite E, app_nil_r. vm_compute. reflexivity.
Qed.

(** ** C133 *)
Lemma idle_data ins : w_st (u_main (state uw ins)) = WIdle -> w_data (u_main (state uw ins)) = 0.
Proof.
  revert ins. apply (state_inv uw (fun s => w_st (u_main s) = WIdle -> w_data (u_main s) = 0)); [reflexivity|]. intros s i. cbn [cnext uw u_main]. unfold main_next.
  destruct (u_main s) as [st dt stp dq mw ow]. cbn [w_st w_data w_stp w_dataq w_mwr w_owr].
  destruct (u_dir s), (ui_dir i), (ui_nxt i); cbn [xorb andb negb]; destruct st; cbn [w_st w_data]; intros H; try (exact H || discriminate || reflexivity).
  all: destruct (m_upd (u_mode s)), (g_upd (u_otg s)), (tx_have (u_buf s)); cbn [w_st w_data]; try (exact H || discriminate || reflexivity).
Qed.
Lemma stp_idle ins : w_stp (u_main (state uw ins)) = true -> w_st (u_main (state uw ins)) = WIdle.
Proof.
  revert ins. apply (state_inv uw (fun s => w_stp (u_main s) = true -> w_st (u_main s) = WIdle)); [reflexivity|]. intros s i _. cbn [cnext uw u_main]. unfold main_next.
  destruct (u_main s) as [st dt stp dq mw ow]. cbn [w_st w_data w_stp w_dataq w_mwr w_owr].
  destruct (u_dir s), (ui_dir i), (ui_nxt i); cbn [xorb andb negb]; destruct st; cbn [w_st w_stp]; intros H; try (discriminate || reflexivity).
  all: destruct (m_upd (u_mode s)), (g_upd (u_otg s)), (tx_have (u_buf s)); cbn [w_st w_stp] in *; try (discriminate || reflexivity).
Qed.
(** A value on the bus stays until the PHY takes it or takes over the bus. *)
Theorem C133_hold : forall ins t1 x y t2, trace uw ins = t1 ++ x :: y :: t2 ->
  was_dir t1 = false -> uo_dir x = false -> uo_nxt x = false -> uo_data x <> 0 -> uo_data y = uo_data x.
Proof.
  intros ins t1 x y t2 E. apply trace_two in E. destruct E as (a & i & i' & b & _ & <- & -> & ->). rewrite <- dir_inv. pose proof (idle_data a) as ID. revert ID.
  unfold uo_dir, uo_nxt. cbn [cout uw uo_data uo_in cnext u_main]. unfold main_next. intros ID -> -> ->. cbn [xorb andb negb].
  destruct (u_main (state uw a)) as [st dt stp dq mw ow]. cbn [w_st w_data w_stp w_dataq w_mwr w_owr] in *. destruct st; try reflexivity. rewrite ID by reflexivity. now intros [].
Qed.
(** stp is high, with zero on the bus, exactly after the PHY took a register's value or took
    all the core had handed over. *)
Theorem C133_stop : forall ins t1 x y t2, let t := t1 ++ x :: y :: t2 in trace uw ins = t -> phy_ok t ->
  (uo_stp y = true -> uo_data y = 0 /\ uo_dir x = false /\ uo_nxt x = true /\
    ((exists a d, phy_log (t1 ++ [x]) = phy_log t1 ++ [PWrite a d]) \/
     (phy_state (t1 ++ [x]) = PTx /\ Forall2 stands_for (filter is_sent (phy_log (t1 ++ [x]))) (tx_taken t1)))) /\
  (forall a d, phy_log (t1 ++ [x]) = phy_log t1 ++ [PWrite a d] -> uo_stp y = true).
Proof.
  intros ins t1 x y t2 t E HK. unfold t in *. apply trace_two in E. destruct E as (a & i & i' & b & _ & ET & EX & EY).
  assert (HK1 : phy_ok (trace uw a ++ [x])) by (rewrite ET; apply (phy_ok_app _ (y :: t2)); rewrite <- app_assoc; exact HK). subst x.
  destruct (bytes_run a (phy_ok_app _ _ HK1)) as (sent & bus & F & I & EQ). destruct (tx_step _ _ i bus HK1 I) as (bus' & out & I' & SB & LG & EQ2 & _ & BL). cbv zeta in *. rewrite ET in *.
  set (x := cout uw (state uw a) i) in *. set (s := state uw a) in *. rewrite EY. cbn [cout uw uo_stp uo_data cnext u_main].
  destruct I as (ID & IB & II). destruct I' as (_ & _ & II'). destruct (buf_views _ IB) as [HV _].
  split.
  - intros ST. pose proof (stp_next s i ST) as C.
    assert (TAKE : u_dir s = false /\ ui_dir i = false /\ ui_nxt i = true /\ w_st (main_next s i) = WIdle /\ w_data (main_next s i) = 0).
    { revert ST. unfold main_next. destruct (u_main s) as [st dt stp dq mw ow]. cbn [w_st w_data w_stp w_dataq w_mwr w_owr].
      destruct (u_dir s), (ui_dir i), (ui_nxt i); cbn [xorb andb negb]; destruct st; cbn [w_stp]; try discriminate; try (intros _; repeat split; fail).
      all: destruct (m_upd (u_mode s)), (g_upd (u_otg s)), (tx_have (u_buf s)); cbn [w_stp]; try discriminate. all: intros _; repeat split. }
    destruct TAKE as (D0 & D1 & NX & STI & DAT). split; [exact DAT|]. split; [exact D1|]. split; [exact NX|].
    destruct C as [C|[C NB]].
    + left. rewrite LG. unfold bus_inv in II. rewrite C in II. destruct II as (_ & _ & II & IDQ & _).
      unfold pstep, phy_step. rewrite <- ID, D0. change (uo_dir x) with (ui_dir i). change (uo_nxt x) with (ui_nxt i). rewrite D1, NX. cbn [negb andb].
      destruct II as [(_ & _ & II)|(_ & _ & II)]; rewrite (II D0); cbn [snd]; eauto.
    + right. unfold bus_inv in II. rewrite C in II. destruct II as (_ & b0 & -> & IP). rewrite HV in NB. destruct (bufl (u_buf s)) eqn:BL0; [|discriminate NB].
      rewrite EQ, app_nil_r.
      assert (P : phy_state (t1 ++ [x]) = PTx /\ filter is_sent (snd (pstep t1 x)) = snd (pstep t1 x) /\ Forall2 stands_for (snd (pstep t1 x)) [b0]).
      { destruct (phy_snoc t1 x) as [-> _]. unfold pstep, phy_step. rewrite <- ID, D0. change (uo_dir x) with (ui_dir i). change (uo_nxt x) with (ui_nxt i). change (uo_data x) with (w_data (u_main s)). change (uo_stp x) with (w_stp (u_main s)).
        rewrite D1, NX. cbn [negb andb]. assert (0 <= b0 mod 16 < 16) by (apply Z.mod_pos_bound; lia).
        unfold bus_inv in *. destruct IP as [[-> ->]|[-> ->]].
        - destruct (Z.leb_spec 64 (64 + b0 mod 16)), (Z.ltb_spec (64 + b0 mod 16) 128); try lia. cbn [andb fst snd]. split; [reflexivity|]. split; [reflexivity|]. constructor; [unfold stands_for; lia|constructor].
        - destruct (w_stp (u_main s)) eqn:SP.
          + exfalso. clear -SP C a s. pose proof (stp_idle a) as H. fold s in H. rewrite (H SP) in C. discriminate C.
          + cbn [fst snd]. split; [reflexivity|]. split; [reflexivity|]. repeat constructor. }
      destruct P as (P1 & P2 & P3). split; [exact P1|]. rewrite LG, filter_app, P2. apply Forall2_app; assumption.
  - intros r d H. rewrite LG in H. apply app_inv_head in H.
    destruct (sent_cases _ _ _ _ SB) as [(_ & _ & C & _)|[(_ & _ & C & _)|[(b0 & _ & _ & C & _)|[(b0 & _ & _ & C & _)|[(_ & _ & C & _)|(a' & d' & A & _ & C & _)]]]]]; rewrite <- C in H; try discriminate H.
    unfold bus_inv in II. rewrite <- A in II. unfold main_next.
    revert C. unfold pstep, phy_step. rewrite <- A, <- ID. change (uo_dir x) with (ui_dir i). change (uo_nxt x) with (ui_nxt i).
    destruct (w_st (u_main s)) eqn:EST.
    + destruct II as (_ & _ & [II|[II _]]); discriminate II.
    + destruct II as (_ & _ & II & _); discriminate II.
    + destruct II as (_ & b0 & _ & [[II _]|[II _]]); discriminate II.
    + destruct II as (_ & _ & _ & _ & IQ). destruct (u_dir s); [discriminate (IQ eq_refl)|]. destruct (ui_dir i), (ui_nxt i); cbn [xorb andb negb snd]; try discriminate. reflexivity.
Qed.
(** After receiving, the core cannot hand over a byte for seven cycles. *)
Theorem C133_delay : forall ins t1 x u y t2, trace uw ins = t1 ++ x :: u ++ y :: t2 -> uo_rxa x = true -> (length u < 7)%nat -> uo_txr y = false.
Proof.
  intros ins t1 x u y t2 E RX L. unfold trace in E. apply trace_split_from in E. destruct E as (a & i & b & _ & _ & -> & E).
  set (s := cnext uw (state_from uw (creset uw) a) i) in *. symmetry in E. apply trace_split_from in E. destruct E as (c & j & d & _ & EU & -> & _).
  rewrite <- EU, trace_from_length in L. clear EU d b.
  assert (DL : 7 <= u_delay s) by (unfold s; cbn [cnext uw u_delay]; unfold delay_next; change (r_a (u_rx (state_from uw (creset uw) a)) = true) in RX; rewrite RX; lia).
  clearbody s. assert (G : forall n s, (n <= 7)%nat -> Z.of_nat n <= u_delay s -> Z.of_nat n - Z.of_nat (length c) <= u_delay (state_from uw s c)).
  { clear. induction c as [|j c IH]; intros n s N H; [cbn in *; lia|]. cbn [state_from]. destruct n as [|n].
    - specialize (IH 0%nat (cnext uw s j) N). cbn [length] in *. assert (H0 : Z.of_nat 0 <= u_delay (cnext uw s j)) by (cbn [cnext uw u_delay]; unfold delay_next; destruct (r_a (u_rx s)), (Z.eqb_spec (u_delay s) 0); lia). specialize (IH H0). lia.
    - specialize (IH n (cnext uw s j) ltac:(lia)). cbn [length] in *. assert (H0 : Z.of_nat n <= u_delay (cnext uw s j)) by (cbn [cnext uw u_delay]; unfold delay_next; destruct (r_a (u_rx s)), (Z.eqb_spec (u_delay s) 0); lia). specialize (IH H0). lia. }
  specialize (G 7%nat s (le_n 7) DL). cbn [cout uw uo_txr]. unfold tx_ready_o. destruct (Z.eqb_spec (u_delay (state_from uw s c)) 0); [lia|apply andb_false_r].
Qed.

(** A mode write interrupted by a receiving PHY and retried, then two packets, a register
    write between them. *)
Definition demo : list uw_in :=
  [tx_cyc peri false false None; tx_cyc peri false false None; tx_cyc peri false true None; tx_cyc peri true true None; tx_cyc peri true true None; tx_cyc peri false false None;
   tx_cyc peri false false None; tx_cyc peri false true None; tx_cyc peri false true None; tx_cyc peri false false None; tx_cyc peri false false None; tx_cyc peri false true None; tx_cyc peri false true None;
   tx_cyc peri false false None; tx_cyc peri false false (Some 195); tx_cyc peri false false (Some 17); tx_cyc peri false true (Some 34); tx_cyc peri false false None; tx_cyc peri false true None; tx_cyc peri false true None; tx_cyc peri false true None;
   tx_cyc peri false false None; tx_cyc peri false false (Some 210); tx_cyc peri false true None; tx_cyc peri false true None; tx_cyc peri false false None].
Example C130_nonvacuous : let t := trace uw demo in phy_ok t /\ tx_taken t = [195; 17; 34; 210] /\
  phy_log t = [PWrite 4 101; PWrite 10 0; PPid 3; PByte 17; PByte 34; PStop; PPid 2; PStop].
Proof. cbv zeta. split; [apply okb_spec; vm_compute; reflexivity|]. split; vm_compute; reflexivity. Qed.
Fixpoint spacedb (t u : list uw_obs) : bool :=
  match u with
  | [] => true
  | y :: u' => (if last_txv t then true else if match t with [] => true | _ => negb (uo_txv y) end then true else
      if list_eq_dec (list_eq_dec Z.eq_dec) (fst (bus_packets t)) (map on_bus (packets t)) then if list_eq_dec Z.eq_dec (snd (bus_packets t)) [] then true else false else false)
      && spacedb (t ++ [y]) u'
  end.
Lemma spacedb_spec t : spacedb [] t = true -> spaced t.
Proof.
  intros H a x y b -> Hx Hy.
  assert (G : forall p, spacedb p (a ++ x :: y :: b) = true -> bus_packets (p ++ a ++ [x]) = (map on_bus (packets (p ++ a ++ [x])), [])); [clear H|exact (G [] H)].
  induction a as [|z a IH]; intros p H.
  - cbn [app spacedb] in H. apply andb_true_iff in H. destruct H as [_ H]. apply andb_true_iff in H. destruct H as [H _]. rewrite last_txv_snoc, Hx, Hy in H.
    assert (NE : match p ++ [x] with [] => true | _ => negb true end = false) by (destruct p; reflexivity). rewrite NE in H. cbn [app].
    destruct (list_eq_dec (list_eq_dec Z.eq_dec) (fst (bus_packets (p ++ [x]))) (map on_bus (packets (p ++ [x])))) as [E1|]; [|discriminate H].
    destruct (list_eq_dec Z.eq_dec (snd (bus_packets (p ++ [x]))) []) as [E2|]; [|discriminate H]. destruct (bus_packets (p ++ [x])). cbn [fst snd] in *. congruence.
  - cbn [app spacedb] in H. apply andb_true_iff in H. destruct H as [_ H]. specialize (IH _ H). rewrite <- app_assoc in IH. exact IH.
Qed.
Example C131_nonvacuous : let t := trace uw demo in spaced t /\ calm t /\ packets t = [[195; 17; 34]; [210]] /\ bus_packets t = ([[3; 17; 34]; [2]], []).
Proof.
  cbv zeta. split; [apply spacedb_spec; vm_compute; reflexivity|]. split; [repeat (constructor; [first [discriminate|intros _; vm_compute; reflexivity]|]); constructor|].
  split; vm_compute; reflexivity.
Qed.
(** The settings of C132_mode_partial: a change in the first cycle, nothing under way. *)
Example C132_nonvacuous : let t := trace uw (map (fun n => tx_cyc peri false n None) ([false; false] ++ repeat true 10)) in
  phy_ok t /\ phy_log t = [PWrite 4 (func_value true peri); PWrite 10 (otg_value peri)] /\ ~ same_mode peri (prev_set []) /\
  exists x y t2, t = x :: y :: t2 /\ ~ writing 4 [] x /\ ~ writing 4 [x] y /\ Forall (quiet peri) t2 /\ nxt_count t2 = 10%nat.
Proof.
  cbv zeta. split; [apply okb_spec; vm_compute; reflexivity|]. split; [vm_compute; reflexivity|]. split; [intros (H & _); discriminate H|].
  do 3 eexists. split; [vm_compute; reflexivity|].
  split; [intros [H|[_ H]]; vm_compute in H; discriminate H|]. split; [intros [H|[_ H]]; vm_compute in H; discriminate H|].
  split; [repeat (constructor; [repeat split|]); constructor|vm_compute; reflexivity].
Qed.
Example C133_nonvacuous :
  let t := trace uw ([rx_cyc true true 0; rx_cyc true true 105; rx_cyc false false 0] ++ repeat (rx_cyc false false 0) 8) in
  map uo_rxa t = [false; true; true] ++ repeat false 8 /\ map uo_txr t = [true; true] ++ repeat false 8 ++ [true].
Proof. vm_compute. repeat split. Qed.

Print Assumptions C130_bytes.
Print Assumptions C130_progress.
Print Assumptions C131_packets_partial.
Print Assumptions C131_merged_refuted.
Print Assumptions C131_cut_refuted.
Print Assumptions C132_mode_partial.
Print Assumptions C132_otg_partial.
Print Assumptions C132_values.
Print Assumptions C132_lost_refuted.
Print Assumptions C133_hold.
Print Assumptions C133_stop.
Print Assumptions C133_delay.
