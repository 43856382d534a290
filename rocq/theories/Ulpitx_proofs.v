(** Invariants of ulpi_wrapper's transmitting side. *)
From Verif Require Import Hdl Ulpiw_model Ulpiw_spec Ulpirx_props.

(** ** The PHY's view, cycle by cycle *)
Definition last_dir (was : bool) (t : list uw_obs) : bool := match rev t with [] => was | o :: _ => uo_dir o end.
Lemma last_dir_cons was o t : last_dir was (o :: t) = last_dir (uo_dir o) t.
Proof. unfold last_dir. cbn [rev]. destruct (rev t); reflexivity. Qed.
Lemma phy_run_app was p a b : phy_run was p (a ++ b) =
  (fst (phy_run (last_dir was a) (fst (phy_run was p a)) b), snd (phy_run was p a) ++ snd (phy_run (last_dir was a) (fst (phy_run was p a)) b)).
Proof.
  revert was p. induction a as [|o a IH]; intros was p; [cbn [app phy_run fst snd]; unfold last_dir; cbn [rev]; now destruct (phy_run was p b)|].
  cbn [app phy_run]. rewrite last_dir_cons. destruct (phy_step (negb (uo_dir o) && negb was) p o) as [p1 e]. rewrite IH.
  destruct (phy_run (uo_dir o) p1 a) as [p2 es]. cbn [fst snd]. now rewrite app_assoc.
Qed.
Definition pstep (t : list uw_obs) (o : uw_obs) : phy * list phy_event := phy_step (negb (uo_dir o) && negb (was_dir t)) (phy_state t) o.
Lemma phy_snoc t o : phy_state (t ++ [o]) = fst (pstep t o) /\ phy_log (t ++ [o]) = phy_log t ++ snd (pstep t o).
Proof.
  unfold phy_state, phy_log, pstep, phy_state. rewrite phy_run_app. cbn [phy_run fst snd]. change (last_dir false t) with (was_dir t).
  destruct (phy_step _ _ o) as [p e]. cbn [fst snd]. now rewrite app_nil_r.
Qed.
Lemma phy_ok_app t u : phy_ok (t ++ u) -> phy_ok t.
Proof. intros H a x y b -> Hx Hy. apply (H a x y (b ++ u)); auto. now rewrite <- app_assoc. Qed.
Lemma phy_ok_last t o : phy_ok (t ++ [o]) -> was_dir t = true -> uo_dir o = false -> uo_nxt o = false.
Proof.
  intros H W D. unfold was_dir in W. destruct t as [|x t _] using rev_ind; [discriminate W|]. rewrite rev_app_distr in W. cbn in W.
  apply (H t x o []); auto. now rewrite <- app_assoc.
Qed.

(** ** The buffer as a list *)
Definition bufl (b : uw_buf) : list Z :=
  (if b_valid b (b_rd b) then [b_data b (b_rd b)] else []) ++ (if b_valid b (negb (b_rd b)) then [b_data b (negb (b_rd b))] else []).
Definition buf_ok (b : uw_buf) : Prop :=
  (b_valid b (b_rd b) = false -> b_valid b (negb (b_rd b)) = false) /\ b_wr b = xorb (b_rd b) (xorb (b_v0 b) (b_v1 b)).
Lemma buf_len b : (length (bufl b) <= 2)%nat.
Proof. unfold bufl. destruct (b_valid b (b_rd b)), (b_valid b (negb (b_rd b))); cbn; lia. Qed.
Lemma buf_views b : buf_ok b -> (tx_have b = match bufl b with [] => false | _ => true end) /\ (tx_have b = true -> bufl b = tx_byte b :: tl (bufl b)).
Proof.
  intros [H _]. unfold tx_have, tx_byte, bufl. destruct (b_valid b (b_rd b)) eqn:E; [split; [reflexivity|intros _; reflexivity]|].
  rewrite H by reflexivity. split; [reflexivity|discriminate].
Qed.
Lemma buf_ready b d : buf_ok b -> tx_ready_o b d = (length (bufl b) <? 2)%nat && (d =? 0).
Proof.
  intros [H W]. unfold tx_ready_o. f_equal. rewrite W. unfold bufl. unfold b_valid in *. destruct (b_rd b), (b_v0 b), (b_v1 b); cbn in *; try reflexivity; now specialize (H eq_refl).
Qed.
Lemma buf_step b delay i acc : buf_ok b -> buf_ok (buf_next b delay i acc) /\
  bufl (buf_next b delay i acc) = (if tx_have b && acc then tl (bufl b) else bufl b) ++ (if ui_txv i && tx_ready_o b delay then [ui_txd i] else []).
Proof.
  intros [H W]. unfold buf_next, tx_ready_o, tx_have. rewrite W. destruct b as [b0 b1 v0 v1 wr rd]. cbn in *. subst wr.
  unfold buf_ok, bufl, b_valid, b_data. destruct rd, v0, v1, (ui_txv i), (delay =? 0), acc; cbn in *; try (now specialize (H eq_refl)); auto.
Qed.

(** ** The bus *)
Definition bus_inv (m : uw_main) (dir : bool) (p : phy) (bus : list Z) : Prop :=
  match w_st m with
  | WIdle => w_data m = 0 /\ bus = [] /\ (p = PIdle \/ (p = PTx /\ w_stp m = true))
  | WCmd => w_stp m = false /\ bus = [] /\ p = PIdle /\ ((w_data m = 132 /\ w_mwr m = true /\ w_owr m = false) \/ (w_data m = 138 /\ w_mwr m = false /\ w_owr m = true))
  | WReg => w_stp m = false /\ bus = [] /\
      ((w_mwr m = true /\ w_owr m = false /\ (dir = false -> p = PReg 4)) \/ (w_mwr m = false /\ w_owr m = true /\ (dir = false -> p = PReg 10))) /\
      (dir = false -> w_data m = w_dataq m) /\ (dir = true -> p = PIdle)
  | WData => w_stp m = false /\ exists b, bus = [b] /\ ((p = PIdle /\ w_data m = 64 + b mod 16) \/ (p = PTx /\ w_data m = b))
  end.
(** What a cycle puts into the log, and which of the bytes under way it is. *)
Inductive sent_by : phy -> phy -> list phy_event -> list Z -> Prop :=
| SbNone p p' : p <> PTx -> p' <> PTx -> sent_by p p' [] []
| SbKeep : sent_by PTx PTx [] []
| SbPid b : sent_by PIdle PTx [PPid (b mod 16)] [b]
| SbByte b : sent_by PTx PTx [PByte b] [b]
| SbStop : sent_by PTx PIdle [PStop] []
| SbWrite a d : sent_by (PReg a) PIdle [PWrite a d] [].

Lemma bus_step s i p bus (o := cout uw s i) :
  buf_ok (u_buf s) -> bus_inv (u_main s) (u_dir s) p bus -> (u_dir s = true -> ui_dir i = false -> ui_nxt i = false) ->
  exists bus' out, let r := phy_step (negb (uo_dir o) && negb (u_dir s)) p o in
  bus_inv (main_next s i) (ui_dir i) (fst r) bus' /\ sent_by p (fst r) (snd r) out /\
  bus ++ (if tx_have (u_buf s) && tx_accept s i then [tx_byte (u_buf s)] else []) = out ++ bus' /\
  (snd r = [PStop] -> bus = [] /\ w_st (u_main s) = WIdle).
Proof.
  intros HB HI HT. assert (MB : forall b, 0 <= b mod 16 < 16) by (intros b; apply Z.mod_pos_bound; lia).
  unfold o, phy_step, uo_dir, uo_nxt, bus_inv, main_next, tx_accept in *. cbn [cout uw uo_in uo_data uo_stp] in *.
  destruct s as [md g dirq delay bf m rx]. cbn [u_mode u_otg u_dir u_delay u_buf u_main u_rx] in *.
  destruct m as [st dt stp dq mw ow]. cbn [w_st w_data w_stp w_dataq w_mwr w_owr] in *.
  destruct i as [dir nxt pd txv txd set]. cbn [ui_dir ui_nxt ui_data ui_txv ui_txd ui_set] in *.
  destruct st; cbn [uw_st_eqb andb orb] in *.
  - (* idle *)
    destruct HI as (-> & -> & HP).
    assert (HS : exists p' e, (match p with
      | PIdle => if negb dir && negb dirq && nxt && (64 <=? 0) && (0 <? 128) then (PTx, [PPid (0 - 64)])
         else if negb dir && negb dirq && nxt && (128 <=? 0) && (0 <? 192) then (PReg (0 - 128), []) else (PIdle, [])
      | PTx => if stp then (PIdle, [PStop]) else if negb dir && negb dirq && nxt then (PTx, [PByte 0]) else (PTx, [])
      | PReg a => if dir then (PIdle, []) else if negb dir && negb dirq && nxt then (PIdle, [PWrite a 0]) else (PReg a, [])
      end) = (p', e) /\ p' = PIdle /\ sent_by p p' e []).
    { destruct HP as [->|[-> ->]]; [|exists PIdle, [PStop]; repeat split; constructor].
      replace (64 <=? 0) with false by reflexivity. replace (128 <=? 0) with false by reflexivity. rewrite !andb_false_r. cbn [andb].
      exists PIdle, []. repeat split; constructor; discriminate. }
    destruct HS as (p' & e & -> & -> & HS). cbn [fst snd app].
    assert (R : forall m' b', (match w_st m' with
        | WIdle => w_data m' = 0 /\ b' = [] /\ (PIdle = PIdle \/ (PIdle = PTx /\ w_stp m' = true))
        | WCmd => w_stp m' = false /\ b' = [] /\ PIdle = PIdle /\ ((w_data m' = 132 /\ w_mwr m' = true /\ w_owr m' = false) \/ (w_data m' = 138 /\ w_mwr m' = false /\ w_owr m' = true))
        | WReg => False
        | WData => w_stp m' = false /\ exists b, b' = [b] /\ ((PIdle = PIdle /\ w_data m' = 64 + b mod 16) \/ (PIdle = PTx /\ w_data m' = b))
        end) -> 
        forall acc, acc = b' -> exists bus' out,
        (match w_st m' with
        | WIdle => w_data m' = 0 /\ bus' = [] /\ (PIdle = PIdle \/ (PIdle = PTx /\ w_stp m' = true))
        | WCmd => w_stp m' = false /\ bus' = [] /\ PIdle = PIdle /\ ((w_data m' = 132 /\ w_mwr m' = true /\ w_owr m' = false) \/ (w_data m' = 138 /\ w_mwr m' = false /\ w_owr m' = true))
        | WReg => w_stp m' = false /\ bus' = [] /\
            ((w_mwr m' = true /\ w_owr m' = false /\ (dir = false -> PIdle = PReg 4)) \/ (w_mwr m' = false /\ w_owr m' = true /\ (dir = false -> PIdle = PReg 10))) /\
            (dir = false -> w_data m' = w_dataq m') /\ (dir = true -> PIdle = PIdle)
        | WData => w_stp m' = false /\ exists b, bus' = [b] /\ ((PIdle = PIdle /\ w_data m' = 64 + b mod 16) \/ (PIdle = PTx /\ w_data m' = b))
        end) /\ sent_by p PIdle e out /\ acc = out ++ bus' /\ (e = [PStop] -> @nil Z = [] /\ WIdle = WIdle)).
    { intros m' b' Hm acc ->. exists b', []. split; [destruct (w_st m'); try exact Hm; destruct Hm|]. split; [exact HS|]. split; [reflexivity|]. now split. }
    destruct dirq, dir, nxt; cbn [xorb andb negb orb] in *; rewrite ?orb_true_r, ?orb_false_r, ?andb_false_r, ?andb_true_r in *; cbn [andb negb orb] in *;
      try (apply (R (UwMain WIdle 0 false dq mw ow) []); [cbn; intuition|rewrite ?andb_false_r; reflexivity]; fail).
    all: assert (W : forall c : bool, (if c then @nil Z else []) = []) by (intros []; reflexivity).
    all: destruct (m_upd md).
    all: cbn [orb andb negb] in *; rewrite ?andb_false_r.
    all: try (apply (R _ []); [cbn; intuition|reflexivity]; fail).
    all: destruct (g_upd g).
    all: cbn [orb andb negb] in *; rewrite ?andb_false_r.
    all: try (apply (R _ []); [cbn; intuition|reflexivity]; fail).
    all: rewrite ?andb_true_r; destruct (tx_have bf).
    all: try (apply (R _ []); [cbn; intuition|reflexivity]; fail).
    all: apply (R _ [tx_byte bf]); [|reflexivity].
    all: cbn; split; [reflexivity|]; eexists; split; [reflexivity|]; left; split; reflexivity.
  - (* command *)
    destruct HI as (-> & -> & -> & HC). rewrite !andb_false_r. cbn [app].
    assert (D : exists a, dt = 128 + a /\ 0 <= a < 64 /\ ((a = 4 /\ mw = true /\ ow = false) \/ (a = 10 /\ mw = false /\ ow = true))).
    { destruct HC as [(-> & -> & ->)|(-> & -> & ->)]; [exists 4|exists 10]; (split; [reflexivity|]); (split; [lia|]); [left|right]; auto. }
    destruct D as (a & -> & Ra & HA). 
    destruct (Z.leb_spec 64 (128 + a)), (Z.ltb_spec (128 + a) 128), (Z.leb_spec 128 (128 + a)), (Z.ltb_spec (128 + a) 192); try lia. rewrite ?andb_false_r, ?andb_true_r.
    replace (128 + a - 128) with a by lia.
    destruct dirq, dir, nxt; cbn [xorb andb negb orb fst snd w_st w_data w_stp w_dataq w_mwr w_owr] in *;
      exists [], []; (split; [|split; [constructor; discriminate|split; [reflexivity|discriminate]]]); try (repeat split; auto; fail).
    split; [reflexivity|]. split; [reflexivity|]. split; [|split; [reflexivity|discriminate]].
    destruct HA as [(-> & -> & ->)|(-> & -> & ->)]; [left|right]; auto.
  - (* data *)
    destruct HI as (-> & b & -> & HP).
    destruct (buf_views bf HB) as [_ HV].
    destruct HP as [[-> ->]|[-> ->]].
    + specialize (MB b). destruct (Z.leb_spec 64 (64 + b mod 16)), (Z.ltb_spec (64 + b mod 16) 128), (Z.leb_spec 128 (64 + b mod 16)); try lia.
      rewrite ?andb_false_r, ?andb_true_r. replace (64 + b mod 16 - 64) with (b mod 16) by lia. cbn [andb].
      destruct dirq, dir, nxt; cbn [xorb andb negb orb fst snd w_st w_data w_stp w_dataq w_mwr w_owr] in *; rewrite ?andb_false_r, ?andb_true_r; cbn [app];
        try (exists [b], []; split; [split; [reflexivity|]; exists b; split; [reflexivity|left; split; reflexivity]|split; [constructor; discriminate|split; [reflexivity|discriminate]]]; fail);
        try (discriminate (HT eq_refl eq_refl)).
      destruct (tx_have bf).
      * exists [tx_byte bf], [b]. split; [split; [reflexivity|]; eexists; split; [reflexivity|right; split; reflexivity]|]. split; [constructor|]. split; [reflexivity|discriminate].
      * exists [], [b]. split; [cbn; repeat split; right; split; reflexivity|]. split; [constructor|]. split; [reflexivity|discriminate].
    + destruct dirq, dir, nxt; cbn [xorb andb negb orb fst snd w_st w_data w_stp w_dataq w_mwr w_owr] in *; rewrite ?andb_false_r, ?andb_true_r; cbn [app];
        try (exists [b], []; split; [split; [reflexivity|]; exists b; split; [reflexivity|right; split; reflexivity]|split; [constructor|split; [reflexivity|discriminate]]]; fail);
        try (discriminate (HT eq_refl eq_refl)).
      destruct (tx_have bf).
      * exists [tx_byte bf], [b]. split; [split; [reflexivity|]; eexists; split; [reflexivity|right; split; reflexivity]|]. split; [constructor|]. split; [reflexivity|discriminate].
      * exists [], [b]. split; [cbn; repeat split; right; split; reflexivity|]. split; [constructor|]. split; [reflexivity|discriminate].
  - (* register value *)
    destruct HI as (-> & -> & HC & HD & HQ). rewrite !andb_false_r. cbn [app].
    destruct dirq; [specialize (HQ eq_refl); subst p; clear HD|specialize (HD eq_refl); subst dt; clear HQ].
    + rewrite !andb_false_r. cbn [andb].
      destruct dir, nxt; cbn [xorb andb negb fst snd w_st w_data w_stp w_dataq w_mwr w_owr]; try (discriminate (HT eq_refl eq_refl)); exists [], [];
        (split; [|split; [constructor; discriminate|split; [reflexivity|discriminate]]]).
      * split; [reflexivity|]. split; [reflexivity|]. split; [destruct HC as [(-> & -> & _)|(-> & -> & _)]; [left|right]; repeat split; discriminate|]. split; [discriminate|reflexivity].
      * split; [reflexivity|]. split; [reflexivity|]. split; [destruct HC as [(-> & -> & _)|(-> & -> & _)]; [left|right]; repeat split; discriminate|]. split; [discriminate|reflexivity].
      * repeat split. now left.
    + assert (D : exists a, p = PReg a /\ ((a = 4 /\ mw = true /\ ow = false) \/ (a = 10 /\ mw = false /\ ow = true))).
      { destruct HC as [(-> & -> & HC)|(-> & -> & HC)]; rewrite (HC eq_refl); [exists 4|exists 10]; split; auto. }
      destruct D as (a & -> & HA).
      destruct dir, nxt; cbn [xorb andb negb fst snd w_st w_data w_stp w_dataq w_mwr w_owr]; exists [], [].
      * split; [|split; [constructor; discriminate|split; [reflexivity|discriminate]]]. repeat split. now left.
      * split; [|split; [constructor; discriminate|split; [reflexivity|discriminate]]].
        split; [reflexivity|]. split; [reflexivity|]. split; [destruct HA as [(_ & -> & ->)|(_ & -> & ->)]; [left|right]; repeat split; discriminate|]. split; [discriminate|reflexivity].
      * split; [|split; [constructor|split; [reflexivity|discriminate]]]. repeat split. now left.
      * split; [|split; [constructor; discriminate|split; [reflexivity|discriminate]]].
        split; [reflexivity|]. split; [reflexivity|]. split; [destruct HA as [(-> & -> & ->)|(-> & -> & ->)]; [left|right]; repeat split|]. split; [reflexivity|discriminate].
Qed.

(** ** All bytes, in order *)
Lemma taken_snoc t o : tx_taken (t ++ [o]) = tx_taken t ++ (if uo_txv o && uo_txr o then [ui_txd (uo_in o)] else []).
Proof. unfold tx_taken. rewrite flat_map_app. cbn [flat_map]. now rewrite app_nil_r. Qed.

Definition tx_inv (t : list uw_obs) (s : uw_state) (bus : list Z) : Prop :=
  u_dir s = was_dir t /\ buf_ok (u_buf s) /\ bus_inv (u_main s) (u_dir s) (phy_state t) bus.
Lemma tx_step t s i bus : phy_ok (t ++ [cout uw s i]) -> tx_inv t s bus ->
  exists bus' out, let t' := t ++ [cout uw s i] in let s' := cnext uw s i in
  tx_inv t' s' bus' /\ sent_by (phy_state t) (phy_state t') (snd (pstep t (cout uw s i))) out /\
  phy_log t' = phy_log t ++ snd (pstep t (cout uw s i)) /\
  (bus ++ bufl (u_buf s)) ++ (if ui_txv i && tx_ready_o (u_buf s) (u_delay s) then [ui_txd i] else []) = out ++ bus' ++ bufl (u_buf s') /\
  (snd (pstep t (cout uw s i)) = [PStop] -> bus = [] /\ w_st (u_main s) = WIdle) /\
  bufl (u_buf s') = (if tx_have (u_buf s) && tx_accept s i then tl (bufl (u_buf s)) else bufl (u_buf s)) ++ (if ui_txv i && tx_ready_o (u_buf s) (u_delay s) then [ui_txd i] else []).
Proof.
  intros HK (ID & IB & II). set (o := cout uw s i) in *.
  assert (HT : u_dir s = true -> ui_dir i = false -> ui_nxt i = false) by (intros A B; rewrite ID in A; exact (phy_ok_last t o HK A B)).
  destruct (bus_step s i _ _ IB II HT) as (bus' & out & S1 & S2 & S3 & S4). fold o in S1, S2, S4.
  destruct (phy_snoc t o) as [P1 P2]. unfold pstep in *. rewrite <- ID in *.
  destruct (buf_step (u_buf s) (u_delay s) i (tx_accept s i) IB) as [B1 B2].
  exists bus', out. cbv zeta. split; [split; [now rewrite was_dir_snoc|]; split; [exact B1|]; rewrite P1; exact S1|].
  split; [rewrite P1; exact S2|]. split; [exact P2|]. split; [|split; [exact S4|exact B2]].
  cbn [cnext uw u_buf]. rewrite B2. destruct (buf_views _ IB) as [_ HV]. destruct (tx_have (u_buf s) && tx_accept s i) eqn:EA.
  - apply andb_true_iff in EA. destruct EA as [EA _]. rewrite (HV EA). cbn [tl].
    replace (bus ++ tx_byte (u_buf s) :: tl (bufl (u_buf s))) with ((bus ++ [tx_byte (u_buf s)]) ++ tl (bufl (u_buf s))) by (rewrite <- app_assoc; reflexivity).
    rewrite S3. now rewrite <- !app_assoc.
  - rewrite app_nil_r in S3. rewrite S3. now rewrite <- !app_assoc.
Qed.
Lemma tx_reset : tx_inv [] (creset uw) [].
Proof. split; [reflexivity|]. split; [split; reflexivity|]. cbn. repeat split. now left. Qed.
Lemma tx_bus_len t s bus : tx_inv t s bus -> (length bus <= 1)%nat.
Proof. intros (_ & _ & H). unfold bus_inv in H. destruct (w_st (u_main s)); [destruct H as (_ & -> & _)|destruct H as (_ & -> & _)|destruct H as (_ & b & -> & _)|destruct H as (_ & -> & _)]; cbn; lia. Qed.

Lemma sent_stands p p' e out : sent_by p p' e out -> Forall2 stands_for (filter is_sent e) out.
Proof. intros []; cbn [filter is_sent]; repeat constructor. Qed.

Definition bytes_inv (t : list uw_obs) (s : uw_state) : Prop :=
  exists sent bus, Forall2 stands_for (filter is_sent (phy_log t)) sent /\ tx_inv t s bus /\ tx_taken t = sent ++ bus ++ bufl (u_buf s).
Lemma bytes_run ins : phy_ok (trace uw ins) -> bytes_inv (trace uw ins) (state uw ins).
Proof.
  apply (run_inv_hyp uw phy_ok bytes_inv); [exact phy_ok_app|exists [], []; split; [constructor|]; split; [exact tx_reset|reflexivity]|].
  intros t s i HK (sent & bus & F & I & E). destruct (tx_step t s i bus HK I) as (bus' & out & I' & SB & LG & EQ & _).
  exists (sent ++ out), bus'. split; [rewrite LG, filter_app; apply Forall2_app; [exact F|exact (sent_stands _ _ _ _ SB)]|]. split; [exact I'|].
  rewrite taken_snoc, E, <- !app_assoc. f_equal. rewrite app_assoc. exact EQ.
Qed.

(** ** Work left, in cycles with nxt *)
Definition in_write (st : uw_st) (wr : bool) : bool := (uw_st_eqb st WCmd || uw_st_eqb st WReg) && wr.
Definition work (s : uw_state) : nat :=
  match w_st (u_main s) with WIdle => 0 | WCmd => 2 | WReg => 1 | WData => 1 end +
  (if m_upd (u_mode s) && negb (in_write (w_st (u_main s)) (w_mwr (u_main s))) then 3 else 0) +
  (if g_upd (u_otg s) && negb (in_write (w_st (u_main s)) (w_owr (u_main s))) then 3 else 0) +
  length (bufl (u_buf s)) +
  match bufl (u_buf s) with [] => 0 | _ => if uw_st_eqb (w_st (u_main s)) WData then 0 else 1 end.
Lemma work_bound t s bus : tx_inv t s bus -> (work s <= 9)%nat.
Proof.
  intros (_ & _ & H). pose proof (buf_len (u_buf s)) as L. unfold work, bus_inv, in_write in *. destruct (u_main s) as [st dt stp dq mw ow]. cbn [w_st w_mwr w_owr w_data w_stp w_dataq] in *.
  destruct st; cbn [uw_st_eqb orb andb negb] in *.
  - destruct (m_upd (u_mode s)), (g_upd (u_otg s)), (bufl (u_buf s)); cbn [andb] in *; lia.
  - destruct H as (_ & _ & _ & [(_ & -> & ->)|(_ & -> & ->)]); destruct (m_upd (u_mode s)), (g_upd (u_otg s)), (bufl (u_buf s)); cbn [andb negb] in *; lia.
  - destruct (m_upd (u_mode s)), (g_upd (u_otg s)), (bufl (u_buf s)); cbn [andb] in *; lia.
  - destruct H as (_ & _ & [(-> & -> & _)|(-> & -> & _)] & _); destruct (m_upd (u_mode s)), (g_upd (u_otg s)), (bufl (u_buf s)); cbn [andb negb] in *; lia.
Qed.
(** Settings registered. *)
Definition settled (s : uw_state) (x : setting) : Prop :=
  m_op (u_mode s) = s_op x /\ m_term (u_mode s) = s_term x /\ m_xcvr (u_mode s) = s_xcvr x /\ g_dp (u_otg s) = s_dp x /\ g_dm (u_otg s) = s_dm x.
Lemma work_step t s i bus : tx_inv t s bus -> u_dir s = false -> ui_dir i = false -> ui_txv i = false -> settled s (ui_set i) ->
  let s' := cnext uw s i in (work s' <= work s)%nat /\ (ui_nxt i = true -> (work s' <= pred (work s))%nat).
Proof.
  intros (_ & HB & HI) D0 D1 TV (E1 & E2 & E3 & E4 & E5) s'.
  destruct (buf_views _ HB) as [HV1 HV2]. destruct (buf_step (u_buf s) (u_delay s) i (tx_accept s i) HB) as [_ B2]. rewrite TV in B2. cbn [andb] in B2. rewrite app_nil_r in B2.
  unfold s', work. cbn [cnext uw u_mode u_otg u_buf u_main]. rewrite B2. clear B2 s'.
  unfold mode_next, otg_next, main_next, tx_accept, complete, in_write. rewrite D0, D1, E1, E2, E3, E4, E5, !Z.eqb_refl, !xorb_nilpotent. cbn [xorb andb negb orb].
  unfold bus_inv in HI. destruct (u_main s) as [st dt stp dq mw ow]. cbn [w_st w_mwr w_owr w_data w_stp w_dataq] in *.
  destruct (u_mode s) as [mu mx mt mo mr]. destruct (u_otg s) as [gu gp gm]. cbn [m_upd g_upd] in *.
  destruct st; cbn [uw_st_eqb orb andb negb w_st w_mwr w_owr m_upd g_upd] in *; rewrite ?andb_true_r, ?andb_false_r; cbn [andb negb orb].
  - destruct mu; cbn [orb andb negb w_st w_mwr w_owr uw_st_eqb]; rewrite ?andb_false_r; cbn [andb]; [destruct gu; cbn [andb negb]; destruct (bufl (u_buf s)); cbn [length]; lia|].
    destruct gu; cbn [orb andb negb w_st w_mwr w_owr uw_st_eqb]; rewrite ?andb_false_r; cbn [andb]; [destruct (bufl (u_buf s)); cbn [length]; lia|].
    rewrite HV1. destruct (bufl (u_buf s)) as [|b [|b' r]]; cbn [andb tl length w_st w_mwr w_owr uw_st_eqb]; lia.
  - destruct HI as (_ & _ & _ & HI). destruct (ui_nxt i); cbn [andb negb w_st w_mwr w_owr uw_st_eqb orb];
      destruct HI as [(_ & -> & ->)|(_ & -> & ->)]; destruct mu, gu; cbn [andb negb]; destruct (bufl (u_buf s)); cbn [length]; lia.
  - rewrite HV1. destruct (ui_nxt i); cbn [andb negb w_st w_mwr w_owr uw_st_eqb orb].
    + destruct (bufl (u_buf s)) as [|b [|b' r]]; cbn [andb orb negb tl length w_st w_mwr w_owr uw_st_eqb]; destruct mu, gu; cbn [andb negb]; lia.
    + rewrite !andb_false_r. destruct (bufl (u_buf s)) as [|b [|b' r]]; cbn [andb orb negb tl length w_st w_mwr w_owr uw_st_eqb]; destruct mu, gu; cbn [andb negb]; lia.
  - destruct HI as (_ & _ & HI & _). destruct (ui_nxt i); cbn [andb negb w_st w_mwr w_owr uw_st_eqb orb];
      destruct HI as [(-> & -> & _)|(-> & -> & _)]; destruct mu, gu; cbn [andb negb]; destruct (bufl (u_buf s)); cbn [length]; lia.
Qed.
Lemma settled_next s i : settled (cnext uw s i) (ui_set i).
Proof. repeat split. Qed.
Lemma quiet_run t s bus x ins : phy_ok (t ++ trace_from uw s ins) -> tx_inv t s bus -> u_dir s = false -> settled s x -> Forall (quiet x) (trace_from uw s ins) ->
  exists bus', tx_inv (t ++ trace_from uw s ins) (state_from uw s ins) bus' /\ (work (state_from uw s ins) <= work s - nxt_count (trace_from uw s ins))%nat /\
  u_dir (state_from uw s ins) = false /\ settled (state_from uw s ins) x.
Proof.
  revert t s bus. induction ins as [|i ins IH]; intros t s bus HK I D ST Q.
  - exists bus. cbn [trace_from state_from]. rewrite app_nil_r. unfold nxt_count. cbn [filter length]. split; [exact I|]. split; [lia|]. split; [exact D|exact ST].
  - cbn [trace_from state_from] in *. inversion Q as [|? ? (Q1 & Q2 & Q3) Q']; subst. 
    change (t ++ cout uw s i :: trace_from uw (cnext uw s i) ins) with (t ++ [cout uw s i] ++ trace_from uw (cnext uw s i) ins) in *. rewrite app_assoc in *.
    destruct (tx_step t s i bus (phy_ok_app _ _ HK) I) as (b1 & _ & I1 & _).
    destruct (work_step t s i bus I D Q1 Q2 ST) as [W1 W2].
    destruct (IH _ _ _ HK I1 Q1 (settled_next s i) Q') as (b2 & I2 & W3 & D2 & S2). exists b2. split; [exact I2|]. split; [|split; [exact D2|exact S2]].
    cbn [app]. unfold nxt_count in *. cbn [filter]. change (uo_nxt (cout uw s i)) with (ui_nxt i). destruct (ui_nxt i); cbn [length]; [specialize (W2 eq_refl)|]; lia.
Qed.
Lemma work_zero s t bus : tx_inv t s bus -> work s = 0%nat -> w_st (u_main s) = WIdle /\ m_upd (u_mode s) = false /\ g_upd (u_otg s) = false /\ bufl (u_buf s) = [] /\ bus = [].
Proof.
  intros (_ & _ & H) W. unfold work, bus_inv in *. destruct (w_st (u_main s)); try lia. cbn [in_write uw_st_eqb orb andb negb] in W. rewrite !andb_true_r in W.
  destruct (m_upd (u_mode s)), (g_upd (u_otg s)), (bufl (u_buf s)); try (cbn in W; lia). repeat split. apply H.
Qed.

(** ** Packets *)
Definition last_txv (t : list uw_obs) : bool := match rev t with [] => false | o :: _ => uo_txv o end.
Lemma last_txv_snoc t o : last_txv (t ++ [o]) = uo_txv o.
Proof. unfold last_txv. rewrite rev_app_distr. reflexivity. Qed.
Lemma spaced_app t u : spaced (t ++ u) -> spaced t.
Proof. intros H a x y b -> Hx Hy. apply (H a x y (b ++ u)); auto. now rewrite <- app_assoc. Qed.
Lemma spaced_last t o : spaced (t ++ [o]) -> t <> [] -> last_txv t = false -> uo_txv o = true -> bus_packets t = (map on_bus (packets t), []).
Proof.
  intros H N W D. unfold last_txv in W. destruct t as [|x t _] using rev_ind; [now destruct N|]. rewrite rev_app_distr in W. cbn in W.
  apply (H t x o []); auto. now rewrite <- app_assoc.
Qed.
Definition pfs := packets_from [] [].
Lemma packets_from_app ps cur a b : packets_from ps cur (a ++ b) = packets_from (fst (packets_from ps cur a)) (snd (packets_from ps cur a)) b.
Proof. revert ps cur. induction a as [|o a IH]; intros ps cur; [reflexivity|]. cbn [app packets_from]. destruct (uo_txv o); apply IH. Qed.
Lemma pfs_snoc t o : pfs (t ++ [o]) = if uo_txv o then (fst (pfs t), snd (pfs t) ++ (if uo_txr o then [ui_txd (uo_in o)] else [])) else (close (fst (pfs t)) (snd (pfs t)), []).
Proof. unfold pfs. rewrite packets_from_app. cbn [packets_from]. now destruct (uo_txv o). Qed.
Lemma packets_pfs t : packets t = close (fst (pfs t)) (snd (pfs t)).
Proof. unfold packets, pfs. now destruct (packets_from [] [] t). Qed.
Lemma bus_from_app d o a b : bus_from d o (a ++ b) = bus_from (fst (bus_from d o a)) (snd (bus_from d o a)) b.
Proof. revert d o. induction a as [|e a IH]; intros d o; [reflexivity|]. cbn [app bus_from]. destruct e; apply IH. Qed.

Definition pk_inv (t : list uw_obs) (s : uw_state) : Prop :=
  exists bus snt pre, tx_inv t s bus /\
  (phy_state t = PTx -> snt <> []) /\ (phy_state t <> PTx -> snt = []) /\ bus_packets t = (map on_bus pre, on_bus snt) /\
  (w_st (u_main s) = WIdle -> phy_state t = PTx -> bufl (u_buf s) = []) /\
  ((packets t = pre /\ snd (pfs t) = [] /\ snt ++ bus ++ bufl (u_buf s) = []) \/
   (exists p, packets t = pre ++ [p] /\ p = snt ++ bus ++ bufl (u_buf s) /\ p <> [] /\
     (snd (pfs t) = [] -> last_txv t = false) /\ (snd (pfs t) <> [] -> u_delay s = 0 /\ bufl (u_buf s) <> []))).

Lemma stp_next s i : w_stp (main_next s i) = true -> (w_st (u_main s) = WReg \/ (w_st (u_main s) = WData /\ tx_have (u_buf s) = false)).
Proof.
  unfold main_next. destruct (u_main s) as [st dt stp dq mw ow]. cbn [w_st w_data w_stp w_dataq w_mwr w_owr].
  destruct (xorb (u_dir s) (ui_dir i) && ui_dir i && ui_nxt i); [destruct st; discriminate|].
  destruct (xorb (u_dir s) (ui_dir i) && negb (ui_dir i)); [destruct st; discriminate|].
  destruct (negb (xorb (u_dir s) (ui_dir i)) && negb (ui_dir i)); [|discriminate].
  destruct st; [destruct (m_upd (u_mode s)), (g_upd (u_otg s)), (tx_have (u_buf s)); discriminate|destruct (ui_nxt i); discriminate| |destruct (ui_nxt i); [now left|discriminate]].
  destruct (ui_nxt i), (tx_have (u_buf s)) eqn:E; try discriminate. now right.
Qed.

Lemma on_bus_snoc l b : l <> [] -> on_bus (l ++ [b]) = on_bus l ++ [b].
Proof. destruct l; [now intros []|reflexivity]. Qed.
Lemma on_bus_nil l : on_bus l = [] -> l = [].
Proof. now destruct l. Qed.

Lemma sent_cases p p' e out : sent_by p p' e out ->
  (p <> PTx /\ p' <> PTx /\ [] = e /\ [] = out) \/ (PTx = p /\ PTx = p' /\ [] = e /\ [] = out) \/
  (exists b, PIdle = p /\ PTx = p' /\ [PPid (b mod 16)] = e /\ [b] = out) \/ (exists b, PTx = p /\ PTx = p' /\ [PByte b] = e /\ [b] = out) \/
  (PTx = p /\ PIdle = p' /\ [PStop] = e /\ [] = out) \/ (exists a d, PReg a = p /\ PIdle = p' /\ [PWrite a d] = e /\ [] = out).
Proof. intros [q q' A B| | | | |]; [left; auto|right; left; auto|do 2 right; left; eexists; repeat split|do 3 right; left; eexists; repeat split|do 4 right; left; auto|do 5 right; do 2 eexists; repeat split]. Qed.
(** One cycle, as far as the PHY's packets go. *)
Lemma pk_events t s i bus snt pre : phy_ok (t ++ [cout uw s i]) -> tx_inv t s bus ->
  (phy_state t = PTx -> snt <> []) -> (phy_state t <> PTx -> snt = []) -> bus_packets t = (map on_bus pre, on_bus snt) ->
  (w_st (u_main s) = WIdle -> phy_state t = PTx -> bufl (u_buf s) = []) ->
  let t' := t ++ [cout uw s i] in let s' := cnext uw s i in let pushed := if ui_txv i && tx_ready_o (u_buf s) (u_delay s) then [ui_txd i] else [] in
  exists bus' snt' pre', tx_inv t' s' bus' /\ (phy_state t' = PTx -> snt' <> []) /\ (phy_state t' <> PTx -> snt' = []) /\
    bus_packets t' = (map on_bus pre', on_bus snt') /\
    (w_st (u_main s') = WIdle -> phy_state t' = PTx -> bufl (u_buf s) = [] /\ bufl (u_buf s') = pushed /\ bus <> []) /\
    bufl (u_buf s') = (if tx_have (u_buf s) && tx_accept s i then tl (bufl (u_buf s)) else bufl (u_buf s)) ++ pushed /\
    ((pre' = pre /\ snt' ++ bus' ++ bufl (u_buf s') = (snt ++ bus ++ bufl (u_buf s)) ++ pushed) \/
     (pre' = pre ++ [snt] /\ bus = [] /\ bufl (u_buf s) = [] /\ snt <> [] /\ snt' ++ bus' ++ bufl (u_buf s') = pushed)).
Proof.
  intros HK I N1 N2 EB HW t' s' pushed. destruct (tx_step t s i bus HK I) as (bus' & out & I' & SB & LG & EQ & ST & BL).
  cbv zeta in *. fold t' s' pushed in I', SB, LG, EQ, ST, BL. set (e := snd (pstep t (cout uw s i))) in *.
  assert (EB' : bus_packets t' = bus_from (map on_bus pre) (on_bus snt) e) by (unfold bus_packets in *; rewrite LG, bus_from_app, EB; reflexivity).
  assert (SL : length (bus' ++ bufl (u_buf s')) = length (bus' ++ bufl (u_buf s'))) by reflexivity. clear SL.
  (* the stop *)
  assert (WI : w_st (u_main s') = WIdle -> phy_state t' = PTx -> bufl (u_buf s) = [] /\ bufl (u_buf s') = pushed /\ bus <> []).
  { intros W P. destruct I' as (_ & _ & II). unfold bus_inv in II. rewrite W in II. destruct II as (_ & _ & [II|[_ II]]); [congruence|].
    destruct I as (_ & IB & IM). destruct (buf_views _ IB) as [HV _].
    destruct (stp_next s i II) as [R|[R H]].
    - exfalso. unfold bus_inv in IM. rewrite R in IM. destruct IM as (_ & -> & IM & _ & IQ).
      assert (A : tx_accept s i = false) by (unfold tx_accept; now rewrite R). rewrite A, andb_false_r in BL.
      assert (out ++ bus' = []) as Z.
      { apply (app_inv_tail (bufl (u_buf s'))). rewrite <- app_assoc, <- EQ, BL. reflexivity. }
      apply app_eq_nil in Z. destruct Z as [-> _]. rewrite P in SB.
      assert (NP : phy_state t <> PTx). { intros C. rewrite C in *. destruct (u_dir s); [now specialize (IQ eq_refl)|]. destruct IM as [(_ & _ & IM)|(_ & _ & IM)]; now specialize (IM eq_refl). }
      inversion SB; congruence.
    - rewrite HV in H. destruct (bufl (u_buf s)) eqn:EL; [|discriminate H]. split; [reflexivity|].
      split; [rewrite BL; rewrite HV; reflexivity|]. unfold bus_inv in IM. rewrite R in IM. destruct IM as (_ & b & -> & _). discriminate. }
  destruct (sent_cases _ _ _ _ SB) as [(A & B & C & D)|[(A & B & C & D)|[(b & A & B & C & D)|[(b & A & B & C & D)|[(A & B & C & D)|(a & d & A & B & C & D)]]]]]; rewrite <- C in EB'.
  - exists bus', snt, pre. split; [exact I'|]. split; [congruence|]. split; [intros _; apply N2; congruence|]. split; [exact EB'|]. split; [exact WI|]. split; [exact BL|].
    left. split; [reflexivity|]. rewrite <- D in EQ. cbn [app] in EQ. now rewrite <- EQ, <- !app_assoc.
  - exists bus', snt, pre. split; [exact I'|]. split; [intros _; apply N1; congruence|]. split; [congruence|]. split; [exact EB'|]. split; [exact WI|]. split; [exact BL|].
    left. split; [reflexivity|]. rewrite <- D in EQ. cbn [app] in EQ. now rewrite <- EQ, <- !app_assoc.
  - rewrite (N2 ltac:(congruence)) in *. exists bus', [b], pre. split; [exact I'|]. split; [discriminate|]. split; [congruence|]. split; [exact EB'|]. split; [exact WI|]. split; [exact BL|].
    left. split; [reflexivity|]. rewrite <- D in EQ. cbn [app] in EQ |- *. symmetry. exact EQ.
  - assert (NS : snt <> []) by (apply N1; congruence). cbn [bus_from] in EB'. rewrite <- on_bus_snoc in EB' by exact NS.
    exists bus', (snt ++ [b]), pre. split; [exact I'|]. split; [destruct snt; discriminate|]. split; [congruence|]. split; [exact EB'|]. split; [exact WI|]. split; [exact BL|].
    left. split; [reflexivity|]. rewrite <- D in EQ. rewrite <- !app_assoc. f_equal. rewrite <- !app_assoc in EQ. symmetry. exact EQ.
  - assert (NS : snt <> []) by (apply N1; congruence). destruct (ST (eq_sym C)) as [-> R].
    cbn [bus_from] in EB'. specialize (HW R (eq_sym A)).
    exists bus', [], (pre ++ [snt]). split; [exact I'|]. split; [congruence|]. split; [reflexivity|]. split; [rewrite map_app; exact EB'|]. split; [exact WI|]. split; [exact BL|].
    right. split; [reflexivity|]. split; [reflexivity|]. split; [exact HW|]. split; [exact NS|]. rewrite <- D in EQ. cbn [app] in EQ |- *. rewrite <- EQ, HW. reflexivity.
  - exists bus', snt, pre. split; [exact I'|]. split; [congruence|]. split; [intros _; apply N2; congruence|]. split; [exact EB'|]. split; [exact WI|]. split; [exact BL|].
    left. split; [reflexivity|]. rewrite <- D in EQ. cbn [app] in EQ. now rewrite <- EQ, <- !app_assoc.
Qed.

Lemma calm_last t o : calm (t ++ [o]) -> uo_txv o = true -> uo_rxa o = false.
Proof. intros H. apply Forall_app in H. destruct H as [_ H]. now apply Forall_inv in H. Qed.
Lemma close_nonempty ps cur : cur <> [] -> close ps cur = ps ++ [cur].
Proof. now destruct cur. Qed.
Lemma app_ne {A} (l m : list A) : l <> [] -> l ++ m <> [].
Proof. destruct l; [now intros []|discriminate]. Qed.

Lemma pk_run ins : let t := trace uw ins in phy_ok t -> spaced t -> calm t -> pk_inv t (state uw ins).
Proof.
  intros t H1 H2 H3. apply (run_inv_hyp uw (fun t => phy_ok t /\ spaced t /\ calm t) pk_inv); [| | |now repeat split].
  { intros a b (A & B & C). split; [exact (phy_ok_app _ _ A)|]. split; [exact (spaced_app _ _ B)|]. apply Forall_app in C. apply C. }
  { exists [], [], []. split; [exact tx_reset|]. repeat split; try discriminate. left. repeat split. }
  clear. intros t s i (HK & HS & HC) (bus & snt & pre & I & N1 & N2 & EB & HW & CASE).
  set (o := cout uw s i) in *. destruct (pk_events t s i bus snt pre HK I N1 N2 EB HW) as (bus' & snt' & pre' & I' & N1' & N2' & EB' & WI & BL & EV).
  cbv zeta in *. fold o in I', N1', N2', EB', WI, EV, BL.
  exists bus', snt', pre'. split; [exact I'|]. split; [exact N1'|]. split; [exact N2'|]. split; [exact EB'|].
  set (s' := cnext uw s i) in *. set (pushed := if ui_txv i && tx_ready_o (u_buf s) (u_delay s) then [ui_txd i] else []) in *.
  rewrite packets_pfs in *. rewrite last_txv_snoc, pfs_snoc. change (uo_txv o) with (ui_txv i). change (uo_txr o) with (tx_ready_o (u_buf s) (u_delay s)). change (ui_txd (uo_in o)) with (ui_txd i).
  destruct (pfs t) as [ps cur] eqn:EPF. cbn [fst snd] in *.
  destruct I as (ID & IB & IM). pose proof (buf_ready (u_buf s) (u_delay s) IB) as RD.
  assert (RX : ui_txv i = true -> r_a (u_rx s) = false) by exact (calm_last t o HC).
  assert (D' : ui_txv i = true -> u_delay s = 0 -> u_delay s' = 0).
  { intros A B. unfold s'. cbn [cnext uw u_delay]. unfold delay_next. now rewrite (RX A), B. }
  destruct CASE as [(PE & -> & NIL)|(p & PE & EP & NP & LV & J)].
  - (* drained *)
    apply app_eq_nil in NIL. destruct NIL as [-> NIL]. apply app_eq_nil in NIL. destruct NIL as [-> NB]. rewrite NB in *.
    assert (NPT : phy_state t <> PTx) by (intros C; now specialize (N1 C)).
    destruct EV as [[-> EV]|(_ & _ & _ & [] & _)]; [|reflexivity]. cbn [app] in EV.
    assert (BP : bufl (u_buf s') = pushed) by (rewrite BL; now destruct (tx_have (u_buf s) && tx_accept s i)).
    assert (Z : snt' ++ bus' = []). { apply (app_inv_tail (bufl (u_buf s'))). rewrite <- app_assoc, EV, BP. reflexivity. }
    apply app_eq_nil in Z. destruct Z as [-> ->].
    split; [intros W P; now specialize (N1' P)|].
    destruct (ui_txv i) eqn:TV; cbn [fst snd app andb] in *.
    + destruct (tx_ready_o (u_buf s) (u_delay s)) eqn:TR; cbn [app] in *.
      * right. exists [ui_txd i]. unfold pushed in *. split; [now rewrite <- PE|]. split; [now rewrite EV|]. split; [discriminate|]. split; [discriminate|].
        intros _. split; [|rewrite BP; discriminate]. apply D'; [reflexivity|]. symmetry in RD. apply andb_true_iff in RD. destruct RD as [_ RD]. now apply Z.eqb_eq in RD.
      * left. unfold pushed in *. repeat split; auto.
    + left. unfold pushed in *. repeat split; auto.
  - (* in flight *)
    assert (CU : cur <> [] -> close ps cur = ps ++ [cur]) by (now destruct cur).
    destruct (list_eq_dec Z.eq_dec cur []) as [->|NC].
    + (* the packet is complete *)
      specialize (LV eq_refl).
      assert (TV : ui_txv i = false).
      { destruct (ui_txv i) eqn:TV; [|reflexivity]. exfalso. pose proof (spaced_last t o HS) as SP.
        assert (NT : t <> []) by (intros ->; injection EPF as <-; destruct pre; discriminate PE).
        specialize (SP NT LV TV). rewrite EB in SP. injection SP as SP _. apply (f_equal (@length _)) in SP. rewrite !map_length in SP.
        rewrite packets_pfs, EPF in SP. cbn [fst snd] in SP. rewrite PE, app_length in SP. cbn in SP. lia. }
      assert (PU : pushed = []) by (unfold pushed; now rewrite TV). rewrite PU in *. rewrite TV in *. cbn [fst snd close] in *.
      split; [intros W P; now apply WI|].
      destruct EV as [[-> EV]|(-> & -> & NB & NS & EV)].
      * right. exists p. split; [exact PE|]. split; [rewrite EV, EP, app_nil_r; reflexivity|]. split; [exact NP|]. split; [reflexivity|]. now intros [].
      * left. rewrite NB, !app_nil_r in EP. split; [rewrite PE; now rewrite EP|]. split; [reflexivity|exact EV].
    + (* the core is still handing it over *)
      destruct (J NC) as [DZ BN]. rewrite (CU NC) in PE. apply app_inj_tail in PE. destruct PE as [-> <-].
      destruct EV as [[-> EV]|(-> & -> & NB & NS & EV)]; [|contradiction].
      split; [intros W P; destruct (WI W P) as [C _]; contradiction|]. right.
      rewrite <- EP in EV.
      assert (PK : close pre (if ui_txv i then cur ++ (if tx_ready_o (u_buf s) (u_delay s) then [ui_txd i] else []) else cur) = pre ++ [cur ++ pushed]).
      { unfold pushed. destruct (ui_txv i); cbn [andb]; [apply close_nonempty; now apply app_ne|rewrite app_nil_r; now apply close_nonempty]. }
      exists (cur ++ pushed). destruct (ui_txv i) eqn:TV; cbn [fst snd andb] in *.
      * split; [exact PK|]. split; [now rewrite EV|]. split; [now apply app_ne|]. split; [intros C; exfalso; revert C; now apply app_ne|].
        intros _. split; [now apply D'|]. rewrite BL. unfold pushed. rewrite RD, DZ, Z.eqb_refl, andb_true_r.
        destruct (tx_have (u_buf s) && tx_accept s i); destruct (bufl (u_buf s)) as [|b [|b' l]]; cbn; try discriminate; now destruct BN.
      * split; [unfold close at 1; rewrite (CU NC); unfold pushed; now rewrite app_nil_r|]. split; [now rewrite EV|]. split; [now apply app_ne|]. split; [reflexivity|]. now intros [].
Qed.
