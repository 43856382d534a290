(** SSD1306 display driver: properties C39-C41, C89, C90. *)
From Verif Require Import Stream Mem_model I2cstream_proofs Lcd_model Mem_spec Lcd_spec Lcd_proofs Lcd_boot.

(** ** C39, C40: the wrapper frames every packet.
    Provided the sink obeys the stream rule: what has been accepted is a series of
    whole packets and the beginning of one; what has been sent is, for each whole
    packet in order, its I2C packet or one refused address byte, and then the
    same for the packet in progress (whose address and control byte may have been
    sent before its first byte is accepted). *)
Theorem C39_framing : forall ins, let t := trace lcd_wrapper ins in
  stable_sink (map lo_io t) ->
  exists ps rest more,
    lw_taken t = concat (map fst ps) ++ rest /\
    lw_sent t = concat (map snd ps) ++ more /\
    Forall (fun x => whole (fst x) /\ carries (fst x) (snd x)) ps /\
    no_last rest /\
    (rest <> [] -> carries rest more) /\
    (rest = [] -> exists n b, map fst more = firstn n (lcd_frame [b]) /\ (n <= 2)%nat).
Proof.
  intros ins t H. destruct (lw_inv ins H) as (ps & rest & more & E1 & E2 & Hps & Hnl & Hs).
  exists ps, rest, more. do 4 (split; [assumption|]). split.
  - intros Hr. destruct (state lcd_wrapper ins).
    + destruct Hs; congruence.
    + destruct Hs; congruence.
    + destruct Hs as [[? _]|(_ & l & -> & Hm)]; [congruence|exact Hm].
    + rewrite Hs. now split.
  - intros ->. destruct (state lcd_wrapper ins).
    + destruct Hs as [_ ->]. exists 0%nat, addr_beat. split; [reflexivity|lia].
    + destruct Hs as (_ & -> & _). exists 1%nat, addr_beat. split; [reflexivity|lia].
    + destruct Hs as [(_ & k & e & -> & _)|[? _]]; [|congruence]. exists 2%nat, (cbeat k). split; [reflexivity|lia].
    + rewrite Hs. exists 1%nat, addr_beat. split; [reflexivity|lia].
Qed.

(** C39: without I2C errors every packet is sent as 0x78, the control byte, and
    its bytes. *)
Theorem C39_no_error : forall ins, let t := trace lcd_wrapper ins in
  stable_sink (map lo_io t) -> (forall o, In o t -> lo_err o = false) ->
  exists ps rest more,
    lw_taken t = concat ps ++ rest /\
    emitted (map lo_io t) = concat (map lcd_frame ps) ++ more /\
    Forall whole ps /\ no_last rest /\
    (rest <> [] -> more = lcd_frame rest) /\
    (rest = [] -> exists n b, more = firstn n (lcd_frame [b]) /\ (n <= 2)%nat).
Proof.
  intros ins t H He. destruct (C39_framing ins H) as (ps & rest & more & E1 & E2 & Hps & Hnl & H1 & H2). fold t in E1, E2.
  assert (Fe : emitted (map lo_io t) = map fst (lw_sent t)).
  { clear. induction t as [|o t IH]; [reflexivity|]. cbn [map lw_sent flat_map]. unfold emitted. cbn [flat_map].
    fold (emitted (map lo_io t)) (lw_sent t). rewrite IH, map_app. f_equal. rewrite map_map. cbn [fst]. symmetry. apply map_id. }
  assert (F : Forall (fun x => snd x = false) (lw_sent t)).
  { apply Forall_forall. intros x Hx. apply in_flat_map in Hx. destruct Hx as (o & Ho & Hx). apply in_map_iff in Hx.
    destruct Hx as (b & <- & _). cbn. auto. }
  assert (C : forall p l, carries p l -> Forall (fun x => snd x = false) l -> map fst l = lcd_frame p).
  { intros p [|[a [|]] l]; cbn [carries]; [easy| |auto]. intros _ X. apply Forall_cons_iff in X. destruct X as [X _]. discriminate. }
  rewrite E2 in F. apply Forall_app in F. destruct F as [F1 F2].
  exists (map fst ps), rest, (map fst more). split; [exact E1|]. split.
  - rewrite Fe, E2, map_app. f_equal. clear - Hps F1 C. induction ps as [|[p l] ps IH]; [reflexivity|].
    cbn [map concat fst snd] in *. apply Forall_cons_iff in Hps. destruct Hps as [[_ X] Hps]. apply Forall_app in F1. destruct F1.
    rewrite map_app, IH by assumption. f_equal. now apply C.
  - split; [|split; [assumption|split]].
    + clear - Hps. apply Forall_map. revert Hps. apply Forall_impl. tauto.
    + intros Hr. auto.
    + assumption.
Qed.

(** C39: the source obeys the stream rule when the sink does. *)
Theorem C39_stable : forall ins, let t := map lo_io (trace lcd_wrapper ins) in
  stable_sink t -> stable_src t.
Proof.
  intros ins t H t1 o o' t2 E Hv Hr. pose proof (H _ _ _ _ E) as Hk.
  assert (E' : exists s1 s2 x y, trace lcd_wrapper ins = s1 ++ x :: y :: s2 /\ lo_io x = o /\ lo_io y = o').
  { unfold t in E. apply map_eq_app in E. destruct E as (s1 & l & E & _ & E2). apply map_eq_cons in E2.
    destruct E2 as (x & l' & -> & Hx & E2). apply map_eq_cons in E2. destruct E2 as (y & s2 & -> & Hy & _). exists s1, s2, x, y. auto. }
  destruct E' as (s1 & s2 & x & y & E' & <- & <-). apply trace_two in E'.
  destruct E' as (a & [[c r] e] & [[c' r'] e'] & b & -> & _ & -> & ->). set (s := state lcd_wrapper a) in *.
  cbn [lcd_wrapper cout cnext lo_io o_sink o_sready o_src o_rready] in *. subst r. clearbody s.
  destruct s; cbn [lw_src lw_rdy lw_next cvalid] in *; rewrite ?andb_false_r in *; cbn [andb lw_src].
  1-3: now rewrite Hk.
  discriminate.
Qed.


(** ** C40: a refused address.
    A packet boundary: nothing has been sent since the last packet was taken
    completely (or since reset). *)
Definition sends (x : lw_obs) : bool := cvalid (o_src (lo_io x)) && o_rready (lo_io x).
Definition takes_last (x : lw_obs) : bool :=
  cvalid (o_sink (lo_io x)) && o_sready (lo_io x) && blast (cbeat (o_sink (lo_io x))).
Definition boundary (t : list lw_obs) : Prop :=
  exists u v, t = u ++ v /\ Forall (fun x => sends x = false) v /\
    (u = [] \/ exists w x, u = w ++ [x] /\ takes_last x = true).


Lemma boundary_addr ins : boundary (trace lcd_wrapper ins) -> state lcd_wrapper ins = LwAddr.
Proof.
  apply (run_inv lcd_wrapper (fun t s => boundary t -> s = LwAddr)); [reflexivity|].
  intros t s [[c r] e] IH (u & v & E & Hv & Hu). set (o := cout lcd_wrapper s (c, r, e)) in *.
  assert (Hc : v = [] \/ exists v' x, v = v' ++ [x]) by (destruct v as [|? ? _] using rev_ind; eauto).
  destruct Hc as [->|(v' & x & ->)].
  - rewrite app_nil_r in E. subst u. destruct Hu as [Hu|(w & x & Hu & Hx)]; [destruct t; discriminate|].
    apply app_inj_tail in Hu. destruct Hu as [_ <-]. unfold takes_last, o in Hx. cbn in Hx.
    destruct s; cbn in *; rewrite ?andb_false_r, ?andb_true_r in Hx; try discriminate; now rewrite Hx.
  - rewrite app_assoc in E. apply app_inj_tail in E. destruct E as [-> <-].
    apply Forall_app in Hv. destruct Hv as [Hv Hx]. apply Forall_cons_iff in Hx. destruct Hx as [Hx _].
    assert (s = LwAddr) as -> by (apply IH; exists u, v'; auto). unfold sends, o in Hx. cbn in *. now rewrite Hx.
Qed.

Theorem C40_address : forall ins t1 o t2,
  trace lcd_wrapper ins = t1 ++ o :: t2 -> boundary t1 ->
  (cvalid (o_src (lo_io o)) = cvalid (o_sink (lo_io o))) /\ cbeat (o_src (lo_io o)) = addr_beat.
Proof.
  intros ins t1 o t2 E Hb. apply trace_one in E. destruct E as (a & [[c r] e] & b & -> & Ea & ->).
  rewrite <- Ea in Hb. rewrite (boundary_addr a Hb). split; reflexivity.
Qed.

(** C40: once an address byte has been refused, nothing is sent and every byte is
    taken (and dropped), up to and including the last byte of the packet; then
    C40_address applies to the next packet. *)
Theorem C40_dropped : forall ins t1 o t2 x t3,
  trace lcd_wrapper ins = t1 ++ o :: t2 ++ x :: t3 -> boundary t1 ->
  sends o = true -> lo_err o = true -> Forall (fun y => takes_last y = false) t2 ->
  cvalid (o_src (lo_io x)) = false /\ o_sready (lo_io x) = true.
Proof.
  intros ins t1 o t2 x t3 E Hb Ho He H2. pose proof E as E'.
  apply trace_one in E. destruct E as (a & [[c r] e] & b & -> & Ea & ->).
  rewrite trace_app, Ea in E'. apply app_inv_head in E'. cbn [trace_from] in E'. apply cons_inv in E'. destruct E' as [_ E].
  rewrite <- Ea in Hb. rewrite (boundary_addr a Hb) in *. unfold sends in Ho. cbn in Ho, He. subst e.
  assert (S : lw_next LwAddr c r true = LwError) by (cbn; now rewrite Ho).
  cbn [lcd_wrapper cnext] in E. rewrite S in E. clear - E H2. revert b E. induction H2 as [|y t2 Hy _ IH]; intros [|[[c r] e] b] E.
  1, 3: discriminate.
  - cbn [app trace_from] in E. apply cons_inv in E. destruct E as [<- _]. split; reflexivity.
  - cbn [app trace_from] in E. apply cons_inv in E. destruct E as [<- E]. apply (IH b). rewrite <- E. f_equal.
    unfold takes_last in Hy. cbn in Hy. rewrite andb_true_r in Hy. cbn. now rewrite Hy.
Qed.

(** ** C89: after a refused byte the next byte sent is an address again. *)
Definition refused_then_address (t : list lw_obs) : Prop :=
  forall t1 o t2 o' t3, t = t1 ++ o :: t2 ++ o' :: t3 -> sends o = true -> lo_err o = true ->
    Forall (fun x => sends x = false) t2 -> sends o' = true -> cbeat (o_src (lo_io o')) = addr_beat.

(** False: a refused control byte is followed by the data byte, which the I2C
    layer, having closed the transaction, sends as an address. *)
Theorem C89_refuted : exists ins, stable_sink (map lo_io (trace lcd_wrapper ins)) /\
  ~ refused_then_address (trace lcd_wrapper ins).
Proof.
  set (k := Chan true (Beat true true (true, 0xA5))).
  exists [(k, true, false); (k, true, true); (k, true, false)]. split.
  - intros t1 o o' t2 E _ _.
    assert (A : Forall (fun x => o_sink x = k) (map lo_io (trace lcd_wrapper [(k, true, false); (k, true, true); (k, true, false)])))
      by repeat constructor.
    rewrite E in A. apply Forall_app in A. destruct A as [_ A]. inversion A as [|? ? A1 A2]; subst. inversion A2; subst. congruence.
  - intros H. specialize (H (firstn 1 (trace lcd_wrapper [(k, true, false); (k, true, true); (k, true, false)]))
      _ [] _ [] eq_refl eq_refl eq_refl (Forall_nil _) eq_refl). discriminate.
Qed.

(** What does hold: a refused address byte, and a packet's last byte accepted or not. *)
Theorem C89_address_partial : forall ins t1 o t2 o' t3,
  trace lcd_wrapper ins = t1 ++ o :: t2 ++ o' :: t3 ->
  (boundary t1 /\ lo_err o = true) \/ blast (cbeat (o_src (lo_io o))) = true ->
  sends o = true -> Forall (fun x => sends x = false) t2 -> sends o' = true ->
  cbeat (o_src (lo_io o')) = addr_beat.
Proof.
  intros ins t1 o t2 o' t3 E Hc Ho H2 Ho'. pose proof E as E'. apply trace_one in E'.
  destruct E' as (a & [[c r] e] & b & -> & Ea & ->).
  rewrite trace_app, Ea in E. apply app_inv_head in E. cbn [trace_from] in E. apply cons_inv in E. destruct E as [_ E].
  set (s := state lcd_wrapper a) in *.
  assert (S : cnext lcd_wrapper s (c, r, e) = LwAddr \/ cnext lcd_wrapper s (c, r, e) = LwError).
  { unfold sends in Ho. cbn in Ho. destruct Hc as [[Hb He]|Hl].
    - rewrite <- Ea in Hb. unfold s in *. rewrite (boundary_addr a Hb) in *. cbn in *. rewrite Ho, He. auto.
    - cbn in Hl. destruct s; cbn in *; try discriminate. left. now rewrite Ho, Hl. }
  set (s' := cnext lcd_wrapper s (c, r, e)) in *. clearbody s'. clear - E H2 Ho' S.
  revert b s' E S. induction H2 as [|x t2 Hx _ IH]; intros [|[[c r] e] b] s' E S; try discriminate;
    cbn [app trace_from] in E; apply cons_inv in E; destruct E as [<- E].
  - destruct S as [-> | ->]; [reflexivity|discriminate].
  - apply (IH b _ E). unfold sends in Hx. cbn in Hx. destruct S as [-> | ->]; cbn in *.
    + rewrite Hx. auto.
    + destruct (cvalid c && _); auto.
Qed.

(** ** C41: start-up and frames.
    With the display started once, what the driver feeds the wrapper is first
    exactly the start-up sequence, with no user byte accepted; then the user's
    frames, each preceded by the addressing commands (those of the frame to come
    may have been sent in part). *)
Theorem C41_sequence : forall g por ins, In g lcds ->
  let t := trace (ssd1306 g por) ins in started_once por t ->
  (ld_user t = [] /\ exists n, ld_fed t = firstn n (boot g)) \/
  (exists n, ld_fed t = boot g ++ show g 0 (ld_user t) ++
                        firstn n (if show_pos g 0 (ld_user t) =? 0 then cmds (display_cmds g) else [])).
Proof.
  intros g por ins Hg t Hst. destruct (ld_run g por Hg ins Hst) as (Hc & _ & Hs).
  destruct (readers g por ins) as ((I1 & _) & (D1 & _)). fold t in I1, D1, Hs.
  assert (P : forall (p q : list (beat (bool * Z))), p = firstn (length p) (p ++ q)).
  { intros. rewrite firstn_app, Nat.sub_diag, firstn_O, app_nil_r, firstn_all. reflexivity. }
  assert (L : forall n l, cmds (firstn n l) = firstn n (cmds l)) by (intros; unfold cmds; symmetry; apply firstn_map).
  set (s := state (ssd1306 g por) ins) in *.
  destruct (lf g s).
  - left. destruct Hs as (W & U & _). split; [exact U|]. exists 0%nat. exact W.
  - left. destruct Hs as (W & U & _). split; [exact U|]. exists 0%nat. exact W.
  - left. destruct Hs as (U & _ & _ & W & _). split; [exact U|]. exists (length (cmds (dI t))).
    rewrite W. assert (B : boot g = cmds (dI t) ++ cmds (skipn (length (dI t)) (init_cmds g)) ++ cmds (display_cmds g) ++ blank (Z.to_nat (l_size g))).
    { unfold boot. rewrite (app_assoc (cmds (dI t))). f_equal. unfold cmds. rewrite <- map_app. f_equal. rewrite I1 at 1. symmetry. apply firstn_skipn. }
    rewrite B. apply P.
  - destruct Hs as [C0 Hs]. destruct (lrdy g s).
    + right. destruct Hs as [Hp W]. rewrite Hp, W. exists (length (dD t)). cbn [Z.eqb]. rewrite <- L, <- D1. reflexivity.
    + left. destruct Hs as [U W]. split; [exact U|]. exists (length (cmds (init_cmds g) ++ cmds (dD t))). rewrite W.
      assert (B : boot g = (cmds (init_cmds g) ++ cmds (dD t)) ++ cmds (skipn (length (dD t)) (display_cmds g)) ++ blank (Z.to_nat (l_size g))).
      { unfold boot. rewrite <- !app_assoc. f_equal. rewrite (app_assoc (cmds (dD t))). f_equal. unfold cmds. rewrite <- map_app. f_equal.
        rewrite D1 at 1. symmetry. apply firstn_skipn. }
      rewrite B. apply P.
  - destruct (lrdy g s).
    + right. destruct Hs as [Hp W]. rewrite Hp, W. exists 6%nat. destruct (_ =? 0); reflexivity.
    + left. destruct Hs as [U W]. split; [exact U|].
      exists (length (cmds (init_cmds g) ++ cmds (display_cmds g) ++ repeat (Beat false false (true, 0)) (Z.to_nat (lcnt g s)))).
      rewrite W. assert (B : exists q, blank (Z.to_nat (l_size g)) = repeat (Beat false false (true, 0)) (Z.to_nat (lcnt g s)) ++ q).
      { exists (repeat (Beat false false (true, 0)) (Z.to_nat (l_size g) - 1 - Z.to_nat (lcnt g s)) ++ [Beat false true (true, 0)]).
        unfold blank. rewrite app_assoc, <- repeat_app. do 2 f_equal. lia. }
      destruct B as [q B]. unfold boot. rewrite B, !(app_assoc _ _ q), !app_assoc. apply P.
Qed.

(** ready is high exactly once the start-up sequence has been accepted, and no
    user byte is accepted before. *)
Theorem C41_ready : forall g por ins t1 o t2, In g lcds ->
  trace (ssd1306 g por) ins = t1 ++ o :: t2 -> started_once por t1 ->
  (ld_ready o = true <-> exists l, ld_fed t1 = boot g ++ l) /\
  (ld_sready o = true -> ld_ready o = true).
Proof.
  intros g por ins t1 o t2 Hg E Hst. apply trace_one in E. destruct E as (a & i & b & -> & <- & ->).
  destruct (ld_run g por Hg a Hst) as (Hc & _ & Hs). destruct (readers g por a) as ((I1 & _) & (D1 & _)).
  set (s := state (ssd1306 g por) a) in *. set (t := trace (ssd1306 g por) a) in *.
  change (ld_ready (cout (ssd1306 g por) s i)) with (lrdy g s).
  change (ld_sready (cout (ssd1306 g por) s i)) with (ld_srdy g s i).
  split; [|unfold ld_srdy; destruct (lf g s); try discriminate; now destruct (lrdy g s)].
  assert (Hsz := lcd_size g Hg).
  assert (LB : length (boot g) = (31 + Z.to_nat (l_size g))%nat).
  { unfold boot, blank, cmds. rewrite !app_length, !map_length, repeat_length. cbn [length init_cmds display_cmds]. lia. }
  assert (Short : (length (ld_fed t) < length (boot g))%nat -> ~ exists l, ld_fed t = boot g ++ l).
  { intros X [l El]. rewrite El, app_length in X. lia. }
  assert (L2 : (length (dD t) <= 6)%nat) by (rewrite D1, firstn_length; cbn [display_cmds length]; lia).
  assert (L1 : (length (dI t) <= 25)%nat) by (rewrite I1, firstn_length; cbn [init_cmds length]; lia).
  destruct (lf g s).
  - destruct Hs as (W & _ & -> & _). split; [discriminate|]. intros X. exfalso. revert X. apply Short. rewrite W, LB. cbn [length]. lia.
  - destruct Hs as (W & _ & -> & _). split; [discriminate|]. intros X. exfalso. revert X. apply Short. rewrite W, LB. cbn [length]. lia.
  - destruct Hs as (_ & -> & _ & W & _). split; [discriminate|]. intros X. exfalso. revert X. apply Short.
    rewrite W, LB. unfold cmds. rewrite map_length. lia.
  - destruct Hs as [_ Hs]. destruct (lrdy g s).
    + destruct Hs as [_ W]. split; [|auto]. intros _. rewrite W. eauto.
    + destruct Hs as [_ W]. split; [discriminate|]. intros X. exfalso. revert X. apply Short. rewrite W, LB. unfold cmds.
      rewrite app_length, !map_length. cbn [init_cmds length]. lia.
  - destruct (lrdy g s).
    + destruct Hs as [_ W]. split; [|auto]. intros _. rewrite W. eauto.
    + destruct Hs as [_ W]. split; [discriminate|]. intros X. exfalso. revert X. apply Short. rewrite W, LB. unfold cmds.
      rewrite !app_length, !map_length, repeat_length. cbn [init_cmds display_cmds length]. lia.
Qed.

(** C41 on the I2C side: without I2C errors, and with the user obeying the stream
    rule, these sequences leave as I2C write packets. *)
Theorem C41_i2c : forall g por ins, In g lcds ->
  let t := trace (ssd1306 g por) ins in started_once por t -> ld_stable t ->
  (forall o, In o t -> lo_err (ld_wrap o) = false) ->
  exists ps rest more,
    ld_fed t = concat ps ++ rest /\
    flat_map (fun o => xfer (o_src (lo_io (ld_wrap o))) (o_rready (lo_io (ld_wrap o)))) t = concat (map lcd_frame ps) ++ more /\
    Forall whole ps /\ no_last rest /\
    (rest <> [] -> more = lcd_frame rest) /\
    (rest = [] -> exists n b, more = firstn n (lcd_frame [b]) /\ (n <= 2)%nat).
Proof.
  intros g por ins Hg t Hst Hs He. pose proof (wsink_stable g por Hg ins Hst Hs) as Hk. fold t in Hk.
  destruct (wrap_trace g por ins) as (ins' & E & _). fold t in E.
  destruct (C39_no_error ins') as (ps & rest & more & H1 & H2 & H3).
  - rewrite <- E. exact Hk.
  - intros o. rewrite <- E. intros X. apply in_map_iff in X. destruct X as (x & <- & Hx). auto.
  - rewrite <- E in H1, H2. exists ps, rest, more. split; [exact H1|]. split; [|exact H3].
    rewrite <- H2. unfold emitted. rewrite !flat_map_concat_map, !map_map. reflexivity.
Qed.


(** ** C90: a reset cycle of a started display makes it start again: ready is low
    in the next cycle. *)
Definition reset_restarts (t : list ld_obs) : Prop :=
  forall t1 o o' t2, t = t1 ++ o :: o' :: t2 -> ld_ready o = true -> ld_reset o = true -> ld_ready o' = false.

Lemma adjacent {A} (f : A -> A -> bool) (t : list A) :
  existsb (fun p => f (fst p) (snd p)) (combine t (tl t)) = true ->
  exists t1 o o' t2, t = t1 ++ o :: o' :: t2 /\ f o o' = true.
Proof.
  induction t as [|x [|y t] IH]; cbn [tl combine existsb fst snd]; try discriminate.
  intros H. destruct (f x y) eqn:E; [exists [], x, y, t; auto|]. destruct IH as (t1 & o & o' & t2 & -> & F); [exact H|].
  exists (x :: t1), o, o', t2. auto.
Qed.

Definition g0 : lcd := Lcd 96 16 0x60 0x02 0.
Definition busy_in (n : nat) : list ld_in := repeat (LdIn false (Chan true (Beat true false 0x5A)) true false) n.
Definition rst_in : ld_in := LdIn true (Chan true (Beat true false 0x5A)) true false.
Definition rst_run : list ld_in := busy_in 400 ++ [rst_in] ++ busy_in 1.

(** False: in the middle of a frame reset is not looked at. *)
Theorem C90_refuted : exists ins, ~ reset_restarts (trace (ssd1306 g0 true) ins).
Proof.
  exists rst_run. intros H.
  destruct (adjacent (fun o o' => ld_ready o && ld_reset o && ld_ready o') (trace (ssd1306 g0 true) rst_run))
    as (t1 & o & o' & t2 & E & F); [vm_compute; reflexivity|].
  apply andb_prop in F. destruct F as [F F3]. apply andb_prop in F. destruct F as [F1 F2].
  rewrite (H _ _ _ _ E F1 F2) in F3. discriminate.
Qed.

(** What holds: between frames, before the addressing commands are complete. *)
Theorem C90_between_frames_partial : forall g por ins t1 o o' t2, In g lcds ->
  trace (ssd1306 g por) ins = t1 ++ o :: o' :: t2 -> started_once por t1 ->
  show_pos g 0 (ld_user t1) = 0 ->
  (length (ld_fed t1) < length (boot g ++ show g 0 (ld_user t1) ++ cmds (display_cmds g)))%nat ->
  ld_ready o = true -> ld_reset o = true ->
  ld_ready o' = false /\ ro_rewind (ld_init o') = true /\ ro_rewind (ld_disp o') = true.
Proof.
  intros g por ins t1 o o' t2 Hg E Hst Hp Hl Hr Hrs. apply trace_two in E. destruct E as (a & i & i' & b & -> & <- & -> & ->).
  destruct (ld_run g por Hg a Hst) as (Hc & _ & Hs). set (s := state (ssd1306 g por) a) in *. set (t := trace (ssd1306 g por) a) in *.
  assert (Hr' : lrdy g s = true) by exact Hr. assert (Hrs' : li_reset i = true) by exact Hrs.
  assert (Ef : lf g s = LDisplay).
  { destruct (lf g s); rewrite Hr' in Hs; try (exfalso; destruct Hs as (? & ? & ? & ?); congruence); [reflexivity|]. exfalso. destruct Hs as [Hp' W]. rewrite Hp in Hp'.
    rewrite <- Hp' in W. rewrite W in Hl. cbn [Z.eqb] in Hl. lia. }
  clearbody s. clear - Ef Hrs' Hr'.
  assert (Hn : lf g (cnext (ssd1306 g por) s i) = LReset /\ lrdy g (cnext (ssd1306 g por) s i) = false).
  { unfold ssd1306. cbn [cnext]. now rewrite Ef, Hrs'. }
  destruct Hn as [N1 N2]. set (s' := cnext (ssd1306 g por) s i) in *. clearbody s'.
  split; [exact N2|]. cbn [ssd1306 cout ld_init ld_disp mem_reader_buffered ro_rewind]. unfold ld_iin, ld_din. now rewrite N1.
Qed.


(** ** C91: a byte offered to the I2C layer is not withdrawn before it is taken
    (provided the user obeys the stream rule). *)
Definition i2c_stable (t : list ld_obs) : Prop := stable_src (map lo_io (map ld_wrap t)).

Lemma const_sink g por k ins : Forall (fun i => li_sink i = k) ins -> ld_stable (trace (ssd1306 g por) ins).
Proof.
  intros H t1 o o' t2 E _ _. apply trace_two in E. destruct E as (a & i & i' & b & -> & _ & -> & ->).
  apply Forall_app in H. destruct H as [_ H]. apply Forall_cons_iff in H. destruct H as [H1 H]. apply Forall_cons_iff in H.
  destruct H as [H2 _]. cbn [ssd1306 cout ld_sink]. congruence.
Qed.

(** False: reset while a command byte is being offered withdraws it. *)
Definition idle_sink : chan Z := Chan false (Beat false false 0).
Definition withdraw_run : list ld_in :=
  repeat (LdIn false idle_sink true false) 87 ++ [LdIn false idle_sink false false; LdIn true idle_sink false false].
Theorem C91_refuted : exists ins, ld_stable (trace (ssd1306 g0 true) ins) /\ ~ i2c_stable (trace (ssd1306 g0 true) ins).
Proof.
  exists withdraw_run. split.
  - apply (const_sink _ _ idle_sink). unfold withdraw_run. apply Forall_app. split; [|repeat constructor].
    apply Forall_forall. intros x Hx. apply repeat_spec in Hx. now subst.
  - intros H.
    destruct (adjacent (fun o o' : obs (bool * Z) (bool * Z) => cvalid (o_src o) && negb (o_rready o) && negb (cvalid (o_src o')))
                (map lo_io (map ld_wrap (trace (ssd1306 g0 true) withdraw_run))))
      as (t1 & o & o' & t2 & E & F); [vm_compute; reflexivity|].
    apply andb_prop in F. destruct F as [F F3]. apply andb_prop in F. destruct F as [F1 F2].
    apply negb_true_iff in F2, F3. rewrite (H _ _ _ _ E F1 F2) in F3. congruence.
Qed.

(** Without reset after start-up it holds. *)
Theorem C91_no_reset_partial : forall g por ins, In g lcds ->
  let t := trace (ssd1306 g por) ins in started_once por t -> ld_stable t -> i2c_stable t.
Proof.
  intros g por ins Hg t Hst Hs. pose proof (wsink_stable g por Hg ins Hst Hs) as Hk. fold t in Hk.
  destruct (wrap_trace g por ins) as (ins' & E & _). unfold i2c_stable. fold t in E. rewrite E in *. now apply C39_stable.
Qed.

(** ** Non-vacuity *)
Lemma no_reset g ins : Forall (fun i => li_reset i = false) ins -> started_once true (trace (ssd1306 g true) ins).
Proof.
  intros H t1 o t2 o' t3 E _. change (t1 ++ o :: t2 ++ o' :: t3) with (t1 ++ (o :: t2) ++ o' :: t3) in E. rewrite app_assoc in E.
  apply trace_one in E. destruct E as (a & i & b & -> & _ & ->). apply Forall_app in H. destruct H as [_ H].
  apply Forall_cons_iff in H. apply H.
Qed.

(** Two packets, the first refused at its address, the second sent. *)
Definition wrap_run : list (chan (bool * Z) * bool * bool) :=
  let a := Chan true (Beat true false (true, 1)) in let b := Chan true (Beat false true (true, 2)) in
  let d := Chan true (Beat true true (false, 3)) in
  [(a, true, true); (a, true, false); (b, true, false); (d, false, false); (d, true, false); (d, true, false); (d, true, false)].
Lemma stable_pairs {A B} (t : list (obs A B)) :
  Forall (fun p => cvalid (o_sink (fst p)) = true -> o_sready (fst p) = false -> o_sink (snd p) = o_sink (fst p)) (combine t (tl t)) ->
  stable_sink t.
Proof.
  intros H t1 o o' t2 ->. induction t1 as [|x t1 IH]; cbn [app tl combine] in *.
  - apply Forall_cons_iff in H. apply H.
  - apply IH. destruct t1; cbn [app tl combine] in *; apply Forall_cons_iff in H; apply H.
Qed.

Example C39_nonvacuous :
  stable_sink (map lo_io (trace lcd_wrapper wrap_run)) /\
  lw_sent (trace lcd_wrapper wrap_run) = [(addr_beat, true); (addr_beat, false); (ctrl_beat false, false); (Beat false true (false, 3), false)].
Proof. split; [|reflexivity]. apply stable_pairs. cbn. repeat constructor; cbn; congruence. Qed.
(** C40: the first byte of the run is a refused address at a packet boundary. *)
Example C40_nonvacuous : exists o t2 x t3,
  trace lcd_wrapper wrap_run = [] ++ o :: t2 ++ x :: t3 /\ boundary [] /\ sends o = true /\ lo_err o = true /\
  Forall (fun y => takes_last y = false) t2 /\ takes_last x = true.
Proof.
  eexists _, [_], _, _. split; [reflexivity|]. split; [exists [], []; auto|]. repeat split. repeat constructor.
Qed.
(** C41: a run in which a whole user frame follows the start-up. *)
Example C41_nonvacuous : let t := trace (ssd1306 g0 true) (busy_in 700) in
  In g0 lcds /\ started_once true t /\ ld_stable t /\ (forall o, In o t -> lo_err (ld_wrap o) = false) /\
  length (ld_user t) = 361%nat /\ show_pos g0 0 (ld_user t) = 169.
Proof.
  assert (F : Forall (fun i => i = LdIn false (Chan true (Beat true false 0x5A)) true false) (busy_in 700)).
  { apply Forall_forall. intros x Hx. now apply repeat_spec in Hx. }
  cbv zeta. split; [cbn; auto|]. split; [apply no_reset; revert F; apply Forall_impl; now intros ? ->|].
  split; [apply (const_sink _ _ (Chan true (Beat true false 0x5A))); revert F; apply Forall_impl; now intros ? ->|].
  split; [|split; vm_compute; reflexivity].
  intros o Ho. apply in_split in Ho. destruct Ho as (l1 & l2 & E). apply trace_one in E. destruct E as (a & i & b & E & _ & ->).
  rewrite E in F. apply Forall_app in F. destruct F as [_ F]. apply Forall_cons_iff in F. destruct F as [-> _]. reflexivity.
Qed.
(** C90: between two frames. *)
Example C90_nonvacuous : let t := trace (ssd1306 g0 true) (repeat (LdIn false idle_sink true false) 320) in
  started_once true t /\ show_pos g0 0 (ld_user t) = 0 /\ existsb ld_ready t = true /\
  (length (ld_fed t) < length (boot g0 ++ show g0 0 (ld_user t) ++ cmds (display_cmds g0)))%nat.
Proof.
  cbv zeta. split; [apply no_reset; apply Forall_forall; intros x Hx; apply repeat_spec in Hx; now subst|].
  split; [vm_compute; reflexivity|]. split; [vm_compute; reflexivity|]. apply Nat.ltb_lt. vm_compute. reflexivity.
Qed.

(** The refused address byte of [wrap_run] is followed by another address byte; the run of
    [C41_nonvacuous] is one without reset. *)
Example C89_nonvacuous : exists o t2 o' t3,
  trace lcd_wrapper wrap_run = [] ++ o :: t2 ++ o' :: t3 /\ boundary [] /\ lo_err o = true /\ sends o = true /\
  Forall (fun x => sends x = false) t2 /\ sends o' = true.
Proof.
  eexists _, [_; _; _], _, _. split; [reflexivity|]. split; [exists [], []; auto|]. repeat split. repeat constructor.
Qed.
Definition C91_nonvacuous := C41_nonvacuous.

Print Assumptions C39_framing.
Print Assumptions C39_no_error.
Print Assumptions C39_stable.
Print Assumptions C40_address.
Print Assumptions C40_dropped.
Print Assumptions C89_refuted.
Print Assumptions C89_address_partial.
Print Assumptions C41_sequence.
Print Assumptions C41_ready.
Print Assumptions C41_i2c.
Print Assumptions C90_refuted.
Print Assumptions C90_between_frames_partial.
Print Assumptions C91_refuted.
Print Assumptions C91_no_reset_partial.
