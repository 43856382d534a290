(** Properties of I2CRegisterInit (C77, C86). *)
From Verif Require Import Stream Pipe_model Mem_model Mem_spec Mem_proofs Mem_props.
From Verif Require Import I2c_model I2c_spec I2c_proofs I2c_props I2cstream_model I2cstream_spec I2cstream_proofs I2cwriter_props I2cinit_model.
From Coq Require Import Lia.

(** What the user asked for: per register, address byte (write), register, value. *)
Definition init_bytes (addr : Z) (regs : list (Z * Z)) : list Z :=
  flat_map (fun rv => [(2 * addr) mod 256; fst rv mod 256; snd rv mod 256]) regs.

(** The exposed stream, as a stream observation, and the bytes taken from it. *)
Definition user_io (o : ri_obs) : obs Z unit := Obs (ri_user o) (ri_uready o) (Chan false (Beat false false tt)) false.
Definition user_bytes (t : list ri_obs) : list Z := map bdata (accepted (map user_io t)).

Lemma ri_table_bytes addr regs : ri_table addr regs = init_bytes addr regs.
Proof.
  unfold ri_table, init_bytes. apply flat_map_ext. intros [r v]. rewrite Z.shiftl_mul_pow2 by lia.
  unfold trunc. cbn [fst snd]. replace (addr * 2 ^ 1) with (2 * addr) by lia. reflexivity.
Qed.

Lemma since_all {O} (f : O -> bool) t : Forall (fun o => f o = false) t -> since f t = t.
Proof.
  induction t as [|o t IH] using rev_ind; intros H; [reflexivity|].
  apply Forall_app in H. destruct H as [H1 H2]. inversion H2; subst. rewrite since_snoc, H3. f_equal. auto.
Qed.

Lemma bytes_of_snoc t o : bytes_of (t ++ [o]) = bytes_of t ++ map bdata (xfer (wo_sink o) (wo_ready o)).
Proof. unfold bytes_of. rewrite map_app, accepted_app, map_app. cbn [map]. now rewrite accepted_1. Qed.

Lemma user_bytes_snoc t o : user_bytes (t ++ [o]) = user_bytes t ++ map bdata (xfer (ri_user o) (ri_uready o)).
Proof. unfold user_bytes. rewrite map_app, accepted_app, map_app. cbn [map]. now rewrite accepted_1. Qed.

Lemma mr_delivered_snoc t o : mr_delivered (t ++ [o]) = mr_delivered t ++ xfer (ro_src o) (ro_rready o).
Proof. unfold mr_delivered. rewrite flat_map_app. cbn. now rewrite app_nil_r. Qed.

Lemma packet_length ws : length (packet ws) = length ws.
Proof. unfold packet. now rewrite map_length, seq_length. Qed.

Lemma packet_data ws : map bdata (packet ws) = ws.
Proof.
  unfold packet, packet_beat. rewrite map_map. cbn [bdata].
  apply nth_ext with (d := 0) (d' := 0); rewrite map_length, seq_length; [reflexivity|].
  intros n Hn. rewrite nth_indep with (d' := nth 0 ws 0) by (rewrite map_length, seq_length; auto).
  rewrite (map_nth (fun x => nth x ws 0)). now rewrite seq_nth.
Qed.

Lemma packet_last ws k : (k <= length ws)%nat -> existsb blast (firstn k (packet ws)) = (0 <? length ws)%nat && (k =? length ws)%nat.
Proof.
  intros Hk. unfold packet. rewrite firstn_map.
  replace (seq 0 (length ws)) with (seq 0 k ++ seq k (length ws - k)) by (rewrite <- seq_app; f_equal; lia).
  rewrite firstn_app, seq_length, Nat.sub_diag, firstn_all2, app_nil_r by (rewrite seq_length; auto).
  induction k as [|k IH]; [destruct (length ws); reflexivity|].
  rewrite seq_S, map_app, existsb_app, IH by lia. cbn [map existsb packet_beat blast]. rewrite orb_false_r.
  destruct (Nat.eqb_spec k (length ws)); [lia|]. rewrite andb_false_r. destruct (Nat.ltb_spec 0 (length ws)); [reflexivity|lia].
Qed.

Lemma packet_existsb ws d : d = firstn (length d) (packet ws) -> (length d <= length ws)%nat ->
  existsb blast d = (0 <? length ws)%nat && (length d =? length ws)%nat.
Proof. intros H1 H2. rewrite <- packet_last by auto. now f_equal. Qed.

Section Init.
  Context (addr : Z) (regs : list (Z * Z)) (expose : bool) (period : Z) (stretch oe : bool).
  Let c := reg_init addr regs expose period stretch oe.
  Let tab := ri_table addr regs.

  Lemma ri_mem_trace ins :
    let t := map ri_mem (trace c ins) in
    t = trace (mem_reader_buffered tab) (map (fun o => (ro_rewind o, ro_rready o)) t) /\
    rs_mem _ _ _ _ _ (state c ins) = state (mem_reader_buffered tab) (map (fun o => (ro_rewind o, ro_rready o)) t).
  Proof.
    refine (part_trace c (mem_reader_buffered tab) (fun o => (ro_rewind o, ro_rready o)) (rs_mem _ _ _ _ _)
      (fun s '(u, p) => (false, ri_mready _ _ expose _ _ _ s)) ri_mem _ eq_refl _ _ ins).
    - intros s [r k]. reflexivity.
    - intros s [u p]. reflexivity.
    - intros s [u p]. reflexivity.
  Qed.

  Lemma ri_w_trace ins :
    let t := map ri_w (trace c ins) in
    t = trace (i2c_writer period stretch oe) (map (fun o => (wo_sink o, (ii_sda_pad (io_in (wo_i2c o)), ii_scl_pad (io_in (wo_i2c o))))) t).
  Proof.
    refine (proj1 (part_trace c (i2c_writer period stretch oe) (fun o => (wo_sink o, (ii_sda_pad (io_in (wo_i2c o)), ii_scl_pad (io_in (wo_i2c o))))) (rs_w _ _ _ _ _)
      (fun s '(u, p) => (ri_wsink _ _ expose _ _ _ s u, p)) ri_w _ eq_refl _ _ ins)).
    - intros s [r [a b]]. reflexivity.
    - intros s [u p]. reflexivity.
    - intros s [u p]. reflexivity.
  Qed.

  Lemma ri_rewind ins : Forall (fun o => ro_rewind o = false) (map ri_mem (trace c ins)).
  Proof.
    apply (run_inv c (fun t _ => Forall (fun o => ro_rewind o = false) (map ri_mem t))); [constructor|].
    intros t s [u p] H. rewrite map_app. apply Forall_app. split; auto. repeat constructor.
  Qed.

  (** Everything taken by the writer came from the memory, then from the user. *)
  Lemma ri_split ins :
    let t := trace c ins in
    let d := mr_delivered (map ri_mem t) in
    bytes_of (map ri_w t) = map bdata d ++ user_bytes t /\
    rs_done _ _ _ _ _ (state c ins) = existsb blast d /\ (existsb blast d = false \/ expose = false -> user_bytes t = []).
  Proof.
    apply (run_inv c (fun t s => let d := mr_delivered (map ri_mem t) in
      bytes_of (map ri_w t) = map bdata d ++ user_bytes t /\
      rs_done _ _ _ _ _ s = existsb blast d /\ (existsb blast d = false \/ expose = false -> user_bytes t = []))); [now cbn|].
    intros t s [u p] (H1 & H2 & H3). cbv zeta. rewrite !map_app. cbn [map]. rewrite bytes_of_snoc, mr_delivered_snoc, user_bytes_snoc.
    cbn [c reg_init cout cnext ri_mem ri_w ri_user ri_uready rs_done mem_reader_buffered i2c_writer wo_sink wo_ready ro_src ro_rready].
    cbv beta iota. cbn [fst snd wo_sink wo_ready ro_src ro_rready].
    set (d := mr_delivered (map ri_mem t)) in *. unfold ri_wsink, ri_mready, ri_urdy, ri_tomem.
    change (snd (rs_mem addr regs period stretch oe s)) with (ri_msrc addr regs period stretch oe s).
    set (ms := ri_msrc addr regs period stretch oe s). set (w := iw_take (rs_w addr regs period stretch oe s)).
    set (dn := rs_done addr regs period stretch oe s) in *. clearbody d dn ms w. rewrite H1, existsb_app.
    assert (HD : (if cvalid ms && ((negb expose || negb dn) && w) && blast (cbeat ms) then true else dn)
      = existsb blast d || existsb blast (xfer ms ((negb expose || negb dn) && w))).
    { rewrite <- H2. unfold xfer. destruct (cvalid ms), ((negb expose || negb dn) && w), (blast (cbeat ms)) eqn:E; cbn; rewrite ?E, ?orb_true_r, ?orb_false_r; reflexivity. }
    rewrite HD. rewrite map_app.
    assert (XF : forall k : chan Z, xfer k false = []) by (intros k; unfold xfer; now rewrite andb_false_r).
    destruct expose, dn; cbn [negb orb andb]; rewrite ?XF; cbn [map existsb]; rewrite ?app_nil_r.
    - rewrite <- H2, app_assoc. cbn [orb]. repeat split; auto. intros [X|X]; discriminate.
    - rewrite H3 by auto. rewrite !app_nil_r. repeat split; auto.
    - rewrite H3 by auto. rewrite !app_nil_r. repeat split; auto.
    - rewrite H3 by auto. rewrite !app_nil_r. repeat split; auto.
  Qed.

  Lemma ri_delivered ins : regs <> [] ->
    let d := mr_delivered (map ri_mem (trace c ins)) in
    d = firstn (length d) (packet tab) /\ (length d <= length tab)%nat.
  Proof.
    intros HR d. destruct (ri_mem_trace ins) as [E _].
    assert (HT : tab <> []) by (unfold tab; destruct regs as [|r rs]; [congruence|discriminate]).
    pose proof (C30_reader_replays tab true (map (fun o => (ro_rewind o, ro_rready o)) (map ri_mem (trace c ins))) HT) as H.
    cbn [memory_reader] in H. rewrite <- E in H. cbv zeta in H. rewrite (since_all ro_rewind) in H by apply ri_rewind.
    fold d in H. split; auto. apply (f_equal (@length _)) in H. rewrite firstn_length, packet_length in H. lia.
  Qed.
End Init.

(** C77: the bytes taken by the writer are the bytes of the register table, in order,
    followed by the bytes of the exposed stream, none of which is taken before all the
    bytes of the table (nor when the stream is not exposed). *)
Theorem C77_order : forall addr regs expose period stretch oe ins, regs <> [] ->
  let t := trace (reg_init addr regs expose period stretch oe) ins in
  exists n, bytes_of (map ri_w t) = firstn n (init_bytes addr regs) ++ user_bytes t /\
    (n <= length (init_bytes addr regs))%nat /\
    (user_bytes t <> [] -> expose = true /\ n = length (init_bytes addr regs)).
Proof.
  intros addr regs expose period stretch oe ins HR t. set (d := mr_delivered (map ri_mem t)). exists (length d).
  destruct (ri_split addr regs expose period stretch oe ins) as (H1 & _ & H3). destruct (ri_delivered addr regs expose period stretch oe ins HR) as [H4 H5].
  fold t in H1, H3, H4, H5. fold d in H1, H3, H4, H5. rewrite <- ri_table_bytes. set (tab := ri_table addr regs) in *. repeat split; auto.
  - rewrite H1. f_equal. rewrite H4 at 1. rewrite <- firstn_map, packet_data. reflexivity.
  - destruct expose; auto.
  - rewrite (packet_existsb tab d H4 H5) in H3.
    destruct (Nat.eqb_spec (length d) (length tab)); auto. destruct H. apply H3. left. apply andb_false_r.
Qed.

(** C77: done is high from the cycle after the last byte of the table was taken on. *)
Theorem C77_done : forall addr regs expose period stretch oe ins t1 o t2, regs <> [] ->
  trace (reg_init addr regs expose period stretch oe) ins = t1 ++ o :: t2 ->
  ri_done o = true <-> (length (init_bytes addr regs) <= length (bytes_of (map ri_w t1)))%nat.
Proof.
  intros addr regs expose period stretch oe ins t1 o t2 HR H. apply trace_one in H. destruct H as (a & [u p] & b & -> & <- & ->).
  destruct (ri_split addr regs expose period stretch oe a) as (H1 & H2 & H3). destruct (ri_delivered addr regs expose period stretch oe a HR) as [H4 H5].
  cbn [reg_init cout ri_done]. rewrite H2, H1, app_length, map_length. rewrite <- ri_table_bytes.
  assert (HT : (0 <? length (ri_table addr regs))%nat = true) by (destruct regs as [|r rs]; [congruence|reflexivity]).
  set (d := mr_delivered _) in *. set (tab := ri_table addr regs) in *. clearbody d.
  assert (E : existsb blast d = (length d =? length tab)%nat) by (rewrite (packet_existsb tab d H4 H5), HT; reflexivity).
  rewrite E in *. destruct (Nat.eqb_spec (length d) (length tab)); split; auto; try lia.
  intros X. rewrite H3 in X by auto. cbn in X. lia.
Qed.

(** C77: on the bus the table is played as three-byte transactions (see C49), in order
    and each retried until acknowledged before the next one starts. *)
Theorem C77_transactions : forall addr regs expose period stretch oe ins,
  let t := trace (reg_init addr regs expose period stretch oe) ins in
  stable_sink (map user_io t) ->
  stable_sink (map wo_io (map ri_w t)) /\
  exists phase done,
    replay (bytes_of (map ri_w t)) (Between, 0%nat) (results (map wo_i2c (map ri_w t))) = Some (phase, done).
Proof.
  intros addr regs expose period stretch oe ins t HS.
  assert (HW : stable_sink (map wo_io (map ri_w t))).
  { unfold t. rewrite map_map. intros x1 o o' x2 E HV HRd. apply map_eq_app in E. destruct E as (t1 & r & E & E1 & E2).
    destruct r as [|q [|q' t2]]; try discriminate. injection E2 as <- <- E2.
    pose proof (HS (map user_io t1) (user_io q) (user_io q') (map user_io t2)) as HU. unfold t in HU. rewrite E in HU.
    rewrite map_app in HU. specialize (HU eq_refl).
    apply trace_two in E. destruct E as (a & [u p] & [u' p'] & b & -> & _ & -> & ->). cbn [wo_io o_sink o_sready] in *.
    set (s := state _ a) in *. clearbody s. clear - HU HV HRd.
    cbn [user_io ri_user ri_uready reg_init cout cnext ri_w i2c_writer wo_sink wo_ready o_sink o_sready] in *.
    unfold ri_wsink in HV at 1 |- * at 2. unfold ri_wsink, ri_tomem, ri_urdy in *. cbn [rs_done] in *. rewrite HRd in HU. unfold ri_mready. rewrite HRd.
    rewrite !andb_false_r in *. cbn [andb].
    destruct (negb expose || negb (rs_done addr regs period stretch oe s)) eqn:TM; auto.
    cbn [ri_msrc rs_mem]. unfold ri_msrc in *. cbn [mem_reader_buffered cnext fst snd]. unfold pipe_valid. cbn [nxt]. cbn [rs_mem snd].
    unfold pv_en. rewrite HV. reflexivity. }
  split; auto. pose proof (ri_w_trace addr regs expose period stretch oe ins) as E. cbv zeta in E. fold t in E.
  set (w := map ri_w t) in *. clearbody w. rewrite E in HW |- *.
  destruct (C49_transactions period stretch oe _ HW) as (ph & dn & H & _). eauto.
Qed.

Definition ri_byte (x : Z) (sda : bool) : chan Z * pads := (Chan true (Beat false false x), (sda, true)).
Definition ri_none (sda : bool) : chan Z * pads := (Chan false (Beat false false 0), (sda, true)).

(** Two registers, then a byte of the user, waiting since reset. *)
Example C77_nonvacuous :
  let t := trace (reg_init 0x3c [(1, 0x23); (2, 0x45)] true 4 false true) (repeat (ri_byte 0x77 false) 520) in
  stable_sink (map user_io t) /\
  bytes_of (map ri_w t) = [0x78; 1; 0x23; 0x78; 2; 0x45; 0x77] /\ user_bytes t = [0x77] /\
  results (map wo_i2c (map ri_w t)) =
    [(CStart, Some false); (CWrite 0x78, Some true); (CWrite 1, Some true); (CWrite 0x23, Some true); (CStop, Some true);
     (CStart, Some true); (CWrite 0x78, Some true); (CWrite 2, Some true); (CWrite 0x45, Some true); (CStop, Some true);
     (CStart, Some true); (CWrite 0x77, None)] /\
  map ri_done t = repeat false 413 ++ repeat true 107.
Proof. intros t. split; [|vm_compute; auto 10]. intros t1 o o' t2 H. 
  assert (E : Forall (fun o => ri_user o = fst (ri_byte 0x77 false)) t).
  { apply Forall_forall. intros q Hq. apply in_split in Hq. destruct Hq as (x & y & Hq). apply trace_one in Hq.
    destruct Hq as (a & [i p] & b & Hi & _ & ->). cbn [reg_init cout ri_user].
    assert (In (i, p) (repeat (ri_byte 0x77 false) 520)) by (rewrite Hi; apply in_elt). apply repeat_spec in H0. now injection H0 as -> _. }
  apply map_eq_app in H. destruct H as (u1 & r & -> & _ & H). destruct r as [|q [|q' r]]; try discriminate. injection H as <- <- _.
  apply Forall_app in E. destruct E as [_ E]. inversion E as [|? ? E1 E2]; subst. inversion E2 as [|? ? E3 E4]; subst.
  cbn. congruence.
Qed.

(** C86: done high does not mean that the table has been sent.  When the last byte of
    the table is refused, done is (and stays) high but the write is never repeated: the
    last register is not written, even though the target acknowledges everything from
    then on. *)
Theorem C86_done_sent_refuted :
  exists pre, let c := reg_init 0x3c [(1, 0x23)] false 4 false true in
    let ran n := trace c (pre ++ repeat (ri_none false) n) in
    forall n,
      commands (map wo_i2c (map ri_w (ran n))) = [CStart; CWrite 0x78; CWrite 1; CWrite 0x23; CStop] /\
      results (map wo_i2c (map ri_w (ran 0%nat))) =
        [(CStart, Some false); (CWrite 0x78, Some true); (CWrite 1, Some true); (CWrite 0x23, Some false); (CStop, Some false)] /\
      exists q, trace c (pre ++ repeat (ri_none false) (S n)) = ran n ++ [q] /\ ri_done q = true.
Proof.
  exists (repeat (ri_none false) 180 ++ repeat (ri_none true) 120). cbv zeta. set (pre := repeat _ 180 ++ _). set (c := reg_init 0x3c [(1, 0x23)] false 4 false true).
  set (P := fun s : cst c => iw_f (rs_w _ _ _ _ _ s) = IwIdle /\ s_f (iw_i (rs_w _ _ _ _ _ s)) = Idle /\ iw_use_cache (rs_w _ _ _ _ _ s) = false /\
     rs_done _ _ _ _ _ s = true /\ cvalid (snd (rs_mem _ _ _ _ _ s)) = false /\ mr_done (fst (rs_mem _ _ _ _ _ s)) = true).
  assert (P1 : forall s, P s -> P (cnext c s (ri_none false))).
  { intros s (F1 & F2 & F3 & F4 & F5 & F6). unfold P. cbn [c reg_init cnext ri_none rs_w rs_done rs_mem].
    assert (F5' := F5). unfold ri_wsink, ri_tomem. cbn [negb orb]. change (snd (rs_mem 60 [(1, 35)] 4 false true s)) with (ri_msrc 60 [(1, 35)] 4 false true s) in F5'.
    set (m := ri_msrc _ _ _ _ _ s) in *. cbn [i2c_writer cnext].
    assert (G : iw_f (iw_next 4 false true (rs_w _ _ _ _ _ s) m (false, true)) = IwIdle /\ s_f (iw_i (iw_next 4 false true (rs_w _ _ _ _ _ s) m (false, true))) = Idle /\
       iw_use_cache (iw_next 4 false true (rs_w _ _ _ _ _ s) m (false, true)) = false).
    { split; [|split].
      - unfold iw_next. rewrite F1, F3, F5'. cbn. rewrite andb_false_r. reflexivity.
      - rewrite iw_next_i. apply idle_quiet; auto. unfold strobed, iw_in, iw_is_write. rewrite F1. reflexivity.
      - unfold iw_next. rewrite F1. rewrite F3, F5', andb_false_r. unfold iw_use_cache, iw_take, iw_is_write. rewrite F1. cbn. rewrite andb_false_r. exact F3. }
    destruct G as (G1 & G2 & G3). do 3 (split; [assumption|]). split; [|split].
    - rewrite F5'. exact F4.
    - cbn [mem_reader_buffered cnext fst snd pipe_valid nxt]. unfold pv_en, mr_src. rewrite F5, F6. cbn. apply andb_false_r.
    - cbn [mem_reader_buffered cnext fst snd mr_next mr_done]. unfold mr_src. rewrite F6. cbn. rewrite andb_false_r. reflexivity. }
  assert (P2 : forall s, P s -> io_cmd (wo_i2c (ri_w (cout c s (ri_none false)))) = None).
  { intros s (F1 & F2 & _). cbn [c reg_init cout ri_w ri_none]. cbn [i2c_writer cout wo_i2c]. apply quiet_cmd. unfold strobed, iw_in, iw_is_write. rewrite F1. reflexivity. }
  assert (P0 : P (state c pre)) by (vm_compute; auto 10).
  assert (PN : forall n, P (state c (pre ++ repeat (ri_none false) n)) /\
     commands (map wo_i2c (map ri_w (trace c (pre ++ repeat (ri_none false) n)))) = commands (map wo_i2c (map ri_w (trace c pre)))).
  { induction n as [|n [I1 I2]]; [cbn [repeat]; rewrite app_nil_r; auto|].
    replace (repeat (ri_none false) (S n)) with (repeat (ri_none false) n ++ [ri_none false]) by (symmetry; apply repeat_cons).
    rewrite app_assoc, trace_app. unfold state. rewrite state_from_app. cbn [trace_from state_from]. fold (state c (pre ++ repeat (ri_none false) n)).
    split; [apply P1, I1|]. rewrite !map_app. cbn [map]. rewrite commands_snoc, P2 by exact I1. rewrite app_nil_r. exact I2. }
  intros n. split; [|split].
  - rewrite (proj2 (PN n)). vm_compute. reflexivity.
  - vm_compute. reflexivity.
  - replace (repeat (ri_none false) (S n)) with (repeat (ri_none false) n ++ [ri_none false]) by (symmetry; apply repeat_cons).
    rewrite app_assoc, trace_app. cbn [trace_from]. eexists. split; [reflexivity|].
    destruct (PN n) as [(_ & _ & _ & F & _) _]. exact F.
Qed.

(** C86, what does hold: when done is high every entry but the last has been written
    and acknowledged. *)
Theorem C86_done_sent_partial : forall addr regs expose period stretch oe ins t1 o t2, regs <> [] ->
  trace (reg_init addr regs expose period stretch oe) ins = t1 ++ o :: t2 ->
  stable_sink (map user_io t1) -> ri_done o = true ->
  exists phase done,
    replay (bytes_of (map ri_w t1)) (Between, 0%nat) (results (map wo_i2c (map ri_w t1))) = Some (phase, done) /\
    (length regs - 1 <= done)%nat.
Proof.
  intros addr regs expose period stretch oe ins t1 o t2 HR H HS HD.
  apply (C77_done _ _ _ _ _ _ _ _ _ _ HR H) in HD. apply trace_one in H. destruct H as (a & i & b & -> & Ht & ->).
  assert (HS' : stable_sink (map user_io (trace (reg_init addr regs expose period stretch oe) a))) by (rewrite Ht; exact HS).
  destruct (C77_transactions addr regs expose period stretch oe a HS') as [HW _]. rewrite Ht in HW.
  pose proof (ri_w_trace addr regs expose period stretch oe a) as E. cbv zeta in E. rewrite Ht in E.
  set (w := map ri_w t1) in *. rewrite E in HW, HD |- *. clearbody w.
  destruct (C49_transactions period stretch oe _ HW) as (ph & dn & H & HL). exists ph, dn. split; auto.
  assert (length (init_bytes addr regs) = 3 * length regs)%nat.
  { unfold init_bytes. clear. induction regs as [|r rs IH]; [reflexivity|]. cbn [flat_map app length]. rewrite IH. lia. }
  lia.
Qed.

(** With every byte acknowledged: when done rises the second of the two registers is on its way. *)
Example C86_nonvacuous : exists t1 o t2,
  let t := trace (reg_init 0x3c [(1, 0x23); (2, 0x45)] true 4 false true) (repeat (ri_none false) 420) in
  t = t1 ++ o :: t2 /\ stable_sink (map user_io t1) /\ ri_done o = true /\
  replay (bytes_of (map ri_w t1)) (Between, 0%nat) (results (map wo_i2c (map ri_w t1))) = Some (Waiting 2, 1%nat).
Proof.
  set (t := trace _ _). exists (firstn 413 t). eexists _, (skipn 414 t). cbv zeta. split; [vm_compute; reflexivity|].
  split; [apply stable_sinkb_ok; vm_compute; reflexivity|]. split; [reflexivity|]. vm_compute. reflexivity.
Qed.

Print Assumptions C77_order.
Print Assumptions C77_done.
Print Assumptions C77_transactions.
Print Assumptions C86_done_sent_refuted.
Print Assumptions C86_done_sent_partial.
