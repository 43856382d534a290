(** Properties C37 (I2CRegStream) and C38 (TCA9548A). *)
From Verif Require Import Stream I2creg_model.

(** ** C37 *)
(** The three bytes of a register write, last on the third only. *)
Definition reg_write_bytes (i2c_addr : Z) (b : beat (Z * Z)) : list (beat Z) :=
  [Beat false false (2 * i2c_addr); Beat false false (fst (bdata b)); Beat false true (snd (bdata b))].

Definition irs_rest (dev : Z) (s : irs_state) : list (beat Z) :=
  match irs_f s with
  | IrsIdle => []
  | IrsSlave => [Beat false false dev; Beat false false (irs_a s); Beat false true (irs_val s)]
  | IrsReg => [Beat false false (irs_a s); Beat false true (irs_val s)]
  | IrsVal => [Beat false true (irs_val s)]
  end.
Definition irs_ok (dev : Z) (s : irs_state) : Prop :=
  match irs_f s with
  | IrsIdle => irs_v s = false /\ irs_l s = false
  | IrsSlave => irs_v s = true /\ irs_l s = false /\ irs_d s = dev
  | IrsReg => irs_v s = true /\ irs_l s = false /\ irs_d s = irs_a s
  | IrsVal => irs_v s = true /\ irs_l s = true /\ irs_d s = irs_val s
  end.

Lemma irs_inv a ins : 0 <= a < 128 ->
  let t := strace (i2c_reg_stream a) ins in let s := state (scirc (i2c_reg_stream a)) ins in
  irs_ok (2 * a) s /\ emitted t ++ irs_rest (2 * a) s = flat_map (reg_write_bytes a) (accepted t).
Proof.
  intros Ha. apply (run_inv (scirc (i2c_reg_stream a))
    (fun t s => irs_ok (2 * a) s /\ emitted t ++ irs_rest (2 * a) s = flat_map (reg_write_bytes a) (accepted t))).
  - split; [split; reflexivity|reflexivity].
  - assert (E : trunc 8 (Z.shiftl a 1) = 2 * a).
    { rewrite Z.shiftl_mul_pow2 by lia. rewrite trunc_small; lia. }
    intros t [f v l d ad va] [c r] [H1 H2]. rewrite emitted_app, accepted_app, flat_map_app, <- H2, emitted_1, accepted_1.
    cbn [scirc cout cnext o_src o_rready o_sink o_sready fst snd].
    unfold irs_ok, irs_rest in *. cbn [i2c_reg_stream src rdy nxt irs_f irs_v irs_l irs_d irs_a irs_val] in *.
    destruct f; cbn [irs_f irs_v irs_l irs_d irs_a irs_val] in *.
    + destruct H1 as [-> ->]. unfold xfer. cbn [cvalid andb]. rewrite E, !app_nil_r, ?andb_true_r.
      destruct (cvalid c); cbn; rewrite ?app_nil_r; repeat split; auto.
    + destruct H1 as (-> & -> & ->). unfold xfer. cbn [cvalid cbeat andb]. rewrite andb_false_r. cbn [flat_map].
      destruct r; cbn; rewrite ?app_nil_r, <- ?app_assoc; cbn; repeat split; auto.
    + destruct H1 as (-> & -> & ->). unfold xfer. cbn [cvalid cbeat andb]. rewrite andb_false_r. cbn [flat_map].
      destruct r; cbn; rewrite ?app_nil_r, <- ?app_assoc; cbn; repeat split; auto.
    + destruct H1 as (-> & -> & ->). unfold xfer. cbn [cvalid cbeat andb]. rewrite andb_false_r. cbn [flat_map].
      destruct r; cbn; rewrite ?app_nil_r, <- ?app_assoc; cbn; repeat split; auto.
Qed.

(** C37: for every 7-bit device address and every execution, what has come out,
    followed by at most three bytes still to come, is the expansion of what went
    in.  While bytes remain the next one is offered, and when none remain a new
    write is accepted: nothing is lost, duplicated or held back. *)
Theorem C37_i2c_reg_stream : forall i2c_addr ins t1 o t2, 0 <= i2c_addr < 128 ->
  strace (i2c_reg_stream i2c_addr) ins = t1 ++ o :: t2 ->
  exists rest, emitted t1 ++ rest = flat_map (reg_write_bytes i2c_addr) (accepted t1) /\
    (length rest <= 3)%nat /\
    match rest with
    | [] => o_sready o = true /\ cvalid (o_src o) = false
    | b :: _ => o_sready o = false /\ o_src o = Chan true b
    end.
Proof.
  intros a ins t1 o t2 Ha H. apply trace_one in H. destruct H as (p & [c r] & q & -> & <- & ->).
  destruct (irs_inv a p Ha) as [H1 H2]. exists (irs_rest (2 * a) (state (scirc (i2c_reg_stream a)) p)). split; [exact H2|].
  set (s := state _ p) in *. clearbody s. destruct s as [f v l d ad va]. unfold irs_ok, irs_rest in *. cbn in *.
  destruct f; cbn in *; [destruct H1 as [-> ->]|destruct H1 as (-> & -> & ->)..]; auto.
Qed.

Theorem C37_i2c_reg_stream_stable : forall i2c_addr ins, 0 <= i2c_addr < 128 ->
  stable_src (strace (i2c_reg_stream i2c_addr) ins).
Proof.
  intros a ins Ha. apply stable_src_intro with (P := irs_ok (2 * a)).
  - intros. now apply irs_inv.
  - intros [f v l d ad va] c c' H1. unfold irs_ok in H1. cbn in *. destruct f; cbn; auto. destruct H1 as [-> _]. discriminate.
Qed.

Example C37_nonvacuous :
  let c a v := (Chan true (Beat false false (a, v))) in
  emitted (strace (i2c_reg_stream 0x3c) (map (fun r => (c 0x10 0x20, r)) [true; true; false; true; true; true; true; true; true])) =
  [Beat false false 0x78; Beat false false 0x10; Beat false true 0x20; Beat false false 0x78; Beat false false 0x10; Beat false true 0x20].
Proof. reflexivity. Qed.

(** ** C38 *)
Definition tca_sent (t : list tca_obs) : list (beat (bool * Z)) := flat_map (fun o => xfer (tco_src o) (tco_ready o)) t.
(** The control register write of the mux: device address then value, both as
    writes (r_wn = 0), last on the second. *)
Definition tca_packet (i2c_addr v : Z) : list (beat (bool * Z)) :=
  [Beat false false (false, 2 * i2c_addr); Beat false true (false, v)].

Definition tca_inv (a : Z) (t : list tca_obs) (s : tca_state) : Prop :=
  exists vals, tca_sent t = flat_map (tca_packet a) vals ++ (if tca_an s then [Beat false false (false, 2 * a)] else []) /\
    match tca_f s with
    | TcaIdle => tca_an s = false /\ if tca_init s then exists vs, vals = vs ++ [tca_ctrl_r s] else vals = [] /\ tca_ctrl_r s = 0
    | TcaMux => tca_init s = true /\ ((vals = [] /\ tca_ctrl_r s = 0) \/ (vals <> [] /\ In (tca_ctrl_r s) (map tco_ctrl t)))
    end /\
    match vals with [] => True | v :: r => v = 0 /\ incl r (map tco_ctrl t) end.

Lemma tca_inv_run a ins : 0 <= a < 128 -> tca_inv a (trace (tca9548a a) ins) (state (tca9548a a) ins).
Proof.
  intros Ha. apply (run_inv (tca9548a a) (tca_inv a)).
  - exists []. repeat split; auto.
  - assert (E : trunc 8 (Z.shiftl a 1) = 2 * a) by (rewrite Z.shiftl_mul_pow2 by lia; rewrite trunc_small; lia).
    intros t [f i cr an] [ctrl r] (vals & H1 & H2 & H3). unfold tca_inv, tca_sent in *. rewrite flat_map_app, H1, map_app.
    cbn [flat_map tca9548a cout cnext tco_src tco_ready map tco_ctrl]. rewrite app_nil_r.
    assert (H3' : match vals with [] => True | v :: r => v = 0 /\ incl r (map tco_ctrl t ++ [ctrl]) end).
    { destruct vals; auto. destruct H3 as [-> H3]. split; auto. apply incl_appl; auto. }
    clear H3. unfold tca_src, tca_next in *. cbn [tca_f tca_init tca_ctrl_r tca_an fst snd] in *. destruct f.
    + destruct H2 as [-> H2]. exists vals. cbn [xfer cvalid andb]. rewrite !app_nil_r.
      destruct i; cbn [negb].
      * destruct H2 as [vs ->]. destruct (Z.eqb_spec ctrl cr); cbn; rewrite ?app_nil_r; repeat split; eauto.
        right. split; [destruct vs; discriminate|]. apply in_or_app. right. now left.
      * destruct H2 as [-> ->]. cbn; repeat split; auto.
    + destruct H2 as [-> H2]. unfold xfer. cbn [cvalid cbeat andb].
      assert (H2' : vals = [] /\ cr = 0 \/ vals <> [] /\ In cr (map tco_ctrl t ++ [ctrl])).
      { destruct H2 as [?|[? ?]]; auto. right. split; auto. apply in_or_app; auto. }
      destruct r; cbn [tca_f tca_init tca_ctrl_r tca_an].
      * destruct an; cbn [negb].
        -- exists (vals ++ [cr]). rewrite flat_map_app, <- !app_assoc. cbn. repeat split; eauto.
           destruct H2' as [[-> ->]|[Hn Hin]]; [cbn; split; auto; intros ? []|].
           destruct vals; [contradiction|]. cbn. destruct H3' as [-> H3']. split; auto. apply incl_app; auto.
           intros x [<-|[]]; auto.
        -- exists vals. rewrite E, app_nil_r. repeat split; auto.
      * exists vals. rewrite app_nil_r. repeat split; auto.
Qed.

(** C38, safety.  At every point of every execution what has been sent is a list of
    complete packets, possibly followed by the address byte of the next.  The first
    packet writes 0, each later one a value that ctrl has had.  When done is high
    there is no partial packet and the last packet carries the present ctrl. *)
Theorem C38_tca9548a_packets : forall i2c_addr ins t1 o t2, 0 <= i2c_addr < 128 ->
  trace (tca9548a i2c_addr) ins = t1 ++ o :: t2 ->
  exists vals rest, tca_sent t1 = flat_map (tca_packet i2c_addr) vals ++ rest /\
    (rest = [] \/ rest = [Beat false false (false, 2 * i2c_addr)]) /\
    match vals with [] => True | v :: r => v = 0 /\ incl r (map tco_ctrl t1) end /\
    (tco_done o = true -> rest = [] /\ exists vs, vals = vs ++ [tco_ctrl o]).
Proof.
  intros a ins t1 o t2 Ha H. apply trace_one in H. destruct H as (p & [c r] & q & -> & <- & ->).
  destruct (tca_inv_run a p Ha) as (vals & H1 & H2 & H3).
  eexists vals, _. split; [exact H1|]. set (s := state _ p) in *. clearbody s. split; [destruct (tca_an s); auto|].
  split; [exact H3|]. cbn [tca9548a cout tco_done tco_ctrl fst]. unfold tca_done. destruct (tca_f s); [|discriminate].
  intros D. apply andb_true_iff in D. destruct D as [D1 D2]. apply Z.eqb_eq in D2. subst c. rewrite D1 in H2.
  destruct H2 as [-> H2]. auto.
Qed.

(** A byte offered and not taken stays offered, whatever ctrl does meanwhile. *)
Theorem C38_tca9548a_stable : forall i2c_addr ins t1 o o' t2,
  trace (tca9548a i2c_addr) ins = t1 ++ o :: o' :: t2 ->
  cvalid (tco_src o) = true -> tco_ready o = false -> tco_src o' = tco_src o.
Proof.
  intros a ins t1 o o' t2 H. apply trace_two in H. destruct H as (p & [c r] & [c' r'] & q & -> & _ & -> & ->).
  cbn [tca9548a cout cnext tco_src tco_ready fst snd]. intros Hv ->. unfold tca_src, tca_next in *.
  destruct (state _ p) as [[] i cr an]; cbn in *; [discriminate|reflexivity].
Qed.

(** Cycles left before done when ctrl is [c] and the bytes are taken at once. *)
Definition tca_left (c : Z) (s : tca_state) : nat :=
  ((if (c =? tca_ctrl_r s)%Z then 0 else 3) +
   match tca_f s with TcaMux => if tca_an s then 1 else 2 | TcaIdle => if tca_init s then 0 else 3 end)%nat.

Lemma tca_left_step a c s : (tca_f s = TcaIdle -> tca_an s = false) -> (tca_f s = TcaMux -> tca_init s = true) ->
  tca_left c (cnext (tca9548a a) s (c, true)) = pred (tca_left c s).
Proof.
  destruct s as [f i cr an]. cbn. intros H1 H2. unfold tca_left, tca_next. cbn.
  destruct f; [rewrite (H1 eq_refl)|rewrite (H2 eq_refl)]; clear H1 H2.
  - destruct i; cbn [negb]; destruct (c =? cr) eqn:E; cbn; rewrite ?E, ?Z.eqb_refl; reflexivity.
  - destruct an; cbn; destruct (c =? cr); reflexivity.
Qed.

Definition tca_wf (s : tca_state) : Prop :=
  (tca_f s = TcaIdle -> tca_an s = false) /\ (tca_f s = TcaMux -> tca_init s = true).
Lemma tca_wf_step a s i : tca_wf s -> tca_wf (cnext (tca9548a a) s i).
Proof.
  unfold tca_wf. destruct s as [f j cr an], i as [cc r]. intros [H1 H2]. cbn in *. unfold tca_next. cbn.
  destruct f; [rewrite (H1 eq_refl)|rewrite (H2 eq_refl)]; clear H1 H2.
  - destruct j; cbn; [destruct (cc =? cr)|]; cbn; split; intros; auto; discriminate.
  - destruct r, an; cbn; split; intros; auto; discriminate.
Qed.

Lemma tca_left_run a c n s : tca_wf s ->
  tca_wf (state_from (tca9548a a) s (repeat (c, true) n)) /\
  tca_left c (state_from (tca9548a a) s (repeat (c, true) n)) = (tca_left c s - n)%nat.
Proof.
  revert s. induction n as [|n IH]; intros s Hs; [split; cbn; auto; lia|].
  change (state_from (tca9548a a) s (repeat (c, true) (S n)))
    with (state_from (tca9548a a) (cnext (tca9548a a) s (c, true)) (repeat (c, true) n)).
  destruct (IH _ (tca_wf_step a s (c, true) Hs)) as [I1 I2]. split; auto. rewrite I2.
  destruct Hs as [H1 H2]. rewrite (tca_left_step a c s H1 H2). lia.
Qed.

(** C38, liveness: after any history, if ctrl stays put, done is high as soon as
    six cycles have passed with the bytes taken at once, and stays high. *)
Theorem C38_tca9548a_done : forall i2c_addr ins c n t o,
  trace (tca9548a i2c_addr) (ins ++ repeat (c, true) (6 + n) ++ [(c, true)]) = t ++ [o] -> tco_done o = true.
Proof.
  intros a ins c n t o H. rewrite app_assoc, trace_app in H. cbn [trace_from] in H. apply app_inj_tail in H. destruct H as [_ <-].
  cbn [tca9548a cout tco_done fst]. unfold state. rewrite state_from_app. fold (state (tca9548a a) ins).
  assert (Hi : tca_wf (state (tca9548a a) ins)).
  { apply (state_inv (tca9548a a)); [split; [auto|discriminate]|]. intros; now apply tca_wf_step. }
  destruct (tca_left_run a c (6 + n) _ Hi) as [[W1 W2] L].
  assert (HB : (tca_left c (state (tca9548a a) ins) <= 6)%nat).
  { clear. generalize (state (tca9548a a) ins) as q. intros [f i cr an]. unfold tca_left. cbn. destruct (c =? cr), f, i, an; cbn; lia. }
  set (z := state_from _ _ _) in *. clearbody z. assert (L0 : tca_left c z = 0%nat) by lia.
  unfold tca_left in L0. unfold tca_done. destruct (c =? tca_ctrl_r z); [|lia].
  destruct (tca_f z); [|destruct (tca_an z); lia]. destruct (tca_init z); [reflexivity|lia].
Qed.

Example C38_nonvacuous :
  let t := trace (tca9548a 0x70) [(4, true); (4, true); (4, false); (4, true); (4, true); (4, true); (4, true); (4, true); (5, true)] in
  map tco_done t = [false; false; false; false; false; false; false; true; false] /\
  tca_sent t = tca_packet 0x70 0 ++ tca_packet 0x70 4.
Proof. split; reflexivity. Qed.

Print Assumptions C37_i2c_reg_stream.
Print Assumptions C37_i2c_reg_stream_stable.
Print Assumptions C38_tca9548a_packets.
Print Assumptions C38_tca9548a_stable.
Print Assumptions C38_tca9548a_done.
