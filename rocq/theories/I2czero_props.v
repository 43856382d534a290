(** C87 (I2CProto, a read of 0 bytes): what the bridge does instead. *)
From Verif Require Import Stream I2c_model I2c_spec I2cstream_model I2cstream_spec I2cstream_proofs I2cproto_model I2cproto_spec I2cproto_proofs I2cproto_props.
From Coq Require Import Lia.

Section Zero.
  Context (period : Z) (stretch oe : bool) (h : Z).
  Let c := i2c_proto period stretch oe.
  Hypothesis RD : is_read h = true.

  Definition idling (f : ist_fsm) : Prop := f <> IsWRead /\ f <> IsWWrite.
  Definition z_hdr (e : bool) : beat (bool * Z) * bool := (Beat false true (false, h), e).

  Lemma in_first s b0 l x r p : idling (is_f s) ->
    let k := Chan true (Beat b0 l (true, x)) in
    let s' := ist_next period stretch oe s k r p in
    cvalid (ist_src s) = false /\ ist_err s = false /\
    (ist_rdy s k = false /\ idling (is_f s') \/
     ist_rdy s k = true /\ is_f s' = IsWRead /\ is_last s' = l).
  Proof.
    destruct s as [f ls i]. unfold idling. cbn [is_f]. intros [H1 H2]. cbv zeta.
    unfold ist_next, ist_fnext, ist_rdy, ist_rd, ist_src, ist_err, ist_is, ist_idle. cbn [is_f is_last is_i cvalid cbeat bdata fst blast].
    destruct f; cbn; try congruence; (split; [reflexivity|split; [reflexivity|]]); try (right; auto; fail); left; (split; [reflexivity|]);
      try destruct (s_busy i); cbn; split; discriminate.
  Qed.
  Lemma ended_idling f : ended f -> idling f.
  Proof. intros [->|[->| ->]]; split; discriminate. Qed.

  (** Reads left when the length register holds [l]. *)
  Definition left_of (l : Z) : Z := if l =? 0 then 256 else l.

  (** What a run over accepted bytes [a], answer [e], served beats [xs] and bytes read
      [xd] looks like in state [s]. *)
  Definition z_phase (s : pr_state) (a : list Z) (e : list (beat Z)) (xs : list (beat (bool * Z) * bool)) (xd : list (beat Z)) : Prop :=
    let l := p_length s in let f := is_f (p_i s) in let lst := is_last (p_i s) in
    match p_f s with
    | PHeader => ended f /\
        (a = [] /\ e = [] /\ xs = [] /\ xd = [] \/
         a = [h; 0] /\ e = [status_beat 1] /\ xs = [z_hdr true] /\ xd = [] \/
         a = [h; 0] /\ e = status_beat 0 :: xd /\ xs = z_hdr false :: taken (read_beats 256) /\ map blast xd = map blast (read_beats 256))
    | PLength => ended f /\ p_header s = h /\ a = [h] /\ e = [] /\ xs = [] /\ xd = []
    | PAddr => p_header s = h /\ l = 0 /\ a = [h; 0] /\ e = [] /\ xs = [] /\ xd = [] /\ f <> IsWRead /\ (f = IsWWrite -> lst = true)
    | POk => ended f /\ l = 0 /\ a = [h; 0] /\ e = [] /\ xs = [z_hdr false] /\ xd = []
    | PRead => exists left, 0 <= l < 256 /\ a = [h; 0] /\ e = status_beat 0 :: xd /\
                 (l = 0 /\ left = 256 /\ idling f \/ 1 <= l /\ f = IsXfer /\ left = l \/ 1 <= l /\ f = IsWRead /\ left = l + 1 /\ lst = false) /\
                 xs = z_hdr false :: taken (reads_done 256 (left_of l)) /\ map blast xd = map blast (reads_done 256 left)
    | PFlush => a = [h; 0] /\ e = status_beat 0 :: xd /\ f = IsWRead /\ lst = true /\
                 xs = z_hdr false :: taken (read_beats 256) /\ map blast xd = map blast (reads_done 256 1)
    | PError => ended f /\ l = 0 /\ a = [h; 0] /\ e = [] /\ xs = [z_hdr true] /\ xd = []
    | PStatus => ended f /\ p_status s = 1 /\ a = [h; 0] /\ e = [] /\ xs = [z_hdr true] /\ xd = []
    | PWrite => False
    end.

  Definition z_acc (t : list pr_obs) : list Z := map bdata (accepted (map po_io t)).
  Definition z_inv (t : list pr_obs) (s : pr_state) : Prop :=
    (exists more, z_acc t ++ more = [h; 0]) ->
    z_phase s (z_acc t) (emitted (map po_io t)) (served (map po_i2c t)) (emitted (map so_io (map po_i2c t))).

  Lemma zfull : read_beats 256 = reads_done 256 1 ++ [Beat false true (true, 0)].
  Proof. exact (reads_full 256 ltac:(lia)). Qed.

  Lemma z_step t s i : z_inv t s -> z_inv (t ++ [cout c s i]) (cnext c s i).
  Proof.
    destruct i as [[k r] p]. unfold z_inv, z_acc. intros IH (more & HM).
    set (o := cout c s (k, r, p)) in *.
    assert (O1 : o_sink (po_io o) = k) by reflexivity. assert (O2 : o_sready (po_io o) = pr_rdy s k) by reflexivity.
    assert (O3 : o_src (po_io o) = pr_src s) by reflexivity. assert (O4 : o_rready (po_io o) = r) by reflexivity.
    assert (O5 : o_sink (so_io (po_i2c o)) = pr_isink s k) by reflexivity. assert (O6 : o_sready (so_io (po_i2c o)) = pr_go s k) by reflexivity.
    assert (O7 : o_src (so_io (po_i2c o)) = ist_src (p_i s)) by reflexivity. assert (O8 : o_rready (so_io (po_i2c o)) = pr_irdy s r) by reflexivity.
    assert (O9 : so_error (po_i2c o) = ist_err (p_i s)) by reflexivity.
    clearbody o. rewrite !map_app in *. cbn [map] in *. rewrite accepted_app, accepted_1, map_app in *.
    rewrite served_snoc, !emitted_app, !emitted_1.
    rewrite O1, O2 in *. rewrite O3, O4, O5, O6, O7, O8, O9. clear O1 O2 O3 O4 O5 O6 O7 O8 O9 o.
    rewrite <- app_assoc in HM. specialize (IH (ex_intro _ _ HM)).
    set (a := map bdata (accepted (map po_io t))) in *. set (e := emitted (map po_io t)) in *. set (xs := served (map po_i2c t)) in *.
    set (xd := emitted (map so_io (map po_i2c t))) in *. clearbody a e xs xd. clear t.
    destruct s as [f hh l u i]. cbn [cnext c i2c_proto]. unfold z_phase in IH. cbn [p_f p_header p_length p_status p_i] in IH.
    unfold pr_next, pr_rdy, pr_src, pr_irdy, pr_go in *. cbn [p_f p_header p_length p_status p_i] in *.
    unfold pr_go, pr_isink in *. cbn [p_f p_header p_length p_status p_i] in *.
    destruct f.
    - (* header *)
      destruct IH as [HF IH]. destruct (in_rest period stretch oe i (Beat false false (false, 0)) false p HF) as (I1 & I2 & I3 & I4).
      rewrite I2, !xfer_no. rewrite (xfer_inv (Chan false _)) by reflexivity. cbn [map]. rewrite !app_nil_r in *.
      unfold xfer in *. rewrite andb_true_r in *. destruct (cvalid k); cbn [map app] in *.
      + assert (a = []) as ->. { destruct IH as [(-> & _)|[(-> & _)|(-> & _)]]; [auto|discriminate HM|discriminate HM]. }
        destruct IH as [(_ & -> & -> & ->)|[(E & _)|(E & _)]]; try discriminate E.
        cbn [app] in HM. injection HM as Hh _. unfold z_phase. cbn [p_f p_header p_length p_status p_i app]. rewrite Hh. auto 10.
      + unfold z_phase. cbn [p_f p_header p_length p_status p_i]. rewrite !app_nil_r. auto.
    - (* length *)
      destruct IH as (HF & -> & -> & -> & -> & ->).
      destruct (in_rest period stretch oe i (Beat false false (false, 0)) false p HF) as (I1 & I2 & I3 & I4).
      rewrite I2, !xfer_no. rewrite (xfer_inv (Chan false _)) by reflexivity. cbn [map]. rewrite ?app_nil_r in *.
      unfold xfer in *. rewrite andb_true_r in *. destruct (cvalid k); cbn [map app] in *; unfold z_phase; cbn [p_f p_header p_length p_status p_i].
      + injection HM as Hl _. rewrite Hl. repeat split; auto; destruct I1 as [-> | [-> | ->]]; discriminate.
      + auto 10.
    - (* addr *)
      destruct IH as (-> & -> & -> & -> & -> & -> & HF & HF2). cbn [Z.eqb] in *.
      destruct (in_write period stretch oe i false true h false p HF HF2) as [I1 I2]. cbv zeta in I2.
      set (kk := Chan true (Beat false true (false, h))) in *. set (i' := ist_next period stretch oe i kk false p) in *.
      rewrite !xfer_no, (xfer_inv (Chan false _)) by reflexivity. rewrite ?app_nil_r.
      destruct I2 as [(J1 & J2 & J3 & J4 & _)|(J1 & J2)]; rewrite J1.
      + rewrite ?xfer_no. unfold z_phase; cbn [p_f p_header p_length p_status p_i map app]. auto 10.
      + change (xfer kk true) with [Beat false true (false, h)]. cbn [map app].
        assert (EN : ended IsStop) by (right; left; reflexivity). rewrite orb_true_r in J2.
        change (Z.testbit h 0) with (is_read h). rewrite RD.
        destruct (ist_err i) eqn:ER; unfold z_phase; cbn [p_f p_header p_length p_status p_i]; rewrite J2; unfold z_hdr; auto 10.
    - (* ok *)
      destruct IH as (HF & -> & -> & -> & -> & ->).
      destruct (in_rest period stretch oe i (Beat false false (false, 0)) false p HF) as (I1 & I2 & I3 & I4).
      rewrite I2, !xfer_no. cbn [map]. rewrite ?app_nil_r. unfold xfer. cbn [cvalid andb cbeat].
      destruct r; cbn [app]; unfold z_phase; cbn [p_f p_header p_length p_status p_i].
      + exists 256. split; [lia|]. split; [auto|]. split; [auto|]. split; [left; split; auto; split; auto; now apply ended_idling|].
        unfold left_of, reads_done. cbn. auto.
      + auto 10.
    - (* read *)
      destruct IH as (left & HL & -> & -> & HF & -> & HX).
      rewrite !(xfer_no k). cbn [map]. rewrite ?app_nil_r.
      set (kk := Chan true (Beat false (l =? 1) (true, 0))) in *.
      destruct HF as [(L0 & -> & HF)|[(L1 & HF & ->)|(L1 & HF & -> & HLs)]].
      + subst l. destruct (in_first i false false 0 r p HF) as (I1 & I2 & I3). cbv zeta in I3. change (Chan true (Beat false false (true, 0))) with kk in I3.
        rewrite !(xfer_inv (ist_src i)) by auto. rewrite ?app_nil_r, I2. cbn [Z.eqb].
        destruct I3 as [(J1 & J2)|(J1 & J2 & J3)]; rewrite J1.
        * rewrite xfer_no. cbn [map]. rewrite app_nil_r. unfold z_phase; cbn [p_f p_header p_length p_status p_i].
          exists 256. split; [lia|]. do 2 (split; [auto|]). split; [left; auto|]. auto.
        * change (xfer kk true) with [Beat false false (true, 0)]. cbn [map]. unfold z_phase; cbn [p_f p_header p_length p_status p_i].
          change (trunc 8 (0 - 1)) with 255. exists 256. split; [lia|]. do 2 (split; [auto|]).
          split; [right; right; repeat split; auto; lia|]. auto.
      + destruct (in_read period stretch oe i false (l =? 1) 0 r p HF) as (I1 & I2 & I3 & I4 & I5). cbv zeta in *. fold kk in I2, I4, I5.
        rewrite I2, I3, !(xfer_inv (ist_src i)) by auto. change (xfer kk true) with [Beat false (l =? 1) (true, 0)]. cbn [map].
        rewrite ?app_nil_r. rewrite trunc_dec by lia.
        assert (LO : left_of l = l) by (unfold left_of; destruct (Z.eqb_spec l 0); lia). rewrite LO.
        destruct (Z.eqb_spec l 1) as [->|L2]; unfold z_phase; cbn [p_f p_header p_length p_status p_i].
        * rewrite I4, I5. do 4 (split; [auto|]). split; [|exact HX]. rewrite zfull, taken_app. reflexivity.
        * exists l. split; [lia|]. split; [auto|]. split; [auto|]. split; [right; right; rewrite I4, I5; repeat split; auto; lia|].
          split; auto. unfold left_of. destruct (Z.eqb_spec (l - 1) 0); [lia|]. rewrite reads_more, taken_app by lia. reflexivity.
      + destruct (in_wait period stretch oe i kk r p HF) as (I1 & I2 & I3 & I4 & I5). cbv zeta in *.
        rewrite I1, I2, xfer_no. cbn [map]. rewrite ?app_nil_r.
        unfold xfer. destruct (cvalid (ist_src i) && r) eqn:FI.
        * apply andb_true_iff in FI. destruct FI as [FI1 FI2]. unfold z_phase; cbn [p_f p_header p_length p_status p_i].
          exists l. rewrite I5, HLs. split; [lia|]. split; [auto|]. split; [auto|]. split; [right; left; auto|]. split; [auto|].
          replace l with (l + 1 - 1) by lia. rewrite reads_more, !map_app, HX by lia. cbn [map]. now rewrite I4, HLs.
        * rewrite !app_nil_r. unfold z_phase; cbn [p_f p_header p_length p_status p_i]. exists (l + 1).
          split; [lia|]. split; [auto|]. split; [auto|]. split; [right; right; rewrite I3, I5; auto|]. auto.
    - (* flush *)
      destruct IH as (-> & -> & HF & HLs & -> & HX). rewrite !(xfer_no k). cbn [map].
      set (kk := Chan false _) in *.
      destruct (in_wait period stretch oe i kk r p HF) as (I1 & I2 & I3 & I4 & I5). cbv zeta in *.
      rewrite I1, I2, xfer_no. cbn [map]. rewrite ?app_nil_r.
      unfold xfer. destruct (cvalid (ist_src i) && r) eqn:FI; cbn [andb].
      + apply andb_true_iff in FI. destruct FI as [FI1 FI2]. rewrite I4, HLs by auto. unfold z_phase; cbn [p_f p_header p_length p_status p_i].
        rewrite I5, HLs. split; [right; auto|]. right. right. do 3 (split; [auto|]).
        rewrite zfull, !map_app, HX. cbn [map blast]. now rewrite I4, HLs.
      + rewrite !app_nil_r. unfold z_phase; cbn [p_f p_header p_length p_status p_i]. rewrite I3, I5. auto 10.
    - destruct IH.
    - (* error *)
      destruct IH as (HF & -> & -> & -> & -> & ->). cbn [Z.leb Z.compare].
      destruct (in_rest period stretch oe i (Beat false false (false, 0)) false p HF) as (I1 & I2 & I3 & I4).
      rewrite I2, !xfer_no. cbn [map]. rewrite ?app_nil_r.
      unfold z_phase; cbn [p_f p_header p_length p_status p_i]. auto 10.
    - (* status *)
      destruct IH as (HF & -> & -> & -> & -> & ->).
      destruct (in_rest period stretch oe i (Beat false false (false, 0)) false p HF) as (I1 & I2 & I3 & I4).
      rewrite I2, !xfer_no. cbn [map]. rewrite ?app_nil_r. unfold xfer. cbn [cvalid andb cbeat].
      destruct r; unfold z_phase; cbn [p_f p_header p_length p_status p_i app]; auto 10.
  Qed.
End Zero.

Lemma z_run_state period stretch oe h : is_read h = true -> forall ins t1 t2,
  trace (i2c_proto period stretch oe) ins = t1 ++ t2 ->
  good_host t1 -> fst (host_view (map po_io t1)) = HIdle ->
  map bdata (accepted (map po_io t2)) = [h; 0] ->
  z_phase h (state (i2c_proto period stretch oe) ins) [h; 0] (emitted (map po_io t2)) (served (map po_i2c t2)) (emitted (map so_io (map po_i2c t2))).
Proof.
  intros RD ins t1 t2 E HG HI HA. apply trace_cut_from in E. destruct E as (a & b & -> & E1 & E2).
  change (trace_from (i2c_proto period stretch oe) (creset (i2c_proto period stretch oe)) a) with (trace (i2c_proto period stretch oe) a) in E1.
  assert (HG' : good_host (trace (i2c_proto period stretch oe) a)) by (rewrite E1; exact HG).
  destruct (pr_inv_run period stretch oe a HG') as (segs & xs & xd & _ & _ & _ & H4). rewrite E1, HI in H4.
  unfold state. rewrite state_from_app. fold (state (i2c_proto period stretch oe) a) in E2 |- *.
  set (s := state (i2c_proto period stretch oe) a) in *.
  assert (P0 : z_inv h [] s).
  { intros _. unfold pr_phase in H4. unfold z_phase. cbn. destruct (p_f s).
    - destruct H4 as (_ & _ & _ & HF). auto 10.
    - destruct H4 as (E & _). discriminate E.
    - destruct H4 as (E & _). destruct (is_read (p_header s)); [|destruct (p_length s =? 0)]; discriminate E.
    - destruct H4 as (_ & E & _). discriminate E.
    - destruct H4 as (n & l & E & _). discriminate E.
    - destruct H4 as (n & E & _). discriminate E.
    - destruct H4 as (ds & _ & E & _). discriminate E.
    - destruct H4 as (_ & _ & _ & H4). destruct (is_read (p_header s)); [destruct H4 as (n & E & _)|destruct H4 as (ds & E & _); destruct (p_length s =? 0)]; discriminate E.
    - destruct H4 as (_ & _ & H4). destruct (is_read (p_header s)); [destruct H4 as (n & E & _)|destruct H4 as (ds & E & _)]; discriminate E. }
  pose proof (run_inv_from (i2c_proto period stretch oe) (z_inv h) [] s P0 (z_step period stretch oe h RD) b) as H.
  cbn [app] in H. unfold state in E2. fold (state (i2c_proto period stretch oe) a) in E2. fold s in E2. rewrite E2 in H.
  unfold z_inv, z_acc in H. rewrite HA in H. apply H. exists []. reflexivity.
Qed.

Lemma z_run period stretch oe h : is_read h = true -> forall ins t1 t2,
  trace (i2c_proto period stretch oe) ins = t1 ++ t2 ->
  good_host t1 -> fst (host_view (map po_io t1)) = HIdle ->
  map bdata (accepted (map po_io t2)) = [h; 0] ->
  exists s, z_phase h s [h; 0] (emitted (map po_io t2)) (served (map po_i2c t2)) (emitted (map so_io (map po_i2c t2))).
Proof. intros RD ins t1 t2 E HG HI HA. eexists. eapply z_run_state; eauto. Qed.

(** C87, what does hold.  After any exchanges of a good host (C51), with nothing
    outstanding, the host sends a read header [h] and the length 0, and no other byte is
    taken.  If the device refuses its address the only answer is status 1, and nothing
    else happens on the I2C side.  If it accepts it, that transaction is closed, status 0
    is answered, and then up to 256 bytes are read in a transaction of their own, last on
    the 256th; the answer is status 0 and exactly these bytes. *)
Theorem C87_zero_read_partial : forall period stretch oe ins t1 t2 h,
  trace (i2c_proto period stretch oe) ins = t1 ++ t2 ->
  good_host t1 -> fst (host_view (map po_io t1)) = HIdle ->
  is_read h = true ->
  map bdata (accepted (map po_io t2)) = [h; 0] ->
  let answer := emitted (map po_io t2) in
  let beats := served (map po_i2c t2) in
  let data := emitted (map so_io (map po_i2c t2)) in
  let header := Beat false true (false, h) in
  beats = [] /\ answer = [] /\ data = [] \/
  beats = [(header, true)] /\ data = [] /\ (answer = [] \/ answer = [status_beat 1]) \/
  exists rs later,
    beats = (header, false) :: map (fun b => (b, false)) rs /\ rs ++ later = read_beats 256 /\
    (answer = [] /\ data = [] /\ rs = [] \/
     answer = status_beat 0 :: data /\ (length data <= length rs <= S (length data))%nat /\
     map blast data = map blast (firstn (length data) (read_beats 256))).
Proof.
  intros period stretch oe ins t1 t2 h E HG HI RD HA answer beats data header.
  pose proof (z_run period stretch oe h RD ins t1 t2 E HG HI HA) as (s & H).
  fold answer beats data in H. clearbody answer beats data. clear - H.
  unfold z_phase in H. destruct (p_f s).
  - destruct H as [_ [(E & _)|[(_ & -> & -> & ->)|(_ & -> & -> & HX)]]]; [discriminate|auto 10|].
    right. right. exists (read_beats 256), []. rewrite app_nil_r. split; [auto|]. split; [auto|]. right. split; [auto|].
    pose proof (f_equal (@length _) HX) as HL. rewrite !map_length in HL. rewrite HL. split; [lia|].
    rewrite firstn_all2 by lia. exact HX.
  - destruct H as (_ & _ & E & _). discriminate E.
  - destruct H as (_ & _ & _ & -> & -> & -> & _). auto.
  - destruct H as (_ & _ & _ & -> & -> & ->). right. right. exists [], (read_beats 256). split; [reflexivity|]. split; [reflexivity|]. left; auto.
  - destruct H as (left & HL & _ & -> & HF & -> & HX). right. right.
    set (rs := reads_done 256 (left_of (p_length s))). exists rs.
    assert (LO : 1 <= left_of (p_length s) <= 256) by (unfold left_of; destruct (Z.eqb_spec (p_length s) 0); lia).
    assert (LL : left_of (p_length s) <= left <= left_of (p_length s) + 1 /\ left <= 256).
    { unfold left_of. destruct (Z.eqb_spec (p_length s) 0); lia. }
    assert (SP : forall v, 1 <= v <= 256 -> read_beats 256 = reads_done 256 v ++ read_beats (Z.to_nat v)).
    { intros v Hv. unfold reads_done. rewrite <- rb_split by lia. f_equal. lia. }
    exists (read_beats (Z.to_nat (left_of (p_length s)))). split; [auto|]. split; [symmetry; apply SP; auto|]. right. split; [auto|].
    assert (LD : length data = length (reads_done 256 left)) by (apply (f_equal (@length _)) in HX; now rewrite !map_length in HX).
    assert (RL : forall v, length (reads_done 256 v) = Z.to_nat (256 - v)) by (intros; apply repeat_length).
    split; [unfold rs; rewrite LD, !RL; lia|]. rewrite HX. f_equal. rewrite (SP left) by lia. rewrite LD, firstn_app, Nat.sub_diag. cbn [firstn].
    now rewrite app_nil_r, firstn_all.
  - destruct H as (_ & -> & _ & _ & -> & HX). right. right. exists (read_beats 256), []. rewrite app_nil_r. do 2 (split; [auto|]). right. split; [auto|].
    assert (LD : length data = length (reads_done 256 1)) by (apply (f_equal (@length _)) in HX; now rewrite !map_length in HX).
    assert (RL : forall v, length (reads_done 256 v) = Z.to_nat (256 - v)) by (intros; apply repeat_length).
    split; [rewrite zfull, LD, app_length, RL; cbn [length]; lia|].
    rewrite HX, zfull, LD, firstn_app, Nat.sub_diag. cbn [firstn]. now rewrite app_nil_r, firstn_all.
  - destruct H.
  - destruct H as (_ & _ & _ & -> & -> & ->). auto 10.
  - destruct H as (_ & _ & _ & -> & -> & ->). auto 10.
Qed.

(** ... and when the status 1, or the 256th byte, has been taken the bridge takes the
    header of a new request in the next cycle. *)
Theorem C87_zero_read_ends_partial : forall period stretch oe ins t1 t2 o t3 h,
  trace (i2c_proto period stretch oe) ins = t1 ++ t2 ++ o :: t3 ->
  good_host t1 -> fst (host_view (map po_io t1)) = HIdle ->
  is_read h = true ->
  map bdata (accepted (map po_io t2)) = [h; 0] ->
  emitted (map po_io t2) = [status_beat 1] \/ length (emitted (map po_io t2)) = 257%nat ->
  o_sready (po_io o) = true.
Proof.
  intros period stretch oe ins t1 t2 o t3 h E HG HI RD HA HE.
  rewrite app_assoc in E. apply trace_one in E. destruct E as (a & [[k r] p] & b & -> & E & ->).
  pose proof (z_run_state period stretch oe h RD a t1 t2 E HG HI HA) as H.
  set (s := state _ a) in *. clearbody s. cbn [i2c_proto cout po_io o_sready].
  set (e := emitted (map po_io t2)) in *. clearbody e. unfold pr_rdy. unfold z_phase in H.
  assert (RL : forall v, length (reads_done 256 v) = Z.to_nat (256 - v)) by (intros; apply repeat_length).
  destruct (p_f s); auto.
  - destruct H as (_ & _ & _ & -> & _). destruct HE as [HE|HE]; discriminate HE.
  - destruct H as (_ & _ & _ & -> & _). destruct HE as [HE|HE]; discriminate HE.
  - destruct H as (left & HL & _ & -> & HF & _ & HX). exfalso. destruct HE as [HE|HE]; [discriminate HE|].
    apply (f_equal (@length _)) in HX. rewrite !map_length, RL in HX. cbn [length] in HE. lia.
  - destruct H as (_ & -> & _ & _ & _ & HX). exfalso. destruct HE as [HE|HE]; [discriminate HE|].
    apply (f_equal (@length _)) in HX. rewrite !map_length, RL in HX. cbn [length] in HE. lia.
  - destruct H as (_ & _ & _ & -> & _). destruct HE as [HE|HE]; discriminate HE.
  - destruct H as (_ & _ & _ & -> & _). destruct HE as [HE|HE]; discriminate HE.
Qed.

(** A write, then a read of 0 bytes to a device that refuses it, and one to a device that
    accepts it (the run of C87_zero_read_refuted is a beginning of the latter). *)
Definition pz_write : list (chan Z * bool * pads) := prb 0x10 false :: prb 0 false :: repeat (prn false) 120.
Example C87_nonvacuous :
  let t1 := trace (i2c_proto 4 false true) pz_write in
  let t2 := trace_from (i2c_proto 4 false true) (state (i2c_proto 4 false true) pz_write) (prb 0x11 true :: prb 0 true :: repeat (prn true) 120) in
  good_host t1 /\ host_view (map po_io t1) = (HIdle, [Wrote 0x10 [] [status_beat 0]]) /\
  map bdata (accepted (map po_io t2)) = [0x11; 0] /\
  emitted (map po_io t2) = [status_beat 1] /\
  let t3 := trace_from (i2c_proto 4 false true) (state (i2c_proto 4 false true) pz_write) (prb 0x11 false :: prb 0 false :: repeat (prn false) 300) in
  map bdata (accepted (map po_io t3)) = [0x11; 0] /\
  emitted (map po_io t3) = [status_beat 0; Beat false false 0; Beat false false 0].
Proof.
  cbv zeta. split; [apply good_hostb_ok; vm_compute; reflexivity|]. vm_compute. auto.
Qed.

Print Assumptions C87_zero_read_partial.
Print Assumptions C87_zero_read_ends_partial.
