(** Proofs about I2CProto. *)
From Verif Require Import Stream I2c_model I2cstream_model I2cstream_spec I2cproto_model I2cproto_spec.
From Coq Require Import Lia.

Lemma host_snoc t o : host_view (t ++ [o]) = host_step (host_view t) o.
Proof. unfold host_view. now rewrite fold_left_app. Qed.

Lemma served_snoc t o : served (t ++ [o]) = served t ++ map (fun b => (b, so_error o)) (xfer (o_sink (so_io o)) (o_sready (so_io o))).
Proof. unfold served. rewrite flat_map_app. cbn. now rewrite app_nil_r. Qed.

Lemma addressed_fst t : fst (fold_left addressed_step t ((HIdle, []), false)) = host_view (map po_io t).
Proof.
  induction t as [|o t IH] using rev_ind; [reflexivity|]. rewrite fold_left_app, map_app. cbn [fold_left map]. rewrite host_snoc, <- IH. reflexivity.
Qed.
Lemma addressed_snoc t o : addressed (t ++ [o]) =
  match fst (host_view (map po_io t)) with HIdle => false | _ => addressed t || match served [po_i2c o] with [] => false | _ => true end end.
Proof. unfold addressed. rewrite fold_left_app. cbn [fold_left]. unfold addressed_step at 1. cbn [snd]. now rewrite addressed_fst. Qed.

Definition ended (f : ist_fsm) : Prop := f = IsIdle \/ f = IsStop \/ f = IsWStop.

Section Inner.
  Context (period : Z) (stretch oe : bool).
  Let nx := ist_next period stretch oe.

  Lemma in_rest s b r p : ended (is_f s) ->
    ended (is_f (nx s (Chan false b) r p)) /\ ist_rdy s (Chan false b) = false /\ cvalid (ist_src s) = false /\ ist_err s = false.
  Proof.
    destruct s as [f l i]. unfold ended, nx. cbn [is_f]. unfold ist_next, ist_fnext, ist_rdy, ist_rd, ist_src, ist_err, ist_is. cbn [is_f cvalid].
    intros [->|[->| ->]]; cbn; rewrite ?andb_false_r; auto 10. destruct (ist_idle _); auto 10.
  Qed.

  Lemma in_write s b0 l x r p : is_f s <> IsWRead -> (is_f s = IsWWrite -> is_last s = l) ->
    let k := Chan true (Beat b0 l (false, x)) in
    let s' := nx s k r p in
    cvalid (ist_src s) = false /\
    (ist_rdy s k = false /\ ist_err s = false /\ is_f s' <> IsWRead /\ (is_f s' = IsWWrite -> is_last s' = l) /\
       (is_f s = IsXfer \/ is_f s = IsWWrite -> is_f s' = IsWWrite) \/
     ist_rdy s k = true /\ is_f s' = if ist_err s || l then IsStop else IsXfer).
  Proof.
    destruct s as [f ls i]. unfold nx. cbn [is_f is_last]. intros H1 H2. cbv zeta.
    unfold ist_next, ist_fnext, ist_rdy, ist_rd, ist_wr, ist_src, ist_err, ist_is, ist_idle. cbn [is_f is_last is_i cvalid cbeat bdata fst blast].
    destruct f; cbn; split; try reflexivity.
    all: try (left; intuition (try discriminate; auto); fail).
    - left. destruct (s_busy i); cbn; intuition (try discriminate; auto).
    - left. destruct (s_busy i); cbn; intuition (try discriminate; auto).
    - specialize (H2 eq_refl). subst ls. destruct (s_busy i); cbn.
      + left. repeat split; auto; discriminate.
      + right. split; auto. destruct (d_acko (s_d i)), l; reflexivity.
    - congruence.
    - left. destruct (s_busy i); cbn; intuition (try discriminate; auto).
  Qed.

  Lemma in_read s b0 l x r p : is_f s = IsXfer ->
    let k := Chan true (Beat b0 l (true, x)) in
    let s' := nx s k r p in
    cvalid (ist_src s) = false /\ ist_rdy s k = true /\ ist_err s = false /\ is_f s' = IsWRead /\ is_last s' = l.
  Proof. destruct s as [f ls i]. cbn [is_f]. intros ->. cbn. auto. Qed.

  Lemma in_wait s k r p : is_f s = IsWRead ->
    let s' := nx s k r p in
    ist_rdy s k = false /\ ist_err s = false /\ is_last s' = is_last s /\
    (cvalid (ist_src s) = true -> blast (cbeat (ist_src s)) = is_last s) /\
    is_f s' = if cvalid (ist_src s) && r then if is_last s then IsStop else IsXfer else IsWRead.
  Proof.
    destruct s as [f ls i]. cbn [is_f]. intros ->. cbn. unfold ist_src, ist_idle, ist_fnext. cbn. destruct (s_busy i); cbn; intuition (try discriminate; auto).
  Qed.

  Lemma in_xfer s b : is_f s = IsXfer ->
    ist_rdy s (Chan false b) = false /\ cvalid (ist_src s) = false /\ ist_err s = false /\ forall r p, is_f (nx s (Chan false b) r p) = IsXfer.
  Proof. destruct s as [f ls i]. cbn [is_f]. intros ->. cbn. auto. Qed.
End Inner.

Definition hdr (h : Z) (e : bool) : beat (bool * Z) * bool := (Beat false false (false, h), e).
Definition acked_write (x : Z) : beat (bool * Z) * bool := hdr x false.
Definition refused_at (h : Z) (ds : list Z) (l : Z) (xs : list (beat (bool * Z) * bool)) : Prop :=
  forall rest, Z.of_nat (length rest) = l ->
    exists good b tl, write_beats (h :: ds ++ rest) = good ++ b :: tl /\ xs = taken good ++ [(b, true)].

Lemma wb_open l r : r <> [] -> write_beats (l ++ r) = map (fun x => Beat false false (false, x)) l ++ write_beats r.
Proof.
  intros Hr. induction l as [|x l IH]; [reflexivity|]. cbn [app write_beats map]. rewrite IH.
  destruct (l ++ r) eqn:E; [apply app_eq_nil in E; tauto|reflexivity].
Qed.

Lemma taken_app {A} (a b : list A) : taken (a ++ b) = taken a ++ taken b.
Proof. apply map_app. Qed.

Lemma taken_acked l : taken (map (fun x => Beat false false (false, x)) l) = map acked_write l.
Proof. unfold taken. rewrite map_map. reflexivity. Qed.

Lemma rb_split (n m : nat) : (1 <= m)%nat -> read_beats (n + m) = repeat (Beat false false (true, 0)) n ++ read_beats m.
Proof.
  intros Hm. induction n as [|n IH]; [reflexivity|]. cbn [plus read_beats repeat app]. rewrite IH.
  destruct (n + m)%nat eqn:E; [lia|reflexivity].
Qed.

(** Reads served / bytes delivered when [l] are left. *)
Definition reads_done (n l : Z) : list (beat (bool * Z)) := repeat (Beat false false (true, 0)) (Z.to_nat (n - l)).

Lemma reads_full n : 1 <= n -> read_beats (Z.to_nat n) = reads_done n 1 ++ [Beat false true (true, 0)].
Proof.
  intros. unfold reads_done. replace (Z.to_nat n) with (Z.to_nat (n - 1) + 1)%nat by lia. rewrite rb_split by lia. reflexivity.
Qed.

Lemma reads_more n l : 1 <= l <= n -> reads_done n (l - 1) = reads_done n l ++ [Beat false false (true, 0)].
Proof.
  intros. unfold reads_done. replace (Z.to_nat (n - (l - 1))) with (S (Z.to_nat (n - l))) by lia. cbn [repeat]. now rewrite repeat_cons.
Qed.

Section Proto.
  Context (period : Z) (stretch oe : bool).
  Let c := i2c_proto period stretch oe.

  Definition pr_phase (s : pr_state) (hs : host) (xs : list (beat (bool * Z) * bool)) (xd : list (beat Z)) : Prop :=
    let h := p_header s in let l := p_length s in let f := is_f (p_i s) in let lst := is_last (p_i s) in
    match p_f s with
    | PHeader => hs = HIdle /\ xs = [] /\ xd = [] /\ ended f
    | PLength => hs = HHeader h /\ xs = [] /\ xd = [] /\ ended f
    | PAddr => hs = (if is_read h then HStatusR h l else if l =? 0 then HStatusW h [] else HData h [] l) /\
               0 <= l < 256 /\ xs = [] /\ xd = [] /\ f <> IsWRead /\ (f = IsWWrite -> lst = (l =? 0))
    | POk => is_read h = true /\ hs = HStatusR h l /\ 1 <= l < 256 /\ xs = [hdr h false] /\ xd = [] /\ f = IsXfer
    | PRead => exists n left, hs = HBytes h n (status_beat 0 :: xd) left /\ 1 <= l <= n /\ n < 256 /\
                 (f = IsXfer /\ left = l \/ f = IsWRead /\ left = l + 1 /\ lst = false /\ left <= n) /\
                 xs = hdr h false :: taken (reads_done n l) /\ map blast xd = map blast (reads_done n left)
    | PFlush => exists n, hs = HBytes h n (status_beat 0 :: xd) 1 /\ 1 <= n < 256 /\ f = IsWRead /\ lst = true /\
                 xs = hdr h false :: taken (read_beats (Z.to_nat n)) /\ map blast xd = map blast (reads_done n 1)
    | PWrite => exists ds, is_read h = false /\ hs = HData h ds l /\ 1 <= l < 256 /\ xs = map acked_write (h :: ds) /\ xd = [] /\
                 (f = IsXfer \/ f = IsWWrite) /\ (f = IsWWrite -> lst = (l =? 1))
    | PError => xd = [] /\ ended f /\ 0 <= l < 256 /\
                if is_read h then exists n, hs = HStatusR h n /\ xs = [hdr h true]
                else exists ds, hs = (if l =? 0 then HStatusW h ds else HData h ds l) /\ refused_at h ds l xs
    | PStatus => xd = [] /\ ended f /\
                if is_read h then exists n, hs = HStatusR h n /\ xs = [hdr h true] /\ p_status s = 1
                else exists ds, hs = HStatusW h ds /\
                  (p_status s = 0 /\ xs = taken (write_beats (h :: ds)) \/ p_status s = 1 /\ refused_at h ds 0 xs)
    end.

  Definition pr_inv (t : list pr_obs) (s : pr_state) : Prop :=
    exists segs xs xd,
      Forall2 (fun e g => executed e (fst g) (snd g)) (snd (host_view (map po_io t))) segs /\
      served (map po_i2c t) = concat (map fst segs) ++ xs /\
      emitted (map so_io (map po_i2c t)) = concat (map snd segs) ++ xd /\
      pr_phase s (fst (host_view (map po_io t))) xs xd.
  Definition pr_addr (t : list pr_obs) (s : pr_state) : Prop := p_f s = PWrite \/ p_f s = PError -> addressed t = true.

  Lemma xfer_no {A} (k : chan A) : xfer k false = [].
  Proof. unfold xfer. now rewrite andb_false_r. Qed.
  Lemma xfer_inv {A} (k : chan A) r : cvalid k = false -> xfer k r = [].
  Proof. unfold xfer. now intros ->. Qed.

  Lemma trunc_dec l : 1 <= l < 256 -> trunc 8 (l - 1) = l - 1.
  Proof. intros. apply trunc_small. lia. Qed.

  Lemma pr_inv_step t s k r p :
    good_host (t ++ [cout c s (k, r, p)]) -> pr_addr t s -> pr_inv t s -> pr_inv (t ++ [cout c s (k, r, p)]) (cnext c s (k, r, p)).
  Proof.
    intros HG HA (segs & xs & xd & HL & HS & HE & HP). unfold pr_inv, pr_addr in *.
    set (o := cout c s (k, r, p)) in *.
    assert (O1 : o_sink (po_io o) = k) by reflexivity. assert (O2 : o_sready (po_io o) = pr_rdy s k) by reflexivity.
    assert (O3 : o_src (po_io o) = pr_src s) by reflexivity. assert (O4 : o_rready (po_io o) = r) by reflexivity.
    assert (O5 : o_sink (so_io (po_i2c o)) = pr_isink s k) by reflexivity. assert (O6 : o_sready (so_io (po_i2c o)) = pr_go s k) by reflexivity.
    assert (O7 : o_src (so_io (po_i2c o)) = ist_src (p_i s)) by reflexivity. assert (O8 : o_rready (so_io (po_i2c o)) = pr_irdy s r) by reflexivity.
    assert (O9 : so_error (po_i2c o) = ist_err (p_i s)) by reflexivity.
    clearbody o. rewrite !map_app in *. cbn [map] in *. rewrite host_snoc, served_snoc, emitted_app, emitted_1.
    rewrite O5, O6, O7, O8, O9, HS, HE.
    destruct (HG t o [] eq_refl) as [HB HV]. rewrite O1 in HB, HV.
    destruct (host_view (map po_io t)) as [hs log] eqn:HH. cbn [fst snd] in *. unfold host_step. rewrite O1, O2, O3, O4.
    unfold host_sent, host_got. cbn [cnext c i2c_proto]. clear HG HS HE HH O1 O2 O3 O4 O5 O6 O7 O8 O9 o. set (ad := addressed t) in *. clearbody ad. clear t.
    destruct s as [f h l u i]. unfold pr_phase in HP. cbn [p_f p_header p_length p_status p_i] in HP, HA.
    unfold pr_rdy, pr_src, pr_irdy, pr_go, pr_next. cbn [p_f p_header p_length p_status p_i].
    unfold pr_go, pr_isink. cbn [p_f p_header p_length p_status p_i].
    destruct f.
    - (* header *)
      destruct HP as (-> & -> & -> & HF). destruct (in_rest period stretch oe i (Beat false false (false, 0)) (pr_irdy (Pr PHeader h l u i) r) p HF) as (I1 & I2 & I3 & I4).
      rewrite I2. rewrite !xfer_no. cbn [map]. rewrite !app_nil_r.
      rewrite (xfer_inv (Chan false _)) by reflexivity.
      exists segs, [], []. rewrite !app_nil_r. unfold xfer. rewrite andb_true_r. destruct (cvalid k); cbn [fst snd]; do 3 (split; [auto|]).
      all: unfold pr_phase; cbn [p_f p_header p_length p_status p_i]; auto.
    - (* length *)
      destruct HP as (-> & -> & -> & HF). destruct (in_rest period stretch oe i (Beat false false (false, 0)) (pr_irdy (Pr PLength h l u i) r) p HF) as (I1 & I2 & I3 & I4).
      rewrite I2. rewrite !xfer_no. cbn [map]. rewrite !app_nil_r.
      rewrite (xfer_inv (Chan false _)) by reflexivity. unfold xfer. rewrite andb_true_r.
      exists segs, [], []. rewrite !app_nil_r. destruct (cvalid k); cbn [fst snd]; do 3 (split; [auto|]).
      all: unfold pr_phase; cbn [p_f p_header p_length p_status p_i]; auto. do 4 (split; [auto|]).
      destruct I1 as [-> | [-> | ->]]; split; discriminate.
    - (* addr *)
      destruct HP as (-> & HL2 & -> & -> & HF & HF2). cbn [pr_irdy p_f].
      destruct (in_write period stretch oe i false (l =? 0) h false p HF HF2) as [I1 I2]. cbv zeta in I2.
      set (kk := Chan true (Beat false (l =? 0) (false, h))) in *. cbn [pr_irdy p_f]. set (i' := ist_next period stretch oe i kk false p) in *.
      rewrite !xfer_no, (xfer_inv (Chan false _)) by reflexivity. rewrite !app_nil_r.
      destruct I2 as [(J1 & J2 & J3 & J4 & _)|(J1 & J2)]; rewrite J1.
      + rewrite xfer_no. exists segs, [], []. cbn [fst snd map]. rewrite !app_nil_r. do 3 (split; [auto|]).
        unfold pr_phase; cbn [p_f p_header p_length p_status p_i]. auto 10.
      + cbn [xfer cvalid kk andb cbeat map]. change (xfer kk true) with [Beat false (l =? 0) (false, h)]. cbn [map].
        assert (EN : ended IsStop) by (right; left; reflexivity).
        change (Z.testbit h 0) with (is_read h). cbn [fst snd].
        exists segs, [(Beat false (l =? 0) (false, h), ist_err i)], []. rewrite !app_nil_r. do 3 (split; [auto|]).
        destruct (ist_err i) eqn:ER.
        * unfold pr_phase; cbn [p_f p_header p_length p_status p_i]. rewrite J2. cbn [orb]. do 3 (split; [auto|]).
          destruct (is_read h) eqn:RD.
          -- exists l. split; auto. destruct HV as [_ HV]. destruct (Z.eqb_spec l 0); [congruence|]. reflexivity.
          -- exists []. split; auto. intros rest HRs. destruct rest as [|y rest].
             ++ exists [], (Beat false true (false, h)), []. cbn in *. split; auto. destruct (Z.eqb_spec l 0); [auto|lia].
             ++ exists [], (Beat false false (false, h)), (write_beats (y :: rest)). cbn [app taken map]. split; [reflexivity|].
                destruct (Z.eqb_spec l 0); [cbn in HRs; lia|auto].
        * destruct (is_read h) eqn:RD; [|destruct (Z.eqb_spec l 0) as [L0|L0]; destruct (Z.leb_spec 1 l); try lia];
          unfold pr_phase; cbn [p_f p_header p_length p_status p_i]; rewrite J2; cbn [orb].
          -- destruct HV as [_ HV]. destruct (Z.eqb_spec l 0); [congruence|]. repeat split; auto; lia.
          -- rewrite RD. do 2 (split; [auto|]). exists []. split; auto.
          -- exists []. repeat split; auto; try lia. discriminate.
    - (* ok *)
      destruct HP as (RD & -> & HL2 & -> & -> & HF). destruct HV as [HV _].
      destruct (in_xfer period stretch oe i (Beat false false (false, 0)) HF) as (I1 & I2 & I3 & I4). cbn [pr_irdy p_f].
      rewrite I1, !xfer_no. cbn [map]. rewrite !app_nil_r.
      exists segs, [hdr h false], []. rewrite app_nil_r. unfold xfer. cbn [cvalid andb cbeat].
      destruct r; cbn [bdata fst snd Z.eqb]; do 3 (split; [auto|]);
      unfold pr_phase; cbn [p_f p_header p_length p_status p_i]; rewrite I4.
      + exists l, l. split; [reflexivity|]. split; [lia|]. split; [lia|]. split; [auto|]. unfold reads_done. rewrite Z.sub_diag. split; reflexivity.
      + auto 10.
    - (* read *)
      destruct HP as (n & left & -> & HL2 & HN & HF & -> & HX). cbn [pr_irdy p_f].
      rewrite !(xfer_no k). destruct HF as [(HF & ->)|(HF & -> & HLs & HLn)].
      + destruct (in_read period stretch oe i false (l =? 1) 0 r p HF) as (I1 & I2 & I3 & I4 & I5). cbv zeta in *.
        set (kk := Chan true (Beat false (l =? 1) (true, 0))) in *. set (i' := ist_next period stretch oe i kk r p) in *.
        rewrite I2, I3, !(xfer_inv (ist_src i)) by auto. change (xfer kk true) with [Beat false (l =? 1) (true, 0)]. cbn [map fst snd].
        rewrite !app_nil_r. rewrite trunc_dec by lia.
        exists segs, (hdr h false :: taken (reads_done n l) ++ [(Beat false (l =? 1) (true, 0), false)]), xd.
        split; [auto|]. split; [rewrite <- app_assoc; reflexivity|]. split; [auto|].
        destruct (Z.eqb_spec l 1) as [->|L1]; unfold pr_phase; cbn [p_f p_header p_length p_status p_i].
        * exists n. rewrite I4, I5. repeat split; auto; try lia. rewrite reads_full, taken_app by lia. reflexivity.
        * exists n, l. split; [auto|]. split; [lia|]. split; [lia|]. split; [right; rewrite I4, I5; repeat split; auto; lia|].
          split; auto. rewrite reads_more, taken_app by lia. reflexivity.
      + set (kk := Chan true (Beat false (l =? 1) (true, 0))) in *.
        destruct (in_wait period stretch oe i kk r p HF) as (I1 & I2 & I3 & I4 & I5). cbv zeta in *.
        set (i' := ist_next period stretch oe i kk r p) in *. rewrite I1, I2, xfer_no. cbn [map]. rewrite !app_nil_r.
        unfold xfer. destruct (cvalid (ist_src i) && r) eqn:FI; cbn [fst snd].
        * apply andb_true_iff in FI. destruct FI as [FI1 FI2]. destruct (Z.eqb_spec (l + 1) 1); [lia|]. cbn [fst snd].
          exists segs, (hdr h false :: taken (reads_done n l)), (xd ++ [cbeat (ist_src i)]).
          split; [auto|]. split; [auto|]. split; [now rewrite app_assoc|]. unfold pr_phase; cbn [p_f p_header p_length p_status p_i].
          exists n, l. rewrite I5, HLs. split; [f_equal; lia|]. split; [lia|]. split; [lia|]. split; [auto|]. split; [auto|].
          replace l with (l + 1 - 1) by lia. rewrite reads_more, !map_app, HX by lia. cbn [map]. now rewrite I4, HLs.
        * exists segs, (hdr h false :: taken (reads_done n l)), xd. rewrite !app_nil_r. do 3 (split; [auto|]).
          unfold pr_phase; cbn [p_f p_header p_length p_status p_i]. exists n, (l + 1). split; [auto|]. split; [auto|]. split; [auto|].
          split; [right; rewrite I3, I5; auto|]. auto.
    - (* flush *)
      destruct HP as (n & -> & HN & HF & HLs & -> & HX). cbn [pr_irdy p_f pr_src p_i].
      rewrite !(xfer_no k). set (kk := Chan false _) in *.
      destruct (in_wait period stretch oe i kk r p HF) as (I1 & I2 & I3 & I4 & I5). cbv zeta in *.
      set (i' := ist_next period stretch oe i kk r p) in *. rewrite I1, I2, xfer_no. cbn [map]. rewrite !app_nil_r.
      unfold xfer. destruct (cvalid (ist_src i) && r) eqn:FI; cbn [fst snd andb].
      + apply andb_true_iff in FI. destruct FI as [FI1 FI2]. rewrite I4, HLs by auto. cbn [Z.eqb Pos.eqb fst snd].
        exists (segs ++ [(hdr h false :: taken (read_beats (Z.to_nat n)), xd ++ [cbeat (ist_src i)])]), [], [].
        split.
        { apply Forall2_app; auto. constructor; [|constructor]. cbn [fst snd]. cbn [app]. constructor.
          rewrite map_app, HX, reads_full, map_app by lia. cbn [map blast]. now rewrite I4, HLs. }
        rewrite !map_app, !concat_app. cbn [map concat fst snd]. rewrite !app_nil_r. split; [auto|]. split; [now rewrite app_assoc|].
        unfold pr_phase; cbn [p_f p_header p_length p_status p_i]. rewrite I5, HLs. repeat split; auto. right; auto.
      + exists segs, (hdr h false :: taken (read_beats (Z.to_nat n))), xd. rewrite !app_nil_r. do 3 (split; [auto|]).
        unfold pr_phase; cbn [p_f p_header p_length p_status p_i]. exists n. rewrite I3, I5. auto 10.
    - (* write *)
      destruct HP as (ds & RD & -> & HL2 & -> & -> & HF & HF2). cbn [pr_irdy p_f].
      assert (HF1 : is_f i <> IsWRead) by (destruct HF as [HF|HF]; rewrite HF; discriminate).
      destruct (in_write period stretch oe i false (l =? 1) (bdata (cbeat k)) false p HF1 HF2) as [I1 I2]. cbv zeta in I2.
      set (kk := Chan true (Beat false (l =? 1) (false, bdata (cbeat k)))) in *. set (i' := ist_next period stretch oe i kk false p) in *.
      rewrite !xfer_no, (xfer_inv (Chan false _)) by reflexivity. rewrite !app_nil_r.
      destruct I2 as [(J1 & J2 & J3 & J4 & J5)|(J1 & J2)]; rewrite J1.
      + rewrite !xfer_no. exists segs, (map acked_write (h :: ds)), []. cbn [fst snd map]. rewrite !app_nil_r. do 3 (split; [auto|]).
        unfold pr_phase; cbn [p_f p_header p_length p_status p_i]. exists ds. specialize (J5 HF). rewrite J5 in *. auto 10.
      + assert (XK : xfer k true = [cbeat k]) by (unfold xfer; now rewrite HV by auto). rewrite XK. change (xfer kk true) with [Beat false (l =? 1) (false, bdata (cbeat k))]. cbn [map].
        rewrite trunc_dec by lia. set (x := bdata (cbeat k)) in *.
        assert (EN : ended IsStop) by (right; left; reflexivity).
        exists segs, (map acked_write (h :: ds) ++ [(Beat false (l =? 1) (false, x), ist_err i)]), []. rewrite !app_nil_r.
        assert (RF : ist_err i = true -> refused_at h (ds ++ [x]) (l - 1) (map acked_write (h :: ds) ++ [(Beat false (l =? 1) (false, x), true)])).
        { intros _ rest HRs. exists (map (fun x => Beat false false (false, x)) (h :: ds)), (Beat false (l =? 1) (false, x)), (write_beats rest).
          rewrite taken_acked. split; auto. rewrite <- app_assoc. change (h :: ds ++ [x] ++ rest) with ((h :: ds) ++ (x :: rest)).
          rewrite wb_open by discriminate. f_equal. cbn [write_beats]. f_equal. f_equal. destruct rest; cbn in HRs; destruct (Z.eqb_spec l 1); auto; lia. }
        destruct (Z.eqb_spec l 1) as [->|L1]; cbn [fst snd]; (split; [auto|split; [now rewrite app_assoc|split; [auto|]]]);
        destruct (ist_err i) eqn:ER; unfold pr_phase; cbn [p_f p_header p_length p_status p_i]; rewrite J2; cbn [orb]; rewrite ?RD.
        * do 3 (split; [auto; lia|]). exists (ds ++ [x]). split; [reflexivity|]. apply RF; auto.
        * do 2 (split; [auto|]). exists (ds ++ [x]). split; [reflexivity|]. left. split; auto.
          change (h :: ds ++ [x]) with ((h :: ds) ++ [x]). rewrite wb_open, taken_app, taken_acked by discriminate. reflexivity.
        * do 3 (split; [auto; lia|]). exists (ds ++ [x]). destruct (Z.eqb_spec (l - 1) 0); [lia|]. split; [reflexivity|]. apply RF; auto.
        * exists (ds ++ [x]). repeat split; auto; try lia; try discriminate. cbn [map app]. now rewrite map_app.
    - (* error *)
      destruct HP as (-> & HF & HL2 & HP). cbn [pr_irdy p_f].
      destruct (in_rest period stretch oe i (Beat false false (false, 0)) false p HF) as (I1 & I2 & I3 & I4).
      rewrite I2, !xfer_no. cbn [map]. rewrite !app_nil_r. rewrite (xfer_inv (Chan false _)) by reflexivity.
      destruct (is_read h) eqn:RD.
      + destruct HP as (n & -> & ->). destruct HV as [HV HV0]. rewrite (xfer_inv k) by auto.
        exists segs, [hdr h true], []. rewrite !app_nil_r. cbn [fst snd]. do 3 (split; [auto|]). unfold pr_phase.
        destruct (Z.leb_spec 1 l); cbn [p_f p_header p_length p_status p_i]; rewrite RD.
        * rewrite trunc_dec by lia. do 3 (split; [auto; lia|]). eauto.
        * do 2 (split; [auto|]). eauto.
      + destruct HP as (ds & -> & HRf). exists segs, xs, []. rewrite !app_nil_r.
        destruct (Z.leb_spec 1 l).
        * destruct (Z.eqb_spec l 0); [lia|]. cbn [fst snd] in *. unfold xfer. rewrite HV by auto. cbn [andb].
          assert (HRf' : refused_at h (ds ++ [bdata (cbeat k)]) (l - 1) xs).
          { intros rest HRs. rewrite <- app_assoc. cbn [app]. apply HRf. cbn [length]. lia. }
          rewrite trunc_dec by lia. destruct (Z.eqb_spec l 1) as [->|]; cbn [fst snd]; do 3 (split; [auto|]); unfold pr_phase; cbn [p_f p_header p_length p_status p_i];
          rewrite RD; do 3 (split; [auto; lia|]); exists (ds ++ [bdata (cbeat k)]); split; auto.
          destruct (Z.eqb_spec (l - 1) 0); [lia|auto].
        * assert (l = 0) by lia. subst l. cbn [Z.eqb]. rewrite xfer_no. cbn [fst snd]. do 3 (split; [auto|]). unfold pr_phase; cbn [p_f p_header p_length p_status p_i].
          rewrite RD. do 2 (split; [auto|]). exists ds. auto.
    - (* status *)
      destruct HP as (-> & HF & HP). cbn [pr_irdy p_f].
      destruct (in_rest period stretch oe i (Beat false false (false, 0)) false p HF) as (I1 & I2 & I3 & I4).
      rewrite I2, !xfer_no. cbn [map]. rewrite !app_nil_r.
      unfold xfer. cbn [cvalid andb]. destruct r; cbn [andb cbeat].
      + destruct (is_read h) eqn:RD.
        * destruct HP as (n & -> & -> & ->). cbn [bdata Z.eqb fst snd]. exists (segs ++ [([hdr h true], [])]), [], [].
          split. { apply Forall2_app; auto. constructor; [|constructor]. constructor. }
          rewrite !map_app, !concat_app. cbn [map concat fst snd]. rewrite !app_nil_r. do 2 (split; [auto|]).
          unfold pr_phase; cbn [p_f p_i]. auto.
        * destruct HP as (ds & -> & HP). cbn [fst snd]. exists (segs ++ [(xs, [])]), [], [].
          split. { apply Forall2_app; auto. constructor; [|constructor]. cbn [fst snd]. destruct HP as [[-> ->]|[-> HRf]].
            - apply ex_write.
            - destruct (HRf [] eq_refl) as (good & b & tl & E1 & ->). rewrite app_nil_r in E1. econstructor; eauto. }
          rewrite !map_app, !concat_app. cbn [map concat fst snd]. rewrite !app_nil_r. do 2 (split; [auto|]).
          unfold pr_phase; cbn [p_f p_i]. auto.
      + exists segs, xs, []. rewrite !app_nil_r. destruct (is_read h) eqn:RD.
        * destruct HP as (n & -> & -> & ->). cbn [fst snd]. do 3 (split; [auto|]). unfold pr_phase; cbn [p_f p_header p_length p_status p_i]. rewrite RD. eauto 10.
        * destruct HP as (ds & -> & HP). cbn [fst snd]. do 3 (split; [auto|]). unfold pr_phase; cbn [p_f p_header p_length p_status p_i]. rewrite RD. eauto 10.
  Qed.

  Lemma pr_addr_step t s i : pr_inv t s -> pr_addr t s -> pr_addr (t ++ [cout c s i]) (cnext c s i).
  Proof.
    destruct i as [[k r] p]. intros (segs & xs & xd & _ & _ & _ & HP) HA. unfold pr_addr in *. rewrite addressed_snoc.
    set (o := cout c s (k, r, p)). assert (O5 : served [po_i2c o] = map (fun b => (b, ist_err (p_i s))) (xfer (pr_isink s k) (pr_go s k))).
    { unfold served. cbn [flat_map]. rewrite app_nil_r. reflexivity. }
    rewrite O5. clear O5 o. set (hs := fst (host_view (map po_io t))) in *. clearbody hs. set (ad := addressed t) in *. clearbody ad. clear t.
    cbn [cnext c i2c_proto]. destruct s as [f h l u i]. unfold pr_phase in HP. cbn [p_f p_header p_length p_status p_i] in HP, HA.
    unfold pr_next. cbn [p_f p_header p_length p_status p_i].
    destruct f; cbn [p_f].
    - intros HX. exfalso. destruct (cvalid k); cbn [p_f] in HX; destruct HX; discriminate.
    - intros HX. exfalso. destruct (cvalid k); cbn [p_f] in HX; destruct HX; discriminate.
    - destruct HP as (-> & _). destruct (pr_go _ k); cbn [p_f].
      + intros _. unfold xfer, pr_isink. cbn [p_f cvalid andb cbeat map]. destruct (is_read h); [|destruct (l =? 0)]; apply orb_true_r.
      + intros [HX|HX]; discriminate.
    - intros HX. exfalso. destruct r; cbn [p_f] in HX; destruct HX; discriminate.
    - intros HX. exfalso. destruct (pr_go _ k); [destruct (l =? 1)|]; cbn [p_f] in HX; destruct HX; discriminate.
    - intros HX. exfalso. destruct (cvalid _ && r && _); cbn [p_f] in HX; destruct HX; discriminate.
    - destruct HP as (ds & _ & -> & _). intros _. rewrite HA by auto. reflexivity.
    - destruct HP as (_ & _ & _ & HP). intros _. rewrite HA by auto. destruct (is_read h).
      + destruct HP as (n & -> & _). reflexivity.
      + destruct HP as (ds & -> & _). destruct (l =? 0); reflexivity.
    - intros HX. exfalso. destruct r; cbn [p_f] in HX; destruct HX; discriminate.
  Qed.

  Lemma good_prefix t u : good_host (t ++ u) -> good_host t.
  Proof. intros H t1 o t2 ->. apply (H t1 o (t2 ++ u)). now rewrite <- app_assoc. Qed.

  Lemma pr_both_run ins : good_host (trace c ins) -> pr_inv (trace c ins) (state c ins) /\ pr_addr (trace c ins) (state c ins).
  Proof.
    apply (run_inv_hyp c good_host (fun t s => pr_inv t s /\ pr_addr t s)).
    - apply good_prefix.
    - split.
      + exists [], [], []. cbn. unfold ended. auto 10.
      + intros [H|H]; discriminate.
    - intros t s i HG [H1 H2]. split; [|now apply pr_addr_step]. destruct i as [[k r] p]. apply pr_inv_step; auto.
  Qed.

  Lemma pr_inv_run ins : good_host (trace c ins) -> pr_inv (trace c ins) (state c ins).
  Proof. intros. now apply pr_both_run. Qed.
End Proto.
