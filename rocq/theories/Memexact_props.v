(** MemoryStream cycle by cycle: what exactly is offered (C29), and the buffered stream as
    the unbuffered one with at most one word on its way. *)
From Verif Require Import Stream Pipe_model Mem_model Mem_spec Mem_proofs.

(** Positions wrap at the smallest power of two that holds the depth. *)
Definition positions (depth : Z) : Z := 2 ^ range_width depth.
(** The position of the next word: the words accepted, and those delivered, since the last
    rewind. *)
Definition wpos (depth : Z) (t : list mem_obs) : Z := Z.of_nat (length (ms_written (since mo_rewind t))) mod positions depth.
Definition rpos (depth : Z) (t : list mem_obs) : Z := Z.of_nat (length (ms_delivered (since mo_rewind t))) mod positions depth.
(** The words present: one more than the position of the word accepted last, however
    many rewinds ago (and 0 again when that position is the last one of a memory whose
    depth is not a power of two). *)
Definition present (depth p : Z) : Z := (p + 1) mod 2 ^ range_width (depth + 1).
Fixpoint level_of (depth : Z) (seen t : list mem_obs) (n : Z) : Z :=
  match t with
  | [] => n
  | o :: t' => level_of depth (seen ++ [o]) t' (if cvalid (mo_sink o) && mo_sready o then present depth (wpos depth seen) else n)
  end.
Definition level (depth : Z) (t : list mem_obs) : Z := level_of depth [] t 0.
(** The word at a position: the last beat offered there, accepted or not; 0 if none. *)
Fixpoint stored_of (depth : Z) (seen t : list mem_obs) (a v : Z) : Z :=
  match t with
  | [] => v
  | o :: t' => stored_of depth (seen ++ [o]) t' a
      (if cvalid (mo_sink o) && (wpos depth seen =? a) && (a <? depth) then bdata (cbeat (mo_sink o)) else v)
  end.
Definition stored (depth : Z) (t : list mem_obs) (a : Z) : Z := stored_of depth [] t a 0.

Lemma level_snoc depth t o : level depth (t ++ [o]) = if cvalid (mo_sink o) && mo_sready o then present depth (wpos depth t) else level depth t.
Proof.
  unfold level. assert (G : forall seen n, level_of depth seen (t ++ [o]) n =
    if cvalid (mo_sink o) && mo_sready o then present depth (wpos depth (seen ++ t)) else level_of depth seen t n).
  { induction t as [|x t IH]; intros seen n; cbn [app level_of]; [now rewrite app_nil_r|]. rewrite IH, <- app_assoc. reflexivity. }
  rewrite G. reflexivity.
Qed.
Lemma stored_snoc depth t o a : stored depth (t ++ [o]) a =
  if cvalid (mo_sink o) && (wpos depth t =? a) && (a <? depth) then bdata (cbeat (mo_sink o)) else stored depth t a.
Proof.
  unfold stored. assert (G : forall seen v, stored_of depth seen (t ++ [o]) a v =
    if cvalid (mo_sink o) && (wpos depth (seen ++ t) =? a) && (a <? depth) then bdata (cbeat (mo_sink o)) else stored_of depth seen t a v).
  { induction t as [|x t IH]; intros seen v; cbn [app stored_of]; [now rewrite app_nil_r|]. rewrite IH, <- app_assoc. reflexivity. }
  rewrite G. reflexivity.
Qed.
Lemma written_snoc t o : ms_written (t ++ [o]) = ms_written t ++ map bdata (xfer (mo_sink o) (mo_sready o)).
Proof. unfold ms_written. rewrite flat_map_app. cbn [flat_map]. now rewrite app_nil_r. Qed.

Section Exact.
  Context (depth : Z) (Hd : 1 <= depth).
  Notation c := (mem_stream depth).
  Notation P := (positions depth).
  Lemma P_big : 0 < P /\ depth <= P.
  Proof. unfold positions. pose proof (range_width_bound depth Hd). lia. Qed.

  (** Registers in terms of the history; the read port by one cycle later. *)
  Definition ex_inv (t : list mem_obs) (s : ms_state) : Prop :=
    ms_wr s = wpos depth t /\ ms_rd s = rpos depth t /\ ms_level s = level depth t /\ (forall a, ms_mem s a = stored depth t a) /\
    (forall t' p, t = t' ++ [p] ->
       let a := if cvalid (mo_sink p) && mo_sready p then 0 else rpos depth t in
       ms_rp s = if a <? depth then stored depth t' a else 0).
  Lemma ex_run ins : ex_inv (trace c ins) (state c ins).
  Proof.
    pose proof P_big as [P0 PD]. assert (Z0 : 0 mod P = 0) by (apply Z.mod_0_l; lia). apply run_inv.
    - unfold ex_inv, wpos, rpos. cbn [since fold_left ms_written ms_delivered flat_map length creset mem_stream ms_reset ms_wr ms_rd ms_level ms_mem Z.of_nat].
      rewrite Z0. split; [reflexivity|]. split; [reflexivity|]. split; [reflexivity|]. split; [reflexivity|]. intros t' p E. destruct t'; discriminate.
    - intros t s [rw k r] (I1 & I2 & I3 & I4 & _). unfold ex_inv. rewrite level_snoc.
      set (o := cout c s (MemIn rw k r)).
      assert (EO : mo_rewind o = rw /\ mo_sink o = k /\ mo_sready o = negb rw /\ mo_src o = ms_src s rw k /\ mo_rready o = r) by (repeat split).
      destruct EO as (O1 & O2 & O3 & O4 & O5). clearbody o.
      assert (W : wpos depth (t ++ [o]) = if rw then 0 else if cvalid k then trunc (ms_aw depth) (ms_wr s + 1) else ms_wr s).
      { unfold wpos at 1. rewrite since_snoc, O1. destruct rw; [exact Z0|]. rewrite written_snoc, app_length, map_length, O2, O3. unfold xfer. cbn [negb].
        rewrite andb_true_r. destruct (cvalid k); cbn [length]; [|rewrite Nat.add_0_r; symmetry; exact I1].
        rewrite I1. unfold trunc, wpos. change (2 ^ ms_aw depth) with P. rewrite Z.add_mod_idemp_l by lia. f_equal. lia. }
      assert (R : rpos depth (t ++ [o]) = if rw then 0 else if cvalid (ms_src s rw k) && r then trunc (ms_aw depth) (ms_rd s + 1) else ms_rd s).
      { unfold rpos at 1. rewrite since_snoc, O1. destruct rw; [exact Z0|]. rewrite ms_delivered_app, ms_delivered_1, app_length, O4, O5. unfold xfer.
        destruct (cvalid (ms_src s false k) && r); cbn [length]; [|rewrite Nat.add_0_r; symmetry; exact I2].
        rewrite I2. unfold trunc, rpos. change (2 ^ ms_aw depth) with P. rewrite Z.add_mod_idemp_l by lia. f_equal. lia. }
      rewrite W, R. cbn [cnext mem_stream mi_rewind mi_sink mi_rready]. unfold ms_next, ms_sready. cbn [ms_wr ms_rd ms_level ms_mem ms_rp].
      split; [destruct rw; cbn [negb]; rewrite ?andb_true_r; reflexivity|].
      split. { unfold ms_src. cbn [cvalid]. destruct rw, (cvalid k); cbn [negb andb]; try reflexivity. destruct (negb (ms_underflow s) && r); reflexivity. }
      split. { rewrite O2, O3. destruct rw; cbn [negb]; rewrite ?andb_false_r, ?andb_true_r; [exact I3|]. rewrite I3. unfold present, trunc. now rewrite I1. }
      split. { intros a. rewrite stored_snoc, O2, <- I1, I4. rewrite (Z.eqb_sym a). reflexivity. }
      intros t' p E. apply app_inj_tail in E. destruct E as [<- <-]. cbv zeta. rewrite O2, O3.
      rewrite <- I4. unfold ms_src. cbn [cvalid]. destruct rw, (cvalid k); cbn [negb andb]; reflexivity.
  Qed.

  Lemma ex_offer ins t1 p x t2 : trace c ins = t1 ++ p :: x :: t2 ->
    mo_src x = Chan (negb (mo_rewind x) && negb (cvalid (mo_sink x)) && negb (level depth (t1 ++ [p]) <=? rpos depth (t1 ++ [p])))
                    (Beat false (rpos depth (t1 ++ [p]) =? level depth (t1 ++ [p]) - 1)
                       (let a := if cvalid (mo_sink p) && mo_sready p then 0 else rpos depth (t1 ++ [p]) in if a <? depth then stored depth t1 a else 0)).
  Proof.
    intros E. replace (t1 ++ p :: x :: t2) with ((t1 ++ [p]) ++ x :: t2) in E by now rewrite <- app_assoc.
    apply trace_one in E. destruct E as (i1 & i & i2 & _ & Et & ->). pose proof (ex_run i1) as (I1 & I2 & I3 & I4 & I5). rewrite Et in *.
    cbn [cout mem_stream mo_src mo_rewind mo_sink]. unfold ms_src, ms_underflow, ms_last. rewrite I2, I3, (I5 _ _ eq_refl). reflexivity.
  Qed.
End Exact.

(** C29, exactly: in every cycle but the first (where nothing is offered), for every
    history, a word is offered when rewind is low, no word comes in and fewer words have
    been read than are present; it is last when it is the last of these; and it is the
    word stored at its position before the previous cycle, except directly after a write,
    when it is the first word as it was before that write. *)
Theorem C29_offered_partial : forall depth ins t1 p x t2, 1 <= depth ->
  trace (mem_stream depth) ins = t1 ++ p :: x :: t2 ->
  let before := t1 ++ [p] in
  cvalid (mo_src x) = negb (mo_rewind x) && negb (cvalid (mo_sink x)) && (rpos depth before <? level depth before) /\
  bfirst (cbeat (mo_src x)) = false /\
  blast (cbeat (mo_src x)) = (rpos depth before + 1 =? level depth before) /\
  (cvalid (mo_sink p) && mo_sready p = true -> bdata (cbeat (mo_src x)) = stored depth t1 0) /\
  (cvalid (mo_sink p) && mo_sready p = false -> rpos depth before < depth ->
   bdata (cbeat (mo_src x)) = stored depth t1 (rpos depth before)).
Proof.
  intros depth ins t1 p x t2 Hd E before. pose proof (ex_offer depth Hd ins t1 p x t2 E) as X. fold before in X. rewrite X.
  cbn [cvalid cbeat bfirst blast bdata]. split; [f_equal; destruct (Z.leb_spec (level depth before) (rpos depth before)), (Z.ltb_spec (rpos depth before) (level depth before)); cbn [negb]; (reflexivity || lia)|].
  split; [reflexivity|]. split; [destruct (Z.eqb_spec (rpos depth before) (level depth before - 1)), (Z.eqb_spec (rpos depth before + 1) (level depth before)); (reflexivity || lia)|].
  cbv zeta. split; intros H.
  - rewrite H. destruct (Z.ltb_spec 0 depth); [reflexivity|lia].
  - intros L. rewrite H. destruct (Z.ltb_spec (rpos depth before) depth); [reflexivity|lia].
Qed.

(** The buffered stream: an unbuffered one with the same rewinds and writes, whose words it
    delivers in order, at most one of them still on its way. *)
Theorem C29_buffered_partial : forall depth ins, exists ins',
  let t := trace (mem_stream_buffered depth) ins in let u := trace (mem_stream depth) ins' in
  map (fun o => (mo_rewind o, mo_sink o, mo_sready o)) u = map (fun o => (mo_rewind o, mo_sink o, mo_sready o)) t /\
  exists held, (length held <= 1)%nat /\ ms_delivered (since mo_rewind u) = ms_delivered (since mo_rewind t) ++ held.
Proof.
  intros depth ins.
  set (b := mem_stream_buffered depth).
  assert (G : exists ins', let t := trace b ins in let u := trace (mem_stream depth) ins' in
    state (mem_stream depth) ins' = fst (state b ins) /\
    map (fun o => (mo_rewind o, mo_sink o, mo_sready o)) u = map (fun o => (mo_rewind o, mo_sink o, mo_sready o)) t /\
    ms_delivered (since mo_rewind u) = ms_delivered (since mo_rewind t) ++ (if cvalid (snd (state b ins)) then [cbeat (snd (state b ins))] else [])).
  { apply (run_inv b (fun t s => exists ins', let u := trace (mem_stream depth) ins' in
      state (mem_stream depth) ins' = fst s /\
      map (fun o => (mo_rewind o, mo_sink o, mo_sready o)) u = map (fun o => (mo_rewind o, mo_sink o, mo_sready o)) t /\
      ms_delivered (since mo_rewind u) = ms_delivered (since mo_rewind t) ++ (if cvalid (snd s) then [cbeat (snd s)] else []))).
    - exists []. split; [reflexivity|]. split; reflexivity.
    - intros t [s q] [rw k r] (ins' & I1 & I2 & I3). cbn [fst snd] in *.
      set (mid := ms_src s rw k). set (mr := rdy (pipe_valid 0) q mid r).
      exists (ins' ++ [MemIn rw k mr]). rewrite trace_app. cbn [trace_from]. fold (state (mem_stream depth) ins').
      split; [unfold state; rewrite state_from_app; cbn [state_from]; fold (state (mem_stream depth) ins'); rewrite I1; reflexivity|].
      rewrite I1. rewrite !map_app, I2. split; [reflexivity|]. rewrite !since_snoc. cbn [cout mem_stream mo_rewind mi_rewind b mem_stream_buffered cnext fst snd].
      destruct rw; [reflexivity|]. rewrite !ms_delivered_app, !ms_delivered_1, I3, <- !app_assoc. f_equal.
      cbn [mo_src mo_rready mi_rready mi_sink mi_rewind]. fold mid. unfold mr, xfer. cbn [pipe_valid rdy nxt]. unfold pv_en.
      destruct (cvalid q) eqn:Eq, r, (cvalid mid) eqn:Em; cbn [negb andb orb app cvalid cbeat]; rewrite ?Eq, ?Em; cbn [app]; reflexivity. }
  destruct G as (ins' & _ & G2 & G3). exists ins'. cbv zeta. split; [exact G2|]. eexists. split; [|exact G3]. destruct (cvalid _); cbn; lia.
Qed.

(** ** Refused beats (C84) *)
Lemma since_no_rewind t : Forall (fun x => mo_rewind x = false) t -> since mo_rewind t = t.
Proof.
  induction t as [|x t IH] using rev_ind; [reflexivity|]. intros H. apply Forall_app in H. destruct H as [H1 H2]. apply Forall_inv in H2.
  now rewrite since_snoc, H2, IH.
Qed.
Lemma since_after tp tw : ends_with_rewind tp -> Forall (fun x => mo_rewind x = false) tw -> since mo_rewind (tp ++ tw) = tw.
Proof.
  intros [->|(t' & o & -> & Ho)] H; [now apply since_no_rewind|]. rewrite <- app_assoc. cbn [app]. rewrite since_app_rew by exact Ho. now apply since_no_rewind.
Qed.

Section Refused.
  Context (depth : Z) (Hd : 1 <= depth).
  Notation P := (positions depth).
  Definition ready_ok (t : list mem_obs) : Prop := Forall (fun x => mo_sready x = negb (mo_rewind x)) t.
  Lemma written_phase tp tw : ends_with_rewind tp -> Forall (fun x => mo_rewind x = false) tw -> ready_ok tw ->
    let ws := ms_written tw in Z.of_nat (length ws) <= depth ->
    (forall k, (k < length ws)%nat -> stored depth (tp ++ tw) (Z.of_nat k) = nth k ws 0) /\
    ((1 <= length ws)%nat -> level depth (tp ++ tw) = Z.of_nat (length ws)).
  Proof.
    intros H1. induction tw as [|x tw IH] using rev_ind; intros H2 H3 ws HL; [split; [intros k Hk|]; cbn in *; lia|].
    apply Forall_app in H2, H3. destruct H2 as [H2 X2], H3 as [H3 X3]. apply Forall_inv in X2, X3. rewrite X2 in X3. cbn [negb] in X3.
    unfold ws in *. rewrite written_snoc in *. rewrite app_length in HL. destruct (IH H2 H3 ltac:(lia)) as [I1 I2].
    pose proof (P_big depth Hd) as [P0 PD].
    assert (W : wpos depth (tp ++ tw) = Z.of_nat (length (ms_written tw)) mod P) by (unfold wpos; now rewrite since_after).
    rewrite app_assoc, app_length, level_snoc, X3, andb_true_r. unfold xfer in *. rewrite X3, andb_true_r in *. rewrite map_length in *.
    destruct (cvalid (mo_sink x)) eqn:V; cbn [map length app] in *.
    - rewrite Z.mod_small in W by lia. split.
      + intros k Hk. rewrite stored_snoc, V, W. cbn [andb].
        destruct (Z.eqb_spec (Z.of_nat (length (ms_written tw))) (Z.of_nat k)), (Z.ltb_spec (Z.of_nat k) depth); cbn [andb]; try lia.
        * assert (k = length (ms_written tw)) as -> by lia. rewrite app_nth2, Nat.sub_diag by lia. reflexivity.
        * rewrite app_nth1 by lia. apply I1. lia.
      + intros _. rewrite W. unfold present. rewrite Z.mod_small; [lia|]. pose proof (range_width_bound (depth + 1) ltac:(lia)). lia.
    - rewrite app_nil_r, Nat.add_0_r. split; [|exact I2]. intros k Hk. rewrite stored_snoc, V. cbn [andb]. now apply I1.
  Qed.
  (** Beats offered while nothing is accepted do not touch the words behind the first. *)
  Lemma refused_phase t o tr : mo_rewind o = true -> mo_sready o = false ->
    Forall (fun x => cvalid (mo_sink x) && mo_sready x = false) tr ->
    wpos depth (t ++ o :: tr) = 0 /\ level depth (t ++ o :: tr) = level depth t.
  Proof.
    intros Ho Hr HF. pose proof (P_big depth Hd) as [P0 _]. induction tr as [|x tr IH] using rev_ind.
    - rewrite level_snoc, Hr, andb_false_r. split; [|reflexivity]. unfold wpos. rewrite since_snoc, Ho. apply Z.mod_0_l. lia.
    - apply Forall_app in HF. destruct HF as [HF X]. apply Forall_inv in X. destruct (IH HF) as [I1 I2].
      rewrite app_comm_cons, app_assoc, level_snoc, X. split; [|exact I2]. unfold wpos in *. rewrite since_snoc. destruct (mo_rewind x); [apply Z.mod_0_l; lia|].
      rewrite written_snoc. unfold xfer. rewrite X. cbn [map]. rewrite app_nil_r. exact I1.
  Qed.
  Lemma refused_stored t o tr k : mo_rewind o = true -> mo_sready o = false ->
    Forall (fun x => cvalid (mo_sink x) && mo_sready x = false) tr -> 1 <= k ->
    (cvalid (mo_sink o) = true -> wpos depth t <> k) -> stored depth (t ++ o :: tr) k = stored depth t k.
  Proof.
    intros Ho Hr HF Hk HW. induction tr as [|x tr IH] using rev_ind.
    - rewrite stored_snoc. destruct (cvalid (mo_sink o)); [|reflexivity]. destruct (Z.eqb_spec (wpos depth t) k) as [E|E]; [now destruct HW|reflexivity].
    - apply Forall_app in HF. destruct HF as [HF X]. rewrite app_comm_cons, app_assoc, stored_snoc.
      destruct (refused_phase t o tr Ho Hr HF) as [-> _]. destruct (Z.eqb_spec 0 k); [lia|]. rewrite andb_false_r. now apply IH.
  Qed.
End Refused.

Lemma trace_ready depth ins : ready_ok (trace (mem_stream depth) ins).
Proof.
  apply (run_inv (mem_stream depth) (fun t _ => ready_ok t)); [constructor|]. intros t s i IH. apply Forall_app. split; [exact IH|]. constructor; [reflexivity|constructor].
Qed.

Lemma other_words depth ins tp tw o tr : 1 <= depth ->
  trace (mem_stream depth) ins = tp ++ tw ++ o :: tr ->
  ends_with_rewind tp -> Forall (fun x => mo_rewind x = false) tw -> mo_rewind o = true ->
  Forall (fun x => cvalid (mo_sink x) && mo_sready x = false) tr ->
  let ws := ms_written tw in let d := ms_delivered (since mo_rewind tr) in
  Z.of_nat (length ws) <= depth ->
  forall j b, (1 <= j < length ws)%nat -> nth_error d j = Some b -> b = packet_beat ws j.
Proof.
  intros Hd E H1 H2 H3 H4 ws d HL. pose proof (P_big depth Hd) as [P0 PD]. pose proof (trace_ready depth ins) as RO. rewrite E in RO.
  unfold ready_ok in RO. rewrite !Forall_app in RO. destruct RO as (_ & RW & RR). inversion RR as [|? ? RO RT]; subst. clear RR. rewrite H3 in RO. cbn [negb] in RO.
  destruct (written_phase depth Hd tp tw H1 H2 RW HL) as [S1 S2]. fold ws in S1, S2.
  unfold d. clear d. revert ins E H4. induction tr as [|x tr IH] using rev_ind; intros ins E H4 j b Hj Hb; [destruct j; discriminate Hb|].
  apply Forall_app in H4. destruct H4 as [H4 X]. apply Forall_app in RT. destruct RT as [RT _].
  assert (E' : exists ins', trace (mem_stream depth) ins' = tp ++ tw ++ o :: tr).
  { assert (E2 : trace (mem_stream depth) ins = (tp ++ tw ++ o :: tr) ++ [x]) by (rewrite E, <- !app_assoc; reflexivity).
    unfold trace in E2. apply trace_cut_from in E2. destruct E2 as (i1 & i2 & _ & Ei & _). now exists i1. }
  destruct E' as [ins' E']. specialize (IH RT ins' E' H4).
  rewrite since_snoc in Hb. destruct (mo_rewind x) eqn:Ex; [destruct j; discriminate Hb|].
  rewrite ms_delivered_app, ms_delivered_1 in Hb. set (d := ms_delivered (since mo_rewind tr)) in *.
  destruct (Nat.lt_ge_cases j (length d)) as [L|L]; [rewrite nth_error_app1 in Hb by exact L; now apply IH|].
  rewrite nth_error_app2 in Hb by exact L. unfold xfer in Hb. destruct (cvalid (mo_src x) && mo_rready x); [|destruct (j - length d)%nat; discriminate Hb].
  assert (J : j = length d) by (destruct (j - length d)%nat as [|[|?]] eqn:Ej; [lia|discriminate Hb|discriminate Hb]). rewrite J, Nat.sub_diag in Hb. cbn [nth_error] in Hb.
  injection Hb as <-.
  (* the cycle before *)
  assert (EP : exists t1 p, o :: tr = t1 ++ [p]) by (destruct (exists_last (l := o :: tr) ltac:(discriminate)) as (t1 & p & ->); eauto).
  destruct EP as (t1 & p & EP).
  assert (EX : trace (mem_stream depth) ins = (tp ++ tw ++ t1) ++ p :: x :: []).
  { rewrite E, app_comm_cons, EP, <- !app_assoc. reflexivity. }
  pose proof (ex_offer depth Hd ins _ p x [] EX) as Q. rewrite <- !app_assoc, <- EP in Q.
  assert (RP : rpos depth (tp ++ tw ++ o :: tr) = Z.of_nat j).
  { unfold rpos. rewrite app_assoc, since_app_rew by exact H3. fold d. rewrite <- J. apply Z.mod_small. lia. }
  rewrite RP in Q.
  assert (NW : cvalid (mo_sink p) && mo_sready p = false).
  { destruct tr as [|y tr' _] using rev_ind; [destruct t1 as [|? [|? ?]]; try discriminate EP; injection EP as <-; now rewrite RO, andb_false_r|].
    rewrite app_comm_cons in EP. apply app_inj_tail in EP. destruct EP as [_ <-]. apply Forall_app in H4. destruct H4 as [_ H4]. now apply Forall_inv in H4. }
  rewrite NW in Q. cbv zeta in Q. destruct (Z.ltb_spec (Z.of_nat j) depth); [|lia].
  assert (LV : level depth (tp ++ tw ++ o :: tr) = Z.of_nat (length ws)).
  { rewrite app_assoc. destruct (refused_phase depth Hd (tp ++ tw) o tr H3 RO H4) as [_ ->]. apply S2. lia. }
  rewrite LV in Q.
  assert (SV : stored depth (tp ++ tw ++ t1) (Z.of_nat j) = nth j ws 0).
  { destruct t1 as [|o' t1]; [rewrite app_nil_r; apply S1; lia|]. cbn [app] in EP. injection EP as <- EP. rewrite app_assoc.
    rewrite refused_stored; [apply S1; lia|exact Hd|exact H3|exact RO| |lia|].
    - rewrite EP in H4. apply Forall_app in H4. apply H4.
    - intros _. unfold wpos. rewrite since_after by assumption. fold ws. destruct (Z.eq_dec (Z.of_nat (length ws)) (positions depth)) as [EQ|NE]; [rewrite EQ, Z_mod_same_full; lia|rewrite Z.mod_small; lia]. }
  rewrite SV in Q. rewrite Q. cbn [cbeat]. unfold packet_beat. f_equal.
  destruct (Z.eqb_spec (Z.of_nat j) (Z.of_nat (length ws) - 1)), (Nat.eqb_spec (S j) (length ws)); (reflexivity || lia).
Qed.

(** C84: whatever is offered and refused after a write phase, at most the first word is
    disturbed: every other word read back is the one written, and last is right. *)
Theorem C84_other_words_partial : forall depth buffered ins tp tw o tr, 1 <= depth ->
  trace (memory_stream depth buffered) ins = tp ++ tw ++ o :: tr ->
  ends_with_rewind tp -> Forall (fun x => mo_rewind x = false) tw -> mo_rewind o = true ->
  Forall (fun x => cvalid (mo_sink x) && mo_sready x = false) tr ->
  let ws := ms_written tw in let d := ms_delivered (since mo_rewind tr) in
  Z.of_nat (length ws) <= depth ->
  forall j b, (1 <= j < length ws)%nat -> nth_error d j = Some b -> b = packet_beat ws j.
Proof.
  intros depth buffered ins tp tw o tr Hd E H1 H2 H3 H4 ws d HL j b Hj Hb. destruct buffered; [|exact (other_words depth ins tp tw o tr Hd E H1 H2 H3 H4 HL j b Hj Hb)].
  cbn [memory_stream] in E. destruct (C29_buffered_partial depth ins) as (ins' & M & held & _ & D). rewrite E in M, D.
  set (f := fun o => (mo_rewind o, mo_sink o, mo_sready o)) in M. rewrite !map_app in M. cbn [map] in M.
  apply map_eq_app in M. destruct M as (up & u1 & Eu & Mp & M). apply map_eq_app in M. destruct M as (uw & u2 & -> & Mw & M).
  destruct u2 as [|o' ur]; [discriminate M|]. cbn [map] in M. injection M as M1 M2 M3 Mr.
  assert (G : forall (Q : mem_obs -> Prop) (R : bool * chan Z * bool -> Prop) u v, (forall x, Q x <-> R (f x)) -> map f u = map f v -> Forall Q v -> Forall Q u).
  { intros Q R u v HQ EM HF. apply Forall_forall. intros x Hx. apply HQ. assert (In (f x) (map f v)) by (rewrite <- EM; now apply in_map).
    apply in_map_iff in H. destruct H as (y & <- & Hy). apply HQ. rewrite Forall_forall in HF. now apply HF. }
  assert (W : ms_written uw = ws).
  { unfold ws. clear -Mw. revert tw Mw. induction uw as [|x uw IH]; intros [|y tw] Mw; try discriminate Mw; [reflexivity|].
    cbn [map] in Mw. injection Mw as A1 A2 A3 Mw. cbn [ms_written flat_map]. fold (ms_written uw). fold (ms_written tw). now rewrite A2, A3, (IH _ Mw). }
  rewrite <- W in *. rewrite Eu in D. rewrite (app_assoc up), (app_assoc tp), !since_app_rew in D by congruence.
  apply (other_words depth ins' up uw o' ur Hd Eu); auto; try congruence.
  - destruct H1 as [->|(t' & q & -> & Hq)]; [left; destruct up; [reflexivity|discriminate Mp]|right].
    destruct up as [|q' up _] using rev_ind; [destruct t'; discriminate Mp|]. rewrite !map_app in Mp. apply app_inj_tail in Mp. destruct Mp as [_ Mp]. cbn in Mp.
    exists up, q'. split; [reflexivity|]. injection Mp as -> _ _. exact Hq.
  - apply (G _ (fun r => fst (fst r) = false) uw tw); [intros x; reflexivity|exact Mw|exact H2].
  - apply (G _ (fun r => cvalid (snd (fst r)) && snd r = false) ur tr); [intros x; reflexivity|exact Mr|exact H4].
  - fold d in D. rewrite D. rewrite nth_error_app1; [exact Hb|]. apply nth_error_Some. congruence.
Qed.

(** Two words written, a beat refused during the second cycle of a rewind, then a write in
    the middle of the reading. *)
Example C29_offered_nonvacuous :
  let w d := MemIn false (Chan true (Beat false false d)) false in
  let r := MemIn false (Chan false (Beat false false 0)) true in
  let rw v := MemIn true (Chan v (Beat false false 9)) false in
  let t := trace (mem_stream 3) [w 5; w 6; w 4; rw false; rw true; r; r; w 7; r; r] in
  ms_delivered t = [Beat false false 5; Beat false false 6] /\ level 3 t = 1 /\ rpos 3 t = 2 /\ stored 3 t 0 = 7 /\
  level 3 (firstn 7 t) = 3 /\ stored 3 (firstn 7 t) 0 = 9.
Proof. vm_compute. repeat split. Qed.

(** Refused beats (9) during and after the rewind: the second and third word survive, in
    both kinds; the first does not in the unbuffered one when the reader is late. *)
Example C84_other_words_nonvacuous :
  let w d := MemIn false (Chan true (Beat false false d)) false in
  let r := MemIn false (Chan false (Beat false false 0)) true in
  let rw := MemIn true (Chan true (Beat false false 9)) false in
  let ins := [w 5; w 6; w 4; rw; rw; rw; r; r; r; r; r] in
  let cut b := let t := trace (memory_stream 3 b) ins in (ms_written (firstn 3 t), ms_delivered (since mo_rewind (skipn 4 t))) in
  cut false = ([5; 6; 4], [Beat false false 9; Beat false false 6; Beat false true 4]) /\
  cut true = ([5; 6; 4], [Beat false false 9; Beat false false 6; Beat false true 4]).
Proof. vm_compute. repeat split. Qed.

Print Assumptions C29_offered_partial.
Print Assumptions C29_buffered_partial.
Print Assumptions C84_other_words_partial.
