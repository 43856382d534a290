(** SPIPHYMaster: C59. *)
From Verif Require Import Stream Bits Fifo_model Fifo_proofs Fifo_props Timer_model Timer_props Spiclk_model I2cstream_proofs Spimaster_model.

(** ** Specification *)
Definition last_clk (t : list ms_obs) : bool := fold_left (fun _ o => mo_clk o) t false.
(** Data out and in at the rising edges of the clock pin. *)
Fixpoint rises (p : bool) (t : list ms_obs) : list (Z * Z) :=
  match t with
  | [] => []
  | o :: t' => (if negb p && mo_clk o then [(mo_dq_o o, mo_dq_i o)] else []) ++ rises (mo_clk o) t'
  end.
(** The words accepted, with their last flags; the words pushed into the receive FIFO. *)
Definition words (t : list ms_obs) : list (mword * bool) :=
  flat_map (fun o => if cvalid (mo_sink o) && mo_sready o then [(bdata (cbeat (mo_sink o)), blast (cbeat (mo_sink o)))] else []) t.
Definition received (t : list ms_obs) : list (Z * bool) :=
  flat_map (fun o => if cvalid (o_sink (mo_fifo o)) then [(bdata (cbeat (o_sink (mo_fifo o))), blast (cbeat (o_sink (mo_fifo o))))] else []) t.
(** The word in groups of [width] bits, most significant first. *)
Definition groups (w : mword) : list Z :=
  map (fun k => Z.shiftr (mw_data w) (mw_len w - mw_width w * (Z.of_nat k + 1)) mod 2 ^ mw_width w) (seq 0 (Z.to_nat (mw_len w / mw_width w))).
(** The bits on the sampled lines (line 1, MISO, for width 1), as a number. *)
Definition sample (w dq : Z) : Z := if w =? 1 then Z.b2z (Z.testbit dq 1) else dq mod 2 ^ w.
Definition number (w : Z) (ds : list Z) : Z := fold_left (fun a d => 2 ^ w * a + d) ds 0.
(** What the wire did for a word: a pulse per group. *)
Definition on_wire (w : mword * bool) (pulses : list (Z * Z)) : Prop := map fst pulses = groups (fst w).
(** What was received for it. *)
Definition answer (w : mword * bool) (pulses : list (Z * Z)) (r : Z * bool) : Prop :=
  fst r mod 2 ^ mw_len (fst w) = number (mw_width (fst w)) (map (sample (mw_width (fst w))) (map snd pulses)) /\ snd r = snd w.
Definition legal (width bo : Z) (w : mword) : Prop :=
  In (mw_width w) [1; 2; 4; 8] /\ mw_width w <= bo /\ (mw_width w | mw_len w) /\ 0 < mw_len w <= width /\ mw_len w <= 256.

(** ** Proofs *)
Lemma last_clk_snoc t o : last_clk (t ++ [o]) = mo_clk o.
Proof. unfold last_clk. now rewrite fold_left_app. Qed.
Lemma rises_snoc p t o : rises p (t ++ [o]) = rises p t ++ (if negb (fold_left (fun _ o => mo_clk o) t p) && mo_clk o then [(mo_dq_o o, mo_dq_i o)] else []).
Proof. revert p. induction t as [|x t IH]; intros p; cbn [app rises fold_left]; [now rewrite app_nil_r|]. now rewrite IH, app_assoc. Qed.
Lemma words_snoc t o : words (t ++ [o]) = words t ++ (if cvalid (mo_sink o) && mo_sready o then [(bdata (cbeat (mo_sink o)), blast (cbeat (mo_sink o)))] else []).
Proof. unfold words. rewrite flat_map_app. cbn [flat_map]. now rewrite app_nil_r. Qed.
Lemma received_snoc t o : received (t ++ [o]) = received t ++ (if cvalid (o_sink (mo_fifo o)) then [(bdata (cbeat (o_sink (mo_fifo o))), blast (cbeat (o_sink (mo_fifo o))))] else []).
Proof. unfold received. rewrite flat_map_app. cbn [flat_map]. now rewrite app_nil_r. Qed.

Inductive Forall3 {A B C} (R : A -> B -> C -> Prop) : list A -> list B -> list C -> Prop :=
| F3nil : Forall3 R [] [] []
| F3cons a b c l1 l2 l3 : R a b c -> Forall3 R l1 l2 l3 -> Forall3 R (a :: l1) (b :: l2) (c :: l3).
Lemma Forall3_snoc {A B C} (R : A -> B -> C -> Prop) l1 l2 l3 a b c :
  Forall3 R l1 l2 l3 -> R a b c -> Forall3 R (l1 ++ [a]) (l2 ++ [b]) (l3 ++ [c]).
Proof. induction 1; intros; cbn [app]; repeat constructor; auto. Qed.

Lemma sh_step width w x si k : 0 < w -> 0 <= k -> w * (k + 1) <= width -> 0 <= x < 2 ^ w ->
  (trunc width (x + 2 ^ w * si)) mod 2 ^ (w * (k + 1)) = 2 ^ w * (si mod 2 ^ (w * k)) + x.
Proof.
  intros Hw Hk Hl Hx. unfold trunc.
  assert (Hp : 2 ^ (w * (k + 1)) = 2 ^ w * 2 ^ (w * k)) by (rewrite Z.mul_add_distr_l, Z.mul_1_r, Z.add_comm, Z.pow_add_r by nia; reflexivity).
  assert (0 < 2 ^ w) by (apply Z.pow_pos_nonneg; lia). assert (0 < 2 ^ (w * k)) by (apply Z.pow_pos_nonneg; nia).
  rewrite <- Znumtheory.Zmod_div_mod; [|nia|apply Z.pow_pos_nonneg; nia|].
  2: { exists (2 ^ (width - w * (k + 1))). rewrite <- Z.pow_add_r by nia. f_equal. lia. }
  rewrite Hp, Z.rem_mul_r by lia. rewrite (Z.mul_comm (2 ^ w) si), Z.mod_add, Z.div_add by lia.
  rewrite (Z.mod_small x), (Z.div_small x) by lia. rewrite Z.add_0_l. lia.
Qed.
Lemma top_bits width w d len k : 0 < w -> len <= width -> 0 <= k -> w * (k + 1) <= len ->
  trunc w (Z.shiftr (trunc width (Z.shiftl d (width - len + w * k))) (width - w)) = Z.shiftr d (len - w * (k + 1)) mod 2 ^ w.
Proof.
  intros. unfold trunc. apply Z.bits_inj'. intros n Hn.
  destruct (Z.ltb_spec n w) as [Hlt|Hge].
  - rewrite !Z.mod_pow2_bits_low by lia. rewrite !Z.shiftr_spec by nia. rewrite Z.mod_pow2_bits_low by nia.
    rewrite Z.shiftl_spec by nia. f_equal. lia.
  - now rewrite !Z.mod_pow2_bits_high by lia.
Qed.
Lemma sample_range w dq : 0 < w -> 0 <= sample w dq < 2 ^ w.
Proof.
  intros H. unfold sample. destruct (Z.eqb_spec w 1) as [->|]; [destruct (Z.testbit dq 1); cbn; lia|]. apply Z.mod_pos_bound. apply Z.pow_pos_nonneg; lia.
Qed.
Lemma firstn_map_seq {A} (f : nat -> A) k n : (k <= n)%nat -> firstn k (map f (seq 0 n)) = map f (seq 0 k).
Proof.
  intros H. rewrite firstn_map. f_equal. replace n with (k + (n - k))%nat by lia.
  rewrite seq_app, firstn_app, seq_length, Nat.sub_diag, firstn_O, app_nil_r. apply firstn_all2. rewrite seq_length. lia.
Qed.

Lemma fifo_step (f : list Z * option Z) we wd re : (snd f = None -> (length (fst f) <= 1)%nat) ->
  let F := sync_fifo_buffered 8 in
  let f' := wf_next F f we wd re in
  wf_level F f' <= wf_level F f + (if we then 1 else 0) /\ (snd f' = None -> (length (fst f') <= 1)%nat).
Proof.
  intros H F f'. subst f'. cbn [F sync_fifo_buffered wf_next wf_level]. clear F. destruct f as [q r]. cbn [fst snd] in *.
  set (push := if we && negb (Z.of_nat (length q) =? 8 - 1) then [wd] else []).
  assert (Hp : Z.of_nat (length push) <= if we then 1 else 0) by (unfold push; destruct we; cbn [andb]; [destruct (negb _)|]; cbn [length]; lia).
  assert (Hp1 : (length push <= 1)%nat) by (destruct we; lia).
  clearbody push. destruct r as [r|].
  - destruct re; [destruct q as [|w q]|]; cbn [fst snd length]; rewrite ?app_length; cbn [length]; (split; [lia|intros; try discriminate; lia]).
  - specialize (H eq_refl). destruct q as [|w q]; cbn [fst snd length] in *; rewrite ?app_length; (split; [lia|intros; try discriminate; lia]).
Qed.

  Lemma legal_case width bo w : legal width bo w -> ms_case (mw_width w) = true /\ 0 < mw_width w <= 8.
  Proof. intros (H & _). cbn [In] in H. destruct H as [<-|[<-|[<-|[<-|[]]]]]; split; reflexivity || lia. Qed.
  Lemma legal_groups width bo w : legal width bo w -> mw_len w = mw_width w * (mw_len w / mw_width w) /\ 0 < mw_len w / mw_width w.
  Proof. intros L. destruct (legal_case width bo w L) as [_ C]. destruct L as (_ & _ & [q E] & H & _). rewrite E in *. rewrite Z.div_mul by lia. nia. Qed.

Section Master.
  Context (width bo div delay : Z).
  Context (Hdiv : 0 <= div < 256).
  Notation c := (spi_master width bo div delay).
  Notation state_t := (ms_state width).

  Definition ok (t : list ms_obs) : Prop := Forall (fun w => legal width bo (fst w)) (words t).

  (** While word [w] is on the wire, [k] groups shifted out and [n] sampled. *)
  Definition out_at (s : state_t) (w : mword * bool) (k : Z) : Prop :=
    m_w _ s = mw_width (fst w) /\ m_last _ s = snd w /\
    m_so _ s = trunc width (Z.shiftl (mw_data (fst w)) (width - mw_len (fst w) + mw_width (fst w) * k)) /\
    m_ocnt _ s = mw_len (fst w) - mw_width (fst w) * (k + 1).
  Definition in_at (s : state_t) (w : mword * bool) (cur : list (Z * Z)) : Prop :=
    map fst cur = firstn (length cur) (groups (fst w)) /\
    mw_width (fst w) * Z.of_nat (length cur) < mw_len (fst w) /\
    m_icnt _ s = mw_len (fst w) - mw_width (fst w) * (Z.of_nat (length cur) + 1) /\
    m_si _ s mod 2 ^ (mw_width (fst w) * Z.of_nat (length cur)) = number (mw_width (fst w)) (map (sample (mw_width (fst w))) (map snd cur)).
  Inductive phase (s : state_t) : bool -> option (mword * bool) -> list (Z * Z) -> Prop :=
  | PhIdle p : m_run _ s = false -> m_ck _ s = Ck 0 false false (ck_pr2 (m_ck _ s)) -> phase s p None []
  | PhLow p w cur cnt : m_run _ s = true -> m_ck _ s = Ck cnt false false (ck_pr2 (m_ck _ s)) -> 0 <= cnt <= div ->
      out_at s w (Z.of_nat (length cur)) -> in_at s w cur -> legal width bo (fst w) -> phase s p (Some w) cur
  | PhRise w cur : m_run _ s = true -> m_ck _ s = Ck 0 true true (ck_pr2 (m_ck _ s)) ->
      out_at s w (Z.of_nat (length cur)) -> in_at s w cur -> legal width bo (fst w) -> m_fv _ s = false -> phase s false (Some w) cur
  | PhHigh w cur cnt : m_run _ s = true -> m_ck _ s = Ck cnt true false (ck_pr2 (m_ck _ s)) -> 0 <= cnt <= div ->
      out_at s w (Z.of_nat (length cur) - 1) -> in_at s w cur -> legal width bo (fst w) -> cur <> [] -> phase s true (Some w) cur
  | PhDone cnt : m_run _ s = true -> m_ck _ s = Ck cnt true false (ck_pr2 (m_ck _ s)) -> 0 <= cnt <= div ->
      m_ocnt _ s = 0 -> phase s true None [].

  Definition late (s : state_t) : list (Z * bool) := if m_fv _ s then [(m_si _ s, m_fl _ s)] else [].
  Definition opt {A} (o : option A) : list A := match o with Some a => [a] | None => [] end.

  Definition m_inv (t : list ms_obs) (s : state_t) : Prop :=
    exists ws gs pend cur,
      words t = ws ++ opt pend /\
      rises false t = concat gs ++ cur /\
      Forall2 on_wire ws gs /\
      Forall3 answer ws gs (received t ++ late s) /\
      phase s (last_clk t) pend cur /\
      ms_level width s + Z.of_nat (length (late s)) + Z.of_nat (length (opt pend)) <= 8 /\
      (snd (m_fifo _ s) = None -> (length (fst (m_fifo _ s)) <= 1)%nat) /\
      Forall (fun o => cvalid (o_sink (mo_fifo o)) = true -> o_sready (mo_fifo o) = true) t.

  (** The pulse of the cycle where the clock rises. *)
  Lemma sampling s w cur dq : legal width bo (fst w) -> out_at s w (Z.of_nat (length cur)) -> in_at s w cur ->
    let cur' := cur ++ [(ms_dq_o width bo s, dq)] in
    let si' := trunc width (ms_sampled (m_w _ s) dq + 2 ^ m_w _ s * m_si _ s) in
    (mw_width (fst w) * (Z.of_nat (length cur) + 1) < mw_len (fst w) /\ m_icnt _ s <> 0 /\ m_ocnt _ s <> 0 /\
     (forall n, m_icnt _ n = trunc 8 (m_icnt _ s - m_w _ s) -> m_si _ n = si' -> in_at n w cur')) \/
    (mw_width (fst w) * (Z.of_nat (length cur) + 1) = mw_len (fst w) /\ m_icnt _ s = 0 /\ m_ocnt _ s = 0 /\
     on_wire w cur' /\ answer w cur' (si', m_last _ s)).
  Proof.
    intros L (O1 & O2 & O3 & O4) (I1 & I2 & I3 & I4) cur' si'.
    destruct (legal_case _ _ _ L) as [C1 C2]. destruct (legal_groups _ _ _ L) as [G1 G2]. destruct L as (_ & L1 & _ & L2 & L3).
    set (W := mw_width (fst w)) in *. set (LEN := mw_len (fst w)) in *. set (k := Z.of_nat (length cur)) in *. set (N := LEN / W) in *.
    assert (Hk : k + 1 <= N) by nia.
    assert (Hdq : ms_dq_o width bo s = Z.shiftr (mw_data (fst w)) (LEN - W * (k + 1)) mod 2 ^ W).
    { unfold ms_dq_o. rewrite O1, C1, O3, top_bits by nia. apply trunc_small.
      pose proof (Z.mod_pos_bound (Z.shiftr (mw_data (fst w)) (LEN - W * (k + 1))) (2 ^ W) ltac:(apply Z.pow_pos_nonneg; lia)).
      pose proof (Z.pow_le_mono_r 2 W bo ltac:(lia) ltac:(lia)). lia. }
    assert (Hmap : map fst cur' = firstn (S (length cur)) (groups (fst w))).
    { unfold cur'. rewrite map_app, I1. unfold groups. fold W LEN N. rewrite !firstn_map_seq by lia.
      rewrite seq_S, map_app, Nat.add_0_l. cbn [map fst]. rewrite Hdq. reflexivity. }
    assert (Hs : ms_sampled W dq = sample W dq) by reflexivity.
    assert (Hsi : si' mod 2 ^ (W * (k + 1)) = number W (map (sample W) (map snd cur'))).
    { unfold si'. rewrite O1. rewrite Hs. rewrite sh_step; [|lia|lia|nia|apply sample_range; lia].
      rewrite I4. unfold cur', number. rewrite !map_app, fold_left_app. reflexivity. }
    assert (Hlen : length cur' = S (length cur)) by (unfold cur'; rewrite app_length; cbn; lia).
    assert (Hk1 : Z.of_nat (S (length cur)) = k + 1) by lia.
    destruct (Z.eq_dec (W * (k + 1)) LEN) as [E|E]; [right|left].
    - split; [exact E|]. split; [lia|]. split; [lia|]. split.
      + unfold on_wire. rewrite Hmap. unfold groups. fold W LEN N. rewrite firstn_map_seq by lia. do 2 f_equal. nia.
      + unfold answer. fold W LEN. cbn [fst snd]. split; [|exact O2]. rewrite <- E, Hsi. reflexivity.
    - assert (W * (k + 1) < LEN) by nia. assert (k + 1 < N) by nia. assert (W * (k + 2) <= LEN) by (rewrite G1; apply Z.mul_le_mono_nonneg_l; lia). split; [lia|]. split; [lia|]. split; [lia|].
      intros n N1 N2. unfold in_at. fold W LEN. rewrite Hlen, Hk1. split; [exact Hmap|]. split; [lia|]. split.
      + rewrite N1, O1, I3. rewrite (trunc_small 8) by (change (2 ^ 8) with 256; lia). lia.
      + rewrite N2. exact Hsi.
  Qed.

  (** The falling edge inside a word. *)
  Lemma shifted (s n : state_t) w k : legal width bo (fst w) -> out_at s w k -> 0 <= k ->
    m_w _ n = m_w _ s -> m_last _ n = m_last _ s ->
    m_so _ n = trunc width (2 ^ m_w _ s * m_so _ s) -> m_ocnt _ n = trunc 8 (m_ocnt _ s - m_w _ s) ->
    0 <= m_ocnt _ s - m_w _ s -> out_at n w (k + 1).
  Proof.
    intros L (O1 & O2 & O3 & O4) Hk E1 E2 E3 E4 E5. destruct (legal_case _ _ _ L) as [_ C]. destruct L as (_ & _ & _ & L1 & L2).
    unfold out_at. rewrite E1, E2, E3, E4, O1, O3, O4 in *. split; [reflexivity|]. split; [exact O2|]. split.
    - unfold trunc. rewrite Z.mul_mod_idemp_r by (apply Z.pow_nonzero; lia).
      rewrite !Z.shiftl_mul_pow2 by nia. f_equal.
      rewrite Z.mul_add_distr_l, Z.mul_1_r, Z.add_assoc, (Z.pow_add_r 2 (_ + _) (mw_width (fst w))) by nia. lia.
    - rewrite trunc_small; [lia|]. change (2 ^ 8) with 256. nia.
  Qed.

  Lemma m_step t s i : ok (t ++ [cout c s i]) -> m_inv t s -> m_inv (t ++ [cout c s i]) (cnext c s i).
  Proof.
    intros Hok (ws & gs & pend & cur & W & R & FW & FA & PH & LV & FI & FR).
    unfold m_inv. set (o := cout c s i) in *.
    assert (O1 : mo_sink o = mi_sink i) by reflexivity.
    assert (O2 : mo_sready o = ms_load width div s i) by reflexivity.
    assert (O3 : mo_clk o = ck_clk (m_ck _ s)) by reflexivity.
    assert (O4 : mo_dq_o o = ms_dq_o width bo s) by reflexivity.
    assert (O5 : mo_dq_i o = mi_dq i) by reflexivity.
    assert (O6 : o_sink (mo_fifo o) = ms_fsink width s) by reflexivity.
    assert (O7 : o_sready (mo_fifo o) = negb (Z.of_nat (length (fst (m_fifo _ s))) =? 8 - 1)) by reflexivity.
    clearbody o.
    set (ld := ms_load width div s i) in *.
    set (b := bdata (cbeat (mi_sink i))) in *.
    set (n := cnext c s i) in *.
    assert (N1 : m_ck _ n = ck_next div (m_ck _ s) (m_run _ s)) by reflexivity.
    assert (N2 : m_ocnt _ n = if ms_negedge width div s && negb (m_ocnt _ s =? 0) then trunc 8 (m_ocnt _ s - m_w _ s)
           else if ld then trunc 8 (mw_len b - mw_width b) else m_ocnt _ s) by reflexivity.
    assert (N3 : m_so _ n = if ld then trunc width (Z.shiftl (mw_data b) (width - mw_len b))
           else if ms_negedge width div s && ms_case (m_w _ s) then trunc width (2 ^ m_w _ s * m_so _ s) else m_so _ s) by reflexivity.
    assert (N4 : m_icnt _ n = if ms_posedge_reg width s && negb (m_icnt _ s =? 0) then trunc 8 (m_icnt _ s - m_w _ s)
           else if ld then trunc 8 (mw_len b - mw_width b) else m_icnt _ s) by reflexivity.
    assert (N5 : m_si _ n = if ms_posedge_reg width s && ms_case (m_w _ s)
           then trunc width (ms_sampled (m_w _ s) (mi_dq i) + 2 ^ m_w _ s * m_si _ s) else m_si _ s) by reflexivity.
    assert (N6 : m_w _ n = if ld then mw_width b else m_w _ s) by reflexivity.
    assert (N7 : m_last _ n = if ld then blast (cbeat (mi_sink i)) else m_last _ s) by reflexivity.
    assert (N8 : m_run _ n = if ld then true else if ms_out_end width div s then false else m_run _ s) by reflexivity.
    assert (N9 : m_fv _ n = ms_in_end width s) by reflexivity.
    assert (N10 : m_fl _ n = if ms_in_end width s then m_last _ s else m_fl _ s) by reflexivity.
    assert (Hf : ms_level width n <= ms_level width s + (if m_fv _ s then 1 else 0) /\ (snd (m_fifo _ n) = None -> (length (fst (m_fifo _ n)) <= 1)%nat)).
    { exact (fifo_step (m_fifo _ s) (m_fv _ s) (fifo_pack width (Beat false (m_fl _ s) (m_si _ s))) (mi_rready i) FI). }
    clearbody n. destruct Hf as [Hf1 Hf2].
    assert (Hld : ld = true -> cvalid (mi_sink i) = true /\ ms_level width s <= 6).
    { subst ld. unfold ms_load, ms_xfr_en, ms_full. intros X. apply andb_prop in X. destruct X as [_ X]. apply andb_prop in X. destruct X as [X Y].
      apply andb_prop in X. destruct X as [_ X]. split; [exact X|]. change (wrapper_depth 8 - 2) with 6 in Y. destruct (Z.ltb_spec 6 (ms_level width s)); [discriminate|assumption]. }
    set (wnew := (b, blast (cbeat (mi_sink i)))).
    assert (HW : words (t ++ [o]) = words t ++ if ld then [wnew] else []).
    { rewrite words_snoc, O1, O2. destruct ld; [rewrite (proj1 (Hld eq_refl))|]; [reflexivity|now rewrite andb_false_r]. }
    assert (HL : ld = true -> legal width bo (fst wnew)).
    { intros X. unfold ok in Hok. rewrite HW, X in Hok. apply Forall_app in Hok. destruct Hok as [_ Hok]. apply Forall_cons_iff in Hok. apply Hok. }
    assert (HR : received (t ++ [o]) = received t ++ late s).
    { rewrite received_snoc, O6. unfold ms_fsink, late. cbn [cvalid cbeat bdata blast]. reflexivity. }
    assert (Hlate : late n = if ms_in_end width s then [(m_si _ n, m_last _ s)] else []).
    { unfold late. rewrite N9, N10. destruct (ms_in_end width s); reflexivity. }
    assert (HFR : Forall (fun o => cvalid (o_sink (mo_fifo o)) = true -> o_sready (mo_fifo o) = true) (t ++ [o])).
    { apply Forall_app. split; [exact FR|]. constructor; [|constructor]. rewrite O6, O7. unfold ms_fsink. cbn [cvalid]. intros Hv.
      unfold late in LV. rewrite Hv in LV. cbn [length] in LV. unfold ms_level in LV. change (wrapper_depth 8) with 8 in LV. cbn [wf_level sync_fifo_buffered] in LV.
      destruct (Z.eqb_spec (Z.of_nat (length (fst (m_fifo _ s)))) (8 - 1)) as [E|]; [|reflexivity]. exfalso.
      destruct (snd (m_fifo _ s)); [lia|]. specialize (FI eq_refl). lia. }
    assert (Hlen1 : Z.of_nat (length (late s)) = if m_fv _ s then 1 else 0) by (unfold late; destruct (m_fv _ s); reflexivity).
    assert (Hlen2 : Z.of_nat (length (late n)) = if ms_in_end width s then 1 else 0) by (rewrite Hlate; destruct (ms_in_end width s); reflexivity).
    rewrite HW, HR, rises_snoc, last_clk_snoc, O3, O4, O5, W, R. fold (last_clk t).
    (* starting a word *)
    assert (LD : forall p, ld = true -> m_ck _ n = Ck 0 false false (ck_pr2 (m_ck _ n)) -> ms_negedge width div s && negb (m_ocnt _ s =? 0) = false ->
                   ms_posedge_reg width s && negb (m_icnt _ s =? 0) = false -> phase n p (Some wnew) []).
    { intros p X C0 C1 C2. specialize (HL X). destruct (legal_case _ _ _ HL) as [_ LC]. destruct (legal_groups _ _ _ HL) as [G1 G2]. pose proof HL as (_ & L1 & L2 & L3 & L4). cbn [fst wnew] in *.
      assert (0 <= mw_len b - mw_width b < 256) by nia.
      rewrite X, ?C1, ?C2 in *. apply (PhLow n p wnew [] 0); [assumption|assumption|lia| | |assumption].
      - unfold out_at. cbn [fst snd wnew length]. rewrite N6, N7, N3, N2. rewrite (trunc_small 8) by (change (2 ^ 8) with 256; lia).
        split; [reflexivity|]. split; [reflexivity|]. split; [|lia]. do 2 f_equal. lia.
      - unfold in_at. cbn [fst snd wnew length map firstn]. rewrite N4. rewrite (trunc_small 8) by (change (2 ^ 8) with 256; lia).
        split; [reflexivity|]. split; [lia|]. split; [lia|]. change (Z.of_nat 0) with 0. rewrite Z.mul_0_r. apply Z.mod_1_r. }
    (* ending or starting, at the falling edge of a finished word *)
    assert (FIN : forall p, (m_run _ s = false \/ ms_out_end width div s = true) -> m_ck _ n = Ck 0 false false (ck_pr2 (m_ck _ n)) ->
                   ms_posedge_reg width s && negb (m_icnt _ s =? 0) = false ->
                   phase n p (if ld then Some wnew else None) [] /\ opt (if ld then Some wnew else None) = (if ld then [wnew] else [])).
    { intros p HE C0 C2. destruct ld eqn:X.
      - split; [|reflexivity]. apply LD; auto. destruct HE as [E|E]; [unfold ms_negedge, ck_negedge; now rewrite E|].
        unfold ms_out_end in E. apply andb_prop in E. destruct E as [_ ->]. now rewrite andb_false_r.
      - split; [|reflexivity]. apply PhIdle; [|exact C0]. rewrite N8. destruct HE as [E| ->]; [|reflexivity]. rewrite E. now destruct (ms_out_end _ _ _). }
    destruct PH as [p Hr Hc | p w cur cnt Hr Hc Hcnt HO HI HLg | w cur Hr Hc HO HI HLg Hfv | w cur cnt Hr Hc Hcnt HO HI HLg Hne0 | cnt Hr Hc Hcnt Ho].
    + (* idle *)
      assert (Hie : ms_in_end width s = false) by (unfold ms_in_end, ms_posedge_reg; now rewrite Hc).
      assert (Hpr : ms_posedge_reg width s = false) by (unfold ms_posedge_reg; now rewrite Hc).
      destruct (FIN (ck_clk (m_ck _ s)) (or_introl Hr)) as [P1 P2].
      { rewrite N1, Hr, Hc. unfold ck_next, ck_posedge. reflexivity. }
      { now rewrite Hpr. }
      exists ws, gs, (if ld then Some wnew else None), []. rewrite P2, Hlate, Hie, Hc. cbn [ck_clk opt]. rewrite !andb_false_r, !app_nil_r in *.
      rewrite Hc in P1. repeat (split; [assumption || reflexivity|]).
      split; [|auto]. rewrite Hie in Hlen2. cbn [length opt] in *. destruct ld; [destruct (Hld eq_refl)|]; cbn [length]; destruct (m_fv _ s); lia.
    + (* clock low *)
      assert (Hpr : ms_posedge_reg width s = false) by (unfold ms_posedge_reg; now rewrite Hc).
      assert (Hie : ms_in_end width s = false) by (unfold ms_in_end; now rewrite Hpr).
      assert (Hne : ms_negedge width div s = false) by (unfold ms_negedge, ck_negedge; rewrite Hc; apply andb_false_iff; left; apply andb_false_r).
      assert (Hoe : ms_out_end width div s = false) by (unfold ms_out_end; now rewrite Hne).
      assert (Hld0 : ld = false) by (subst ld; unfold ms_load; now rewrite Hr, Hoe).
      rewrite Hld0, Hpr, Hie, Hne, Hoe in *. cbn [andb] in *.
      assert (HO' : out_at n w (Z.of_nat (length cur))) by (unfold out_at in *; rewrite N2, N3, N6, N7; exact HO).
      assert (HI' : in_at n w cur) by (unfold in_at in *; rewrite N4, N5; exact HI).
      exists ws, gs, (Some w), cur. rewrite Hlate, Hc. cbn [ck_clk]. rewrite andb_false_r, !app_nil_r.
      split; [reflexivity|]. split; [reflexivity|]. split; [exact FW|]. split; [exact FA|].
      split; [|split; [cbn [length opt] in *; destruct (m_fv _ s); lia|auto]].
      rewrite Hr, Hc in N1. unfold ck_next, ck_posedge in N1. cbn [ck_cnt ck_clk ck_pr negb andb] in N1.
      destruct (Z.ltb_spec cnt div) as [Hlt|Hge].
      * destruct (Z.eqb_spec cnt div) as [|_]; [lia|]. rewrite trunc_small in N1 by (change (2 ^ 8) with 256; lia).
        apply (PhLow n false w cur (cnt + 1)); auto; [now rewrite N8|rewrite N1; reflexivity|lia].
      * destruct (Z.eqb_spec cnt div) as [_|]; [|lia].
        apply PhRise; auto; [now rewrite N8|rewrite N1; reflexivity].
    + (* rising edge *)
      destruct (legal_case _ _ _ HLg) as [C1 C2]. pose proof HO as (HO1 & _). 
      assert (Hpr : ms_posedge_reg width s = true) by (unfold ms_posedge_reg; now rewrite Hc).
      assert (Hne : ms_negedge width div s = (0 =? div)) by (unfold ms_negedge, ck_negedge; rewrite Hc, Hr; reflexivity).
      rewrite Hr, Hc in N1. unfold ck_next, ck_posedge in N1. cbn [ck_cnt ck_clk ck_pr negb andb] in N1.
      rewrite HO1, C1, Hpr in N5. cbn [andb] in N5. rewrite Hc. cbn [ck_clk negb andb].
      rewrite Hfv in Hlen1, Hf1.
      destruct (sampling s w cur (mi_dq i) HLg HO HI) as [(S1 & S2 & S3 & S4)|(S1 & S2 & S3 & S4 & S5)].
      * (* more to come *)
        assert (Hie : ms_in_end width s = false) by (unfold ms_in_end; destruct (Z.eqb_spec (m_icnt _ s) 0); [lia|apply andb_false_r]).
        assert (Hoe : ms_out_end width div s = false) by (unfold ms_out_end; destruct (Z.eqb_spec (m_ocnt _ s) 0); [lia|apply andb_false_r]).
        assert (Hld0 : ld = false) by (subst ld; unfold ms_load; now rewrite Hr, Hoe).
        rewrite Hld0, Hie, Hoe in *. rewrite Hpr in N4. destruct (Z.eqb_spec (m_icnt _ s) 0) as [|_]; [lia|]. destruct (Z.eqb_spec (m_ocnt _ s) 0) as [|_]; [lia|].
        cbn [andb negb] in *.
        exists ws, gs, (Some w), (cur ++ [(ms_dq_o width bo s, mi_dq i)]). rewrite Hlate, !app_nil_r.
        assert (HI' : in_at n w (cur ++ [(ms_dq_o width bo s, mi_dq i)])) by (apply S4; [exact N4|rewrite N5, HO1; reflexivity]).
        split; [reflexivity|]. split; [now rewrite app_assoc|]. split; [exact FW|]. split; [exact FA|].
        split; [|split; [cbn [length opt] in *; lia|auto]].
        assert (HK : Z.of_nat (length (cur ++ [(ms_dq_o width bo s, mi_dq i)])) = Z.of_nat (length cur) + 1) by (rewrite app_length; cbn [length]; lia).
        destruct HO as (O1' & O2' & O3' & O4').
        destruct (Z.ltb_spec 0 div) as [Hlt|Hge].
        -- assert (Hne0 : ms_negedge width div s = false) by (rewrite Hne; destruct (Z.eqb_spec 0 div); [lia|reflexivity]). rewrite Hne0 in *. cbn [andb] in *.
           rewrite trunc_small in N1 by (change (2 ^ 8) with 256; lia).
           apply (PhHigh n w _ 1); auto; [now rewrite N8|rewrite N1; reflexivity|lia| |now destruct cur].
           unfold out_at. rewrite N2, N3, N6, N7, HK. replace (Z.of_nat (length cur) + 1 - 1) with (Z.of_nat (length cur)) by lia. auto.
        -- assert (Hne0 : ms_negedge width div s = true) by (rewrite Hne; apply Z.eqb_eq; lia). rewrite Hne0 in *. cbn [andb] in *.
           apply (PhLow n true w _ 0); auto; [now rewrite N8|rewrite N1; reflexivity|lia|].
           rewrite HK. refine (shifted s n w (Z.of_nat (length cur)) HLg _ _ N6 N7 _ N2 _).
           ++ unfold out_at. auto.
           ++ lia.
           ++ rewrite N3, HO1, C1. reflexivity.
           ++ pose proof HI as (_ & HIa & HIb & _). destruct (legal_groups _ _ _ HLg) as [G1 G2]. rewrite O1', O4'. 
              set (W1 := mw_width (fst w)) in *. set (N1' := mw_len (fst w) / W1) in *. rewrite G1 in *. assert (Z.of_nat (length cur) + 1 < N1') by nia. nia.
      * (* last group *)
        assert (Hie : ms_in_end width s = true) by (unfold ms_in_end; rewrite Hpr, S2; reflexivity).
        assert (Hoe : ms_out_end width div s = (0 =? div)) by (unfold ms_out_end; rewrite Hne, S3; apply andb_true_r).
        assert (Hl0 : late s = []) by (unfold late; now rewrite Hfv).
        rewrite Hie, Hl0 in *. cbn [opt length] in *.
        assert (FW' : Forall2 on_wire (ws ++ [w]) (gs ++ [cur ++ [(ms_dq_o width bo s, mi_dq i)]])) by (apply Forall2_app; [exact FW|repeat constructor; exact S4]).
        assert (FA' : Forall3 answer (ws ++ [w]) (gs ++ [cur ++ [(ms_dq_o width bo s, mi_dq i)]]) ((received t ++ []) ++ late n)).
        { rewrite Hlate. apply Forall3_snoc; [exact FA|]. rewrite N5, <- HO1. exact S5. }
        assert (HRs : (concat gs ++ cur) ++ [(ms_dq_o width bo s, mi_dq i)] = concat (gs ++ [cur ++ [(ms_dq_o width bo s, mi_dq i)]]) ++ []).
        { rewrite concat_app. cbn [concat]. now rewrite !app_nil_r, app_assoc. }
        destruct (Z.ltb_spec 0 div) as [Hlt|Hge].
        -- assert (H0d : (0 =? div) = false) by (destruct (Z.eqb_spec 0 div); [lia|reflexivity]). rewrite H0d in *.
           assert (Hld0 : ld = false) by (subst ld; unfold ms_load; now rewrite Hr, Hoe).
           rewrite Hld0, Hne, Hoe, S3 in *. cbn [andb] in *.
           exists (ws ++ [w]), (gs ++ [cur ++ [(ms_dq_o width bo s, mi_dq i)]]), None, [].
           split; [cbn [opt]; now rewrite !app_nil_r|]. split; [exact HRs|]. split; [exact FW'|]. split; [exact FA'|].
           split; [|split; [cbn [opt length]; lia|auto]].
           rewrite trunc_small in N1 by (change (2 ^ 8) with 256; lia).
           apply (PhDone n 1); [now rewrite N8|rewrite N1; reflexivity|lia|now rewrite N2].
        -- assert (H0d : (0 =? div) = true) by (apply Z.eqb_eq; lia). rewrite H0d in *.
           destruct (FIN true (or_intror Hoe)) as [P1 P2].
           { rewrite N1. reflexivity. }
           { rewrite S2. apply andb_false_r. }
           exists (ws ++ [w]), (gs ++ [cur ++ [(ms_dq_o width bo s, mi_dq i)]]), (if ld then Some wnew else None), [].
           rewrite P2. split; [reflexivity|]. split; [exact HRs|]. split; [exact FW'|]. split; [exact FA'|].
           split; [exact P1|]. split; [|auto]. destruct ld; [destruct (Hld eq_refl)|]; cbn [length]; lia.
    + (* clock high, more to come *)
      assert (Hpr : ms_posedge_reg width s = false) by (unfold ms_posedge_reg; now rewrite Hc).
      assert (Hie : ms_in_end width s = false) by (unfold ms_in_end; now rewrite Hpr).
      destruct (legal_case _ _ _ HLg) as [C1 C2]. destruct (legal_groups _ _ _ HLg) as [G1 G2]. pose proof HO as (HO1 & HO2 & HO3 & HO4). pose proof HI as (_ & HI2 & _).
      assert (Hon : mw_width (fst w) <= m_ocnt _ s).
      { rewrite HO4. set (W1 := mw_width (fst w)) in *. set (N1' := mw_len (fst w) / W1) in *. rewrite G1 in *. assert (Z.of_nat (length cur) < N1') by nia. nia. }
      assert (Hoe : ms_out_end width div s = false) by (unfold ms_out_end; destruct (Z.eqb_spec (m_ocnt _ s) 0); [lia|apply andb_false_r]).
      assert (Hld0 : ld = false) by (subst ld; unfold ms_load; now rewrite Hr, Hoe).
      assert (Hne : ms_negedge width div s = (cnt =? div)) by (unfold ms_negedge, ck_negedge; rewrite Hc, Hr; reflexivity).
      rewrite Hld0, Hpr, Hie, Hoe, Hne in *. cbn [andb] in *. destruct (Z.eqb_spec (m_ocnt _ s) 0) as [|_]; [lia|].
      assert (HI' : in_at n w cur) by (unfold in_at in *; rewrite N4, N5; exact HI).
      exists ws, gs, (Some w), cur. rewrite Hlate, Hc. cbn [ck_clk negb andb]. rewrite !app_nil_r.
      split; [reflexivity|]. split; [reflexivity|]. split; [exact FW|]. split; [exact FA|].
      split; [|split; [cbn [length opt] in *; destruct (m_fv _ s); lia|auto]].
      rewrite Hr, Hc in N1. unfold ck_next, ck_posedge in N1. cbn [ck_cnt ck_clk ck_pr negb andb] in N1.
      destruct (Z.ltb_spec cnt div) as [Hlt|Hge].
      * destruct (Z.eqb_spec cnt div) as [|_]; [lia|]. rewrite trunc_small in N1 by (change (2 ^ 8) with 256; lia). cbn [andb] in *.
        apply (PhHigh n w cur (cnt + 1)); auto; [now rewrite N8|rewrite N1; reflexivity|lia|].
        unfold out_at. rewrite N2, N3, N6, N7. auto.
      * destruct (Z.eqb_spec cnt div) as [_|]; [|lia]. cbn [andb negb] in *.
        apply (PhLow n true w cur 0); auto; [now rewrite N8|rewrite N1; reflexivity|lia|].
        destruct cur as [|x cur].
        -- congruence.
        -- replace (Z.of_nat (length (x :: cur))) with (Z.of_nat (length (x :: cur)) - 1 + 1) by lia.
           refine (shifted s n w _ HLg HO _ N6 N7 _ N2 _); [cbn [length]; lia| |lia]. rewrite N3, HO1, C1. reflexivity.
    + (* clock high, word done *)
      assert (Hpr : ms_posedge_reg width s = false) by (unfold ms_posedge_reg; now rewrite Hc).
      assert (Hie : ms_in_end width s = false) by (unfold ms_in_end; now rewrite Hpr).
      assert (Hne : ms_negedge width div s = (cnt =? div)) by (unfold ms_negedge, ck_negedge; rewrite Hc, Hr; reflexivity).
      assert (Hoe : ms_out_end width div s = (cnt =? div)) by (unfold ms_out_end; rewrite Hne, Ho; apply andb_true_r).
      rewrite Hr, Hc in N1. unfold ck_next, ck_posedge in N1. cbn [ck_cnt ck_clk ck_pr negb andb] in N1.
      rewrite Hc. cbn [ck_clk negb andb]. rewrite !app_nil_r in *. rewrite Hlate, Hie. rewrite app_nil_r. rewrite Hie in *.
      destruct (Z.ltb_spec cnt div) as [Hlt|Hge].
      * assert (Hcd : (cnt =? div) = false) by (destruct (Z.eqb_spec cnt div); [lia|reflexivity]). rewrite Hcd in *.
        assert (Hld0 : ld = false) by (subst ld; unfold ms_load; now rewrite Hr, Hoe).
        rewrite Hld0, Hne, Hoe, Hpr in *. cbn [andb] in *.
        exists ws, gs, None, []. rewrite !app_nil_r. split; [reflexivity|]. split; [reflexivity|]. split; [exact FW|]. split; [exact FA|].
        split; [|split; [cbn [length opt] in *; destruct (m_fv _ s); lia|auto]].
        rewrite trunc_small in N1 by (change (2 ^ 8) with 256; lia).
        apply (PhDone n (cnt + 1)); [now rewrite N8|rewrite N1; reflexivity|lia|now rewrite N2].
      * assert (Hcd : (cnt =? div) = true) by (apply Z.eqb_eq; lia). rewrite Hcd in *.
        destruct (FIN true (or_intror Hoe)) as [P1 P2].
        { rewrite N1. reflexivity. }
        { now rewrite Hpr. }
        exists ws, gs, (if ld then Some wnew else None), []. rewrite P2, !app_nil_r.
        split; [reflexivity|]. split; [reflexivity|]. split; [exact FW|]. split; [exact FA|]. split; [exact P1|].
        split; [|auto]. cbn [length opt] in *. destruct ld; [destruct (Hld eq_refl)|]; cbn [length]; destruct (m_fv _ s); lia.
  Qed.

  Lemma m_run_inv_from s0 ins : m_inv [] s0 -> ok (trace_from c s0 ins) -> m_inv (trace_from c s0 ins) (state_from c s0 ins).
  Proof.
    intros H0. change (trace_from c s0 ins) with ([] ++ trace_from c s0 ins).
    refine (run_inv_from c (fun t s => ok t -> m_inv t s) [] s0 (fun _ => H0) _ ins).
    intros t s i IH Hok. apply m_step; [exact Hok|]. apply IH. unfold ok, words in *. rewrite flat_map_app in Hok. apply Forall_app in Hok. apply Hok.
  Qed.

  (** The start: idle, nothing received; the shift registers and their counters do not matter. *)
  Lemma m_start s0 : m_run _ s0 = false -> m_ck _ s0 = ck_reset -> m_fv _ s0 = false -> m_fifo _ s0 = st0 (ms_fifo width) -> m_inv [] s0.
  Proof.
    intros R K V F. exists [], [], None, []. unfold late. rewrite V. split; [reflexivity|]. split; [reflexivity|]. split; [constructor|]. split; [constructor|].
    split; [apply PhIdle; [exact R|now rewrite K]|]. unfold ms_level. rewrite F. split; [cbn; lia|]. split; [cbn; lia|constructor].
  Qed.

  Lemma m_run_inv ins : ok (trace c ins) -> m_inv (trace c ins) (state c ins).
  Proof. apply m_run_inv_from. apply m_start; reflexivity. Qed.
End Master.

Lemma transfers_from : forall width bo div delay s0 ins, 0 <= div < 256 -> m_inv width bo div [] s0 ->
  let t := trace_from (spi_master width bo div delay) s0 ins in
  Forall (fun w => legal width bo (fst w)) (words t) ->
  exists ws gs pend cur late,
    words t = ws ++ pend /\ (length pend <= 1)%nat /\
    rises false t = concat gs ++ cur /\ Forall2 on_wire ws gs /\
    match pend with
    | [] => cur = []
    | w :: _ => map fst cur = firstn (length cur) (groups (fst w)) /\ (length cur < length (groups (fst w)))%nat
    end /\
    Forall3 answer ws gs (received t ++ late) /\ (length late <= 1)%nat.
Proof.
  intros width bo div delay s0 ins Hd H0 t Ht.
  destruct (m_run_inv_from width bo div delay Hd s0 ins H0 Ht) as (ws & gs & pend & cur & W & R & FW & FA & PH & _).
  exists ws, gs, (opt pend), cur, (late width (state_from (spi_master width bo div delay) s0 ins)).
  split; [exact W|]. split; [destruct pend; cbn; lia|]. split; [exact R|]. split; [exact FW|].
  split; [|split; [exact FA|unfold late; destruct (m_fv _ _); cbn; lia]].
  assert (G : forall w, legal width bo (fst w) -> in_at width (state_from (spi_master width bo div delay) s0 ins) w cur ->
    map fst cur = firstn (length cur) (groups (fst w)) /\ (length cur < length (groups (fst w)))%nat).
  { intros w L (I1 & I2 & _). split; [exact I1|]. unfold groups. rewrite map_length, seq_length.
    destruct (legal_groups _ _ _ L) as [G1 G2]. destruct (legal_case _ _ _ L) as [_ C]. rewrite G1 in I2. nia. }
  destruct PH; cbn [opt]; auto.
Qed.

(** C59: every clock pulse belongs to an accepted word; each word before the one being
    sent got one pulse per group of [width] bits, showing them most significant first,
    and one received word made of the sampled lines, with its last flag ([late]: the
    received word enters the FIFO in the next cycle). *)
Theorem C59_transfers : forall width bo div delay ins, 0 <= div < 256 ->
  let t := trace (spi_master width bo div delay) ins in
  Forall (fun w => legal width bo (fst w)) (words t) ->
  exists ws gs pend cur late,
    words t = ws ++ pend /\ (length pend <= 1)%nat /\
    rises false t = concat gs ++ cur /\ Forall2 on_wire ws gs /\
    match pend with
    | [] => cur = []
    | w :: _ => map fst cur = firstn (length cur) (groups (fst w)) /\ (length cur < length (groups (fst w)))%nat
    end /\
    Forall3 answer ws gs (received t ++ late) /\ (length late <= 1)%nat.
Proof. intros width bo div delay ins Hd. apply transfers_from; [exact Hd|]. apply m_start; reflexivity. Qed.

(** The receive FIFO never overflows. *)
Theorem C59_fifo_ready : forall width bo div delay ins, 0 <= div < 256 ->
  let t := trace (spi_master width bo div delay) ins in
  Forall (fun w => legal width bo (fst w)) (words t) ->
  Forall (fun o => cvalid (o_sink (mo_fifo o)) = true -> o_sready (mo_fifo o) = true) t.
Proof.
  intros width bo div delay ins Hd t Ht.
  destruct (m_run_inv width bo div delay Hd ins Ht) as (ws & gs & pend & cur & W & R & FW & FA & PH & _ & _ & F). exact F.
Qed.

(** The words that leave the core are the received words, in order. *)
Theorem C59_delivered : forall width bo div delay ins, 0 <= div < 256 -> 0 < width ->
  let t := trace (spi_master width bo div delay) ins in
  Forall (fun w => legal width bo (fst w)) (words t) ->
  exists held, received t = map (fun b => (bdata b, blast b)) (emitted (map mo_fifo t)) ++ held /\ (length held <= 8)%nat.
Proof.
  intros width bo div delay ins Hd Hw t Ht. set (c := spi_master width bo div delay) in *.
  assert (Hrdy := C59_fifo_ready width bo div delay ins Hd Ht). fold c in Hrdy. fold t in Hrdy.
  assert (Hp : exists ins', map mo_fifo t = strace (ms_fifo width) ins').
  { eexists. exact (proj1 (part_trace c (scirc (ms_fifo width)) (fun o => (o_sink o, o_rready o)) (fun s => m_fifo _ s)
      (fun s i => (ms_fsink width s, mi_rready i)) mo_fifo
      ltac:(intros ? [? ?]; reflexivity) eq_refl ltac:(reflexivity) ltac:(reflexivity) ins)). }
  destruct Hp as [ins' Hp].
  assert (Hr : Forall (fun o => exists l d, cbeat (o_sink (mo_fifo o)) = Beat false l d /\ 0 <= d < 2 ^ width) t).
  { assert (X : 0 < 2 ^ width) by (apply Z.pow_pos_nonneg; lia).
    refine (proj1 (run_inv c (fun t s => Forall (fun o => exists l d, cbeat (o_sink (mo_fifo o)) = Beat false l d /\ 0 <= d < 2 ^ width) t /\ 0 <= m_si _ s < 2 ^ width) _ _ ins)).
    - split; [constructor|cbn; lia].
    - intros u s i [H1 H2]. split.
      + apply Forall_app. split; [exact H1|]. constructor; [|constructor]. exists (m_fl _ s), (m_si _ s). split; [reflexivity|exact H2].
      + cbn [cnext c spi_master m_si]. destruct (_ && _); [apply trunc_range; lia|exact H2]. }
  assert (Hacc : accepted (map mo_fifo t) = map (fun r => Beat false (snd r) (fst r)) (received t)).
  { clear -Hr Hrdy. induction t as [|o t IH]; [reflexivity|].
    apply Forall_cons_iff in Hr. destruct Hr as [(l & d & P1 & _) P2]. apply Forall_cons_iff in Hrdy. destruct Hrdy as [R1 R2]. specialize (IH R2 P2).
    cbn [map]. change (mo_fifo o :: map mo_fifo t) with ([mo_fifo o] ++ map mo_fifo t). rewrite accepted_app, accepted_1, IH.
    change (received (o :: t)) with ((if cvalid (o_sink (mo_fifo o)) then [(bdata (cbeat (o_sink (mo_fifo o))), blast (cbeat (o_sink (mo_fifo o))))] else []) ++ received t).
    rewrite map_app. f_equal. unfold xfer. destruct (cvalid (o_sink (mo_fifo o))); [|reflexivity]. rewrite R1 by reflexivity. cbn [andb map fst snd].
    rewrite P1. reflexivity. }
  assert (Hrg : Forall (fun b => 0 <= bdata b < 2 ^ width) (accepted (map mo_fifo t))).
  { clear -Hr. induction t as [|o t IH]; [constructor|]. apply Forall_cons_iff in Hr. destruct Hr as [(l & d & P1 & P2) P3].
    cbn [map]. change (mo_fifo o :: map mo_fifo t) with ([mo_fifo o] ++ map mo_fifo t). rewrite accepted_app, accepted_1. apply Forall_app. split; [|auto].
    unfold xfer. destruct (_ && _); repeat constructor; rewrite P1; apply P2. }
  rewrite Hp in Hrg. destruct (C19_sync_fifo_lossless width 8 true ins' ltac:(lia) Hrg) as (held & X1 & X2).
  unfold ms_fifo in *. rewrite <- Hp, Hacc in X1. exists (map (fun b => (bdata b, blast b)) held). split; [|rewrite map_length; lia].
  rewrite <- map_app, <- X1, map_map. rewrite <- (map_id (received t)) at 1. apply map_ext. intros [? ?]. reflexivity.
Qed.

(** Chip select goes low once cs was high for cs_delay+1 cycles in a row, and words are
    only accepted while it is low. *)
Theorem C59_chip_select : forall width bo div delay ins t1 o t2, 0 <= delay ->
  trace (spi_master width bo div delay) ins = t1 ++ o :: t2 ->
  (mo_cs_n o = false <-> exists before, map mo_cs t1 = before ++ repeat true (Z.to_nat (delay + 1))) /\
  (mo_sready o = true -> mo_cs_n o = false).
Proof.
  intros width bo div delay ins t1 o t2 Hd E.
  set (c := spi_master width bo div delay) in *.
  assert (Hp := proj1 (part_trace c (wait_timer (delay + 1)) wo_wait (fun s => m_tim _ s) (fun s i => mi_cs i) (fun o => WtObs (mo_cs o) (negb (mo_cs_n o)))
      ltac:(reflexivity) eq_refl ltac:(reflexivity) ltac:(intros s i; cbn [c spi_master cout mo_cs mo_cs_n wait_timer]; rewrite negb_involutive; reflexivity) ins)).
  rewrite E in Hp. rewrite map_app in Hp. cbn [map] in Hp.
  pose proof (C20_wait_timer_exact (delay + 1) _ _ _ _ ltac:(lia) (eq_sym Hp)) as H. cbn [wo_done] in H.
  rewrite map_map in H. cbn [wo_wait] in H. split.
  - rewrite <- H. destruct (mo_cs_n o); cbn; intuition congruence.
  - apply trace_one in E. destruct E as (a & i & b & -> & _ & ->). cbn [c spi_master cout mo_sready mo_cs_n]. unfold ms_load, ms_xfr_en.
    destruct (ms_cs_en width (state c a)); [reflexivity|]. fold c. cbn [andb]. rewrite andb_false_r. discriminate.
Qed.

(** A 3-bit word on one line, then a 8-bit word on four lines. *)
Definition C59_ins : list ms_in :=
  let w1 := Chan true (Beat false false (MWord 5 1 true 3)) in
  let w2 := Chan true (Beat false true (MWord 60 4 true 8)) in
  let nw := Chan false (Beat false false (MWord 0 1 true 8)) in
  repeat (MsIn true nw 2 true) 3 ++ [MsIn true w1 2 true] ++ repeat (MsIn true w2 2 true) 12 ++ repeat (MsIn true nw 9 true) 12.
Example C59_nonvacuous :
  let t := trace (spi_master 8 4 1 1) C59_ins in
  words t = [(MWord 5 1 true 3, false); (MWord 60 4 true 8, true)] /\
  rises false t = [(1, 2); (0, 2); (1, 2); (3, 9); (12, 9)] /\
  received t = [(7, false); (153, true)] /\ emitted (map mo_fifo t) = [Beat false false 7; Beat false true 153].
Proof. vm_compute. repeat split. Qed.
Example C59_legal : legal 8 4 (MWord 5 1 true 3) /\ legal 8 4 (MWord 60 4 true 8).
Proof. split; (split; [cbn; auto|]); cbn; (split; [lia|]); (split; [exists 3 + exists 2; reflexivity|]); lia. Qed.

(** ** C93: every accepted word is answered *)
(** With a length that is not a multiple of the width the counters step over 0: the
    master clocks for ever, never answers and accepts nothing more. *)
Definition C93_stuck_ins : list ms_in :=
  let w := Chan true (Beat false true (MWord 5 2 true 3)) in
  repeat (MsIn true w 0 true) 3.
Theorem C93_refuted :
  words (trace (spi_master 8 4 0 0) C93_stuck_ins) = [(MWord 5 2 true 3, true)] /\
  forall ins, received (trace (spi_master 8 4 0 0) (C93_stuck_ins ++ ins)) = [] /\
              words (trace (spi_master 8 4 0 0) (C93_stuck_ins ++ ins)) = [(MWord 5 2 true 3, true)].
Proof.
  split; [vm_compute; reflexivity|]. intros ins. set (c := spi_master 8 4 0 0).
  assert (H : let t := trace c C93_stuck_ins ++ trace_from c (state c C93_stuck_ins) ins in let s := state_from c (state c C93_stuck_ins) ins in
    received t = [] /\ words t = [(MWord 5 2 true 3, true)] /\ m_w _ s = 2 /\ m_run _ s = true /\ m_fv _ s = false /\
    (m_icnt _ s) mod 2 = 1 /\ (m_ocnt _ s) mod 2 = 1).
  { cbv zeta. revert ins. apply (run_inv_from c (fun t s => received t = [] /\ words t = [(MWord 5 2 true 3, true)] /\ m_w _ s = 2 /\ m_run _ s = true /\ m_fv _ s = false /\
      (m_icnt _ s) mod 2 = 1 /\ (m_ocnt _ s) mod 2 = 1)).
    - vm_compute. repeat split.
    - intros t s i (R & W & Hw & Hr & Hv & Hi & Ho).
      assert (Hi0 : (m_icnt _ s =? 0) = false) by (apply Z.eqb_neq; intros E; rewrite E in Hi; discriminate).
      assert (Ho0 : (m_ocnt _ s =? 0) = false) by (apply Z.eqb_neq; intros E; rewrite E in Ho; discriminate).
      assert (Hld : ms_load 8 0 s i = false) by (unfold ms_load, ms_out_end; rewrite Hr, Ho0, andb_false_r; reflexivity).
      assert (Hpar : forall x, x mod 2 = 1 -> trunc 8 (x - 2) mod 2 = 1).
      { intros x Hx. unfold trunc. rewrite <- Znumtheory.Zmod_div_mod; [|lia|reflexivity|exists 128; reflexivity].
        rewrite <- Hx. rewrite <- (Z.mod_add (x - 2) 1 2) by lia. f_equal. lia. }
      rewrite received_snoc, words_snoc, R, W. cbn [c spi_master cout cnext mo_sink mo_sready mo_fifo o_sink ms_fsink cvalid m_w m_run m_fv m_icnt m_ocnt].
      rewrite Hv, Hld, andb_false_r. unfold ms_out_end, ms_in_end. rewrite Ho0, Hi0, !andb_false_r. cbn [negb]. rewrite !andb_true_r.
      split; [reflexivity|]. split; [reflexivity|]. split; [exact Hw|]. split; [exact Hr|]. split; [reflexivity|]. rewrite Hw. split.
      + destruct (ms_posedge_reg _ s); auto.
      + destruct (ms_negedge _ _ s); auto. }
  cbv zeta in H. rewrite trace_app. fold c. unfold state in H. tauto.
Qed.

Section Live.
  Context (width bo div delay : Z).
  Context (Hdiv : 0 <= div < 256).
  Notation c := (spi_master width bo div delay).
  (** Cycles left until the last sample of the current word. *)
  Definition left_ (s : ms_state width) : Z :=
    let r := m_icnt _ s / m_w _ s * (2 * (div + 1)) in
    if ck_pr (m_ck _ s) then 1 + r
    else if ck_clk (m_ck _ s) then (div + 1 - ck_cnt (m_ck _ s)) + (div + 1) + 1 + r
    else (div + 1 - ck_cnt (m_ck _ s)) + 1 + r.

  Lemma left_step s p w cur i : phase width bo div s p (Some w) cur -> ms_in_end width s = false ->
    1 <= left_ s <= 2 * (div + 1) * 256 + 2 /\ left_ (cnext c s i) <= left_ s - 1.
  Proof.
    intros PH He.
    assert (P : exists p' cur' w', phase width bo div s p' (Some w') cur') by eauto.
    assert (Hld : ms_load width div s i = false).
    { inversion PH as [|? ? ? cnt Hr Hc Hcnt HO HI HLg|? ? Hr Hc HO HI HLg Hfv|? ? cnt Hr Hc Hcnt HO HI HLg Hne|]; subst; unfold ms_load; rewrite Hr; cbn [negb orb]; apply andb_false_iff; left; unfold ms_out_end.
      - unfold ms_negedge, ck_negedge. rewrite Hc. cbn. now rewrite andb_false_r.
      - destruct HO as (O1 & _ & _ & O4). destruct HI as (_ & _ & I3 & _). unfold ms_in_end, ms_posedge_reg in He. rewrite Hc in He. cbn [ck_pr andb] in He. rewrite O4, <- I3, He. apply andb_false_r.
      - destruct HO as (O1 & _ & _ & O4). destruct HI as (_ & I2 & I3 & _). destruct (Z.eqb_spec (m_ocnt _ s) 0); [|apply andb_false_r]. lia. }
    unfold left_. cbn [cnext spi_master m_icnt m_w m_ck]. rewrite Hld.
    inversion PH as [|? ? ? cnt Hr Hc Hcnt HO HI HLg|? ? Hr Hc HO HI HLg Hfv|? ? cnt Hr Hc Hcnt HO HI HLg Hne|]; subst; clear PH.
    all: destruct (legal_case _ _ _ HLg) as [C1 C2]; destruct (legal_groups _ _ _ HLg) as [G1 G2]; destruct HO as (O1 & _ & _ & O4); destruct HI as (_ & I2 & I3 & _); destruct HLg as (_ & _ & _ & L1 & L2).
    all: set (W := mw_width (fst w)) in *; set (N := mw_len (fst w) / W) in *; rewrite O1 in *.
    all: assert (Hq : m_icnt _ s / W = N - Z.of_nat (length cur) - 1) by (rewrite I3, G1; replace (W * N - W * (Z.of_nat (length cur) + 1)) with ((N - Z.of_nat (length cur) - 1) * W) by lia; apply Z.div_mul; lia).
    all: assert (HN : N <= 256) by nia.
    all: assert (Hk : Z.of_nat (length cur) < N) by nia.
    all: unfold ms_posedge_reg; rewrite Hc, Hr; unfold ck_next, ck_posedge; cbn [ck_pr ck_clk ck_cnt negb andb].
    - rewrite Hq. destruct (Z.ltb_spec cnt div).
      + destruct (Z.eqb_spec cnt div); [lia|]. cbn [ck_pr ck_clk ck_cnt]. rewrite trunc_small by (change (2 ^ 8) with 256; lia). split; [nia|lia].
      + destruct (Z.eqb_spec cnt div); [|lia]. cbn [ck_pr ck_clk ck_cnt]. split; [nia|lia].
    - unfold ms_in_end, ms_posedge_reg in He. rewrite Hc in He. cbn [ck_pr andb] in He. rewrite He. cbn [negb].
      assert (Hk2 : Z.of_nat (length cur) + 1 < N). { apply Z.eqb_neq in He. rewrite I3, G1 in He. nia. }
      assert (Hi2 : trunc 8 (m_icnt _ s - W) / W = N - Z.of_nat (length cur) - 2).
      { rewrite I3, G1. replace (W * N - W * (Z.of_nat (length cur) + 1) - W) with ((N - Z.of_nat (length cur) - 2) * W) by lia.
        rewrite trunc_small; [apply Z.div_mul; lia|]. change (2 ^ 8) with 256. nia. }
      rewrite Hi2, Hq. destruct (Z.ltb_spec 0 div).
      + cbn [ck_pr ck_clk ck_cnt]. rewrite trunc_small by (change (2 ^ 8) with 256; lia). split; [nia|lia].
      + cbn [ck_pr ck_clk ck_cnt]. split; [nia|lia].
    - rewrite Hq. destruct (Z.ltb_spec cnt div).
      + cbn [ck_pr ck_clk ck_cnt]. rewrite trunc_small by (change (2 ^ 8) with 256; lia). split; [nia|lia].
      + cbn [ck_pr ck_clk ck_cnt]. split; [nia|lia].
  Qed.

  Definition answered (ins : list ms_in) : nat := length (received (trace c ins) ++ late width (state c ins)).
  Lemma answered_snoc ins i : answered (ins ++ [i]) = (answered ins + if ms_in_end width (state c ins) then 1 else 0)%nat /\
    length (received (trace c (ins ++ [i]))) = answered ins.
  Proof.
    unfold answered. unfold state. rewrite trace_app, state_from_app. fold (state c ins). set (s := state c ins).
    change (trace_from c s [i]) with [cout c s i]. change (state_from c s [i]) with (cnext c s i). rewrite received_snoc, !app_length.
    unfold late. cbn [cout cnext spi_master mo_fifo o_sink ms_fsink cvalid m_fv]. destruct (m_fv _ s), (ms_in_end width s); cbn [length]; lia.
  Qed.
  Lemma pending ins : ok width bo (trace c ins) -> exists ws (gs : list (list (Z * Z))) pend cur,
    words (trace c ins) = ws ++ opt pend /\ phase width bo div (state c ins) (last_clk (trace c ins)) pend cur /\ answered ins = length ws.
  Proof.
    intros H. destruct (m_run_inv width bo div delay Hdiv ins H) as (ws & gs & pend & cur & W & R & FW & FA & PH & _).
    exists ws, gs, pend, cur. split; [exact W|]. split; [exact PH|]. unfold answered. clear -FA. induction FA; cbn [length] in *; congruence.
  Qed.
  Lemma words_mono a b : (length (words (trace c a)) <= length (words (trace c (a ++ b))))%nat.
  Proof. rewrite trace_app. unfold words. rewrite flat_map_app, app_length. lia. Qed.
  Lemma answered_mono a b : (answered a <= answered (a ++ b))%nat.
  Proof.
    induction b as [|i b IH] using rev_ind; [rewrite app_nil_r; lia|]. rewrite app_assoc. destruct (answered_snoc (a ++ b) i) as [-> _]. lia.
  Qed.
  Lemma ok_prefix a b : ok width bo (trace c (a ++ b)) -> ok width bo (trace c a).
  Proof. unfold ok. rewrite trace_app. unfold words. rewrite flat_map_app. intros H. apply Forall_app in H. apply H. Qed.

  Lemma live ins2 : forall ins1, ok width bo (trace c (ins1 ++ ins2)) -> left_ (state c ins1) <= Z.of_nat (length ins2) ->
    (length (words (trace c ins1)) <= answered (ins1 ++ ins2))%nat.
  Proof.
    induction ins2 as [|i ins2 IH]; intros ins1 Hok Hl; destruct (pending ins1 (ok_prefix _ _ Hok)) as (ws & gs & pend & cur & W & PH & A).
    - rewrite app_nil_r. rewrite W, app_length. destruct pend as [w|]; [|cbn [opt length]; lia].
      destruct (ms_in_end width (state c ins1)) eqn:E.
      + exfalso. cbn [length] in Hl. unfold ms_in_end, ms_posedge_reg in E. apply andb_prop in E. destruct E as [E1 E2]. apply Z.eqb_eq in E2.
        unfold left_ in Hl. rewrite E1, E2 in Hl. rewrite Zdiv_0_l in Hl. lia.
      + destruct (left_step _ _ _ _ (MsIn false (Chan false (Beat false false (MWord 0 0 false 0))) 0 false) PH E) as [B _]. cbn [length] in Hl. lia.
    - replace (ins1 ++ i :: ins2) with ((ins1 ++ [i]) ++ ins2) in * by now rewrite <- app_assoc.
      destruct pend as [w|].
      + destruct (ms_in_end width (state c ins1)) eqn:E.
        * pose proof (answered_mono (ins1 ++ [i]) ins2). destruct (answered_snoc ins1 i) as [X _]. rewrite E in X. rewrite W, app_length. cbn [opt length]. lia.
        * destruct (left_step _ _ _ _ i PH E) as [B C]. pose proof (words_mono ins1 [i]).
          specialize (IH (ins1 ++ [i]) Hok). cbn [length] in Hl.
          replace (state c (ins1 ++ [i])) with (cnext c (state c ins1) i) in IH by (unfold state; rewrite state_from_app; reflexivity).
          specialize (IH ltac:(lia)). lia.
      + rewrite W, app_length. cbn [opt length]. rewrite <- A. pose proof (answered_mono ins1 ([i] ++ ins2)). rewrite <- app_assoc. lia.
  Qed.
End Live.

(** Legal words (in particular the width divides the length) are all answered, in
    bounded time, whatever the environment does. *)
Theorem C93_answered_partial : forall width bo div delay ins1 ins2, 0 <= div < 256 ->
  let c := spi_master width bo div delay in
  Forall (fun w => legal width bo (fst w)) (words (trace c (ins1 ++ ins2))) ->
  512 * (div + 1) + 3 <= Z.of_nat (length ins2) ->
  (length (words (trace c ins1)) <= length (received (trace c (ins1 ++ ins2))))%nat.
Proof.
  intros width bo div delay ins1 ins2 Hd c Hok Hl.
  destruct ins2 as [|i ins2 _] using rev_ind; [cbn [length] in Hl; lia|].
  rewrite app_assoc in *. destruct (answered_snoc width bo div delay (ins1 ++ ins2) i) as [_ E]. fold c in E. rewrite E.
  pose proof (ok_prefix width bo div delay _ _ Hok) as Hok1.
  destruct (pending width bo div delay Hd ins1 (ok_prefix width bo div delay _ _ Hok1)) as (ws & gs & pend & cur & W & PH & A).
  destruct pend as [w|].
  2: { fold c in W. rewrite W. cbn [opt]. rewrite app_nil_r, <- A. apply answered_mono. }
  destruct (ms_in_end width (state c ins1)) eqn:Ee.
  - destruct ins2 as [|j ins2]; [cbn [length app] in Hl; lia|]. fold c in W. rewrite W, app_length. cbn [opt length].
    replace (ins1 ++ j :: ins2) with ((ins1 ++ [j]) ++ ins2) by now rewrite <- app_assoc.
    pose proof (answered_mono width bo div delay (ins1 ++ [j]) ins2). destruct (answered_snoc width bo div delay ins1 j) as [X _]. fold c in X. rewrite Ee in X. lia.
  - apply live; auto. destruct (left_step width bo div delay Hd _ _ _ _ i PH Ee) as [B _]. rewrite app_length in Hl. cbn [length] in Hl. lia.
Qed.

(** The words of [C59_nonvacuous] are answered within the bound. *)
Example C93_nonvacuous :
  let c := spi_master 8 4 1 1 in let later := repeat (MsIn true (Chan false (Beat false false (MWord 0 1 true 8))) 0 true) 1027 in
  words (trace c (firstn 10 C59_ins)) = [(MWord 5 1 true 3, false)] /\ length (received (trace c (firstn 10 C59_ins))) = 0%nat /\
  words (trace c (firstn 10 C59_ins ++ later)) = [(MWord 5 1 true 3, false)] /\ length (received (trace c (firstn 10 C59_ins ++ later))) = 1%nat /\
  legal 8 4 (MWord 5 1 true 3) /\ 512 * (1 + 1) + 3 <= Z.of_nat (length later).
Proof. cbv zeta. split; [vm_compute; reflexivity|]. split; [vm_compute; reflexivity|]. split; [vm_compute; reflexivity|]. split; [vm_compute; reflexivity|]. split; [apply C59_legal|vm_compute; discriminate]. Qed.

Print Assumptions C59_transfers.
Print Assumptions C59_fifo_ready.
Print Assumptions C59_delivered.
Print Assumptions C59_chip_select.
Print Assumptions C93_refuted.
Print Assumptions C93_answered_partial.
