(** Property C138 (a reset of the clock domain in the middle of an execution). *)
From Verif Require Import Stream Mem_model Mem_spec Mem_proofs Mem_props Timer_model Timer_proofs Serial_model I2c_model I2cstream_model I2cproto_model
  I2cinit_model Lcd_model Bridge_model Fifo_model Spiclk_model Spimaster_model Spimaster_props Spislave_model Spibridge_model Spiwb_model Reset_model.

(** What is seen after a reset: anything happens, [past], including other resets; then the
    reset is high while the inputs are [rst]; then it is low, and the inputs are [ins]. *)
Definition after_reset {I O} (c : circuit I O) (keep : cst c -> cst c) (past : list (bool * I)) (rst ins : list I) : list O :=
  skipn (length past + length rst) (trace (resettable c keep) (past ++ map (pair true) rst ++ map (pair false) ins)).

(** The core is as new after a reset of at least [n] cycles: it goes on as if it had been powered
    up at the start of this reset. *)
Definition as_new {I O} (n : nat) (c : circuit I O) (keep : cst c -> cst c) : Prop :=
  forall past rst ins, (n <= length rst)%nat -> after_reset c keep past rst ins = after_reset c keep [] rst ins.

Section Generic.
  Context {I O : Type} (c : circuit I O) (keep : cst c -> cst c).
  Notation R := (resettable c keep).
  Lemma state_join a b : state R (a ++ b) = state_from R (state R a) b.
  Proof. apply state_from_app. Qed.
  Lemma go_on s ins : trace_from R s (map (pair false) ins) = trace_from c s ins.
  Proof. revert s. induction ins as [|i ins IH]; intros s; [reflexivity|]. cbn. f_equal. apply IH. Qed.
  Lemma after_reset_state past rst ins :
    after_reset c keep past rst ins = trace_from c (state_from R (state R past) (map (pair true) rst)) ins.
  Proof.
    unfold after_reset. rewrite app_assoc, trace_app, skipn_app, trace_length, app_length, map_length, Nat.sub_diag.
    rewrite skipn_all2 by (rewrite trace_length, app_length, map_length; lia). cbn [app skipn]. rewrite go_on.
    now rewrite state_join.
  Qed.
  Lemma held_snoc s rst i : state_from R s (map (pair true) (rst ++ [i])) = keep (cnext c (state_from R s (map (pair true) rst)) i).
  Proof. rewrite map_app, state_from_app. reflexivity. Qed.
  (** Without registers that are kept, one cycle is enough, and the core starts again from its
      power-up state. *)
  Lemma plain past rst ins : (forall s, keep s = creset c) -> rst <> [] -> after_reset c keep past rst ins = trace c ins.
  Proof.
    intros K Hr. rewrite after_reset_state. destruct rst as [|i rst _] using rev_ind; [congruence|].
    rewrite held_snoc, K. reflexivity.
  Qed.
  (** When two cycles of reset wipe out the state. *)
  Lemma two_cycles : (forall s s' i j, keep (cnext c (keep (cnext c s i)) j) = keep (cnext c (keep (cnext c s' i)) j)) -> as_new 2 c keep.
  Proof.
    intros K past rst ins Hr. rewrite !after_reset_state.
    destruct rst as [|j rst _] using rev_ind; [cbn in Hr; lia|]. destruct rst as [|i rst _] using rev_ind; [cbn in Hr; lia|].
    rewrite !held_snoc. f_equal. apply K.
  Qed.
  Lemma two_quiet (q : I -> Prop) : (forall s i j, q i -> q j -> keep (cnext c (keep (cnext c s i)) j) = creset c) ->
    forall past rst i j ins, q i -> q j -> after_reset c keep past (rst ++ [i; j]) ins = trace c ins.
  Proof.
    intros K past rst i j ins Hi Hj. rewrite after_reset_state. change [i; j] with ([i] ++ [j]). rewrite app_assoc, !held_snoc, K; auto.
  Qed.
End Generic.

(** ** Cores that are as new after two cycles *)
Section I2c.
  Context (period : Z) (stretch oe : bool).
  Lemma keep_i2c_next s i : keep_i2c (i2c_next period stretch oe s i) =
    I2cSt (s_f i2c_reset) (s_busy i2c_reset) (s_timer i2c_reset) (s_d i2c_reset) (ii_sda_pad i) (s_sda1 s) (ii_scl_pad i) (s_scl1 s).
  Proof. unfold i2c_next. destruct (fsm_next _ _ s i). reflexivity. Qed.
  (** Two cycles of the bus driver, however its inputs are computed. *)
  Lemma i2c_two s i s' j : s_sda1 s' = s_sda1 (keep_i2c (i2c_next period stretch oe s i)) -> s_scl1 s' = s_scl1 (keep_i2c (i2c_next period stretch oe s i)) ->
    keep_i2c (i2c_next period stretch oe s' j) =
    I2cSt (s_f i2c_reset) (s_busy i2c_reset) (s_timer i2c_reset) (s_d i2c_reset) (ii_sda_pad j) (ii_sda_pad i) (ii_scl_pad j) (ii_scl_pad i).
  Proof. rewrite !keep_i2c_next. cbn [s_sda1 s_scl1]. intros -> ->. reflexivity. Qed.

  Lemma ist_keep s x : keep_ist (cnext (i2c_stream period stretch oe) s x) =
    Ist (is_f ist_reset) (is_last ist_reset) (keep_i2c (i2c_next period stretch oe (is_i s) (ist_in s (fst (fst x)) (snd x)))).
  Proof. destruct x as [[c r] p]. reflexivity. Qed.
  Lemma iw_keep s x : keep_iw (cnext (i2c_writer period stretch oe) s x) =
    Iw (iw_f iw_reset) (iw_stage iw_reset) (iw_retry iw_reset) (iw_c0 iw_reset) (iw_c1 iw_reset) (iw_c2 iw_reset) (iw_cstage iw_reset)
       (keep_i2c (i2c_next period stretch oe (iw_i s) (iw_in s (fst x) (snd x)))).
  Proof.
    destruct x as [c p]. cbn [cnext i2c_writer fst snd]. unfold keep_iw. f_equal. f_equal.
    unfold iw_next. destruct (iw_f s); repeat match goal with |- iw_i (if ?b then _ else _) = _ => destruct b end; reflexivity.
  Qed.
  Lemma pr_keep s x : keep_pr (cnext (i2c_proto period stretch oe) s x) =
    Pr (p_f pr_reset) (p_header pr_reset) (p_length pr_reset) (p_status pr_reset)
       (keep_ist (cnext (i2c_stream period stretch oe) (p_i s) (pr_isink s (fst (fst x)), pr_irdy s (snd (fst x)), snd x))).
  Proof.
    destruct x as [[c r] p]. cbn [cnext i2c_proto fst snd]. unfold keep_pr. f_equal. f_equal.
    unfold pr_next. destruct (p_f s); repeat match goal with |- p_i (if ?b then _ else _) = _ => destruct b end; reflexivity.
  Qed.
End I2c.

Section Wipe.
  Context (period : Z) (stretch oe : bool).
  (** The bus driver after two cycles of reset with these pads. *)
  Definition i2c_pads (p q : pads) : i2c_state :=
    I2cSt (s_f i2c_reset) (s_busy i2c_reset) (s_timer i2c_reset) (s_d i2c_reset) (fst q) (fst p) (snd q) (snd p).
  Lemma wipe_i2c s i j : keep_i2c (i2c_next period stretch oe (keep_i2c (i2c_next period stretch oe s i)) j) =
    i2c_pads (ii_sda_pad i, ii_scl_pad i) (ii_sda_pad j, ii_scl_pad j).
  Proof. unfold i2c_pads. cbn [fst snd]. exact (i2c_two period stretch oe s i _ j eq_refl eq_refl). Qed.
  Lemma wipe_ist s x y : keep_ist (cnext (i2c_stream period stretch oe) (keep_ist (cnext (i2c_stream period stretch oe) s x)) y) =
    Ist (is_f ist_reset) (is_last ist_reset) (i2c_pads (snd x) (snd y)).
  Proof. rewrite !ist_keep. cbn [is_i]. rewrite wipe_i2c. unfold ist_in. cbn [ii_sda_pad ii_scl_pad]. reflexivity. Qed.
  Lemma wipe_iw s x y : keep_iw (cnext (i2c_writer period stretch oe) (keep_iw (cnext (i2c_writer period stretch oe) s x)) y) =
    Iw (iw_f iw_reset) (iw_stage iw_reset) (iw_retry iw_reset) (iw_c0 iw_reset) (iw_c1 iw_reset) (iw_c2 iw_reset) (iw_cstage iw_reset)
      (i2c_pads (snd x) (snd y)).
  Proof. rewrite !iw_keep. cbn [iw_i]. rewrite wipe_i2c. unfold iw_in. cbn [ii_sda_pad ii_scl_pad]. reflexivity. Qed.
  Lemma wipe_pr s x y : keep_pr (cnext (i2c_proto period stretch oe) (keep_pr (cnext (i2c_proto period stretch oe) s x)) y) =
    Pr (p_f pr_reset) (p_header pr_reset) (p_length pr_reset) (p_status pr_reset)
      (Ist (is_f ist_reset) (is_last ist_reset) (i2c_pads (snd x) (snd y))).
  Proof. rewrite !pr_keep. cbn [p_i]. rewrite wipe_ist. reflexivity. Qed.
  Lemma wipe_bridge s x y :
    keep_bridge (cnext (i2c_bridge period stretch oe) (keep_bridge (cnext (i2c_bridge period stretch oe) s x)) y) =
    Bridge_model.Br (Us false 0) [] (Pr (p_f pr_reset) (p_header pr_reset) (p_length pr_reset) (p_status pr_reset)
      (Ist (is_f ist_reset) (is_last ist_reset) (i2c_pads (bi_pads x) (bi_pads y)))) [].
  Proof.
    change (keep_bridge (cnext (i2c_bridge period stretch oe) (keep_bridge (cnext (i2c_bridge period stretch oe) s x)) y))
      with (Bridge_model.Br (Us false 0) [] (keep_pr (cnext (i2c_proto period stretch oe)
        (keep_pr (cnext (i2c_proto period stretch oe) (b_pr s) (br_pr_in s x)))
        (br_pr_in (keep_bridge (cnext (i2c_bridge period stretch oe) s x)) y))) []).
    rewrite wipe_pr. reflexivity.
  Qed.
End Wipe.

(** The reader of a command table: the word at the output of the memory. *)
Lemma wipe_mr init s (x y : bool * bool) : keep_mr (mr_next init (keep_mr (mr_next init s (fst x) (snd x))) (fst y) (snd y)) = Mr false true 0 (nth 0 init 0).
Proof. unfold keep_mr, mr_next, mr_src. cbn [mr_wait mr_rd mr_done mr_rp mr_reset negb andb cvalid]. destruct (fst y); reflexivity. Qed.
Lemma wipe_mrb init s x y : keep_mrb (cnext (mem_reader_buffered init) (keep_mrb (cnext (mem_reader_buffered init) s x)) y) =
  (Mr false true 0 (nth 0 init 0), Pipe_model.pv_reset 0).
Proof.
  unfold keep_mrb. cbn [cnext mem_reader_buffered fst snd]. f_equal.
  exact (wipe_mr init (fst s) (fst x, _) (fst y, _)).
Qed.

(** The SPI slave: the pins. *)
Lemma keep_sl_next cpol cpha width bw with_len stages s i :
  keep_sl width with_len (cnext (spi_slave cpol cpha width bw with_len stages) s i) =
  Sl _ _ (sl_pins i) (l_p1 _ _ s) false 0 0 0 0 0 0 (st0 (sl_fifo width with_len)).
Proof.
  unfold keep_sl. cbn [cnext spi_slave].
  match goal with |- context [let '(_, _) := ?e in _] => destruct e as [[? ?] ?] end.
  match goal with |- context [let '(_, _) := ?e in _] => destruct e as [[? ?] ?] end. reflexivity.
Qed.
Lemma wipe_sl cpol cpha width bw with_len stages s i j :
  keep_sl width with_len (cnext (spi_slave cpol cpha width bw with_len stages) (keep_sl width with_len (cnext (spi_slave cpol cpha width bw with_len stages) s i)) j) =
  Sl _ _ (sl_pins j) (sl_pins i) false 0 0 0 0 0 0 (st0 (sl_fifo width with_len)).
Proof. rewrite !keep_sl_next. reflexivity. Qed.

(** Both pads of the bus high: the bus is free. *)
Definition bus_free (p : pads) : Prop := p = (true, true).

(** C138, the I2C cores and the half duplex UART: whatever they were doing, a reset of two
    cycles or more puts them back into their power-up state if the pins are idle in its
    last two cycles. *)
Theorem C138_i2c_restarts : forall period stretch oe,
  (forall past rst i j ins, bus_free (ii_sda_pad i, ii_scl_pad i) -> bus_free (ii_sda_pad j, ii_scl_pad j) ->
   after_reset (i2c_initiator period stretch oe) keep_i2c past (rst ++ [i; j]) ins = trace (i2c_initiator period stretch oe) ins) /\
  (forall past rst i j ins, bus_free (snd i) -> bus_free (snd j) ->
   after_reset (i2c_stream period stretch oe) keep_ist past (rst ++ [i; j]) ins = trace (i2c_stream period stretch oe) ins) /\
  (forall past rst i j ins, bus_free (snd i) -> bus_free (snd j) ->
   after_reset (i2c_writer period stretch oe) keep_iw past (rst ++ [i; j]) ins = trace (i2c_writer period stretch oe) ins) /\
  (forall past rst i j ins, bus_free (snd i) -> bus_free (snd j) ->
   after_reset (i2c_proto period stretch oe) keep_pr past (rst ++ [i; j]) ins = trace (i2c_proto period stretch oe) ins) /\
  (forall past rst i j ins, bus_free (bi_pads i) -> bus_free (bi_pads j) ->
   after_reset (i2c_bridge period stretch oe) keep_bridge past (rst ++ [i; j]) ins = trace (i2c_bridge period stretch oe) ins).
Proof.
  intros period stretch oe. split; [|split; [|split; [|split]]].
  - apply (two_quiet (i2c_initiator period stretch oe) keep_i2c (fun i => bus_free (ii_sda_pad i, ii_scl_pad i))).
    intros s i j Hi Hj. cbn [cnext i2c_initiator]. rewrite wipe_i2c, Hi, Hj. reflexivity.
  - apply (two_quiet (i2c_stream period stretch oe) keep_ist (fun i => bus_free (snd i))).
    intros s i j Hi Hj. rewrite wipe_ist, Hi, Hj. reflexivity.
  - apply (two_quiet (i2c_writer period stretch oe) keep_iw (fun i => bus_free (snd i))).
    intros s i j Hi Hj. rewrite wipe_iw, Hi, Hj. reflexivity.
  - apply (two_quiet (i2c_proto period stretch oe) keep_pr (fun i => bus_free (snd i))).
    intros s i j Hi Hj. rewrite wipe_pr, Hi, Hj. reflexivity.
  - apply (two_quiet (i2c_bridge period stretch oe) keep_bridge (fun i => bus_free (bi_pads i))).
    intros s i j Hi Hj. rewrite wipe_bridge, Hi, Hj. reflexivity.
Qed.
Theorem C138_uart_restarts : forall divisor past rst i j ins, h_pin i = true -> h_pin j = true ->
  after_reset (half_duplex divisor) (keep_hd divisor) past (rst ++ [i; j]) ins = trace (half_duplex divisor) ins.
Proof.
  intros divisor. apply (two_quiet (half_duplex divisor) (keep_hd divisor) (fun i => h_pin i = true)).
  intros s i j Hi Hj. unfold keep_hd. cbn [cnext half_duplex hd_f1 hd_f2]. rewrite Hi, Hj. reflexivity.
Qed.

(** C138, whatever the pins do during the reset: after two cycles nothing of the past is left,
    in the I2C cores, the readers of a command table, the SSD1306 display, the half duplex UART,
    the SPI slave and the SPI to Wishbone bridge. *)
Theorem C138_as_new :
  (forall period stretch oe, as_new 2 (i2c_initiator period stretch oe) keep_i2c) /\
  (forall period stretch oe, as_new 2 (i2c_stream period stretch oe) keep_ist) /\
  (forall period stretch oe, as_new 2 (i2c_writer period stretch oe) keep_iw) /\
  (forall period stretch oe, as_new 2 (i2c_proto period stretch oe) keep_pr) /\
  (forall period stretch oe, as_new 2 (i2c_bridge period stretch oe) keep_bridge) /\
  (forall addr regs expose period stretch oe,
    as_new 2 (reg_init addr regs expose period stretch oe) (keep_ri addr regs period stretch oe)) /\
  (forall init, as_new 2 (mem_reader init) keep_mr) /\
  (forall init, as_new 2 (mem_reader_buffered init) keep_mrb) /\
  (forall g por_init, as_new 2 (ssd1306 g por_init) (keep_ld g)) /\
  (forall divisor, as_new 2 (half_duplex divisor) (keep_hd divisor)) /\
  (forall cpol cpha width bw with_len stages,
    as_new 2 (spi_slave cpol cpha width bw with_len stages) (keep_sl width with_len)) /\
  (forall cpol cpha width bw stages addr_width,
    as_new 2 (spi_wb cpol cpha width bw stages addr_width) (keep_wb cpol cpha width bw stages addr_width)).
Proof.
  repeat apply conj.
  - intros. apply two_cycles. intros s s' i j. cbn [cnext i2c_initiator]. now rewrite !wipe_i2c.
  - intros. apply two_cycles. intros s s' i j. now rewrite !wipe_ist.
  - intros. apply two_cycles. intros s s' i j. now rewrite !wipe_iw.
  - intros. apply two_cycles. intros s s' i j. now rewrite !wipe_pr.
  - intros. apply two_cycles. intros s s' i j. now rewrite !wipe_bridge.
  - intros. apply two_cycles. intros s s' x y.
    assert (K : forall a b, keep_ri addr regs period stretch oe (cnext (reg_init addr regs expose period stretch oe) a b) =
      Ri addr regs period stretch oe false
        (keep_mrb (cnext (mem_reader_buffered (ri_table addr regs)) (rs_mem _ _ _ _ _ a) (false, ri_mready addr regs expose period stretch oe a)))
        (keep_iw (cnext (i2c_writer period stretch oe) (rs_w _ _ _ _ _ a) (ri_wsink addr regs expose period stretch oe a (fst b), snd b)))).
    { intros a [u p]. reflexivity. }
    rewrite !K. cbn [rs_mem rs_w]. rewrite !wipe_mrb, !wipe_iw. reflexivity.
  - intros. apply two_cycles. intros s s' i j. cbn [cnext mem_reader]. now rewrite !wipe_mr.
  - intros. apply two_cycles. intros s s' i j. now rewrite !wipe_mrb.
  - intros. apply two_cycles. intros s s' x y.
    assert (K : forall a b, keep_ld g (cnext (ssd1306 g por_init) a b) =
      Ld g LUnknown false 0 (keep_mrb (cnext (mem_reader_buffered (init_cmds g)) (linit g a) (ld_iin g a b)))
        (keep_mrb (cnext (mem_reader_buffered (display_cmds g)) (ldisp g a) (ld_din g a b))) LwAddr).
    { intros a b. unfold keep_ld. f_equal; f_equal; cbn [cnext ssd1306]; destruct (lf g a);
        repeat match goal with |- _ (if ?c then _ else _) = _ => destruct c end; reflexivity. }
    rewrite !K. cbn [linit ldisp]. now rewrite !wipe_mrb.
  - intros. apply two_cycles. intros s s' i j. reflexivity.
  - intros. apply two_cycles. intros s s' i j. now rewrite !wipe_sl.
  - intros. apply two_cycles. intros s s' i j.
    assert (K : forall a b, keep_wb cpol cpha width bw stages addr_width (cnext (spi_wb cpol cpha width bw stages addr_width) a b) =
      (keep_sl width true (cnext (spi_slave cpol cpha width bw true stages) (fst a) (wb_sin cpol cpha width stages (fst a) (snd a) b)),
       Spibridge_model.Br BrCommand false 0 0)) by reflexivity.
    rewrite !K. cbn [fst snd]. rewrite !wipe_sl. reflexivity.
Qed.

(** ** Cores that are not *)
(** C138 is false for the memory stream, the clock dividers and the SPI master, however long the
    reset: the memory keeps its contents, and the word read in the cycle after the first write
    shows it ... *)
Definition idle_mem : mem_in := MemIn false (Chan false (Beat false false 0)) false.
Theorem C138_memory_refuted : ~ exists n, as_new n (mem_stream 4) keep_mem.
Proof.
  intros [n H].
  set (w d := MemIn false (Chan true (Beat false false d)) false).
  set (r := MemIn false (Chan false (Beat false false 0)) true).
  specialize (H [(false, w 9)] (repeat idle_mem (S n)) [w 5; r] ltac:(rewrite repeat_length; lia)).
  rewrite !after_reset_state in H.
  assert (K : forall n s,
    let s' := state_from (resettable (mem_stream 4) keep_mem) s (map (pair true) (repeat idle_mem (S n))) in
    ms_mem s' 0 = ms_mem s 0 /\ ms_wr s' = 0 /\ ms_rd s' = 0 /\ Mem_model.ms_level s' = 0).
  { clear. induction n as [|n IH]; intros s; [repeat split|].
    set (x := keep_mem (cnext (mem_stream 4) s idle_mem)). destruct (IH x) as (A & B & C & D). exact (conj A (conj B (conj C D))). }
  assert (E : forall s, ms_wr s = 0 -> ms_rd s = 0 -> Mem_model.ms_level s = 0 ->
    map (fun o => bdata (cbeat (Mem_model.mo_src o))) (trace_from (mem_stream 4) s [w 5; r]) = [ms_rp s; ms_mem s 0]).
  { intros s A B C. cbn. reflexivity. }
  apply (f_equal (map (fun o => bdata (cbeat (Mem_model.mo_src o))))) in H.
  destruct (K n (state (resettable (mem_stream 4) keep_mem) [(false, w 9)])) as (A & B & C & D).
  destruct (K n (state (resettable (mem_stream 4) keep_mem) [])) as (A' & B' & C' & D').
  rewrite !E in H by assumption. rewrite A, A' in H. discriminate H.
Qed.

(** ... the dividers keep their phase ... *)
Theorem C138_clocks_refuted : ~ (exists n, as_new n (pulse_clock (2 ^ 31)) keep_pc) /\ ~ (exists n, as_new n (tuning_clock (2 ^ 31)) keep_tc).
Proof.
  split; intros [n H].
  - specialize (H [(false, false)] (repeat false (S n)) [false; false; false] ltac:(rewrite repeat_length; lia)).
    rewrite !after_reset_state in H.
    assert (K : forall n s, (pc_acc s = 0 \/ pc_acc s = 2 ^ 31) ->
      let s' := state_from (resettable (pulse_clock (2 ^ 31)) keep_pc) s (map (pair true) (repeat false (S n))) in
      pc_acc s' = (if Nat.even n then 2 ^ 31 - pc_acc s else pc_acc s) /\ pc_tick s' = false).
    { clear. induction n as [|n IH]; intros s S0.
      - split; [|reflexivity]. destruct S0 as [E|E]; cbn -[Z.pow]; rewrite E; reflexivity.
      - set (x := keep_pc (cnext (pulse_clock (2 ^ 31)) s false)).
        assert (X : pc_acc x = 2 ^ 31 - pc_acc s) by (destruct S0 as [E|E]; cbn -[Z.pow]; rewrite E; reflexivity).
        destruct (IH x) as (A & B); [rewrite X; lia|]. split; [|exact B]. etransitivity; [exact A|].
        rewrite X, Nat.even_succ, <- Nat.negb_even. destruct (Nat.even n); cbn [negb]; lia. }
    destruct (K n (state (resettable (pulse_clock (2 ^ 31)) keep_pc) [(false, false)]) (or_intror eq_refl)) as [A B].
    destruct (K n (state (resettable (pulse_clock (2 ^ 31)) keep_pc) []) (or_introl eq_refl)) as [A' B'].
    set (x := state_from _ _ _) in H, A, B. set (y := state_from _ (state _ []) _) in H, A', B'.
    destruct x as [xa xt], y as [ya yt]. cbn [pc_acc pc_tick] in A, B, A', B'. subst.
    destruct (Nat.even n); discriminate H.
  - specialize (H [(false, tt)] (repeat tt (S n)) [tt; tt; tt; tt] ltac:(rewrite repeat_length; lia)).
    rewrite !after_reset_state in H.
    assert (K : forall n s, (tc_acc s = 0 \/ tc_acc s = 2 ^ 31) ->
      let s' := state_from (resettable (tuning_clock (2 ^ 31)) keep_tc) s (map (pair true) (repeat tt (S n))) in
      tc_acc s' = (if Nat.even n then 2 ^ 31 - tc_acc s else tc_acc s) /\ tc_tick s' = false /\ tc_o s' = false).
    { clear. induction n as [|n IH]; intros s S0.
      - split; [|split; reflexivity]. destruct S0 as [E|E]; cbn -[Z.pow]; rewrite E; reflexivity.
      - set (x := keep_tc (cnext (tuning_clock (2 ^ 31)) s tt)).
        assert (X : tc_acc x = 2 ^ 31 - tc_acc s) by (destruct S0 as [E|E]; cbn -[Z.pow]; rewrite E; reflexivity).
        destruct (IH x) as (A & B); [rewrite X; lia|]. split; [|exact B]. etransitivity; [exact A|].
        rewrite X, Nat.even_succ, <- Nat.negb_even. destruct (Nat.even n); cbn [negb]; lia. }
    destruct (K n (state (resettable (tuning_clock (2 ^ 31)) keep_tc) [(false, tt)]) (or_intror eq_refl)) as (A & B & C).
    destruct (K n (state (resettable (tuning_clock (2 ^ 31)) keep_tc) []) (or_introl eq_refl)) as (A' & B' & C').
    set (x := state_from _ _ _) in H, A, B, C. set (y := state_from _ (state _ []) _) in H, A', B', C'.
    destruct x as [xa xt xo], y as [ya yt yo]. cbn [tc_acc tc_tick tc_o] in A, B, C, A', B', C'. subst.
    destruct (Nat.even n); discriminate H.
Qed.

(** ... and the SPI master keeps its receive shift register: the upper bits of a short word show
    the bits received before the reset. *)
Definition idle_spi : ms_in := MsIn false (Chan false (Beat false false (MWord 0 0 false 0))) 0 false.
Theorem C138_spi_master_refuted : ~ exists n, as_new n (spi_master 16 1 0 0) (keep_ms 16 0).
Proof.
  intros [n H].
  set (w len dq := MsIn true (Chan true (Beat false true (MWord 0 1 true len))) dq true).
  specialize (H (map (pair false) (repeat (w 16 2) 60)) (repeat idle_spi (S n)) (repeat (w 8 0) 40) ltac:(rewrite repeat_length; lia)).
  rewrite !after_reset_state in H.
  assert (K : forall n s, state_from (resettable (spi_master 16 1 0 0) (keep_ms 16 0)) (keep_ms 16 0 s) (map (pair true) (repeat idle_spi n)) = keep_ms 16 0 s).
  { clear. induction n as [|n IH]; intros s; [reflexivity|]. cbn [repeat map state_from]. etransitivity; [|exact (IH s)]. reflexivity. }
  set (p := map (pair false) (repeat (w 16 2) 60)) in H.
  change (map (pair true) (repeat idle_spi (S n))) with ((true, idle_spi) :: map (pair true) (repeat idle_spi n)) in H.
  cbn [state_from] in H.
  change (cnext (resettable (spi_master 16 1 0 0) (keep_ms 16 0)) ?s (true, idle_spi)) with (keep_ms 16 0 (cnext (spi_master 16 1 0 0) s idle_spi)) in H.
  rewrite !K in H. apply (f_equal (fun t => map (fun b => (bdata b, blast b)) (emitted (map mo_fifo t)))) in H. vm_compute in H. discriminate H.
Qed.

(** C138 (partial), the memory stream: what is written after the reset is read back, whatever was
    in the memory before. *)
Definition mem_keep depth (buffered : bool) : cst (memory_stream depth buffered) -> cst (memory_stream depth buffered) :=
  match buffered with true => keep_memb | false => keep_mem end.
Theorem C138_memory_partial : forall depth buffered past rst ins tp tw o tr1 x tr2, 2 <= depth -> rst <> [] ->
  after_reset (memory_stream depth buffered) (mem_keep depth buffered) past rst ins = tp ++ tw ++ o :: tr1 ++ x :: tr2 ->
  ends_with_rewind tp -> Forall (fun x => mo_rewind x = false) tw ->
  mo_rewind o = true -> cvalid (Mem_model.mo_sink o) = false ->
  Forall (fun x => cvalid (Mem_model.mo_sink x) = false) (tr1 ++ x :: tr2) -> mo_rewind x = false ->
  let ws := ms_written tw in
  let s := Mem_spec.since mo_rewind tr1 in
  let k := length (ms_delivered s) in
  (1 <= length ws)%nat -> Z.of_nat (length ws) <= depth ->
  (k < length ws)%nat ->
  cvalid (mo_src x) = Nat.leb (if buffered then 1 else 0) (length s) /\
  (cvalid (mo_src x) = true -> cbeat (mo_src x) = Beat false (Nat.eqb (S k) (length ws)) (nth k ws 0)).
Proof.
  intros depth b past rst ins tp tw o tr1 x tr2 Hd Hr E H1 H2 H3 H4 H5 Hx ws s k Hn Hnd Hk.
  rewrite after_reset_state in E. destruct rst as [|i rst _] using rev_ind; [congruence|]. rewrite held_snoc in E.
  set (s0 := mem_keep _ _ _) in E. assert (H0 : wr_start depth b s0) by (subst s0; destruct b; reflexivity).
  destruct (read_phase_from depth b s0 ins tp tw o _ Hd H0 E H1 H2 H3 H5 Hn Hnd (or_introl H4)) as [_ H].
  specialize (H tr1 x tr2 eq_refl Hx). cbv zeta in H. fold s k ws in H. destruct H as [Ha Hb]. split.
  - apply eq_true_iff_eq. rewrite Ha, Nat.leb_le. unfold ge. tauto.
  - intros Hv. rewrite (Hb Hv). unfold rb, packet_beat.
    destruct (Pn_facts depth Hd ws Hn Hnd) as (F1 & F2 & F3). rewrite Nat.mod_small by lia. reflexivity.
Qed.

(** C138 (partial), the SPI master: the transfers after the reset are those of C59. *)
Theorem C138_spi_master_partial : forall width bo div delay past rst ins, 0 <= div < 256 -> rst <> [] ->
  let t := after_reset (spi_master width bo div delay) (keep_ms width delay) past rst ins in
  Forall (fun w => legal width bo (fst w)) (words t) ->
  exists ws gs pend cur late,
    words t = ws ++ pend /\ (length pend <= 1)%nat /\
    rises false t = concat gs ++ cur /\ Forall2 on_wire ws gs /\
    match pend with
    | [] => cur = []
    | w :: _ => map fst cur = firstn (length cur) (groups (fst w)) /\ (length cur < length (groups (fst w)))%nat
    end /\
    Forall3 answer ws gs (received t ++ late) /\ (length late <= 1)%nat.
Proof.
  intros width bo div delay past rst ins Hd Hr. rewrite after_reset_state. destruct rst as [|i rst _] using rev_ind; [congruence|].
  rewrite held_snoc. apply transfers_from; [exact Hd|]. apply m_start; reflexivity.
Qed.

(** C138 (partial), the clock dividers: the rate is right, from some phase on. *)
Theorem C138_pulse_clock_partial : forall tw past rst, 0 <= tw <= 2 ^ 32 -> rst <> [] -> exists a0, 0 <= a0 < 2 ^ 32 /\ forall N,
  exists rest, after_reset (pulse_clock tw) keep_pc past rst (repeat false (S N)) = PcObs false false :: rest /\
    count_true (map pco_o rest) = (a0 + Z.of_nat N * tw) / 2 ^ 32.
Proof.
  intros tw past rst Htw Hr.
  assert (R : forall l, 0 <= pc_acc (state (resettable (pulse_clock tw) keep_pc) l) < 2 ^ 32).
  { apply (state_inv (resettable (pulse_clock tw) keep_pc) (fun s => 0 <= pc_acc s < 2 ^ 32)); [cbn; lia|].
    intros s [r i] _. cbn [cnext resettable pulse_clock fst snd]. unfold pc_next.
    destruct r, i; cbn [keep_pc pc_acc]; first [apply trunc_range; lia | lia]. }
  destruct rst as [|i rst _] using rev_ind; [congruence|].
  assert (E := R (past ++ map (pair true) (rst ++ [i]))). rewrite state_join, held_snoc in E.
  set (s := cnext (pulse_clock tw) _ i) in E. exists (pc_acc (keep_pc s)). split; [exact E|]. intros N.
  rewrite after_reset_state, held_snoc. fold s.
  pose proof (pc_rate tw (keep_pc s) N Htw E) as X. eexists. split; [reflexivity|]. exact X.
Qed.
Theorem C138_tuning_clock_partial : forall tw past rst, 0 <= tw <= 2 ^ 32 -> rst <> [] -> exists a0, 0 <= a0 < 2 ^ 32 /\ forall N,
  exists rest, after_reset (tuning_clock tw) keep_tc past rst (repeat tt (S (S N))) = false :: false :: rest /\
    edges_from false rest = (a0 + Z.of_nat N * tw) / 2 ^ 32.
Proof.
  intros tw past rst Htw Hr.
  assert (R : forall l, 0 <= tc_acc (state (resettable (tuning_clock tw) keep_tc) l) < 2 ^ 32).
  { apply (state_inv (resettable (tuning_clock tw) keep_tc) (fun s => 0 <= tc_acc s < 2 ^ 32)); [cbn; lia|].
    intros s [r i] _. cbn [cnext resettable tuning_clock fst snd]. unfold tc_next.
    destruct r; cbn [keep_tc tc_acc]; apply trunc_range; lia. }
  destruct rst as [|i rst _] using rev_ind; [congruence|].
  assert (E := R (past ++ map (pair true) (rst ++ [i]))). rewrite state_join in E. rewrite held_snoc in E.
  set (s := cnext (tuning_clock tw) _ i) in E. exists (tc_acc (keep_tc s)). split; [exact E|]. intros N.
  rewrite after_reset_state, held_snoc. fold s.
  pose proof (tc_edges tw (keep_tc s) N Htw E) as X. eexists. split; [reflexivity|]. exact X.
Qed.

(** Concrete cases: the I2C bus driver reset in the middle of a write (SDA held low by the driver, the bus
    free two cycles before the end of the reset), the SPI slave in the middle of a word, a memory, the SPI
    master in the middle of a word, which is then used again. *)
Example C138_i2c_nonvacuous :
  let q := I2cIn false false false false 0 false true true in
  let cmd := I2cIn true false false false 0 false true true in
  let R := resettable (i2c_initiator 4 false true) keep_i2c in
  let past := map (pair false) (repeat q 3 ++ [cmd] ++ repeat q 5) in
  (exists o, nth_error (trace R past) 8 = Some o /\ io_sda o = false /\ io_busy o = false) /\
  after_reset (i2c_initiator 4 false true) keep_i2c past ([] ++ [q; q]) (repeat q 6) = trace (i2c_initiator 4 false true) (repeat q 6).
Proof.
  split; [eexists; repeat split|]. apply (proj1 (C138_i2c_restarts 4 false true)); reflexivity.
Qed.
Example C138_memory_nonvacuous :
  let w d := MemIn false (Chan true (Beat false false d)) false in
  let r b := MemIn b (Chan false (Beat false false 0)) true in
  let t := after_reset (memory_stream 4 true) (mem_keep 4 true) (map (pair false) [w 1; w 2; w 3; r true; r false; r false]) [w 4]
    [w 5; w 6; r true; r false; r false; r false; r false] in
  ms_written t = [5; 6] /\ ms_delivered (Mem_spec.since mo_rewind t) = [Beat false false 5; Beat false true 6].
Proof. vm_compute. auto. Qed.
Example C138_spi_master_nonvacuous :
  let w len dq := MsIn true (Chan true (Beat false true (MWord 5 1 true len))) dq true in
  let q := MsIn true (Chan false (Beat false false (MWord 0 0 false 0))) 2 true in
  let t := after_reset (spi_master 8 1 1 0) (keep_ms 8 0) (map (pair false) (repeat (w 8 2) 14)) [idle_spi]
    (repeat (w 3 2) 3 ++ repeat q 20) in
  words t = [(MWord 5 1 true 3, true)] /\ rises false t = [(1, 2); (0, 2); (1, 2)] /\
  map (fun x => (fst x mod 8, snd x)) (received t) = [(7, true)].
Proof. vm_compute. auto. Qed.
Print Assumptions C138_i2c_restarts.
Print Assumptions C138_uart_restarts.
Print Assumptions C138_as_new.
Print Assumptions C138_memory_refuted.
Print Assumptions C138_clocks_refuted.
Print Assumptions C138_spi_master_refuted.
Print Assumptions C138_memory_partial.
Print Assumptions C138_spi_master_partial.
Print Assumptions C138_pulse_clock_partial.
Print Assumptions C138_tuning_clock_partial.
