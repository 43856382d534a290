(** Proofs for C150: a program that uses I2CBus over the bridge comes to its end. *)
From Verif Require Import Stream Bits I2c_model I2cstream_model I2cstream_spec I2cproto_model I2cproto_spec I2cproto_proofs I2cbus_model I2cbus_props
  I2clive_props Serial_model Bridge_model Bridge_spec Bridge_proofs Bridge_props Session_spec Session_proofs Session_props Sessionlive_spec.
From Coq Require Import Lia.

Section Proto.
  Context (period : Z) (stretch oe : bool) (HP : 4 <= period).
  Local Notation W := (cmd_bound period).
  Lemma W_big : (233 <= W)%nat.
  Proof. unfold cmd_bound. assert (1 <= period / 4) by (apply Z.div_le_lower_bound; lia). lia. Qed.
  (** Cycles before the bridge asks for a byte or answers. *)
  Definition lm (s : pr_state) : nat := match p_f s with PError => (2 + Z.to_nat (p_length s))%nat | _ => pl_m period stretch oe s end.
  Lemma lm_bound s : pl_inv period s -> 0 <= p_length s < 256 \/ p_f s <> PError -> (lm s < 18 * W)%nat.
  Proof using HP.
    intros HI HL. pose proof W_big. pose proof (m1_bound period stretch oe HP _ (proj1 HI)). pose proof (m2_bound period stretch oe HP _ (proj1 HI)).
    unfold lm, pl_m. destruct (p_f s); try lia. destruct HL as [HL|HL]; [lia|congruence].
  Qed.
  Lemma lm_step s k p : pl_inv period s -> (p_f s = PAddr -> 0 <= p_length s < 256) ->
    scl_follows stretch oe (so_i2c (po_i2c (cout (i2c_proto period stretch oe) s (k, true, p)))) ->
    pr_rdy s k = false -> cvalid (pr_src s) = false -> (lm (pr_next period stretch oe s k true p) + 1 <= lm s)%nat.
  Proof using HP.
    intros HI HL HS HR HV. pose proof (pl_step period stretch oe HP s k p HI HS HR HV) as M. pose proof W_big as WB. unfold lm.
    destruct (p_f s) eqn:F; try (unfold pr_rdy in HR; rewrite F in HR; discriminate HR); try (unfold pr_src in HV; rewrite F in HV; discriminate HV).
    - (* PAddr *) unfold pr_next in *. rewrite F in *. specialize (HL eq_refl).
      assert (ES : pl_m period stretch oe s = (9 * W + m1 period stretch oe (p_i s))%nat) by (unfold pl_m; rewrite F; reflexivity).
      rewrite ES in *.
      destruct (pr_go s k); [|cbn [p_f] in *; exact M]. destruct (ist_err (p_i s)); [cbn [p_f p_length]; lia|].
      destruct (Z.testbit (p_header s) 0); [cbn [p_f] in *; exact M|]. destruct (1 <=? p_length s); cbn [p_f] in *; exact M.
    - unfold pr_next in *. rewrite F in *. destruct (pr_go s k); cbn [p_f] in *; [destruct (p_length s =? 1); cbn [p_f] in *|]; exact M.
    - unfold pr_next in *. rewrite F in *. destruct (cvalid (pr_src s) && true && blast (cbeat (pr_src s))); cbn [p_f] in *; exact M.
    - unfold pr_rdy in HR. rewrite F in HR. unfold pr_next in *. rewrite F, HR in *. cbn [p_f] in *. exact M.
    - unfold pr_rdy in HR. rewrite F in HR. unfold pr_next. rewrite F, HR. cbn [p_f]. unfold pl_m. cbn [p_f]. lia.
  Qed.
  (** Bytes dropped after a refusal. *)
  Lemma lm_drop s k r p : p_f s = PError -> 1 <= p_length s < 256 -> (lm (pr_next period stretch oe s k r p) + 1 <= lm s)%nat.
  Proof.
    intros F L. unfold lm, pr_next. rewrite F. replace (1 <=? p_length s) with true by (symmetry; apply Z.leb_le; lia). cbn [p_f p_length].
    rewrite trunc_small by (change (2 ^ 8) with 256; lia). lia.
  Qed.
End Proto.

(** ** Calls do not change their mind, and need a bounded number of bytes. *)
Lemma call_more width c i x res rest : 0 <= width -> call_ok width c ->
  snd (call_so_far width c i) = Some (res, rest) -> call_so_far width c (i ++ x) = (fst (call_so_far width c i), Some (res, rest ++ x)).
Proof.
  intros HW HO. destruct c as [a g d|a g n|a].
  - rewrite !so_far_write by assumption. destruct i as [|s r]; [discriminate|]. cbn [snd fst app]. intros H. injection H as <- <-. reflexivity.
  - rewrite !so_far_read by assumption. destruct i as [|s r]; [discriminate|]. cbn [app]. destruct (s =? 0); cbn [snd fst].
    2: { intros H. injection H as <- <-. reflexivity. }
    destruct r as [|s2 q]; [discriminate|]. cbn [app]. destruct (s2 =? 0).
    2: { intros H. injection H as <- <-. reflexivity. }
    destruct (Z.eqb_spec (Z.of_nat (length (firstn (Z.to_nat n) q))) n) as [E|]; [|discriminate]. intros H. injection H as <- <-.
    assert (L : (Z.to_nat n - length q = 0)%nat) by (rewrite firstn_length in E; lia).
    rewrite firstn_app, skipn_app, L. cbn [firstn skipn]. rewrite app_nil_r. rewrite (proj2 (Z.eqb_eq _ _) E). reflexivity.
  - rewrite !so_far_probe by (exact HO). destruct i as [|s r]; [discriminate|]. cbn [snd fst app]. intros H. injection H as <- <-. reflexivity.
Qed.
Lemma call_bound width c : 0 <= width -> call_ok width c ->
  exists K, forall i, snd (call_so_far width c i) = None -> (length i <= K /\ length (fst (call_so_far width c i)) <= K)%nat.
Proof.
  intros HW HO. destruct c as [a g d|a g n|a].
  - exists (length (wr_buf width a g d)). intros i. rewrite so_far_write by assumption. destruct i; [cbn; lia|discriminate].
  - exists (length (wr_buf width a g []) + 2 + Z.to_nat n)%nat. intros i. rewrite so_far_read by assumption. destruct i as [|s r]; [cbn [length fst]; lia|].
    destruct (s =? 0); [|discriminate]. cbn [fst snd]. rewrite app_length. cbn [length]. destruct r as [|s2 q]; [cbn [length]; lia|].
    destruct (s2 =? 0); [|discriminate]. destruct (Z.eqb_spec (Z.of_nat (length (firstn (Z.to_nat n) q))) n) as [|E]; [discriminate|].
    intros _. destruct HO as (_ & _ & HN). rewrite firstn_length in E. cbn [length]. unfold wr_buf. cbn [length]. lia.
  - exists 2%nat. intros i. rewrite so_far_probe by (exact HO). destruct i; [cbn; lia|discriminate].
Qed.

Section Live.
  Context (width period : Z) (stretch oe : bool) (p : program) (ins : nat -> br_in).
  Context (HW : 0 <= width) (HP : 4 <= period) (HO : program_ok width p).
  Let B := i2c_bridge period stretch oe.
  Let P := i2c_proto period stretch oe.
  Local Notation W := (cmd_bound period).
  Let limit := 36 * (period / 4 + 1) - 1.
  Let T := cycles period stretch oe ins.
  Let St (n : nat) := state B (map ins (seq 0 n)).
  Context (HB : forall n, bytes_in (T n)) (HT : forall n, in_time limit (T n)) (HD : forall n, driven_by width p (T n)) (HC : forall n, no_stretching stretch oe (T n)).
  Context (HF : link_works width p ins T).

  Let ob (n : nat) : br_obs := cout B (St n) (ins n).
  Lemma T_S n : T (S n) = T n ++ [ob n].
  Proof. unfold T, cycles, ob, St. rewrite seq_S, map_app, trace_app. reflexivity. Qed.
  Lemma St_S n : St (S n) = cnext B (St n) (ins n).
  Proof. unfold St, state. rewrite seq_S, map_app, state_from_app. reflexivity. Qed.

  Lemma HP1 : 1 <= period. Proof using HP. lia. Qed.
  Lemma good n : good_user limit (T n).
  Proof using HW HP HO HB HT HD. apply (driven_good width p period stretch oe HW HP1 HO); [apply HB|apply HT|apply HD]. Qed.
  Lemma inv_n n : inv period stretch oe (T n) (St n).
  Proof using HW HP HO HB HT HD. apply (bridge_run period stretch oe HP1). apply good. Qed.

  (** The program's side. *)
  Lemma program_n n : exists fut, written width p (handed_back (T n)) = given (T n) ++ fut /\
    (ended width p (handed_back (T n)) = false -> fut = [] -> waiting (fst (uart_view (T n)))).
  Proof using HW HP HO HB HT HD.
    pose proof (v_lost _ _ _ _ _ (inv_n n)) as HL. destruct (view_evs (map uart (T n)) HL) as (E1 & E2 & E3).
    destruct (session_main width HW p (flat_map ev_of (map uart (T n))) [] HO (driven_causal width p (T n) (HD n) HL)) as (gs & cur & fut & _ & _ & Wr & _ & _ & A & _); [rewrite <- E1; exact HL|].
    rewrite <- E1 in A. rewrite E2, E3 in *. exists fut. auto.
  Qed.

  (** Bytes moved at the UART. *)
  Let mv (n : nat) : nat := (length (given (T n)) + length (handed_back (T n)))%nat.
  Let quiet (n : nat) : Prop := xfer (o_sink (uart (ob n))) (o_sready (uart (ob n))) = [] /\ xfer (o_src (uart (ob n))) (o_rready (uart (ob n))) = [].
  Lemma given_S n : given (T (S n)) = given (T n) ++ map bdata (xfer (o_sink (uart (ob n))) (o_sready (uart (ob n)))).
  Proof. rewrite T_S. unfold given, accepted. rewrite map_app, flat_map_app, map_app. cbn [map flat_map]. now rewrite app_nil_r. Qed.
  Lemma back_S n : handed_back (T (S n)) = handed_back (T n) ++ map bdata (xfer (o_src (uart (ob n))) (o_rready (uart (ob n)))).
  Proof. rewrite T_S. unfold handed_back, emitted. rewrite map_app, flat_map_app, map_app. cbn [map flat_map]. now rewrite app_nil_r. Qed.
  Lemma mv_S n : (mv (S n) > mv n)%nat \/ quiet n /\ given (T (S n)) = given (T n) /\ handed_back (T (S n)) = handed_back (T n) /\ mv (S n) = mv n.
  Proof.
    unfold mv, quiet. rewrite given_S, back_S, !app_length, !map_length.
    destruct (xfer (o_sink (uart (ob n))) (o_sready (uart (ob n)))), (xfer (o_src (uart (ob n))) (o_rready (uart (ob n)))); cbn [length map]; rewrite ?app_nil_r; [right; repeat split; lia|left; lia..].
  Qed.

  Definition Phi (s : br_state) : nat := (18 * W * ((if us_valid (b_us s) then 2 else 0) + length (b_rx s)) + lm period stretch oe (b_pr s))%nat.
  (** Nothing on the way and the bridge waits for a request. *)
  Definition rest (s : br_state) : Prop := b_rx s = [] /\ us_valid (b_us s) = false /\ b_tx s = [] /\ (p_f (b_pr s) = PHeader \/ p_f (b_pr s) = PLength).

  Lemma phi_step n : quiet n -> b_tx (St n) = [] ->
    rest (St n) \/ b_tx (St (S n)) <> [] \/ (Phi (St (S n)) < Phi (St n))%nat.
  Proof using HW HP HO HB HT HD HC.
    intros [Q1 _] HX.
    pose proof (inv_n n) as [V1 (pins & V2 & V2') (rxb & txb & R1 & R2 & R3 & R4 & R5 & R6 & R7 & R8) V4 V5 V6 V7].
    assert (TX : txb = []) by (rewrite HX in R4; symmetry in R4; apply map_eq_nil in R4; exact R4). subst txb.
    destruct (pr_both_run period stretch oe pins) as [PI _]; [rewrite <- V2; exact V1|]. rewrite <- V2, <- V2' in PI.
    destruct PI as (segs & xs & xd & _ & _ & _ & PH).
    assert (LI : pl_inv period (b_pr (St n))) by (rewrite V2'; apply pl_inv_run; exact HP).
    assert (SCL : scl_follows stretch oe (so_i2c (po_i2c (bo_pr (ob n))))).
    { intros X Y. pose proof (HC (S n) X Y) as H. rewrite T_S in H. apply Forall_app in H. destruct H as [_ H]. inversion H; assumption. }
    pose proof (inv_n (S n)) as [V1' (pins' & W2 & W2') _ _ _ _ _].
    destruct (pr_both_run period stretch oe pins') as [PI' _]; [rewrite <- W2; exact V1'|]. rewrite <- W2, <- W2' in PI'.
    destruct PI' as (segs' & xs' & xd' & _ & _ & _ & PH').
    assert (LI' : pl_inv period (b_pr (St (S n)))) by (rewrite W2'; apply pl_inv_run; exact HP).
    assert (LB : (lm period stretch oe (b_pr (St (S n))) < 18 * W)%nat).
    { apply lm_bound; auto. unfold pr_phase in PH'. destruct (p_f (b_pr (St (S n)))); try (right; discriminate). left. tauto. }
    clear V1' pins' W2 W2' PH' LI' segs' xs' xd'.
    rewrite St_S in *. set (s := St n) in *. set (i := ins n) in *. fold B in SCL.
    assert (KV : cvalid (br_rx s) = match rxb with [] => false | _ => true end) by (unfold br_rx; rewrite R1, fifo_src by exact R2; destruct rxb; reflexivity).
    assert (TR : br_tx_rdy s = true) by (unfold br_tx_rdy; rewrite HX; reflexivity).
    assert (RR : br_rx_rdy s = negb (Z.of_nat (length rxb) =? 32)) by (unfold br_rx_rdy; rewrite R1, fifo_rdy; reflexivity).
    assert (NR : b_rx (cnext B s i) = map pack8 ((if pr_rdy (b_pr s) (br_rx s) then tl rxb else rxb) ++ (if us_valid (b_us s) && br_rx_rdy s then [cbeat (br_link s)] else []))).
    { cbn [B i2c_bridge cnext b_rx]. rewrite R1 at 1. rewrite fifo_nxt, RR. reflexivity. }
    assert (NU : us_valid (b_us (cnext B s i)) = us_valid (b_us s) && negb (br_rx_rdy s)).
    { unfold ob in Q1. fold s i in Q1. unfold xfer in Q1. cbn [B i2c_bridge cout bo_us uart o_sink o_sready serial_stream uo_rx_rdy uo_rx_ack uo_rx_data cvalid br_us_in u_rx_rdy u_rx_data] in Q1.
      cbn [B i2c_bridge cnext b_us serial_stream]. fold (br_us_in s i) in Q1. unfold br_us_in in *. cbn [u_rx_rdy u_rx_data u_rready] in *.
      rewrite andb_comm in Q1. destruct (us_ack _ _ && bi_rx_rdy i); [discriminate|]. destruct (us_valid (b_us s)) eqn:U, (br_rx_rdy s); cbn; auto. }
    assert (NT : cvalid (pr_src (b_pr s)) = true -> b_tx (cnext B s i) <> []).
    { intros V. cbn [B i2c_bridge cnext b_tx]. rewrite R4, fifo_nxt, V. cbn. destruct (bi_tx_rdy i); discriminate. }
    assert (NP : b_pr (cnext B s i) = pr_next period stretch oe (b_pr s) (br_rx s) true (bi_pads i)) by (rewrite <- TR; reflexivity).
    destruct (cvalid (pr_src (b_pr s))) eqn:SV; [right; left; auto|].
    assert (W0 : (233 <= W)%nat) by (apply (W_big period HP)).
    (* weights *)
    set (w := ((if us_valid (b_us s) then 2 else 0) + length (b_rx s))%nat).
    set (w' := ((if us_valid (b_us (cnext B s i)) then 2 else 0) + length (b_rx (cnext B s i)))%nat).
    assert (EW : Phi s = (18 * W * w + lm period stretch oe (b_pr s))%nat) by reflexivity.
    assert (EW' : Phi (cnext B s i) = (18 * W * w' + lm period stretch oe (b_pr (cnext B s i)))%nat) by reflexivity.
    assert (WLE : (w' <= w)%nat /\ (pr_rdy (b_pr s) (br_rx s) = true -> rxb <> [] -> (w' < w)%nat) /\ (rxb = [] -> us_valid (b_us s) = true -> (w' < w)%nat)).
    { unfold w, w'. rewrite NU, NR, map_length, app_length, RR. rewrite R1, map_length. 
      destruct (us_valid (b_us s)), (Z.eqb_spec (Z.of_nat (length rxb)) 32) as [X|X]; cbn [negb andb length]; destruct (pr_rdy (b_pr s) (br_rx s)), rxb; cbn [tl length] in *; repeat split; intros; try congruence; lia. }
    destruct WLE as (W1 & WA & WC).
    assert (DROP : (w' < w)%nat -> (Phi (cnext B s i) < Phi s)%nat) by (intros D; rewrite EW, EW'; nia).
    assert (DEC : (lm period stretch oe (b_pr (cnext B s i)) + 1 <= lm period stretch oe (b_pr s))%nat -> (Phi (cnext B s i) < Phi s)%nat) by (intros D; rewrite EW, EW'; nia).
    destruct (pr_rdy (b_pr s) (br_rx s)) eqn:PR.
    2: { right. right. apply DEC. rewrite NP. apply lm_step; [exact HP|exact LI| | |exact PR|exact SV].
         - intros F. unfold pr_phase in PH. rewrite F in PH. tauto.
         - change (bo_pr (ob n)) with (cout P (b_pr s) (br_pr_in s i)) in SCL. unfold br_pr_in in SCL. rewrite TR in SCL. exact SCL. }
    destruct rxb as [|x rxb]; [|right; right; apply DROP, WA; [reflexivity|discriminate]].
    destruct (us_valid (b_us s)) eqn:UV; [right; right; apply DROP, WC; reflexivity|].
    assert (REL : host_view (map po_io (map bo_pr (T n))) = uart_view (T n)).
    { unfold rel, usq in R7. rewrite UV in R7. destruct R7 as [[_ E]|[_ E]]; [symmetry; exact E|exact E]. }
    assert (PV : is_data (fst (host_view (map po_io (map bo_pr (T n))))) = true -> p_f (b_pr s) = PWrite \/ p_f (b_pr s) = PError -> False).
    { intros D F. destruct (R8 F D) as [D' _]. rewrite <- REL in D'. congruence. }
    unfold pr_phase in PH. unfold pr_rdy in PR. unfold rest.
    destruct (p_f (b_pr s)) eqn:F; try discriminate PR.
    - left. rewrite R1. auto.
    - left. rewrite R1. auto.
    - exfalso. destruct PH as (ds & _ & H & _). apply PV; [rewrite H; reflexivity|auto].
    - right. right. apply DEC. rewrite NP. apply lm_drop; [exact F|]. apply Z.leb_le in PR. lia.
  Qed.

  (** Without a byte moved at the UART, the bridge comes to an answer or to rest. *)
  Lemma quiet_end k : forall n, (Phi (St n) <= k)%nat -> exists m, (n <= m)%nat /\
    ((mv n < mv m)%nat \/ given (T m) = given (T n) /\ handed_back (T m) = handed_back (T n) /\ (b_tx (St m) <> [] \/ rest (St m))).
  Proof using HW HP HO HB HT HD HC.
    induction k as [|k IH]; intros n HK.
    all: destruct (b_tx (St n)) as [|x l] eqn:EX; [|exists n; split; [lia|]; right; rewrite EX; repeat split; left; discriminate].
    all: destruct (mv_S n) as [M|(Q & G & H & M)]; [exists (S n); split; [lia|left; exact M]|].
    all: destruct (phi_step n Q EX) as [R|[X|D]]; [exists n; split; [lia|]; right; auto|exists (S n); split; [lia|]; right; auto|].
    - lia.
    - destruct (IH (S n)) as (m & L & C); [lia|]. exists m. split; [lia|]. rewrite M, G, H in C. exact C.
  Qed.

  (** An answer leaves. *)
  Lemma tx_moves n : b_tx (St n) <> [] -> bi_tx_rdy (ins n) = true -> (mv n < mv (S n))%nat.
  Proof using HW HP HO HB HT HD.
    intros X R. pose proof (inv_n n) as V. destruct (v_q _ _ _ _ _ V) as (rxb & txb & _ & _ & _ & R4 & R5 & _).
    destruct (mv_S n) as [M|((_ & Q) & _)]; [exact M|exfalso]. unfold ob in Q.
    cbn [B i2c_bridge cout bo_us uart o_src o_rready serial_stream uo_sink uo_sready br_us_in u_sink u_tx_rdy] in Q.
    rewrite R in Q. unfold br_tx in Q. rewrite R4, fifo_src in Q by exact R5. rewrite R4 in X. destruct txb; [now apply X|discriminate Q].
  Qed.
  Lemma tx_stays n : b_tx (St n) <> [] -> bi_tx_rdy (ins n) = false -> b_tx (St (S n)) <> [].
  Proof using HW HP HO HB HT HD.
    intros X R. pose proof (inv_n n) as V. destruct (v_q _ _ _ _ _ V) as (rxb & txb & _ & _ & _ & R4 & R5 & _).
    rewrite St_S. cbn [B i2c_bridge cnext b_tx]. rewrite R, R4, fifo_nxt. rewrite R4 in X. destruct txb; [now destruct X|discriminate].
  Qed.
  Lemma answer_moves d : forall n, b_tx (St n) <> [] -> bi_tx_rdy (ins (n + d)) = true -> exists m, (n <= m)%nat /\ (mv n < mv m)%nat.
  Proof using HW HP HO HB HT HD.
    induction d as [|d IH]; intros n X R.
    - rewrite Nat.add_0_r in R. exists (S n). split; [lia|now apply tx_moves].
    - destruct (bi_tx_rdy (ins n)) eqn:R0; [exists (S n); split; [lia|now apply tx_moves]|].
      destruct (IH (S n)) as (m & L & M); [now apply tx_stays|rewrite Nat.add_succ_r in R; exact R|].
      exists m. split; [lia|]. destruct (mv_S n) as [M'|(_ & _ & _ & M')]; lia.
  Qed.

  (** At rest, the program's next byte is taken. *)
  Lemma rest_stays n : quiet n -> rest (St n) -> rest (St (S n)).
  Proof using HW HP HO HB HT HD.
    intros [Q _] (E1 & E2 & E3 & F). rewrite St_S. unfold rest. unfold ob in Q. unfold xfer in Q.
    cbn [B i2c_bridge cout bo_us uart o_sink o_sready serial_stream uo_rx_rdy uo_rx_ack uo_rx_data cvalid br_us_in u_rx_rdy u_rx_data] in Q.
    cbn [B i2c_bridge cnext b_rx b_us b_tx b_pr serial_stream]. set (s := St n) in *. fold (br_us_in s (ins n)) in *.
    assert (SV : cvalid (pr_src (b_pr s)) = false) by (unfold pr_src; destruct F as [-> | ->]; reflexivity).
    assert (KV : cvalid (br_rx s) = false) by (unfold br_rx; rewrite E1; reflexivity).
    assert (LV : cvalid (br_link s) = false) by (unfold br_link; rewrite E2; reflexivity).
    rewrite E1, E3, E2. change (@nil Z) with (map pack8 []) at 1 3. rewrite !fifo_nxt, LV, SV. cbn [andb app].
    repeat split.
    - destruct (pr_rdy _ _); reflexivity.
    - rewrite andb_comm in Q. change (u_rx_rdy (br_us_in s (ins n))) with (bi_rx_rdy (ins n)). destruct (us_ack _ _ && bi_rx_rdy (ins n)); [discriminate|]. cbn [andb]. exact E2.
    - destruct (bi_tx_rdy _); reflexivity.
    - unfold cnext, i2c_proto, br_pr_in, pr_next. destruct F as [F|F]; rewrite F, KV; cbn [p_f]; auto.
  Qed.
  Lemma rest_idle n : rest (St n) -> ~ waiting (fst (uart_view (T n))).
  Proof using HW HP HO HB HT HD.
    intros (E1 & E2 & E3 & F). pose proof (inv_n n) as [V1 (pins & V2 & V2') (rxb & txb & R1 & R2 & R3 & R4 & R5 & R6 & R7 & R8) V4 V5 V6 V7].
    destruct (pr_both_run period stretch oe pins) as [PI _]; [rewrite <- V2; exact V1|]. rewrite <- V2, <- V2' in PI.
    destruct PI as (segs & xs & xd & _ & _ & _ & PH).
    rewrite E1 in R1. symmetry in R1. apply map_eq_nil in R1. rewrite E3 in R4. symmetry in R4. apply map_eq_nil in R4. subst rxb txb.
    unfold rel, usq in R7. rewrite E2 in R7.
    assert (E : host_view (map po_io (map bo_pr (T n))) = uart_view (T n)) by (destruct R7 as [[_ E]|[_ E]]; [symmetry; exact E|exact E]).
    rewrite <- E. unfold pr_phase in PH. destruct F as [F|F]; rewrite F in PH; destruct PH as (-> & _); exact (fun H => H).
  Qed.
  Lemma rest_moves d : forall n, rest (St n) -> ended width p (handed_back (T n)) = false ->
    bi_rx_rdy (ins (n + d)) = true \/ given (T (n + d)) = written width p (handed_back (T (n + d))) -> exists m, (n <= m)%nat /\ (mv n < mv m)%nat.
  Proof using HW HP HO HB HT HD.
    induction d as [|d IH]; intros n R N H.
    - rewrite Nat.add_0_r in H. destruct H as [H|H].
      + exists (S n). split; [lia|]. destruct (mv_S n) as [M|((Q & _) & _)]; [exact M|exfalso]. unfold ob in Q.
        unfold xfer in Q. cbn [B i2c_bridge cout bo_us uart o_sink o_sready serial_stream uo_rx_rdy uo_rx_ack uo_rx_data cvalid br_us_in u_rx_rdy u_rx_data] in Q.
        destruct R as (_ & E2 & _). unfold us_ack, us_busy in Q. rewrite E2, H in Q. discriminate Q.
      + exfalso. destruct (program_n n) as (fut & Wr & Wt). apply (rest_idle n R). apply Wt; [exact N|].
        rewrite <- H in Wr. rewrite <- (app_nil_r (given (T n))) in Wr at 1. apply app_inv_head in Wr. now symmetry.
    - destruct (mv_S n) as [M|(Q & G & Hb & M)]; [exists (S n); split; [lia|exact M]|].
      destruct (IH (S n)) as (m & L & M'); [now apply rest_stays|rewrite Hb; exact N|rewrite Nat.add_succ_r in H; exact H|].
      exists m. split; lia.
  Qed.

  Lemma moves n : ended width p (handed_back (T n)) = false -> exists m, (n <= m)%nat /\ (mv n < mv m)%nat.
  Proof using HW HP HO HB HT HD HC HF.
    intros N. destruct (quiet_end (Phi (St n)) n (le_n _)) as (m & L & [M|(G & H & C)]); [eauto|].
    assert (M : mv m = mv n) by (unfold mv; rewrite G, H; reflexivity).
    assert (X : exists m', (m <= m')%nat /\ (mv m < mv m')%nat).
    { destruct C as [C|C].
      - destruct (proj2 HF m) as (q & Lq & Rq). apply (answer_moves (q - m)); [exact C|]. replace (m + (q - m))%nat with q by lia. exact Rq.
      - destruct (proj1 HF m) as (q & Lq & Rq). apply (rest_moves (q - m)); [exact C|rewrite H; exact N|]. replace (m + (q - m))%nat with q by lia. exact Rq. }
    destruct X as (m' & L' & M'). exists m'. split; lia.
  Qed.
  Lemma back_app n d : exists y, handed_back (T (n + d)) = handed_back (T n) ++ y.
  Proof.
    induction d as [|d (y & E)]; [exists []; now rewrite Nat.add_0_r, app_nil_r|].
    rewrite Nat.add_succ_r, back_S, E, <- app_assoc. eauto.
  Qed.

  Lemma finish p' : forall pre r n0, program_ok width p' ->
    (forall y, written width p (handed_back (T n0) ++ y) = pre ++ written width p' (r ++ y)) ->
    (forall y, ended width p (handed_back (T n0) ++ y) = ended width p' (r ++ y)) -> exists n, ended width p (handed_back (T n)) = true.
  Proof using HW HP HO HB HT HD HC HF.
    induction p' as [|c k IH]; intros pre r n0 HOk Wr En.
    - exists n0. specialize (En []). rewrite app_nil_r in En. exact En.
    - destruct HOk as [HC0 HK]. destruct (call_bound width c HW HC0) as (K & HB0).
      assert (X : forall j n, (n0 <= n)%nat -> (length pre + length (handed_back (T n0)) + 2 * K < mv n + j)%nat ->
        exists m y, (n0 <= m)%nat /\ handed_back (T m) = handed_back (T n0) ++ y /\ snd (call_so_far width c (r ++ y)) <> None).
      { induction j as [|j IHj]; intros n L LJ.
        all: destruct (back_app n0 (n - n0)) as (y & Ey); replace (n0 + (n - n0))%nat with n in Ey by lia.
        all: destruct (snd (call_so_far width c (r ++ y))) as [z|] eqn:EC; [exists n, y; rewrite EC; repeat split; [lia|exact Ey|discriminate]|].
        all: destruct (HB0 _ EC) as [B1 B2].
        - exfalso. destruct (program_n n) as (fut & Wn & _). rewrite Ey, Wr in Wn. cbn [written] in Wn. rewrite EC, app_nil_r in Wn.
          apply (f_equal (@length Z)) in Wn. rewrite !app_length in Wn. rewrite app_length in B1. unfold mv in LJ. rewrite Ey, app_length in LJ. lia.
        - assert (N : ended width p (handed_back (T n)) = false) by (rewrite Ey, En; cbn [ended]; rewrite EC; reflexivity).
          destruct (moves n N) as (m & Lm & Mm). apply (IHj m); lia. }
      destruct (X (S (length pre + length (handed_back (T n0)) + 2 * K)) n0 (le_n _) ltac:(lia)) as (m & y & Lm & Ey & EC).
      destruct (snd (call_so_far width c (r ++ y))) as [[res rest']|] eqn:E; [clear EC|congruence].
      apply (IH res (pre ++ fst (call_so_far width c (r ++ y))) rest' m (HK res)).
      + intros z. rewrite Ey, <- app_assoc, Wr, app_assoc. cbn [written]. rewrite (call_more width c (r ++ y) z res rest' HW HC0 E). cbn [fst snd]. now rewrite app_assoc.
      + intros z. rewrite Ey, <- app_assoc, En, app_assoc. cbn [ended]. rewrite (call_more width c (r ++ y) z res rest' HW HC0 E). reflexivity.
  Qed.
  Lemma ends : exists n, ended width p (handed_back (T n)) = true.
  Proof using HW HP HO HB HT HD HC HF. apply (finish p [] [] 0%nat HO); intros y; reflexivity. Qed.
End Live.
