(** Proofs for C154: a program that uses I2CBus over the USB bridge comes to its end. *)
From Verif Require Import Stream Bits I2c_model I2cstream_model I2cstream_spec I2cproto_model I2cproto_spec I2cproto_proofs I2cbus_model I2cbus_props
  I2clive_props Serial_model Fifo_model Fifo_proofs Bridge_model Bridge_spec Bridge_proofs Link_model Link_spec Link_proofs Session_spec Session_proofs Session_props
  Sessionlive_proofs Usbbus_model Usbbus_spec Usbbus_proofs Usbbus_props Usbbuslive_spec.
From Coq Require Import Lia.

Section Live.
  Context (width period : Z) (stretch oe : bool) (p : program) (ins : nat -> lk_in).
  Context (HW : 0 <= width) (HP : 4 <= period) (HO : program_ok width p).
  Let B := i2c_link period stretch oe.
  Let P := i2c_proto period stretch oe.
  Local Notation W := (cmd_bound period).
  Let limit := 36 * (period / 4 + 1) - 1.
  Let T := link_cycles period stretch oe ins.
  Let St (n : nat) := state B (map ins (seq 0 n)).
  Context (HB : forall n, link_bytes (T n)) (HT : forall n, link_in_time limit (T n)) (HD : forall n, driven_usb width p (T n)) (HC : forall n, link_no_stretching stretch oe (T n)).
  Context (HF : usb_works width p ins T).

  Let ob (n : nat) : lk_obs := cout B (St n) (ins n).
  Lemma T_S n : T (S n) = T n ++ [ob n].
  Proof. unfold T, link_cycles, ob, St. rewrite seq_S, map_app, trace_app. reflexivity. Qed.
  Lemma St_S n : St (S n) = cnext B (St n) (ins n).
  Proof. unfold St, state. rewrite seq_S, map_app, state_from_app. reflexivity. Qed.

  Lemma HP1 : 1 <= period. Proof using HP. lia. Qed.
  Lemma good n : good_link limit (T n) /\ causal width p (link_evs (T n)).
  Proof using HW HP HO HB HT HD. apply (usb_good width period stretch oe p HW HP1 HO); [apply HB|apply HT|apply HD]. Qed.
  Lemma inv_n n : linv period stretch oe (T n) (St n).
  Proof using HW HP HO HB HT HD. apply (link_run period stretch oe HP1). apply good. Qed.

  (** The program's side. *)
  Lemma program_n n : usb_written width p (link_packets (T n)) = written width p (link_back (T n)) /\ usb_ended width p (link_packets (T n)) = ended width p (link_back (T n)) /\
    exists fut, written width p (link_back (T n)) = link_given (T n) ++ fut /\
      (ended width p (link_back (T n)) = false -> fut = [] -> waiting (fst (link_view (T n)))).
  Proof using HW HP HO HB HT HD.
    destruct (good n) as [G C].
    destruct (usb_facts width period stretch oe p (map ins (seq 0 n)) HW HP1 HO G C) as (S1 & _ & S3 & _ & _ & gs & cur & fut & _ & _ & Wr & _ & _ & A).
    split; [exact S1|]. split; [exact S3|]. exists fut. auto.
  Qed.

  (** Bytes moved at the link. *)
  Let mv (n : nat) : nat := (length (link_given (T n)) + length (link_back (T n)))%nat.
  Let quiet (n : nat) : Prop := xfer (o_sink (lo_link (ob n))) (o_sready (lo_link (ob n))) = [] /\ xfer (o_src (lo_link (ob n))) (o_rready (lo_link (ob n))) = [].
  Lemma given_S n : link_given (T (S n)) = link_given (T n) ++ map bdata (xfer (o_sink (lo_link (ob n))) (o_sready (lo_link (ob n)))).
  Proof. rewrite T_S. unfold link_given, accepted. rewrite map_app, flat_map_app, map_app. cbn [map flat_map]. now rewrite app_nil_r. Qed.
  Lemma back_S n : link_back (T (S n)) = link_back (T n) ++ map bdata (xfer (o_src (lo_link (ob n))) (o_rready (lo_link (ob n)))).
  Proof. rewrite T_S. unfold link_back, emitted. rewrite map_app, flat_map_app, map_app. cbn [map flat_map]. now rewrite app_nil_r. Qed.
  Lemma mv_S n : (mv (S n) > mv n)%nat \/ quiet n /\ link_given (T (S n)) = link_given (T n) /\ link_back (T (S n)) = link_back (T n) /\ mv (S n) = mv n.
  Proof.
    unfold mv, quiet. rewrite given_S, back_S, !app_length, !map_length.
    destruct (xfer (o_sink (lo_link (ob n))) (o_sready (lo_link (ob n)))), (xfer (o_src (lo_link (ob n))) (o_rready (lo_link (ob n)))); cbn [length map]; rewrite ?app_nil_r; [right; repeat split; lia|left; lia..].
  Qed.

  Definition Phi (s : lk_state) : nat := (18 * W * length (l_rx s) + lm period stretch oe (l_pr s))%nat.
  (** Nothing on the way and the bridge waits for a request. *)
  Definition rest (s : lk_state) : Prop := l_rx s = [] /\ l_tx s = [] /\ (p_f (l_pr s) = PHeader \/ p_f (l_pr s) = PLength).

  Lemma phi_step n : quiet n -> l_tx (St n) = [] ->
    rest (St n) \/ l_tx (St (S n)) <> [] \/ (Phi (St (S n)) < Phi (St n))%nat.
  Proof using HW HP HO HB HT HD HC.
    intros [Q1 _] HX.
    pose proof (inv_n n) as [V1 (pins & V2 & V2') (rxb & txb & R1 & R2 & R3 & R4 & R5 & R6 & R7 & R8) V5 V6 V7].
    assert (TX : txb = []) by (rewrite HX in R4; symmetry in R4; apply map_eq_nil in R4; exact R4). subst txb.
    destruct (pr_both_run period stretch oe pins) as [PI _]; [rewrite <- V2; exact V1|]. rewrite <- V2, <- V2' in PI.
    destruct PI as (segs & xs & xd & _ & _ & _ & PH).
    assert (LI : pl_inv period (l_pr (St n))) by (rewrite V2'; apply pl_inv_run; exact HP).
    assert (SCL : scl_follows stretch oe (so_i2c (po_i2c (lo_pr (ob n))))).
    { intros X Y. pose proof (HC (S n) X Y) as H. rewrite T_S in H. apply Forall_app in H. destruct H as [_ H]. inversion H; assumption. }
    pose proof (inv_n (S n)) as [V1' (pins' & W2 & W2') _ _ _ _].
    destruct (pr_both_run period stretch oe pins') as [PI' _]; [rewrite <- W2; exact V1'|]. rewrite <- W2, <- W2' in PI'.
    destruct PI' as (segs' & xs' & xd' & _ & _ & _ & PH').
    assert (LI' : pl_inv period (l_pr (St (S n)))) by (rewrite W2'; apply pl_inv_run; exact HP).
    assert (LB : (lm period stretch oe (l_pr (St (S n))) < 18 * W)%nat).
    { apply lm_bound; auto. unfold pr_phase in PH'. destruct (p_f (l_pr (St (S n)))); try (right; discriminate). left. tauto. }
    clear V1' pins' W2 W2' PH' LI' segs' xs' xd'.
    rewrite St_S in *. set (s := St n) in *. set (i := ins n) in *. fold B in SCL.
    assert (TR : lk_tx_rdy s = true) by (unfold lk_tx_rdy; rewrite HX; reflexivity).
    assert (NR : l_rx (cnext B s i) = map pack8 (if pr_rdy (l_pr s) (lk_rx s) then tl rxb else rxb)).
    { cbn [B i2c_link cnext l_rx]. rewrite R1 at 1. rewrite fifo_nxt.
      unfold ob in Q1. fold s i in Q1. unfold xfer in Q1. cbn [B i2c_link cout lo_link o_sink o_sready] in Q1. unfold lk_rx_rdy in Q1. rewrite R1, fifo_rdy in Q1.
      destruct (cvalid (li_source i) && negb (Z.of_nat (length rxb) =? 32)); [discriminate|]. now rewrite app_nil_r. }
    assert (NT : cvalid (pr_src (l_pr s)) = true -> l_tx (cnext B s i) <> []).
    { intros V. cbn [B i2c_link cnext l_tx]. rewrite R4, fifo_nxt, V. cbn. destruct (li_rready i); discriminate. }
    assert (NP : l_pr (cnext B s i) = pr_next period stretch oe (l_pr s) (lk_rx s) true (li_pads i)) by (rewrite <- TR; reflexivity).
    destruct (cvalid (pr_src (l_pr s))) eqn:SV; [right; left; auto|].
    assert (W0 : (233 <= W)%nat) by (apply (W_big period HP)).
    set (w := length (l_rx s)). set (w' := length (l_rx (cnext B s i))).
    assert (EW : Phi s = (18 * W * w + lm period stretch oe (l_pr s))%nat) by reflexivity.
    assert (EW' : Phi (cnext B s i) = (18 * W * w' + lm period stretch oe (l_pr (cnext B s i)))%nat) by reflexivity.
    assert (WLE : (w' <= w)%nat /\ (pr_rdy (l_pr s) (lk_rx s) = true -> rxb <> [] -> (w' < w)%nat)).
    { unfold w, w'. rewrite NR, map_length. rewrite R1, map_length. 
      destruct (pr_rdy (l_pr s) (lk_rx s)), rxb; cbn [tl length] in *; split; intros; try congruence; lia. }
    destruct WLE as (W1 & WA).
    assert (DROP : (w' < w)%nat -> (Phi (cnext B s i) < Phi s)%nat) by (intros D; rewrite EW, EW'; nia).
    assert (DEC : (lm period stretch oe (l_pr (cnext B s i)) + 1 <= lm period stretch oe (l_pr s))%nat -> (Phi (cnext B s i) < Phi s)%nat) by (intros D; rewrite EW, EW'; nia).
    destruct (pr_rdy (l_pr s) (lk_rx s)) eqn:PR.
    2: { right. right. apply DEC. rewrite NP. apply lm_step; [exact HP|exact LI| | |exact PR|exact SV].
         - intros F. unfold pr_phase in PH. rewrite F in PH. tauto.
         - change (lo_pr (ob n)) with (cout P (l_pr s) (lk_pr_in s i)) in SCL. unfold lk_pr_in in SCL. rewrite TR in SCL. exact SCL. }
    destruct rxb as [|x rxb]; [|right; right; apply DROP, WA; [reflexivity|discriminate]].
    assert (PV : is_data (fst (host_view (map po_io (map lo_pr (T n))))) = true -> p_f (l_pr s) = PWrite \/ p_f (l_pr s) = PError -> False).
    { intros D F. destruct (R8 F D) as [D' _]. now apply D'. }
    unfold pr_phase in PH. unfold pr_rdy in PR. unfold rest.
    destruct (p_f (l_pr s)) eqn:F; try discriminate PR.
    - left. rewrite R1. auto.
    - left. rewrite R1. auto.
    - exfalso. destruct PH as (ds & _ & H & _). apply PV; [rewrite H; reflexivity|auto].
    - right. right. apply DEC. rewrite NP. apply lm_drop; [exact F|]. apply Z.leb_le in PR. lia.
  Qed.

  (** Without a byte moved at the link, the bridge comes to an answer or to rest. *)
  Lemma quiet_end k : forall n, (Phi (St n) <= k)%nat -> exists m, (n <= m)%nat /\
    ((mv n < mv m)%nat \/ link_given (T m) = link_given (T n) /\ link_back (T m) = link_back (T n) /\ (l_tx (St m) <> [] \/ rest (St m))).
  Proof using HW HP HO HB HT HD HC.
    induction k as [|k IH]; intros n HK.
    all: destruct (l_tx (St n)) as [|x l] eqn:EX; [|exists n; split; [lia|]; right; rewrite EX; repeat split; left; discriminate].
    all: destruct (mv_S n) as [M|(Q & G & H & M)]; [exists (S n); split; [lia|left; exact M]|].
    all: destruct (phi_step n Q EX) as [R|[X|D]]; [exists n; split; [lia|]; right; auto|exists (S n); split; [lia|]; right; auto|].
    - lia.
    - destruct (IH (S n)) as (m & L & C); [lia|]. exists m. split; [lia|]. rewrite M, G, H in C. exact C.
  Qed.

  (** An answer leaves. *)
  Lemma tx_moves n : l_tx (St n) <> [] -> li_rready (ins n) = true -> (mv n < mv (S n))%nat.
  Proof using HW HP HO HB HT HD.
    intros X R. pose proof (inv_n n) as V. destruct (w_q _ _ _ _ _ V) as (rxb & txb & _ & _ & _ & R4 & R5 & _).
    destruct (mv_S n) as [M|((_ & Q) & _)]; [exact M|exfalso]. unfold ob in Q.
    cbn [B i2c_link cout lo_link o_src o_rready] in Q.
    rewrite R in Q. unfold lk_tx in Q. rewrite R4, fifo_src in Q by exact R5. rewrite R4 in X. destruct txb; [now apply X|discriminate Q].
  Qed.
  Lemma tx_stays n : l_tx (St n) <> [] -> li_rready (ins n) = false -> l_tx (St (S n)) <> [].
  Proof using HW HP HO HB HT HD.
    intros X R. pose proof (inv_n n) as V. destruct (w_q _ _ _ _ _ V) as (rxb & txb & _ & _ & _ & R4 & R5 & _).
    rewrite St_S. cbn [B i2c_link cnext l_tx]. rewrite R, R4, fifo_nxt. rewrite R4 in X. destruct txb; [now destruct X|discriminate].
  Qed.
  Lemma answer_moves d : forall n, l_tx (St n) <> [] -> li_rready (ins (n + d)) = true -> exists m, (n <= m)%nat /\ (mv n < mv m)%nat.
  Proof using HW HP HO HB HT HD.
    induction d as [|d IH]; intros n X R.
    - rewrite Nat.add_0_r in R. exists (S n). split; [lia|now apply tx_moves].
    - destruct (li_rready (ins n)) eqn:R0; [exists (S n); split; [lia|now apply tx_moves]|].
      destruct (IH (S n)) as (m & L & M); [now apply tx_stays|rewrite Nat.add_succ_r in R; exact R|].
      exists m. split; [lia|]. destruct (mv_S n) as [M'|(_ & _ & _ & M')]; lia.
  Qed.

  (** At rest, the program's next byte is taken. *)
  Lemma rest_stays n : quiet n -> rest (St n) -> rest (St (S n)).
  Proof using HW HP HO HB HT HD.
    intros [Q _] (E1 & E3 & F). rewrite St_S. unfold rest. unfold ob in Q. unfold xfer in Q.
    cbn [B i2c_link cout lo_link o_sink o_sready] in Q.
    cbn [B i2c_link cnext l_rx l_tx l_pr]. set (s := St n) in *.
    assert (SV : cvalid (pr_src (l_pr s)) = false) by (unfold pr_src; destruct F as [-> | ->]; reflexivity).
    assert (KV : cvalid (lk_rx s) = false) by (unfold lk_rx; rewrite E1; reflexivity).
    assert (LV : cvalid (li_source (ins n)) = false).
    { unfold lk_rx_rdy in Q. rewrite E1 in Q. change (@nil Z) with (map pack8 []) in Q. rewrite fifo_rdy in Q. cbn [length] in Q. change (negb (Z.of_nat 0 =? 32)) with true in Q. rewrite andb_true_r in Q.
      destruct (cvalid (li_source (ins n))); [discriminate|reflexivity]. }
    rewrite E1, E3. change (@nil Z) with (map pack8 []) at 1 3. rewrite !fifo_nxt, LV, SV. cbn [andb app].
    repeat split.
    - destruct (pr_rdy _ _); reflexivity.
    - destruct (li_rready _); reflexivity.
    - unfold cnext, i2c_proto, lk_pr_in, pr_next. destruct F as [F|F]; rewrite F, KV; cbn [p_f]; auto.
  Qed.
  Lemma rest_idle n : rest (St n) -> ~ waiting (fst (link_view (T n))).
  Proof using HW HP HO HB HT HD.
    intros (E1 & E3 & F). pose proof (inv_n n) as [V1 (pins & V2 & V2') (rxb & txb & R1 & R2 & R3 & R4 & R5 & R6 & R7 & R8) V5 V6 V7].
    destruct (pr_both_run period stretch oe pins) as [PI _]; [rewrite <- V2; exact V1|]. rewrite <- V2, <- V2' in PI.
    destruct PI as (segs & xs & xd & _ & _ & _ & PH).
    rewrite E1 in R1. symmetry in R1. apply map_eq_nil in R1. rewrite E3 in R4. symmetry in R4. apply map_eq_nil in R4. subst rxb txb.
    assert (E : host_view (map po_io (map lo_pr (T n))) = link_view (T n)) by (destruct R7 as [[_ E]|[_ E]]; [symmetry; exact E|exact E]).
    rewrite <- E. unfold pr_phase in PH. destruct F as [F|F]; rewrite F in PH; destruct PH as (-> & _); exact (fun H => H).
  Qed.
  Lemma rest_moves d : forall n, rest (St n) -> ended width p (link_back (T n)) = false ->
    cvalid (li_source (ins (n + d))) = true \/ link_given (T (n + d)) = usb_written width p (link_packets (T (n + d))) -> exists m, (n <= m)%nat /\ (mv n < mv m)%nat.
  Proof using HW HP HO HB HT HD.
    induction d as [|d IH]; intros n R N H.
    - rewrite Nat.add_0_r in H. destruct H as [H|H].
      + exists (S n). split; [lia|]. destruct (mv_S n) as [M|((Q & _) & _)]; [exact M|exfalso]. unfold ob in Q.
        unfold xfer in Q. cbn [B i2c_link cout lo_link o_sink o_sready] in Q.
        destruct R as (E1 & _). unfold lk_rx_rdy in Q. rewrite E1, H in Q. discriminate Q.
      + exfalso. destruct (program_n n) as (S1 & _ & fut & Wr & Wt). rewrite S1 in H. apply (rest_idle n R). apply Wt; [exact N|].
        rewrite <- H in Wr. rewrite <- (app_nil_r (link_given (T n))) in Wr at 1. apply app_inv_head in Wr. now symmetry.
    - destruct (mv_S n) as [M|(Q & G & Hb & M)]; [exists (S n); split; [lia|exact M]|].
      destruct (IH (S n)) as (m & L & M'); [now apply rest_stays|rewrite Hb; exact N|rewrite Nat.add_succ_r in H; exact H|].
      exists m. split; lia.
  Qed.

  Lemma moves n : ended width p (link_back (T n)) = false -> exists m, (n <= m)%nat /\ (mv n < mv m)%nat.
  Proof using HW HP HO HB HT HD HC HF.
    intros N. destruct (quiet_end (Phi (St n)) n (le_n _)) as (m & L & [M|(G & H & C)]); [eauto|].
    assert (M : mv m = mv n) by (unfold mv; rewrite G, H; reflexivity).
    assert (X : exists m', (m <= m')%nat /\ (mv m < mv m')%nat).
    { destruct C as [C|C].
      - destruct (proj2 HF m) as (q & Lq & Rq). apply (answer_moves (q - m)); [exact C|]. replace (m + (q - m))%nat with q by lia. exact Rq.
      - destruct (proj1 HF m) as (q & Lq & Rq). apply (rest_moves (q - m)); [exact C|rewrite H; exact N|]. replace (m + (q - m))%nat with q by lia. exact Rq. }
    destruct X as (m' & L' & M'). exists m'. split; lia.
  Qed.
  Lemma back_app n d : exists y, link_back (T (n + d)) = link_back (T n) ++ y.
  Proof.
    induction d as [|d (y & E)]; [exists []; now rewrite Nat.add_0_r, app_nil_r|].
    rewrite Nat.add_succ_r, back_S, E, <- app_assoc. eauto.
  Qed.

  Lemma finish p' : forall pre r n0, program_ok width p' ->
    (forall y, written width p (link_back (T n0) ++ y) = pre ++ written width p' (r ++ y)) ->
    (forall y, ended width p (link_back (T n0) ++ y) = ended width p' (r ++ y)) -> exists n, ended width p (link_back (T n)) = true.
  Proof using HW HP HO HB HT HD HC HF.
    induction p' as [|c k IH]; intros pre r n0 HOk Wr En.
    - exists n0. specialize (En []). rewrite app_nil_r in En. exact En.
    - destruct HOk as [HC0 HK]. destruct (call_bound width c HW HC0) as (K & HB0).
      assert (X : forall j n, (n0 <= n)%nat -> (length pre + length (link_back (T n0)) + 2 * K < mv n + j)%nat ->
        exists m y, (n0 <= m)%nat /\ link_back (T m) = link_back (T n0) ++ y /\ snd (call_so_far width c (r ++ y)) <> None).
      { induction j as [|j IHj]; intros n L LJ.
        all: destruct (back_app n0 (n - n0)) as (y & Ey); replace (n0 + (n - n0))%nat with n in Ey by lia.
        all: destruct (snd (call_so_far width c (r ++ y))) as [z|] eqn:EC; [exists n, y; rewrite EC; repeat split; [lia|exact Ey|discriminate]|].
        all: destruct (HB0 _ EC) as [B1 B2].
        - exfalso. destruct (program_n n) as (_ & _ & fut & Wn & _). rewrite Ey, Wr in Wn. cbn [written] in Wn. rewrite EC, app_nil_r in Wn.
          apply (f_equal (@length Z)) in Wn. rewrite !app_length in Wn. rewrite app_length in B1. unfold mv in LJ. rewrite Ey, app_length in LJ. lia.
        - assert (N : ended width p (link_back (T n)) = false) by (rewrite Ey, En; cbn [ended]; rewrite EC; reflexivity).
          destruct (moves n N) as (m & Lm & Mm). apply (IHj m); lia. }
      destruct (X (S (length pre + length (link_back (T n0)) + 2 * K)) n0 (le_n _) ltac:(lia)) as (m & y & Lm & Ey & EC).
      destruct (snd (call_so_far width c (r ++ y))) as [[res rest']|] eqn:E; [clear EC|congruence].
      apply (IH res (pre ++ fst (call_so_far width c (r ++ y))) rest' m (HK res)).
      + intros z. rewrite Ey, <- app_assoc, Wr, app_assoc. cbn [written]. rewrite (call_more width c (r ++ y) z res rest' HW HC0 E). cbn [fst snd]. now rewrite app_assoc.
      + intros z. rewrite Ey, <- app_assoc, En, app_assoc. cbn [ended]. rewrite (call_more width c (r ++ y) z res rest' HW HC0 E). reflexivity.
  Qed.
  Lemma ends : exists n, usb_ended width p (link_packets (T n)) = true.
  Proof using HW HP HO HB HT HD HC HF.
    destruct (finish p [] [] 0%nat HO) as (n & E); [intros y; reflexivity..|]. exists n. destruct (program_n n) as (_ & S3 & _). now rewrite S3.
  Qed.
End Live.
