(** Proofs about the I2C bridge (C122). *)
From Verif Require Import Stream Bits I2c_model I2c_proofs I2cstream_model I2cstream_spec I2cstream_proofs I2cproto_model I2cproto_spec I2cproto_proofs
  I2ctime_props Fifo_model Fifo_proofs Serial_model Bridge_model Bridge_spec.
From Coq Require Import Lia.

(** ** Hosts. *)
Definition sents := fold_left host_sent.
Definition gots := fold_left host_got.
Definition sending (h : host) : Prop := match h with HIdle | HHeader _ | HData _ _ _ => True | _ => False end.
Definition hstep (st : host * list exchange) (b c : list (beat Z)) : host * list exchange :=
  match b, c with
  | [], [] => st
  | [x], [] => host_sent st (bdata x)
  | [], [a] => host_got st a
  | _, _ => (HLost, snd st)
  end.
Lemma host_step_xfer st o : host_step st o = hstep st (xfer (o_sink o) (o_sready o)) (xfer (o_src o) (o_rready o)).
Proof. reflexivity. Qed.

Lemma sents_lost l : forall st, fst st = HLost -> fst (sents l st) = HLost.
Proof. induction l as [|x l IH]; intros [h g] H; cbn in *; auto. apply IH. subst h. reflexivity. Qed.
Lemma gots_lost l : forall st, fst st = HLost -> fst (gots l st) = HLost.
Proof. induction l as [|x l IH]; intros [h g] H; cbn in *; auto. apply IH. subst h. reflexivity. Qed.
Lemma sents_app a b st : sents (a ++ b) st = sents b (sents a st).
Proof. apply fold_left_app. Qed.
Lemma gots_app a b st : gots (a ++ b) st = gots b (gots a st).
Proof. apply fold_left_app. Qed.
Lemma sent_sending st x : sending (fst st) -> fst (host_sent st x) <> HLost.
Proof.
  destruct st as [h g]. cbn. destruct h; cbn; intros H; try contradiction; try discriminate.
  - destruct (is_read h); [discriminate|]. destruct (x =? 0); discriminate.
  - destruct (left =? 1); discriminate.
Qed.
Lemma sents_sending l st : l <> [] -> fst (sents l st) <> HLost -> sending (fst st).
Proof.
  destruct l as [|x l]; [congruence|]. intros _ H. destruct st as [h g]. cbn. destruct h; cbn; auto.
  all: apply H; change (fst (sents l (HLost, g)) = HLost); apply sents_lost; reflexivity.
Qed.
Lemma gots_waiting l st : l <> [] -> fst (gots l st) <> HLost -> ~ sending (fst st).
Proof.
  destruct l as [|x l]; [congruence|]. intros _ H S. destruct st as [h g]. cbn in S. destruct h; cbn in S; try contradiction.
  all: apply H; change (fst (gots l (HLost, g)) = HLost); apply gots_lost; reflexivity.
Qed.

Definition rel (pv lv : host * list exchange) (rxq txq : list (beat Z)) : Prop :=
  (txq = [] /\ lv = sents (map bdata rxq) pv) \/ (rxq = [] /\ pv = gots txq lv).

Lemma rel_step pv lv b r0 a e x0 c :
  rel pv lv (b ++ r0) (e ++ x0) -> (length a <= 1)%nat -> (length b <= 1)%nat -> (length c <= 1)%nat -> (length e <= 1)%nat ->
  fst (hstep pv b c) <> HLost -> fst lv <> HLost -> (a <> [] -> sending (fst lv)) ->
  rel (hstep pv b c) (hstep lv a e) (r0 ++ a) (x0 ++ c) /\ fst (hstep lv a e) <> HLost.
Proof.
  intros R La Lb Lc Le HP HL HS.
  assert (C1 : e ++ x0 = [] -> lv = sents (map bdata (b ++ r0)) pv ->
    rel (hstep pv b c) (hstep lv a e) (r0 ++ a) (x0 ++ c) /\ fst (hstep lv a e) <> HLost).
  { intros Z1 Z2. destruct e; [|discriminate]. cbn in Z1. subst x0. destruct c as [|z [|? ?]]; [| |cbn in Lc; lia].
    - assert (P : hstep pv b [] = sents (map bdata b) pv) by (destruct b as [|y [|? ?]]; try reflexivity; cbn in Lb; lia).
      assert (Q : hstep lv a [] = sents (map bdata a) lv) by (destruct a as [|y [|? ?]]; try reflexivity; cbn in La; lia).
      rewrite P, Q. split.
      + left. split; [reflexivity|]. rewrite Z2, !map_app, !sents_app. reflexivity.
      + destruct a as [|x [|? ?]]; [exact HL| |cbn in La; lia]. apply sent_sending. apply HS. discriminate.
    - destruct b as [|y b]; [|destruct b; cbn in HP; contradiction]. cbn [app] in Z2. cbn [hstep] in HP |- *.
      assert (NS : ~ sending (fst pv)) by (apply (gots_waiting [z]); [discriminate|exact HP]).
      assert (E : r0 = []).
      { destruct r0 as [|q r0]; [reflexivity|exfalso]. apply NS. apply (sents_sending (map bdata (q :: r0))); [discriminate|]. rewrite <- Z2. exact HL. }
      subst r0. cbn in Z2. subst lv. destruct a as [|x a]; [|exfalso; apply NS, HS; discriminate]. split; [|exact HL]. right. auto. }
  destruct R as [[Z1 Z2]|[Z1 Z2]]; [now apply C1|].
  destruct (app_eq_nil _ _ Z1) as [-> ->]. cbn [app] in *.
  destruct (list_eq_dec Bool.bool_dec (map (fun _ => true) (e ++ x0)) []) as [NE|NE].
  { apply map_eq_nil in NE. apply C1; [exact NE|]. rewrite NE in Z2. cbn in *. auto. }
  assert (NE' : e ++ x0 <> []) by (intros H; apply NE; now rewrite H).
  assert (Q : hstep pv [] c = gots c pv) by (destruct c as [|y [|? ?]]; try reflexivity; cbn in Lc; lia).
  rewrite Q in *.
  assert (PL : fst pv <> HLost) by (intros H; apply HP; now apply gots_lost).
  assert (NS : ~ sending (fst lv)) by (apply (gots_waiting (e ++ x0)); [exact NE'|congruence]).
  destruct a as [|x a]; [|exfalso; apply NS, HS; discriminate].
  assert (P : hstep lv [] e = gots e lv) by (destruct e as [|y [|? ?]]; try reflexivity; cbn in Le; lia).
  rewrite P. assert (G : gots c pv = gots (x0 ++ c) (gots e lv)) by (rewrite Z2, !gots_app; reflexivity). split.
  - right. auto.
  - intros H. apply HP. rewrite G. now apply gots_lost.
Qed.

(** Which states come from which. *)
Definition past_length (h : host) : Prop := match h with HData _ _ _ | HStatusW _ _ | HLost => True | _ => False end.
Lemma sents_past l : forall st, past_length (fst st) -> past_length (fst (sents l st)).
Proof.
  induction l as [|x l IH]; intros [h g] H; cbn in *; auto. apply IH. destruct h; cbn in *; try contradiction; auto. destruct (left =? 1); cbn; auto.
Qed.
Lemma gots_not_data l : forall st, l <> [] -> is_data (fst (gots l st)) = false /\ (forall h, fst (gots l st) <> HHeader h) /\ (forall h n, fst (gots l st) <> HStatusR h n).
Proof.
  induction l as [|x l IH]; intros [h g] H; [congruence|]. cbn [gots fold_left]. destruct l as [|y l].
  - cbn. destruct h; cbn; try (repeat split; intros; discriminate); [destruct (bdata x =? 0)|destruct (left =? 1)]; cbn; repeat split; intros; discriminate.
  - apply IH. discriminate.
Qed.
Lemma data_from st b c : is_data (fst (hstep st b c)) = true -> is_data (fst st) = false -> exists h x, fst st = HHeader h /\ b = [x] /\ c = [].
Proof.
  destruct st as [h g]. unfold hstep. destruct b as [|x [|? ?]], c as [|z [|? ?]]; cbn; try congruence; try discriminate.
  - destruct h; cbn; try discriminate; [destruct (bdata z =? 0)|destruct (left =? 1)]; discriminate.
  - destruct h; cbn; try discriminate. intros. eauto.
Qed.

(** ** The FIFOs. *)
Definition pack8 := fifo_pack 8.
Definition byte (b : beat Z) : Prop := 0 <= bdata b < 256.
Lemma fifo_src l k : Forall byte l -> src br_fifo (map pack8 l) k = match l with [] => Chan false (fifo_unpack 8 0) | b :: _ => Chan true b end.
Proof.
  intros H. destruct l as [|b l]; [reflexivity|]. inversion H; subst. cbn -[fifo_pack fifo_unpack]. unfold pack8. rewrite pack_unpack; [reflexivity|lia|assumption].
Qed.
Lemma fifo_rdy l k r : rdy br_fifo (map pack8 l) k r = negb (Z.of_nat (length l) =? 32).
Proof. cbn -[Z.of_nat]. now rewrite map_length. Qed.
Lemma fifo_nxt l k r : nxt br_fifo (map pack8 l) k r =
  map pack8 ((if r then tl l else l) ++ (if cvalid k && negb (Z.of_nat (length l) =? 32) then [cbeat k] else [])).
Proof.
  rewrite map_app. cbn -[Z.of_nat app]. rewrite map_length. f_equal.
  - destruct r; [destruct l|]; reflexivity.
  - destruct (cvalid k && _); reflexivity.
Qed.
(** One cycle of a FIFO: what leaves was at the head, what enters goes to the tail. *)
Lemma fifo_cycle l k r : Forall byte l -> (cvalid k = true -> byte (cbeat k)) -> (length l <= 32)%nat ->
  let e := xfer (src br_fifo (map pack8 l) no_beat) r in
  let a := xfer k (rdy br_fifo (map pack8 l) no_beat false) in
  exists x0, l = e ++ x0 /\ nxt br_fifo (map pack8 l) k r = map pack8 (x0 ++ a) /\ Forall byte (x0 ++ a) /\ (length (x0 ++ a) <= 32)%nat.
Proof.
  intros H HK HL e a. exists (if r then tl l else l). unfold e, a. rewrite fifo_src, fifo_rdy, fifo_nxt by exact H. unfold xfer.
  assert (HT : Forall byte (if r then tl l else l)) by (destruct r; [destruct l; [constructor|now inversion H]|exact H]).
  split; [destruct l, r; reflexivity|]. split; [reflexivity|]. split.
  - apply Forall_app. split; [exact HT|]. destruct (cvalid k) eqn:V; cbn [andb]; [|constructor]. destruct (negb _); constructor; auto.
  - rewrite app_length. destruct (Z.eqb_spec (Z.of_nat (length l)) 32) as [E|E]; [rewrite andb_false_r|]; cbn [negb length].
    + destruct r; [destruct l; cbn [tl length] in *; lia|lia].
    + destruct (cvalid k && true); cbn [length]; destruct r; destruct l; cbn [tl length] in *; lia.
Qed.
Lemma xfer_len {A} (k : chan A) r : (length (xfer k r) <= 1)%nat.
Proof. unfold xfer. destruct (_ && _); cbn; lia. Qed.

(** ** The parts. *)
Section Parts.
  Context (period : Z) (stretch oe : bool).
  Let P := i2c_proto period stretch oe.

  Lemma pr_inner ins : exists a, is_i (p_i (state P ins)) = state (i2c_initiator period stretch oe) a /\ ist_rdy_i (p_i (state P ins)).
  Proof.
    assert (X : exists b, p_i (state P ins) = state (i2c_stream period stretch oe) b).
    { eexists. refine (proj2 (part_trace P (i2c_stream period stretch oe) (fun o => (o_sink (so_io o), o_rready (so_io o), (ii_sda_pad (io_in (so_i2c o)), ii_scl_pad (io_in (so_i2c o))))) p_i
        (fun s '(k, r, p) => (pr_isink s k, pr_irdy s r, p)) po_i2c _ eq_refl _ _ ins)).
      - intros s [[k r] [x y]]. reflexivity.
      - intros s [[k r] p]. cbn [P i2c_proto cnext i2c_stream]. unfold pr_next. destruct s as [f h l u i]. cbn [p_f p_header p_length p_status p_i].
        destruct f; try reflexivity; repeat (match goal with |- context [if ?b then _ else _] => destruct b end; try reflexivity).
      - intros s [[k r] p]. reflexivity. }
    destruct X as [b ->]. eexists. split; [apply ist_sub|apply ist_rdy_run].
  Qed.

  (** Bytes offered to the host are bytes. *)
  Definition in_byte (s : i2c_state) : Prop := 0 <= d_rsh (s_d s) < 256 /\ 0 <= d_datao (s_d s) < 256.
  Lemma in_byte_run a : in_byte (state (i2c_initiator period stretch oe) a).
  Proof.
    apply state_inv; [cbn; unfold in_byte; cbn; lia|]. intros s i [H1 H2]. cbn [i2c_initiator cnext]. unfold i2c_next, in_byte.
    destruct (fsm_next stretch oe s i) as [f d] eqn:FN. cbn [s_d]. unfold fsm_next, scl_l, scl_h, stb_x in FN.
    pose proof (cat1_range (sda_i s) (d_rsh (s_d s))).
    destruct (s_f s); [destruct (cmd_taken s i) as [[]|]|..]; try destruct (stb s); try destruct (d_scl (s_d s) && _); injection FN as <- <-; cbn; auto.
  Qed.
  Lemma status_run ins : 0 <= p_status (state P ins) <= 1.
  Proof.
    apply state_inv; [cbn; lia|]. intros s [[k r] p] H. cbn [P i2c_proto cnext]. unfold pr_next.
    destruct (p_f s); repeat match goal with |- context [if ?b then _ else _] => destruct b end; cbn; lia.
  Qed.
  Lemma src_byte ins : cvalid (pr_src (state P ins)) = true -> byte (cbeat (pr_src (state P ins))).
  Proof.
    pose proof (status_run ins) as S. destruct (pr_inner ins) as (a & E & _). pose proof (in_byte_run a) as B. rewrite <- E in B.
    unfold pr_src, byte, ist_src. destruct (p_f (state P ins)); cbn; try discriminate; intros; try lia.
    all: destruct (ist_is _ IsWRead && _); cbn in *; try discriminate; apply B.
  Qed.

  (** Before the address is answered. *)
  Definition pr_noaddr (t : list pr_obs) (s : pr_state) : Prop := p_f s = PLength \/ p_f s = PAddr -> addressed t = false.
  Lemma pr_noaddr_run ins : good_host (trace P ins) -> pr_noaddr (trace P ins) (state P ins).
  Proof.
    intros G. assert (X : (pr_inv (trace P ins) (state P ins) /\ pr_addr (trace P ins) (state P ins)) /\ pr_noaddr (trace P ins) (state P ins)); [|apply X].
    revert G. apply (run_inv_hyp P good_host (fun t s => (pr_inv t s /\ pr_addr t s) /\ pr_noaddr t s)).
    - apply good_prefix.
    - split; [apply (pr_both_run period stretch oe []); intros [|? ?] ? ? E; discriminate|]. intros [H|H]; discriminate.
    - intros t s [[k r] p] HG [[HI HA] HN]. split; [split; [now apply pr_inv_step|now apply pr_addr_step]|].
      destruct HI as (segs & xs & xd & _ & _ & _ & HP). unfold pr_noaddr in *. rewrite addressed_snoc.
      set (o := cout P s (k, r, p)). assert (O5 : served [po_i2c o] = map (fun b => (b, ist_err (p_i s))) (xfer (pr_isink s k) (pr_go s k))).
      { unfold served. cbn [flat_map]. rewrite app_nil_r. reflexivity. }
      rewrite O5. clear O5 o. set (hs := fst (host_view (map po_io t))) in *. clearbody hs. set (ad := addressed t) in *. clearbody ad. clear t HG HA.
      cbn [cnext P i2c_proto]. destruct s as [f h l u i]. unfold pr_phase in HP. cbn [p_f p_header p_length p_status p_i] in HP, HN.
      unfold pr_next. cbn [p_f p_header p_length p_status p_i].
      destruct f; cbn [p_f].
      + destruct HP as (-> & _). reflexivity.
      + destruct HP as (-> & _). rewrite HN by auto. reflexivity.
      + rewrite HN by auto. destruct (pr_go _ k); cbn [p_f]; intros HX.
        * exfalso. destruct (ist_err i), (Z.testbit h 0), (1 <=? l); destruct HX; discriminate.
        * unfold xfer. rewrite andb_false_r. destruct hs; reflexivity.
      + intros HX. exfalso. destruct r; cbn [p_f] in HX; destruct HX; discriminate.
      + intros HX. exfalso. destruct (pr_go _ k); [destruct (l =? 1)|]; cbn [p_f] in HX; destruct HX; discriminate.
      + intros HX. exfalso. destruct (cvalid _ && r && _); cbn [p_f] in HX; destruct HX; discriminate.
      + intros HX. exfalso. destruct (pr_go _ k); [destruct (ist_err i), (l =? 1)|]; cbn [p_f] in HX; destruct HX; discriminate.
      + intros HX. exfalso. destruct (1 <=? l); cbn [p_f] in HX; destruct HX; discriminate.
      + intros HX. exfalso. destruct r; cbn [p_f] in HX; destruct HX; discriminate.
  Qed.
End Parts.

(** ** The bridge. *)
Lemma list_case {A} (t : list A) : t = [] \/ exists t0 x, t = t0 ++ [x].
Proof. destruct t as [|a t] using rev_ind; eauto. Qed.
Lemma waited_fst t : fst (fold_left waited_step t ((HIdle, []), 0)) = uart_view t.
Proof. induction t as [|o t IH] using rev_ind; [reflexivity|]. unfold uart_view. rewrite fold_left_app, map_app. cbn [fold_left map]. rewrite host_snoc. unfold waited_step at 1. cbn [fst]. now rewrite IH. Qed.
Lemma view_snoc t o : uart_view (t ++ [o]) = host_step (uart_view t) (uart o).
Proof. unfold uart_view. rewrite map_app. apply host_snoc. Qed.
Lemma waited_snoc t o : waited (t ++ [o]) = if is_data (fst (uart_view t)) && is_data (fst (uart_view (t ++ [o]))) then waited t + 1 else 0.
Proof. unfold waited. rewrite fold_left_app. cbn [fold_left]. unfold waited_step at 1. cbn [snd]. rewrite waited_fst, view_snoc. reflexivity. Qed.
Lemma waited_nonneg t : 0 <= waited t.
Proof. induction t as [|o t IH] using rev_ind; [cbn; lia|]. rewrite waited_snoc. destruct (_ && _); lia. Qed.
Lemma user_prefix limit t u : good_user limit (t ++ u) -> good_user limit t.
Proof. intros H t1 o t2 ->. apply (H t1 o (t2 ++ u)). now rewrite <- app_assoc. Qed.

Section Bridge.
  Context (period : Z) (stretch oe : bool) (HP : 1 <= period).
  Let B := i2c_bridge period stretch oe.
  Let P := i2c_proto period stretch oe.
  Let N := 36 * (period / 4 + 1).
  Let limit := N - 1.

  Definition usq (u : us_state) : list (beat Z) := if us_valid u then [Beat false false (us_data u)] else [].
  (** Cycles before the address is answered, at least. *)
  Definition answer_in (s : pr_state) : Z := match is_f (p_i s) with IsWWrite => rest period (is_i (p_i s)) | _ => N end.

  Record inv (t : list br_obs) (s : br_state) : Prop := {
    v_good : good_host (map bo_pr t);
    v_pr : exists ins, map bo_pr t = trace P ins /\ b_pr s = state P ins;
    v_q : exists rxb txb, b_rx s = map pack8 rxb /\ Forall byte rxb /\ (length rxb <= 32)%nat /\
          b_tx s = map pack8 txb /\ Forall byte txb /\ (length txb <= 32)%nat /\
          rel (host_view (map po_io (map bo_pr t))) (uart_view t) (rxb ++ usq (b_us s)) txb /\
          (p_f (b_pr s) = PWrite \/ p_f (b_pr s) = PError -> is_data (fst (host_view (map po_io (map bo_pr t)))) = true ->
             is_data (fst (uart_view t)) = false /\ (us_valid (b_us s) = true -> (31 <= length rxb)%nat));
    v_us : us_valid (b_us s) = true -> 0 <= us_data (b_us s) < 256;
    v_lost : fst (uart_view t) <> HLost;
    v_zero : forall h n, fst (uart_view t) = HStatusR h n -> n <> 0;
    v_time : p_f (b_pr s) = PAddr -> is_data (fst (uart_view t)) = true -> N <= waited t + answer_in (b_pr s) }.

  Lemma rest_nonneg s : upright period s -> counted s -> 0 <= rest period s.
  Proof using HP.
    intros (U & _) C. unfold rest. pose proof (Qr period HP). destruct (idle_dec (s_f s)) as [E|E]; [rewrite E; lia|].
    pose proof (quarters_pos s C E). destruct (s_f s); try lia; nia.
  Qed.

  (** What the link offers next: rx side. *)
  Lemma us_cycle (u : us_state) (rr rxr : bool) (d : Z) txr k :
    let i := UsIn rxr d rr txr k in
    usq (cnext serial_stream u i) =
      (if rr then [] else usq u) ++ xfer (Chan rxr (Beat false false d)) (us_ack u i).
  Proof using.
    cbn [cnext serial_stream]. unfold usq, us_ack, us_busy, xfer. cbn [u_rready u_rx_rdy u_rx_data cvalid cbeat].
    destruct (us_valid u) eqn:V, rr, rxr; cbn; rewrite ?V; reflexivity.
  Qed.

  Lemma bridge_step t s i : good_user limit (t ++ [cout B s i]) -> inv t s -> inv (t ++ [cout B s i]) (cnext B s i).
  Proof using HP.
    intros HU [V1 (pins & V2 & V2') (rxb & txb & Q1 & Q2 & Q3 & Q4 & Q5 & Q6 & Q7 & Q8) V4 V5 V6 V7].
    set (o := cout B s i) in *.
    destruct (HU t o [] eq_refl) as (U1 & U2 & U3).
    destruct (pr_both_run period stretch oe pins) as [PI PA]; [fold P; rewrite <- V2; exact V1|]. fold P in PI, PA. rewrite <- V2, <- V2' in PI, PA.
    pose proof (pr_noaddr_run period stretch oe pins) as PN. fold P in PN. rewrite <- V2, <- V2' in PN. specialize (PN V1).
    destruct (pr_inner period stretch oe pins) as (ia & IA & IR). fold P in IA, IR. rewrite <- V2' in IA, IR.
    pose proof (upright_run period stretch oe HP ia) as UP. pose proof (counted_run period stretch oe ia) as CN. pose proof (fresh_run period stretch oe HP ia) as FR.
    rewrite <- IA in UP, CN, FR.
    pose proof (src_byte period stretch oe pins) as SB. fold P in SB. rewrite <- V2' in SB.
    set (pv := host_view (map po_io (map bo_pr t))) in *. set (lv := uart_view t) in *. set (u := b_us s) in *.
    assert (PH : exists xs xd, pr_phase (b_pr s) (fst pv) xs xd) by (destruct PI as (segs & xs & xd & _ & _ & _ & PH); eauto).
    destruct PH as (xs & xd & PH).
    (* what moves in this cycle *)
    set (a := xfer (o_sink (uart o)) (o_sready (uart o))). set (e := xfer (o_src (uart o)) (o_rready (uart o))).
    set (b := xfer (br_rx s) (pr_rdy (b_pr s) (br_rx s))). set (c := xfer (pr_src (b_pr s)) (br_tx_rdy s)).
    assert (EL : uart_view (t ++ [o]) = hstep lv a e) by (rewrite view_snoc, host_step_xfer; reflexivity).
    assert (EP : host_view (map po_io (map bo_pr (t ++ [o]))) = hstep pv b c) by (rewrite !map_app; cbn [map]; rewrite host_snoc, host_step_xfer; reflexivity).
    assert (La : (length a <= 1)%nat) by apply xfer_len. assert (Lb : (length b <= 1)%nat) by apply xfer_len.
    assert (Lc : (length c <= 1)%nat) by apply xfer_len. assert (Le : (length e <= 1)%nat) by apply xfer_len.
    assert (SEND : a <> [] -> sending (fst lv)).
    { intros NA. unfold a, xfer in NA. cbn [uart o_sink o_sready cvalid] in NA. destruct (uo_rx_rdy (bo_us o) && uo_rx_ack (bo_us o)); [|congruence].
      specialize (U2 eq_refl). unfold sending. destruct (fst lv); auto. }
    (* the queues *)
    destruct (fifo_cycle txb (pr_src (b_pr s)) (bi_tx_rdy i) Q5 SB Q6) as (x0 & TX1 & TX2 & TX3 & TX4).
    assert (KB : cvalid (br_link s) = true -> byte (cbeat (br_link s))) by (unfold br_link, byte; cbn; apply V4).
    destruct (fifo_cycle rxb (br_link s) (pr_rdy (b_pr s) (br_rx s)) Q2 KB Q3) as (y0 & RX1 & RX2 & RX3 & RX4).
    rewrite <- Q4 in TX1, TX2, TX3, TX4. rewrite <- Q1 in RX1, RX2, RX3, RX4. fold (br_tx s) in TX1. fold (br_rx s) in RX1. fold (br_rx_rdy s) in RX2, RX3, RX4. fold (br_tx_rdy s) in TX2, TX3, TX4.
    change (xfer (br_tx s) (bi_tx_rdy i)) with e in TX1. fold b in RX1. fold c in TX2, TX3, TX4.
    set (mv := xfer (br_link s) (br_rx_rdy s)) in *.
    assert (US : usq (b_us (cnext B s i)) = (if br_rx_rdy s then [] else usq u) ++ a) by apply us_cycle.
    assert (MV : usq u = mv ++ (if br_rx_rdy s then [] else usq u)).
    { unfold mv, xfer, br_link, usq. fold u. cbn [cvalid cbeat]. destruct (us_valid u), (br_rx_rdy s); reflexivity. }
    (* host and core in step *)
    assert (GH : good_host (map bo_pr (t ++ [o]))).
    { intros t1 q t2 E. rewrite map_app in E. cbn [map] in E.
      destruct (list_case t2) as [->|(t2' & z & ->)].
      - apply app_inj_tail in E. destruct E as [<- <-]. fold pv.
        change (o_sink (po_io (bo_pr o))) with (br_rx s).
        assert (EB : br_rx s = match rxb with [] => Chan false (fifo_unpack 8 0) | x :: _ => Chan true x end) by (unfold br_rx; rewrite Q1; now apply fifo_src).
        rewrite EB. split.
        + destruct rxb as [|x rxb]; [cbn; lia|]. inversion Q2; subst. assumption.
        + destruct (fst pv) as [|h|h ds n|h ds|h n|h n g l|] eqn:EH; auto.
          * intros AD. assert (PF : p_f (b_pr s) = PWrite \/ p_f (b_pr s) = PError).
            { unfold pr_phase in PH. destruct (p_f (b_pr s)) eqn:F; auto; exfalso.
              - destruct PH as (PH & _). discriminate.
              - destruct PH as (PH & _). discriminate.
              - rewrite (PN (or_intror F)) in AD. discriminate.
              - destruct PH as (_ & PH & _). discriminate.
              - destruct PH as (? & ? & PH & _). discriminate.
              - destruct PH as (? & PH & _). discriminate.
              - destruct PH as (_ & _ & PH). destruct (is_read _); [destruct PH as (? & PH & _)|destruct PH as (? & PH & _)]; discriminate. }
            destruct (Q8 PF eq_refl) as [D1 D2]. destruct rxb as [|x rxb]; [exfalso|reflexivity].
            assert (US0 : us_valid u = false) by (destruct (us_valid u); [specialize (D2 eq_refl); cbn in D2; lia|reflexivity]).
            unfold usq in Q7. rewrite US0 in Q7. cbn [app] in Q7. destruct Q7 as [[_ R]|[_ R]].
            -- cbn in R. rewrite R, EH in D1. discriminate.
            -- destruct txb as [|z txb]; [cbn in R; rewrite <- R, EH in D1; discriminate|].
               destruct (gots_not_data (z :: txb) lv ltac:(discriminate)) as [G _]. rewrite <- R, EH in G. discriminate.
          * assert (LV : lv = pv /\ rxb ++ usq u = []).
            { destruct Q7 as [[_ R]|[R1 R]].
              - destruct (rxb ++ usq u) as [|z q]; [auto|exfalso].
                assert (S : sending (fst pv)) by (apply (sents_sending (map bdata (z :: q))); [discriminate|rewrite <- R; exact V5]). rewrite EH in S. exact S.
              - destruct txb as [|z txb]; [cbn in R; auto|exfalso]. destruct (gots_not_data (z :: txb) lv ltac:(discriminate)) as (_ & _ & G).
                apply (G h n). now rewrite <- R. }
            destruct LV as [LV RX]. apply app_eq_nil in RX. destruct RX as [-> _]. split; [reflexivity|]. apply (V6 h n). now rewrite LV.
      - change (t1 ++ q :: t2' ++ [z]) with (t1 ++ (q :: t2') ++ [z]) in E. rewrite app_assoc in E. apply app_inj_tail in E. destruct E as [E _]. apply (V1 t1 q t2'). exact E. }
    assert (PV : exists ins, map bo_pr (t ++ [o]) = trace P ins /\ b_pr (cnext B s i) = state P ins).
    { exists (pins ++ [br_pr_in s i]). rewrite map_app, V2, trace_app. cbn [map]. unfold state. rewrite state_from_app. fold (state P pins). rewrite <- V2'. split; reflexivity. }
    assert (PL : fst (hstep pv b c) <> HLost).
    { destruct PV as (ins & E & _). pose proof (pr_inv_run period stretch oe ins) as K. fold P in K. rewrite <- E in K. specialize (K GH).
      destruct K as (sg & ys & yd & _ & _ & _ & K). rewrite <- EP. intros L. rewrite L in K. revert K. unfold pr_phase. clear.
      destruct (p_f _); intros K.
      - destruct K as (K & _). discriminate.
      - destruct K as (K & _). discriminate.
      - destruct K as (K & _). destruct (is_read _); [|destruct (_ =? 0)]; discriminate.
      - destruct K as (_ & K & _). discriminate.
      - destruct K as (? & ? & K & _). discriminate.
      - destruct K as (? & K & _). discriminate.
      - destruct K as (? & _ & K & _). discriminate.
      - destruct K as (_ & _ & _ & K). destruct (is_read _); destruct K as (? & K & _); [discriminate|]. destruct (_ =? 0); discriminate.
      - destruct K as (_ & _ & K). destruct (is_read _); destruct K as (? & K & _); discriminate. }
    assert (RS : rel (hstep pv b c) (hstep lv a e) ((y0 ++ usq u) ++ a) (x0 ++ c) /\ fst (hstep lv a e) <> HLost).
    { apply rel_step; auto. rewrite app_assoc, <- RX1, <- TX1. exact Q7. }
    destruct RS as [RS LL].
    assert (RQ : (y0 ++ mv) ++ usq (b_us (cnext B s i)) = (y0 ++ usq u) ++ a).
    { rewrite US. rewrite MV at 2. rewrite <- !app_assoc. reflexivity. }
    (* before the address is answered nothing is exchanged with the core *)
    assert (ADDR : p_f (b_pr s) = PAddr -> b = [] /\ c = []).
    { intros F. unfold b, c, xfer, pr_rdy, pr_src. rewrite F. cbn. rewrite andb_false_r. auto. }
    (* while the core waits for data, the host can only have sent it all *)
    assert (PAST : is_data (fst pv) = true -> past_length (fst lv) /\ txb = []).
    { intros D. destruct Q7 as [[R1 R]|[R1 R]].
      - split; [|exact R1]. rewrite R. apply sents_past. destruct (fst pv); try discriminate. exact I.
      - destruct txb as [|z txb]; [|exfalso; destruct (gots_not_data (z :: txb) lv ltac:(discriminate)) as [G _]; rewrite <- R in G; congruence].
        cbn in R. rewrite <- R. split; [|reflexivity]. destruct (fst pv); try discriminate. exact I. }
    assert (QUIET : is_data (fst pv) = true -> is_data (fst lv) = false -> a = [] /\ e = []).
    { intros D1 D2. destruct (PAST D1) as [PL1 TX]. split.
      - destruct a as [|x a']; [reflexivity|]. specialize (SEND ltac:(discriminate)). exfalso. destruct (fst lv); cbn in *; try contradiction; discriminate.
      - rewrite TX in TX1. symmetry in TX1. apply app_eq_nil in TX1. apply TX1. }
    assert (LATE : is_data (fst pv) = true -> is_data (fst lv) = false ->
      is_data (fst (hstep lv a e)) = false /\ (us_valid (b_us (cnext B s i)) = true -> (31 <= length (y0 ++ mv))%nat)).
    { intros D1 D2. destruct (QUIET D1 D2) as [A E]. rewrite A, E. split; [exact D2|]. intros UV.
      unfold usq at 1 in US. rewrite UV, A, app_nil_r in US.
      assert (NR : br_rx_rdy s = false) by (destruct (br_rx_rdy s); [discriminate|reflexivity]).
      assert (L : length rxb = 32%nat).
      { unfold br_rx_rdy in NR. rewrite Q1, fifo_rdy in NR. apply negb_false_iff, Z.eqb_eq in NR. lia. }
      rewrite RX1, app_length in L. rewrite app_length. lia. }
    assert (NXT : b_pr (cnext B s i) = pr_next period stretch oe (b_pr s) (br_rx s) (br_tx_rdy s) (bi_pads i)) by reflexivity.
    assert (SERVED : p_f (b_pr s) = PAddr -> pr_go (b_pr s) (br_rx s) = true -> is_data (fst lv) = false).
    { intros F G. destruct (is_data (fst lv)) eqn:D; [exfalso|reflexivity]. specialize (V7 F eq_refl).
      unfold pr_go, ist_rdy, ist_rd, pr_isink in G. rewrite F in G. cbn [cvalid cbeat bdata fst] in G. rewrite andb_false_r in G. cbn [orb] in G.
      apply andb_prop in G. destruct G as [G1 G2]. unfold answer_in in V7.
      assert (W : is_f (p_i (b_pr s)) = IsWWrite) by (unfold ist_is in G1; destruct (is_f (p_i (b_pr s))); discriminate || reflexivity).
      rewrite W in V7. unfold ist_idle in G2. apply negb_true_iff in G2. pose proof (idle_f (is_i (p_i (b_pr s))) (proj1 IR) G2) as ID.
      unfold rest in V7. rewrite ID in V7. fold lv in U3. unfold limit in U3. lia. }
    constructor.
    - exact GH.
    - exact PV.
    - exists (y0 ++ mv), (x0 ++ c). rewrite EP, EL, RQ. do 7 (split; [solve [auto]|]). intros PF D.
      assert (DP : is_data (fst pv) = true /\ is_data (fst lv) = false); [|destruct DP; now apply LATE].
      rewrite NXT in PF. unfold pr_next in PF. clear - PF D PH Q8 SERVED ADDR.
      assert (K : p_f (b_pr s) = PWrite \/ p_f (b_pr s) = PError -> is_data (fst pv) = true /\ is_data (fst lv) = false).
      { intros F. assert (DP : is_data (fst pv) = true); [|split; [exact DP|apply Q8; assumption]].
        destruct (is_data (fst pv)) eqn:E; [reflexivity|exfalso]. destruct (data_from pv b c D E) as (h & x & H & _). rewrite H in PH. unfold pr_phase in PH.
        destruct F as [F|F]; rewrite F in PH.
        - destruct PH as (? & _ & PH & _). discriminate.
        - destruct PH as (_ & _ & _ & PH). destruct (is_read _); destruct PH as (? & PH & _); [discriminate|]. destruct (_ =? 0); discriminate. }
      destruct (p_f (b_pr s)) eqn:F; auto.
      + destruct (cvalid _); cbn [p_f] in PF; destruct PF; discriminate.
      + destruct (cvalid _); cbn [p_f] in PF; destruct PF; discriminate.
      + destruct (ADDR eq_refl) as [E1 E2]. rewrite E1, E2 in D. destruct (pr_go _ _); [auto|]. cbn [p_f] in PF; destruct PF; discriminate.
      + destruct (br_tx_rdy s); cbn [p_f] in PF; destruct PF; discriminate.
      + destruct (pr_go _ _); [destruct (_ =? _)|]; cbn [p_f] in PF; destruct PF; discriminate.
      + destruct (_ && _); cbn [p_f] in PF; destruct PF; discriminate.
      + destruct (br_tx_rdy s); cbn [p_f] in PF; destruct PF; discriminate.
    - cbn [uart bo_us o B i2c_bridge cout] in U1. cbn [B i2c_bridge cnext b_us serial_stream]. fold u.
      match goal with |- context [if ?x then _ else _] => destruct x end; [intros _; exact U1|].
      match goal with |- context [if ?x then _ else _] => destruct x end; [discriminate|exact V4].
    - rewrite EL. exact LL.
    - rewrite EL. intros h n E. clear - E V6 U2 EL.
      assert (U2' : a <> [] -> match fst lv with HHeader h => is_read h = true -> forall x, a = [x] -> bdata x <> 0 | _ => True end).
      { unfold a, xfer. cbn [uart o_sink o_sready cvalid cbeat]. intros NA. destruct (uo_rx_rdy (bo_us o) && uo_rx_ack (bo_us o)); [|congruence].
        specialize (U2 eq_refl). destruct (fst lv); auto. intros R x EX. injection EX as <-. exact (U2 R). }
      clearbody a e lv. clear U2. destruct lv as [hl g]. cbn [fst] in *. unfold hstep in E. destruct a as [|x [|? ?]], e as [|z [|? ?]]; try discriminate.
      + apply (V6 _ _ E).
      + cbn in E. destruct hl; try discriminate; [destruct (bdata z =? 0)|destruct (left =? 1)]; discriminate.
      + cbn in E. specialize (U2' ltac:(discriminate)). destruct hl; try discriminate.
        * destruct (is_read _) eqn:R; [|destruct (bdata x =? 0); discriminate]. injection E as <- <-. now apply (U2' eq_refl x).
        * destruct (left =? 1); discriminate.
    - rewrite EL. intros F' D'. pose proof (waited_nonneg (t ++ [o])) as WN.
      set (s' := b_pr (cnext B s i)) in *.
      destruct (ist_is (p_i s') IsWWrite) eqn:W'.
      2: { unfold answer_in. unfold ist_is in W'. destruct (is_f (p_i s')); try discriminate; lia. }
      assert (W : is_f (p_i s') = IsWWrite) by (unfold ist_is in W'; destruct (is_f (p_i s')); discriminate || reflexivity).
      assert (IS : p_i s' = ist_next period stretch oe (p_i (b_pr s)) (pr_isink (b_pr s) (br_rx s)) (pr_irdy (b_pr s) (br_tx_rdy s)) (bi_pads i)).
      { rewrite NXT. unfold pr_next. destruct (p_f (b_pr s)); repeat match goal with |- context [if ?x then _ else _] => destruct x end; reflexivity. }
      assert (FF : p_f (b_pr s) = PAddr).
      { rewrite NXT in F'. unfold pr_next in F'. clear - F' W PH IS.
        destruct (p_f (b_pr s)) eqn:F; auto; exfalso.
        - destruct (cvalid _); discriminate.
        - unfold pr_phase in PH. rewrite F in PH. destruct PH as (_ & _ & _ & PH). rewrite IS in W. cbn [is_f ist_next] in W. unfold ist_fnext in W.
          destruct PH as [PH|[PH|PH]]; rewrite PH in W; [|discriminate|]; match type of W with context [if ?x then _ else _] => destruct x end; discriminate.
        - destruct (br_tx_rdy s); discriminate.
        - destruct (pr_go _ _); [destruct (_ =? _)|]; discriminate.
        - destruct (_ && _); discriminate.
        - destruct (pr_go _ _); [destruct (ist_err _); [|destruct (_ =? _)]|]; discriminate.
        - destruct (_ <=? _); discriminate.
        - destruct (br_tx_rdy s); discriminate. }
      assert (DL : is_data (fst lv) = true).
      { destruct (is_data (fst lv)) eqn:E; [reflexivity|exfalso]. destruct (data_from lv a e D' E) as (h & x & H & _).
        assert (PH' : is_data (fst pv) = true \/ ~ sending (fst pv) /\ fst pv <> HLost /\ fst pv <> HHeader h).
        { unfold pr_phase in PH. rewrite FF in PH. destruct PH as (PH & _). rewrite PH. destruct (is_read _); [|destruct (_ =? 0)]; cbn; auto; right; repeat split; auto; discriminate. }
        destruct PH' as [PH'|(P1 & P2 & P3)].
        - destruct (PAST PH') as [PA' _]. rewrite H in PA'. exact PA'.
        - destruct Q7 as [[_ R]|[_ R]].
          + destruct (rxb ++ usq u) as [|z q]; [cbn in R; congruence|]. apply P1. apply (sents_sending (map bdata (z :: q))); [discriminate|]. rewrite <- R. exact V5.
          + destruct txb as [|z q]; [cbn in R; congruence|]. apply (gots_waiting (z :: q) lv); [discriminate|congruence|rewrite H; exact I]. }
      specialize (V7 FF DL). rewrite waited_snoc, EL. fold lv. rewrite DL, D'. cbn [andb].
      enough (answer_in (b_pr s) <= answer_in s' + 1) by lia.
      unfold answer_in. rewrite W, IS. rewrite IS in W. cbn [ist_next is_f] in W. cbn [ist_next is_i].
      unfold ist_fnext in W. set (j := ist_in _ _ _) in *. set (q := is_i (p_i (b_pr s))) in *.
      destruct (is_f (p_i (b_pr s))) eqn:FI; try discriminate.
      + destruct (_ && _) in W; discriminate.
      + destruct (ist_idle _) in W; discriminate.
      + (* the address is offered *) unfold ist_rdy_i in IR. rewrite FI in IR. fold q in IR. destruct IR as [_ [I1 I2]].
        assert (CT : cmd_taken q j = Some (CWrite (p_header (b_pr s)))).
        { unfold cmd_taken, j, ist_in, ist_wr, ist_rd, ist_is, pr_isink. rewrite I1, FI, FF. cbn. reflexivity. }
        destruct (rest_after period stretch oe HP q j (CWrite (p_header (b_pr s))) UP CN FR CT ltac:(discriminate) ltac:(discriminate)) as (R1 & R2 & R3).
        rewrite R1. unfold N. lia.
      + destruct (idle_dec (s_f q)) as [ID|ID].
        * assert (R0 : rest period q = 0) by (unfold rest; rewrite ID; reflexivity). rewrite R0.
          pose proof (rest_nonneg (i2c_next period stretch oe q j)) as RN.
          specialize (RN (upright_step period stretch oe HP q j UP) (counted_step period stretch oe q j CN)). lia.
        * apply (rest_step period stretch oe HP q j UP CN ID).
      + destruct (_ && _) in W; [destruct (is_last _)|]; discriminate.
      + destruct (ist_idle _) in W; discriminate.
  Qed.

  Lemma bridge_run ins : good_user limit (trace B ins) -> inv (trace B ins) (state B ins).
  Proof using HP.
    apply (run_inv_hyp B (good_user limit) inv).
    - intros t u. apply user_prefix.
    - constructor; cbn; try discriminate; try lia.
      + intros [|? ?] ? ? E; discriminate.
      + exists []. split; reflexivity.
      + exists [], []. do 2 (split; [reflexivity|]; split; [apply Forall_nil|]; split; [apply Nat.le_0_l|]). split; [left; split; reflexivity|]. intros [X|X]; discriminate.
    - intros t s i H1 H2. now apply bridge_step.
  Qed.
End Bridge.
