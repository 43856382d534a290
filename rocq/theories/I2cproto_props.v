(** Properties of I2CProto (C51, C52, C53, C87). *)
From Verif Require Import Stream I2c_model I2c_spec I2cstream_model I2cstream_spec I2cstream_proofs I2cproto_model I2cproto_spec I2cproto_proofs.
From Coq Require Import Lia.

(** C51, C52: with a host that has the data of a write ready by the time its address has
    been answered, and waits for the status of a read, the exchanges seen by the host are exactly the transactions performed on
    the I2C side, one after the other: the beats served by the I2CStream (with their
    error flags) and the bytes it read split into one segment per exchange, each of
    which is a correct execution of that exchange.  Nothing is left over when the host
    has no request outstanding, and the host never gets an answer out of place. *)
Theorem C51_exchanges : forall period stretch oe ins,
  let t := trace (i2c_proto period stretch oe) ins in
  good_host t ->
  let '(hs, log) := host_view (map po_io t) in
  hs <> HLost /\
  exists segs beats data,
    Forall2 (fun e g => executed e (fst g) (snd g)) log segs /\
    served (map po_i2c t) = concat (map fst segs) ++ beats /\
    emitted (map so_io (map po_i2c t)) = concat (map snd segs) ++ data /\
    (hs = HIdle -> beats = [] /\ data = []).
Proof.
  intros period stretch oe ins t HG. destruct (pr_inv_run period stretch oe ins HG) as (segs & xs & xd & H1 & H2 & H3 & H4).
  fold t in H1, H2, H3, H4. destruct (host_view (map po_io t)) as [hs log]. cbn [fst snd] in *.
  set (s := state _ ins) in *. clearbody s. unfold pr_phase in H4.
  assert (A : hs <> HLost /\ (hs = HIdle -> xs = [] /\ xd = [])).
  { destruct (p_f s).
    - destruct H4 as (-> & -> & -> & _). split; [discriminate|auto].
    - destruct H4 as (-> & _). split; discriminate.
    - destruct H4 as (-> & _). destruct (is_read _); [|destruct (p_length s =? 0)]; split; discriminate.
    - destruct H4 as (_ & -> & _). split; discriminate.
    - destruct H4 as (n & l & -> & _). split; discriminate.
    - destruct H4 as (n & -> & _). split; discriminate.
    - destruct H4 as (ds & _ & -> & _). split; discriminate.
    - destruct H4 as (_ & _ & _ & H4). destruct (is_read _).
      + destruct H4 as (n & -> & _). split; discriminate.
      + destruct H4 as (ds & -> & _). destruct (p_length s =? 0); split; discriminate.
    - destruct H4 as (_ & _ & H4). destruct (is_read _).
      + destruct H4 as (n & -> & _). split; discriminate.
      + destruct H4 as (ds & -> & _). split; discriminate. }
  destruct A. eauto 10.
Qed.

(** C51, C52: the I2CStream inside behaves as a lone one, and its sink obeys the stream
    rule; so what is served and delivered there is what happens on the bus (C47, C48). *)
Theorem C51_bus : forall period stretch oe ins,
  let t := map po_i2c (trace (i2c_proto period stretch oe) ins) in
  t = trace (i2c_stream period stretch oe)
        (map (fun o => (o_sink (so_io o), o_rready (so_io o), (ii_sda_pad (io_in (so_i2c o)), ii_scl_pad (io_in (so_i2c o))))) t).
Proof.
  intros period stretch oe ins t.
  refine (proj1 (part_trace (i2c_proto period stretch oe) (i2c_stream period stretch oe) _ p_i
    (fun s '(k, r, p) => (pr_isink s k, pr_irdy s r, p)) po_i2c _ eq_refl _ _ ins)).
  - intros s [[k r] [a b]]. reflexivity.
  - intros s [[k r] p]. cbn [i2c_proto cnext i2c_stream]. unfold pr_next. destruct s as [f h l u i]. cbn [p_f p_header p_length p_status p_i].
    destruct f; try reflexivity; repeat (match goal with |- context [if ?b then _ else _] => destruct b end; try reflexivity).
  - intros s [[k r] p]. reflexivity.
Qed.

Theorem C51_bus_stable : forall period stretch oe ins,
  let t := trace (i2c_proto period stretch oe) ins in
  good_host t -> stable_sink (map po_io t) -> stable_sink (map so_io (map po_i2c t)).
Proof.
  intros period stretch oe ins t HG HS x1 o o' x2 E HV HR. rewrite map_map in E.
  apply map_eq_app in E. destruct E as (t1 & w & E & E1 & E2).
  destruct w as [|q [|q' t2]]; try discriminate. injection E2 as <- <- _.
  pose proof (HS (map po_io t1) (po_io q) (po_io q') (map po_io t2)) as HU. rewrite E, map_app in HU. specialize (HU eq_refl).
  rewrite E in HG. destruct (HG t1 q _ eq_refl) as [_ HGq].
  apply good_prefix in HG.
  unfold t in E. apply trace_two in E. destruct E as (a & [[k r] p] & [[k' r'] p'] & b & -> & Ha & -> & ->).
  assert (HG' : good_host (trace (i2c_proto period stretch oe) a)) by (rewrite Ha; exact HG).
  destruct (pr_both_run period stretch oe a HG') as [(segs & xs & xd & _ & _ & _ & H4) HA]. rewrite Ha in H4, HA.
  unfold pr_addr in HA. set (ad := addressed t1) in *.
  set (hs := fst (host_view (map po_io t1))) in *. set (s := state _ a) in *.
  cbn [i2c_proto cout po_i2c po_io i2c_stream so_io o_sink o_sready cnext] in *. clearbody s hs ad.
  destruct s as [f h l u i]. unfold pr_phase in H4. unfold pr_rdy, pr_go, pr_isink in *. cbn [p_f p_header p_length p_status p_i] in *.
  unfold pr_next, pr_go, pr_isink in *. cbn [p_f p_header p_length p_status p_i] in *.
  destruct f; try discriminate HV; rewrite HR in *; cbn [p_f p_header p_length p_status p_i]; auto.
  destruct H4 as (ds & _ & -> & _). rewrite HU by auto. reflexivity.
Qed.

(** C51, spelled out for a single write: status 0 if every byte was acknowledged,
    status 1 otherwise, and which bytes went out. *)
Theorem C51_write : forall period stretch oe ins l1 h ds a l2,
  let t := trace (i2c_proto period stretch oe) ins in
  good_host t ->
  snd (host_view (map po_io t)) = l1 ++ Wrote h ds a :: l2 ->
  exists pre beats post, served (map po_i2c t) = pre ++ beats ++ post /\
    (a = [Beat false true 0] /\ beats = map (fun b => (b, false)) (write_beats (h :: ds)) \/
     a = [Beat false true 1] /\ exists good b rest, write_beats (h :: ds) = good ++ b :: rest /\
       beats = map (fun b => (b, false)) good ++ [(b, true)]).
Proof.
  intros period stretch oe ins l1 h ds a l2 t HG HL. pose proof (C51_exchanges period stretch oe ins HG) as H. fold t in H.
  destruct (host_view (map po_io t)) as [hs log]. cbn [snd] in HL. destruct H as (_ & segs & bs & dat & HF & HS & _). subst log.
  apply Forall2_app_inv_l in HF. destruct HF as (s1 & s2 & _ & HF & ->). inversion HF as [|? g ? s2' HX HF']; subst.
  rewrite map_app, concat_app in HS. cbn [map concat] in HS. exists (concat (map fst s1)), (fst g), (concat (map fst s2') ++ bs).
  split; [rewrite HS, <- !app_assoc; reflexivity|]. inversion HX; subst; [left|right]; eauto 10.
Qed.

(** C52, spelled out for a single read. *)
Theorem C52_read : forall period stretch oe ins l1 h n a l2,
  let t := trace (i2c_proto period stretch oe) ins in
  good_host t ->
  snd (host_view (map po_io t)) = l1 ++ Asked h n a :: l2 ->
  exists pre beats post preD data postD, served (map po_i2c t) = pre ++ beats ++ post /\
    emitted (map so_io (map po_i2c t)) = preD ++ data ++ postD /\
    (a = Beat false true 0 :: data /\ length data = Z.to_nat n /\
       beats = (Beat false false (false, h), false) :: map (fun b => (b, false)) (read_beats (Z.to_nat n)) \/
     a = [Beat false true 1] /\ data = [] /\ beats = [(Beat false false (false, h), true)]).
Proof.
  intros period stretch oe ins l1 h n a l2 t HG HL. pose proof (C51_exchanges period stretch oe ins HG) as H. fold t in H.
  destruct (host_view (map po_io t)) as [hs log]. cbn [snd] in HL. destruct H as (_ & segs & bs & dat & HF & HS & HD & _). subst log.
  apply Forall2_app_inv_l in HF. destruct HF as (s1 & s2 & _ & HF & ->). inversion HF as [|? g ? s2' HX HF']; subst.
  rewrite map_app, concat_app in HS, HD. cbn [map concat] in HS, HD.
  exists (concat (map fst s1)), (fst g), (concat (map fst s2') ++ bs), (concat (map snd s1)), (snd g), (concat (map snd s2') ++ dat).
  split; [rewrite HS, <- !app_assoc; reflexivity|]. split; [rewrite HD, <- !app_assoc; reflexivity|].
  inversion HX; subst; [left|right]; auto. split; auto. split; auto.
  assert (L : forall m, length (read_beats m) = m) by (induction m; cbn; auto).
  match goal with E : map blast _ = _ |- _ => apply (f_equal (@length _)) in E; rewrite !map_length, L in E; exact E end.
Qed.

(** Bytes for the host, offered until taken; then waiting. *)
Definition prb (x : Z) (sda : bool) : chan Z * bool * pads := (Chan true (Beat false false x), true, (sda, true)).
Definition prn (sda : bool) : chan Z * bool * pads := (Chan false (Beat false false 0), true, (sda, true)).

Fixpoint good_hostb (st : (host * list exchange) * bool) (t : list pr_obs) : bool :=
  match t with
  | [] => true
  | o :: r => let c := o_sink (po_io o) in
      (0 <=? bdata (cbeat c)) && (bdata (cbeat c) <? 256) &&
      match fst (fst st) with
      | HData _ _ _ => negb (snd st) || cvalid c
      | HStatusR _ n => negb (cvalid c) && negb (n =? 0)
      | _ => true
      end && good_hostb (addressed_step st o) r
  end.
Lemma good_hostb_ok t : good_hostb ((HIdle, []), false) t = true -> good_host t.
Proof.
  set (run := fun t => fold_left addressed_step t ((HIdle, []), false)).
  intros H. assert (G : forall t0 t, good_hostb (run t0) t = true -> forall t1 o t2, t = t1 ++ o :: t2 ->
    0 <= bdata (cbeat (o_sink (po_io o))) < 256 /\
    match fst (fst (run (t0 ++ t1))) with
    | HData _ _ _ => snd (run (t0 ++ t1)) = true -> cvalid (o_sink (po_io o)) = true
    | HStatusR _ n => cvalid (o_sink (po_io o)) = false /\ n <> 0
    | _ => True
    end).
  2: { intros t1 o t2 E. rewrite <- addressed_fst. apply (G [] t H t1 o t2 E). }
  clear. intros t0 t. revert t0. induction t as [|o t IH]; intros t0 H t1 q t2 E; [destruct t1; discriminate|].
  cbn [good_hostb] in H. cbv zeta in H. apply andb_true_iff in H. destruct H as [H H'].
  replace (addressed_step (run t0) o) with (run (t0 ++ [o])) in H' by (unfold run; now rewrite fold_left_app).
  destruct t1 as [|q1 t1]; cbn [app] in E; injection E as -> E.
  - rewrite app_nil_r. apply andb_true_iff in H. destruct H as [H H1]. apply andb_true_iff in H. destruct H as [H2 H3].
    split; [lia|]. destruct (fst (fst (run t0))); auto.
    + intros X. rewrite X in H1. exact H1.
    + apply andb_true_iff in H1. destruct H1 as [X Y]. apply negb_true_iff in X, Y. split; auto. now apply Z.eqb_neq.
  - replace (t0 ++ q1 :: t1) with ((t0 ++ [q1]) ++ t1) by (now rewrite <- app_assoc). apply IH with (t2 := t2); auto.
Qed.

Definition pr_script : list (chan Z * bool * pads) :=
  prn false :: prb 0x10 false :: prn false :: prn false :: prb 2 false :: repeat (prn false) 40 ++ repeat (prb 0x55 false) 122 ++ repeat (prb 0x66 false) 75 ++ repeat (prn false) 60 ++
  prb 0x11 false :: prb 2 false :: repeat (prn false) 380 ++
  prb 0x20 true :: prb 1 true :: repeat (prb 0x99 true) 82 ++ repeat (prn true) 60 ++
  prb 0x21 true :: prb 3 true :: repeat (prn true) 160.

(** A write of two bytes (with gaps after the header and after the length), a read of two
    bytes, a refused write and a refused read. *)
Example C51_nonvacuous :
  let t := trace (i2c_proto 4 false true) pr_script in
  good_host t /\ stable_sink (map po_io t) /\
  host_view (map po_io t) =
    (HIdle, [Wrote 0x10 [0x55; 0x66] [status_beat 0];
             Asked 0x11 2 [status_beat 0; Beat false false 0; Beat false true 0];
             Wrote 0x20 [0x99] [status_beat 1];
             Asked 0x21 3 [status_beat 1]]).
Proof.
  cbv zeta. split; [apply good_hostb_ok; vm_compute; reflexivity|]. split; [apply stable_sinkb_ok; vm_compute; reflexivity|].
  vm_compute. reflexivity.
Qed.

(** C53: idle gaps inside a request change what is done.  The data byte of a write comes
    late: a byte nobody sent (whatever the data lines hold) is written instead and status
    0 is returned before the data byte is taken (as the header of the next request). *)
Theorem C53_gaps_refuted :
  exists ins, let t := trace (i2c_proto 4 false true) ins in
    stable_sink (map po_io t) /\
    map bdata (accepted (map po_io t)) = [0x10; 1; 0x55] /\
    emitted (map po_io t) = [status_beat 0] /\
    commands (map so_i2c (map po_i2c t)) = [CStart; CWrite 0x10; CWrite 0; CStop] /\
    fst (host_view (map po_io t)) = HLost.
Proof.
  exists (prb 0x10 false :: prb 1 false :: repeat (prn false) 240 ++ [prb 0x55 false] ++ repeat (prn false) 40). cbv zeta.
  split; [apply stable_sinkb_ok; vm_compute; reflexivity|]. vm_compute. auto.
Qed.

(** C53: nor are queued requests safe.  After a refused read of n bytes the next n bytes,
    here the whole next request, are thrown away: it gets no answer. *)
Theorem C53_queue_refuted :
  exists ins, let t := trace (i2c_proto 4 false true) ins in
    stable_sink (map po_io t) /\
    map bdata (accepted (map po_io t)) = [0x11; 2; 0x20; 0] /\
    emitted (map po_io t) = [status_beat 1] /\
    commands (map so_i2c (map po_i2c t)) = [CStart; CWrite 0x11; CStop] /\
    p_f (state (i2c_proto 4 false true) ins) = PHeader.
Proof.
  exists (prb 0x11 true :: prb 2 true :: repeat (prb 0x20 true) 82 ++ [prb 0 true] ++ repeat (prn true) 200). cbv zeta.
  split; [apply stable_sinkb_ok; vm_compute; reflexivity|]. vm_compute. auto.
Qed.

(** C53, what does hold: gaps of any length between requests, inside a request up to the
    moment its address has been answered on the bus, and any back-pressure on the answers,
    leave host and core in step; the answers are those of C51_exchanges. *)
Theorem C53_gaps_partial : forall period stretch oe ins,
  let t := trace (i2c_proto period stretch oe) ins in
  good_host t -> fst (host_view (map po_io t)) <> HLost.
Proof.
  intros period stretch oe ins t HG. pose proof (C51_exchanges period stretch oe ins HG) as H. fold t in H.
  destruct (host_view (map po_io t)) as [hs log]. apply H.
Qed.

(** C87: a read of 0 bytes is not answered by its status alone: bytes are read (in a
    transaction of their own, without address) and returned. *)
Theorem C87_zero_read_refuted :
  exists ins, let t := trace (i2c_proto 4 false true) ins in
    stable_sink (map po_io t) /\
    map bdata (accepted (map po_io t)) = [0x11; 0] /\
    emitted (map po_io t) = [status_beat 0; Beat false false 0; Beat false false 0] /\
    commands (map so_i2c (map po_i2c t)) = [CStart; CWrite 0x11; CStop; CStart; CRead true; CRead true; CRead true].
Proof.
  exists (prb 0x11 false :: prb 0 false :: repeat (prn false) 300). cbv zeta.
  split; [apply stable_sinkb_ok; vm_compute; reflexivity|]. vm_compute. auto.
Qed.

(** It has an accepted and a refused read, and ends with the host and the core in step. *)
Example C52_nonvacuous_reads :
  let t := trace (i2c_proto 4 false true) pr_script in
  good_host t /\ fst (host_view (map po_io t)) = HIdle /\
  (exists l1 l2, snd (host_view (map po_io t)) = l1 ++ Asked 0x11 2 [status_beat 0; Beat false false 0; Beat false true 0] :: l2) /\
  (exists l1 l2, snd (host_view (map po_io t)) = l1 ++ Asked 0x21 3 [status_beat 1] :: l2).
Proof.
  cbv zeta. pose proof C51_nonvacuous as (H1 & _ & H2). cbv zeta in H1, H2. split; [exact H1|]. rewrite H2. split; [reflexivity|].
  split; [eexists [_], _; reflexivity|eexists [_; _; _], []; reflexivity].
Qed.
Definition C53_nonvacuous := C52_nonvacuous_reads.

Print Assumptions C51_exchanges.
Print Assumptions C51_bus.
Print Assumptions C51_bus_stable.
Print Assumptions C51_write.
Print Assumptions C52_read.
Print Assumptions C53_gaps_refuted.
Print Assumptions C53_queue_refuted.
Print Assumptions C53_gaps_partial.
Print Assumptions C87_zero_read_refuted.

(** The same run has a read and a refused read. *)
Definition C52_nonvacuous := C51_nonvacuous.
