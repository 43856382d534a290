(** Properties C36 (StreamRegs) and C76 (LiteX StreamRegs / RegsStream). *)
From Verif Require Import Stream Bits Regs_model Regs_spec Regs_proofs.

(** Beats accepted by the sink in a trace. *)
Definition sr_accepted {A} (t : list (sr_obs A)) : list (beat A) :=
  flat_map (fun o => xfer (sro_sink o) (sro_ready o)) t.
Definition lr_accepted (t : list lr_obs) : list (beat Z) :=
  flat_map (fun o => xfer (lro_sink o) (lro_ready o)) t.

Lemma sr_accepted_taken {A} (d0 : A) n ins :
  sr_accepted (trace (stream_regs d0 n) ins) = taken (map sro_sink (trace (stream_regs d0 n) ins)).
Proof.
  apply (run_inv (stream_regs d0 n) (fun t _ => sr_accepted t = taken (map sro_sink t))); [reflexivity|].
  intros t s c IH. unfold sr_accepted in *. rewrite flat_map_app, map_app. cbn [map flat_map]. rewrite taken_snoc, IH. cbn. now rewrite app_nil_r.
Qed.
Lemma lr_accepted_taken n by_ rev ins :
  lr_accepted (trace (litex_stream_regs n by_ rev) ins) = taken (map lro_sink (trace (litex_stream_regs n by_ rev) ins)).
Proof.
  apply (run_inv (litex_stream_regs n by_ rev) (fun t _ => lr_accepted t = taken (map lro_sink t))); [reflexivity|].
  intros t s c IH. unfold lr_accepted in *. rewrite flat_map_app, map_app. cbn [map flat_map]. rewrite taken_snoc, IH. cbn. now rewrite app_nil_r.
Qed.

(** C36.  In any cycle of any execution the sink is ready and every register holds
    the payload of the latest earlier beat whose position in its packet is the
    register's own (reset value if there is none). *)
Theorem C36_stream_regs_contents : forall A (d0 : A) length ins t1 o t2 k, 1 <= length ->
  trace (stream_regs d0 length) ins = t1 ++ o :: t2 ->
  sro_ready o = true /\ register_holds length d0 k (sr_accepted t1) (sro_regs o k).
Proof.
  intros A d0 n ins t1 o t2 k Hn H. apply trace_one in H. destruct H as (a & c & b & -> & <- & ->).
  destruct (sr_inv_run d0 n a Hn) as (_ & H2 & _). split; [reflexivity|].
  rewrite sr_accepted_taken. apply H2.
Qed.

(** The write strobe of register [k] is high exactly in the cycle after a beat that
    went to [k]. *)
Theorem C36_stream_regs_strobe : forall A (d0 : A) length ins t1 o o' t2 k, 1 <= length ->
  trace (stream_regs d0 length) ins = t1 ++ o :: o' :: t2 ->
  (sro_we o' k = true <-> cvalid (sro_sink o) = true /\ slot length (sr_accepted t1) = k).
Proof.
  intros A d0 n ins t1 o o' t2 k Hn H.
  change (t1 ++ o :: o' :: t2) with (t1 ++ [o] ++ o' :: t2) in H. rewrite app_assoc in H.
  apply trace_one in H. destruct H as (a & c & b & -> & Ht & ->).
  destruct (sr_inv_run d0 n a Hn) as (_ & _ & H3). cbn [stream_regs cout sro_we]. rewrite H3, Ht.
  assert (E : sr_accepted t1 = taken (map sro_sink t1)).
  { symmetry in Ht. pose proof Ht as Ht'. symmetry in Ht'. unfold trace in Ht'.
    apply trace_cut_from in Ht'. destruct Ht' as (a1 & b1 & -> & <- & _). apply sr_accepted_taken. }
  rewrite E. split.
  - intros (t0 & p & E1 & E2 & E3). apply app_inj_tail in E1. destruct E1 as [-> ->]. auto.
  - intros [E1 E2]. exists t1, o. auto.
Qed.

(** The specification determines the value, so the theorem above is exact. *)
Theorem C36_register_value_unique : forall A length (d0 : A) k h v w,
  register_holds length d0 k h v -> register_holds length d0 k h w -> v = w.
Proof. intros. eapply register_holds_fun; eauto. Qed.

Example C36_nonvacuous :
  let c v l d := Chan v (Beat false l d) in
  let t := trace (stream_regs 0 2) [c true false 5; c true false 6; c true false 7; c false false 9;
                                    c true true 8; c true true 3; c false false 0] in
  map (fun o => (sro_regs o 0, sro_regs o 1, sro_we o 0, sro_we o 1)) t =
  [(0,0,false,false); (5,0,true,false); (5,6,false,true); (7,6,true,false); (7,6,false,false);
   (7,8,false,true); (3,8,true,false)].
Proof. reflexivity. Qed.

(** C76, StreamRegs: same contents, byte reversed when asked, and the event is
    triggered exactly in the cycles where a beat with last is taken. *)
Theorem C76_litex_stream_regs : forall depth bytes reverse ins t1 o t2 k, 1 <= depth ->
  trace (litex_stream_regs depth bytes reverse) ins = t1 ++ o :: t2 ->
  lro_ready o = true /\
  (lro_trigger o = true <-> exists b, xfer (lro_sink o) (lro_ready o) = [b] /\ blast b = true) /\
  register_holds depth 0 k
    (map (fun b => Beat (bfirst b) (blast b) (if reverse then reverse_bytes bytes (bdata b) else bdata b))
         (lr_accepted t1))
    (lro_regs o k).
Proof.
  intros n by_ rev ins t1 o t2 k Hn H. apply trace_one in H. destruct H as (a & c & b & -> & <- & ->).
  destruct (lr_inv_run n by_ rev a Hn) as (_ & H2). split; [reflexivity|]. split.
  - cbn [litex_stream_regs cout lro_trigger lro_sink lro_ready]. unfold xfer. rewrite andb_true_r. split.
    + intros H. apply andb_true_iff in H. destruct H as [-> H]. eauto.
    + intros (x & H1 & H3). destruct (cvalid c); [|discriminate]. injection H1 as <-. auto.
  - rewrite lr_accepted_taken. apply H2.
Qed.

(** The byte reversal: byte i of the result is byte n-1-i of the value. *)
Theorem C76_reverse_bytes : forall n x i j, 0 <= j < 8 -> 0 <= i < Z.of_nat n ->
  0 <= reverse_bytes n x < 2 ^ (8 * Z.of_nat n) /\
  Z.testbit (reverse_bytes n x) (8 * i + j) = Z.testbit x (8 * (Z.of_nat n - 1 - i) + j).
Proof. intros. split; [apply reverse_bytes_range|now apply reverse_bytes_testbit]. Qed.

(** C76, RegsStream: a CSR write of the data register offers, in the next cycle and
    only then, one beat with that data and the value of the last register. *)
Theorem C76_regs_stream_offer : forall depth ins t1 o o' t2,
  trace (regs_stream depth) ins = t1 ++ o :: o' :: t2 ->
  cvalid (rso_push o') = (match rso_wdata o with Some _ => true | None => false end) /\
  (forall d, rso_wdata o = Some d -> bdata (cbeat (rso_push o')) = d) /\
  (forall l, rso_wlast o = Some l -> blast (cbeat (rso_push o')) = l) /\
  (rso_wlast o = None -> blast (cbeat (rso_push o')) = blast (cbeat (rso_push o))).
Proof.
  intros n ins t1 o o' t2 H. apply trace_two in H. destruct H as (a & i & i' & b & -> & <- & -> & ->).
  cbn. destruct (ri_data i), (ri_last i); repeat split; intros; congruence.
Qed.

(** What is accepted by the FIFO comes out once, in order; at most depth+1 beats are
    inside and an offer is refused only when depth or more are. *)
Theorem C76_regs_stream_lossless : forall depth ins t1 o t2, 0 <= depth ->
  trace (regs_stream depth) ins = t1 ++ o :: t2 ->
  exists held,
    flat_map (fun o => xfer (rso_push o) (rso_pready o)) t1 =
    flat_map (fun o => xfer (rso_src o) (rso_rready o)) t1 ++ held /\
    Z.of_nat (length held) <= depth + 1 /\
    (rso_pready o = false -> depth <= Z.of_nat (length held)) /\
    (cvalid (rso_src o) = true -> exists r, held = cbeat (rso_src o) :: r).
Proof.
  intros n ins t1 o t2 Hn H. apply trace_one in H. destruct H as (a & i & b & -> & <- & ->).
  destruct (rs_inv_run n a Hn) as [H1 H2]. set (s := state _ a) in *. clearbody s. exists (rs_held s). split; [exact H1|].
  unfold rs_held. rewrite app_length. cbn [regs_stream cout rso_pready rso_src]. unfold rs_pready, rs_src.
  destruct (rs_out s) as [x|]; cbn [length cvalid cbeat app].
  - split; [lia|]. split; [rewrite negb_false_iff, Z.eqb_eq; lia|]. eauto.
  - split; [lia|]. split; [rewrite negb_false_iff, Z.eqb_eq; lia|]. discriminate.
Qed.

Lemma rs_q_short n a : Forall (fun i => ri_ready i = true) a -> (length (rs_q (state (regs_stream n) a)) <= 1)%nat.
Proof.
  intros HF. induction a as [|x a IH] using rev_ind; [cbn; lia|]. apply Forall_app in HF. destruct HF as [HF1 HF2].
  specialize (IH HF1). unfold state in *. rewrite state_from_app. set (s := state_from _ _ a) in *. clearbody s.
  cbn [state_from regs_stream cnext]. unfold rs_next. cbn [rs_q]. rewrite (Forall_inv HF2).
  replace (match rs_out s with None => true | Some _ => true end) with true by (destruct (rs_out s); auto).
  rewrite app_length. unfold xfer. destruct (_ && _), (rs_q s); cbn in *; lia.
Qed.
(** Without back-pressure nothing is ever refused: if the consumer is always ready
    every CSR write (after the first cycle, before the last) comes out. *)
Theorem C76_regs_stream_never_full : forall depth ins o, 2 <= depth ->
  Forall (fun i => ri_ready i = true) ins ->
  In o (trace (regs_stream depth) ins) -> rso_pready o = true.
Proof.
  intros n ins o Hn HF Hin. apply in_split in Hin. destruct Hin as (t1 & t2 & E).
  apply trace_one in E. destruct E as (a & i & b & -> & _ & ->). apply Forall_app in HF. destruct HF as [HF _].
  assert (HQ : (length (rs_q (state (regs_stream n) a)) <= 1)%nat) by (apply rs_q_short; assumption).
  cbn [regs_stream cout rso_pready]. unfold rs_pready. rewrite negb_true_iff, Z.eqb_neq. lia.
Qed.

(** The CSR writes of the data register, each with the value the last register has after that
    cycle. *)
Fixpoint csr_writes (last : bool) (t : list rs_obs) : list (beat Z) :=
  match t with
  | [] => []
  | o :: t => let last := match rso_wlast o with Some l => l | None => last end in
              match rso_wdata o with Some d => [Beat false last d] | None => [] end ++ csr_writes last t
  end.
Lemma csr_writes_snoc t l0 : exists l', (forall o, csr_writes l0 (t ++ [o]) =
     csr_writes l0 t ++ match rso_wdata o with Some d => [Beat false (match rso_wlast o with Some l => l | None => l' end) d] | None => [] end) /\
   fold_left (fun l o => match rso_wlast o with Some l => l | None => l end) t l0 = l'.
Proof.
  revert l0. induction t as [|x t IH]; intros l; cbn [app csr_writes fold_left].
  - exists l. split; [|reflexivity]. intros o. now rewrite app_nil_r.
  - destruct (IH (match rso_wlast x with Some l => l | None => l end)) as (l' & A & B). exists l'. split; [|exact B]. intros o. now rewrite A, app_assoc.
Qed.
Lemma rs_offered depth ins :
  let t := trace (regs_stream depth) ins in let s := state (regs_stream depth) ins in
  flat_map (fun o => xfer (rso_push o) true) t ++ xfer (rs_push s) true = csr_writes false t /\
  rs_last s = fold_left (fun l o => match rso_wlast o with Some l => l | None => l end) t false.
Proof.
  cbv zeta. apply (run_inv (regs_stream depth) (fun t s => flat_map (fun o => xfer (rso_push o) true) t ++ xfer (rs_push s) true = csr_writes false t /\
     rs_last s = fold_left (fun l o => match rso_wlast o with Some l => l | None => l end) t false)); [split; reflexivity|].
  intros t s i [A B]. destruct (csr_writes_snoc t false) as (l & C & D). rewrite C, <- A, fold_left_app, D, flat_map_app. rewrite D in B.
  cbn [flat_map fold_left regs_stream cout cnext rso_wdata rso_wlast rso_push]. rewrite app_nil_r. unfold rs_push, rs_next, xfer. cbn [rs_re rs_last rs_data cvalid cbeat]. rewrite B. split; [|reflexivity].
  destruct (ri_data i), (rs_re s); cbn [andb]; rewrite ?app_nil_r, <- ?app_assoc; reflexivity.
Qed.
(** C76: every CSR write is offered to the FIFO exactly once, in order, and nothing else is. *)
Theorem C76_regs_stream_writes : forall depth ins t1 o t2,
  trace (regs_stream depth) ins = t1 ++ o :: t2 ->
  flat_map (fun o => xfer (rso_push o) true) (t1 ++ [o]) = csr_writes false t1.
Proof.
  intros n ins t1 o t2 H. apply trace_one in H. destruct H as (a & i & b & -> & <- & ->). rewrite flat_map_app. cbn [flat_map]. rewrite app_nil_r. apply rs_offered.
Qed.
(** C76: with a consumer that is always ready, what comes out is what was written, in order, save
    the last writes, at most three, which are still on their way. *)
Theorem C76_regs_stream_delivers : forall depth ins t1 t2, 2 <= depth ->
  Forall (fun i => ri_ready i = true) ins -> trace (regs_stream depth) ins = t1 ++ t2 ->
  exists rest, csr_writes false t1 = flat_map (fun o => xfer (rso_src o) (rso_rready o)) t1 ++ rest /\ (length rest <= 3)%nat.
Proof.
  intros n ins t1 t2 Hn HF H. 
  assert (K : exists a b, ins = a ++ b /\ t1 = trace (regs_stream n) a).
  { exists (firstn (length t1) ins), (skipn (length t1) ins). split; [symmetry; apply firstn_skipn|].
    assert (L : length (firstn (length t1) ins) = length t1).
    { rewrite firstn_length. assert (E : length (trace (regs_stream n) ins) = length (t1 ++ t2)) by now rewrite H. unfold trace in E. rewrite trace_from_length, app_length in E. lia. }
    rewrite <- (firstn_skipn (length t1) ins) in H at 1. rewrite trace_app in H. apply (f_equal (firstn (length t1))) in H.
    rewrite !firstn_app in H. unfold trace in H at 2. rewrite trace_from_length, L, Nat.sub_diag, !firstn_O, !app_nil_r, firstn_all in H.
    etransitivity; [symmetry; exact H|]. apply firstn_all2. unfold trace. rewrite trace_from_length. lia. }
  destruct K as (a & b & -> & ->). apply Forall_app in HF. destruct HF as [HF _].
  destruct (rs_offered n a) as [O _]. destruct (rs_inv_run n a ltac:(lia)) as [H1 H2].
  assert (E : flat_map (fun o => xfer (rso_push o) (rso_pready o)) (trace (regs_stream n) a) = flat_map (fun o => xfer (rso_push o) true) (trace (regs_stream n) a)).
  { rewrite !flat_map_concat_map. f_equal. apply map_ext_in. intros o Ho. now rewrite (C76_regs_stream_never_full n a o Hn HF Ho). }
  assert (HQ : (length (rs_q (state (regs_stream n) a)) <= 1)%nat) by (apply rs_q_short; assumption).
  rewrite <- O, <- E. change (flat_map (fun o => xfer (rso_push o) (rso_pready o)) (trace (regs_stream n) a)) with (rs_pushed (trace (regs_stream n) a)). rewrite H1, <- app_assoc. eexists. split; [reflexivity|]. unfold rs_held. rewrite !app_length. unfold xfer. destruct (rs_out _), (_ && _); cbn [length]; lia.
Qed.

(** ... but when the FIFO is full a write is dropped without notice, which is why
    the property is limited to "while the FIFO has room". *)
Example C76_nonvacuous :
  let w d l := RsIn (Some d) (Some l) false in
  let t := trace (regs_stream 2) [w 1 false; w 2 false; w 3 true; w 4 false; w 5 true; RsIn None None true;
                                  RsIn None None true; RsIn None None true; RsIn None None true] in
  map rso_pready t = [true; true; true; true; false; false; true; true; true] /\
  flat_map (fun o => xfer (rso_src o) (rso_rready o)) t = [Beat false false 1; Beat false false 2; Beat false true 3].
Proof. split; reflexivity. Qed.
Example C76_nonvacuous_delivers :
  let w d l := RsIn (Some d) l true in let r := RsIn None None true in
  let ins := [w 1 None; w 2 (Some true); w 3 None; r; r; r] in
  Forall (fun i => ri_ready i = true) ins /\ csr_writes false (trace (regs_stream 2) ins) = [Beat false false 1; Beat false true 2; Beat false true 3] /\
  flat_map (fun o => xfer (rso_src o) (rso_rready o)) (trace (regs_stream 2) ins) = [Beat false false 1; Beat false true 2; Beat false true 3].
Proof. cbv zeta. split; [repeat constructor|]. split; reflexivity. Qed.

Example C76_nonvacuous_regs :
  let c v l d := Chan v (Beat false l d) in
  map (fun o => (lro_regs o 0, lro_regs o 1, lro_trigger o))
      (trace (litex_stream_regs 2 2 true) [c true false 0x1234; c true true 0x5678; c true true 1; c false false 0]) =
  [(0, 0, false); (0x3412, 0, true); (0x3412, 0x7856, true); (0x100, 0x7856, false)].
Proof. reflexivity. Qed.

Print Assumptions C36_stream_regs_contents.
Print Assumptions C36_stream_regs_strobe.
Print Assumptions C36_register_value_unique.
Print Assumptions C76_litex_stream_regs.
Print Assumptions C76_reverse_bytes.
Print Assumptions C76_regs_stream_offer.
Print Assumptions C76_regs_stream_lossless.
Print Assumptions C76_regs_stream_never_full.
Print Assumptions C76_regs_stream_writes.
Print Assumptions C76_regs_stream_delivers.
