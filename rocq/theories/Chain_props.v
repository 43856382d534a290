(** C136: any pipeline of buffering stages is itself a buffer. *)
From Verif Require Import Stream Bits Pipe_model Fifo_model Pipe_proofs Fifo_proofs Chain_model.

(** ** Specification: what a stage can hold, and how long it may keep a beat to itself. *)
Definition stage_places (s : stage) : Z :=
  match s with StPipeValid | StPipeReady => 1 | StSyncFIFO depth _ => Z.max 8 depth | StIdentity => 0 end.
Definition stage_delay (s : stage) : nat := match s with StSyncFIFO _ true => 2 | _ => 1 end.
Fixpoint places (l : list stage) : Z := match l with [] => 0 | s :: l => stage_places s + places l end.
Fixpoint delay (l : list stage) : nat := match l with [] => 0 | s :: l => stage_delay s + delay l end.

(** ** Buffers, one step at a time *)
Record buffer (ok : beat Z -> Prop) (n : Z) (L : nat) (m : smod Z Z) := Buffer {
  b_inv : st m -> Prop;
  b_con : st m -> list (beat Z);
  b_rank : st m -> nat;
  b_inv0 : b_inv (st0 m);
  b_con0 : b_con (st0 m) = [];
  b_len : forall s, b_inv s -> Z.of_nat (length (b_con s)) <= n;
  b_ok : forall s, b_inv s -> Forall ok (b_con s);
  b_step : forall s c r, b_inv s -> Forall ok (xfer c (rdy m s c r)) ->
    b_inv (nxt m s c r) /\ b_con s ++ xfer c (rdy m s c r) = xfer (src m s c) r ++ b_con (nxt m s c r);
  b_stable : forall s c c', b_inv s -> cvalid (src m s c) = true ->
    (cvalid c = true -> rdy m s c false = false -> c' = c) -> src m (nxt m s c false) c' = src m s c;
  b_take : forall s c r, b_inv s -> b_con s = [] -> cvalid c = true -> rdy m s c r = true \/ cvalid (src m s c) = true;
  b_rankle : forall s, (b_rank s <= L)%nat;
  b_go : forall s c r, b_inv s -> Forall ok (xfer c (rdy m s c r)) -> b_con s <> [] -> cvalid (src m s c) = true \/ (b_rank (nxt m s c r) < b_rank s)%nat }.

Lemma xfer_ok_not {A} (c : chan A) r : cvalid c = false -> xfer c r = [].
Proof. unfold xfer. intros ->. reflexivity. Qed.

Lemma buffer_compose ok n1 n2 L1 L2 m1 m2 : buffer ok n1 L1 m1 -> buffer ok n2 L2 m2 ->
  buffer ok (n1 + n2) (L1 + 1 + L2) (compose m1 m2).
Proof.
  intros [I1 C1 R1 i1 c1 l1 o1 s1 t1 k1 r1 g1] [I2 C2 R2 i2 c2 l2 o2 s2 t2 k2 r2 g2].
  assert (MID : forall s c r, I1 s -> Forall ok (xfer c (rdy m1 s c r)) -> Forall ok (xfer (src m1 s c) r)).
  { intros s c r Hi Ho. destruct (s1 s c r Hi Ho) as [_ E]. assert (Forall ok (C1 s ++ xfer c (rdy m1 s c r))) as H by (apply Forall_app; auto).
    rewrite E in H. now apply Forall_app in H. }
  refine (Buffer ok _ _ (compose m1 m2) (fun s => I1 (fst s) /\ I2 (snd s)) (fun s => C2 (snd s) ++ C1 (fst s))
    (fun s => match C2 (snd s) with [] => L2 + 1 + R1 (fst s) | _ => R2 (snd s) end)%nat _ _ _ _ _ _ _ _ _); cbn [compose st st0 src rdy nxt fst snd].
  - auto.
  - now rewrite c1, c2.
  - intros [a b] [Ha Hb]. cbn [fst snd] in *. rewrite app_length. specialize (l1 a Ha). specialize (l2 b Hb). lia.
  - intros [a b] [Ha Hb]. apply Forall_app. auto.
  - intros [a b] c r [Ha Hb] Ho. cbn [fst snd] in *. destruct (s1 a c _ Ha Ho) as [Ha' E1].
    destruct (s2 b (src m1 a c) r Hb (MID _ _ _ Ha Ho)) as [Hb' E2]. split; [auto|].
    rewrite <- app_assoc, E1, !app_assoc, E2. reflexivity.
  - intros [a b] c c' [Ha Hb] Hv Hk. cbn [fst snd] in *. apply t2; auto. intros V R. rewrite R in *. now apply t1.
  - intros [a b] c r [Ha Hb] E V. cbn [fst snd] in *. apply app_eq_nil in E. destruct E as [Eb Ea].
    destruct (k1 a c (rdy m2 b (src m1 a c) r) Ha Ea V) as [H|H]; [auto|].
    destruct (k2 b (src m1 a c) r Hb Eb H) as [H'|H']; [|auto]. rewrite H'. destruct (k1 a c true Ha Ea V) as [K|K]; [auto|].
    destruct (rdy m1 a c true) eqn:Er; [auto|].
    (* offered by the first stage, taken by the second, yet not accepted: impossible *)
    exfalso. destruct (s1 a c true Ha) as [_ E1]; [rewrite Er; unfold xfer; rewrite andb_false_r; constructor|].
    rewrite Er, Ea in E1. unfold xfer in E1. rewrite H, andb_false_r in E1. discriminate.
  - intros [a b]. cbn [fst snd]. specialize (r1 a). specialize (r2 b). destruct (C2 b); lia.
  - intros [a b] c r [Ha Hb] Ho NE. cbn [fst snd] in *.
    pose proof (MID _ _ _ Ha Ho) as OKm. destruct (s1 a c _ Ha Ho) as [_ E1]. destruct (s2 b _ r Hb OKm) as [_ E2].
    set (mid := src m1 a c) in *. set (r' := rdy m2 b mid r) in *.
    destruct (cvalid (src m2 b mid)) eqn:V; [auto|right]. rewrite (xfer_ok_not _ _ V) in E2. cbn [app] in E2. rewrite <- E2.
    destruct (C2 b) as [|x l] eqn:Eb.
    + assert (Ea : C1 a <> []) by (intros K; now rewrite K in NE). cbn [app]. destruct (g1 a c r' Ha Ho Ea) as [H|H].
      * fold mid in H. destruct (k2 b mid r Hb Eb H) as [K|K]; [|congruence]. fold r' in K. unfold xfer. rewrite H, K. cbn.
        specialize (r2 (nxt m2 b mid r)). lia.
      * unfold xfer. destruct (cvalid mid) eqn:Vm; [destruct r' eqn:Er|]; cbn [andb].
        -- specialize (r2 (nxt m2 b mid r)). lia.
        -- lia.
        -- lia.
    + cbn [app]. destruct (g2 b mid r Hb OKm) as [K|K]; [rewrite Eb; discriminate|congruence|lia].
Qed.

(** ** The stages are buffers *)
Section Stages.
  Context (pw : Z) (Hpw : 0 <= pw).
  Definition inrange (b : beat Z) : Prop := 0 <= bdata b < 2 ^ pw.
  Lemma buffer_identity : buffer inrange 0 0 identity_conv.
  Proof.
    refine (Buffer _ _ _ identity_conv (fun _ => True) (fun _ => []) (fun _ => O) _ _ _ _ _ _ _ _ _); cbn; auto; try lia.
    - intros _ c r _ _. now rewrite app_nil_r.
  Qed.
  Lemma buffer_valid : buffer inrange 1 0 (pipe_valid 0).
  Proof.
    refine (Buffer _ _ _ (pipe_valid 0) (fun s => Forall inrange (chan_list s)) chan_list (fun _ => O) _ _ _ _ _ _ _ _ _); cbn; auto.
    - intros [[] b] _; cbn; lia.
    - intros [[] b] [[] b'] [] Hi Ho; unfold xfer, pv_en, chan_list in *; cbn in *; rewrite ?app_nil_r; auto.
    - intros [v b] c c' _; cbn. intros -> _. reflexivity.
    - intros [[] b] [v b'] r _ E; cbn in *; [discriminate|auto].
    - intros [[] b] c r _ _ E; cbn in *; [auto|congruence].
  Qed.
  Lemma buffer_ready : buffer inrange 1 0 (pipe_ready 0).
  Proof.
    refine (Buffer _ _ _ (pipe_ready 0) (fun s => pr_inv s /\ Forall inrange (pr_list s)) pr_list (fun _ => O) _ _ _ _ _ _ _ _ _); cbn; auto.
    - split; [discriminate|constructor].
    - intros [[] b] _; cbn; lia.
    - intros s [_ H]; exact H.
    - intros [v [kv kb]] [cv cb] r [Hi Hl] Ho. unfold pr_inv, pr_list, xfer in *. cbn in *.
      destruct v; [rewrite Hi by reflexivity|]; destruct r, cv; cbn in *; rewrite ?app_nil_r; split; auto; split; auto; discriminate.
    - intros [v [kv kb]] [cv cb] c' [Hi _] H _; unfold pr_inv in *; cbn in *.
      destruct v; cbn in *; [rewrite Hi by reflexivity|subst]; cbn; try reflexivity. now destruct cv.
    - intros [[] b] c r _ E; cbn in *; [discriminate|auto].
    - intros [[] [kv kb]] c r [Hi _] _ E; unfold pr_inv in *; cbn in *; [rewrite Hi; auto|congruence].
  Qed.
  Lemma unpack_range w : inrange (fifo_unpack pw w).
  Proof. unfold inrange, fifo_unpack. cbn. apply Z.mod_pos_bound. apply Z.pow_pos_nonneg; lia. Qed.
  Lemma unpack_all l : Forall inrange (map (fifo_unpack pw) l).
  Proof. apply Forall_forall. intros b Hb. apply in_map_iff in Hb. destruct Hb as (w & <- & _). apply unpack_range. Qed.
  Lemma buffer_fifo d : 1 <= d -> buffer inrange d 0 (fifo_wrapper pw (sync_fifo d)).
  Proof.
    intros Hd. refine (Buffer _ _ _ (fifo_wrapper pw (sync_fifo d)) (fun q : list Z => Z.of_nat (length q) <= d) (fun q : list Z => map (fifo_unpack pw) q) (fun _ => O) _ _ _ _ _ _ _ _ _); cbn; auto; try lia.
    - intros q H. now rewrite map_length.
    - intros q _. apply unpack_all.
    - intros q c r Hi Ho. rewrite app_length. split.
      + destruct (Z.eqb_spec (Z.of_nat (length q)) d); rewrite ?andb_false_r, ?andb_true_r; cbn [negb]; destruct r, (cvalid c), q; cbn in *; lia.
      + unfold xfer in *. rewrite map_app. destruct (cvalid c && negb (Z.of_nat (length q) =? d)) eqn:E; cbn.
        * rewrite pack_unpack by (auto; now inversion Ho). destruct q, r; reflexivity.
        * destruct q, r; reflexivity.
    - intros q c c' _ V _. destruct q; [discriminate|reflexivity].
    - intros q c r _ E V. destruct q; [|discriminate]. left. cbn. destruct d; cbn; auto; lia.
    - intros q c r _ _ E. destruct q; [cbn in E; congruence|auto].
  Qed.
  Lemma buffer_fifob d : 2 <= d -> buffer inrange d 1 (fifo_wrapper pw (sync_fifo_buffered d)).
  Proof.
    intros Hd. refine (Buffer _ _ _ (fifo_wrapper pw (sync_fifo_buffered d)) (sfb_inv d) (fun s => map (fifo_unpack pw) (sfb_content s))
      (fun s : list Z * option Z => match snd s with None => 1%nat | _ => O end) _ _ _ _ _ _ _ _ _); cbn; auto; try lia.
    - unfold sfb_inv; cbn; lia.
    - intros [q o] H. unfold sfb_inv in H. rewrite map_length. unfold sfb_content. cbn in *. destruct o; cbn; lia.
    - intros s _. apply unpack_all.
    - intros [q o] c r Hi Ho. unfold sfb_inv, sfb_content, xfer in *. cbn in *. split.
      + destruct (Z.eqb_spec (Z.of_nat (length q)) (d - 1)); rewrite ?andb_false_r, ?andb_true_r; cbn [negb];
        destruct o, r, (cvalid c), q; cbn in *; rewrite ?app_length; cbn in *; lia.
      + destruct (cvalid c && negb (Z.of_nat (length q) =? d - 1)) eqn:E.
        * assert (EU : fifo_unpack pw (fifo_pack pw (cbeat c)) = cbeat c) by (apply pack_unpack; auto; now inversion Ho).
          destruct o, r, q; cbn; rewrite ?map_app, ?app_nil_r; cbn; rewrite ?EU; reflexivity.
        * destruct o, r, q; cbn; rewrite ?app_nil_r; reflexivity.
    - intros [q o] c c' _ V _. cbn in *. destruct o; [reflexivity|discriminate].
    - intros [q o] c r _ E V. unfold sfb_content in E. cbn in *. destruct o; [discriminate|]. destruct q; [|discriminate]. left. change (negb (0 =? d - 1) = true). rewrite (proj2 (Z.eqb_neq 0 (d - 1))) by lia. reflexivity.
    - intros [q o]. cbn. destruct o; lia.
    - intros [q o] c r _ _ E. unfold sfb_content in E. cbn in *. destruct o; [auto|]. destruct q; [cbn in E; congruence|]. right. cbn. lia.
  Qed.
  Lemma buffer_stage s : buffer inrange (stage_places s) (stage_delay s - 1) (stage_mod pw s).
  Proof.
    destruct s as [| |d b|]; [exact buffer_valid|exact buffer_ready| |exact buffer_identity].
    cbn [stage_mod stage_places stage_delay]. unfold stream_sync_fifo. pose proof (d_ge d) as Hd.
    replace (Z.max 8 d) with (wrapper_depth d) by (unfold wrapper_depth; destruct (Z.ltb_spec d 8); lia).
    destruct b; [apply buffer_fifob|apply buffer_fifo]; lia.
  Qed.
  Lemma buffer_pipeline l : buffer inrange (places l) (delay l) (pipeline pw l).
  Proof.
    induction l as [|s l IH]; [exact buffer_identity|]. cbn [places delay pipeline].
    replace (stage_delay s + delay l)%nat with (stage_delay s - 1 + 1 + delay l)%nat by (destruct s as [| |d []|]; cbn; lia).
    apply buffer_compose; [apply buffer_stage|exact IH].
  Qed.
End Stages.

(** ** From steps to runs *)
Section Runs.
  Context (ok : beat Z -> Prop) (n : Z) (L : nat) (m : smod Z Z) (B : buffer ok n L m).
  Lemma buffer_run ins : Forall ok (accepted (strace m ins)) ->
    b_inv _ _ _ _ B (state (scirc m) ins) /\ accepted (strace m ins) = emitted (strace m ins) ++ b_con _ _ _ _ B (state (scirc m) ins).
  Proof.
    apply (run_inv_hyp (scirc m) (fun t => Forall ok (accepted t)) (fun t s => b_inv _ _ _ _ B s /\ accepted t = emitted t ++ b_con _ _ _ _ B s)).
    - intros t u. rewrite accepted_app, Forall_app. tauto.
    - split; [apply b_inv0|now rewrite b_con0].
    - intros t s [c r] Ho [Hi E]. rewrite accepted_app, accepted_1, Forall_app in Ho. destruct Ho as [_ Ho].
      cbn [scirc cout cnext fst snd o_sink o_sready] in *. destruct (b_step _ _ _ _ B s c r Hi Ho) as [Hi' E'].
      split; [exact Hi'|]. rewrite accepted_app, emitted_app, accepted_1, emitted_1. cbn [o_sink o_sready o_src o_rready].
      now rewrite E, <- !app_assoc, E'.
  Qed.
  Lemma buffer_offers ins' : forall s, b_inv _ _ _ _ B s -> Forall ok (accepted (trace_from (scirc m) s ins')) ->
    b_con _ _ _ _ B s <> [] -> (b_rank _ _ _ _ B s < length ins')%nat ->
    Exists (fun o => cvalid (o_src o) = true) (trace_from (scirc m) s ins').
  Proof.
    induction ins' as [|[c r] ins' IH]; intros s Hi Ho NE Hl; [cbn in Hl; lia|].
    cbn [trace_from] in Ho |- *. change (accepted (?o :: ?t)) with (accepted ([o] ++ t)) in Ho. rewrite accepted_app, accepted_1, Forall_app in Ho. destruct Ho as [Ho Ho'].
    cbn [scirc cout cnext fst snd o_sink o_sready] in *. destruct (b_step _ _ _ _ B s c r Hi Ho) as [Hi' E'].
    destruct (cvalid (src m s c)) eqn:V; [left; exact V|right]. apply IH; auto.
    - rewrite (xfer_ok_not _ _ V) in E'. cbn [app] in E'. rewrite <- E'. intros K. apply app_eq_nil in K. tauto.
    - destruct (b_go _ _ _ _ B s c r Hi Ho NE) as [K|K]; [congruence|]. cbn [length] in Hl. lia.
  Qed.
End Runs.

(** ** C136 *)

(** Every beat in order, unchanged, first and last with it; never more than the places of the
    stages inside. *)
Theorem C136_lossless : forall pw l ins, 0 <= pw ->
  let t := strace (pipeline pw l) ins in
  Forall (fun b => 0 <= bdata b < 2 ^ pw) (accepted t) ->
  exists held, accepted t = emitted t ++ held /\ Z.of_nat (length held) <= places l.
Proof.
  intros pw l ins Hp t Ho. set (B := buffer_pipeline pw Hp l). destruct (buffer_run _ _ _ _ B ins Ho) as [Hi E].
  exists (b_con _ _ _ _ B (state (scirc (pipeline pw l)) ins)). split; [exact E|]. now apply b_len.
Qed.
(** An offered beat stays on offer until taken, if the same is true at the sink. *)
Theorem C136_stable : forall pw l ins, 0 <= pw ->
  let t := strace (pipeline pw l) ins in
  Forall (fun b => 0 <= bdata b < 2 ^ pw) (accepted t) -> stable_sink t -> stable_src t.
Proof.
  intros pw l ins Hp t Ho Hk t1 o o' t2 H V R. pose proof (Hk _ _ _ _ H) as Hk'. set (B := buffer_pipeline pw Hp l).
  assert (Ho1 : Forall (inrange pw) (accepted t1)) by (unfold t in H, Ho; rewrite H, accepted_app, Forall_app in Ho; apply Ho).
  apply trace_two in H. destruct H as (a & [c r] & [c' r'] & b & -> & Ht & -> & ->). cbn [scirc cout cnext fst snd o_sink o_sready o_src o_rready] in *. subst r.
  apply (b_stable _ _ _ _ B); auto. rewrite <- Ht in Ho1. apply (buffer_run _ _ _ _ B a Ho1).
Qed.
(** A beat inside is offered after at most the delays of the stages, whatever the source's
    ready does: no deadlock. *)
Theorem C136_offers : forall pw l ins ins' u, 0 <= pw ->
  let t := strace (pipeline pw l) ins in
  strace (pipeline pw l) (ins ++ ins') = t ++ u ->
  Forall (fun b => 0 <= bdata b < 2 ^ pw) (accepted (t ++ u)) ->
  accepted t <> emitted t -> (delay l < length ins')%nat ->
  Exists (fun o => cvalid (o_src o) = true) u.
Proof.
  intros pw l ins ins' u Hp t H Ho NE Hl. rewrite trace_app in H. apply app_inv_head in H. subst u.
  rewrite accepted_app, Forall_app in Ho. destruct Ho as [Ho Ho']. set (B := buffer_pipeline pw Hp l).
  destruct (buffer_run _ _ _ _ B ins Ho) as [Hi E]. apply (buffer_offers _ _ _ _ B); auto.
  - intros K. rewrite K, app_nil_r in E. exact (NE E).
  - pose proof (b_rankle _ _ _ _ B (state (scirc (pipeline pw l)) ins)). lia.
Qed.
(** When it is empty, a beat at the sink is accepted at once or seen at the source at once. *)
Theorem C136_accepts : forall pw l ins t o, 0 <= pw -> strace (pipeline pw l) ins = t ++ [o] ->
  Forall (fun b => 0 <= bdata b < 2 ^ pw) (accepted t) -> accepted t = emitted t ->
  cvalid (o_sink o) = true -> o_sready o = true \/ cvalid (o_src o) = true.
Proof.
  intros pw l ins t o Hp H Ho E V. apply trace_one in H. destruct H as (a & [c r] & b & -> & Ht & ->). cbn [scirc cout fst snd o_sink o_sready o_src] in *.
  set (B := buffer_pipeline pw Hp l). subst t. destruct (buffer_run _ _ _ _ B a Ho) as [Hi E'].
  apply (b_take _ _ _ _ B); auto. rewrite E in E'. rewrite <- (app_nil_r (emitted _)) in E' at 1. now apply app_inv_head in E'.
Qed.

(** Full speed: while the source is always ready the sink is always ready. *)
Definition flows (m : smod Z Z) : Prop := exists P : st m -> Prop, P (st0 m) /\ forall s c, P s -> rdy m s c true = true /\ P (nxt m s c true).
Lemma flows_stage pw s : flows (stage_mod pw s).
Proof.
  destruct s as [| |d b|].
  - exists (fun _ => True). split; auto. intros s c _. cbn. unfold pv_en. rewrite orb_true_r. auto.
  - exists (fun s : pr_state => pr_valid s = false). split; [reflexivity|]. intros [v k] c; cbn; intros ->. cbn. rewrite andb_false_r. auto.
  - cbn [stage_mod]. unfold stream_sync_fifo. pose proof (d_ge d) as Hd. set (d' := wrapper_depth d) in *. destruct b.
    + exists (fun s : list Z * option Z => (length (fst s) <= 1)%nat). split; [cbn; lia|]. intros [q o] c Hq. cbn in *.
      destruct (Z.eqb_spec (Z.of_nat (length q)) (d' - 1)); [lia|]. split; [reflexivity|].
      destruct o, q as [|? [|? ?]], (cvalid c); cbn in *; lia.
    + exists (fun q : list Z => (length q <= 1)%nat). split; [cbn; lia|]. intros q c Hq. cbn in *.
      destruct (Z.eqb_spec (Z.of_nat (length q)) d'); [lia|]. split; [reflexivity|].
      destruct q as [|? [|? ?]], (cvalid c); cbn in *; lia.
  - exists (fun _ => True). cbn. auto.
Qed.
Theorem C136_throughput : forall pw l ins, Forall (fun i => snd i = true) ins ->
  Forall (fun o => o_sready o = true) (strace (pipeline pw l) ins).
Proof.
  intros pw l ins. assert (H : flows (pipeline pw l)).
  { induction l as [|s l (P2 & p2 & H2)]; [exists (fun _ => True); cbn; auto|]. destruct (flows_stage pw s) as (P1 & p1 & H1). cbn [pipeline].
    exists (fun s => P1 (fst s) /\ P2 (snd s)). cbn [compose st0 rdy nxt fst snd]. split; [auto|]. intros [a b] c [Ha Hb]. cbn [fst snd] in *.
    destruct (H2 b (src (stage_mod pw s) a c) Hb) as [-> K]. destruct (H1 a c Ha). auto. }
  destruct H as (P & p & H). unfold trace. change (creset (scirc (pipeline pw l))) with (st0 (pipeline pw l)).
  revert p. generalize (st0 (pipeline pw l)) as s. induction ins as [|[c r] ins IH]; intros s Hs F; [constructor|].
  inversion F as [|? ? Hr F']; subst. cbn in Hr. subst r. destruct (H s c Hs) as [K1 K2]. constructor; [exact K1|]. apply IH; auto.
Qed.

(** Exact latency: while the source is always ready, what is seen at the source is what was
    at the sink [latency l] cycles before, cycle for cycle. *)
Definition stage_latency (s : stage) : nat :=
  match s with StPipeValid => 1 | StPipeReady => 0 | StSyncFIFO _ buffered => if buffered then 2 else 1 | StIdentity => 0 end.
Fixpoint latency (l : list stage) : nat := match l with [] => 0 | s :: l => stage_latency s + latency l end.
Definition line (ok : beat Z -> Prop) (D : nat) (m : smod Z Z) : Prop := exists (P : st m -> Prop) (dl : st m -> list (list (beat Z))),
  P (st0 m) /\ dl (st0 m) = repeat [] D /\
  forall s c, P s -> Forall ok (xfer c true) -> rdy m s c true = true /\ P (nxt m s c true) /\ dl s ++ [xfer c true] = xfer (src m s c) true :: dl (nxt m s c true) /\ Forall ok (xfer (src m s c) true).
Lemma line_stage pw s : 0 <= pw -> line (inrange pw) (stage_latency s) (stage_mod pw s).
Proof.
  intros Hp. destruct s as [| |d b|].
  - exists (fun s => Forall (inrange pw) (chan_list s)), (fun s => [chan_list s]). cbn. split; [auto|]. split; [reflexivity|].
    intros [[] x] [[] y] Hs Ho; unfold xfer, pv_en, chan_list in *; cbn in *; auto.
  - exists (fun s : pr_state => pr_valid s = false), (fun _ => []). cbn. split; [auto|]. split; [auto|]. intros [v k] c; cbn. intros -> Ho. cbn. rewrite andb_false_r. auto.
  - cbn [stage_mod stage_latency]. unfold stream_sync_fifo. pose proof (d_ge d) as Hd. set (d' := wrapper_depth d) in *. destruct b.
    + exists (fun s : list Z * option Z => (length (fst s) <= 1)%nat), (fun s : list Z * option Z => [match snd s with Some w => [fifo_unpack pw w] | None => [] end; map (fifo_unpack pw) (fst s)]).
      split; [cbn; lia|]. split; [reflexivity|]. intros [q o] c Hq Ho. cbn in *.
      destruct (Z.eqb_spec (Z.of_nat (length q)) (d' - 1)); [lia|]. split; [reflexivity|]. unfold xfer in *. cbn [negb] in *. rewrite ?andb_true_r in *.
      assert (EU : cvalid c = true -> fifo_unpack pw (fifo_pack pw (cbeat c)) = cbeat c) by (intros V; rewrite V in Ho; apply pack_unpack; auto; now inversion Ho).
      destruct o, q as [|? [|? ?]], (cvalid c); cbn in *; rewrite ?EU by reflexivity; repeat split; try lia; repeat constructor; try apply unpack_range; auto.
    + exists (fun q : list Z => (length q <= 1)%nat), (fun q : list Z => [map (fifo_unpack pw) q]).
      split; [cbn; lia|]. split; [reflexivity|]. intros q c Hq Ho. cbn in *.
      destruct (Z.eqb_spec (Z.of_nat (length q)) d'); [lia|]. split; [reflexivity|]. unfold xfer in *. cbn [negb] in *. rewrite ?andb_true_r in *.
      assert (EU : cvalid c = true -> fifo_unpack pw (fifo_pack pw (cbeat c)) = cbeat c) by (intros V; rewrite V in Ho; apply pack_unpack; auto; now inversion Ho).
      destruct q as [|? [|? ?]], (cvalid c); cbn in *; rewrite ?EU by reflexivity; repeat split; try lia; repeat constructor; try apply unpack_range; auto.
  - exists (fun _ => True), (fun _ => []). cbn. repeat split; auto.
Qed.
Lemma line_run ok D m : line ok D m -> forall ins, Forall (fun i => snd i = true) ins ->
  let t := strace m ins in
  let at_sink := map (fun o => xfer (o_sink o) true) t in let at_source := map (fun o => xfer (o_src o) true) t in
  Forall ok (concat at_sink) ->
  at_source = firstn (length ins) (repeat [] D ++ at_sink) /\ Forall (fun o => o_sready o = true) t.
Proof.
  intros (P & dl & p & e & H) ins. rewrite <- e. unfold trace. change (creset (scirc m)) with (st0 m).
  revert p. clear e. generalize (st0 m) as s. induction ins as [|[c r] ins IH]; intros s Hs F; [split; [reflexivity|constructor]|].
  inversion F as [|? ? Hr F']; subst. cbn in Hr. subst r. cbv zeta in *. cbn [trace_from scirc cout cnext fst snd map o_sink o_src concat length]. intros Ho. apply Forall_app in Ho. destruct Ho as [Ho Ho'].
  destruct (H s c Hs Ho) as (K1 & K2 & K3 & _). destruct (IH _ K2 F' Ho') as [IH1 IH2]. cbn [o_sink o_src] in *. split; [|constructor; [exact K1|exact IH2]].
  match goal with |- _ :: ?x = firstn _ (dl s ++ ?y :: ?z) => change (y :: z) with ([y] ++ z); rewrite app_assoc, K3; cbn [app firstn]; f_equal; exact IH1 end.
Qed.
Theorem C136_latency : forall pw l ins, 0 <= pw -> Forall (fun i => snd i = true) ins ->
  let t := strace (pipeline pw l) ins in
  let at_sink := map (fun o => xfer (o_sink o) true) t in let at_source := map (fun o => xfer (o_src o) true) t in
  Forall (fun b => 0 <= bdata b < 2 ^ pw) (concat at_sink) ->
  at_source = firstn (length ins) (repeat [] (latency l) ++ at_sink).
Proof.
  intros pw l ins Hp F. apply (line_run (inrange pw)); [|exact F].
  induction l as [|s l (P2 & d2 & p2 & e2 & H2)]; [exists (fun _ => True), (fun _ => []); cbn; repeat split; auto|]. destruct (line_stage pw s Hp) as (P1 & d1 & p1 & e1 & H1). cbn [pipeline latency].
  exists (fun s => P1 (fst s) /\ P2 (snd s)), (fun s => d2 (snd s) ++ d1 (fst s)). cbn [compose st0 src rdy nxt fst snd]. split; [auto|].
  split; [rewrite e1, e2, <- repeat_app; f_equal; lia|]. intros [a b] c [Ha Hb] Ho. cbn [fst snd] in *.
  destruct (H1 a c Ha Ho) as (K1 & K2 & K3 & K4). destruct (H2 b (src (stage_mod pw s) a c) Hb K4) as (J1 & J2 & J3 & J4).
  rewrite J1. split; [auto|]. split; [auto|]. split; [|exact J4]. rewrite <- app_assoc, K3. change (xfer (src (stage_mod pw s) a c) true :: ?l) with ([xfer (src (stage_mod pw s) a c) true] ++ l).
  rewrite app_assoc, J3. reflexivity.
Qed.

(** A byte enters PipeValid, a buffered FIFO and PipeReady; the source refuses it once. *)
Example C136_nonvacuous :
  let m := pipeline 8 [StPipeValid; StSyncFIFO 16 true; StPipeReady] in
  let i v d r := (Chan v (Beat true true d), r) in
  let ins := [i true 65 false; i true 66 false; i false 0 false; i false 0 false; i false 0 true; i false 0 true] in
  accepted (strace m ins) = [Beat true true 65; Beat true true 66] /\
  emitted (strace m ins) = [Beat true true 65; Beat true true 66] /\
  emitted (strace m (firstn 4 ins)) = [] /\
  map (fun o => cvalid (o_src o)) (strace m ins) = [false; false; false; true; true; true] /\
  places [StPipeValid; StSyncFIFO 16 true; StPipeReady] = 18 /\ delay [StPipeValid; StSyncFIFO 16 true; StPipeReady] = 4%nat /\
  latency [StPipeValid; StSyncFIFO 16 true; StPipeReady] = 3%nat /\
  map (fun o => xfer (o_src o) true) (strace m [i true 65 true; i false 0 true; i true 66 true; i true 67 true; i false 0 true]) = [[]; []; []; [Beat true true 65]; []].
Proof. repeat split; reflexivity. Qed.

(** A chain that is full: its beats, and that of the sink, wait. *)
Example C136_nonvacuous_stable :
  let m := pipeline 8 [StPipeValid; StPipeReady] in let i d r := (Chan true (Beat true true d), r) in
  let t := strace m [i 65 false; i 66 false; i 67 false; i 67 false; i 67 true; i 67 true; i 68 true] in
  stable_sink t /\ map o_sready t = [true; true; false; false; false; true; true] /\ accepted t = map (Beat true true) [65; 66; 67; 68].
Proof. cbv zeta. split; [apply stable_sinkb_ok; vm_compute; reflexivity|]. vm_compute. auto. Qed.

Print Assumptions C136_lossless.
Print Assumptions C136_stable.
Print Assumptions C136_offers.
Print Assumptions C136_accepts.
Print Assumptions C136_throughput.
Print Assumptions C136_latency.
