(** C145: what a core offers on a stream stays on offer, unchanged, until it is taken.
    PipeValid, PipeReady, the FIFOs, the converters, the filters, the I2C cores and others
    are treated with their own properties (C02, C03, C04, C05, C10, C19, C32, C34, C35, C37,
    C48, C63, C65, C71, C72, C83, C91, C136); here are the others. *)
From Verif Require Import Stream Bits Pipe_model Pipe_props Fifo_model Fifo_proofs Fifo_props Cdcconv_model Cdcconv_props.
From Verif Require Utils_model Mem_model Regs_model Spistream_model Spimaster_model Spislave_model Spibridge_model.
From Verif Require Import I2c_model I2cstream_model I2cstream_proofs I2cstream_props I2cproto_model I2cproto_props Ulpi_model Ulpi_props Ulpifull_model Ulpifull_props.

(** ** Stitcher and LastInserter *)
Theorem C145_stitcher : forall A count ins, let t := strace (@Utils_model.stitcher A count) ins in stable_sink t -> stable_src t.
Proof.
  intros A count ins t. apply (stable_src_intro_sink (Utils_model.stitcher count) (fun _ => True)); [auto|].
  intros s c c' _ Hv Hk. cbn [src rdy nxt Utils_model.stitcher cvalid] in *. rewrite (Hk Hv eq_refl), andb_false_r. unfold Utils_model.sti_idx_next. cbn [andb]. destruct s; reflexivity.
Qed.
Theorem C145_last_inserter : forall A count ins, let t := strace (@Utils_model.last_inserter A count) ins in stable_sink t -> stable_src t.
Proof.
  intros A count ins t. apply (stable_src_intro_sink (Utils_model.last_inserter count) (fun _ => True)); [auto|].
  intros s c c' _ Hv Hk. cbn [src rdy nxt Utils_model.last_inserter cvalid] in *. rewrite (Hk Hv eq_refl), andb_false_r. reflexivity.
Qed.

(** ** Splitter: every source keeps its beat until it takes it, whatever the others do. *)
Theorem C145_splitter : forall A P n proj ins t1 o o' t2 i, (i < n)%nat ->
  trace (@Utils_model.splitter A P n proj) ins = t1 ++ o :: o' :: t2 ->
  (cvalid (Utils_model.sp_sink o) = true -> Utils_model.sp_sready o = false -> Utils_model.sp_sink o' = Utils_model.sp_sink o) ->
  cvalid (Utils_model.sp_src o i) = true -> Utils_model.sp_rready o i = false -> Utils_model.sp_src o' i = Utils_model.sp_src o i.
Proof.
  intros A P n proj ins t1 o o' t2 i Hi E. apply trace_two in E. destruct E as (a & [c r] & [c' r'] & b & -> & _ & -> & ->).
  set (d := state (Utils_model.splitter n proj) a). cbn [cout cnext Utils_model.splitter Utils_model.sp_sink Utils_model.sp_sready Utils_model.sp_src Utils_model.sp_rready fst snd].
  intros Hk Hv Hr. cbn [Utils_model.sp_source cvalid] in Hv. apply andb_prop in Hv. destruct Hv as [Hc Hd]. apply negb_true_iff in Hd.
  assert (F : Utils_model.sp_ready n d r = false).
  { unfold Utils_model.sp_ready, Utils_model.all_below. destruct (forallb _ _) eqn:Q; [|reflexivity]. rewrite forallb_forall in Q. specialize (Q i ltac:(apply in_seq; lia)). rewrite Hr, Hd in Q. discriminate. }
  rewrite (Hk Hc F). unfold Utils_model.sp_source. f_equal. f_equal. f_equal. unfold Utils_model.sp_next.
  destruct (Utils_model.all_below _ _) eqn:Q; [now rewrite Hd|]. unfold Utils_model.sp_flow. now rewrite Hr, andb_false_r, Hd.
Qed.

(** ** The asynchronous FIFO: from one edge of the reader's clock to the next, whatever
    happens in the writer's domain in between. *)
Definition reads (o : af_obs) : bool := match af_source o with Some _ => true | None => false end.
Theorem C145_async_fifo : forall pw depth ins t1 o t2 o' t3 c, 0 <= pw ->
  trace (async_fifo pw depth) ins = t1 ++ o :: t2 ++ o' :: t3 ->
  af_source o = Some c -> cvalid c = true -> af_rdo o = [] -> Forall (fun x => reads x = false) t2 -> reads o' = true ->
  af_source o' = Some c.
Proof.
  intros pw depth ins t1 o t2 o' t3 c Hpw E Hs Hv Hn HF Hr. unfold async_fifo in E. set (d := async_depth depth) in *. set (f := async_words pw d) in *.
  assert (Q : exists a i j k b, ins = a ++ i :: j ++ k :: b /\ o = cout f (state f a) i /\ trace_from f (cnext f (state f a) i) j = t2 /\ o' = cout f (state_from f (cnext f (state f a) i) j) k).
  { replace (t1 ++ o :: t2 ++ o' :: t3) with ((t1 ++ [o]) ++ (t2 ++ [o']) ++ t3) in E by (rewrite <- !app_assoc; reflexivity).
    apply trace_seg in E. destruct E as (ia & ib & ic & -> & E1 & E2 & _).
    destruct ia as [|z ia _] using rev_ind; [destruct t1; discriminate|]. rewrite trace_snoc in E1. apply app_inj_tail in E1. destruct E1 as [_ E1].
    destruct ib as [|y ib _] using rev_ind; [destruct t2; discriminate|]. rewrite state_snoc, trace_from_app in E2. cbn [trace_from] in E2. apply app_inj_tail in E2. destruct E2 as [E2 E3].
    exists ia, z, ib, y, ic. split; [rewrite <- !app_assoc; reflexivity|]. auto. }
  destruct Q as (a & i & j & k & b & -> & -> & E2 & ->). set (s := state f a) in *.
  destruct i as [|r seen]; [discriminate|]. cbn [cout f async_words af_source af_rdo] in Hs, Hn. injection Hs as Hs. rewrite <- Hs in Hv |- *. cbn [cvalid] in Hv.
  assert (Hr0 : af_rrdy s seen && r = false) by (unfold xfer in Hn; cbn [cvalid] in Hn; destruct (af_rrdy s seen && r); [discriminate|reflexivity]).
  destruct k as [|r' seen']; [discriminate|]. cbn [cout f async_words af_source]. f_equal.
  assert (G : forall j s0, Forall (fun x => reads x = false) (trace_from f s0 j) -> let s1 := state_from f s0 j in
    af_rd s1 = af_rd s0 /\ af_seen_w s1 = af_seen_w s0 /\ exists l, af_mem s1 = af_mem s0 ++ l).
  { clear. induction j as [|e j IH]; intros s0 H; cbn [state_from]; [repeat split; exists []; now rewrite app_nil_r|].
    cbn [trace_from] in H. apply Forall_cons_iff in H. destruct H as [H0 H]. destruct (IH _ H) as (A1 & A2 & l & A3).
    destruct e as [k n|r n]; [|discriminate]. cbn [cnext f async_words af_rd af_seen_w af_mem] in A1, A2, A3.
    split; [exact A1|]. split; [exact A2|]. eexists. etransitivity; [exact A3|]. rewrite <- app_assoc. reflexivity. }
  rewrite <- E2 in HF. destruct (G _ _ HF) as (A1 & A2 & l & A3). clear HF E2 E Hr. match goal with |- context [state_from f ?x j] => generalize dependent (state_from f x j) end. intros s1 A1 A2 A3. cbn [cnext f async_words af_rd af_seen_w af_mem] in A1, A2, A3. try rewrite Hr0 in A1.
  unfold af_rrdy, clampup in Hv. apply Z.ltb_lt in Hv.
  assert (B : af_rd s < Z.of_nat (length (af_mem s)) /\ 0 <= af_rd s).
  { assert (I : 0 <= af_rd s /\ af_seen_w s <= Z.of_nat (length (af_mem s))); [|lia].
    unfold s. clear. apply (run_inv f (fun _ s => 0 <= af_rd s /\ af_seen_w s <= Z.of_nat (length (af_mem s)))); [cbn; lia|].
    intros _ s [k n|r n] [H1 H2]; cbn [cnext f async_words af_rd af_seen_w af_mem]; [rewrite app_length; lia|]. unfold clampup. destruct (_ && _); lia. }
  rewrite A1, A3. f_equal.
  - unfold af_rrdy, clampup. rewrite A1, A2, A3, app_length. unfold clampup. transitivity true; [apply Z.ltb_lt; lia|symmetry; apply Z.ltb_lt; lia].
  - f_equal. rewrite app_nth1 by lia. reflexivity.
Qed.

(** ** MemoryStream and MemoryStreamReader *)
(** MemoryStream breaks the rule after it has been written (it then shows the word at address 0 for a
    cycle); a write or a rewind also withdraws the word on offer ... *)
Theorem C145_memory_refuted : exists ins t1 o o' t2, trace (Mem_model.mem_stream 4) ins = t1 ++ o :: o' :: t2 /\
  Mem_model.mo_rewind o = false /\ Mem_model.mo_rewind o' = false /\
  cvalid (Mem_model.mo_src o) = true /\ Mem_model.mo_rready o = false /\
  cvalid (Mem_model.mo_sink o) = false /\ cvalid (Mem_model.mo_sink o') = false /\ Mem_model.mo_src o' <> Mem_model.mo_src o.
Proof.
  set (w d := Mem_model.MemIn false (Chan true (Beat false false d)) false). set (g := Mem_model.MemIn false (Chan false (Beat false false 0)) true). set (n := Mem_model.MemIn false (Chan false (Beat false false 0)) false).
  exists [w 5; w 6; g; w 7; n; n]. do 4 eexists. split; [apply (f_equal (fun l => l))|].
  - unfold trace. cbn [trace_from]. match goal with |- ?a :: ?b :: ?c :: ?d :: ?e :: ?f :: [] = _ => exact (eq_refl : [a;b;c;d;e;f] = [a;b;c;d] ++ e :: f :: []) end.
  - repeat split; try reflexivity. intros Q. apply (f_equal (fun c => bdata (cbeat c))) in Q. vm_compute in Q. discriminate.
Qed.
(** ... but keeps its word when the last write is at least two cycles old. *)
Theorem C145_memory_partial : forall depth ins t1 p o o' t2, trace (Mem_model.mem_stream depth) ins = t1 ++ p :: o :: o' :: t2 ->
  cvalid (Mem_model.mo_sink p) = false -> Mem_model.mo_rewind o' = false -> cvalid (Mem_model.mo_sink o') = false ->
  cvalid (Mem_model.mo_src o) = true -> Mem_model.mo_rready o = false -> Mem_model.mo_src o' = Mem_model.mo_src o.
Proof.
  intros depth ins t1 p o o' t2 E. change (p :: o :: o' :: t2) with ([p] ++ o :: o' :: t2) in E. rewrite app_assoc in E.
  apply trace_two in E. destruct E as (a & i & i' & b & -> & E & -> & ->).
  destruct a as [|x a _] using rev_ind; [destruct t1; discriminate|]. rewrite trace_snoc in E. apply app_inj_tail in E. destruct E as [_ <-]. rewrite state_snoc.
  set (s := state _ a). cbn [cout cnext Mem_model.mem_stream Mem_model.mo_sink Mem_model.mo_rewind Mem_model.mo_src Mem_model.mo_rready].
  intros Hx Hr Hc Hv Hy. remember (Mem_model.ms_next depth s (Mem_model.mi_rewind x) (Mem_model.mi_sink x) (Mem_model.mi_rready x)) as s1 eqn:E1.
  unfold Mem_model.ms_src in Hv |- *. cbn [cvalid] in Hv. apply andb_prop in Hv. destruct Hv as [Hv Hu]. apply andb_prop in Hv. destruct Hv as [Hw Hs].
  rewrite Hr, Hc, Hw, Hs, Hu. apply negb_true_iff in Hw, Hs.
  assert (Q : Mem_model.ms_rp s1 = (if Mem_model.ms_rd s1 <? depth then Mem_model.ms_mem s1 (Mem_model.ms_rd s1) else 0)).
  { rewrite E1. unfold Mem_model.ms_next. cbn [Mem_model.ms_rp Mem_model.ms_rd Mem_model.ms_mem]. rewrite Hx. cbn [andb]. destruct (Mem_model.mi_rewind x); [reflexivity|]. destruct (_ && _); reflexivity. }
  unfold Mem_model.ms_next. rewrite Hw, Hs, Hy, !andb_false_r. cbn [andb]. unfold Mem_model.ms_underflow, Mem_model.ms_last in *. cbn [Mem_model.ms_rp Mem_model.ms_rd Mem_model.ms_level Mem_model.ms_mem]. rewrite Hu. cbn [andb negb]. f_equal. f_equal. rewrite Q. reflexivity.
Qed.
Theorem C145_memory_buffered_partial : forall depth ins t1 o o' t2, trace (Mem_model.mem_stream_buffered depth) ins = t1 ++ o :: o' :: t2 ->
  Mem_model.mo_rewind o = false -> cvalid (Mem_model.mo_src o) = true -> Mem_model.mo_rready o = false -> Mem_model.mo_src o' = Mem_model.mo_src o.
Proof.
  intros depth ins t1 o o' t2 E. apply trace_two in E. destruct E as (a & i & i' & b & -> & _ & -> & ->).
  set (s := state _ a). cbn [cout cnext Mem_model.mem_stream_buffered Mem_model.mo_rewind Mem_model.mo_src Mem_model.mo_rready fst snd].
  intros -> Hv Hr. cbn [nxt pipe_valid]. unfold pv_en. rewrite Hr, Hv. reflexivity.
Qed.
Theorem C145_reader_partial : forall init ins t1 o o' t2, trace (Mem_model.mem_reader init) ins = t1 ++ o :: o' :: t2 ->
  Mem_model.ro_rewind o' = false -> cvalid (Mem_model.ro_src o) = true -> Mem_model.ro_rready o = false -> Mem_model.ro_src o' = Mem_model.ro_src o.
Proof.
  intros init ins t1 o o' t2 E. apply trace_two in E. destruct E as (a & i & i' & b & -> & _ & -> & ->).
  assert (Q : let s := state (Mem_model.mem_reader init) a in Mem_model.mr_wait s = false -> Mem_model.mr_rp s = nth (Z.to_nat (Mem_model.mr_rd s)) init 0).
  { destruct a as [|x a _] using rev_ind; [discriminate|]. rewrite state_snoc. cbn [cnext Mem_model.mem_reader]. unfold Mem_model.mr_next. cbn [Mem_model.mr_wait Mem_model.mr_rp Mem_model.mr_rd]. intros ->. destruct (_ && _); reflexivity. }
  set (s := state _ a) in *. cbn [cout cnext Mem_model.mem_reader Mem_model.ro_rewind Mem_model.ro_src Mem_model.ro_rready]. intros Hr Hv Hy.
  unfold Mem_model.mr_src in Hv |- *. cbn [cvalid] in Hv. apply andb_prop in Hv. destruct Hv as [Hv Hd]. apply andb_prop in Hv. destruct Hv as [Hw Hs].
  rewrite Hr, Hw, Hs, Hd. apply negb_true_iff in Hw, Hs, Hd. unfold Mem_model.mr_next, Mem_model.mr_last. cbn [Mem_model.mr_wait Mem_model.mr_done Mem_model.mr_rd Mem_model.mr_rp]. rewrite Hw, Hy, !andb_false_r, Hd. cbn [negb andb]. f_equal. f_equal. symmetry. exact (Q Hs).
Qed.
Theorem C145_reader_buffered_partial : forall init ins t1 o o' t2, trace (Mem_model.mem_reader_buffered init) ins = t1 ++ o :: o' :: t2 ->
  Mem_model.ro_rewind o = false -> cvalid (Mem_model.ro_src o) = true -> Mem_model.ro_rready o = false -> Mem_model.ro_src o' = Mem_model.ro_src o.
Proof.
  intros init ins t1 o o' t2 E. apply trace_two in E. destruct E as (a & i & i' & b & -> & _ & -> & ->).
  set (s := state _ a). cbn [cout cnext Mem_model.mem_reader_buffered Mem_model.ro_rewind Mem_model.ro_src Mem_model.ro_rready fst snd].
  intros -> Hv Hr. cbn [nxt pipe_valid]. unfold pv_en. rewrite Hr, Hv. reflexivity.
Qed.

(** ** RegsStream *)
Theorem C145_regs : forall depth ins t1 o o' t2, trace (Regs_model.regs_stream depth) ins = t1 ++ o :: o' :: t2 ->
  cvalid (Regs_model.rso_src o) = true -> Regs_model.rso_rready o = false -> Regs_model.rso_src o' = Regs_model.rso_src o.
Proof.
  intros depth ins t1 o o' t2 E. apply trace_two in E. destruct E as (a & i & i' & b & -> & _ & -> & ->).
  set (s := state _ a). cbn [cout cnext Regs_model.regs_stream Regs_model.rso_src Regs_model.rso_rready]. unfold Regs_model.rs_src, Regs_model.rs_next.
  destruct (Regs_model.rs_out s) as [x|] eqn:Q; cbn [Regs_model.rs_out]; [intros _ ->; reflexivity|discriminate].
Qed.

(** ** SPI: the words received by the master and the slave, the two sides of SPIStream *)
Theorem C145_spi_master : forall width bo div delay ins, stable_src (map Spimaster_model.mo_fifo (trace (Spimaster_model.spi_master width bo div delay) ins)).
Proof.
  intros. set (c := Spimaster_model.spi_master width bo div delay).
  rewrite (proj1 (part_trace c (scirc (Spimaster_model.ms_fifo width)) (fun o => (o_sink o, o_rready o)) (fun s => Spimaster_model.m_fifo _ s)
      (fun s i => (Spimaster_model.ms_fsink width s, Spimaster_model.mi_rready i)) Spimaster_model.mo_fifo
      ltac:(intros ? [? ?]; reflexivity) eq_refl ltac:(reflexivity) ltac:(reflexivity) ins)).
  apply C19_sync_fifo_stable.
Qed.
Theorem C145_spi_slave : forall cpol cpha width bw wl stages ins, stable_src (map Spislave_model.so_fifo (trace (Spislave_model.spi_slave cpol cpha width bw wl stages) ins)).
Proof.
  intros. set (c := Spislave_model.spi_slave cpol cpha width bw wl stages).
  rewrite (proj1 (part_trace c (scirc (Spislave_model.sl_fifo width wl)) (fun o => (o_sink o, o_rready o)) (fun s => Spislave_model.l_fifo _ _ s)
      (fun s i => (Spislave_model.sl_fsink cpol cpha width wl stages s, Spislave_model.sl_rready i)) Spislave_model.so_fifo
      ltac:(intros ? [? ?]; reflexivity) eq_refl
      ltac:(intros s i; cbn [cnext c Spislave_model.spi_slave]; destruct (Spislave_model.sl_sample _ _ _ _ s); [|destruct (Spislave_model.sl_pushing _ _ _ _ _ s)]; destruct (if Spislave_model.sl_load _ _ s then _ else _) as [[? ?] ?]; reflexivity)
      ltac:(reflexivity) ins)).
  apply C19_sync_fifo_stable.
Qed.
Theorem C145_spi_stream_phy : forall width bw ins, let t := map Spistream_model.so_tx (trace (Spistream_model.spi_stream width bw) ins) in stable_sink t -> stable_src t.
Proof.
  intros width bw ins t Hk x1 o o' x2 E Hv Hr. pose proof (Hk _ _ _ _ E) as Hk'. subst t.
  apply map_eq_app in E. destruct E as (u1 & u2 & E & _ & E2). destruct u2 as [|q [|q' u2]]; try discriminate. injection E2 as <- <- _.
  apply trace_two in E. destruct E as (a & i & i' & b & -> & _ & -> & ->). set (s := state _ a) in *. clearbody s.
  cbn [cout Spistream_model.spi_stream Spistream_model.so_tx o_src o_sink o_sready o_rready cvalid] in *.
  apply andb_prop in Hv. destruct Hv as [Hv Hs]. rewrite Hr in Hk'. rewrite (Hk' Hv eq_refl). f_equal. f_equal.
  destruct s; try discriminate. cbn [cnext Spistream_model.spi_stream Spistream_model.ss_dready]. unfold Spistream_model.ss_dready. rewrite Hr, andb_false_r. reflexivity.
Qed.
Theorem C145_spi_stream_user : forall width bw ins, let t := map Spistream_model.so_rx (trace (Spistream_model.spi_stream width bw) ins) in stable_sink t -> stable_src t.
Proof.
  intros width bw ins t Hk x1 o o' x2 E Hv Hr. pose proof (Hk _ _ _ _ E) as Hk'. subst t.
  apply map_eq_app in E. destruct E as (u1 & u2 & E & _ & E2). destruct u2 as [|q [|q' u2]]; try discriminate. injection E2 as <- <- _.
  apply trace_two in E. destruct E as (a & i & i' & b & -> & _ & -> & ->). set (s := state _ a) in *. clearbody s.
  cbn [cout Spistream_model.spi_stream Spistream_model.so_rx o_src o_sink o_sready o_rready cvalid] in *.
  apply andb_prop in Hv. destruct Hv as [Hv Hs]. rewrite Hr in Hk'. rewrite (Hk' Hv eq_refl). f_equal. f_equal.
  destruct s; try discriminate; cbn [cnext Spistream_model.spi_stream]; [destruct (_ && _); reflexivity|]. unfold Spistream_model.ss_pready. rewrite Hr, andb_false_r. reflexivity.
Qed.

(** ** SPIWishboneBridge: it strobes the bus for a read only while its reader is ready, so
    with a memory that acknowledges strobed cycles only, what it offers is taken at once. *)
Theorem C145_bridge_partial : forall width aw ins t1 o t2, trace (Spibridge_model.bridge width aw) ins = t1 ++ o :: t2 ->
  (Spibridge_model.bo_ack o = true -> Spibridge_model.bo_stb o = true) ->
  cvalid (o_src (Spibridge_model.bo_io o)) = true -> o_rready (Spibridge_model.bo_io o) = true.
Proof.
  intros width aw ins t1 o t2 E. apply trace_one in E. destruct E as (a & i & b & -> & _ & ->).
  set (s := state _ a). cbn [cout Spibridge_model.bridge Spibridge_model.bo_ack Spibridge_model.bo_stb Spibridge_model.bo_io o_src o_rready].
  unfold Spibridge_model.br_stb, Spibridge_model.br_src. destruct (Spibridge_model.bf s); try discriminate. destruct (Spibridge_model.b_write s); [discriminate|]. cbn [cvalid]. auto.
Qed.
(** A memory that acknowledges a cycle late makes it withdraw a beat. *)
Theorem C145_bridge_refuted : exists ins t1 p o o' t2, trace (Spibridge_model.bridge 32 16) ins = t1 ++ p :: o :: o' :: t2 /\
  (Spibridge_model.bo_ack p = false /\ Spibridge_model.bo_stb p = true /\ Spibridge_model.bo_ack o = Spibridge_model.bo_stb p /\ Spibridge_model.bo_ack o' = Spibridge_model.bo_stb o) /\
  cvalid (o_src (Spibridge_model.bo_io o)) = true /\ o_rready (Spibridge_model.bo_io o) = false /\ cvalid (o_src (Spibridge_model.bo_io o')) = false.
Proof.
  set (w d := Spibridge_model.BrIn (Chan true (Beat false false (d, 32))) false false 0). set (g r k := Spibridge_model.BrIn (Chan false (Beat false false (0, 0))) r k 9).
  exists [w 32; w 0; g true false; g false true; g false false]. eexists. eexists. eexists. eexists. exists []. split.
  - unfold trace. cbn [trace_from]. match goal with |- [?a;?b;?c;?d;?e] = _ => exact (eq_refl : [a;b;c;d;e] = [a;b] ++ c :: d :: e :: []) end.
  - repeat split; vm_compute; reflexivity.
Qed.

(** ** I2CProto: its answers. *)
Theorem C145_i2c_proto : forall period stretch oe ins, stable_src (map po_io (trace (i2c_proto period stretch oe) ins)).
Proof.
  intros period stretch oe ins x1 o o' x2 E Hv Hr.
  pose proof (C51_bus period stretch oe ins) as HB. cbv zeta in HB.
  apply map_eq_app in E. destruct E as (u1 & u2 & E & _ & E2). destruct u2 as [|q [|q' u2]]; try discriminate. injection E2 as <- <- _.
  match type of HB with _ = trace _ ?l => pose proof (C48_stable period stretch oe l) as HS end. rewrite <- HB in HS.
  rewrite E, !map_app in HS. cbn [map] in HS. specialize (HS _ _ _ _ eq_refl). clear HB.
  apply trace_two in E. destruct E as (a & [[c r] p] & [[c' r'] p'] & b & -> & _ & -> & ->). set (s := state _ a) in *. clearbody s.
  cbn [cout cnext i2c_proto po_io po_i2c o_src o_rready] in *.
  change (o_src (so_io (cout (i2c_stream period stretch oe) ?x (?k, ?r0, ?p0)))) with (ist_src x) in HS.
  cbn [cout i2c_stream so_io o_src o_rready] in HS. subst r.
  unfold pr_src, pr_irdy in *. destruct s as [f h l u i]. cbn [p_f p_i p_status p_length] in *.
  destruct f; try discriminate Hv; unfold pr_next; cbn [p_f p_i p_status p_length].
  - reflexivity.
  - cbn [p_f p_i pr_next] in HS. unfold pr_next in HS. cbn [p_f p_i p_length] in HS. destruct (pr_go _ _); [destruct (l =? 1)|]; cbn [p_f p_i] in *; apply HS; auto.
  - unfold pr_next in HS. cbn [p_f p_i] in HS. rewrite !andb_false_r. cbn [andb p_f p_i] in *. apply HS; auto.
  - reflexivity.
Qed.

(** ** DirectULPI: from one edge of the user's clock to the next. *)
Theorem C145_direct_ulpi : forall n2 n4 nt rxd txd ev t1 k w c t2 k' w' c' r' t3,
  trace (direct_ulpi n2 n4 nt rxd txd) ev = t1 ++ FoSync k w c false :: t2 ++ FoSync k' w' c' r' :: t3 ->
  Forall (fun o => match o with FoSync _ _ _ _ => False | _ => True end) t2 -> cvalid c = true -> c' = c.
Proof.
  intros n2 n4 nt rxd txd ev t1 k w c t2 k' w' c' r' t3 E HF Hv. set (f := direct_ulpi n2 n4 nt rxd txd) in *.
  match type of E with _ = t1 ++ ?x :: t2 ++ ?y :: t3 => set (o := x) in *; set (o' := y) in * end.
  assert (Q : exists a i j m, o = cout f (state f a) i /\ trace_from f (cnext f (state f a) i) j = t2 /\ o' = cout f (state_from f (cnext f (state f a) i) j) m).
  { replace (t1 ++ o :: t2 ++ o' :: t3) with ((t1 ++ [o]) ++ (t2 ++ [o']) ++ t3) in E by (rewrite <- !app_assoc; reflexivity).
    apply trace_seg in E. destruct E as (ia & ib & ic & -> & E1 & E2 & _).
    destruct ia as [|z ia _] using rev_ind; [destruct t1; discriminate|]. rewrite trace_snoc in E1. apply app_inj_tail in E1. destruct E1 as [_ E1].
    destruct ib as [|y ib _] using rev_ind; [destruct t2; discriminate|]. rewrite state_snoc, trace_from_app in E2. cbn [trace_from] in E2. apply app_inj_tail in E2. destruct E2 as [E2 E3].
    exists ia, z, ib, y. auto. }
  destruct Q as (a & i & j & m & E1 & E2 & E3).
  assert (I : 0 <= af_rd (fu_rx (state f a)) /\ af_seen_w (fu_rx (state f a)) <= Z.of_nat (length (af_mem (fu_rx (state f a))))).
  { apply (run_inv f (fun _ s => 0 <= af_rd (fu_rx s) /\ af_seen_w (fu_rx s) <= Z.of_nat (length (af_mem (fu_rx s))))); [cbn; lia|].
    intros _ s [k0 sr r sw|p sw sr] [H1 H2]; cbn [cnext f direct_ulpi fu_rx]; unfold cv_read, cv_write; cbn [af_rd af_seen_w af_mem];
      [|rewrite app_length; lia]. unfold clampup. destruct (_ && _); lia. }
  set (s := state f a) in *. clearbody s. clear E.
  destruct i as [k0 sr r sw|]; [|discriminate]. cbn [cout f direct_ulpi] in E1. unfold o in E1. injection E1 as -> -> Ec <-.
  assert (G : forall j s0, Forall (fun o => match o with FoSync _ _ _ _ => False | _ => True end) (trace_from f s0 j) -> let s1 := state_from f s0 j in
    af_rd (fu_rx s1) = af_rd (fu_rx s0) /\ af_seen_w (fu_rx s1) = af_seen_w (fu_rx s0) /\ exists l, af_mem (fu_rx s1) = af_mem (fu_rx s0) ++ l).
  { clear. induction j as [|e j IH]; intros s0 H; cbn [state_from]; [repeat split; exists []; now rewrite app_nil_r|].
    cbn [trace_from] in H. apply Forall_cons_iff in H. destruct H as [H0 H]. destruct (IH _ H) as (A1 & A2 & l & A3).
    destruct e as [k r n z|p sw n]; [now cbn in H0|]. split; [exact A1|]. split; [exact A2|]. eexists. etransitivity; [exact A3|]. symmetry. apply app_assoc. }
  rewrite <- E2 in HF. destruct (G _ _ HF) as (A1 & A2 & l & A3).
  match type of A1 with af_rd (fu_rx ?x) = _ => set (s1 := x) in * end. clearbody s1. clear G HF E2.
  destruct m as [k1 sr1 r1 sw1|]; [|discriminate]. cbn [cout f direct_ulpi] in E3. unfold o' in E3. injection E3 as _ _ -> _.
  cbn [cnext f direct_ulpi fu_rx cv_read af_rd af_seen_w af_mem] in A1, A2, A3. unfold cv_read in A1, A2, A3. cbn [af_rd af_seen_w af_mem] in A1, A2, A3. rewrite ?andb_false_r in A1.
  rewrite Ec in Hv |- *. unfold cv_out in *. cbn [cvalid] in Hv. unfold af_rrdy, clampup in Hv. apply Z.ltb_lt in Hv.
  rewrite A1, A3. f_equal.
  - unfold af_rrdy, clampup. rewrite A1, A2, A3, app_length. unfold clampup. transitivity true; [apply Z.ltb_lt; lia|symmetry; apply Z.ltb_lt; lia].
  - f_equal. rewrite app_nth1 by lia. reflexivity.
Qed.

(** Each rule applies: a beat is offered, refused and then offered again. *)
Fixpoint refused {A B} (t : list (obs A B)) : bool :=
  match t with
  | o :: (o' :: _) as u => cvalid (o_src o) && negb (o_rready o) && cvalid (o_src o') || refused u
  | _ => false
  end.
Definition ch {A} (v l : bool) (d : A) : chan A := Chan v (Beat false l d).
Example C145_nonvacuous_stitcher : let t := strace (Utils_model.stitcher 1) [(ch true true 5, false); (ch true true 5, true)] in
  stable_sink t /\ refused t = true.
Proof. split; [apply stable_sinkb_ok; vm_compute; reflexivity|reflexivity]. Qed.
Example C145_nonvacuous_last_inserter : let t := strace (Utils_model.last_inserter 2) [(ch true false 5, false); (ch true false 5, true)] in
  stable_sink t /\ refused t = true.
Proof. split; [apply stable_sinkb_ok; vm_compute; reflexivity|reflexivity]. Qed.
(** Source 1 waits while source 0 takes its copy. *)
Example C145_nonvacuous_splitter : exists o o',
  trace (Utils_model.splitter 2 (fun (_ : nat) (x : Z) => x)) [(ch true true 5, fun i => Nat.eqb i 0); (ch true true 5, fun _ => true)] = [] ++ o :: o' :: [] /\
  Utils_model.sp_sink o' = Utils_model.sp_sink o /\ cvalid (Utils_model.sp_src o 1%nat) = true /\ Utils_model.sp_rready o 1%nat = false /\
  cvalid (Utils_model.sp_src o' 0%nat) = false /\ cvalid (Utils_model.sp_src o' 1%nat) = true.
Proof. do 2 eexists. split; [reflexivity|]. repeat split; reflexivity. Qed.
(** A write edge falls between the two read edges. *)
Example C145_nonvacuous_async : exists t1 o t2 o',
  trace (async_fifo 8 4) [AfWrite (ch true false 5) 0; AfRead false 1; AfWrite (ch true true 6) 0; AfRead true 2] = t1 ++ o :: t2 ++ o' :: [] /\
  af_source o = Some (ch true false 5) /\ af_rdo o = [] /\ length t2 = 1%nat /\ Forall (fun x => reads x = false) t2 /\ af_source o' = Some (ch true false 5).
Proof. eexists [_], _, [_], _. split; [reflexivity|]. repeat split; try reflexivity. repeat constructor. Qed.
Example C145_nonvacuous_memory : exists t1 p o o',
  let w d := Mem_model.MemIn false (ch true false d) false in let n r := Mem_model.MemIn false (ch false false 0) r in
  trace (Mem_model.mem_stream 4) [w 5; w 6; n false; n true; n false; n false] = t1 ++ p :: o :: o' :: [] /\
  cvalid (Mem_model.mo_sink p) = false /\ Mem_model.mo_rewind o' = false /\ cvalid (Mem_model.mo_sink o') = false /\
  Mem_model.mo_src o = ch true true 6 /\ Mem_model.mo_rready o = false /\ Mem_model.mo_src o' = ch true true 6.
Proof. eexists [_; _; _], _, _, _. cbv zeta. split; [reflexivity|]. repeat split; reflexivity. Qed.
Example C145_nonvacuous_memory_buffered : exists t1 o o',
  let w d := Mem_model.MemIn false (ch true false d) false in let n r := Mem_model.MemIn false (ch false false 0) r in
  trace (Mem_model.mem_stream_buffered 4) [w 5; w 6; n true; n false; w 7] = t1 ++ o :: o' :: [] /\
  Mem_model.mo_rewind o = false /\ cvalid (Mem_model.mo_src o) = true /\ Mem_model.mo_rready o = false.
Proof. eexists [_; _; _], _, _. cbv zeta. split; [reflexivity|]. repeat split; reflexivity. Qed.
Example C145_nonvacuous_reader : exists t1 o o',
  trace (Mem_model.mem_reader [7; 8]) [(false, true); (false, true); (false, false); (false, true)] = t1 ++ o :: o' :: [] /\
  Mem_model.ro_rewind o' = false /\ Mem_model.ro_src o = ch true true 8 /\ Mem_model.ro_rready o = false.
Proof. eexists [_; _], _, _. split; [reflexivity|]. repeat split; reflexivity. Qed.
Example C145_nonvacuous_reader_buffered : exists t1 o o',
  trace (Mem_model.mem_reader_buffered [7; 8]) [(false, true); (false, true); (false, false); (false, true)] = t1 ++ o :: o' :: [] /\
  Mem_model.ro_rewind o = false /\ Mem_model.ro_src o = ch true false 7 /\ Mem_model.ro_rready o = false.
Proof. eexists [_; _], _, _. split; [reflexivity|]. repeat split; reflexivity. Qed.
Example C145_nonvacuous_regs : exists t1 o o', let n r := Regs_model.RsIn None None r in
  trace (Regs_model.regs_stream 2) [Regs_model.RsIn (Some 9) (Some true) false; n false; n false; n false; n true] = t1 ++ o :: o' :: [] /\
  Regs_model.rso_src o = ch true true 9 /\ Regs_model.rso_rready o = false.
Proof. eexists [_; _; _], _, _. cbv zeta. split; [reflexivity|]. repeat split; reflexivity. Qed.
Example C145_nonvacuous_spi_stream :
  let i p r := Spistream_model.SsIn (ch true true 5) p (ch true false 6) r in
  let t := trace (Spistream_model.spi_stream 8 1) [i false false; i false false; i false false; i true true] in
  stable_sink (map Spistream_model.so_tx t) /\ refused (map Spistream_model.so_tx t) = true /\
  stable_sink (map Spistream_model.so_rx t) /\ refused (map Spistream_model.so_rx t) = true.
Proof. cbv zeta. repeat split; try (apply stable_sinkb_ok; vm_compute; reflexivity); reflexivity. Qed.
Example C145_nonvacuous_bridge : exists t1 o,
  let w d := Spibridge_model.BrIn (ch true false (d, 32)) false false 0 in
  trace (Spibridge_model.bridge 32 16) [w 32; w 0; Spibridge_model.BrIn (ch false false (0, 0)) true true 9] = t1 ++ o :: [] /\
  Spibridge_model.bo_ack o = true /\ Spibridge_model.bo_stb o = true /\ o_src (Spibridge_model.bo_io o) = ch true false (9, 32).
Proof. eexists [_; _], _. cbv zeta. split; [reflexivity|]. repeat split; vm_compute; reflexivity. Qed.
Example C145_nonvacuous_proto : refused (map po_io (trace (i2c_proto 4 false true)
  ([(ch true false 16, false, (true, true)); (ch true false 0, false, (true, true))] ++ repeat (ch false false 0, false, (true, true)) 120))) = true.
Proof. vm_compute. reflexivity. Qed.
Example C145_nonvacuous_ulpi :
  let t := trace (direct_ulpi 1 1 1 8 8) (fu_up ++ fu_rx_packet [1; 2; 3] ++ [FuSync fu_none 0 false 1; fu_wait; FuSync fu_none 0 true 2]) in
  map (fun o => match o with FoSync _ _ c r => Some (c, r) | FoUlpi _ _ => None end) (skipn (length t - 3) t) = [Some (ch true false 1, false); None; Some (ch true false 1, true)].
Proof. vm_compute. reflexivity. Qed.

Print Assumptions C145_stitcher.
Print Assumptions C145_last_inserter.
Print Assumptions C145_splitter.
Print Assumptions C145_async_fifo.
Print Assumptions C145_memory_refuted.
Print Assumptions C145_memory_partial.
Print Assumptions C145_memory_buffered_partial.
Print Assumptions C145_reader_partial.
Print Assumptions C145_reader_buffered_partial.
Print Assumptions C145_regs.
Print Assumptions C145_spi_master.
Print Assumptions C145_spi_slave.
Print Assumptions C145_spi_stream_phy.
Print Assumptions C145_spi_stream_user.
Print Assumptions C145_bridge_partial.
Print Assumptions C145_bridge_refuted.
Print Assumptions C145_i2c_proto.
Print Assumptions C145_direct_ulpi.
