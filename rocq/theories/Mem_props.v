(** Properties C27-C30 and C84 (memory streams). *)
From Verif Require Import Stream Pipe_model Mem_model Mem_spec Mem_proofs.

Lemma after_rewind_u depth s0 ins : ms_wr s0 = 0 -> ends_with_rewind (trace_from (mem_stream depth) s0 ins) ->
  ms_wr (state_from (mem_stream depth) s0 ins) = 0.
Proof.
  intros H0 [E|(t' & o & E & Ho)].
  - apply (f_equal (@length _)) in E. rewrite trace_from_length in E. destruct ins; [exact H0|discriminate].
  - destruct ins as [|i ins] using rev_ind; [destruct t'; discriminate|].
    rewrite trace_from_app in E. cbn [trace_from] in E. apply app_inj_tail in E. destruct E as [_ <-]. cbn in Ho.
    rewrite state_from_app. cbn. now rewrite Ho.
Qed.
Lemma after_rewind_b depth s0 ins : ms_wr (fst s0) = 0 -> ends_with_rewind (trace_from (mem_stream_buffered depth) s0 ins) ->
  ms_wr (fst (state_from (mem_stream_buffered depth) s0 ins)) = 0.
Proof.
  intros H0 [E|(t' & o & E & Ho)].
  - apply (f_equal (@length _)) in E. rewrite trace_from_length in E. destruct ins; [exact H0|discriminate].
  - destruct ins as [|i ins] using rev_ind; [destruct t'; discriminate|].
    rewrite trace_from_app in E. cbn [trace_from] in E. apply app_inj_tail in E. destruct E as [_ <-]. cbn in Ho.
    rewrite state_from_app. cbn. now rewrite Ho.
Qed.

Lemma forall_in_u depth s l P :
  Forall (fun o => P (mo_rewind o) (mo_sink o)) (trace_from (mem_stream depth) s l) ->
  Forall (fun i => P (mi_rewind i) (mi_sink i)) l.
Proof. revert s. induction l as [|i l IH]; intros s H; constructor; inversion H; subst; auto. eapply IH; eauto. Qed.
Lemma forall_in_b depth s l P :
  Forall (fun o => P (mo_rewind o) (mo_sink o)) (trace_from (mem_stream_buffered depth) s l) ->
  Forall (fun i => P (mi_rewind i) (mi_sink i)) l.
Proof. revert s. induction l as [|i l IH]; intros s H; constructor; inversion H; subst; auto. eapply IH; eauto. Qed.

(** Everything about a read phase, in one statement: [k] beats have been fetched. *)
Definition wr_start depth buffered : cst (memory_stream depth buffered) -> Prop :=
  match buffered with true => fun s => ms_wr (fst s) = 0 | false => fun s => ms_wr s = 0 end.
Lemma read_phase_from : forall depth buffered s0 ins tp tw o tr, 2 <= depth -> wr_start depth buffered s0 ->
  trace_from (memory_stream depth buffered) s0 ins = tp ++ tw ++ o :: tr ->
  ends_with_rewind tp -> Forall (fun x => mo_rewind x = false) tw -> mo_rewind o = true ->
  Forall (fun x => cvalid (mo_sink x) = false) tr ->
  let ws := ms_written tw in
  let n := length ws in
  (1 <= n)%nat -> Z.of_nat n <= depth ->
  cvalid (mo_sink o) = false \/ Z.of_nat n < depth ->
  (exists m, ms_delivered (since mo_rewind tr) = map (rb depth ws) (seq 0 m) /\ (nowrap depth ws -> (m <= n)%nat)) /\
  forall tr1 x tr2, tr = tr1 ++ x :: tr2 -> mo_rewind x = false ->
    let s := since mo_rewind tr1 in
    let k := length (ms_delivered s) in
    (cvalid (mo_src x) = true <-> (length s >= if buffered then 1 else 0)%nat /\ (nowrap depth ws -> (k < n)%nat)) /\
    (cvalid (mo_src x) = true -> cbeat (mo_src x) = rb depth ws k).
Proof.
  intros depth buffered z0 ins tp tw o tr Hd Hz E Htp Htw Ho Htr ws n Hn Hnd Hc.
  apply trace_cut_from in E. destruct E as (a & bd & -> & <- & E). apply trace_cut_from in E. destruct E as (b & d & -> & <- & E).
  destruct d as [|i d]; [discriminate|]. cbn [trace_from] in E. inversion E; subst o tr. clear E.
  destruct buffered; cbn [memory_stream wr_start] in *.
  - apply after_rewind_b in Htp; [|exact Hz]. apply (forall_in_b _ _ _ (fun r _ => r = false)) in Htw.
    apply (forall_in_b _ _ _ (fun _ c => cvalid c = false)) in Htr.
    cbn [mem_stream_buffered cout mo_rewind mo_sink] in Ho, Hc.
    pose proof (wr_run_b depth Hd (state_from (mem_stream_buffered depth) z0 a) b Htp Htw) as Hw. fold ws in Hw.
    set (s0 := state_from (mem_stream_buffered depth) (state_from (mem_stream_buffered depth) z0 a) b) in *.
    set (s1 := cnext (mem_stream_buffered depth) s0 i) in *.
    assert (H0 : rd_ok depth ws (fst s1) 0).
    { subst s1. cbn [mem_stream_buffered cnext fst]. rewrite Ho. now apply rd_start. }
    assert (Hb0 : cvalid (snd s1) = false) by (subst s1; cbn; now rewrite Ho).
    split.
    + destruct (run_b depth Hd ws Hn Hnd s1 d H0 Hb0 Htr) as (k & Hk & Hdel & _).
      exists (length (ms_delivered (since mo_rewind (trace_from (mem_stream_buffered depth) s1 d)))).
      split.
      * set (l := ms_delivered _) in *. apply (f_equal (firstn (length l))) in Hdel.
        rewrite firstn_app, Nat.sub_diag, firstn_O, app_nil_r, firstn_all in Hdel.
        rewrite Hdel at 1. rewrite firstn_map. f_equal.
        assert (length l <= k)%nat.
        { destruct (run_b depth Hd ws Hn Hnd s1 d H0 Hb0 Htr) as (k' & Hk' & Hdel' & _).
          apply (f_equal (@length _)) in Hdel. rewrite firstn_length, map_length, seq_length in Hdel. lia. }
        replace k with (length l + (k - length l))%nat by lia. rewrite seq_app, firstn_app, seq_length, Nat.sub_diag, firstn_O, app_nil_r.
        apply firstn_all2. rewrite seq_length. lia.
      * intros Hnw. apply (f_equal (@length _)) in Hdel. rewrite app_length, map_length, seq_length in Hdel.
        pose proof (proj1 (proj2 (proj2 (proj2 Hk))) Hnw). fold ws in H. fold n in H. lia.
    + intros tr1 x tr2 E Hx. apply trace_split_from in E. destruct E as (u & j & v & -> & <- & -> & _).
      apply Forall_app in Htr. destruct Htr as [Htr1 Htr2]. pose proof (Forall_inv Htr2) as Hj. cbn in Hj.
      destruct (run_b depth Hd ws Hn Hnd s1 u H0 Hb0 Htr1) as (k & Hk & Hdel & Hv & Hv0).
      cbn [mem_stream_buffered cout mo_src mo_rewind] in *.
      set (sb := state_from (mem_stream_buffered depth) s1 u) in *. set (U := since _ _) in *. cbv zeta.
      unfold chan_beats in Hdel.
      destruct (cvalid (snd sb)) eqn:Ev.
      * assert (Hlen : (length (ms_delivered U) + 1 = k)%nat).
        { apply (f_equal (@length _)) in Hdel. rewrite app_length, map_length, seq_length in Hdel. simpl in Hdel. lia. }
        split.
        -- split; auto. intros _. split; [destruct U; [specialize (Hv0 eq_refl); discriminate|simpl; lia]|].
           intros Hnw. pose proof (proj1 (proj2 (proj2 (proj2 Hk))) Hnw). fold ws in H. fold n in H. lia.
        -- intros _. rewrite <- Hlen, Nat.add_1_r, map_seq_S in Hdel. apply app_inj_tail in Hdel. apply Hdel.
      * split; [|discriminate]. split; [discriminate|]. intros [HU Hk2].
        assert (HU' : U <> []) by (destruct U; [simpl in HU; lia|discriminate]).
        destruct (Hv HU' eq_refl) as [Hnw ->]. specialize (Hk2 Hnw).
        rewrite app_nil_r in Hdel. rewrite Hdel, map_length, seq_length in Hk2. unfold n in Hk2. lia.
  - apply after_rewind_u in Htp; [|exact Hz]. apply (forall_in_u _ _ _ (fun r _ => r = false)) in Htw.
    apply (forall_in_u _ _ _ (fun _ c => cvalid c = false)) in Htr.
    cbn [mem_stream cout mo_rewind mo_sink] in Ho, Hc.
    pose proof (wr_run_u depth Hd (state_from (mem_stream depth) z0 a) b Htp Htw) as Hw. fold ws in Hw.
    set (s0 := state_from (mem_stream depth) (state_from (mem_stream depth) z0 a) b) in *.
    set (s1 := cnext (mem_stream depth) s0 i) in *.
    assert (H0 : rd_ok depth ws s1 0).
    { subst s1. cbn [mem_stream cnext]. rewrite Ho. now apply rd_start. }
    split.
    + destruct (run_u depth Hd ws Hn Hnd s1 d H0 Htr) as (k & Hk & Hdel). exists k. split; auto.
      apply (proj1 (proj2 (proj2 (proj2 Hk)))).
    + intros tr1 x tr2 E Hx. apply trace_split_from in E. destruct E as (u & j & v & -> & <- & -> & _).
      apply Forall_app in Htr. destruct Htr as [Htr1 Htr2]. pose proof (Forall_inv Htr2) as Hj. cbn in Hj.
      destruct (run_u depth Hd ws Hn Hnd s1 u H0 Htr1) as (k & Hk & Hdel).
      cbn [mem_stream cout mo_src mo_rewind] in *. cbv zeta. rewrite Hx.
      rewrite Hdel, map_length, seq_length.
      destruct (rd_src depth Hd ws Hn Hnd _ k (mi_sink j) Hk Hj) as [R1 R2]. split.
      * rewrite R1. fold ws. fold n. split; [intros H; split; [lia|exact H]|intros [_ H]; exact H].
      * intros Hv. now rewrite (R2 Hv).
Qed.

Lemma read_phase : forall depth buffered ins tp tw o tr, 2 <= depth ->
  trace (memory_stream depth buffered) ins = tp ++ tw ++ o :: tr ->
  ends_with_rewind tp -> Forall (fun x => mo_rewind x = false) tw -> mo_rewind o = true ->
  Forall (fun x => cvalid (mo_sink x) = false) tr ->
  let ws := ms_written tw in
  let n := length ws in
  (1 <= n)%nat -> Z.of_nat n <= depth ->
  cvalid (mo_sink o) = false \/ Z.of_nat n < depth ->
  (exists m, ms_delivered (since mo_rewind tr) = map (rb depth ws) (seq 0 m) /\ (nowrap depth ws -> (m <= n)%nat)) /\
  forall tr1 x tr2, tr = tr1 ++ x :: tr2 -> mo_rewind x = false ->
    let s := since mo_rewind tr1 in
    let k := length (ms_delivered s) in
    (cvalid (mo_src x) = true <-> (length s >= if buffered then 1 else 0)%nat /\ (nowrap depth ws -> (k < n)%nat)) /\
    (cvalid (mo_src x) = true -> cbeat (mo_src x) = rb depth ws k).
Proof. intros depth buffered ins tp tw o tr Hd. apply read_phase_from; [exact Hd|]. now destruct buffered. Qed.

Lemma range_width_pow2 j : 1 <= j -> range_width (2 ^ j) = j.
Proof.
  intros Hj. unfold range_width. assert (2 ^ 1 <= 2 ^ j) by (apply Z.pow_le_mono_r; lia).
  destruct (Z.leb_spec (2 ^ j) 1); [lia|]. replace (2 ^ j - 1) with (Z.pred (2 ^ j)) by lia.
  rewrite Z.log2_pred_pow2; lia.
Qed.

(** Not every word of a power-of-two memory is in use. *)
Definition not_full (depth : Z) (n : nat) : Prop :=
  Z.of_nat n < depth \/ forall j, 0 <= j -> depth <> 2 ^ j.

Lemma not_full_nowrap depth ws : 2 <= depth -> Z.of_nat (length ws) <= depth ->
  not_full depth (length ws) -> nowrap depth ws.
Proof.
  intros Hd Hn [H|H]; unfold nowrap; pose proof (P_pos depth Hd) as HP.
  - lia.
  - specialize (H (ms_aw depth) (range_width_nonneg depth)). lia.
Qed.

(** C27: write n words, rewind, read: whatever happened before, whatever the
    schedules, and however many further rewinds happen while reading, the first n
    beats delivered after the last rewind are the n words in order as one packet
    (and shorter runs deliver a prefix of it). *)
Theorem C27_read_back : forall depth buffered ins tp tw o tr, 2 <= depth ->
  trace (memory_stream depth buffered) ins = tp ++ tw ++ o :: tr ->
  ends_with_rewind tp -> Forall (fun x => mo_rewind x = false) tw ->
  mo_rewind o = true -> cvalid (mo_sink o) = false ->
  Forall (fun x => cvalid (mo_sink x) = false) tr ->
  let ws := ms_written tw in
  let d := ms_delivered (since mo_rewind tr) in
  (1 <= length ws)%nat -> Z.of_nat (length ws) <= depth ->
  firstn (length ws) d = firstn (length d) (packet ws).
Proof.
  intros depth b ins tp tw o tr Hd E H1 H2 H3 H4 H5 ws d Hn Hnd.
  destruct (read_phase depth b ins tp tw o tr Hd E H1 H2 H3 H5 Hn Hnd (or_introl H4)) as [(m & Hm & _) _].
  fold d in Hm. rewrite Hm, (rb_firstn depth Hd) by (fold ws; lia). now rewrite map_length, seq_length.
Qed.

(** Words are accepted in every cycle without rewind, and in no other. *)
Theorem C27_sink_ready : forall depth buffered ins o, In o (trace (memory_stream depth buffered) ins) ->
  mo_sready o = negb (mo_rewind o).
Proof.
  intros depth b ins o H. apply in_split in H. destruct H as (t1 & t2 & E). destruct b.
  - apply trace_one in E. destruct E as (a & i & c & _ & _ & ->). reflexivity.
  - apply trace_one in E. destruct E as (a & i & c & _ & _ & ->). reflexivity.
Qed.

(** C27, cycle-exact: after a rewind (plus one cycle when buffered) the next
    written word is offered in every cycle until all n have been taken. *)
Theorem C27_read_back_exact : forall depth buffered ins tp tw o tr1 x tr2, 2 <= depth ->
  trace (memory_stream depth buffered) ins = tp ++ tw ++ o :: tr1 ++ x :: tr2 ->
  ends_with_rewind tp -> Forall (fun x => mo_rewind x = false) tw ->
  mo_rewind o = true -> cvalid (mo_sink o) = false ->
  Forall (fun x => cvalid (mo_sink x) = false) (tr1 ++ x :: tr2) -> mo_rewind x = false ->
  let ws := ms_written tw in
  let s := since mo_rewind tr1 in
  let k := length (ms_delivered s) in
  (1 <= length ws)%nat -> Z.of_nat (length ws) <= depth ->
  (k < length ws)%nat ->
  cvalid (mo_src x) = Nat.leb (if buffered then 1 else 0) (length s) /\
  (cvalid (mo_src x) = true -> cbeat (mo_src x) = Beat false (Nat.eqb (S k) (length ws)) (nth k ws 0)).
Proof.
  intros depth b ins tp tw o tr1 x tr2 Hd E H1 H2 H3 H4 H5 Hx ws s k Hn Hnd Hk.
  destruct (read_phase depth b ins tp tw o _ Hd E H1 H2 H3 H5 Hn Hnd (or_introl H4)) as [_ H].
  specialize (H tr1 x tr2 eq_refl Hx). cbv zeta in H. fold s k ws in H. destruct H as [Ha Hb]. split.
  - apply eq_true_iff_eq. rewrite Ha, Nat.leb_le. unfold ge. tauto.
  - intros Hv. rewrite (Hb Hv). unfold rb, packet_beat.
    destruct (Pn_facts depth Hd ws Hn Hnd) as (F1 & F2 & F3). rewrite Nat.mod_small by lia. reflexivity.
Qed.

(** C28 (partial): unless every word of a power-of-two memory is in use, the
    source goes idle once the n words have been delivered. *)
Theorem C28_stops_after_packet_partial : forall depth buffered ins tp tw o tr1 x tr2, 2 <= depth ->
  trace (memory_stream depth buffered) ins = tp ++ tw ++ o :: tr1 ++ x :: tr2 ->
  ends_with_rewind tp -> Forall (fun x => mo_rewind x = false) tw ->
  mo_rewind o = true -> cvalid (mo_sink o) = false ->
  Forall (fun x => cvalid (mo_sink x) = false) (tr1 ++ x :: tr2) -> mo_rewind x = false ->
  let ws := ms_written tw in
  (1 <= length ws)%nat -> Z.of_nat (length ws) <= depth -> not_full depth (length ws) ->
  let s := since mo_rewind tr1 in
  (length (ms_delivered s) <= length ws)%nat /\
  (length (ms_delivered s) = length ws -> cvalid (mo_src x) = false).
Proof.
  intros depth b ins tp tw o tr1 x tr2 Hd E H1 H2 H3 H4 H5 Hx ws Hn Hnd Hf s.
  pose proof (not_full_nowrap depth ws Hd Hnd Hf) as Hw.
  destruct (read_phase depth b ins tp tw o _ Hd E H1 H2 H3 H5 Hn Hnd (or_introl H4)) as [_ H].
  specialize (H tr1 x tr2 eq_refl Hx). cbv zeta in H. fold s ws in H. destruct H as [Ha _].
  replace (tp ++ tw ++ o :: tr1 ++ x :: tr2) with (((tp ++ tw) ++ o :: tr1) ++ x :: tr2) in E
    by (rewrite <- !app_assoc; reflexivity).
  apply trace_one in E. destruct E as (a & i & c & -> & E & _).
  rewrite <- app_assoc in E. apply Forall_app in H5. destruct H5 as [H5 _].
  destruct (read_phase depth b a tp tw o _ Hd E H1 H2 H3 H5 Hn Hnd (or_introl H4)) as [(m & Hm & Hm2) _].
  fold s in Hm. fold ws in Hm2. specialize (Hm2 Hw).
  apply (f_equal (@length _)) in Hm. rewrite map_length, seq_length in Hm.
  split; [fold ws; lia|]. intros Hk. destruct (cvalid (mo_src x)); auto. destruct Ha as [Ha _].
  specialize (Ha eq_refl). destruct Ha as [_ Ha]. specialize (Ha Hw). lia.
Qed.

(** C28 is false for a completely written power-of-two memory: the packet is
    repeated for ever, without a rewind. *)
Theorem C28_full_memory_repeats : forall depth j buffered ins tp tw o tr1 x tr2,
  1 <= j -> depth = 2 ^ j ->
  trace (memory_stream depth buffered) ins = tp ++ tw ++ o :: tr1 ++ x :: tr2 ->
  ends_with_rewind tp -> Forall (fun x => mo_rewind x = false) tw ->
  mo_rewind o = true -> cvalid (mo_sink o) = false ->
  Forall (fun x => cvalid (mo_sink x) = false) (tr1 ++ x :: tr2) -> mo_rewind x = false ->
  let ws := ms_written tw in
  Z.of_nat (length ws) = depth ->
  let s := since mo_rewind tr1 in
  let k := (length (ms_delivered s) mod length ws)%nat in
  cvalid (mo_src x) = Nat.leb (if buffered then 1 else 0) (length s) /\
  (cvalid (mo_src x) = true -> cbeat (mo_src x) = Beat false (Nat.eqb (S k) (length ws)) (nth k ws 0)).
Proof.
  intros depth j b ins tp tw o tr1 x tr2 Hj Ej E H1 H2 H3 H4 H5 Hx ws Hlen s k.
  assert (Hd : 2 <= depth) by (rewrite Ej; change 2 with (2 ^ 1) at 1; apply Z.pow_le_mono_r; lia).
  assert (Hn : (1 <= length ws)%nat) by lia.
  destruct (read_phase depth b ins tp tw o _ Hd E H1 H2 H3 H5 Hn ltac:(fold ws; lia) (or_introl H4)) as [_ H].
  specialize (H tr1 x tr2 eq_refl Hx). cbv zeta in H. fold s ws in H. destruct H as [Ha Hb].
  assert (HP : 2 ^ ms_aw depth = depth).
  { unfold ms_aw. rewrite Ej. f_equal. apply range_width_pow2. lia. }
  split.
  - apply eq_true_iff_eq. rewrite Ha, Nat.leb_le. unfold ge, nowrap. rewrite HP.
    split; [tauto|]. intros Hl; split; [exact Hl|]. intros Hlt. fold ws in Hlt. lia.
  - intros Hv. rewrite (Hb Hv). unfold rb, packet_beat. rewrite HP.
    replace (Z.to_nat depth) with (length ws) by lia. reflexivity.
Qed.

Theorem C28_stops_after_packet_refuted : ~ forall depth buffered ins tp tw o tr, 2 <= depth ->
  trace (memory_stream depth buffered) ins = tp ++ tw ++ o :: tr ->
  ends_with_rewind tp -> Forall (fun x => mo_rewind x = false) tw ->
  mo_rewind o = true -> cvalid (mo_sink o) = false ->
  Forall (fun x => cvalid (mo_sink x) = false) tr ->
  let ws := ms_written tw in
  (1 <= length ws)%nat -> Z.of_nat (length ws) <= depth ->
  (length (ms_delivered (since mo_rewind tr)) <= length ws)%nat.
Proof.
  intros H.
  set (w d := MemIn false (Chan true (Beat false false d)) false).
  set (r := MemIn false (Chan false (Beat false false 0)) true).
  set (ins := [w 5; w 6; MemIn true (Chan false (Beat false false 0)) false; r; r; r]).
  set (t := trace (memory_stream 2 false) ins).
  specialize (H 2 false ins [] (firstn 2 t) (nth 2 t (MemObs false (pv_reset 0) false (pv_reset 0) false)) (skipn 3 t)).
  assert (X : (3 <= 2)%nat); [|lia]. apply H; try reflexivity; try lia.
  all: first [left; reflexivity | solve [repeat constructor] | vm_compute; discriminate].
Qed.

(** C84 is false: a beat offered while rewind is high is not accepted
    (sink.ready is low) and yet is stored over the first word. *)
Theorem C84_refused_beat_not_stored_refuted : ~ forall depth buffered ins tp tw o tr, 2 <= depth ->
  trace (memory_stream depth buffered) ins = tp ++ tw ++ o :: tr ->
  ends_with_rewind tp -> Forall (fun x => mo_rewind x = false) tw -> mo_rewind o = true ->
  Forall (fun x => cvalid (mo_sink x) && mo_sready x = false) tr ->
  let ws := ms_written tw in
  let d := ms_delivered (since mo_rewind tr) in
  (1 <= length ws)%nat -> Z.of_nat (length ws) <= depth ->
  firstn (length ws) d = firstn (length d) (packet ws).
Proof.
  intros H.
  set (w d := MemIn false (Chan true (Beat false false d)) false).
  set (r := MemIn false (Chan false (Beat false false 0)) true).
  set (rw v d := MemIn true (Chan v (Beat false false d)) false).
  set (ins := [w 5; w 6; rw false 0; rw true 9; rw false 0; r; r]).
  set (t := trace (memory_stream 4 false) ins).
  specialize (H 4 false ins [] (firstn 2 t) (nth 2 t (MemObs false (pv_reset 0) false (pv_reset 0) false)) (skipn 3 t)).
  vm_compute in H.
  specialize (H ltac:(discriminate) eq_refl (or_introl eq_refl)).
  specialize (H ltac:(repeat constructor) eq_refl ltac:(repeat constructor) ltac:(repeat constructor) ltac:(discriminate)).
  discriminate H.
Qed.

(** C84 (partial): a beat offered in the very cycle that ends a write phase of
    fewer than depth words does not disturb the words written. *)
Theorem C84_refused_beat_after_write_partial : forall depth buffered ins tp tw o tr, 2 <= depth ->
  trace (memory_stream depth buffered) ins = tp ++ tw ++ o :: tr ->
  ends_with_rewind tp -> Forall (fun x => mo_rewind x = false) tw ->
  mo_rewind o = true ->
  Forall (fun x => cvalid (mo_sink x) = false) tr ->
  let ws := ms_written tw in
  let d := ms_delivered (since mo_rewind tr) in
  (1 <= length ws)%nat -> Z.of_nat (length ws) < depth ->
  firstn (length ws) d = firstn (length d) (packet ws).
Proof.
  intros depth b ins tp tw o tr Hd E H1 H2 H3 H5 ws d Hn Hnd.
  destruct (read_phase depth b ins tp tw o tr Hd E H1 H2 H3 H5 Hn ltac:(fold ws; lia) (or_intror Hnd)) as [(m & Hm & _) _].
  fold d in Hm. rewrite Hm, (rb_firstn depth Hd) by (fold ws; lia). now rewrite map_length, seq_length.
Qed.

(** Concrete case: three words, back-pressure, a second rewind mid-read. *)
Example C27_nonvacuous :
  let w d := MemIn false (Chan true (Beat false false d)) false in
  let r b := MemIn false (Chan false (Beat false false 0)) b in
  let rw := MemIn true (Chan false (Beat false false 0)) false in
  let t := trace (memory_stream 4 true) [w 5; r true; w 6; w 7; rw; r true; r true; rw; r true; r false; r true; r true; r true; r true] in
  ms_written t = [5; 6; 7] /\
  ms_delivered (since mo_rewind t) = [Beat false false 5; Beat false false 6; Beat false true 7].
Proof. vm_compute. auto. Qed.

(** C29 is false: a word read in the cycle after a write comes from position 0
    of the memory as it was before the write. *)
Theorem C29_read_while_writing_refuted : ~ forall depth ins t1 x t2, 2 <= depth ->
  trace (mem_stream depth) ins = t1 ++ x :: t2 ->
  Forall (fun o => mo_rewind o = true -> cvalid (mo_sink o) = false) t1 ->
  (forall q r, t1 = q ++ r -> Z.of_nat (fst (image q)) <= depth) ->
  let k := length (ms_delivered (since mo_rewind t1)) in
  Z.of_nat k < depth -> cvalid (mo_src x) = true ->
  bdata (cbeat (mo_src x)) = snd (image t1) k.
Proof.
  intros H.
  set (w d := MemIn false (Chan true (Beat false false d)) false).
  set (r := MemIn false (Chan false (Beat false false 0)) true).
  set (t := trace (mem_stream 4) [w 5; r]).
  specialize (H 4 [w 5; r] (firstn 1 t) (nth 1 t (MemObs false (pv_reset 0) false (pv_reset 0) false)) []).
  assert (0 = 5); [|lia]. apply H; try reflexivity; try lia.
  - constructor; [discriminate|constructor].
  - intros q r0 E. destruct q as [|? [|? q]]; cbn in E; [cbn; lia| |destruct q; discriminate].
    inversion E; subst. vm_compute. discriminate.
Qed.

(** C29 (partial; unbuffered): a word offered in a cycle that does not directly
    follow a write is the word stored at its position. *)
Theorem C29_read_while_writing_partial : forall depth ins t1 p x t2, 2 <= depth ->
  trace (mem_stream depth) ins = t1 ++ p :: x :: t2 ->
  Forall (fun o => mo_rewind o = true -> cvalid (mo_sink o) = false) (t1 ++ [p]) ->
  (forall q r, t1 ++ [p] = q ++ r -> Z.of_nat (fst (image q)) <= depth) ->
  cvalid (mo_sink p) = false ->
  let k := length (ms_delivered (since mo_rewind (t1 ++ [p]))) in
  Z.of_nat k < depth -> cvalid (mo_src x) = true ->
  bdata (cbeat (mo_src x)) = snd (image (t1 ++ [p])) k.
Proof.
  intros depth ins t1 p x t2 Hd E Hq Hc Hp.
  pose proof (P_pos depth Hd) as HP. set (P := 2 ^ ms_aw depth) in *.
  set (Inv := fun (t : list mem_obs) (s : ms_state) =>
     Forall (fun o => mo_rewind o = true -> cvalid (mo_sink o) = false) t ->
     (forall q r, t = q ++ r -> Z.of_nat (fst (image q)) <= depth) ->
     ms_rd s = Z.of_nat (length (ms_delivered (since mo_rewind t))) mod P /\
     ms_wr s = Z.of_nat (fst (image t)) mod P /\
     (forall a : nat, Z.of_nat a < depth -> ms_mem s (Z.of_nat a) = snd (image t) a) /\
     (forall t' o, t = t' ++ [o] -> cvalid (mo_sink o) = false -> ms_rd s < depth -> ms_rp s = ms_mem s (ms_rd s))).
  assert (HI : forall ins, Inv (trace (mem_stream depth) ins) (state (mem_stream depth) ins)).
  { apply run_inv.
    - intros _ _. cbn. repeat split; auto; intros t' o E'; destruct t'; discriminate.
    - intros t s [rw c r] IH HF HI. apply Forall_app in HF. destruct HF as [HF1 HF2]. apply Forall_inv in HF2.
      pose proof (HI (t ++ [_]) [] ltac:(now rewrite app_nil_r)) as HL.
      destruct (IH HF1) as (I1 & I2 & I3 & I4).
      { intros q r0 E0. apply (HI q (r0 ++ [cout (mem_stream depth) s (MemIn rw c r)])). rewrite E0. now rewrite <- app_assoc. }
      pose proof (HI t [cout (mem_stream depth) s (MemIn rw c r)] eq_refl) as HL0.
      clear IH HI. unfold image in HL |- *. rewrite fold_left_app in HL |- *. fold (image t) in HL |- *.
      cbn [fold_left] in HL |- *. unfold image_step in HL |- *. rewrite since_snoc.
      cbn [mem_stream cout cnext mo_rewind mo_sink mi_rewind mi_sink mi_rready] in HL, HF2 |- *.
      destruct rw.
      + cbn [ms_delivered flat_map length fst snd]. unfold ms_next. cbn [ms_rd ms_wr ms_mem ms_rp].
        rewrite (HF2 eq_refl). cbn [andb]. repeat split; auto.
        intros t' o _ _ _. destruct (Z.ltb_spec 0 depth); [reflexivity|lia].
      + rewrite ms_delivered_app, app_length, ms_delivered_1. cbn [mo_src mo_rready]. unfold ms_next, ms_sready. cbn [negb].
        destruct (cvalid c) eqn:Ec; cbn [andb ms_rd ms_wr ms_mem ms_rp fst snd] in HL |- *.
        * unfold xfer, ms_src. rewrite Ec. cbn [negb andb cvalid length]. rewrite Nat.add_0_r.
          repeat split; auto.
          -- unfold trunc. fold P. rewrite I2, Z.add_mod_idemp_l by lia. f_equal. lia.
          -- intros a Ha. rewrite I2, Z.mod_small by lia.
             destruct (Z.eqb_spec (Z.of_nat a) (Z.of_nat (fst (image t)))), (Nat.eqb_spec a (fst (image t))); try lia; cbn; auto.
             destruct (Z.ltb_spec (Z.of_nat a) depth); [reflexivity|lia].
          -- intros t' o E' Ho _. apply app_inj_tail in E'. destruct E' as [_ <-]. cbn in Ho. congruence.
        * unfold xfer. destruct (cvalid (ms_src s false c) && r) eqn:Ef; cbn [length].
          -- repeat split; auto.
             ++ unfold trunc. fold P. rewrite I1, Z.add_mod_idemp_l by lia. f_equal. lia.
             ++ intros _ _ _ _ Hl. destruct (Z.ltb_spec (trunc (ms_aw depth) (ms_rd s + 1)) depth); [reflexivity|lia].
          -- rewrite Nat.add_0_r. repeat split; auto.
             intros _ _ _ _ Hl. destruct (Z.ltb_spec (ms_rd s) depth); [reflexivity|lia]. }
  intros k Hk Hv. assert (E2 := E). replace (t1 ++ p :: x :: t2) with ((t1 ++ [p]) ++ x :: t2) in E2 by (now rewrite <- app_assoc).
  apply trace_one in E2. destruct E2 as (a & i & b & -> & Ea & ->).
  specialize (HI a). rewrite Ea in HI. destruct (HI Hq Hc) as (I1 & I2 & I3 & I4).
  cbn [mem_stream cout mo_src ms_src cbeat bdata] in *. fold k in I1. rewrite Z.mod_small in I1 by lia.
  rewrite (I4 _ _ eq_refl Hp) by lia. rewrite I1. apply I3. exact Hk.
Qed.

Example C29_nonvacuous :
  let w d := MemIn false (Chan true (Beat false false d)) false in
  let r := MemIn false (Chan false (Beat false false 0)) true in
  let n := MemIn false (Chan false (Beat false false 0)) false in
  ms_delivered (trace (mem_stream 4) [w 5; w 6; n; r; w 7; n; r; r]) =
  [Beat false false 5; Beat false false 6; Beat false true 7].
Proof. reflexivity. Qed.

(** C30: since reset or the last rewind, the beats delivered are the first words
    of the init buffer, at most all of them, and last is on the final word only. *)
Theorem C30_reader_replays : forall init buffered ins, init <> [] ->
  let t := trace (memory_reader init buffered) ins in
  let d := mr_delivered (since ro_rewind t) in
  d = firstn (length d) (packet init).
Proof.
  intros init b ins Hne t d. assert (Hn : (1 <= length init)%nat) by (destruct init; [congruence|simpl; lia]).
  assert (exists k, (k <= length init)%nat /\ exists l, d ++ l = map (packet_beat init) (seq 0 k)) as (k & Hk & l & E).
  { destruct b; cbn [memory_reader] in *.
    - destruct (mr_run_b init Hn ins) as (k & Hk & Hd & _). exists k. split; [apply Hk|eauto].
    - destruct (mr_run_u init Hn ins) as (k & Hk & Hd & _). exists k. split; [apply Hk|]. exists []. now rewrite app_nil_r. }
  unfold packet. replace (length init) with (k + (length init - k))%nat by lia.
  rewrite seq_app, map_app, firstn_app, <- E, firstn_app, Nat.sub_diag, firstn_O, app_nil_r, firstn_all.
  rewrite app_length. replace (length d - (length d + length l))%nat with 0%nat by lia. now rewrite firstn_O, app_nil_r.
Qed.

(** C30, cycle-exact.  One cycle after reset or rewind (two when buffered) the
    next word is offered in every cycle until all have been taken; done is high
    exactly once the final word has been fetched (when buffered: taken, or
    waiting in the buffer). *)
Theorem C30_reader_exact : forall init buffered ins t1 o t2, init <> [] ->
  trace (memory_reader init buffered) ins = t1 ++ o :: t2 ->
  let s := since ro_rewind t1 in
  let k := length (mr_delivered s) in
  (ro_rewind o = false ->
   cvalid (ro_src o) = Nat.leb (if buffered then 2 else 1) (length s) && Nat.ltb k (length init)) /\
  (cvalid (ro_src o) = true -> cbeat (ro_src o) = Beat false (Nat.eqb (S k) (length init)) (nth k init 0)) /\
  ro_done o = Nat.eqb (k + if buffered && cvalid (ro_src o) then 1 else 0) (length init).
Proof.
  intros init b ins t1 o t2 Hne E s k. assert (Hn : (1 <= length init)%nat) by (destruct init; [congruence|simpl; lia]).
  apply trace_one in E. destruct E as (a & [rw r] & c & -> & E & ->). destruct b; cbn [memory_reader] in *.
  - destruct (mr_run_b init Hn a) as (m & Hm & Hd & Hw & H1 & H2). rewrite E in Hd, Hw, H1, H2. fold s in Hd, Hw, H1, H2.
    cbn [mem_reader_buffered cout ro_src ro_done ro_rewind fst snd andb].
    set (st := state (mem_reader_buffered init) a) in *. unfold chan_beats in Hd.
    pose proof Hm as (M1 & M2 & _).
    destruct (cvalid (snd st)) eqn:Ev.
    + assert (Hl : (k + 1 = m)%nat).
      { apply (f_equal (@length _)) in Hd. rewrite app_length, map_length, seq_length in Hd. simpl in Hd. exact Hd. }
      split; [|split].
      * intros _. destruct (Nat.ltb_spec k (length init)); [|lia].
        destruct (Nat.leb_spec 2 (length s)); [reflexivity|]. destruct H1 as [X _]; [lia|discriminate].
      * intros _. rewrite <- Hl, Nat.add_1_r, map_seq_S in Hd. apply app_inj_tail in Hd. apply Hd.
      * now rewrite M2, Hl.
    + rewrite app_nil_r in Hd. assert (Hl : k = m) by (unfold k; rewrite Hd, map_length, seq_length; reflexivity).
      split; [|split].
      * intros _. destruct (Nat.leb_spec 2 (length s)); [|reflexivity]. rewrite Hl, (H2 ltac:(lia) eq_refl).
        now rewrite Nat.ltb_irrefl.
      * discriminate.
      * now rewrite M2, Nat.add_0_r, Hl.
  - destruct (mr_run_u init Hn a) as (m & Hm & Hd & Hw). rewrite E in Hd, Hw. fold s in Hd, Hw.
    assert (Hl : k = m) by (unfold k; rewrite Hd, map_length, seq_length; reflexivity).
    cbn [mem_reader cout ro_src ro_done ro_rewind fst snd andb]. rewrite Hl.
    destruct (mr_ok_src init Hn _ m Hm) as [S1 S2]. set (st := state (mem_reader init) a) in *.
    split; [|split].
    + intros ->. rewrite S1. f_equal. destruct (mr_wait st).
      * now rewrite (proj1 Hw eq_refl).
      * destruct s; [|reflexivity]. destruct Hw as [_ Hw]. now specialize (Hw eq_refl).
    + destruct rw; [discriminate|]. intros Hv. now rewrite (S2 Hv).
    + rewrite Nat.add_0_r. apply Hm.
Qed.

Example C30_nonvacuous :
  let r b := (false, b) in
  let t := trace (memory_reader [5; 6; 7] true) [r true; r true; r true; (true, true); r false; r true; r true; r false; r true; r true; r true] in
  mr_delivered (since ro_rewind t) = [Beat false false 5; Beat false false 6; Beat false true 7] /\
  mr_delivered t = [Beat false false 5; Beat false false 6; Beat false false 5; Beat false false 6; Beat false true 7].
Proof. vm_compute. auto. Qed.

(** A packet of two words in a memory of four ends; one of four words in the same memory is repeated. *)
Example C28_nonvacuous :
  let w d := MemIn false (Chan true (Beat false false d)) false in
  let r := MemIn false (Chan false (Beat false false 0)) true in
  let rw := MemIn true (Chan false (Beat false false 0)) false in
  let t2 := trace (memory_stream 4 false) ([w 5; w 6; rw] ++ repeat r 5) in
  let t4 := trace (memory_stream 4 true) ([w 5; w 6; w 7; w 8; rw] ++ repeat r 7) in
  not_full 4 2 /\ ms_written t2 = [5; 6] /\ ms_delivered (since mo_rewind t2) = [Beat false false 5; Beat false true 6] /\
  ms_delivered (since mo_rewind t4) = [Beat false false 5; Beat false false 6; Beat false false 7; Beat false true 8; Beat false false 5; Beat false false 6].
Proof. cbv zeta. split; [first [left; vm_compute; reflexivity|right; vm_compute; reflexivity|vm_compute; reflexivity|unfold not_full; lia]|]. vm_compute. repeat split. Qed.

(** The same in the shape of the theorems: a rewind, two words written with a pause, a rewind, one word read, then a cycle. *)
Example C27_nonvacuous_shape : exists tp tw o tr1 x tr2,
  let w d := MemIn false (Chan true (Beat false false d)) false in
  let r b := MemIn false (Chan false (Beat false false 0)) b in
  let rw := MemIn true (Chan false (Beat false false 0)) false in
  trace (memory_stream 4 false) [w 9; rw; w 5; r false; w 6; rw; r true; r true; r true; r true] = tp ++ tw ++ o :: tr1 ++ x :: tr2 /\
  ends_with_rewind tp /\ Forall (fun x => mo_rewind x = false) tw /\ mo_rewind o = true /\ cvalid (mo_sink o) = false /\
  Forall (fun x => cvalid (mo_sink x) = false) (tr1 ++ x :: tr2) /\ mo_rewind x = false /\ ms_written tw = [5; 6] /\
  ms_delivered (since mo_rewind tr1) = [Beat false false 5] /\ cvalid (mo_src x) = true.
Proof.
  eexists [_; _], [_; _; _], _, [_], _, _. cbv zeta. split; [reflexivity|]. split; [right; eexists [_], _; split; reflexivity|].
  split; [repeat constructor|]. split; [reflexivity|]. split; [reflexivity|]. split; [repeat constructor|]. repeat split.
Qed.

Print Assumptions C27_read_back.
Print Assumptions C27_read_back_exact.
Print Assumptions C28_stops_after_packet_partial.
Print Assumptions C28_full_memory_repeats.
Print Assumptions C28_stops_after_packet_refuted.
Print Assumptions C29_read_while_writing_refuted.
Print Assumptions C29_read_while_writing_partial.
Print Assumptions C30_reader_replays.
Print Assumptions C30_reader_exact.
Print Assumptions C84_refused_beat_not_stored_refuted.
Print Assumptions C84_refused_beat_after_write_partial.
Print Assumptions C27_sink_ready.
