(** Property C19 (FIFO wrappers). *)
From Verif Require Import Stream Bits Fifo_model Fifo_proofs.

(** The packing of first, last and payload into one FIFO word loses nothing. *)
Theorem C19_fifo_packing_injective : forall pw a b, 0 <= pw ->
  0 <= bdata a < 2 ^ pw -> 0 <= bdata b < 2 ^ pw ->
  fifo_pack pw a = fifo_pack pw b -> a = b.
Proof. exact pack_injective. Qed.

(** SyncFIFO, buffered or not, any requested depth: beats come out exactly as they
    went in, in order; what is inside is at most max(depth, 8) beats. *)
Theorem C19_sync_fifo_lossless : forall pw depth buffered ins, 0 <= pw ->
  let t := strace (stream_sync_fifo pw depth buffered) ins in
  Forall (fun b => 0 <= bdata b < 2 ^ pw) (accepted t) ->
  exists held, accepted t = emitted t ++ held /\ Z.of_nat (length held) <= Z.max depth 8.
Proof.
  intros pw depth b ins Hp t Hok. destruct (ssf_lossless pw depth Hp b ins Hok) as (held & E1 & E2).
  exists held. split; auto. unfold wrapper_depth in E2. destruct (Z.ltb_spec depth 8); lia.
Qed.

Theorem C19_sync_fifo_stable : forall pw depth buffered ins,
  stable_src (strace (stream_sync_fifo pw depth buffered) ins).
Proof. intros. apply ssf_stable. Qed.

(** The unbuffered FIFO is ready exactly when it is not full, and offers a beat
    exactly when it is not empty; the beat offered is the oldest one inside. *)
Theorem C19_sync_fifo_handshake : forall pw depth ins t1 o t2, 0 <= pw ->
  let t := strace (stream_sync_fifo pw depth false) ins in
  Forall (fun b => 0 <= bdata b < 2 ^ pw) (accepted t) ->
  t = t1 ++ o :: t2 ->
  exists held, accepted t1 = emitted t1 ++ held /\
    (o_sready o = true <-> Z.of_nat (length held) < Z.max depth 8) /\
    match held with
    | [] => cvalid (o_src o) = false
    | b :: _ => o_src o = Chan true b
    end.
Proof.
  intros pw depth ins t1 o t2 Hp t Hok E. rewrite E, accepted_app in Hok. apply Forall_app in Hok. destruct Hok as [Hok _].
  apply trace_one in E. destruct E as (a & [c r] & b & -> & <- & ->).
  set (d := wrapper_depth depth).
  assert (Hd : d = Z.max depth 8) by (unfold d, wrapper_depth; destruct (Z.ltb_spec depth 8); lia).
  destruct (wrap_lossless pw (sync_fifo d) d (fun q => q) (fun q => Z.of_nat (length q) <= d) Hp) with (ins := a) as (held & E1 & E2 & E3); auto.
  - cbn; lia.
  - intros q we wd re Hq. cbn. rewrite app_length.
    destruct (Z.eqb_spec (Z.of_nat (length q)) d); rewrite ?andb_false_r, ?andb_true_r; cbn [negb];
          destruct re, we, q; cbn in *; lia.
  - intros q _. cbn. destruct q; [discriminate|eauto].
  - intros q we wd re _. cbn. destruct q, re; reflexivity.
  - exists held. split; [exact E1|]. rewrite <- Hd.
    unfold stream_sync_fifo. fold d. set (s := state _ a) in *.
    assert (HL : length s = length held) by (rewrite <- (map_length (fifo_pack pw) held), E2; reflexivity).
    split.
    + cbn [fifo_wrapper scirc cout o_sready rdy sync_fifo wf_wrdy fst snd]. rewrite negb_true_iff, Z.eqb_neq, HL. lia.
    + destruct held as [|x held]; cbn in E2 |- *; rewrite <- E2; [reflexivity|]. cbn.
      rewrite pack_unpack; auto. apply (proj1 (Forall_forall _ _) Hok). assert (HX := E1). match type of HX with ?l = _ => change (In x l) end. rewrite HX. apply in_or_app. right. now left.
Qed.

(** The buffered FIFO never refuses a beat while two or more places are free, and
    offers its oldest beat at the latest one cycle after it was accepted... *)
Theorem C19_sync_fifo_buffered_handshake : forall pw depth ins t1 o o' t2, 0 <= pw ->
  let t := strace (stream_sync_fifo pw depth true) ins in
  Forall (fun b => 0 <= bdata b < 2 ^ pw) (accepted t) ->
  t = t1 ++ o :: o' :: t2 ->
  exists held, accepted t1 = emitted t1 ++ held /\
    (o_sready o = true -> Z.of_nat (length held) < Z.max depth 8) /\
    (Z.of_nat (length held) < Z.max depth 8 - 1 -> o_sready o = true) /\
    (cvalid (o_src o) = false -> held <> [] -> exists b, hd_error held = Some b /\ o_src o' = Chan true b).
Proof.
  intros pw depth ins t1 o o' t2 Hp t Hok E. rewrite E, accepted_app in Hok. apply Forall_app in Hok. destruct Hok as [Hok _].
  apply trace_two in E. destruct E as (a & [c r] & [c' r'] & b & -> & <- & -> & ->).
  set (d := wrapper_depth depth).
  assert (Hd : d = Z.max depth 8) by (unfold d, wrapper_depth; destruct (Z.ltb_spec depth 8); lia).
  set (m := fifo_wrapper pw (sync_fifo_buffered d)).
  assert (HI : sfb_inv d (state (scirc m) a)).
  { apply (state_inv (scirc m)).
    - unfold sfb_inv; cbn; lia.
    - intros [q u] [cc re]. unfold sfb_inv. cbn. 
      destruct (Z.eqb_spec (Z.of_nat (length q)) (d - 1)); rewrite ?andb_false_r, ?andb_true_r; cbn [negb];
        destruct u, re, (cvalid cc), q; cbn in *; rewrite ?app_length; cbn in *; lia. }
  destruct (wrap_lossless pw (sync_fifo_buffered d) d sfb_content (sfb_inv d) Hp) with (ins := a) as (held & E1 & E2 & E3); auto.
  - unfold sfb_inv; cbn; lia.
  - intros [q u] we wd re. unfold sfb_inv. cbn.
    destruct (Z.eqb_spec (Z.of_nat (length q)) (d - 1)); rewrite ?andb_false_r, ?andb_true_r; cbn [negb];
        destruct u, re, we, q; cbn in *; rewrite ?app_length; cbn in *; lia.
  - intros [q u]. unfold sfb_inv, sfb_content. cbn. destruct u; cbn; lia.
  - intros [q u] _. unfold sfb_content. cbn. destruct u; [eauto|discriminate].
  - intros [q u] we wd re _. unfold sfb_content. cbn.
    destruct (Z.of_nat (length q) =? d - 1); cbn [negb]; rewrite ?andb_false_r, ?andb_true_r;
          destruct u, re, we, q; cbn; rewrite ?app_nil_r; reflexivity.
  - exists held. split; [exact E1|]. rewrite <- Hd.
    unfold stream_sync_fifo. fold d. change (state (scirc (fifo_wrapper pw (sync_fifo_buffered d))) a) with (state (scirc m) a) in *.
    set (s := state (scirc m) a) in *.
    assert (HL : length (sfb_content s) = length held) by (rewrite <- (map_length (fifo_pack pw) held), E2; reflexivity).
    clearbody s. destruct s as [q u]. unfold sfb_content in *. unfold sfb_inv in HI. cbn [fst snd] in *.
    split; [|split].
    + cbn. intros H. apply negb_true_iff, Z.eqb_neq in H. destruct u; cbn in HL; lia.
    + cbn. intros H. apply negb_true_iff, Z.eqb_neq. destruct u; cbn in HL; lia.
    + cbn. destruct u; [discriminate|]. intros _ Hne. destruct held as [|x held]; [congruence|].
      exists x. split; [reflexivity|]. cbn in E2. rewrite <- E2. cbn.
      rewrite pack_unpack; auto. apply (proj1 (Forall_forall _ _) Hok). assert (HX := E1). match type of HX with ?l = _ => change (In x l) end. rewrite HX. apply in_or_app. right. now left.
Qed.

(** AsyncFIFO: whatever the interleaving of the two clocks and however late each
    side sees the other's progress. *)
Theorem C19_async_fifo_lossless : forall pw depth events, 0 <= pw ->
  let t := trace (async_fifo pw depth) events in
  Forall (fun b => 0 <= bdata b < 2 ^ pw) (af_accepted t) ->
  exists held, af_accepted t = af_emitted t ++ held /\ Z.of_nat (length held) <= 2 ^ Z.log2_up (Z.max depth 8).
Proof.
  intros pw depth ev Hp t Hok. destruct (af_lossless pw (async_depth depth) Hp (async_depth_pos depth) ev Hok) as (held & E1 & E2).
  exists held. split; auto. rewrite async_depth_max in E2. exact E2.
Qed.

(** The capacity is at least the depth asked for, at least 8, and less than twice as much. *)
Theorem C19_async_fifo_depth : forall depth, let d := Z.max depth 8 in d <= 2 ^ Z.log2_up d < 2 * d.
Proof.
  intros depth d. assert (1 < d) by lia. pose proof (Z.log2_up_spec d ltac:(lia)) as [L1 L2]. split; [exact L2|].
  pose proof (Z.log2_up_pos d ltac:(lia)). replace (Z.log2_up d) with (1 + Z.pred (Z.log2_up d)) by lia. rewrite Z.pow_add_r by lia. lia.
Qed.

(** AsyncFIFO, progress: at a write edge where the writer's view of the reader is up to
    date, a beat is taken exactly if fewer than max(depth, 8), rounded up to a power of two,
    are inside; at a read edge
    where the reader's view is up to date, the oldest beat inside is offered; with a
    stale view nothing but that beat is ever offered. *)
Theorem C19_async_fifo_flow : forall pw depth events, 0 <= pw ->
  let c := async_fifo pw depth in
  let t := trace c events in
  Forall (fun b => 0 <= bdata b < 2 ^ pw) (af_accepted t) ->
  exists held, af_accepted t = af_emitted t ++ held /\
    (forall sink seen o, trace c (events ++ [AfWrite sink seen]) = t ++ [o] ->
       Z.of_nat (length (af_emitted t)) <= seen ->
       af_wr o = xfer sink (Z.of_nat (length held) <? 2 ^ Z.log2_up (Z.max depth 8))) /\
    (forall r seen o, trace c (events ++ [AfRead r seen]) = t ++ [o] ->
       exists ch, af_source o = Some ch /\ af_rdo o = xfer ch r /\
         (cvalid ch = true -> hd_error held = Some (cbeat ch)) /\
         (Z.of_nat (length (af_accepted t)) <= seen -> held <> [] -> cvalid ch = true)).
Proof.
  intros pw depth ev Hp c t Hok. destruct (af_inv_run pw (async_depth depth) Hp (async_depth_pos depth) ev Hok) as (H1 & H2 & H3 & H4 & H5 & H6).
  change (async_words pw (async_depth depth)) with c in H1, H2, H3, H4, H5, H6. fold t in H5, H6.
  set (s := state c ev) in *.
  exists (skipn (Z.to_nat (af_rd s)) (af_accepted t)).
  pose proof (f_equal (@length Z) H5) as HL. rewrite map_length in HL.
  assert (HE : Z.of_nat (length (af_emitted t)) = af_rd s) by (rewrite H6, firstn_length; lia).
  split; [rewrite H6, firstn_skipn; reflexivity|].
  pose proof (async_depth_max depth) as HD.
  split.
  - intros k seen o Ho Hs. rewrite trace_app in Ho. fold t in Ho. apply app_inv_head in Ho. fold s in Ho.
    injection Ho as <-. cbn [af_wr]. f_equal. unfold af_wrdy. rewrite HD, skipn_length.
    unfold clampup. f_equal. lia.
  - intros r seen o Ho. rewrite trace_app in Ho. fold t in Ho. apply app_inv_head in Ho. fold s in Ho.
    injection Ho as <-. cbn [af_source af_rdo]. eexists; split; [reflexivity|]. split; [reflexivity|].
    cbn [cvalid cbeat]. unfold af_rrdy, clampup.
    destruct (nth_error (af_accepted t) (Z.to_nat (af_rd s))) as [b|] eqn:En.
    + assert (Hsk : exists l, skipn (Z.to_nat (af_rd s)) (af_accepted t) = b :: l).
      { clear - En. revert En. generalize (af_accepted t) as l, (Z.to_nat (af_rd s)) as k.
        intros l k. revert l. induction k; intros [|x l] E; try discriminate; cbn in *; [injection E as ->; eauto|eauto]. }
      destruct Hsk as (l & ->). split.
      * intros _. cbn. f_equal. rewrite H5.
        rewrite (nth_error_nth (map (fifo_pack pw) (af_accepted t)) (Z.to_nat (af_rd s)) 0 (map_nth_error (fifo_pack pw) _ _ En)).
        symmetry. apply pack_unpack; auto. rewrite Forall_forall in Hok. apply Hok. eapply nth_error_In; eauto.
      * intros Hs _. apply Z.ltb_lt. assert (Z.to_nat (af_rd s) < length (af_accepted t))%nat by (apply nth_error_Some; congruence). lia.
    + apply nth_error_None in En. rewrite skipn_all2 by auto. split; [|congruence].
      intros H. apply Z.ltb_lt in H. lia.
Qed.

(** ** C141: the level attributes *)
(** SyncFIFO: in every cycle, level is the number of beats accepted and not yet delivered. *)
Theorem C141_sync_level : forall pw depth buffered ins,
  let m := stream_sync_fifo pw depth buffered in
  let t := strace m ins in
  sync_fifo_level pw depth buffered (state (scirc m) ins) = Z.of_nat (length (accepted t)) - Z.of_nat (length (emitted t)).
Proof.
  intros pw depth b ins m t. unfold t, strace.
  apply (run_inv (scirc m) (fun t s => sync_fifo_level pw depth b s = Z.of_nat (length (accepted t)) - Z.of_nat (length (emitted t)))).
  { unfold m. destruct b; reflexivity. }
  clear t ins. intros t s [c r] IH. rewrite accepted_app, emitted_app, accepted_1, emitted_1, !app_length.
  unfold m in *. clear m. set (na := length (accepted t)) in *. set (ne := length (emitted t)) in *. destruct b; cbn in *; set (d := wrapper_depth depth) in *.
  - destruct s as [q o]. cbn [fst snd] in *. unfold xfer. cbn [cvalid cbeat]. destruct (negb (Z.of_nat (length q) =? d - 1)), (cvalid c), o, r, q; cbn in *; rewrite ?app_length; cbn; lia.
  - unfold xfer. cbn [cvalid cbeat]. rewrite app_length. destruct (negb (Z.of_nat (length s) =? d)), (cvalid c), r, s; cbn in *; lia.
Qed.
(** AsyncFIFO: at every edge of the reader's clock, r_level is at most the number of beats
    accepted and not yet delivered, and exactly that many if the reader's view of the writer
    is up to date; it is zero exactly when no beat is offered. *)
Theorem C141_async_level : forall pw depth events r seen o, 0 <= pw ->
  let c := async_fifo pw depth in
  let t := trace c events in
  Forall (fun b => 0 <= bdata b < 2 ^ pw) (af_accepted t) ->
  trace c (events ++ [AfRead r seen]) = t ++ [o] ->
  let held := Z.of_nat (length (af_accepted t)) - Z.of_nat (length (af_emitted t)) in
  exists l ch, af_level o = Some l /\ af_source o = Some ch /\
    0 <= l <= held /\ held <= 2 ^ Z.log2_up (Z.max depth 8) /\
    (Z.of_nat (length (af_accepted t)) <= seen -> l = held) /\ cvalid ch = (0 <? l).
Proof.
  intros pw depth ev r seen o Hp c t Hok Ho held.
  destruct (af_inv_run pw (async_depth depth) Hp (async_depth_pos depth) ev Hok) as (H1 & H2 & H3 & H4 & H5 & H6).
  change (async_words pw (async_depth depth)) with c in H1, H2, H3, H4, H5, H6. fold t in H5, H6. set (s := state c ev) in *.
  pose proof (f_equal (@length Z) H5) as HL. rewrite map_length in HL.
  assert (HE : Z.of_nat (length (af_emitted t)) = af_rd s) by (rewrite H6, firstn_length; lia).
  rewrite async_depth_max in H4.
  rewrite trace_app in Ho. fold t in Ho. apply app_inv_head in Ho. fold s in Ho. injection Ho as <-.
  eexists _, _. cbn [af_level af_source cvalid]. split; [reflexivity|]. split; [reflexivity|]. cbn [cvalid]. unfold af_rrdy, clampup, held.
  set (x := Z.max (af_seen_w s) (Z.min (Z.of_nat (length (af_mem s))) seen)). assert (af_seen_w s <= x <= Z.of_nat (length (af_mem s))) by (unfold x; lia).
  split; [lia|]. split; [lia|]. split; [unfold x; lia|]. destruct (Z.ltb_spec (af_rd s) x), (Z.ltb_spec 0 (x - af_rd s)); try reflexivity; lia.
Qed.
Example C141_nonvacuous :
  let w n := AfWrite (Chan true (Beat true false n)) 0 in
  map af_level (trace (async_fifo 8 9) (map w [1; 2; 3; 4; 5; 6; 7; 8; 9; 10; 11; 12] ++ [AfRead false 5; AfRead true 9; AfRead false 12])) =
    repeat None 12 ++ [Some 5; Some 9; Some 11] /\
  let i x r := (Chan x (Beat false false 3), r) in
  let ins := [i true false; i true false; i true true; i false false] in
  sync_fifo_level 8 2 false (state (scirc (stream_sync_fifo 8 2 false)) ins) = 2 /\
  sync_fifo_level 8 2 true (state (scirc (stream_sync_fifo 8 2 true)) ins) = 2.
Proof. repeat split; vm_compute; reflexivity. Qed.

Example C19_nonvacuous :
  let ins := [(Chan true (Beat true false 200), false); (Chan true (Beat false true 3), false);
              (Chan false (Beat false false 0), true); (Chan false (Beat false false 0), true)] in
  emitted (strace (stream_sync_fifo 8 2 false) ins) = [Beat true false 200; Beat false true 3] /\
  emitted (strace (stream_sync_fifo 8 2 true) ins) = [Beat true false 200; Beat false true 3].
Proof. split; reflexivity. Qed.

Example C19_async_nonvacuous :
  let t := trace (async_fifo 8 4) [AfWrite (Chan true (Beat true false 7)) 0; AfRead true 0;
             AfWrite (Chan true (Beat false true 9)) 0; AfRead true 1; AfRead true 1; AfRead true 2] in
  af_accepted t = [Beat true false 7; Beat false true 9] /\ af_emitted t = [Beat true false 7; Beat false true 9].
Proof. split; reflexivity. Qed.

Print Assumptions C19_fifo_packing_injective.
Print Assumptions C19_sync_fifo_lossless.
Print Assumptions C19_sync_fifo_stable.
Print Assumptions C19_sync_fifo_handshake.
Print Assumptions C19_sync_fifo_buffered_handshake.
Print Assumptions C19_async_fifo_lossless.
Print Assumptions C19_async_fifo_depth.
Print Assumptions C19_async_fifo_flow.
Print Assumptions C141_sync_level.
Print Assumptions C141_async_level.
