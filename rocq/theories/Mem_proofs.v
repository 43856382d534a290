From Verif Require Import Stream Pipe_model Mem_model Mem_spec.

Lemma since_snoc {O} (rew : O -> bool) t o : since rew (t ++ [o]) = if rew o then [] else since rew t ++ [o].
Proof. unfold since. rewrite fold_left_app. reflexivity. Qed.

Lemma since_app_rew {O} (rew : O -> bool) t o u : rew o = true -> since rew (t ++ o :: u) = since rew u.
Proof.
  intros H. induction u as [|x u IH] using rev_ind.
  - rewrite since_snoc, H. reflexivity.
  - rewrite app_comm_cons, app_assoc, !since_snoc, IH. reflexivity.
Qed.

Lemma ms_delivered_app t u : ms_delivered (t ++ u) = ms_delivered t ++ ms_delivered u.
Proof. apply flat_map_app. Qed.
Lemma mr_delivered_app t u : mr_delivered (t ++ u) = mr_delivered t ++ mr_delivered u.
Proof. apply flat_map_app. Qed.
Lemma ms_delivered_1 o : ms_delivered [o] = xfer (mo_src o) (mo_rready o).
Proof. simpl. apply app_nil_r. Qed.
Lemma mr_delivered_1 o : mr_delivered [o] = xfer (ro_src o) (ro_rready o).
Proof. simpl. apply app_nil_r. Qed.

Lemma map_seq_S {X} (f : nat -> X) k : map f (seq 0 (S k)) = map f (seq 0 k) ++ [f k].
Proof. rewrite seq_S, map_app. reflexivity. Qed.

(* ---------------- MemoryStream core ---------------- *)
Section MS.
  Context (depth : Z).
  Hypothesis Hd : 2 <= depth.
  Let aw := ms_aw depth.
  Let P := 2 ^ aw.

  Lemma P_pos : depth <= P.
  Proof. unfold P, aw, ms_aw. apply range_width_bound. lia. Qed.

  (** write phase: [ws] written since addr_wr was 0 *)
  Definition wr_ok (s : ms_state) (ws : list Z) : Prop :=
    let n := Z.of_nat (length ws) in
    n <= depth ->
    ms_wr s = n mod P /\ (1 <= n -> ms_level s = n) /\
    forall i, (i < length ws)%nat -> ms_mem s (Z.of_nat i) = nth i ws 0.

  Lemma wr_step s ws c r : wr_ok s ws ->
    wr_ok (ms_next depth s false c r) (ws ++ map bdata (xfer c (ms_sready false))).
  Proof.
    unfold wr_ok. intros H. pose proof P_pos. cbv zeta in *. unfold xfer, ms_sready. cbn [negb].
    destruct (cvalid c) eqn:Ec; cbn [andb map]; rewrite ?app_nil_r.
    - rewrite app_length. cbn [length]. intros Hn.
      destruct H as (H1 & H2 & H3); [lia|]. unfold ms_next. rewrite Ec. cbn [andb negb ms_sready ms_wr ms_level ms_mem].
      assert (Hmod : Z.of_nat (length ws) mod P = Z.of_nat (length ws)) by (apply Z.mod_small; lia).
      repeat split.
      + fold aw. unfold trunc. fold P. rewrite H1, Hmod. f_equal. lia.
      + intros _. rewrite H1, Hmod. rewrite trunc_range_small by lia. lia.
      + intros i Hi. rewrite H1, Hmod. destruct (Nat.eq_dec i (length ws)) as [->|Hne].
        * rewrite Z.eqb_refl, app_nth2, Nat.sub_diag by lia. cbn. destruct (Z.ltb_spec (Z.of_nat (length ws)) depth); [reflexivity|lia].
        * destruct (Z.eqb_spec (Z.of_nat i) (Z.of_nat (length ws))); [lia|]. cbn.
          rewrite app_nth1 by lia. apply H3. lia.
    - intros Hn. destruct H as (H1 & H2 & H3); [lia|]. unfold ms_next. rewrite Ec. cbn [andb negb ms_sready ms_wr ms_level ms_mem].
      repeat split; auto.
  Qed.

  Section Read.
    Context (ws : list Z).
    Let n := length ws.
    Hypothesis Hn : (1 <= n)%nat.
    Hypothesis Hnd : Z.of_nat n <= depth.

    Definition nowrap : Prop := Z.of_nat n < P.
    Let Pn := Z.to_nat P.

    (** k-th beat delivered after a rewind *)
    Definition rb (k : nat) : beat Z := packet_beat ws (k mod Pn).

    Definition rd_ok (s : ms_state) (k : nat) : Prop :=
      (forall i, (i < n)%nat -> ms_mem s (Z.of_nat i) = nth i ws 0) /\
      ms_level s = Z.of_nat n /\ ms_rd s = Z.of_nat (k mod Pn) /\ (nowrap -> (k <= n)%nat) /\
      (ms_rd s < Z.of_nat n -> ms_rp s = nth (k mod Pn) ws 0).

    Lemma Pn_facts : Z.of_nat Pn = P /\ (2 <= Pn)%nat /\ (n <= Pn)%nat.
    Proof. pose proof P_pos. unfold Pn. lia. Qed.

    Lemma rd_start s c r : wr_ok s ws -> cvalid c = false \/ Z.of_nat n < depth -> rd_ok (ms_next depth s true c r) 0.
    Proof.
      intros H Hc. destruct (H Hnd) as (H1 & H2 & H3). unfold rd_ok, ms_next. cbn [andb ms_mem ms_level ms_rd ms_rp].
      destruct Pn_facts as (F1 & F2 & F3). rewrite Nat.mod_0_l by lia.
      split; [|repeat split; auto; try lia].
      { intros i Hi. destruct Hc as [Hc|Hc]; [rewrite Hc; cbn; auto|].
        pose proof P_pos. rewrite H1. fold n. rewrite Z.mod_small by lia.
        destruct (Z.eqb_spec (Z.of_nat i) (Z.of_nat n)); [lia|]. rewrite andb_false_r. cbn. auto. }
      intros _. destruct (Z.ltb_spec 0 depth); [|lia]. apply (H3 0%nat). unfold n in Hn. lia.
    Qed.

    Lemma rd_rewind s k c r : rd_ok s k -> cvalid c = false -> rd_ok (ms_next depth s true c r) 0.
    Proof.
      intros (H1 & H2 & H3 & H4 & H5) Hc. unfold rd_ok, ms_next. rewrite Hc. cbn [andb ms_mem ms_level ms_rd ms_rp].
      destruct Pn_facts as (F1 & F2 & F3). rewrite Nat.mod_0_l by lia.
      repeat split; auto; try lia.
      intros _. destruct (Z.ltb_spec 0 depth); [|lia]. apply (H1 0%nat). lia.
    Qed.

    Lemma nowrap_dec : nowrap \/ n = Pn.
    Proof. unfold nowrap. destruct Pn_facts as (F1 & F2 & F3). lia. Qed.

    Lemma rd_src s k c : rd_ok s k -> cvalid c = false ->
      (cvalid (ms_src s false c) = true <-> (nowrap -> (k < n)%nat)) /\
      (cvalid (ms_src s false c) = true -> ms_src s false c = Chan true (rb k)).
    Proof.
      intros (H1 & H2 & H3 & H4 & H5) Hc. destruct Pn_facts as (F1 & F2 & F3).
      pose proof (Nat.mod_upper_bound k Pn ltac:(lia)).
      unfold ms_src, ms_underflow, ms_last. rewrite Hc. cbn [negb andb cvalid].
      split.
      - rewrite negb_true_iff, Z.leb_gt, H2, H3. split.
        + intros Hlt Hw. specialize (H4 Hw). unfold nowrap in Hw. rewrite Nat.mod_small in Hlt by lia. lia.
        + intros Hlt. destruct nowrap_dec as [Hw|Hw]; [|lia].
          specialize (Hlt Hw). rewrite Nat.mod_small by lia. lia.
      - intros Hv. rewrite Hv. apply negb_true_iff, Z.leb_gt in Hv. rewrite H2 in Hv.
        unfold rb, packet_beat. rewrite H5 by lia. f_equal. f_equal. fold n. rewrite H2, H3 in *.
        destruct (Nat.eqb_spec (S (k mod Pn)) n), (Z.eqb_spec (Z.of_nat (k mod Pn)) (Z.of_nat n - 1)); lia.
    Qed.

    Lemma rd_step s k c r : rd_ok s k -> cvalid c = false ->
      rd_ok (ms_next depth s false c r) (if cvalid (ms_src s false c) && r then S k else k).
    Proof.
      intros H Hc. pose proof (rd_src s k c H Hc) as [Hs _]. pose proof H as (H1 & H2 & H3 & H4 & H5).
      destruct Pn_facts as (F1 & F2 & F3). pose proof P_pos as HP.
      unfold rd_ok, ms_next. rewrite Hc. cbn [andb ms_mem ms_level ms_rd ms_rp].
      destruct (cvalid (ms_src s false c) && r) eqn:E.
      - apply andb_true_iff in E. destruct E as [E _]. rewrite E in Hs. destruct Hs as [Hs _]. specialize (Hs eq_refl).
        assert (Hnext : trunc (ms_aw depth) (ms_rd s + 1) = Z.of_nat (S k mod Pn)).
        { unfold trunc. fold aw P. rewrite H3, Nat2Z.inj_mod, F1, Nat2Z.inj_mod, F1.
          rewrite Z.add_mod_idemp_l by lia. f_equal. lia. }
        rewrite Hnext. repeat split; auto.
        + intros Hlt. destruct (Z.ltb_spec (Z.of_nat (S k mod Pn)) depth); [|lia].
          apply H1. lia.
      - repeat split; auto. rewrite H3. intros Hlt. destruct (Z.ltb_spec (Z.of_nat (k mod Pn)) depth); [|lia].
        apply H1. lia.
    Qed.

    (** whole read phase, unbuffered *)
    Definition inv_u (u : list mem_obs) (s : ms_state) : Prop :=
      exists k, rd_ok s k /\ ms_delivered (since mo_rewind u) = map rb (seq 0 k).

    Lemma run_u s0 rd : rd_ok s0 0 -> Forall (fun i => cvalid (mi_sink i) = false) rd ->
      inv_u (trace_from (mem_stream depth) s0 rd) (state_from (mem_stream depth) s0 rd).
    Proof.
      intros H0. induction rd as [|[rw c r] rd IH] using rev_ind; intros HF.
      - exists 0%nat. split; auto.
      - apply Forall_app in HF. destruct HF as [HF1 HF2]. pose proof (Forall_inv HF2) as H1; cbn in H1.
        destruct (IH HF1) as (k & Hk & Hdel). rewrite trace_from_app, state_from_app.
        cbn [trace_from state_from]. set (s := state_from _ _ rd) in *. unfold inv_u.
        rewrite since_snoc. cbn [mem_stream cout cnext mo_rewind mi_rewind mi_sink mi_rready].
        destruct rw.
        + exists 0%nat. split; [eapply rd_rewind; eauto|reflexivity].
        + exists (if cvalid (ms_src s false c) && r then S k else k).
          split; [apply rd_step; auto|].
          rewrite ms_delivered_app, Hdel, ms_delivered_1. cbn [mo_src mo_rready]. unfold xfer.
          destruct (cvalid (ms_src s false c) && r) eqn:E.
          * rewrite map_seq_S. f_equal. apply andb_true_iff in E.
            rewrite (proj2 (rd_src s k c Hk H1)) by apply E. reflexivity.
          * now rewrite app_nil_r.
    Qed.

    Definition chan_beats (c : chan Z) : list (beat Z) := if cvalid c then [cbeat c] else [].

    Definition inv_b (u : list mem_obs) (s : ms_state * chan Z) : Prop :=
      exists k, rd_ok (fst s) k /\
        ms_delivered (since mo_rewind u) ++ chan_beats (snd s) = map rb (seq 0 k) /\
        (since mo_rewind u <> [] -> cvalid (snd s) = false -> nowrap /\ k = n) /\
        (since mo_rewind u = [] -> cvalid (snd s) = false).

    Lemma run_b s0 rd : rd_ok (fst s0) 0 -> cvalid (snd s0) = false ->
      Forall (fun i => cvalid (mi_sink i) = false) rd ->
      inv_b (trace_from (mem_stream_buffered depth) s0 rd) (state_from (mem_stream_buffered depth) s0 rd).
    Proof.
      intros H0 Hb. induction rd as [|[rw c r] rd IH] using rev_ind; intros HF.
      - exists 0%nat. cbn. unfold chan_beats. rewrite Hb. split; [exact H0|]. split; [reflexivity|]. split; [|auto].
        intros E. exfalso. apply E. reflexivity.
      - apply Forall_app in HF. destruct HF as [HF1 HF2]. pose proof (Forall_inv HF2) as H1; cbn in H1.
        destruct (IH HF1) as (k & Hk & Hdel & Hv & Hv0). rewrite trace_from_app, state_from_app.
        cbn [trace_from state_from]. set (s := state_from _ _ rd) in *. unfold inv_b.
        rewrite since_snoc. cbn [mem_stream_buffered cout cnext mo_rewind mi_rewind mi_sink mi_rready fst snd].
        destruct rw.
        + exists 0%nat. split; [eapply rd_rewind; eauto|]. cbn. repeat split; congruence.
        + pose proof (rd_src (fst s) k c Hk H1) as [Hs1 Hs2].
          set (q := ms_src (fst s) false c) in *. set (en := rdy (pipe_valid 0) (snd s) q r).
          exists (if cvalid q && en then S k else k).
          split; [apply rd_step; auto|].
          rewrite ms_delivered_app, ms_delivered_1. cbn [mo_src mo_rready].
          cbn in en. change (nxt (pipe_valid 0) (snd s) q r) with (if en then q else snd s).
          unfold xfer, chan_beats in *. unfold pv_en in en.
          split; [|split; [|intros E; destruct (since _ _); discriminate]].
          * destruct (cvalid (snd s)) eqn:Ev; cbn [negb andb orb] in *.
            -- subst en. destruct r; cbn [orb andb].
               ++ rewrite Hdel. rewrite andb_true_r. destruct (cvalid q) eqn:Eq.
                  ** rewrite map_seq_S, (Hs2 eq_refl). reflexivity.
                  ** apply app_nil_r.
               ++ rewrite Ev, app_nil_r, andb_false_r. exact Hdel.
            -- subst en. cbn [orb]. rewrite app_nil_r in *. rewrite Hdel, andb_true_r. destruct (cvalid q) eqn:Eq.
               ++ rewrite map_seq_S, (Hs2 eq_refl). reflexivity.
               ++ apply app_nil_r.
          * intros _. subst en. destruct (cvalid (snd s)) eqn:Ev; cbn [negb andb orb] in *.
            -- destruct r; [|congruence]. cbn [orb andb]. intros Eq. rewrite Eq in *. cbn [andb].
               destruct nowrap_dec as [Hw|Hw].
               ++ split; auto. pose proof (proj1 (proj2 (proj2 (proj2 Hk))) Hw).
                  destruct (Nat.eq_dec k n); auto. exfalso. enough (false = true) by discriminate. apply Hs1. lia.
               ++ exfalso. enough (false = true) by discriminate. apply Hs1. unfold nowrap. destruct Pn_facts. lia.
            -- cbn [orb]. intros Eq. rewrite Eq in *. cbn [andb].
               destruct nowrap_dec as [Hw|Hw].
               ++ split; auto. pose proof (proj1 (proj2 (proj2 (proj2 Hk))) Hw).
                  destruct (Nat.eq_dec k n); auto. exfalso. enough (false = true) by discriminate. apply Hs1. lia.
               ++ exfalso. enough (false = true) by discriminate. apply Hs1. unfold nowrap. destruct Pn_facts. lia.
    Qed.

    Lemma rb_firstn k : firstn n (map rb (seq 0 k)) = firstn k (packet ws).
    Proof.
      destruct Pn_facts as (F1 & F2 & F3).
      unfold packet. rewrite <- !firstn_map, <- !(firstn_map _ _ (seq 0 _)) || idtac.
      rewrite !firstn_map. fold n.
      assert (E : firstn n (seq 0 k) = firstn k (seq 0 n)).
      { destruct (le_lt_dec k n).
        - rewrite firstn_all2 by (rewrite seq_length; lia). 
          replace n with (k + (n - k))%nat by lia. rewrite seq_app, firstn_app, seq_length, Nat.sub_diag, firstn_O, app_nil_r.
          symmetry. apply firstn_all2. rewrite seq_length. lia.
        - rewrite (firstn_all2 (seq 0 n)) by (rewrite seq_length; lia).
          replace k with (n + (k - n))%nat by lia. rewrite seq_app, firstn_app, seq_length, Nat.sub_diag, firstn_O, app_nil_r.
          apply firstn_all2. rewrite seq_length. lia. }
      rewrite E. apply map_ext_in. intros x Hx. unfold rb. f_equal. apply Nat.mod_small.
      assert (In x (seq 0 n)). { rewrite <- (firstn_skipn k). apply in_or_app. now left. }
      apply in_seq in H. lia.
    Qed.
  End Read.

  (** write phase from a state with addr_wr = 0 *)
  Lemma wr_run_u s0 wr : ms_wr s0 = 0 -> Forall (fun i => mi_rewind i = false) wr ->
    wr_ok (state_from (mem_stream depth) s0 wr) (ms_written (trace_from (mem_stream depth) s0 wr)).
  Proof.
    intros H0. induction wr as [|[rw c r] wr IH] using rev_ind; intros HF.
    - intros _. cbn. repeat split; auto; lia.
    - apply Forall_app in HF. destruct HF as [HF1 HF2]. pose proof (Forall_inv HF2) as H1; cbn in H1. subst rw.
      rewrite trace_from_app, state_from_app. unfold ms_written. rewrite flat_map_app. fold (ms_written (trace_from (mem_stream depth) s0 wr)).
      cbn [trace_from state_from flat_map]. rewrite app_nil_r. apply wr_step. auto.
  Qed.

  Lemma wr_run_b s0 wr : ms_wr (fst s0) = 0 -> Forall (fun i => mi_rewind i = false) wr ->
    wr_ok (fst (state_from (mem_stream_buffered depth) s0 wr)) (ms_written (trace_from (mem_stream_buffered depth) s0 wr)).
  Proof.
    intros H0. induction wr as [|[rw c r] wr IH] using rev_ind; intros HF.
    - intros _. cbn. repeat split; auto; lia.
    - apply Forall_app in HF. destruct HF as [HF1 HF2]. pose proof (Forall_inv HF2) as H1; cbn in H1. subst rw.
      rewrite trace_from_app, state_from_app. unfold ms_written. rewrite flat_map_app. fold (ms_written (trace_from (mem_stream_buffered depth) s0 wr)).
      cbn [trace_from state_from flat_map]. rewrite app_nil_r. apply wr_step. auto.
  Qed.
End MS.

(* ---------------- MemoryStreamReader ---------------- *)
Section MR.
  Context (init : list Z).
  Let n := length init.
  Hypothesis Hn : (1 <= n)%nat.

  Definition mr_ok (s : mr_state) (k : nat) : Prop :=
    (k <= n)%nat /\ mr_done s = Nat.eqb k n /\ ((k < n)%nat -> mr_rd s = Z.of_nat k) /\
    (mr_wait s = false -> (k < n)%nat -> mr_rp s = nth k init 0) /\ (mr_wait s = true -> k = 0%nat).

  Lemma mr_ok_reset : mr_ok mr_reset 0.
  Proof. unfold mr_ok, mr_reset; cbn. repeat split; try lia; try congruence. destruct n; [lia|reflexivity]. Qed.

  Lemma mr_ok_rewind s r : mr_ok (mr_next init s true r) 0.
  Proof. unfold mr_ok, mr_next; cbn. repeat split; try lia; try congruence. destruct n; [lia|reflexivity]. Qed.

  Lemma mr_ok_src s k : mr_ok s k ->
    cvalid (mr_src init s false) = negb (mr_wait s) && Nat.ltb k n /\
    (cvalid (mr_src init s false) = true -> mr_src init s false = Chan true (packet_beat init k)).
  Proof.
    intros (H1 & H2 & H3 & H4 & H5). unfold mr_src. cbn [negb andb cvalid]. rewrite H2.
    assert (E : negb (Nat.eqb k n) = Nat.ltb k n) by (destruct (Nat.eqb_spec k n), (Nat.ltb_spec k n); lia).
    rewrite E. split; auto. intros Hv. rewrite Hv. apply andb_true_iff in Hv. destruct Hv as [Hw Hk].
    apply negb_true_iff in Hw. apply Nat.ltb_lt in Hk. unfold packet_beat, mr_last, mr_depth. rewrite (H4 Hw Hk), (H3 Hk).
    fold n. f_equal. f_equal. destruct (Z.eqb_spec (Z.of_nat k) (Z.of_nat n - 1)), (Nat.eqb_spec (S k) n); lia.
  Qed.

  Lemma mr_ok_step s k r : mr_ok s k ->
    mr_ok (mr_next init s false r) (if cvalid (mr_src init s false) && r then S k else k).
  Proof.
    intros H. pose proof (mr_ok_src s k H) as [Hs _]. pose proof H as (H1 & H2 & H3 & H4 & H5).
    unfold mr_ok, mr_next. cbn [mr_done mr_wait mr_rd mr_rp].
    destruct (cvalid (mr_src init s false) && r) eqn:E.
    - apply andb_true_iff in E. destruct E as [E _]. rewrite E in Hs. symmetry in Hs. apply andb_true_iff in Hs.
      destruct Hs as [Hw Hk]. apply negb_true_iff in Hw. apply Nat.ltb_lt in Hk.
      rewrite (H3 Hk). unfold mr_last, mr_depth. fold n. rewrite (H3 Hk), H2.
      assert (Htr : (S k < n)%nat -> trunc (range_width (Z.of_nat n)) (Z.of_nat k + 1) = Z.of_nat (S k)).
      { intros. rewrite trunc_range_small by lia. lia. }
      repeat split; try lia; try congruence.
      + destruct (Z.eqb_spec (Z.of_nat k) (Z.of_nat n - 1)), (Nat.eqb_spec (S k) n), (Nat.eqb_spec k n); try reflexivity; lia.
      + intros _ Hlt. rewrite Htr, Nat2Z.id by lia. reflexivity.
    - repeat split; auto; try congruence. intros _ Hk. rewrite (H3 Hk), Nat2Z.id. reflexivity.
  Qed.

  Definition mr_inv_u (t : list mr_obs) (s : mr_state) : Prop :=
    exists k, mr_ok s k /\ mr_delivered (since ro_rewind t) = map (packet_beat init) (seq 0 k) /\
      (mr_wait s = true <-> since ro_rewind t = []).

  Lemma mr_run_u ins : mr_inv_u (trace (mem_reader init) ins) (state (mem_reader init) ins).
  Proof.
    apply (run_inv (mem_reader init) mr_inv_u).
    - exists 0%nat. split; [apply mr_ok_reset|]. repeat split.
    - intros t s [rw r] (k & Hk & Hdel & Hw). unfold mr_inv_u. rewrite since_snoc.
      cbn [mem_reader cout cnext ro_rewind fst snd]. destruct rw.
      + exists 0%nat. split; [apply mr_ok_rewind|]. repeat split.
      + exists (if cvalid (mr_src init s false) && r then S k else k). split; [now apply mr_ok_step|].
        rewrite mr_delivered_app, Hdel, mr_delivered_1. cbn [ro_src ro_rready]. unfold xfer. split.
        * destruct (cvalid (mr_src init s false) && r) eqn:E.
          -- rewrite map_seq_S. apply andb_true_iff in E. rewrite (proj2 (mr_ok_src s k Hk)) by apply E. reflexivity.
          -- apply app_nil_r.
        * cbn. split; [discriminate|]. intros E. destruct (since _ _); discriminate.
  Qed.

  Definition mr_inv_b (t : list mr_obs) (s : mr_state * chan Z) : Prop :=
    exists k, mr_ok (fst s) k /\
      mr_delivered (since ro_rewind t) ++ chan_beats (snd s) = map (packet_beat init) (seq 0 k) /\
      (mr_wait (fst s) = true <-> since ro_rewind t = []) /\
      ((length (since ro_rewind t) <= 1)%nat -> cvalid (snd s) = false /\ k = 0%nat) /\
      ((2 <= length (since ro_rewind t))%nat -> cvalid (snd s) = false -> k = n).

  Lemma mr_run_b ins : mr_inv_b (trace (mem_reader_buffered init) ins) (state (mem_reader_buffered init) ins).
  Proof.
    apply (run_inv (mem_reader_buffered init) mr_inv_b).
    - exists 0%nat. split; [apply mr_ok_reset|]. cbn. repeat split; auto; try lia.
    - intros t s [rw r] (k & Hk & Hdel & Hw & Hs1 & Hs2). unfold mr_inv_b. rewrite since_snoc.
      cbn [mem_reader_buffered cout cnext ro_rewind fst snd]. destruct rw.
      + exists 0%nat. split; [apply mr_ok_rewind|]. cbn. repeat split; auto; lia.
      + pose proof (mr_ok_src (fst s) k Hk) as [Hq1 Hq2]. set (q := mr_src init (fst s) false) in *.
        set (en := rdy (pipe_valid 0) (snd s) q r).
        change (nxt (pipe_valid 0) (snd s) q r) with (if en then q else snd s).
        exists (if cvalid q && en then S k else k). split; [now apply mr_ok_step|].
        rewrite mr_delivered_app, mr_delivered_1. cbn [ro_src ro_rready].
        unfold xfer, chan_beats in *. cbn in en. unfold pv_en in en.
        set (u := since ro_rewind t) in *.
        split; [|split; [|split]].
        * destruct (cvalid (snd s)) eqn:Ev; cbn [negb andb orb] in *.
          -- subst en. destruct r; cbn [orb andb].
             ++ rewrite Hdel. rewrite andb_true_r. destruct (cvalid q) eqn:Eq.
                ** rewrite map_seq_S, (Hq2 eq_refl). reflexivity.
                ** apply app_nil_r.
             ++ rewrite Ev, app_nil_r, andb_false_r. exact Hdel.
          -- subst en. cbn [orb]. rewrite app_nil_r in *. rewrite Hdel, andb_true_r. destruct (cvalid q) eqn:Eq.
             ++ rewrite map_seq_S, (Hq2 eq_refl). reflexivity.
             ++ apply app_nil_r.
        * cbn. split; [discriminate|]. intros E. destruct u; discriminate.
        * rewrite app_length. cbn [length]. intros Hl. assert (u = []) by (destruct u; [auto|simpl in Hl; lia]).
          assert (Hwt : mr_wait (fst s) = true) by (now apply Hw).
          rewrite Hwt in Hq1. cbn [negb andb] in Hq1. rewrite Hq1. cbn.
          destruct Hs1 as [Hv0 Hk0]; [subst u; rewrite H; simpl; lia|].
          destruct en; auto.
        * rewrite app_length. cbn [length]. intros Hl Hv.
          assert (Hu : u <> []) by (intros E; rewrite E in Hl; simpl in Hl; lia).
          assert (Hwt : mr_wait (fst s) = false).
          { destruct (mr_wait (fst s)); auto. exfalso. apply Hu. now apply Hw. }
          rewrite Hwt in Hq1. cbn [negb andb] in Hq1. pose proof (proj1 Hk).
          subst en. destruct (cvalid (snd s)) eqn:Ev; cbn [negb orb] in *.
          -- destruct r; [|congruence]. rewrite Hv in Hq1. rewrite Hv. cbn. symmetry in Hq1. apply Nat.ltb_ge in Hq1. lia.
          -- rewrite Hv in Hq1. rewrite Hv. cbn. symmetry in Hq1. apply Nat.ltb_ge in Hq1. lia.
  Qed.
End MR.
