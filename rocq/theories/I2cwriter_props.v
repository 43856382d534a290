(** Properties of I2CWriterStream (C49, C50). *)
From Verif Require Import Stream I2c_model I2c_spec I2c_proofs I2c_props I2cstream_model I2cstream_spec I2cstream_proofs.
From Coq Require Import Lia.

Lemma replay_app A st l1 l2 : replay A st (l1 ++ l2) =
  match replay A st l1 with Some st' => replay A st' l2 | None => None end.
Proof.
  revert st. induction l1 as [|e l1 IH]; intros st; [reflexivity|]. cbn. destruct (replay1 A st e); auto.
Qed.

Lemma replay1_mono A B st e r : replay1 A st e = Some r -> replay1 (A ++ B) st e = Some r.
Proof.
  destruct st as [[|j|j|] k], e as [[| |x|a] q]; cbn; auto; try discriminate.
  destruct (nth_error A (k + (k + (k + 0)) + j)) as [y|] eqn:E; [|discriminate].
  rewrite nth_error_app1 by (apply nth_error_Some; congruence). rewrite E. auto.
Qed.

Lemma replay_mono A B st l r : replay A st l = Some r -> replay (A ++ B) st l = Some r.
Proof.
  revert st. induction l as [|e l IH]; intros st; auto. cbn. destruct (replay1 A st e) eqn:E; [|discriminate].
  intros H. rewrite (replay1_mono _ _ _ _ _ E). auto.
Qed.

Lemma results_snoc t o : results (t ++ [o]) = results_step (results t) o.
Proof. unfold results. now rewrite fold_left_app. Qed.

Lemma close_snoc o l c : close_result o (l ++ [(c, None)]) = if io_busy o then l ++ [(c, None)] else l ++ [(c, Some (io_ack o))].
Proof. unfold close_result. rewrite rev_unit, rev_involutive. reflexivity. Qed.

Lemma close_snoc_some o l c a : close_result o (l ++ [(c, Some a)]) = l ++ [(c, Some a)].
Proof. unfold close_result. rewrite rev_unit. reflexivity. Qed.

(** Closing an entry does not matter unless a write is waited for. *)
Lemma replay_close A o R ph k : replay A (Between, 0%nat) R = Some (ph, k) -> (forall j, ph <> Waiting j) ->
  replay A (Between, 0%nat) (close_result o R) = Some (ph, k).
Proof.
  destruct R as [|[c [a|]] R] using rev_ind; auto.
  - now rewrite close_snoc_some.
  - rewrite close_snoc. destruct (io_busy o); auto. clear IHR. rewrite !replay_app.
    destruct (replay A _ R) as [[ph' k']|]; [|discriminate]. cbn.
    destruct ph' as [|j|j|], c as [| |x|a]; try discriminate; auto.
    destruct (nth_error A (k' + (k' + (k' + 0)) + j)) as [y|]; [|discriminate]. destruct (negb (x =? y)); [discriminate|].
    intros H HW. injection H as <- <-. now destruct (HW j).
Qed.

Section Writer.
  Context (period : Z) (stretch oe : bool).
  Let c := i2c_writer period stretch oe.

  Lemma iw_sub ins :
    map wo_i2c (trace c ins) = trace (i2c_initiator period stretch oe) (map io_in (map wo_i2c (trace c ins))) /\
    iw_i (state c ins) = state (i2c_initiator period stretch oe) (map io_in (map wo_i2c (trace c ins))).
  Proof.
    apply (sub_trace c (i2c_initiator period stretch oe) iw_i (fun s '(k, p) => iw_in s k p) wo_i2c); auto;
    intros s [k p]; cbn; auto. unfold iw_next. destruct (iw_f s); auto.
    - destruct (_ && _); reflexivity.
    - destruct (iw_idle s); auto. destruct (negb _); auto. destruct (2 <? _); auto.
  Qed.

  Lemma iw_next_i s k p : iw_i (iw_next period stretch oe s k p) = i2c_next period stretch oe (iw_i s) (iw_in s k p).
  Proof.
    unfold iw_next. destruct (iw_f s); auto.
    - destruct (_ && _); reflexivity.
    - destruct (iw_idle s); auto. destruct (negb _); auto. destruct (2 <? _); auto.
  Qed.

  Definition iw_rdy_i (s : iw_state) : Prop :=
    (s_f (iw_i s) <> Idle -> s_busy (iw_i s) = true) /\
    match iw_f s with
    | IwStart | IwWrite | IwStop => s_f (iw_i s) = Idle /\ s_busy (iw_i s) = false
    | _ => True
    end.

  Lemma iw_rdy_i_step s k p : iw_rdy_i s -> iw_rdy_i (iw_next period stretch oe s k p).
  Proof.
    intros [H1 H2]. split; [rewrite iw_next_i; now apply busy_next_true|]. rewrite iw_next_i.
    assert (Q : forall n, strobed n = false -> s_busy (iw_i s) = false -> s_f (i2c_next period stretch oe (iw_i s) n) = Idle /\ s_busy (i2c_next period stretch oe (iw_i s) n) = false).
    { intros n Hn HB. pose proof (idle_f _ H1 HB) as HF. destruct (idle_quiet period stretch oe (iw_i s) n HF Hn) as (A & B & _). auto. }
    assert (ST : forall k p, iw_f s <> IwStart -> iw_f s <> IwWrite -> iw_f s <> IwStop -> strobed (iw_in s k p) = false).
    { intros k0 p0 A B D. unfold strobed, iw_in, iw_is_write. cbn. destruct (iw_f s); auto; contradiction. }
    unfold iw_next, iw_idle. destruct (iw_f s) eqn:F; try exact I;
    (destruct (s_busy (iw_i s)) eqn:B; [cbn; auto|];
     pose proof (Q (iw_in s k p) (ST k p ltac:(discriminate) ltac:(discriminate) ltac:(discriminate)) eq_refl) as QQ; cbn [negb andb]).
    - destruct (cvalid k || iw_use_cache s); cbn; auto.
    - cbn; auto.
    - destruct (d_acko (s_d (iw_i s))); cbn [negb]; [|cbn; auto]. destruct (2 <? iw_stage s); [cbn; auto|]. destruct (cvalid k || iw_use_cache s); cbn; auto.
    - cbn; auto.
  Qed.

  Definition cached (s : iw_state) (i : nat) : Z := nth i [iw_c0 s; iw_c1 s; iw_c2 s] 0.

  (** The last cycle offered a byte and did not take it. *)
  Definition wpend (t : list iw_obs) : Prop :=
    exists t0 o, t = t0 ++ [o] /\ cvalid (wo_sink o) = true /\ wo_ready o = false.

  Definition iw_ph (t : list iw_obs) (s : iw_state) (k n : nat) : Prop :=
    let A := bytes_of t in let R := results (map wo_i2c t) in
    let rp R := replay A (Between, 0%nat) R in
    match iw_f s with
    | IwIdle => rp R = Some (Between, k) /\ (iw_retry s = false -> n = 0%nat)
    | IwStart => rp R = Some (Between, k) /\ iw_stage s = 0 /\ (iw_retry s = false -> n = 0%nat /\ wpend t)
    | IwWStart => rp R = Some (Inside 0, k) /\ iw_stage s = 0 /\ (iw_retry s = false -> n = 0%nat /\ wpend t)
    | IwWrite => exists j, rp R = Some (Inside j, k) /\ iw_stage s = Z.of_nat j /\ (j <= 2)%nat /\ (j <= n)%nat /\
        (iw_retry s = false -> n = j) /\ (j = n -> wpend t)
    | IwWWrite => exists j, iw_stage s = Z.of_nat (S j) /\ (j <= 2)%nat /\ (S j <= n)%nat /\
        (iw_retry s = false -> n = S j) /\ iw_cstage s = Z.of_nat n - 1 /\
        ((exists R0 x, R = R0 ++ [(CWrite x, None)] /\ rp R0 = Some (Inside j, k) /\ nth_error A (3 * k + j) = Some x) \/
         (rp R = Some (Inside (S j), k) /\ s_busy (iw_i s) = false /\ d_acko (s_d (iw_i s)) = true /\ (j < 2)%nat))
    | IwStop => rp R = Some (Over, k) /\ (iw_retry s = false -> n = 0%nat)
    | IwWStop => rp R = Some (Between, k) /\ (iw_retry s = false -> n = 0%nat)
    end.

  Definition iw_inv (t : list iw_obs) (s : iw_state) : Prop :=
    iw_rdy_i s /\ exists k n : nat,
      length (bytes_of t) = (3 * k + n)%nat /\ (n <= 3)%nat /\
      (forall i, (i < n)%nat -> nth_error (bytes_of t) (3 * k + i) = Some (cached s i)) /\
      (iw_retry s = true -> (1 <= n)%nat /\ iw_cstage s = Z.of_nat n - 1) /\
      iw_ph t s k n.

  Lemma wpend_valid t o : stable_sink (map wo_io (t ++ [o])) -> wpend t -> cvalid (wo_sink o) = true.
  Proof.
    intros HS (t0 & o' & -> & H1 & H2). rewrite <- app_assoc in HS. rewrite map_app in HS. cbn [app map] in HS.
    pose proof (stable_sink_last _ _ _ HS H1 H2) as E. cbn in E. now rewrite E.
  Qed.

  Lemma bytes_snoc t o : bytes_of (t ++ [o]) = bytes_of t ++ if cvalid (wo_sink o) && wo_ready o then [bdata (cbeat (wo_sink o))] else [].
  Proof.
    unfold bytes_of. rewrite map_app, accepted_app, map_app. cbn [map]. rewrite accepted_1. unfold xfer. cbn. destruct (_ && _); reflexivity.
  Qed.

  Lemma stage2 j : (j <= 2)%nat -> trunc 2 (Z.of_nat j + 1) = Z.of_nat (S j).
  Proof. intros. rewrite trunc_small; [lia|]. change (2 ^ 2) with 4. lia. Qed.

  Lemma iw_inv_step t s k p : stable_sink (map wo_io (t ++ [cout c s (k, p)])) -> iw_inv t s ->
    iw_inv (t ++ [cout c s (k, p)]) (cnext c s (k, p)).
  Proof.
    intros HS [HR (K & n & HL & Hn & HC & HT & HP)]. split; [apply iw_rdy_i_step; auto|].
    pose proof (wpend_valid t _ HS) as HV.
    assert (HPend : cvalid k = true -> iw_take s = false -> wpend (t ++ [cout c s (k, p)])).
    { intros A B. eexists t, _. split; [reflexivity|]. cbn. auto. }
    change (cnext c s (k, p)) with (iw_next period stretch oe s k p).
    unfold iw_ph. set (W := wpend (t ++ [cout c s (k, p)])) in *. clearbody W.
    rewrite map_app. cbn [map]. rewrite results_snoc. unfold results_step.
    clear HS. set (o := cout c s (k, p)) in *.
    assert (ES : wo_sink o = k) by reflexivity. assert (ER : wo_ready o = iw_take s) by reflexivity.
    assert (EC : io_cmd (wo_i2c o) = cmd_taken (iw_i s) (iw_in s k p)) by reflexivity.
    assert (EB : io_busy (wo_i2c o) = s_busy (iw_i s)) by reflexivity.
    assert (EA : io_ack (wo_i2c o) = d_acko (s_d (iw_i s))) by reflexivity.
    clearbody o.
    set (R := results (map wo_i2c t)) in *. rewrite bytes_snoc. set (A := bytes_of t) in *.
    destruct HR as [HB HI]. unfold iw_ph in HP. fold R A in HP.
    assert (RC : forall ph, (forall j, ph <> Waiting j) -> replay A (Between, 0%nat) R = Some (ph, K) ->
       replay A (Between, 0%nat) (close_result (wo_i2c o) R) = Some (ph, K)) by (intros; now apply replay_close).
    assert (NC : iw_f s <> IwStart -> iw_f s <> IwWrite -> iw_f s <> IwStop -> io_cmd (wo_i2c o) = None).
    { intros X Y Z. rewrite EC. apply quiet_cmd. unfold strobed, iw_in, iw_is_write. cbn. destruct (iw_f s); auto; contradiction. }
    assert (NT : iw_f s <> IwWrite -> iw_take s = false).
    { intros X. unfold iw_take, iw_is_write. destruct (iw_f s); auto using andb_false_r; contradiction. }
    destruct s as [f stg rt c0 c1 c2 cs i]. unfold cached in *.
    cbn [iw_f iw_stage iw_retry iw_c0 iw_c1 iw_c2 iw_cstage iw_i] in *.
    destruct f.
    - (* idle *)
      destruct HP as [P1 P2]. rewrite NC by discriminate. specialize (NT ltac:(discriminate)).
      rewrite ES, ER, NT, andb_false_r, !app_nil_r. specialize (RC Between ltac:(discriminate) P1).
      unfold iw_next. cbn [iw_f iw_stage iw_retry iw_c0 iw_c1 iw_c2 iw_cstage iw_i]. rewrite NT. cbn [andb].
      destruct (iw_idle _ && _) eqn:GO; cbn [iw_f iw_stage iw_retry iw_c0 iw_c1 iw_c2 iw_cstage iw_i]; exists K, n; do 4 (split; [now auto|]).
      + split; [exact RC|]. split; [reflexivity|]. intros RF. split; auto. apply HPend; auto. unfold iw_use_cache in GO. cbn in GO. rewrite RF in GO.
        cbn in GO. rewrite orb_false_r in GO. apply andb_true_iff in GO. tauto.
      + split; auto.
    - (* start *)
      destruct HP as (P1 & P2 & P3). destruct HI as [F B]. specialize (NT ltac:(discriminate)).
      unfold cmd_taken in EC. rewrite F in EC. cbn in EC. rewrite EC. specialize (RC Between ltac:(discriminate) P1).
      rewrite ES, ER, NT, andb_false_r, !app_nil_r. 
      unfold iw_next. cbn [iw_f iw_stage iw_retry iw_c0 iw_c1 iw_c2 iw_cstage iw_i]. rewrite NT. cbn [andb].
      exists K, n. do 4 (split; [now auto|]). split; [rewrite replay_app, RC; reflexivity|]. split; auto.
      intros RF. destruct (P3 RF) as [Q1 Q2]. split; auto. apply HPend; auto. rewrite <- ES; exact (HV Q2).
    - (* wait start *)
      destruct HP as (P1 & P2 & P3). rewrite NC by discriminate. specialize (NT ltac:(discriminate)).
      rewrite ES, ER, NT, andb_false_r, !app_nil_r. specialize (RC (Inside 0) ltac:(discriminate) P1).
      unfold iw_next. cbn [iw_f iw_stage iw_retry iw_c0 iw_c1 iw_c2 iw_cstage iw_i]. rewrite NT. cbn [andb].
      assert (PW : rt = false -> W).
      { intros RF. destruct (P3 RF) as [Q1 Q2]. apply HPend; auto. rewrite <- ES; exact (HV Q2). }
      exists K, n. do 4 (split; [now auto|]).
      destruct (iw_idle _); cbn [iw_f iw_stage iw_retry].
      + exists 0%nat. split; [exact RC|]. split; [auto|]. split; [lia|]. split; [lia|]. split; [intros RF; apply P3; auto|].
        intros E0. apply PW. destruct rt; auto. destruct HT; auto. lia.
      + split; [exact RC|]. split; auto. intros RF. split; [apply P3; auto|auto].
    - (* write *)
      destruct HP as (j & P1 & P2 & P3 & P4 & P5 & P6). destruct HI as [F B].
      set (s := Iw IwWrite stg rt c0 c1 c2 cs i) in *.
      assert (ET : iw_take s = (j =? n)%nat).
      { unfold iw_take, iw_use_cache, iw_is_write, s. cbn. rewrite andb_true_r, P2. destruct rt; cbn.
        - destruct HT as [T1 T2]; auto. rewrite T2. destruct (Nat.eqb_spec j n), (Z.leb_spec (Z.of_nat j) (Z.of_nat n - 1)); auto; lia.
        - rewrite P5 by auto. symmetry. apply Nat.eqb_refl. }
      set (x := if iw_use_cache s then iw_cache s else bdata (cbeat k)).
      assert (EC' : io_cmd (wo_i2c o) = Some (CWrite x)) by (rewrite EC; unfold cmd_taken; rewrite F; reflexivity).
      assert (CL : forall A', (exists B', A' = A ++ B') -> replay A' (Between, 0%nat) (close_result (wo_i2c o) R) = Some (Inside j, K)).
      { intros A' [B' ->]. apply replay_mono. apply RC; [discriminate|auto]. }
      rewrite EC'. assert (TR := stage2 j P3). rewrite ES, ER, ET.
      assert (SJ : forall m, (m <= 2)%nat -> (stg =? Z.of_nat m) = (j =? m)%nat).
      { intros m Hm. rewrite P2. destruct (Nat.eqb_spec j m), (Z.eqb_spec (Z.of_nat j) (Z.of_nat m)); auto; lia. }
      pose proof (SJ 0%nat ltac:(lia)) as S0. pose proof (SJ 1%nat ltac:(lia)) as S1. pose proof (SJ 2%nat ltac:(lia)) as S2. cbn [Z.of_nat Pos.of_succ_nat Pos.succ] in S0, S1, S2.
      unfold iw_next. rewrite ET. change (iw_f s) with IwWrite; change (iw_stage s) with stg; change (iw_retry s) with rt; change (iw_c0 s) with c0; change (iw_c1 s) with c1; change (iw_c2 s) with c2; change (iw_cstage s) with cs; change (iw_i s) with i.
      cbn [iw_f iw_stage iw_retry iw_c0 iw_c1 iw_c2 iw_cstage iw_i]. rewrite S0, S1, S2.
      destruct (Nat.eqb_spec j n) as [Ej|Ej]; cbn [andb].
      + subst n. assert (VK : cvalid k = true) by (rewrite <- ES; exact (HV (P6 eq_refl))). rewrite VK. cbn [andb].
        assert (Ex : x = bdata (cbeat k)) by (unfold x; unfold iw_take in ET; destruct (iw_use_cache s); auto; discriminate ET).
        exists K, (S j). rewrite app_length. cbn [length]. split; [lia|]. split; [lia|]. split; [|split].
        * intros q Hq. destruct (Nat.eq_dec q j) as [->|Nq].
          -- rewrite nth_error_app2 by lia. replace (3 * K + j - length A)%nat with 0%nat by lia. cbn [nth_error]. f_equal.
             destruct j as [|[|[|j]]]; [reflexivity..|lia].
          -- rewrite nth_error_app1 by lia. rewrite HC by lia. f_equal.
             destruct j as [|[|[|j]]]; try lia; destruct q as [|[|[|q]]]; try lia; reflexivity.
        * intros _. split; lia.
        * exists j. split; [rewrite P2; exact TR|]. split; [lia|]. split; [lia|]. split; [auto|]. split; [lia|]. left.
          exists (close_result (wo_i2c o) R), x. split; [reflexivity|]. split; [apply CL; eauto|].
          rewrite nth_error_app2 by lia. replace (3 * K + j - length A)%nat with 0%nat by lia. cbn. now rewrite Ex.
      + rewrite andb_false_r, app_nil_r.
        assert (RT : rt = true) by (destruct rt; auto; exfalso; apply Ej; symmetry; auto). destruct (HT RT) as [T1 T2].
        assert (Ex : x = nth j [c0; c1; c2] 0).
        { unfold x. unfold iw_take, iw_is_write in ET. cbn in ET. rewrite andb_true_r in ET. apply negb_false_iff in ET. rewrite ET.
          unfold iw_cache, s. cbn. rewrite S0, S1, S2. destruct j as [|[|[|j]]]; [reflexivity..|lia]. }
        exists K, n. split; [auto|]. split; [auto|]. split; [auto|]. split; [auto|].
        exists j. split; [rewrite P2; exact TR|]. split; [lia|]. split; [lia|]. split; [congruence|]. split; [auto|]. left.
        exists (close_result (wo_i2c o) R), x. split; [reflexivity|]. split; [apply CL; exists []; now rewrite app_nil_r|].
        rewrite HC by lia. now rewrite Ex.
    - (* wait write *)
      destruct HP as (j & P2 & P3 & P4 & P5 & P6 & P7). rewrite NC by discriminate. specialize (NT ltac:(discriminate)).
      set (s := Iw IwWWrite stg rt c0 c1 c2 cs i) in *.
      assert (EI : iw_idle s = negb (s_busy i)) by reflexivity.
      assert (QI : s_busy i = false -> s_busy (i2c_next period stretch oe i (iw_in s k p)) = false /\ s_d (i2c_next period stretch oe i (iw_in s k p)) = s_d i).
      { intros B. destruct (idle_quiet period stretch oe i (iw_in s k p)) as (X & Y & Z); auto. apply idle_f; auto. }
      rewrite ES, ER, NT, andb_false_r, !app_nil_r.
      unfold iw_next. rewrite EI, NT. change (iw_f s) with IwWWrite; change (iw_stage s) with stg; change (iw_retry s) with rt; change (iw_c0 s) with c0; change (iw_c1 s) with c1; change (iw_c2 s) with c2; change (iw_cstage s) with cs; change (iw_i s) with i.
      cbn [iw_f iw_stage iw_retry iw_c0 iw_c1 iw_c2 iw_cstage iw_i andb].
      assert (L2 : (2 <? stg) = (j =? 2)%nat).
      { rewrite P2. destruct (Nat.eqb_spec j 2), (Z.ltb_spec 2 (Z.of_nat (S j))); auto; lia. }
      destruct (s_busy i) eqn:B; cbn [negb].
      + (* still busy *)
        exists K, n. do 4 (split; [now auto|]). cbn [iw_f iw_stage iw_retry iw_c0 iw_c1 iw_c2 iw_cstage iw_i].
        exists j. do 5 (split; [now auto|]). left. destruct P7 as [(R0 & x & Q1 & Q2 & Q3)|(_ & Q & _)]; [|congruence].
        exists R0, x. rewrite Q1, close_snoc, EB. auto.
      + destruct (QI eq_refl) as [QB QD].
        assert (RJ : replay A (Between, 0%nat) (close_result (wo_i2c o) R) =
                 if d_acko (s_d i) then if (j =? 2)%nat then Some (Over, S K) else Some (Inside (S j), K) else Some (Over, K)).
        { destruct P7 as [(R0 & x & Q1 & Q2 & Q3)|(Q1 & _ & Q3 & Q4)].
          - rewrite Q1, close_snoc, EB, EA, replay_app, Q2. cbn [replay replay1]. rewrite Q3, Z.eqb_refl. cbn [negb].
            destruct (d_acko (s_d i)); auto. destruct (j =? 2)%nat; auto.
          - rewrite Q3. destruct (Nat.eqb_spec j 2); [lia|]. apply RC; [discriminate|auto]. }
        rewrite L2. destruct (d_acko (s_d i)) eqn:AK; cbn [negb].
        * destruct (Nat.eqb_spec j 2) as [E2|E2].
          -- exists (S K), 0%nat. cbn [iw_f iw_stage iw_retry iw_c0 iw_c1 iw_c2 iw_cstage iw_i]. split; [lia|]. split; [lia|]. split; [intros; lia|].
             split; [discriminate|]. split; auto.
          -- exists K, n. cbn [iw_f iw_stage iw_retry iw_c0 iw_c1 iw_c2 iw_cstage iw_i]. do 4 (split; [now auto|]).
             destruct (cvalid k || iw_use_cache s) eqn:GO.
             ++ exists (S j). split; [exact RJ|]. split; [auto|]. split; [lia|]. split; [lia|]. split; [auto|]. intros EJ.
                apply HPend; auto. unfold iw_use_cache, s in GO. cbn in GO.
                assert (LE : (stg <=? cs) = false) by (apply Z.leb_gt; lia). rewrite LE, andb_false_r, orb_false_r in GO. exact GO.
             ++ exists j. do 5 (split; [now auto|]). right. rewrite QB, QD. repeat (split; auto). lia.
        * exists K, n. cbn [iw_f iw_stage iw_retry iw_c0 iw_c1 iw_c2 iw_cstage iw_i]. split; [auto|]. split; [auto|]. split; [auto|].
          split; [intros _; split; [lia|auto]|]. split; [exact RJ|discriminate].
    - (* stop *)
      destruct HP as (P1 & P3). destruct HI as [F B]. specialize (NT ltac:(discriminate)).
      unfold cmd_taken in EC. rewrite F in EC. cbn in EC. rewrite EC. specialize (RC Over ltac:(discriminate) P1).
      rewrite ES, ER, NT, andb_false_r, !app_nil_r. 
      unfold iw_next. cbn [iw_f iw_stage iw_retry iw_c0 iw_c1 iw_c2 iw_cstage iw_i]. rewrite NT. cbn [andb].
      exists K, n. do 4 (split; [now auto|]). split; [rewrite replay_app, RC; reflexivity|]. auto.
    - (* wait stop *)
      destruct HP as [P1 P2]. rewrite NC by discriminate. specialize (NT ltac:(discriminate)).
      rewrite ES, ER, NT, andb_false_r, !app_nil_r. specialize (RC Between ltac:(discriminate) P1).
      unfold iw_next. cbn [iw_f iw_stage iw_retry iw_c0 iw_c1 iw_c2 iw_cstage iw_i]. rewrite NT. cbn [andb].
      exists K, n. do 4 (split; [now auto|]). destruct (iw_idle _); cbn [iw_f iw_retry]; split; auto.
  Qed.

  Lemma iw_inv_run ins : stable_sink (map wo_io (trace c ins)) -> iw_inv (trace c ins) (state c ins).
  Proof.
    apply (run_inv_hyp c (fun t => stable_sink (map wo_io t))).
    - intros t u H. rewrite map_app in H. eapply stable_sink_prefix; eauto.
    - split; [split; cbn; auto|]. exists 0%nat, 0%nat. cbn. repeat split; auto; try discriminate; intros; lia.
    - intros t s [k p]. apply iw_inv_step.
  Qed.
End Writer.

(** C49: for every execution in which the sink obeys the stream rule, the commands
    carried out so far, with their outcomes, replay as a sequence of transactions on
    the bytes accepted so far: every transaction sends a prefix of the current triple
    from its first byte, ends at the first refused byte or after three acknowledged
    bytes, and only in the latter case moves on to the next triple.  No byte beyond
    the current triple is accepted. *)
Theorem C49_transactions : forall period stretch oe ins,
  let t := trace (i2c_writer period stretch oe) ins in
  stable_sink (map wo_io t) ->
  exists phase done,
    replay (bytes_of t) (Between, 0%nat) (results (map wo_i2c t)) = Some (phase, done) /\
    (3 * done <= length (bytes_of t) <= 3 * done + 3)%nat.
Proof.
  intros period stretch oe ins t HS. destruct (iw_inv_run period stretch oe ins HS) as [_ (K & n & H1 & H2 & _ & _ & HP)].
  fold t in H1, HP. unfold iw_ph in HP. destruct (iw_f _).
  - destruct HP as [HP _]. exists Between, K. split; [auto|lia].
  - destruct HP as [HP _]. exists Between, K. split; [auto|lia].
  - destruct HP as [HP _]. exists (Inside 0), K. split; [auto|lia].
  - destruct HP as (j & HP & _). exists (Inside j), K. split; [auto|lia].
  - destruct HP as (j & _ & _ & _ & _ & _ & [(R0 & x & Q1 & Q2 & Q3)|(Q & _)]).
    + exists (Waiting j), K. split; [|lia]. rewrite Q1, replay_app, Q2. cbn [replay replay1]. rewrite Q3, Z.eqb_refl. reflexivity.
    + exists (Inside (S j)), K. split; [auto|lia].
  - destruct HP as [HP _]. exists Over, K. split; [auto|lia].
  - destruct HP as [HP _]. exists Between, K. split; [auto|lia].
Qed.

(** C49: the bus is that of an I2CInitiator, so C42-C46 and C85 hold for it. *)
Theorem C49_bus : forall period stretch oe ins,
  let t := map wo_i2c (trace (i2c_writer period stretch oe) ins) in
  t = trace (i2c_initiator period stretch oe) (map io_in t).
Proof. intros. apply iw_sub. Qed.

(** C49: an outcome of a write is what the target did in its ninth clock. *)
Lemma results_tail t c a R : results t = R ++ [(c, a)] -> last_cmd t = Some c.
Proof.
  revert R c a. induction t as [|o t IH] using rev_ind; intros R c a; [destruct R; discriminate|].
  rewrite results_snoc, last_cmd_snoc. unfold results_step. destruct (io_cmd o) as [x|].
  - intros H. apply app_inj_tail in H. destruct H as [_ H]. congruence.
  - rewrite app_nil_r. destruct (results t) as [|[c' [a'|]] R'] using rev_ind; [destruct R; discriminate|..].
    + rewrite close_snoc_some. intros H. apply app_inj_tail in H. destruct H as [_ H]. injection H as -> _. eauto.
    + rewrite close_snoc. destruct (io_busy o); intros H; apply app_inj_tail in H; destruct H as [_ H]; injection H as -> _; eauto.
Qed.

Theorem C49_outcome : forall period stretch oe ins t1 o t2 R x a,
  4 <= period ->
  map wo_i2c (trace (i2c_writer period stretch oe) ins) = t1 ++ o :: t2 ->
  results t1 = R ++ [(CWrite x, None)] -> close_result o (results t1) = R ++ [(CWrite x, Some a)] ->
  m_rises (monitored stretch t1) = msb_first x ++ [true] /\ a = negb (nth 8 (m_samples (monitored stretch t1)) false).
Proof.
  intros period stretch oe ins t1 o t2 R x a HP H HR HC.
  pose proof (results_tail _ _ _ _ HR) as HL. rewrite HR, close_snoc in HC.
  destruct (io_busy o) eqn:B; apply app_inj_tail in HC; destruct HC as [_ HC]; [discriminate|]. injection HC as <-.
  pose proof (C49_bus period stretch oe ins) as E. cbv zeta in E. rewrite H in E. symmetry in E.
  destruct (C43_write period stretch oe _ _ _ _ x HP E B HL) as (A1 & _ & _ & _ & A5 & _). auto.
Qed.

Definition iw_byte (x : Z) (sda : bool) : chan Z * pads := (Chan true (Beat false false x), (sda, true)).
Definition iw_none (sda : bool) : chan Z * pads := (Chan false (Beat false false 0), (sda, true)).

(** The second byte of the first triple is refused once; the triple is sent again. *)
Example C49_nonvacuous :
  let ins := repeat (iw_byte 0x10 false) 14 ++ repeat (iw_byte 0x11 false) 75 ++ repeat (iw_byte 0x12 true) 81 ++
             repeat (iw_byte 0x12 false) 167 ++ repeat (iw_none false) 150 in
  let t := trace (i2c_writer 4 false true) ins in
  stable_sink (map wo_io t) /\ bytes_of t = [0x10; 0x11; 0x12] /\
  results (map wo_i2c t) =
    [(CStart, Some false); (CWrite 0x10, Some true); (CWrite 0x11, Some false); (CStop, Some false);
     (CStart, Some false); (CWrite 0x10, Some true); (CWrite 0x11, Some true); (CWrite 0x12, Some true); (CStop, Some true)].
Proof. cbv zeta. split; [apply stable_sinkb_ok; vm_compute; reflexivity|]. vm_compute. repeat split; reflexivity. Qed.

Lemma stable_snoc {A B} (t : list (obs A B)) o' : stable_sink t ->
  (forall t0 o, t = t0 ++ [o] -> cvalid (o_sink o) = true -> o_sready o = false -> o_sink o' = o_sink o) ->
  stable_sink (t ++ [o']).
Proof.
  intros HS HL t1 o o2 t2 E HV HR. destruct t2 as [|x t2 _] using rev_ind.
  - change (t1 ++ [o; o2]) with (t1 ++ [o] ++ [o2]) in E. rewrite app_assoc in E. apply app_inj_tail in E. destruct E as [-> ->].
    eapply HL; eauto.
  - change (o :: o2 :: t2 ++ [x]) with ((o :: o2 :: t2) ++ [x]) in E. rewrite app_assoc in E. apply app_inj_tail in E. destruct E as [-> _].
    eapply HS; eauto.
Qed.

Lemma stable_app_quiet {A B} (t u : list (obs A B)) : stable_sink t ->
  (forall t0 o, t = t0 ++ [o] -> cvalid (o_sink o) = false) -> Forall (fun o => cvalid (o_sink o) = false) u ->
  stable_sink (t ++ u).
Proof.
  intros HS HL HU. revert t HS HL. induction HU as [|o u Ho HU IH]; intros t HS HL; [now rewrite app_nil_r|].
  change (o :: u) with ([o] ++ u). rewrite app_assoc. apply IH.
  - apply stable_snoc; auto. intros t0 o1 E HV. rewrite (HL _ _ E) in HV. discriminate.
  - intros t0 o1 E. apply app_inj_tail in E. destruct E as [_ <-]. exact Ho.
Qed.

(** C50 is false as stated: with one byte, refused, and nothing more on the sink, no
    further command is ever issued, however long one waits. *)
Theorem C50_retry_refuted :
  exists pre, let c := i2c_writer 4 false true in
    results (map wo_i2c (trace c pre)) = [(CStart, Some false); (CWrite 0x10, Some false); (CStop, Some false)] /\
    (forall n, stable_sink (map wo_io (trace c (pre ++ repeat (iw_none true) n)))) /\
    forall n, commands (map wo_i2c (trace c (pre ++ repeat (iw_none true) n))) = [CStart; CWrite 0x10; CStop].
Proof.
  exists (repeat (iw_byte 0x10 true) 8 ++ repeat (iw_none true) 100). cbv zeta. set (pre := repeat _ 8 ++ _). set (c := i2c_writer 4 false true).
  assert (W : forall n s, iw_f s = IwIdle -> s_f (iw_i s) = Idle -> iw_use_cache s = false ->
     Forall (fun o => io_cmd (wo_i2c o) = None /\ cvalid (wo_sink o) = false) (trace_from c s (repeat (iw_none true) n))).
  { induction n as [|n IH]; intros s F1 F2 F3; cbn [repeat trace_from]; constructor.
    - cbn. split; auto. apply quiet_cmd. unfold strobed, iw_in, iw_is_write. rewrite F1. reflexivity.
    - apply IH.
      + cbn. unfold iw_next. rewrite F1, F3. cbn. rewrite andb_false_r. reflexivity.
      + cbn [c i2c_writer cnext iw_none]. rewrite iw_next_i. apply idle_quiet; auto. unfold strobed, iw_in, iw_is_write. rewrite F1. reflexivity.
      + cbn. unfold iw_next. rewrite F1. cbn. rewrite F3, andb_false_r. unfold iw_use_cache, iw_take, iw_is_write. rewrite F1. cbn. rewrite andb_false_r. exact F3. }
  assert (S0 : iw_f (state c pre) = IwIdle /\ s_f (iw_i (state c pre)) = Idle /\ iw_use_cache (state c pre) = false) by (vm_compute; auto).
  destruct S0 as (S1 & S2 & S3). split; [vm_compute; reflexivity|]. split.
  - intros n. rewrite trace_app, map_app. apply stable_app_quiet.
    + apply stable_sinkb_ok. vm_compute. reflexivity.
    + intros t0 o E. assert (H : last (map wo_io (trace c pre)) (Obs (Chan true (Beat false false 0)) false (Chan false (Beat false false tt)) false) = o) by (rewrite E; apply last_last).
      rewrite <- H. vm_compute. reflexivity.
    + specialize (W n _ S1 S2 S3). apply Forall_map. eapply Forall_impl; [|exact W]. intros o [_ H]. exact H.
  - intros n. rewrite trace_app, map_app. unfold commands. rewrite flat_map_app.
    assert (E0 : flat_map (fun o => match io_cmd o with Some c => [c] | None => [] end) (map wo_i2c (trace c pre)) = [CStart; CWrite 0x10; CStop]) by (vm_compute; reflexivity).
    rewrite E0. specialize (W n _ S1 S2 S3). induction W as [|o l [H1 _] _ IH]; [reflexivity|]. cbn. rewrite H1. exact IH.
Qed.

(** C50, what holds: between two transactions, once the initiator is idle and the sink
    offers a byte, the next transaction (a retry if the last one was refused: C49)
    starts within three cycles.  Missing from the full statement: the retry when the
    sink offers nothing. *)
Theorem C50_retry_partial : forall period stretch oe ins t1 o1 o2 o3 t2 done,
  trace (i2c_writer period stretch oe) ins = t1 ++ o1 :: o2 :: o3 :: t2 ->
  stable_sink (map wo_io (t1 ++ o1 :: o2 :: o3 :: t2)) ->
  replay (bytes_of t1) (Between, 0%nat) (results (map wo_i2c t1)) = Some (Between, done) ->
  cvalid (wo_sink o1) = true -> io_busy (wo_i2c o1) = false ->
  io_cmd (wo_i2c o1) = Some CStart \/ io_cmd (wo_i2c o2) = Some CStart \/ io_cmd (wo_i2c o3) = Some CStart.
Proof.
  intros period stretch oe ins t1 o1 o2 o3 t2 done H HS HR HV HB. pose proof H as H'. set (c := i2c_writer period stretch oe) in *.
  apply trace_split_from in H. destruct H as (a & [k p] & b & -> & Ht & Ho1 & H). fold (state c a) in *.
  destruct b as [|[k2 p2] b]; [discriminate|]. cbn [trace_from] in H. apply cons_inv in H; destruct H as [Ho2 H].
  destruct b as [|[k3 p3] b]; [discriminate|]. cbn [trace_from] in H. apply cons_inv in H; destruct H as [Ho3 H].
  fold (trace c a) in Ht. subst t1 o1.
  assert (Ho2' : cout c (cnext c (state c a) (k, p)) (k2, p2) = o2) by (symmetry; exact Ho2).
  assert (Ho3' : cout c (cnext c (cnext c (state c a) (k, p)) (k2, p2)) (k3, p3) = o3) by (symmetry; exact Ho3). clear Ho2 Ho3.
  assert (HS1 : stable_sink (map wo_io (trace c a))) by (rewrite map_app in HS; eapply stable_sink_prefix; eauto).
  destruct (iw_inv_run period stretch oe a HS1) as [[HBz HI] (K & n & _ & _ & _ & _ & HP)]. fold c in HBz, HI, HP.
  assert (HK2 : wo_sink o2 = k -> io_cmd (wo_i2c (cout c (state c a) (k, p))) = Some CStart \/ io_cmd (wo_i2c o2) = Some CStart \/ io_cmd (wo_i2c o3) = Some CStart).
  2: { destruct (iw_take (state c a)) eqn:TK.
       - exfalso. unfold iw_take, iw_is_write in TK. unfold iw_ph in HP. destruct (iw_f (state c a)); rewrite ?andb_false_r in TK; try discriminate.
         destruct HP as (j & HP & _). congruence.
       - apply HK2. rewrite map_app in HS. cbn [map] in HS.
         assert (E := HS (map wo_io (trace c a)) _ _ _ eq_refl HV TK). cbn in E. exact E. }
  intros E2. set (s := state c a) in *. cbn [c i2c_writer cout wo_i2c i2c_initiator io_busy wo_sink] in HB, HV.
  pose proof (idle_f _ HBz HB) as HF.
  unfold iw_ph in HP. fold c in HP.
  assert (ST1 : forall q kk pp, iw_f q = IwStart -> s_f (iw_i q) = Idle -> io_cmd (wo_i2c (cout c q (kk, pp))) = Some CStart).
  { intros q kk pp A B. cbn. unfold cmd_taken. rewrite B. unfold iw_in. rewrite A. reflexivity. }
  assert (ID1 : forall q kk pp, iw_f q = IwIdle -> s_f (iw_i q) = Idle -> s_busy (iw_i q) = false -> cvalid kk = true ->
     iw_f (iw_next period stretch oe q kk pp) = IwStart /\ s_f (iw_i (iw_next period stretch oe q kk pp)) = Idle).
  { intros q kk pp A B D E. split.
    - unfold iw_next, iw_idle. rewrite A, D, E. reflexivity.
    - rewrite iw_next_i. apply idle_quiet; auto. unfold strobed, iw_in, iw_is_write. rewrite A. reflexivity. }
  destruct (iw_f s) eqn:F; try (exfalso; destruct HP as [HP _]; congruence).
  - right. left. rewrite <- Ho2'. cbn [cnext c i2c_writer]. destruct (ID1 s k p F HF HB HV) as [A B]. apply ST1; auto.
  - left. apply ST1; auto.
  - exfalso. destruct HP as (j & HP & _). congruence.
  - exfalso. destruct HP as (j & _ & _ & _ & _ & _ & [(R0 & x & Q1 & Q2 & Q3)|(Q & _)]); [|congruence].
    rewrite Q1, replay_app, Q2 in HR. cbn [replay replay1] in HR. rewrite Q3, Z.eqb_refl in HR. discriminate.
  - right. right. rewrite <- Ho3'. set (s2 := cnext c s (k, p)) in *.
    assert (X1 : iw_f s2 = IwIdle).
    { unfold s2. cbn. unfold iw_next, iw_idle. rewrite F, HB. reflexivity. }
    assert (X2 : s_f (iw_i s2) = Idle /\ s_busy (iw_i s2) = false).
    { unfold s2. cbn [cnext c i2c_writer]. rewrite iw_next_i. destruct (idle_quiet period stretch oe (iw_i s) (iw_in s k p) HF) as (A & B & _); auto.
      unfold strobed, iw_in, iw_is_write. rewrite F. reflexivity. }
    assert (E3 : k2 = k) by (rewrite <- Ho2' in E2; exact E2). subst k2.
    destruct X2 as [X2 X3]. destruct (ID1 s2 k p2 X1 X2 X3 HV) as [A B]. apply ST1; auto.
Qed.

(** A refused byte, then a byte offered: the transaction starts anew. *)
Definition iw_retry_run := repeat (iw_byte 0x10 true) 8 ++ repeat (iw_none true) 100 ++ repeat (iw_byte 0x11 true) 3.
Example C50_nonvacuous : exists t1 o1 o2 o3,
  let t := trace (i2c_writer 4 false true) iw_retry_run in
  t = t1 ++ [o1; o2; o3] /\ stable_sink (map wo_io t) /\ bytes_of t1 = [0x10] /\
  results (map wo_i2c t1) = [(CStart, Some false); (CWrite 0x10, Some false); (CStop, Some false)] /\
  replay (bytes_of t1) (Between, 0%nat) (results (map wo_i2c t1)) = Some (Between, 0%nat) /\
  cvalid (wo_sink o1) = true /\ io_busy (wo_i2c o1) = false.
Proof.
  exists (firstn 108 (trace (i2c_writer 4 false true) iw_retry_run)). eexists _, _, _. cbv zeta. split; [vm_compute; reflexivity|].
  split; [apply stable_sinkb_ok; vm_compute; reflexivity|]. vm_compute. repeat split.
Qed.

Print Assumptions C49_transactions.
Print Assumptions C49_bus.
Print Assumptions C49_outcome.
Print Assumptions C50_retry_refuted.
Print Assumptions C50_retry_partial.
