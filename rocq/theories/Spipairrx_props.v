(** C147: what the host board is given to send reaches the user of the slave board. *)
From Verif Require Import Stream Bits Fifo_model Fifo_proofs Chain_model Chain_props I2cstream_proofs Cdcconv_props Spistream_model Spistream_props Spimaster_model Spislave_model Spislave_props Spilink_model Spilink_spec Spilink_proofs Spilink_props Spirate_props Spipair_model Spipair_proofs Spipair_props.

(** The pins do not change. *)
Lemma changes_again p q l : changes q (l ++ [p; p]) = changes q (l ++ [p]).
Proof.
  assert (R : forall p, pins_eqb p p = true) by (intros [x y z]; unfold pins_eqb; cbn; rewrite !Bool.eqb_reflx, Z.eqb_refl; reflexivity).
  revert q. induction l as [|x l IH]; intros q; cbn [app changes].
  - destruct (pins_eqb q p) eqn:E; [reflexivity|]. now rewrite R.
  - destruct (pins_eqb q x); [apply IH|now rewrite IH].
Qed.
Lemma trace_two_fewer {I O} (c : circuit I O) ins t a b : trace c ins = t ++ [a; b] -> exists ins' i j, ins = ins' ++ [i; j] /\ trace c ins' = t.
Proof.
  intros E. change [a; b] with ([a] ++ [b]) in E. rewrite app_assoc in E. destruct ins as [|j ins _] using rev_ind; [destruct t; discriminate|].
  rewrite trace_snoc in E. apply app_inj_tail in E. destruct E as [E _]. destruct ins as [|i ins _] using rev_ind; [destruct t; discriminate|].
  rewrite trace_snoc in E. apply app_inj_tail in E. destruct E as [E _]. exists ins, i, j. split; [now rewrite <- app_assoc|exact E].
Qed.

Section Late.
  Context (width bw : Z) (cpol cpha : bool) (Hw : 0 < width).
  Notation slave := (spi_slave cpol cpha width bw false [width]).
  (** The slave's FIFO with a user that is always ready: two cycles late. *)
  Lemma fifo_late ins : Forall (fun o => o_rready (so_fifo o) = true) (trace slave ins) -> Forall (fun w => 0 <= fst (fst w) < 2 ^ width) (pushes (trace slave ins)) ->
    forall u x y, trace slave ins = u ++ [x; y] -> pushes [x; y] = [] -> map bdata (emitted (map so_fifo (trace slave ins))) = map (fun w => fst (fst w)) (pushes (trace slave ins)).
  Proof.
    intros HR HP u x y E HN.
    assert (K : Forall (fun o => xfer (o_sink (so_fifo o)) true = match so_push o with Some w => [Beat false false (fst (fst w))] | None => [] end) (trace slave ins)).
    { apply (run_inv slave (fun t _ => Forall _ t)); [constructor|]. intros t s i H. apply Forall_app. split; [exact H|]. constructor; [|constructor].
      cbn [cout spi_slave so_fifo o_sink so_push]. unfold sl_fsink, xfer. cbn [cvalid cbeat]. rewrite andb_true_r. destruct (sl_pushing _ _ _ _ _ s); reflexivity. }
    destruct (part_trace slave (scirc (sl_fifo width false)) (fun o => (o_sink o, o_rready o)) (fun s => l_fifo _ _ s)
      (fun s i => (sl_fsink cpol cpha width false [width] s, sl_rready i)) so_fifo
      ltac:(intros ? [? ?]; reflexivity) eq_refl
      ltac:(intros s i; cbn [cnext spi_slave]; destruct (sl_sample _ _ _ _ s); [|destruct (sl_pushing _ _ _ _ _ s)]; destruct (if sl_load _ _ s then _ else _) as [[? ?] ?]; reflexivity)
      ltac:(reflexivity) ins) as [PT _].
    set (t := trace slave ins) in *.
    assert (B : concat (map (fun o => xfer (o_sink o) true) (map so_fifo t)) = map (fun w => Beat false false (fst (fst w))) (pushes t)).
    { clear -K. induction K as [|o t H K IH]; [reflexivity|]. cbn [map concat]. rewrite H, IH. unfold pushes. cbn [flat_map]. destruct (so_push o); reflexivity. }
    assert (L : line (inrange width) 2 (sl_fifo width false)) by (exact (line_stage width (StSyncFIFO 8 true) ltac:(lia))).
    destruct (line_run _ _ _ L (map (fun o => (o_sink o, o_rready o)) (map so_fifo t))) as [E1 _].
    { rewrite map_map. apply Forall_map. eapply Forall_impl; [|exact HR]. auto. }
    { change (trace (scirc (sl_fifo width false)) ?l) with (strace (sl_fifo width false) l) in PT. rewrite <- PT, B. apply Forall_map. eapply Forall_impl; [|exact HP]. intros w H. exact H. }
    change (trace (scirc (sl_fifo width false)) ?l) with (strace (sl_fifo width false) l) in PT. rewrite <- PT in E1.
    assert (EM : emitted (map so_fifo t) = concat (map (fun o => xfer (o_src o) true) (map so_fifo t))).
    { clear -HR. induction HR as [|o t H HR IH]; [reflexivity|]. cbn [map concat emitted flat_map]. rewrite H. f_equal. exact IH. }
    rewrite EM, E1. replace (length (map (fun o => (o_sink o, o_rready o)) (map so_fifo t))) with (length u + 2)%nat by (rewrite !map_length, E, app_length; reflexivity).
    rewrite E, !map_app. assert (Q : map (fun o => xfer (o_sink o) true) (map so_fifo [x; y]) = [[]; []]).
    { rewrite E in K. apply Forall_app in K. destruct K as [_ K]. inversion K as [|? ? Kx K']; subst. inversion K' as [|? ? Ky _]; subst. cbn [map]. rewrite Kx, Ky.
      unfold pushes in HN. cbn [flat_map] in HN. destruct (so_push x); [discriminate|]. destruct (so_push y); [discriminate|reflexivity]. }
    rewrite Q. change (repeat [] 2) with [[]; @nil (beat Z)]. rewrite Nat.add_comm. cbn [Nat.add app firstn concat].
    rewrite firstn_app, firstn_all2 by (rewrite !map_length; lia). replace (length u - length (map (fun o : obs Z Z => xfer (o_sink o) true) (map so_fifo u)))%nat with O by (rewrite !map_length; lia).
    rewrite firstn_O, app_nil_r. rewrite E, !map_app, Q, concat_app in B. change (concat [[]; @nil (beat Z)]) with (@nil (beat Z)) in B. rewrite app_nil_r in B. rewrite B, map_map. reflexivity.
  Qed.
End Late.

Section Down.
  Context (width div delay : Z) (cpol cpha : bool).
  Context (Hd : 0 <= div < 256) (Hw : 0 < width <= 256) (Hm : cpol = cpha).
  Notation c := (spi_pair width div delay cpol cpha [width]).
  Notation host := (spi_host width 1 div delay).
  Notation slave := (spi_slave cpol cpha width 1 false [width]).
  Lemma pair_pins ins : map so_pins (map po_slave (trace c ins)) = map pins_of (map po_host (trace c ins)).
  Proof.
    rewrite !map_map. apply map_ext_in. intros o Ho. pose proof (pair_wires width div delay cpol cpha [width] ins) as W. rewrite Forall_forall in W. now apply W.
  Qed.
End Down.

(** Once the chip select has been high, and the pins unchanged, for five cycles, the user of the slave board has been
    given exactly the words the host board was given to send, in order. *)
Theorem C147_words : forall width div delay cpol cpha ins t1 a b d e f p,
  0 <= div < 256 -> 0 < width <= 256 -> cpol = cpha ->
  Forall (fun i => pi_rready i = true) ins ->
  let t := trace (spi_pair width div delay cpol cpha [width]) ins in
  Forall (fun b => 0 <= bdata b < 2 ^ width) (sent (map po_host t)) ->
  t = t1 ++ [a; b; d; e; f] -> Forall (fun o => pins_of (po_host o) = p) [a; b; d; e; f] -> p_cs_n p = true ->
  map bdata (emitted (map so_fifo (map po_slave t))) = map bdata (sent (map po_host t)).
Proof.
  intros width div delay cpol cpha ins t1 a b d e f p Hd Hw Hm HR t HS E HP Hp. set (c := spi_pair width div delay cpol cpha [width]) in *.
  assert (Hb : In 1 [1; 2; 4; 8]) by (cbn; auto). assert (Hq : (1 | width)) by apply Z.divide_1_l.
  assert (RR : forall ins s, Forall (fun i => pi_rready i = true) ins -> Forall (fun o => o_rready (so_fifo (po_slave o)) = true) (trace_from c s ins)).
  { clear. induction ins as [|i ins IH]; intros s H; [constructor|]. inversion H; subst. constructor; [assumption|]. apply IH. assumption. }
  assert (R := RR ins (creset c) HR). change (trace_from c (creset c) ins) with t in R.
  (* any run that ends in three such cycles *)
  assert (G : forall ins t1 a b d, trace c ins = t1 ++ [a; b; d] -> Forall (fun o => pins_of (po_host o) = p) [a; b; d] -> Forall (fun b => 0 <= bdata b < 2 ^ width) (sent (map po_host (trace c ins))) ->
    map (fun w => fst (fst w)) (pushes (map po_slave (trace c ins))) = map bdata (sent (map po_host (trace c ins)))).
  { clear -Hd Hw Hm Hp Hb Hq. intros ins t1 a b d E HP HS. pose proof (pair_pins width div delay cpol cpha ins) as PP. fold c in PP.
    destruct (pair_host width div delay cpol cpha [width] ins) as [PH _]. destruct (pair_slave width div delay cpol cpha [width] ins) as [PS _]. fold c in PH, PS.
    set (hi := map host_back _) in PH. set (si := map slave_back _) in PS. clearbody hi si. rewrite PH in HS |- *. rewrite PS. rewrite PH, PS in PP.
    apply C117_complete; auto.
    - exists []. now rewrite app_nil_r, PP.
    - unfold caught_up, looked_at. rewrite <- PP. rewrite <- PS, E, !map_app. cbn [map]. rewrite app_length, map_length. cbn [length].
      assert (Q : forall o, In o [a; b; d] -> so_pins (po_slave o) = p).
      { intros o Ho. rewrite Forall_forall in HP. rewrite <- (HP o Ho). pose proof (pair_wires width div delay cpol cpha [width] ins) as W. rewrite Forall_forall in W. apply W. fold c. rewrite E. apply in_or_app. now right. }
      rewrite !Q by (cbn; auto). rewrite Nat.add_comm. change (firstn (3 + length t1) (low :: low :: ?X)) with (low :: low :: firstn (S (length t1)) X).
      rewrite !map_map. set (P := map (fun x => so_pins (po_slave x)) t1). replace (length t1) with (length P) by apply map_length.
      change (P ++ [p; p; p]) with (P ++ [p] ++ [p; p]). rewrite (app_assoc P). assert (CC : changes low ((P ++ [p]) ++ [p; p]) = changes low (P ++ [p])) by (rewrite changes_again, <- app_assoc; apply changes_again). rewrite CC.
      replace (firstn (S (length P)) ((P ++ [p]) ++ [p; p])) with (P ++ [p]).
      2: { rewrite firstn_app. rewrite firstn_all2 by (rewrite app_length; cbn; lia). rewrite app_length. cbn [length]. replace (S (length P) - (length P + 1))%nat with O by lia. now rewrite firstn_O, app_nil_r. }
      cbn [changes]. change (pins_eqb low low) with true. cbv iota. reflexivity.
    - rewrite <- PH, E, !map_app. cbn [map]. change [pins_of (po_host a); pins_of (po_host b); pins_of (po_host d)] with ([pins_of (po_host a); pins_of (po_host b)] ++ [pins_of (po_host d)]). rewrite app_assoc, last_last.
      inversion HP as [|? ? _ H1]; subst. inversion H1 as [|? ? _ H2]; subst. inversion H2 as [|? ? H3 _]; subst. congruence. }
  assert (E5 : t = (t1 ++ [a; b]) ++ [d; e; f]) by (rewrite <- app_assoc; exact E).
  assert (E3 : t = (t1 ++ [a; b; d]) ++ [e; f]) by (rewrite <- app_assoc; exact E).
  assert (HP5 : Forall (fun o => pins_of (po_host o) = p) [d; e; f]) by (inversion HP as [|? ? _ H1]; subst; inversion H1; subst; assumption).
  assert (HP3 : Forall (fun o => pins_of (po_host o) = p) [a; b; d]) by (apply (Forall_app (fun o => pins_of (po_host o) = p) [a; b; d] [e; f]) in HP; apply HP).
  pose proof (G _ _ _ _ _ E5 HP5 HS) as G5. fold t in G5.
  destruct (trace_two_fewer c ins _ _ _ E3) as (ins' & i & j & -> & E').
  assert (S2 : sent (map po_host t) = sent (map po_host (trace c ins'))).
  { destruct (pair_host width div delay cpol cpha [width] (ins' ++ [i; j])) as [PH _]. fold c t in PH. set (hi := map host_back _) in PH. clearbody hi.
    rewrite E3 in PH. rewrite map_app in PH. cbn [map] in PH. rewrite E3, E', !map_app. cbn [map].
    assert (Te : took (po_host e) = []).
    { refine (proj2 (proj2 (C117_frames width 1 div delay hi (map po_host (t1 ++ [a; b; d])) (po_host e) [po_host f] Hd Hb Hq Hw (eq_sym PH) _))). inversion HP5 as [|? ? _ H1]; subst. inversion H1; subst. congruence. }
    assert (Tf : took (po_host f) = []).
    { change [po_host e; po_host f] with ([po_host e] ++ [po_host f]) in PH. rewrite app_assoc in PH.
      refine (proj2 (proj2 (C117_frames width 1 div delay hi _ (po_host f) [] Hd Hb Hq Hw (eq_sym PH) _))). inversion HP5 as [|? ? _ H1]; subst. inversion H1 as [|? ? _ H2]; subst. inversion H2; subst. congruence. }
    assert (HS2 : forall l, sent (l ++ [po_host e; po_host f]) = sent l ++ took (po_host e) ++ took (po_host f)).
    { intros l. unfold sent, tx_in. rewrite !map_app, accepted_app. cbn [map]. unfold accepted at 2. cbn [flat_map]. now rewrite app_nil_r. }
    rewrite HS2, Te, Tf. cbn [app]. now rewrite app_nil_r. }
  assert (G3 := G ins' t1 a b d E' HP3 ltac:(rewrite <- S2; exact HS)). rewrite <- S2, <- G5 in G3.
  rewrite <- G5. destruct (pair_slave width div delay cpol cpha [width] (ins' ++ [i; j])) as [PS _]. fold c t in PS. set (si := map slave_back _) in PS. clearbody si.
  set (u := map po_slave t) in *.
  assert (HPr : Forall (fun w => 0 <= fst (fst w) < 2 ^ width) (pushes u)).
  { apply (Forall_map (fun w => fst (fst w)) (fun x => 0 <= x < 2 ^ width)). rewrite G5. apply Forall_map. exact HS. }
  assert (HRu : Forall (fun o => o_rready (so_fifo o) = true) u) by (unfold u; apply Forall_map; exact R).
  assert (Eu : u = map po_slave (t1 ++ [a; b; d]) ++ [po_slave e; po_slave f]) by (unfold u; rewrite E3, map_app; reflexivity).
  assert (HN : pushes [po_slave e; po_slave f] = []).
  { rewrite Eu in G3. unfold pushes in G3. rewrite flat_map_app, E' in G3. fold (pushes [po_slave e; po_slave f]) in G3.
    apply (f_equal (@length _)) in G3. rewrite !map_length, app_length in G3. destruct (pushes [po_slave e; po_slave f]); [reflexivity|cbn in G3; lia]. }
  rewrite PS in *. exact (fifo_late width 1 cpol cpha ltac:(lia) si HRu HPr _ _ _ Eu HN).
Qed.

(** At any time, whatever the pace of that user as long as it never leaves a word waiting for
    [2 * width] cycles in a row: nothing is lost, repeated or reordered, and at most eight words wait in the slave. *)
Theorem C147_paced : forall width div delay cpol cpha ins L,
  0 <= div < 256 -> 0 < width <= 256 -> cpol = cpha -> 0 < L <= 2 * width ->
  let t := trace (spi_pair width div delay cpol cpha [width]) ins in
  Forall (fun b => 0 <= bdata b < 2 ^ width) (sent (map po_host t)) ->
  taken_within L (map so_fifo (map po_slave t)) ->
  exists held coming, map bdata (sent (map po_host t)) = map bdata (emitted (map so_fifo (map po_slave t))) ++ held ++ coming /\ (length held <= 8)%nat.
Proof.
  intros width div delay cpol cpha ins L Hd Hw Hm HL t HS HT. pose proof (pair_pins width div delay cpol cpha ins) as PP. fold t in PP.
  destruct (pair_host width div delay cpol cpha [width] ins) as [PH _]. destruct (pair_slave width div delay cpol cpha [width] ins) as [PS _]. fold t in PH, PS.
  set (hi := map host_back _) in PH. set (si := map slave_back _) in PS. clearbody hi si. rewrite PH, PS in *.
  assert (Hb : In 1 [1; 2; 4; 8]) by (cbn; auto). assert (Hq : (1 | width)) by apply Z.divide_1_l.
  assert (W : watches (trace (spi_slave cpol cpha width 1 false [width]) si) (trace (spi_host width 1 div delay) hi)) by (exists []; now rewrite app_nil_r, PP).
  destruct (C117_words width 1 div delay cpol cpha false hi si Hd Hb Hq Hw Hm HS W) as [WL _].
  destruct (C117_delivered width 1 div delay cpol cpha hi si Hd Hb Hq Hw Hm HS W) as (held & coming & E & LE & _); [|eauto].
  apply (C55_no_overrun cpol cpha width 1 false [width] si width L); auto.
  - apply (slave_ok width 1 (Z.to_nat width)); lia.
  - exact (slave_dq width 1 div delay cpol cpha false (Z.to_nat width) Hb hi si W).
  - eapply Forall_impl; [|exact WL]. intros w ->. lia.
Qed.

(** Two words in a frame. *)
Definition down_ex : list pair_obs := trace (spi_pair 8 2 3 false false [8]) pair_ex.
Example C147_nonvacuous :
  map bdata (emitted (map so_fifo (map po_slave down_ex))) = [0xa5; 0x3c] /\ map bdata (sent (map po_host down_ex)) = [0xa5; 0x3c] /\
  forallb (fun i => pi_rready i) pair_ex = true /\
  (exists p, p_cs_n p = true /\ map (fun o => pins_of (po_host o)) (skipn 121 down_ex) = repeat p 5).
Proof. repeat split; [vm_compute; reflexivity..|]. eexists (Pins _ _ _). split; [|vm_compute; reflexivity]. reflexivity. Qed.

(** A user that takes each word after nine cycles. *)
Definition slow_ex : list pair_in := map (fun x => let i := snd x in PairIn (pi_sink i) (pi_ready i) (pi_words i) (Nat.eqb (fst x mod 10) 0)) (combine (seq 0 126) pair_ex).
Example C147_nonvacuous_paced :
  let t := trace (spi_pair 8 2 3 false false [8]) slow_ex in
  taken_within 16 (map so_fifo (map po_slave t)) /\ map bdata (emitted (map so_fifo (map po_slave t))) = [0xa5; 0x3c] /\
  existsb (fun o => stalled (so_fifo (po_slave o))) t = true.
Proof. cbv zeta. split; [apply taken_check; [lia|vm_compute; reflexivity]|]. split; vm_compute; reflexivity. Qed.

Print Assumptions C147_words.
Print Assumptions C147_paced.
