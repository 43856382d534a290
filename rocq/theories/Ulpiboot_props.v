(** C144: DirectULPI from power-up to the first byte of traffic, over both clocks. *)
From Verif Require Import Stream Bits Fifo_model Cdcconv_model Cdcconv_props Ulpi_model Ulpi_props Ulpistart_props Ulpifull_model Ulpifull_props.

(** Edges of the user's clock so far. *)
Definition user_edges (t : list fu_obs) : Z := Z.of_nat (length (filter (fun o => match o with FoSync _ _ _ _ => true | _ => false end) t)).
(** Bytes the PHY asks for. *)
Definition takes (b : list di_obs) : nat := length (filter (fun o => phy_takes (dio_xc o)) b).

Section Boot.
  Context (n2 n4 nt rxd txd : Z).
  Notation c := (direct_ulpi n2 n4 nt rxd txd).
  (** The power-on reset has seen one cycle for each edge of the user's clock. *)
  Lemma por_split ev : exists u, length u = length (filter (fun o => match o with FoSync _ _ _ _ => true | _ => false end) (trace c ev)) /\
    fu_por (state c ev) = state (por n2 n4) u.
  Proof.
    induction ev as [|e ev IH] using rev_ind; [exists []; split; reflexivity|]. destruct IH as (u & L & E). rewrite trace_snoc, state_snoc, filter_app, app_length.
    destruct e as [k sr r sw|p sw sr].
    - exists (u ++ [tt]). rewrite app_length, L, state_snoc, <- E. split; reflexivity.
    - exists u. rewrite L, <- E. cbn [cout cnext direct_ulpi filter length fu_por]. split; [lia|reflexivity].
  Qed.
  Context (H2 : 0 <= n2 < 2 ^ 30) (H4 : 0 <= n4 < 2 ^ 30) (Ht : 0 <= nt < 2 ^ 30).
  Lemma por_out ev : let o := cout (por n2 n4) (fu_por (state c ev)) tt in
    (poo_rst o = true <-> user_edges (trace c ev) < n2 + 1) /\ (poo_done o = true <-> n2 + 1 + (n4 + 1) <= user_edges (trace c ev)).
  Proof.
    destruct (por_split ev) as (u & L & E). rewrite E. unfold user_edges. rewrite <- L, <- (trace_length (por n2 n4) u).
    apply (C64_por n2 n4 (u ++ [tt]) _ _ [] H2 H4). apply trace_snoc.
  Qed.
  Lemma edges_snoc t o : user_edges t <= user_edges (t ++ [o]).
  Proof. unfold user_edges. rewrite filter_app, app_length. lia. Qed.
  Lemma not_seen ev : di_por_seen (bus (trace c ev)) -> n2 + 1 + (n4 + 1) <= user_edges (trace c ev).
  Proof.
    induction ev as [|e ev IH] using rev_ind; [intros (x & [] & _)|]. rewrite trace_snoc. unfold bus. rewrite flat_map_app. fold (bus (trace c ev)).
    pose proof (edges_snoc (trace c ev) (cout c (state c ev) e)) as M. destruct e as [k sr r sw|p sw sr]; cbn [cout direct_ulpi flat_map app] in *.
    - rewrite app_nil_r. intros H. specialize (IH H). lia.
    - rewrite di_por_seen_snoc. intros [H|H]; [specialize (IH H); lia|]. apply (proj2 (por_out ev)) in H. lia.
  Qed.
End Boot.

(** The PHY's reset pin is high for the first n2 + 1 cycles of the user's clock and low ever
    after; and for n4 + 1 cycles more the bus stays idle: no data, no stop. *)
Theorem C144_reset : forall n2 n4 nt rxd txd ev p sw sr o room,
  0 <= n2 < 2 ^ 30 -> 0 <= n4 < 2 ^ 30 -> 0 <= nt < 2 ^ 30 ->
  let c := direct_ulpi n2 n4 nt rxd txd in let t := trace c ev in
  trace c (ev ++ [FuUlpi p sw sr]) = t ++ [FoUlpi o room] ->
  (dio_rst o = true <-> user_edges t < n2 + 1) /\
  (user_edges t < (n2 + 1) + (n4 + 1) -> xo_data_o (dio_xc o) = 0 /\ xo_stp (dio_xc o) = false).
Proof.
  intros n2 n4 nt rxd txd ev p sw sr o room H2 H4 Ht c t Ho. destruct (por_out n2 n4 nt rxd txd H2 H4 ev) as [P1 P2]. pose proof (not_seen n2 n4 nt rxd txd H2 H4 ev) as N.
  destruct (full_split n2 n4 nt rxd txd ev) as (dins & _ & _ & S1 & _ & _ & B & _). fold c t in S1, B, P1, P2, N.
  destruct (di_track_inv nt Ht dins) as (T & _). rewrite <- S1, <- B in T.
  unfold t in Ho. rewrite trace_snoc in Ho. apply app_inv_head in Ho. injection Ho as Ho _. set (s := state c ev) in *.
  assert (R : dio_rst o = match di_fsm (fu_di s) with DiReset => poo_rst (cout (por n2 n4) (fu_por s) tt) | _ => false end) by (rewrite <- Ho; reflexivity).
  split.
  - rewrite R. destruct (di_fsm (fu_di s)) eqn:Ef; [exact P1|..]; (split; [discriminate|intros HU; exfalso; assert (Q : di_por_seen (bus t)) by (apply T; discriminate); apply N in Q; lia]).
  - intros HU. assert (Ef : di_fsm (fu_di s) = DiReset).
    { destruct (di_fsm (fu_di s)) eqn:Ef; [reflexivity|..]; (exfalso; assert (Q : di_por_seen (bus t)) by (apply T; discriminate); apply N in Q; lia). }
    split; [rewrite <- Ho; change (xc_data_o (di_xc (fu_di s)) p (di_sink (fu_di s) (cv_out 8 (fu_tx s) sw)) = 0); unfold xc_data_o, di_sink; rewrite Ef; cbn [cvalid]; now rewrite andb_false_r|].
    rewrite <- Ho. change (x_stp (di_xc (fu_di s)) = false). rewrite S1.
    assert (G : di_fsm (state (direct nt) dins) = DiReset -> x_stp (di_xc (state (direct nt) dins)) = false); [|apply G; rewrite <- S1; exact Ef].
    clear. apply (run_inv (direct nt) (fun _ s => di_fsm s = DiReset -> x_stp (di_xc s) = false)); [reflexivity|].
    intros _ s i IH. cbn [cnext direct di_fsm di_xc]. destruct (di_fsm s) eqn:Ef; cbn; rewrite ?Ef; try (repeat (match goal with |- context [if ?b then _ else _] => destruct b end); discriminate).
    intros _. rewrite (IH eq_refl). unfold di_sink. rewrite Ef. cbn [cvalid]. now rewrite andb_false_r.
Qed.

(** Progress of the set-up. *)
Definition di_rank (s : di_state) : nat := match di_fsm s with DiReset => 0 | Di0 => 1 | Di1 => 2 | Di2 => 3 | Di3 => 4 | Di4 => 5 | DiUp => 6 end.
Section Rank.
  Context (nt : Z) (Ht : 0 <= nt < 2 ^ 30).
  Notation step s i := (cnext (direct nt) s i).
  Lemma rank_mono s i : (di_rank s <= di_rank (step s i))%nat.
  Proof. unfold di_rank. cbn [cnext direct di_fsm]. destruct (di_fsm s); repeat (match goal with |- context [if ?b then _ else _] => destruct b end); lia. Qed.
  Lemma rank_take s i : phy_takes (dio_xc (cout (direct nt) s i)) = true -> di_rank s <> 0%nat -> di_rank s <> 3%nat -> di_rank s <> 6%nat -> di_rank (step s i) = S (di_rank s).
  Proof.
    intros H. change (xc_ready (di_xc s) (di_phy i) = true) in H. unfold di_rank. cbn [cnext direct di_fsm]. rewrite H. destruct (di_fsm s); intros; congruence.
  Qed.
  Lemma rank_run ins : forall s, (di_rank s <= di_rank (state_from (direct nt) s ins))%nat.
  Proof. induction ins as [|i ins IH]; intros s; [cbn; lia|]. cbn [state_from]. specialize (IH (step s i)). pose proof (rank_mono s i). lia. Qed.
  Lemma rank_takes lo hi ins : (lo = 1 /\ hi = 3 \/ lo = 4 /\ hi = 6)%nat -> forall s, (lo <= di_rank s)%nat ->
    (Nat.min hi (di_rank s + takes (trace_from (direct nt) s ins)) <= di_rank (state_from (direct nt) s ins))%nat.
  Proof.
    intros Hl. induction ins as [|i ins IH]; intros s Hs; [cbn; lia|]. cbn [state_from trace_from]. unfold takes. cbn [filter].
    pose proof (rank_mono s i) as M. specialize (IH (step s i) ltac:(lia)). fold (takes (trace_from (direct nt) (step s i) ins)).
    pose proof (rank_run ins (step s i)) as R.
    destruct (phy_takes _) eqn:E; [|fold (takes (trace_from (direct nt) (step s i) ins)); lia]. cbn [length]. fold (takes (trace_from (direct nt) (step s i) ins)).
    destruct (le_lt_dec hi (di_rank s)) as [G|G]; [lia|]. rewrite (rank_take s i E) in * by lia. lia.
  Qed.
  Lemma rank_wait ins : forall s, (3 <= di_rank s)%nat -> (di_rank s = 3%nat -> 0 <= di_cnt s <= nt) ->
    let s' := state_from (direct nt) s ins in (4 <= di_rank s')%nat \/ (di_rank s' = 3%nat /\ Z.of_nat (length ins) <= di_cnt s' <= nt).
  Proof.
    intros s. revert s. induction ins as [|i ins IH]; intros s Hs Hc; cbn [state_from length]; cbv zeta.
    - destruct (Nat.eq_dec (di_rank s) 3) as [E|E]; [right; specialize (Hc E); split; [exact E|cbn; lia]|left; lia].
    - enough (G : forall ins s, (3 <= di_rank s)%nat -> (di_rank s = 3%nat -> 0 <= di_cnt s <= nt) -> (4 <= di_rank (state_from (direct nt) s ins))%nat \/ (di_rank (state_from (direct nt) s ins) = 3%nat /\ di_cnt s + Z.of_nat (length ins) <= di_cnt (state_from (direct nt) s ins) <= nt)).
      { destruct (G (i :: ins) s Hs Hc) as [Q|[Q1 Q2]]; [left; exact Q|]. cbn [state_from length] in *. destruct (Nat.eq_dec (di_rank s) 3) as [E|E]; [right; specialize (Hc E); split; [exact Q1|lia]|].
        pose proof (rank_run (i :: ins) s) as R. cbn [state_from] in R. lia. }
      clear - Ht. induction ins as [|i ins IH]; intros s Hs Hc; cbn [state_from length].
      { destruct (Nat.eq_dec (di_rank s) 3) as [E|E]; [right; specialize (Hc E); split; [exact E|cbn; lia]|left; lia]. }
      destruct (Nat.eq_dec (di_rank s) 3) as [E|E].
      + specialize (Hc E). assert (Ef : di_fsm s = Di2) by (unfold di_rank in E; destruct (di_fsm s); congruence).
        assert (X : (di_rank (step s i) = 4%nat) \/ (di_rank (step s i) = 3%nat /\ di_cnt (step s i) = di_cnt s + 1 /\ di_cnt s + 1 <= nt)).
        { unfold di_rank. cbn [cnext direct di_fsm di_cnt]. rewrite Ef. unfold tm_next, tm_done. cbn [orb andb]. rewrite orb_false_r.
          destruct (Z.eqb_spec (di_cnt s) nt) as [En|En]; [left; reflexivity|]. right. split; [reflexivity|]. rewrite (trunc_small 30) by lia. lia. }
        destruct X as [X|(X1 & X2 & X3)].
        * left. pose proof (rank_run ins (step s i)). lia.
        * destruct (IH (step s i)) as [Q|[Q1 Q2]]; [lia|lia|left; exact Q|right; split; [exact Q1|lia]].
      + left. pose proof (rank_run ins (step s i)). pose proof (rank_mono s i). lia.
  Qed.
  Lemma takes_app a b : takes (a ++ b) = (takes a + takes b)%nat.
  Proof. unfold takes. now rewrite filter_app, app_length. Qed.
End Rank.

Lemma from_split n2 n4 nt rxd txd ev : let c := direct_ulpi n2 n4 nt rxd txd in forall s, exists dins,
  fu_di (state_from c s ev) = state_from (direct nt) (fu_di s) dins /\ bus (trace_from c s ev) = trace_from (direct nt) (fu_di s) dins /\
  (po_st (fu_por s) = PorIdle -> Forall (fun i => di_por_done i = true) dins).
Proof.
  intros c. induction ev as [|e ev IH]; intros s; [exists []; repeat split; constructor|]. cbn [state_from trace_from].
  destruct (IH (cnext c s e)) as (d & E1 & E2 & E3). destruct e as [k sr r sw|p sw sr].
  - exists d. split; [exact E1|]. split; [exact E2|]. intros H. apply E3. cbn [cnext c direct_ulpi fu_por por po_st]. now rewrite H.
  - exists (fu_di_in n2 n4 s p sw :: d). split; [exact E1|]. split; [change (fu_ulpi n2 n4 nt s p sw :: bus (trace_from c (cnext c s (FuUlpi p sw sr)) ev) = cout (direct nt) (fu_di s) (fu_di_in n2 n4 s p sw) :: trace_from (direct nt) (cnext (direct nt) (fu_di s) (fu_di_in n2 n4 s p sw)) d); rewrite E2; reflexivity|].
    intros H. constructor; [cbn; now rewrite H|]. apply E3. exact H.
Qed.

Lemma trace_from_split {I O} (c : circuit I O) ins : forall s a b, trace_from c s ins = a ++ b ->
  exists i1 i2, ins = i1 ++ i2 /\ trace_from c s i1 = a /\ trace_from c (state_from c s i1) i2 = b.
Proof.
  induction ins as [|i ins IH]; intros s a b E.
  - destruct a, b; try discriminate. exists [], []. auto.
  - destruct a as [|x a]; [exists [], (i :: ins); auto|]. cbn [trace_from app] in E. injection E as Ex E.
    destruct (IH _ _ _ E) as (i1 & i2 & -> & Ea & Eb). exists (i :: i1), i2. cbn [trace_from state_from app]. rewrite Ex, Ea. auto.
Qed.

(** Once n2 + n4 + 2 cycles of the user's clock have passed, the set-up needs one edge of the
    PHY's clock, two bytes taken, nt + 1 edges, two more bytes taken; then the link is up. *)
Theorem C144_up : forall n2 n4 nt rxd txd ev1 ev2 b o a w d,
  0 <= n2 < 2 ^ 30 -> 0 <= n4 < 2 ^ 30 -> 0 <= nt < 2 ^ 30 ->
  let c := direct_ulpi n2 n4 nt rxd txd in
  (n2 + 1) + (n4 + 1) <= user_edges (trace c ev1) ->
  bus (trace c (ev1 ++ ev2)) = bus (trace c ev1) ++ b -> b = o :: a ++ w ++ d ->
  (2 <= takes a)%nat -> nt + 1 <= Z.of_nat (length w) -> (2 <= takes d)%nat ->
  firstn 4 (plain (di_sent (bus (trace c (ev1 ++ ev2))))) = plain phy_init.
Proof.
  intros n2 n4 nt rxd txd ev1 ev2 b o a w d H2 H4 Ht c HU Hb Eb Ha Hw Hd.
  pose proof (proj2 (proj2 (por_out n2 n4 nt rxd txd H2 H4 ev1)) HU) as Pd. fold c in Pd.
  assert (Pi : po_st (fu_por (state c ev1)) = PorIdle) by (cbn [cout por poo_done] in Pd; destruct (po_st _); congruence).
  destruct (from_split n2 n4 nt rxd txd ev2 (state c ev1)) as (dins & E1 & E2 & E3). fold c in E1, E2. specialize (E3 Pi).
  assert (B2 : bus (trace_from c (state c ev1) ev2) = b).
  { unfold trace in Hb. rewrite trace_from_app in Hb. unfold bus in Hb. rewrite flat_map_app in Hb. apply app_inv_head in Hb. exact Hb. }
  rewrite E2, Eb in B2. destruct dins as [|i dins]; [discriminate|]. cbn [trace_from] in B2. injection B2 as Bo B2.
  inversion E3 as [|? ? Ei _]; subst. set (s0 := fu_di (state c ev1)) in *. set (s1 := cnext (direct nt) s0 i) in *.
  destruct (trace_from_split (direct nt) dins s1 _ _ B2) as (i1 & i2 & -> & Ta & B3).
  destruct (trace_from_split (direct nt) i2 _ _ _ B3) as (i3 & i4 & -> & Tw & Td).
  assert (R1 : (1 <= di_rank s1)%nat).
  { unfold s1, di_rank. cbn [cnext direct di_fsm]. rewrite Ei. destruct (di_fsm s0); repeat (match goal with |- context [if ?b then _ else _] => destruct b end); lia. }
  pose proof (rank_takes nt 1 3 i1 ltac:(lia) s1 R1) as R2. rewrite Ta in R2. set (s2 := state_from (direct nt) s1 i1) in *.
  destruct (full_split n2 n4 nt rxd txd ev1) as (di1 & _ & _ & S1 & _ & _ & B1 & _). fold c in S1, B1. fold s0 in S1.
  assert (Run : forall l s, s = state (direct nt) di1 -> state_from (direct nt) s l = state (direct nt) (di1 ++ l)) by (intros l s ->; unfold state; now rewrite state_from_app).
  assert (I2 : s2 = state (direct nt) (di1 ++ i :: i1)) by (unfold s2, s1; rewrite <- (Run (i :: i1) s0 S1); reflexivity).
  assert (C2 : di_rank s2 = 3%nat -> 0 <= di_cnt s2 <= nt).
  { intros E. destruct (di_track_inv nt Ht (di1 ++ i :: i1)) as (_ & _ & T). rewrite <- I2 in T. unfold di_rank in E. destruct (di_fsm s2); try discriminate. apply T. }
  destruct (rank_wait nt Ht i3 s2 ltac:(lia) C2) as [R3|[_ R3]].
  2: { pose proof (f_equal (@length _) Tw) as L. rewrite trace_from_length in L. cbv zeta in R3. rewrite L in R3. lia. }
  set (s3 := state_from (direct nt) s2 i3) in *. pose proof (rank_takes nt 4 6 i4 ltac:(lia) s3 R3) as R4. rewrite Td in R4.
  cbv zeta in R3. change (4 <= di_rank s3)%nat in R3.
  assert (R5 : di_rank (state_from (direct nt) s3 i4) = 6%nat).
  { assert (M : forall s, (di_rank s <= 6)%nat) by (intros s; unfold di_rank; destruct (di_fsm s); lia). specialize (M (state_from (direct nt) s3 i4)). clear - R3 R4 M Hd. change (cst (direct nt)) with di_state in *. lia. }
  assert (I4 : state_from (direct nt) s3 i4 = state (direct nt) (di1 ++ i :: i1 ++ i3 ++ i4)).
  { unfold s3, s2, s1. rewrite <- (Run (i :: i1 ++ i3 ++ i4) s0 S1). cbn [state_from]. now rewrite !state_from_app. }
  assert (BB : bus (trace c (ev1 ++ ev2)) = trace (direct nt) (di1 ++ i :: i1 ++ i3 ++ i4)).
  { rewrite Hb, B1. unfold trace. rewrite trace_from_app. fold (state (direct nt) di1). rewrite <- S1. f_equal.
    cbn [trace_from]. fold s1. rewrite !trace_from_app, Ta. fold s2. rewrite Tw. fold s3. rewrite Td. reflexivity. }
  rewrite BB. destruct (di_track_inv nt Ht (di1 ++ i :: i1 ++ i3 ++ i4)) as (_ & T & _).
  rewrite I4 in R5.
  assert (L : (4 <= length (di_sent (trace (direct nt) (di1 ++ i :: i1 ++ i3 ++ i4))))%nat).
  { destruct T as [T|[_ T]]; [|exact T]. rewrite T. assert (Q : forall s, di_rank s = 6%nat -> di_taken s = 4%nat) by (intros s; unfold di_rank, di_taken; destruct (di_fsm s); intros; congruence). pose proof (Q _ R5) as Q'. clear - Q'. etransitivity; [|apply Nat.eq_le_incl; symmetry; exact Q']. lia. }
  destruct (C79_init_first nt (di1 ++ i :: i1 ++ i3 ++ i4)) as [(k & E & _)|E].
  - rewrite E in L |- *. rewrite firstn_length in L. change (length phy_init) with 4%nat in L. rewrite (firstn_all2 phy_init) by (change (length phy_init) with 4%nat; lia). reflexivity.
  - rewrite E. reflexivity.
Qed.
Example C144_nonvacuous : let c := direct_ulpi 1 1 1 8 8 in
  map (fun o => match o with FoUlpi d _ => dio_rst d | _ => false end) (trace c (flat_map (fun _ => [FuSync fu_none 0 false 0; fu_wait]) (repeat tt 6))) =
    [false; true; false; false; false; false; false; false; false; false; false; false] /\
  let ev1 := repeat (FuSync fu_none 0 false 0) 4 in let ev2 := [fu_wait; fu_wait; fu_next; fu_next; fu_wait; fu_wait; fu_wait; fu_next; fu_next; fu_wait] in
  exists b o a w d, (1 + 1) + (1 + 1) <= user_edges (trace c ev1) /\
    bus (trace c (ev1 ++ ev2)) = bus (trace c ev1) ++ b /\ b = o :: a ++ w ++ d /\ (2 <= takes a)%nat /\ 1 + 1 <= Z.of_nat (length w) /\ (2 <= takes d)%nat.
Proof.
  intros c. split; [vm_compute; reflexivity|]. intros ev1 ev2.
  let b := eval vm_compute in (bus (trace c (ev1 ++ ev2))) in
  match b with ?o :: ?a1 :: ?a2 :: ?a3 :: ?w1 :: ?w2 :: ?d => exists b, o, [a1; a2; a3], [w1; w2], d end.
  split; [vm_compute; discriminate|]. split; [vm_compute; reflexivity|]. split; [reflexivity|]. vm_compute. repeat split; try lia; discriminate.
Qed.
Print Assumptions C144_reset.
Print Assumptions C144_up.
