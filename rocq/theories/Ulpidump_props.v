(** C161: DumpULPIRegs, both clocks, with a ULPI PHY on its pins. *)
From Verif Require Import Stream Cdcconv_props Ulpi_model Ulpi_props Ulpistart_props Ulpiboot_props Ulpidump_model Ulpidump_spec.

(** What is seen of the dumper at the edges of the PHY's clock. *)
Definition pins (t : list dw_obs) : list du_obs := flat_map (fun o => match o with DoUlpi d _ => [d] | _ => [] end) t.
Definition sync_edges (t : list dw_obs) : Z := Z.of_nat (length (filter (fun o => match o with DoSync => true | _ => false end) t)).
(** The byte to be expected for address a: register a, but address 47 is the one that leads
    to the extended registers, and there the dumper reads the one at address 0. *)
Definition expected (reg ext : Z -> Z) (a : nat) : Z := if Z.of_nat a =? 47 then ext 0 else reg (Z.of_nat a).

Section Values.
  Context (m : Z) (Hm : 0 <= m <= 63) (reg ext : Z -> Z).
  Definition shown (s : du_state) : Z := expected reg ext (Z.to_nat (du_addr s)).
  Definition phy_ok (s : du_state) (p : pst) : Prop :=
    x_stp (du_xc s) = false /\
    match du_fsm s with
    | DuVal =>
        match p with
        | Address => x_dir_r (du_xc s) = false /\ rx_valid (x_src (du_xc s)) = false /\ du_addr s = 47
        | Reading v => x_dir_r (du_xc s) = false /\ rx_valid (x_src (du_xc s)) = false /\ v = shown s
        | Turn v => x_dir_r (du_xc s) = true /\ rx_valid (x_src (du_xc s)) = false /\ v = shown s
        | Idle => rx_valid (x_src (du_xc s)) = true /\ rx_data (x_src (du_xc s)) = shown s
        end
    | _ => p = Idle
    end.
  Definition val_ok (t : list du_obs) (s : du_state) : Prop :=
    forall p, phy_after reg ext false (map duo_xc t) = Some p ->
      phy_ok s p /\ answers t = map (expected reg ext) (seq 0 (length (answers t))).
  Lemma phy_snoc ab t o : phy_after reg ext ab (t ++ [o]) = match phy_after reg ext ab t with None => None | Some q => phy_next reg ext ab q o end.
  Proof. unfold phy_after. now rewrite fold_left_app. Qed.
  Lemma val_inv ins : du_holds m (trace (dump m) ins) (state (dump m) ins) /\ val_ok (trace (dump m) ins) (state (dump m) ins).
  Proof.
    split; [apply du_inv; exact Hm|].
    induction ins as [|i ins IH] using rev_ind.
    { intros p E. injection E as <-. split; [split; reflexivity|reflexivity]. }
    pose proof (du_inv m Hm ins) as D. rewrite trace_snoc, state_snoc. set (t := trace (dump m) ins) in *. set (s := state (dump m) ins) in *.
    set (o := cout (dump m) s i). intros p' E. rewrite map_app in E. cbn [map] in E. rewrite phy_snoc in E.
    destruct (phy_after reg ext false (map duo_xc t)) as [p|] eqn:Ep; [|discriminate]. destruct (IH p Ep) as [[Hs Hp] Ha]. clear IH Ep.
    unfold answers in *. rewrite fold_left_app. cbn [fold_left]. unfold du_holds in D. destruct (fold_left answer_step t (false, [])) as [w ans].
    destruct D as [Hr D]. cbn [snd] in Ha.
    assert (Hx : sink_xfer (duo_xc o) = match du_fsm s with DuCmd => if xc_ready (du_xc s) (du_phy i) then [Beat false false (Z.lor 192 (du_addr s))] else [] | _ => [] end).
    { unfold o, sink_xfer, xfer. cbn [cout dump duo_xc xc_out xo_sink xo_sready]. unfold du_sink. now destruct (du_fsm s). }
    unfold answer_step. rewrite Hx. change (xo_src (duo_xc o)) with (x_src (du_xc s)).
    assert (Eo : duo_xc o = xc_out (du_xc s) (du_phy i) (du_sink s)) by reflexivity. rewrite Eo in E. clear Hx Eo. clearbody o.
    unfold phy_ok. cbn [cnext dump du_fsm du_xc du_addr du_data].
    unfold xc_next. cbn [x_stp x_dir_r x_src]. rewrite Hs.
    assert (Ns : (if false then false else xc_oe (du_xc s) (du_phy i) && cvalid (du_sink s) && blast (cbeat (du_sink s)) && ph_nxt (du_phy i)) = false).
    { cbn. unfold du_sink. destruct (du_fsm s); cbn; now rewrite ?andb_false_r. }
    rewrite Ns. clear Ns.
    assert (Quiet : du_fsm s <> DuCmd -> xo_data_o (xc_out (du_xc s) (du_phy i) (du_sink s)) = 0).
    { intros N. cbn [xc_out xo_data_o]. unfold xc_data_o, du_sink. destruct (du_fsm s); try congruence; cbn [cvalid]; now rewrite andb_false_r. }
    assert (Stay : du_fsm s <> DuCmd -> p = Idle -> p' = Idle).
    { intros N ->. cbn [phy_next] in E. unfold idle_next in E. rewrite (Quiet N), andb_false_r in E. congruence. }
    destruct (du_fsm s) eqn:Ef.
    - destruct D as (_ & _ & -> & -> & _). rewrite (Stay ltac:(discriminate) Hp). split; [|reflexivity]. split; [reflexivity|]. now destruct (du_por_done i).
    - destruct D as (_ & _ & -> & L). subst p. split; [|destruct (xc_ready _ _); exact Ha]. split; [reflexivity|].
      cbn [phy_next] in E. injection E as <-. unfold idle_next, driven.
      unfold xc_ready. cbn [xc_out xo_oe xo_phy xo_data_o]. unfold xc_data_o, du_sink. rewrite Ef, Hs. cbn [cvalid cbeat bdata negb]. rewrite !andb_true_r.
      destruct (xc_oe (du_xc s) (du_phy i)) eqn:Eoe; [|reflexivity]. cbn [andb]. unfold xc_oe in Eoe. apply andb_prop in Eoe. destruct Eoe as [Ed1 Ed2].
      apply negb_true_iff in Ed1, Ed2. rewrite Ed1, Ed2. cbn [negb andb].
      destruct (ph_nxt (du_phy i)); [|reflexivity]. rewrite (lor_192 m Hm) by lia. cbn [andb].
      assert (E3 : (192 + du_addr s) / 64 = 3) by (symmetry; apply (Z.div_unique _ 64 3 (du_addr s)); lia).
      assert (E4 : (192 + du_addr s) mod 64 = du_addr s) by (symmetry; apply (Z.mod_unique _ 64 3); lia). rewrite E3, E4. cbn [Z.eqb Pos.eqb].
      destruct (Z.eqb_spec (du_addr s) 47) as [E47|E47]; [repeat split; assumption|]. unfold shown, expected. cbn [du_addr]. rewrite Z2Nat.id by lia.
      destruct (Z.eqb_spec (du_addr s) 47); [contradiction|]. repeat split.
    - destruct D as (_ & _ & -> & L). specialize (Quiet ltac:(discriminate)).
      change (shown (Du _ _ (du_addr s) _)) with (shown s).
      destruct (rx_valid (x_src (du_xc s))) eqn:Ev.
      + destruct p; try (destruct Hp as (_ & Hp & _); congruence). destruct Hp as [_ Hp]. rewrite (Stay ltac:(discriminate) eq_refl). split; [split; reflexivity|].
        cbn [snd]. rewrite app_length, seq_app, map_app, <- Ha. cbn [length seq map Nat.add]. rewrite Hp, L. reflexivity.
      + split; [|exact Ha]. split; [reflexivity|]. destruct p; [destruct Hp; congruence|..]; cbn [phy_next] in E; rewrite ?Quiet in E; cbn [xc_out xo_phy] in E;
          destruct Hp as (Hd & _ & Hp); rewrite Hd; cbn [andb].
        * destruct (ph_dir (du_phy i)); [discriminate|]. destruct (ph_nxt (du_phy i)); injection E as <-; repeat split; auto.
          unfold shown, expected. cbn [du_addr]. rewrite Hp. reflexivity.
        * destruct (ph_dir (du_phy i)), (ph_nxt (du_phy i)); try discriminate; injection E as <-; repeat split; assumption.
        * destruct (ph_dir (du_phy i)), (ph_nxt (du_phy i)); try discriminate. cbn [andb negb] in E. destruct (Z.eqb_spec (ph_data (du_phy i)) v); [|discriminate]. injection E as <-.
          cbn [rx_valid rx_data]. split; [reflexivity|congruence].
    - destruct D as (_ & _ & -> & _). rewrite (Stay ltac:(discriminate) Hp). split; [|exact Ha]. split; [reflexivity|]. now destruct (du_rready i).
    - destruct D as (_ & _ & -> & _). rewrite (Stay ltac:(discriminate) Hp). split; [|exact Ha]. split; [reflexivity|]. now destruct (_ =? m).
    - destruct D as (_ & _ & _ & -> & _). rewrite (Stay ltac:(discriminate) Hp). split; [|exact Ha]. split; reflexivity.
  Qed.
End Values.

(** ** The dump comes to its end. *)
Lemma cons_eq {A} (x y : A) a b : x :: a = y :: b -> x = y /\ a = b.
Proof. intros E. now inversion E. Qed.
Section Rank.
  Context (m : Z) (Hm : 0 <= m <= 63).
  Notation step s i := (cnext (dump m) s i).
  Definition du_rank (s : du_state) : Z :=
    match du_fsm s with
    | DuReset => 0 | DuCmd => 1 + 4 * du_addr s | DuVal => 2 + 4 * du_addr s | DuOut => 3 + 4 * du_addr s
    | DuInc => 4 + 4 * du_addr s | DuDone => 5 + 4 * m end.
  Definition du_fine (s : du_state) : Prop := 0 <= du_addr s <= m.
  Lemma fine_step s i : du_fine s -> du_fine (step s i).
  Proof.
    unfold du_fine. intros H. cbn [cnext dump du_addr]. destruct (du_fsm s); try exact H.
    destruct (Z.eqb_spec (du_addr s) m); [exact H|]. rewrite (trunc_small 6) by lia. lia.
  Qed.
  Lemma fine_run ins : forall s, du_fine s -> du_fine (state_from (dump m) s ins).
  Proof. induction ins as [|i ins IH]; intros s H; [exact H|]. cbn [state_from]. apply IH, fine_step, H. Qed.
  Lemma rank_step s i : du_fine s -> du_rank s <= du_rank (step s i).
  Proof.
    unfold du_fine, du_rank. intros H. cbn [cnext dump du_fsm du_addr]. destruct (du_fsm s).
    - destruct (du_por_done i); lia.
    - destruct (xc_ready _ _); lia.
    - destruct (rx_valid _); lia.
    - destruct (du_rready i); lia.
    - destruct (Z.eqb_spec (du_addr s) m); [lia|]. rewrite (trunc_small 6) by lia. lia.
    - lia.
  Qed.
  Lemma rank_from ins : forall s, du_fine s -> du_rank s <= du_rank (state_from (dump m) s ins).
  Proof. induction ins as [|i ins IH]; intros s H; [cbn; lia|]. cbn [state_from]. pose proof (rank_step s i H). specialize (IH _ (fine_step s i H)). lia. Qed.
  Lemma rank_start s i : du_por_done i = true -> du_fine s -> 1 <= du_rank (step s i).
  Proof.
    unfold du_fine, du_rank. intros E H. cbn [cnext dump du_fsm du_addr]. rewrite E. destruct (du_fsm s); repeat (match goal with |- context [if ?b then _ else _] => destruct b end); try lia.
    all: unfold trunc; pose proof (Z.mod_pos_bound (du_addr s + 1) (2 ^ 6) ltac:(lia)); lia.
  Qed.
  Lemma rank_cmd k s i : du_fine s -> 0 <= k <= m -> 1 + 4 * k <= du_rank s -> xo_sready (duo_xc (cout (dump m) s i)) = true -> 2 + 4 * k <= du_rank (step s i).
  Proof.
    intros F Hk R E. change (xc_ready (du_xc s) (du_phy i) = true) in E. pose proof (rank_step s i F) as M.
    destruct (Z.eq_dec (du_rank s) (1 + 4 * k)) as [Q|Q]; [|lia]. unfold du_fine, du_rank in *. destruct (du_fsm s) eqn:Ef; try lia.
    cbn [cnext dump du_fsm du_addr] in *. rewrite Ef, E in *. lia.
  Qed.
  Lemma rank_answer k s i : du_fine s -> 0 <= k <= m -> 2 + 4 * k <= du_rank s -> rx_valid (x_src (du_xc s)) = true -> 3 + 4 * k <= du_rank (step s i).
  Proof.
    intros F Hk R E. pose proof (rank_step s i F) as M.
    destruct (Z.eq_dec (du_rank s) (2 + 4 * k)) as [Q|Q]; [|lia]. unfold du_fine, du_rank in *. destruct (du_fsm s) eqn:Ef; try lia.
    cbn [cnext dump du_fsm du_addr] in *. rewrite Ef, E in *. lia.
  Qed.
  Lemma rank_out k s i : du_fine s -> 0 <= k <= m -> 3 + 4 * k <= du_rank s -> du_rready i = true -> 4 + 4 * k <= du_rank (step s i).
  Proof.
    intros F Hk R E. pose proof (rank_step s i F) as M.
    destruct (Z.eq_dec (du_rank s) (3 + 4 * k)) as [Q|Q]; [|lia]. unfold du_fine, du_rank in *. destruct (du_fsm s) eqn:Ef; try lia.
    cbn [cnext dump du_fsm du_addr] in *. rewrite Ef, E in *. lia.
  Qed.
  Lemma rank_inc k s i : du_fine s -> 0 <= k <= m -> 4 + 4 * k <= du_rank s -> 5 + 4 * k <= du_rank (step s i).
  Proof.
    intros F Hk R. pose proof (rank_step s i F) as M.
    destruct (Z.eq_dec (du_rank s) (4 + 4 * k)) as [Q|Q]; [|lia]. unfold du_fine, du_rank in *. destruct (du_fsm s) eqn:Ef; try lia.
    cbn [cnext dump du_fsm du_addr] in *. rewrite Ef in *. destruct (Z.eqb_spec (du_addr s) m); [lia|]. rewrite (trunc_small 6) by lia. lia.
  Qed.
End Rank.

(** A round of the bus: the PHY takes a byte (nxt on a free bus), later it owns the bus for two
    cycles on end, and one or more cycles after them the user is ready in a cycle that is
    not the last. *)
Definition round (r : list du_obs) : Prop :=
  exists a x b y z w c v e d, r = a ++ x :: b ++ y :: z :: w :: c ++ v :: e :: d /\
    xo_sready (duo_xc x) = true /\
    ph_dir (xo_phy (duo_xc y)) = true /\ ph_dir (xo_phy (duo_xc z)) = true /\
    duo_rready v = true.

Section Whole.
  Context (m : Z) (Hm : 0 <= m <= 63).
  Notation D := (dump m).
  Lemma round_run k s ins : du_fine m s -> 0 <= k <= m -> 1 + 4 * k <= du_rank m s -> round (trace_from D s ins) -> 5 + 4 * k <= du_rank m (state_from D s ins).
  Proof.
    intros F Hk R (a & x & b & y & z & w & c & v & e & d & E & Hx & Hy & Hz & Hv).
    assert (One : forall l s u o, trace_from D s l = o :: u -> exists i l', l = i :: l' /\ o = cout D s i /\ trace_from D (cnext D s i) l' = u).
    { intros l s' u o T. destruct l as [|i l']; [discriminate|]. exists i, l'. cbn [trace_from] in T. apply cons_eq in T. destruct T as [T1 T2]. auto. }
    apply trace_from_split in E. destruct E as (ia & l1 & -> & _ & E). rewrite state_from_app.
    pose proof (fine_run m Hm ia s F) as F1. pose proof (rank_from m Hm ia s F) as R1. set (s1 := state_from D s ia) in *.
    apply One in E. destruct E as (ix & l2 & -> & -> & E). cbn [state_from].
    pose proof (rank_cmd m Hm k s1 ix F1 Hk ltac:(lia) Hx) as R2. pose proof (fine_step m Hm s1 ix F1) as F2. set (s2 := cnext D s1 ix) in *.
    apply trace_from_split in E. destruct E as (ib & l3 & -> & _ & E). rewrite state_from_app.
    pose proof (fine_run m Hm ib s2 F2) as F3. pose proof (rank_from m Hm ib s2 F2) as R3. set (s3 := state_from D s2 ib) in *.
    apply One in E. destruct E as (iy & l4 & -> & -> & E). cbn [state_from].
    pose proof (rank_step m Hm s3 iy F3) as R4. pose proof (fine_step m Hm s3 iy F3) as F4. set (s4 := cnext D s3 iy) in *.
    apply One in E. destruct E as (iz & l5 & -> & -> & E). cbn [state_from].
    pose proof (rank_step m Hm s4 iz F4) as R5. pose proof (fine_step m Hm s4 iz F4) as F5.
    assert (V : rx_valid (x_src (du_xc (cnext D s4 iz))) = true).
    { change (ph_dir (du_phy iz) = true) in Hz. change (ph_dir (du_phy iy) = true) in Hy. cbn [cnext dump du_xc]. unfold xc_next. cbn [x_src].
      replace (x_dir_r (du_xc s4)) with true by (symmetry; exact Hy). rewrite Hz. reflexivity. }
    set (s5 := cnext D s4 iz) in *.
    apply One in E. destruct E as (iw & l6 & -> & -> & E). cbn [state_from].
    pose proof (rank_answer m Hm k s5 iw F5 Hk ltac:(lia) V) as R6. pose proof (fine_step m Hm s5 iw F5) as F6. set (s6 := cnext D s5 iw) in *.
    apply trace_from_split in E. destruct E as (ic & l7 & -> & _ & E). rewrite state_from_app.
    pose proof (fine_run m Hm ic s6 F6) as F7. pose proof (rank_from m Hm ic s6 F6) as R7. set (s7 := state_from D s6 ic) in *.
    apply One in E. destruct E as (iv & l8 & -> & -> & E). cbn [state_from].
    pose proof (rank_out m Hm k s7 iv F7 Hk ltac:(lia) Hv) as R8. pose proof (fine_step m Hm s7 iv F7) as F8. set (s8 := cnext D s7 iv) in *.
    apply One in E. destruct E as (ie & l9 & -> & -> & E). cbn [state_from].
    pose proof (rank_inc m Hm k s8 ie F8 Hk ltac:(lia)) as R9. pose proof (fine_step m Hm s8 ie F8) as F9.
    pose proof (rank_from m Hm l9 (cnext D s8 ie) F9). lia.
  Qed.
  Lemma rounds_run rs : Forall round rs -> forall k s ins, du_fine m s -> 0 <= k -> k + Z.of_nat (length rs) <= m + 1 -> 1 + 4 * k <= du_rank m s ->
    trace_from D s ins = concat rs -> 1 + 4 * (k + Z.of_nat (length rs)) <= du_rank m (state_from D s ins).
  Proof.
    induction 1 as [|r rs Hr Hrs IH]; intros k s ins F Hk Hl R E.
    - cbn [length]. pose proof (rank_from m Hm ins s F). lia.
    - cbn [concat length] in *. apply trace_from_split in E. destruct E as (i1 & i2 & -> & E1 & E2). rewrite state_from_app.
      rewrite <- E1 in Hr. pose proof (round_run k s i1 F ltac:(lia) R Hr) as R1.
      specialize (IH (k + 1) (state_from D s i1) i2 (fine_run m Hm i1 s F) ltac:(lia) ltac:(lia) ltac:(lia) E2). lia.
  Qed.

  Context (n2 n4 : Z).
  Notation c := (dump_regs n2 n4 m).
  Lemma dw_split ev : exists dins u, pins (trace c ev) = trace D dins /\ dw_du (state c ev) = state D dins /\
    Z.of_nat (length u) = sync_edges (trace c ev) /\ dw_por (state c ev) = state (por n2 n4) u.
  Proof.
    induction ev as [|e ev IH] using rev_ind; [exists [], []; repeat split|]. destruct IH as (dins & u & P & S1 & L & S2).
    rewrite trace_snoc, state_snoc. unfold pins, sync_edges. rewrite flat_map_app, filter_app, app_length. fold (pins (trace c ev)). destruct e as [|p r].
    - exists dins, (u ++ [tt]). rewrite app_length, state_snoc, <- S2. cbn. rewrite app_nil_r. unfold sync_edges in L. repeat split; try assumption. lia.
    - exists (dins ++ [dw_in n2 n4 (state c ev) p r]), u. rewrite trace_snoc, state_snoc, <- S1, P. unfold sync_edges in L. cbn. repeat split; try assumption. lia.
  Qed.
  Context (H2 : 0 <= n2 < 2 ^ 30) (H4 : 0 <= n4 < 2 ^ 30).
  Lemma dw_por_out ev : let o := cout (por n2 n4) (dw_por (state c ev)) tt in
    (poo_rst o = true <-> sync_edges (trace c ev) < n2 + 1) /\ (poo_done o = true <-> n2 + 1 + (n4 + 1) <= sync_edges (trace c ev)).
  Proof.
    destruct (dw_split ev) as (_ & u & _ & _ & L & E). rewrite E, <- L, <- (trace_length (por n2 n4) u).
    apply (C64_por n2 n4 (u ++ [tt]) _ _ [] H2 H4). apply trace_snoc.
  Qed.
  Lemma dw_seen ev : du_por_seen (pins (trace c ev)) -> n2 + 1 + (n4 + 1) <= sync_edges (trace c ev).
  Proof.
    induction ev as [|e ev IH] using rev_ind; [intros (x & [] & _)|]. rewrite trace_snoc. unfold pins, sync_edges. rewrite flat_map_app, filter_app, app_length. fold (pins (trace c ev)).
    unfold sync_edges in IH. destruct e as [|p r].
    - cbn. rewrite app_nil_r. intros H. specialize (IH H). lia.
    - cbn. rewrite por_seen_snoc. intros [H|H]; [specialize (IH H); lia|].
      change (poo_done (cout (por n2 n4) (dw_por (state c ev)) tt) = true) in H. apply (proj2 (dw_por_out ev)) in H. unfold sync_edges in H. lia.
  Qed.
  (** The run after [ev1], from the dumper's own state. *)
  Lemma dw_from ev : forall s, exists dins, pins (trace_from c s ev) = trace_from D (dw_du s) dins /\ dw_du (state_from c s ev) = state_from D (dw_du s) dins /\
    (po_st (dw_por s) = PorIdle -> Forall (fun i => du_por_done i = true) dins).
  Proof.
    induction ev as [|e ev IH]; intros s; [exists []; repeat split; constructor|]. cbn [trace_from state_from]. destruct (IH (cnext c s e)) as (d & P & S1 & A). destruct e as [|p r].
    - exists d. split; [exact P|]. split; [exact S1|]. intros H. apply A. cbn. now rewrite H.
    - exists (dw_in n2 n4 s p r :: d). split; [|split; [exact S1|]].
      + change (cout D (dw_du s) (dw_in n2 n4 s p r) :: pins (trace_from c (cnext c s (DwUlpi p r)) ev) = trace_from D (dw_du s) (dw_in n2 n4 s p r :: d)). rewrite P. reflexivity.
      + intros H. constructor; [cbn; now rewrite H|]. apply A. exact H.
  Qed.
End Whole.

(** The PHY's reset pin is high for the first n2 + 1 cycles of the user's clock and low ever
    after, and for n4 + 1 cycles more nothing is sent. *)
Theorem C161_reset : forall n2 n4 m ev p r o rst,
  0 <= n2 < 2 ^ 30 -> 0 <= n4 < 2 ^ 30 -> 0 <= m <= 63 ->
  let c := dump_regs n2 n4 m in let t := trace c ev in
  trace c (ev ++ [DwUlpi p r]) = t ++ [DoUlpi o rst] ->
  (rst = true <-> sync_edges t < n2 + 1) /\
  (sync_edges t < (n2 + 1) + (n4 + 1) -> xo_data_o (duo_xc o) = 0 /\ cvalid (duo_src o) = false) /\
  xo_stp (duo_xc o) = false.
Proof.
  intros n2 n4 m ev p r o rst H2 H4 Hm c t E. unfold t in E. rewrite trace_snoc in E. apply app_inv_head in E. injection E as <- <-.
  destruct (dw_por_out m n2 n4 H2 H4 ev) as [P1 _]. pose proof (dw_seen m n2 n4 H2 H4 ev) as N. fold c t in P1, N.
  destruct (dw_split m n2 n4 ev) as (dins & _ & B & S1 & _). fold c t in B, S1.
  pose proof (du_track_inv m ltac:(lia) dins) as T. unfold du_track in T. destruct (fold_left answer_step (trace (dump m) dins) (false, [])) as [w ans].
  destruct T as (T & _). rewrite <- S1, <- B in T. set (s := state c ev) in *.
  assert (R : sync_edges t < n2 + 1 + (n4 + 1) -> du_fsm (dw_du s) = DuReset).
  { intros L. destruct (du_fsm (dw_du s)) eqn:Ef; [reflexivity|..]; exfalso; (assert (Q : du_por_seen (pins t)) by (apply T; discriminate)); apply N in Q; lia. }
  split; [|split].
  - destruct (du_fsm (dw_du s)) eqn:Ef; [exact P1|..]; (split; [discriminate|intros L; specialize (R ltac:(lia)); discriminate]).
  - intros L. specialize (R L). split; [|cbn; now rewrite R]. cbn [cout dump duo_xc xc_out xo_data_o]. unfold xc_data_o, du_sink. rewrite R. cbn. now rewrite andb_false_r.
  - change (x_stp (du_xc (dw_du s)) = false). rewrite S1. clear. apply (run_inv (dump m) (fun _ s => x_stp (du_xc s) = false)); [reflexivity|].
    intros _ s i H. cbn [cnext dump du_xc]. unfold xc_next. cbn [x_stp]. rewrite H. unfold du_sink. destruct (du_fsm s); cbn; now rewrite ?andb_false_r.
Qed.

(** With a PHY that keeps to the protocol and does not give up reads, the bytes output are at
    all times those of the registers from 0 on, in order. *)
Theorem C161_values_partial : forall n2 n4 m reg ext ev, 0 <= m <= 63 ->
  let t := pins (trace (dump_regs n2 n4 m) ev) in
  serves reg ext (map duo_xc t) ->
  exists k, du_outputs t = map (expected reg ext) (seq 0 k) /\ Z.of_nat k <= m + 1.
Proof.
  intros n2 n4 m reg ext ev Hm t (p & Hp). destruct (dw_split m n2 n4 ev) as (dins & _ & B & _). fold t in B.
  destruct (val_inv m Hm reg ext dins) as [_ V]. rewrite <- B in V. destruct (V p Hp) as [_ A].
  destruct (C65_dump m dins Hm) as (k & pend & C & K & O & Lp & L). rewrite <- B in C, O, L.
  exists (length (du_outputs t)). split; [|lia].
  rewrite O, app_length, seq_app, map_app in A. apply (f_equal (firstn (length (du_outputs t)))) in A.
  rewrite !firstn_app, Nat.sub_diag, map_length, seq_length, Nat.sub_diag, firstn_all, firstn_O, !app_nil_r in A.
  rewrite firstn_all2 in A by (rewrite map_length, seq_length; lia). exact A.
Qed.

(** And the dump comes to its end: after the power-on reset, one cycle and m + 1 rounds give
    one byte for each address, and nothing follows. *)
Theorem C161_complete_partial : forall n2 n4 m reg ext ev1 ev2 o rs,
  0 <= n2 < 2 ^ 30 -> 0 <= n4 < 2 ^ 30 -> 0 <= m <= 63 ->
  let c := dump_regs n2 n4 m in let t := pins (trace c (ev1 ++ ev2)) in
  (n2 + 1) + (n4 + 1) <= sync_edges (trace c ev1) ->
  t = pins (trace c ev1) ++ o :: concat rs -> Forall round rs -> Z.of_nat (length rs) = m + 1 ->
  serves reg ext (map duo_xc t) ->
  du_outputs t = map (expected reg ext) (seq 0 (Z.to_nat (m + 1))).
Proof.
  intros n2 n4 m reg ext ev1 ev2 o rs H2 H4 Hm c t He Ht Hr Hl (p & Hp).
  assert (E0 : t = pins (trace c ev1) ++ pins (trace_from c (state c ev1) ev2)).
  { unfold t. unfold trace at 1. rewrite trace_from_app. unfold pins. rewrite flat_map_app. reflexivity. }
  rewrite E0 in Ht. apply app_inv_head in Ht.
  destruct (dw_split m n2 n4 ev1) as (d1 & _ & B1 & S1 & _). fold c in B1, S1.
  destruct (dw_from m n2 n4 ev2 (state c ev1)) as (d2 & B2 & S2 & A). fold c in B2, S2.
  assert (I : po_st (dw_por (state c ev1)) = PorIdle).
  { apply (proj2 (dw_por_out m n2 n4 H2 H4 ev1)) in He. cbn in He. fold c in He. destruct (po_st (dw_por (state c ev1))); congruence. }
  specialize (A I). rewrite S1 in B2. rewrite Ht in B2.
  assert (TT : t = trace (dump m) (d1 ++ d2)).
  { rewrite E0, B1, Ht, B2. unfold trace. rewrite trace_from_app. reflexivity. }
  assert (F0 : du_fine m (state (dump m) d1)) by (apply fine_run; [exact Hm|split; cbn; lia]).
  destruct d2 as [|i d2]; [discriminate|]. inversion A as [|? ? Ai _]; subst. cbn [trace_from] in B2. apply cons_eq in B2. destruct B2 as [_ B2].
  pose proof (rank_start m Hm (state (dump m) d1) i Ai F0) as R1.
  assert (R : 5 + 4 * m <= du_rank m (state (dump m) (d1 ++ i :: d2))).
  { unfold state. rewrite state_from_app. cbn [state_from]. fold (state (dump m) d1).
    pose proof (rounds_run m Hm rs Hr 0 (cnext (dump m) (state (dump m) d1) i) d2 (fine_step m Hm _ i F0) ltac:(lia) ltac:(lia) ltac:(lia) (eq_sym B2)) as Q. lia. }
  destruct (val_inv m Hm reg ext (d1 ++ i :: d2)) as [Dh V]. rewrite <- TT in V, Dh. destruct (V p Hp) as [_ Av].
  unfold du_holds in Dh. unfold answers in Av. destruct (fold_left answer_step t (false, [])) as [w ans]. cbn [snd] in Av. destruct Dh as [Da Dh].
  unfold du_rank in R. destruct (du_fsm (state (dump m) (d1 ++ i :: d2))); try lia.
  destruct Dh as (Ea & _ & -> & _ & L). rewrite Av, L, Ea. reflexivity.
Qed.

(** False of PHYs that give up a read when a packet comes in, as the protocol allows: the
    dumper takes the first byte it receives for the value.  Whatever the registers hold, any
    byte v on the USB line can be output in place of register 0. *)
Theorem C161_values_refuted : forall reg ext m v, 0 <= m <= 63 -> exists ev,
  let t := pins (trace (dump_regs 1 1 m) ev) in complies reg ext (map duo_xc t) /\ du_outputs t = [v].
Proof.
  intros reg ext m v Hm.
  exists (repeat DwSync 4 ++ [DwUlpi (Phy false false 0) true; DwUlpi (Phy false true 0) true; DwUlpi (Phy true true 0) true; DwUlpi (Phy true true v) true;
          DwUlpi (Phy false false 0) true; DwUlpi (Phy false false 0) true]).
  split; [eexists; reflexivity|reflexivity].
Qed.

(** A run of the whole: reset, a status byte before and after, reads with delays, registers
    46, 47 and 48 among them. *)
Definition dw_reg (a : Z) : Z := 100 + a.
Definition dw_ext (a : Z) : Z := 200 + a.
Definition dw_lo (n r : bool) : dw_event := DwUlpi (Phy false n 0) r.
Definition dw_hi (n : bool) (d : Z) (r : bool) : dw_event := DwUlpi (Phy true n d) r.
Definition dw_round (a : nat) : list dw_event :=
  (if Nat.eqb a 3 then [dw_hi false 0 true; dw_hi false 76 true; dw_lo false true] else []) ++
  [dw_lo false false; dw_lo true false] ++ (if Nat.eqb a 47 then [dw_lo false false; dw_lo true false] else []) ++
  [dw_hi false 0 false; dw_hi false (expected dw_reg dw_ext a) false] ++ (if Nat.eqb a 5 then [dw_hi false 77 true] else []) ++
  [dw_lo false false; DwSync; dw_lo false true; dw_lo false false].
Definition dw_rounds (k : nat) : list dw_event := flat_map dw_round (seq 0 k).
Example C161_nonvacuous :
  let c := dump_regs 1 2 49 in let t := pins (trace c (repeat DwSync 5 ++ dw_lo false false :: dw_rounds 50)) in
  serves dw_reg dw_ext (map duo_xc t) /\
  du_outputs t = [100;101;102;103;104;105;106;107;108;109;110;111;112;113;114;115;116;117;118;119;120;121;122;123;124;125;126;127;128;129;
                  130;131;132;133;134;135;136;137;138;139;140;141;142;143;144;145;146;200;148;149].
Proof. split; [exists Idle|]; lazy; reflexivity. Qed.
Example C161_complete_nonvacuous :
  let c := dump_regs 1 2 2 in let ev1 := repeat DwSync 5 in let ev2 := dw_lo false false :: dw_rounds 3 in let t := pins (trace c (ev1 ++ ev2)) in
  (1 + 1) + (2 + 1) <= sync_edges (trace c ev1) /\ serves dw_reg dw_ext (map duo_xc t) /\
  exists o rs, t = pins (trace c ev1) ++ o :: concat rs /\ Forall round rs /\ Z.of_nat (length rs) = 2 + 1.
Proof.
  intros c ev1 ev2 t. split; [vm_compute; discriminate|]. split; [exists Idle; vm_compute; reflexivity|].
  let b := eval vm_compute in t in
  match b with ?o :: ?a1 :: ?a2 :: ?a3 :: ?a4 :: ?a5 :: ?a6 :: ?a7 :: ?b1 :: ?b2 :: ?b3 :: ?b4 :: ?b5 :: ?b6 :: ?b7 :: ?c1 :: ?c2 :: ?c3 :: ?c4 :: ?c5 :: ?c6 :: ?c7 :: [] =>
    exists o, [[a1; a2; a3; a4; a5; a6; a7]; [b1; b2; b3; b4; b5; b6; b7]; [c1; c2; c3; c4; c5; c6; c7]] end.
  split; [vm_compute; reflexivity|]. split; [|reflexivity].
  repeat apply Forall_cons; try apply Forall_nil; (match goal with |- round [?x0; ?x; ?y; ?z; ?w; ?v; ?e] => exists [x0], x, [], y, z, w, [], v, e, [] end); repeat split.
Qed.
Print Assumptions C161_reset.
Print Assumptions C161_values_partial.
Print Assumptions C161_complete_partial.
Print Assumptions C161_values_refuted.
