(** SPIPHYSlave does not overrun its FIFO when its words are taken in time: C55. *)
From Verif Require Import Stream Bits Fifo_model Fifo_proofs Fifo_props I2cstream_proofs Spislave_model Spislave_props.

(** A word is offered and not taken in this cycle. *)
Definition stalled (o : obs Z Z) : bool := cvalid (o_src o) && negb (o_rready o).
(** The user never leaves the core waiting [L] cycles in a row. *)
Definition taken_within (L : Z) (t : list (obs Z Z)) : Prop :=
  forall t1 seg t2, t = t1 ++ seg ++ t2 -> Z.of_nat (length seg) = L -> exists o, In o seg /\ stalled o = false.

(** Length of the longest suffix satisfying [f]. *)
Fixpoint run_of {A} (f : A -> bool) (acc : Z) (l : list A) : Z :=
  match l with [] => acc | x :: l' => run_of f (if f x then acc + 1 else 0) l' end.
Lemma run_of_snoc {A} (f : A -> bool) acc l x : run_of f acc (l ++ [x]) = if f x then run_of f acc l + 1 else 0.
Proof. revert acc. induction l as [|y l IH]; intros acc; [reflexivity|]. cbn [app run_of]. apply IH. Qed.
Lemma run_of_nonneg {A} (f : A -> bool) l acc : 0 <= acc -> 0 <= run_of f acc l.
Proof. revert acc. induction l as [|y l IH]; intros acc H; [exact H|]. cbn [run_of]. apply IH. destruct (f y); lia. Qed.
(** The suffix itself. *)
Lemma run_of_suffix {A} (f : A -> bool) l : exists a b, l = a ++ b /\ Z.of_nat (length b) = run_of f 0 l /\ Forall (fun x => f x = true) b.
Proof.
  induction l as [|x l IH] using rev_ind; [exists [], []; repeat constructor|]. rewrite run_of_snoc. destruct IH as (a & b & E & L & F).
  destruct (f x) eqn:Ef.
  - exists a, (b ++ [x]). rewrite app_assoc, <- E, app_length. cbn [length]. repeat split; [lia|]. apply Forall_app. repeat constructor; auto.
  - exists (l ++ [x]), []. rewrite app_nil_r. repeat constructor.
Qed.
Lemma taken_run L t : 0 < L -> taken_within L t -> run_of stalled 0 t < L.
Proof.
  intros HL H. destruct (run_of_suffix stalled t) as (a & b & E & Lb & F). destruct (Z.ltb_spec (run_of stalled 0 t) L) as [|Hge]; [assumption|exfalso].
  assert (Eb : b = firstn (length b - Z.to_nat L) b ++ skipn (length b - Z.to_nat L) b) by (symmetry; apply firstn_skipn).
  destruct (H (a ++ firstn (length b - Z.to_nat L) b) (skipn (length b - Z.to_nat L) b) []) as (o & Hin & Ho).
  - now rewrite app_nil_r, <- app_assoc, <- Eb.
  - rewrite skipn_length. lia.
  - rewrite Forall_forall in F. rewrite (F o) in Ho; [discriminate|]. rewrite Eb. apply in_or_app. now right.
Qed.
Lemma taken_prefix L t u : taken_within L (t ++ u) -> taken_within L t.
Proof. intros H t1 seg t2 E. apply (H t1 seg (t2 ++ u)). now rewrite E, <- !app_assoc. Qed.

(** A check by computation. *)
Lemma run_of_all {A} (f : A -> bool) acc l : Forall (fun x => f x = true) l -> run_of f acc l = acc + Z.of_nat (length l).
Proof. intros H. revert acc. induction H as [|x l Hx H IH]; intros acc; cbn [run_of length]; [lia|]. rewrite Hx, IH. lia. Qed.
Lemma run_of_app {A} (f : A -> bool) acc a b : run_of f acc (a ++ b) = run_of f (run_of f acc a) b.
Proof. revert acc. induction a as [|x a IH]; intros acc; [reflexivity|]. cbn [app run_of]. apply IH. Qed.
Lemma taken_check L t : 0 < L -> forallb (fun k => run_of stalled 0 (firstn k t) <? L) (seq 0 (S (length t))) = true -> taken_within L t.
Proof.
  intros HL H t1 seg t2 E Hl. rewrite forallb_forall in H. specialize (H (length (t1 ++ seg))).
  rewrite E, app_assoc, firstn_app, Nat.sub_diag, firstn_O, app_nil_r, firstn_all, run_of_app in H.
  destruct (forallb stalled seg) eqn:F.
  - rewrite run_of_all in H by (apply Forall_forall; now apply forallb_forall).
    pose proof (run_of_nonneg stalled t1 0 ltac:(lia)). apply Z.ltb_lt in H; [lia|]. apply in_seq. rewrite (app_length (t1 ++ seg)). lia.
  - clear -F. induction seg as [|o seg IH]; [discriminate|]. cbn [forallb] in F. destruct (stalled o) eqn:S; [|exists o; split; [now left|exact S]].
    destruct (IH F) as (o' & Hin & Ho). exists o'. split; [now right|exact Ho].
Qed.

Section Rate.
  Context (cpol cpha : bool) (width bw : Z) (wl : bool) (stages : list Z) (m L : Z).
  Context (Hok : stages_ok width bw stages) (HL : 0 < L <= 2 * m).
  Notation c := (spi_slave cpol cpha width bw wl stages).
  Definition no_push (o : sl_obs) : bool := match so_push o with None => true | _ => false end.
  Definition rate_hyp (t : list sl_obs) : Prop :=
    dq_ok bw t /\ Forall (fun w => bw * m <= snd (fst w)) (pushes t) /\ taken_within L (map so_fifo t).
  Definition fifo_held (f : list Z * option Z) : Z := Z.of_nat (length (fst f)) + match snd f with None => 0 | _ => 1 end.
  Definition rate_inv (t : list sl_obs) (s : sl_state width wl) : Prop :=
    let a := run_of no_push 0 t in let r := run_of stalled 0 (map so_fifo t) in
    let f : list Z * option Z := l_fifo _ _ s in
    (exists ins, t = trace c ins /\ s = state c ins) /\
    2 * l_cnt _ _ s <= bw * (a + if Bool.eqb (l_clk_r _ _ s) (Bool.eqb cpol cpha) then 1 else 0) /\
    match snd f with
    | None => fst f = [] \/ (length (fst f) = 1%nat /\ a = 0)
    | Some _ => fifo_held f * L - r + a <= L + 1
    end /\
    Forall (fun o => so_push o <> None -> o_sready (so_fifo o) = true) t.

  Lemma rate_run ins : rate_hyp (trace c ins) -> rate_inv (trace c ins) (state c ins).
  Proof.
    destruct Hok as (Hb & Hst & Hs).
    revert ins. apply (run_inv_hyp c rate_hyp rate_inv).
    - intros t u (H1 & H2 & H3). unfold rate_hyp, dq_ok, pushes in *. rewrite flat_map_app in H2. rewrite map_app in H3.
      apply Forall_app in H1, H2. repeat split; [apply H1|apply H2|eapply taken_prefix; exact H3].
    - split; [exists []; auto|]. split; [destruct cpol, cpha; cbn; lia|]. cbn. split; [now left|constructor].
    - intros t s i (H1 & H2 & H3) ((ins & -> & ->) & I1 & I2 & I3).
      assert (Hd : dq_ok bw (trace c ins)) by (unfold dq_ok in *; apply Forall_app in H1; apply H1).
      destruct (sl_run cpol cpha width bw wl stages Hb Hst Hs ins Hd) as (_ & _ & chs & pend & _ & _ & F3 & _ & _ & F6 & F7 & F8 & F9 & _).
      set (t := trace c ins) in *. set (s := state c ins) in *. set (o := cout c s i) in *.
      assert (R1 : run_of stalled 0 (map so_fifo t) < L).
      { apply taken_run; [lia|]. rewrite map_app in H3. eapply taken_prefix. exact H3. }
      assert (R2 : run_of stalled 0 (map so_fifo (t ++ [o])) < L) by (apply taken_run; [lia|exact H3]).
      assert (R0 : 0 <= run_of stalled 0 (map so_fifo t)) by (apply run_of_nonneg; lia).
      assert (A0 : 0 <= run_of no_push 0 t) by (apply run_of_nonneg; lia).
      assert (P : Forall (fun w => bw * m <= snd (fst w)) (match so_push o with Some w => [w] | None => [] end)).
      { unfold pushes in H2. rewrite flat_map_app in H2. apply Forall_app in H2. destruct H2 as [_ H2]. cbn [flat_map] in H2. now rewrite app_nil_r in H2. }
      unfold rate_inv. cbv zeta. rewrite map_app. cbn [map]. rewrite !run_of_snoc. rewrite map_app in R2. cbn [map] in R2. rewrite run_of_snoc in R2.
      set (a := run_of no_push 0 t) in *. set (r := run_of stalled 0 (map so_fifo t)) in *.
      assert (Op : so_push o = if sl_pushing cpol cpha width wl stages s then Some (l_reg _ _ s, l_cnt _ _ s, sl_end _ _ s) else None) by reflexivity.
      assert (On : no_push o = negb (sl_pushing cpol cpha width wl stages s)) by (unfold no_push; rewrite Op; now destruct (sl_pushing _ _ _ _ _ s)).
      (* the spacing of the pushes *)
      assert (SP : sl_pushing cpol cpha width wl stages s = true -> 2 * m <= a + 1).
      { intros E. rewrite Op, E in P. apply Forall_cons_iff in P. destruct P as [P _]. cbn [fst snd] in P.
        destruct (Bool.eqb (l_clk_r _ _ s) _); nia. }
      split; [exists (ins ++ [i]); unfold t, s, state in *; rewrite trace_app, state_from_app; now split|].
      (* the FIFO *)
      set (f := l_fifo _ _ s : list Z * option Z) in *.
      assert (NF : (l_fifo _ _ (cnext c s i) : list Z * option Z) =
                   wf_next (sync_fifo_buffered 8) f (sl_pushing cpol cpha width wl stages s) (fifo_pack (sl_pw width wl) (cbeat (sl_fsink cpol cpha width wl stages s))) (sl_rready i)).
      { transitivity (nxt (sl_fifo width wl) (l_fifo _ _ s) (sl_fsink cpol cpha width wl stages s) (sl_rready i)); [|reflexivity].
        cbn [cnext spi_slave]. destruct (sl_sample _ _ _ _ s); [|destruct (sl_pushing _ _ _ _ _ s)]; destruct (if sl_load _ _ s then _ else _) as [[? ?] ?]; reflexivity. }
      assert (OS : stalled (so_fifo o) = match snd f with None => false | _ => negb (sl_rready i) end).
      { unfold stalled, o. cbn [cout spi_slave so_fifo o_src o_rready]. change (src (sl_fifo width wl) (l_fifo _ _ s) _) with (Chan (match snd f with None => false | _ => true end) (fifo_unpack (sl_pw width wl) (match snd f with None => 0 | Some w => w end))).
        cbn [cvalid]. now destruct (snd f). }
      assert (OR : o_sready (so_fifo o) = negb (Z.of_nat (length (fst f)) =? 8 - 1)) by reflexivity.
      assert (LEN : Z.of_nat (length (fst f)) <= 2).
      { destruct (snd f) as [x|] eqn:Ef.
        - unfold fifo_held in I2. rewrite Ef in I2. nia.
        - destruct I2 as [->|[I2 _]]; [cbn; lia|lia]. }
      assert (WR : (Z.of_nat (length (fst f)) =? 8 - 1) = false) by (apply Z.eqb_neq; lia).
      assert (K : 2 * l_cnt _ _ (cnext c s i) <= bw * ((if no_push o then a + 1 else 0) + (if Bool.eqb (l_clk_r _ _ (cnext c s i)) (Bool.eqb cpol cpha) then 1 else 0))).
      { rewrite On. cbn [cnext spi_slave]. set (c3 := if sl_load _ _ s then _ else _). destruct c3 as [[? ?] ?]. unfold sl_pushing.
        destruct (sl_sample cpol cpha width wl s) eqn:Es.
        - cbn [negb andb l_cnt l_clk_r].
          assert (Hlvl : l_clk_r _ _ s = negb (Bool.eqb cpol cpha) /\ p_clk (l_p2 _ _ s) = Bool.eqb cpol cpha).
          { unfold sl_sample, sl_rise, sl_fall, sl_mode in Es. destruct (Bool.eqb cpol cpha), (sl_en _ _ s), (l_clk_r _ _ s), (p_clk (l_p2 _ _ s)); auto; discriminate. }
          destruct Hlvl as [E1 E2]. rewrite E1 in I1. rewrite E2, Bool.eqb_reflx.
          assert (E3 : Bool.eqb (negb (Bool.eqb cpol cpha)) (Bool.eqb cpol cpha) = false) by (destruct (Bool.eqb cpol cpha); reflexivity).
          rewrite E3 in I1.
          assert (T : trunc (range_width (width + 1)) (l_cnt width wl s + bw) <= l_cnt width wl s + bw).
          { unfold trunc. apply Z.mod_le; [rewrite F3; nia|apply Z.pow_pos_nonneg; [lia|apply range_width_nonneg]]. }
          nia.
        - cbn [negb andb]. destruct ((l_cnt _ _ s =? _) || sl_end _ _ s).
          + cbn [negb l_cnt l_clk_r]. destruct (Bool.eqb (p_clk _) _); lia.
          + cbn [negb l_cnt l_clk_r]. destruct (Bool.eqb (l_clk_r _ _ s) _), (Bool.eqb (p_clk _) _); nia. }
      split; [exact K|]. split.
      + rewrite NF, OS, On. rewrite OS in R2. cbn [wf_next sync_fifo_buffered]. clear NF OS On K. destruct f as [q [x|]]; cbn [fst snd] in *.
        * unfold fifo_held in I2. cbn [fst snd] in I2. rewrite WR. cbn [negb andb]. rewrite andb_true_r.
          destruct (sl_rready i) eqn:Er; cbn [negb] in *.
          -- destruct q as [|y q].
             ++ destruct (sl_pushing _ _ _ _ _ s) eqn:Ep; cbn [fst snd negb length]; [right; auto|now left].
             ++ unfold fifo_held. cbn [length fst snd] in *. rewrite app_length.
                destruct (sl_pushing _ _ _ _ _ s) eqn:Ep; cbn [fst snd negb length].
                ** specialize (SP eq_refl). nia.
                ** nia.
          -- unfold fifo_held. cbn [fst snd]. rewrite app_length. destruct (sl_pushing _ _ _ _ _ s) eqn:Ep; cbn [fst snd negb length].
             ++ specialize (SP eq_refl). nia.
             ++ nia.
        * rewrite WR. cbn [negb andb]. rewrite andb_true_r. destruct I2 as [->|[I2 I2']].
          -- destruct (sl_pushing _ _ _ _ _ s); cbn [fst snd length negb]; auto.
          -- destruct q as [|y [|]]; try discriminate I2. destruct (sl_pushing _ _ _ _ _ s) eqn:Ep; [specialize (SP eq_refl); lia|].
             unfold fifo_held. cbn [fst snd length app negb]. lia.
      + apply Forall_app. split; [exact I3|]. constructor; [|constructor]. intros _. rewrite OR, WR. reflexivity.
  Qed.
End Rate.

(** C55: when every word has at least [m] groups of bits and the user leaves no word
    waiting for [2 * m] cycles in a row (the shortest time in which the next word can be
    clocked in), the FIFO is ready at every push: no word is lost. *)
Theorem C55_no_overrun : forall cpol cpha width bw with_len stages ins m L, stages_ok width bw stages ->
  let t := trace (spi_slave cpol cpha width bw with_len stages) ins in
  Forall (fun o => 0 <= p_dq (so_pins o) < 2 ^ bw) t ->
  Forall (fun w => bw * m <= snd (fst w)) (pushes t) ->
  0 < L <= 2 * m -> taken_within L (map so_fifo t) ->
  Forall (fun o => so_push o <> None -> o_sready (so_fifo o) = true) t.
Proof.
  intros cpol cpha width bw wl stages ins m L Hok t H1 H2 HL H3.
  destruct (rate_run cpol cpha width bw wl stages m L Hok HL ins) as (_ & _ & _ & H); [|exact H].
  split; [exact H1|]. split; [exact H2|exact H3].
Qed.

(** Two words of 4 bits at the highest rate, each left waiting for 5 cycles. *)
Definition fast_in (bits : list Z) (rdy : nat -> bool) : list sl_in :=
  map (fun x => SlIn (snd x) no_word (rdy (fst x)))
    (combine (seq 0 40) (Pins false true 0 :: flat_map (fun d => [Pins false false d; Pins true false d]) bits ++ repeat (Pins false false 0) 10)).
Example C55_no_overrun_nonvacuous :
  let t := trace (spi_slave false false 4 1 false [4]) (fast_in [1;0;1;1;0;1;1;0] (fun k => Nat.eqb (k mod 6) 0)) in
  stages_ok 4 1 [4] /\ forallb (fun o => (0 <=? p_dq (so_pins o)) && (p_dq (so_pins o) <? 2)) t = true /\
  map fst (pushes t) = [(11, 4); (6, 4)] /\ taken_within 6 (map so_fifo t) /\ 0 < 6 <= 2 * 4 /\
  map bdata (emitted (map so_fifo t)) = [11; 6].
Proof.
  split; [|split; [reflexivity|split; [reflexivity|split; [|split; [lia|reflexivity]]]]].
  - split; [lia|]. split; [discriminate|]. constructor; [|constructor]. split; [lia|]. exists 4. reflexivity.
  - apply taken_check; [lia|]. vm_compute. reflexivity.
Qed.

Print Assumptions C55_no_overrun.
