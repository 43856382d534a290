(** C166: the answers of the slave board reach the host board one bit late, also when
    edges of the slave's clock fall on changes of the pins. *)
From Verif Require Import Stream Bits Fifo_model Timer_model Spiclk_model I2cstream_proofs Spistream_model Spistream_props Spimaster_model Spimaster_props Spislave_model Spislave_props Spimiso_props Spilink_model Spilink_spec Spilink_proofs Spilink_props Spixchg_props Spipair_model Spipair_proofs Spipair_props Spiclock_spec Spiclock_proofs Spiclockback_spec Spiclockback_proofs Spiclockback_props Spiblurback_spec.

Definition agreesb (o : sl_obs) (h : host_obs) : bool :=
  Bool.eqb (p_clk (so_pins o)) (p_clk (pins_of h)) && Bool.eqb (p_cs_n (so_pins o)) (p_cs_n (pins_of h)).
Lemma agreesb_spec o h : agreesb o h = true <-> agrees o h.
Proof.
  unfold agreesb, agrees. rewrite andb_true_iff, !Bool.eqb_true_iff. reflexivity.
Qed.
Lemma b_edges_app l l' : b_edges (l ++ l') = b_edges l ++ b_edges l'.
Proof. unfold b_edges. now rewrite map_app, concat_app. Qed.
Lemma b_edges_cons x l : b_edges (x :: l) = opt (b_first x) ++ b_rest x ++ b_edges l.
Proof. unfold b_edges. cbn [map concat]. now rewrite <- app_assoc. Qed.
Lemma clear_edges_app l l' : clear_edges (l ++ l') = clear_edges l ++ clear_edges l'.
Proof. unfold clear_edges. now rewrite map_app, concat_app. Qed.

(** An edge on a change counts for the cycle whose pins it found; the cycle before first. *)
Definition before (p : host_obs) (x : bcycle) : list sl_obs := filter (fun o => agreesb o p) (opt (b_first x)).
Definition own (p : host_obs) (x : bcycle) : list sl_obs := filter (fun o => negb (agreesb o p)) (opt (b_first x)).
Lemma before_own p x : before p x ++ own p x = opt (b_first x).
Proof. unfold before, own, opt. destruct (b_first x) as [o|]; [|reflexivity]. cbn [filter]. now destruct (agreesb o p). Qed.
Definition next (f : list bcycle) (y : bcycle) : bcycle := hd y f.
Fixpoint settle (p : host_obs) (f : list bcycle) (y : bcycle) : joint :=
  match f with
  | [] => []
  | x :: f' => (b_host x, own p x ++ b_rest x ++ before (b_host x) (next f' y)) :: settle (b_host x) f' y
  end.
Lemma settle_hosts p f y : map fst (settle p f y) = map b_host f.
Proof. revert p. induction f as [|x f IH]; intros p; [reflexivity|]. cbn [settle map fst]. now rewrite IH. Qed.
Definition lasth (p : host_obs) (f : list bcycle) : host_obs := last (map b_host f) p.
Lemma lasth_cons p x f : lasth p (x :: f) = lasth (b_host x) f.
Proof. unfold lasth. cbn [map]. revert x p. induction f as [|y f IH]; intros x p; [reflexivity|]. cbn [map]. change (last (b_host x :: b_host y :: map b_host f) p) with (last (b_host y :: map b_host f) p). rewrite (IH y p), (IH y (b_host x)). reflexivity. Qed.
(** The same edges in the same order. *)
Lemma settle_edges f : forall p y,
  before p (next f y) ++ slave_edges (settle p f y) ++ own (lasth p f) y = b_edges f ++ opt (b_first y).
Proof.
  induction f as [|x f IH]; intros p y.
  - unfold next, lasth. cbn [hd settle map last]. change (slave_edges []) with (@nil sl_obs). cbn [app]. rewrite before_own. reflexivity.
  - unfold next. cbn [hd settle]. rewrite lasth_cons, b_edges_cons.
    change (slave_edges ((b_host x, own p x ++ b_rest x ++ before (b_host x) (next f y)) :: settle (b_host x) f y)) with ((own p x ++ b_rest x ++ before (b_host x) (next f y)) ++ slave_edges (settle (b_host x) f y)).
    rewrite <- !app_assoc. rewrite IH, (app_assoc (before p x)), before_own. reflexivity.
Qed.
Lemma settle_split f : forall p y g x g2, settle p f y = g ++ x :: g2 ->
  exists fa u fb, f = fa ++ u :: fb /\ x = (b_host u, own (lasth p fa) u ++ b_rest u ++ before (b_host u) (next fb y)) /\ g2 = settle (b_host u) fb y.
Proof.
  induction f as [|v f IH]; intros p y g x g2 E; [destruct g; discriminate|]. cbn [settle] in E. destruct g as [|w g]; cbn [app] in E.
  - injection E as E1 E2. exists [], v, f. split; [reflexivity|]. split; [now rewrite <- E1|now rewrite E2].
  - injection E as _ E. destruct (IH _ _ _ _ _ E) as (fa & u & fb & -> & Ex & Eg). exists (v :: fa), u, fb. split; [reflexivity|]. rewrite lasth_cons. now split.
Qed.
Lemma settle_app fa : forall p fb y, settle p (fa ++ fb) y = settle p fa (next fb y) ++ settle (lasth p fa) fb y.
Proof.
  induction fa as [|x fa IH]; intros p fb y; [reflexivity|]. cbn [app settle]. rewrite lasth_cons, IH. f_equal. f_equal. f_equal. f_equal.
  destruct fa; reflexivity.
Qed.
Lemma settle_len p f y : length (settle p f y) = length f.
Proof. rewrite <- (map_length fst), settle_hosts. apply map_length. Qed.
(** No edge is lost that falls on no change. *)
Lemma settle_more f : forall p y, (length (clear_edges f) <= length (slave_edges (settle p f y)))%nat.
Proof.
  induction f as [|x f IH]; intros p y; [reflexivity|]. cbn [settle]. specialize (IH (b_host x) y).
  change (slave_edges ((b_host x, own p x ++ b_rest x ++ before (b_host x) (next f y)) :: settle (b_host x) f y)) with ((own p x ++ b_rest x ++ before (b_host x) (next f y)) ++ slave_edges (settle (b_host x) f y)).
  change (clear_edges (x :: f)) with (b_rest x ++ clear_edges f). rewrite !app_length. lia.
Qed.
Lemma settle_in m w p f y : clear_in m w f -> edges_in m w (settle p f y).
Proof.
  intros H a b c E L. set (fa := firstn (length a) f). set (fb := firstn (length b) (skipn (length a) f)). set (fc := skipn (length b) (skipn (length a) f)).
  assert (Ef : f = fa ++ fb ++ fc) by (unfold fa, fb, fc; now rewrite !firstn_skipn).
  pose proof (f_equal (@length _) E) as EL. rewrite settle_len, !app_length in EL.
  assert (La : length fa = length a) by (unfold fa; rewrite firstn_length; lia).
  assert (Lb : length fb = length b) by (unfold fb; rewrite firstn_length, skipn_length; lia).
  rewrite Ef, !settle_app in E. apply app_inj_len in E; [|rewrite settle_len; exact La]. destruct E as [_ E].
  apply app_inj_len in E; [|rewrite settle_len; exact Lb]. destruct E as [E _]. rewrite <- E.
  pose proof (H _ _ _ Ef ltac:(lia)) as X. pose proof (settle_more fb (lasth p fa) (next fc y)) as M. lia.
Qed.

(** Between two cycles at most one of the two pins changes. *)
Definition one_change (a b : host_obs) : Prop :=
  p_clk (pins_of a) = p_clk (pins_of b) \/ p_cs_n (pins_of a) = p_cs_n (pins_of b).
Fixpoint steady (p : host_obs) (f : list bcycle) : Prop :=
  match f with [] => True | x :: f' => one_change p (b_host x) /\ steady (b_host x) f' end.
Lemma steady_low f : forall p, p_cs_n (pins_of p) = false -> Forall (fun x => p_cs_n (pins_of (b_host x)) = false) f -> steady p f.
Proof.
  induction f as [|x f IH]; intros p Hp F; [exact I|]. apply Forall_cons_iff in F. destruct F as [F1 F2]. split; [right; congruence|]. now apply IH.
Qed.
Lemma settle_finds f : forall a y, steady (b_host a) f -> finds_clear f -> finds_mixed (a :: f) -> finds (settle (b_host a) f y).
Proof.
  induction f as [|x f IH]; intros a y HS HC HM; [constructor|]. cbn [steady] in HS. destruct HS as [H1 HS]. apply Forall_cons_iff in HC. destruct HC as [C1 HC].
  constructor.
  - cbn [fst snd]. apply Forall_app. split; [|apply Forall_app; split; [exact C1|]].
    + apply Forall_forall. intros o Ho. unfold own in Ho. apply filter_In in Ho. destruct Ho as [Ho N]. apply negb_true_iff in N.
      destruct (b_first x) as [o'|] eqn:Eo; [|destruct Ho]. destruct Ho as [->|[]].
      destruct (HM [] a x f o eq_refl Eo) as [M1 M2].
      assert (NA : ~ agrees o (b_host a)) by (intros A; apply agreesb_spec in A; congruence).
      unfold agrees, one_change in *. cbn [In] in M1, M2. destruct M1 as [M1|[M1|[]]], M2 as [M2|[M2|[]]], H1 as [H1|H1]; rewrite <- ?M1, <- ?M2 in *; try (exfalso; apply NA; split; congruence); split; congruence.
    + apply Forall_forall. intros o Ho. unfold before in Ho. apply filter_In in Ho. destruct Ho as [_ Ho]. now apply agreesb_spec.
  - apply IH; [exact HS|exact HC|]. intros l1 b v l2 o E. apply (HM (a :: l1) b v l2 o). now rewrite E.
Qed.

(** Before a frame, the last edge of the slave found the pins at rest. *)
Lemma last_rests div (l : list bcycle) t r : 0 <= div -> map b_host l = t ++ r -> Forall rests r -> div + 1 <= Z.of_nat (length r) ->
  finds_clear l -> finds_mixed l -> clear_in 3 (Z.to_nat (div + 1)) l ->
  exists e zo, b_edges l = e ++ [zo] /\ p_cs_n (so_pins zo) = true /\ p_clk (so_pins zo) = false.
Proof.
  intros Hd E Fr Lr HC HM HE. apply map_eq_app in E. destruct E as (lt & lr & -> & <- & <-). rewrite map_length in Lr.
  apply (proj1 (Forall_map b_host rests _)) in Fr.
  assert (C3 : (3 <= length (clear_edges lr))%nat).
  { set (k := (length lr - Z.to_nat (div + 1))%nat).
    pose proof (HE (lt ++ firstn k lr) (skipn k lr) []) as X. rewrite app_nil_r, <- app_assoc, firstn_skipn in X.
    specialize (X eq_refl ltac:(rewrite skipn_length; unfold k; lia)). rewrite <- (firstn_skipn k lr), clear_edges_app, app_length. lia. }
  apply Forall_app in HC. destruct HC as [_ HC].
  assert (P : forall v g, lr = v :: g -> Forall (fun o => p_cs_n (so_pins o) = true /\ p_clk (so_pins o) = false) (b_rest v ++ b_edges g)).
  { intros v g ->. clear C3 Lr HE. revert lt v HM Fr HC. induction g as [|u g IH]; intros lt v HM Fr HC; apply Forall_cons_iff in Fr, HC; destruct Fr as [[F1 F2] Fr], HC as [C1 HC].
    - cbn. rewrite app_nil_r. eapply Forall_impl; [|exact C1]. intros o [A B]. rewrite A, B. now split.
    - apply Forall_app. split; [eapply Forall_impl; [|exact C1]; intros o [A B]; rewrite A, B; now split|].
      rewrite b_edges_cons. apply Forall_app. split.
      + destruct (b_first u) as [o|] eqn:Eo; [|constructor]. constructor; [|constructor]. destruct (HM lt v u g o eq_refl Eo) as [M1 M2].
        apply Forall_cons_iff in Fr. destruct Fr as [[G1 G2] _]. rewrite F2, G2 in M1. rewrite F1, G1 in M2. cbn [In] in M1, M2. split; [destruct M2 as [M2|[M2|[]]]|destruct M1 as [M1|[M1|[]]]]; congruence.
      + apply (IH (lt ++ [v]) u); [|exact Fr|exact HC]. now rewrite <- app_assoc. }
  rewrite b_edges_app. destruct lr as [|v g]; [cbn in C3; lia|]. specialize (P v g eq_refl). rewrite b_edges_cons.
  assert (L : (1 <= length (b_rest v ++ b_edges g))%nat).
  { assert (Y : forall q, (length (clear_edges q) <= length (b_edges q))%nat).
    { induction q as [|w q IH]; [reflexivity|]. rewrite b_edges_cons. change (clear_edges (w :: q)) with (b_rest w ++ clear_edges q). rewrite !app_length. lia. }
    specialize (Y g). change (clear_edges (v :: g)) with (b_rest v ++ clear_edges g) in C3. rewrite app_length in *. lia. }
  destruct (b_rest v ++ b_edges g) as [|zo e _] using rev_ind; [cbn in L; lia|]. exists (b_edges lt ++ opt (b_first v) ++ e), zo.
  split; [now rewrite <- !app_assoc|]. apply Forall_app in P. destruct P as [_ P]. apply Forall_cons_iff in P. apply P.
Qed.

Definition low (o : sl_obs) : bool := negb (p_cs_n (so_pins o)).
Lemma filter_all {A} (P : A -> bool) l : Forall (fun x => P x = true) l -> filter P l = l.
Proof. induction 1 as [|x l H _ IH]; [reflexivity|]. cbn [filter]. now rewrite H, IH. Qed.
Lemma filter_none {A} (P : A -> bool) l : Forall (fun x => P x = false) l -> filter P l = [].
Proof. induction 1 as [|x l H _ IH]; [reflexivity|]. cbn [filter]. now rewrite H. Qed.

(** ** C166.  As C160, but edges of the slave's clock may fall on a change of the pins: the
    slave then finds each of the clock and the chip select as it was before or as it is
    after.  It has at least three edges that fall on no change in every half period of the
    SPI clock.  In a frame of the host (chip select low from the cycle after [z] to the
    cycle before [y]), with a slave that has words to send whenever it finds the chip
    select low, the host gives back one word for each it was sent, and the bits of these
    words are one bit of no meaning followed by the bits of the words the slave took. *)
Theorem C166_late : forall width div delay cpol cpha stages ins sins l l0 z f y l1,
  0 <= div < 256 -> 2 * div + 1 <= delay -> 0 < width <= 256 -> cpol = cpha ->
  map b_host l = trace (spi_host width 1 div delay) ins ->
  b_edges l = trace (spi_slave cpol cpha width 1 false stages) sins ->
  finds_clear l -> finds_mixed l -> b_sees l -> clear_in 3 (Z.to_nat (div + 1)) l ->
  l = l0 ++ z :: f ++ y :: l1 ->
  p_cs_n (pins_of (b_host z)) = true -> p_cs_n (pins_of (b_host y)) = true -> Forall (fun x => p_cs_n (pins_of (b_host x)) = false) f ->
  Forall (fun o => p_cs_n (so_pins o) = false -> cvalid (so_sink o) = true) (b_edges (f ++ [y])) ->
  b_rest y ++ b_edges l1 <> [] ->
  exists out back x,
    sent (map b_host (l0 ++ z :: f)) = sent (map b_host l0) ++ out /\
    returned (map b_host (l0 ++ z :: f)) = returned (map b_host l0) ++ back /\
    map blast back = map blast out /\
    concat (map (bits width) (map bdata back)) =
      firstn (Z.to_nat width * length out)
        (x :: concat (map (bits width) (taken (skipn 2 (filter low (b_edges (f ++ [y]))))))).
Proof.
  intros width div delay cpol cpha stages ins sins l l0 z f y l1 Hd Hdl Hw Hm PH PS HFc HFm HSe HE El Hz Hy HC HV HY.
  assert (El' : l = (l0 ++ [z]) ++ f ++ y :: l1) by (rewrite El, <- app_assoc; reflexivity).
  set (F := settle (b_host z) f y).
  assert (EF : map fst F = map b_host f) by apply settle_hosts.
  rewrite El in PH. rewrite map_app in PH. cbn [map] in PH. rewrite map_app in PH. cbn [map] in PH. symmetry in PH. rewrite <- EF in PH.
  set (pre := b_edges (l0 ++ [z]) ++ before (b_host z) (next f y)). set (r := own (lasth (b_host z) f) y ++ b_rest y ++ b_edges l1).
  assert (PE : b_edges l = pre ++ slave_edges F ++ r).
  { rewrite El', !b_edges_app, (b_edges_cons y). unfold pre, r. rewrite (app_assoc (b_edges f)), <- (settle_edges f (b_host z) y). fold F. rewrite !b_edges_app, <- !app_assoc. reflexivity. }
  rewrite PE in PS. symmetry in PS.
  assert (HFc' := HFc). unfold finds_clear in HFc'. rewrite El' in HFc'. apply Forall_app in HFc'. destruct HFc' as [FCz FCf]. apply Forall_app in FCf. destruct FCf as [FCf FCy].
  assert (LowF : Forall (fun x => p_cs_n (pins_of (fst x)) = false) F) by (apply (proj1 (Forall_map fst (fun h => p_cs_n (pins_of h) = false) F)); rewrite EF; apply Forall_map; exact HC).
  assert (ST : f <> [] -> one_change (b_host z) (b_host (next f y)) /\ p_clk (pins_of (b_host z)) = false /\
     exists t q, map b_host (l0 ++ [z]) = t ++ q /\ Forall rests q /\ delay - div <= Z.of_nat (length q)).
  { intros NE. destruct f as [|f0 f']; [congruence|]. rewrite EF in PH. cbn [map app] in PH. unfold next. cbn [hd].
    destruct (frame_start width div delay ins (map b_host l0) (b_host z) (b_host f0) _ Hd Hw ltac:(lia) PH Hz) as (S1 & S2 & t & q & Et & Fr & Lr).
    { apply Forall_cons_iff in HC. apply HC. }
    split; [left; congruence|]. split; [exact S1|]. exists t, q. rewrite map_app. auto. }
  assert (FF : finds F).
  { apply settle_finds; [|exact FCf|].
    - destruct f as [|f0 f']; [exact I|]. apply Forall_cons_iff in HC. destruct HC as [C1 C2]. split; [apply ST; discriminate|]. now apply steady_low.
    - intros a1 a x a2 o E. apply (HFm (l0 ++ a1) a x (a2 ++ y :: l1)). rewrite El. change (z :: f ++ y :: l1) with ((z :: f) ++ y :: l1). rewrite E, <- !app_assoc. reflexivity. }
  assert (EI : edges_in 3 (Z.to_nat (div + 1)) F).
  { apply settle_in. intros a b c E. apply (HE ((l0 ++ [z]) ++ a) b (c ++ y :: l1)). rewrite El', E, <- !app_assoc. reflexivity. }
  assert (BE : b_edges (f ++ [y]) = before (b_host z) (next f y) ++ slave_edges F ++ own (lasth (b_host z) f) y ++ b_rest y).
  { rewrite b_edges_app, b_edges_cons. change (b_edges []) with (@nil sl_obs). rewrite app_nil_r, app_assoc, <- (settle_edges f (b_host z) y). fold F. now rewrite <- !app_assoc. }
  assert (LF : Forall (fun o => low o = true) (slave_edges F)).
  { pose proof (finds_all (fun _ c => c = false) F FF LowF) as X. apply (proj1 (Forall_map so_pins (fun p => p_cs_n p = false) _)) in X.
    eapply Forall_impl; [|exact X]. intros o Ho. unfold low. now rewrite Ho. }
  assert (FL : exists w, filter low (b_edges (f ++ [y])) = slave_edges F ++ w).
  { rewrite BE, !filter_app. rewrite (filter_none low (before _ _)), (filter_all low (slave_edges F)) by (try exact LF; apply Forall_forall; intros o Ho; unfold before in Ho; apply filter_In in Ho; destruct Ho as [_ Ho]; apply agreesb_spec in Ho; destruct Ho as [_ Ho]; unfold low; now rewrite Ho, Hz).
    eexists. reflexivity. }
  destruct FL as [w FL].
  destruct (late_core width div delay cpol cpha stages ins sins (map b_host l0) (b_host z) F (b_host y) (map b_host l1) pre r Hd ltac:(lia) Hw Hm PH PS FF EI) as (out & back & x & R1 & R2 & R3 & R4 & R5).
  - intros g x g2 Eg. destruct (settle_split f _ _ _ _ _ Eg) as (fa & u & fb & -> & Ex & Eg2).
    set (ow := own (lasth (b_host z) fa) u) in *.
    assert (EX : slave_edges (x :: g2) ++ r = ow ++ b_rest u ++ b_edges (fb ++ y :: l1)).
    { rewrite Ex, Eg2. change (slave_edges ((b_host u, ow ++ b_rest u ++ before (b_host u) (next fb y)) :: settle (b_host u) fb y)) with ((ow ++ b_rest u ++ before (b_host u) (next fb y)) ++ slave_edges (settle (b_host u) fb y)).
      unfold r. assert (LH : lasth (b_host z) (fa ++ u :: fb) = lasth (b_host u) fb) by (clear; generalize (b_host z); induction fa as [|q fa IH]; intros h; cbn [app]; rewrite lasth_cons; [reflexivity|apply IH]).
      rewrite LH, <- !app_assoc. do 2 f_equal. rewrite b_edges_app, b_edges_cons, (app_assoc (b_edges fb)), <- (settle_edges fb (b_host u) y), <- !app_assoc. reflexivity. }
    rewrite EX. assert (Hx1 : mo_dq_i (ho_phy (fst x)) = mo_dq_i (ho_phy (b_host u))) by now rewrite Ex. rewrite Hx1.
    assert (Hx2 : length (snd x) = (length ow + length (b_rest u) + length (before (b_host u) (next fb y)))%nat) by (rewrite Ex; cbn [snd]; rewrite !app_length; lia). rewrite Hx2.
    destruct (HSe ((l0 ++ [z]) ++ fa) u (fb ++ y :: l1)) as (o & DQ & Ho).
    + rewrite El', <- !app_assoc. reflexivity.
    + rewrite b_edges_app, b_edges_cons. intros Q. apply app_eq_nil in Q. destruct Q as [_ Q]. apply app_eq_nil in Q. now destruct Q.
    + destruct Ho as [Ho|[(q & Eq)|(e & v & q & l3 & Ev & Ee & Ag & Eq)]].
      * apply in_split in Ho. destruct Ho as (q1 & q2 & Eu). exists (ow ++ q1), o, (q2 ++ b_edges (fb ++ y :: l1)). rewrite Eu, !app_length. cbn [length]. split; [rewrite <- !app_assoc; reflexivity|]. split; [lia|exact DQ].
      * exists (ow ++ b_rest u), o, q. rewrite Eq, !app_length. split; [now rewrite <- app_assoc|]. split; [lia|exact DQ].
      * exists (ow ++ b_rest u ++ [e]), o, q. rewrite Eq, !app_length. split; [rewrite <- !app_assoc; reflexivity|]. split; [|exact DQ].
        assert (Nv : next fb y = v) by (destruct fb; cbn [app] in Ev; injection Ev; intros; subst; reflexivity).
        rewrite Nv. unfold before. rewrite Ee. cbn [opt filter]. apply agreesb_spec in Ag. rewrite Ag. cbn [length]. lia.
  - exact Hz.
  - exact Hy.
  - exact LowF.
  - intros NE. assert (NE' : f <> []) by (intros ->; now apply NE). destruct (ST NE') as (_ & S1 & t & q & Et & Fr & Lr).
    destruct (last_rests div (l0 ++ [z]) t q ltac:(lia) Et Fr ltac:(lia) FCz) as (e & zo & Ez & Z1 & Z2).
    + intros a1 a x a2 o E. apply (HFm a1 a x (a2 ++ f ++ y :: l1)). rewrite El', E, <- !app_assoc. reflexivity.
    + intros a b c E. apply (HE a b (c ++ f ++ y :: l1)). rewrite El', E, <- !app_assoc. reflexivity.
    + unfold pre. rewrite Ez. unfold before. destruct (b_first (next f y)) as [o|]; cbn [opt filter]; [|exists e, zo; rewrite app_nil_r; auto].
      destruct (agreesb o (b_host z)) eqn:A; [|exists e, zo; rewrite app_nil_r; auto]. apply agreesb_spec in A. destruct A as [A1 A2].
      exists (e ++ [zo]), o. split; [reflexivity|]. rewrite A1, A2. now split.
  - rewrite BE in HV. apply Forall_app in HV. destruct HV as [_ HV]. apply Forall_app in HV. destruct HV as [HV _].
    apply Forall_forall. intros o Ho. apply (proj1 (Forall_forall _ _) HV o Ho). pose proof (proj1 (Forall_forall _ _) LF o Ho) as X. unfold low in X. now apply negb_true_iff.
  - exists out, back, x. rewrite map_app. cbn [map]. rewrite <- EF. split; [exact R1|]. split; [exact R2|]. split; [exact R3|].
    rewrite R4. rewrite FL, skipn_app, taken_app, map_app, concat_app.
    set (A := concat (map (bits width) (taken (skipn 2 (slave_edges F))))) in *. set (B := concat (map (bits width) (taken (skipn (2 - length (slave_edges F)) w)))).
    rewrite R4, firstn_length in R5. change (x :: A ++ B) with ((x :: A) ++ B). rewrite (firstn_app _ (x :: A) B).
    replace (Z.to_nat width * length out - length (x :: A))%nat with 0%nat by lia. rewrite firstn_O, app_nil_r. reflexivity.
Qed.

(** Runs: [k] of a cycle tells whether an edge falls on the change of the pins at its
    start, and which pins that edge finds as they were. *)
Section Runs.
  Context (width div delay : Z) (w1 w2 : Z).
  Notation hc := (spi_host width 1 div delay).
  Notation sc := (spi_slave false false width 1 false [width]).
  Definition mix (old new : pins) (k : bool * bool) : pins :=
    Pins (if fst k then p_clk old else p_clk new) (if snd k then p_cs_n old else p_cs_n new) (p_dq new).
  Fixpoint mixed_run (ks : list (option (bool * bool) * nat)) (l : list (beat Z)) (a : bool) (p : pins) (h : cst hc) (s : cst sc) :
    list (host_in * list sl_in) * list bcycle :=
    match ks with
    | [] => ([], [])
    | (k, n) :: ks' =>
        let b := match l with [] => nobeat | b :: _ => Chan true b end in
        let p' := pins_of (cout hc h (HostIn b 0 true)) in
        let '(i1, o1, a1, s1) := match k with Some m => edges_run width w1 w2 1 (mix p p' m) a s | None => ([], [], a, s) end in
        let i := HostIn b (2 * l_dqo _ _ s1) true in
        let o := cout hc h i in
        let '(i2, o2, a2, s2) := edges_run width w1 w2 n p' a1 s1 in
        let '(his, js) := mixed_run ks' (match took o with [] => l | _ => tl l end) a2 p' (cnext hc h i) s2 in
        ((i, i1 ++ i2) :: his, BCycle o (hd_error o1) o2 :: js)
    end.
End Runs.
Definition finds_clearb (l : list bcycle) : bool := forallb (fun x => forallb (fun o => agreesb o (b_host x)) (b_rest x)) l.
Lemma finds_clearb_ok l : finds_clearb l = true -> finds_clear l.
Proof.
  unfold finds_clearb, finds_clear. rewrite forallb_forall. intros H. apply Forall_forall. intros x Hx. specialize (H x Hx). rewrite forallb_forall in H.
  apply Forall_forall. intros o Ho. apply agreesb_spec. auto.
Qed.
Fixpoint finds_mixedb (l : list bcycle) : bool :=
  match l with
  | a :: (x :: _) as l' => match b_first x with
      | None => true
      | Some o => (Bool.eqb (p_clk (pins_of (b_host a))) (p_clk (so_pins o)) || Bool.eqb (p_clk (pins_of (b_host x))) (p_clk (so_pins o))) &&
                  (Bool.eqb (p_cs_n (pins_of (b_host a))) (p_cs_n (so_pins o)) || Bool.eqb (p_cs_n (pins_of (b_host x))) (p_cs_n (so_pins o)))
      end && finds_mixedb l'
  | _ => true
  end.
Lemma finds_mixedb_ok l : finds_mixedb l = true -> finds_mixed l.
Proof.
  intros H l1 a x l2 o -> E. induction l1 as [|q l1 IH].
  - cbn [app finds_mixedb] in H. rewrite E in H. apply andb_prop in H. destruct H as [H _]. apply andb_prop in H. destruct H as [H1 H2]. apply orb_prop in H1, H2.
    rewrite !Bool.eqb_true_iff in *. cbn [In]. tauto.
  - apply IH. cbn [app finds_mixedb] in H. destruct (l1 ++ a :: x :: l2) as [|v w] eqn:EL; [destruct l1; discriminate|]. apply andb_prop in H. apply H.
Qed.
Fixpoint b_seesb (l : list bcycle) : bool :=
  match l with
  | [] => true
  | x :: l' => match b_rest x ++ b_edges l' with [] => true | o :: _ => mo_dq_i (ho_phy (b_host x)) =? 2 * so_dq_o o end && b_seesb l'
  end.
Lemma b_seesb_ok l : b_seesb l = true -> b_sees l.
Proof.
  intros H l1 x l2 -> NE. induction l1 as [|q l1 IH]; cbn [app b_seesb] in H; apply andb_prop in H; destruct H as [H1 H2]; [|now apply IH].
  destruct (b_rest x) as [|o q]; cbn [app] in *; [destruct (b_edges l2) as [|o q]; [congruence|]|]; apply Z.eqb_eq in H1; exists o; (split; [exact H1|]); [right; left; eauto|left; now left].
Qed.
Definition clear_inb (m w : nat) (l : list bcycle) : bool :=
  forallb (fun k => Nat.leb m (length (clear_edges (firstn w (skipn k l))))) (seq 0 (S (length l - w))).
Lemma clear_inb_ok m w l : (w <= length l)%nat -> clear_inb m w l = true -> clear_in m w l.
Proof.
  intros Hw H a b c E Lb. unfold clear_inb in H. rewrite forallb_forall in H. specialize (H (length a)).
  assert (I : In (length a) (seq 0 (S (length l - w)))) by (apply in_seq; rewrite E, !app_length; lia). specialize (H I). apply Nat.leb_le in H.
  rewrite E, skipn_app, skipn_all, Nat.sub_diag in H. cbn [skipn app] in H. rewrite firstn_app, <- Lb, firstn_all, Nat.sub_diag, firstn_O, app_nil_r in H. exact H.
Qed.
Definition b_selected (l : list bcycle) : bool := forallb (fun x => negb (p_cs_n (pins_of (b_host x)))) l.
Lemma b_selected_ok l : b_selected l = true -> Forall (fun x => p_cs_n (pins_of (b_host x)) = false) l.
Proof. unfold b_selected. rewrite forallb_forall. intros H. apply Forall_forall. intros x Hx. apply negb_true_iff. auto. Qed.
Lemma b_asking_ok t : forallb (fun o => cvalid (so_sink o)) t = true -> Forall (fun o => p_cs_n (so_pins o) = false -> cvalid (so_sink o) = true) t.
Proof. rewrite forallb_forall. intros H. apply Forall_forall. auto. Qed.

(** Two words of four bits; three clear edges in any three cycles of the host, and an edge
    on every change of the pins, which finds them in turn new, mixed and old. *)
Definition mixed_back : list (host_in * list sl_in) * list bcycle :=
  mixed_run 4 2 5 13 9 (firstn 84 (concat (repeat [(Some (true, true), 2); (Some (false, false), 0); (Some (true, false), 1); (Some (false, true), 2); (None, 0); (Some (true, true), 1)]%nat 14)))
    back_words true (Pins false true 0) (creset (spi_host 4 1 2 5)) (creset (spi_slave false false 4 1 false [4])).
Example C166_nonvacuous : exists l0 z f y l1, let l := snd mixed_back in
  map b_host l = trace (spi_host 4 1 2 5) (map fst (fst mixed_back)) /\
  b_edges l = trace (spi_slave false false 4 1 false [4]) (concat (map snd (fst mixed_back))) /\
  finds_clear l /\ finds_mixed l /\ b_sees l /\ clear_in 3 (Z.to_nat (2 + 1)) l /\
  l = l0 ++ z :: f ++ y :: l1 /\ p_cs_n (pins_of (b_host z)) = true /\ p_cs_n (pins_of (b_host y)) = true /\
  Forall (fun x => p_cs_n (pins_of (b_host x)) = false) f /\
  Forall (fun o => p_cs_n (so_pins o) = false -> cvalid (so_sink o) = true) (b_edges (f ++ [y])) /\
  b_rest y ++ b_edges l1 <> [] /\ length f = 51%nat /\
  existsb (fun x => match b_first x with Some o => negb (agreesb o (b_host x)) | None => false end) f = true /\
  map bdata (sent (map b_host (z :: f))) = [10; 3] /\ taken (skipn 2 (filter low (b_edges (f ++ [y])))) = [9; 13; 9] /\
  map bdata (returned (map b_host (z :: f))) = [4; 14] /\
  concat (map (bits 4) [4; 14]) = firstn 8 (0 :: concat (map (bits 4) [9; 13; 9])).
Proof.
  exists (firstn 6 (snd mixed_back)). eexists _. exists (firstn 51 (skipn 7 (snd mixed_back))). eexists _. exists (skipn 59 (snd mixed_back)). cbv zeta.
  split; [vm_compute; reflexivity|]. split; [vm_compute; reflexivity|].
  split; [apply finds_clearb_ok; vm_compute; reflexivity|]. split; [apply finds_mixedb_ok; vm_compute; reflexivity|].
  split; [apply b_seesb_ok; vm_compute; reflexivity|]. split; [apply clear_inb_ok; [vm_compute; lia|vm_compute; reflexivity]|].
  split; [vm_compute; reflexivity|]. split; [reflexivity|]. split; [reflexivity|].
  split; [apply b_selected_ok; vm_compute; reflexivity|]. split; [apply b_asking_ok; vm_compute; reflexivity|].
  split; [vm_compute; discriminate|]. repeat (split; [vm_compute; reflexivity|]). vm_compute; reflexivity.
Qed.

(** The three edges must fall on no change: here there are three edges in any three cycles,
    but one of the three may fall on a change, and the answer is more than one bit late. *)
Definition few_clear : list (host_in * list sl_in) * list bcycle :=
  mixed_run 4 2 5 13 9 (firstn 84 (concat (repeat [(None, 2); (None, 1); (Some (true, true), 0); (None, 1); (None, 1); (None, 1)]%nat 14)))
    back_words true (Pins false true 0) (creset (spi_host 4 1 2 5)) (creset (spi_slave false false 4 1 false [4])).
Definition all_inb (m w : nat) (l : list bcycle) : bool :=
  forallb (fun k => Nat.leb m (length (b_edges (firstn w (skipn k l))))) (seq 0 (S (length l - w))).
Lemma all_inb_ok m w l : (w <= length l)%nat -> all_inb m w l = true ->
  forall a b c, l = a ++ b ++ c -> length b = w -> (m <= length (b_edges b))%nat.
Proof.
  intros Hw H a b c E Lb. unfold all_inb in H. rewrite forallb_forall in H. specialize (H (length a)).
  assert (I : In (length a) (seq 0 (S (length l - w)))) by (apply in_seq; rewrite E, !app_length; lia). specialize (H I). apply Nat.leb_le in H.
  rewrite E, skipn_app, skipn_all, Nat.sub_diag in H. cbn [skipn app] in H. rewrite firstn_app, <- Lb, firstn_all, Nat.sub_diag, firstn_O, app_nil_r in H. exact H.
Qed.
Theorem C166_clear_needed : exists l0 z f y l1, let l := snd few_clear in
  map b_host l = trace (spi_host 4 1 2 5) (map fst (fst few_clear)) /\
  b_edges l = trace (spi_slave false false 4 1 false [4]) (concat (map snd (fst few_clear))) /\
  finds_clear l /\ finds_mixed l /\ b_sees l /\
  (forall a b c, l = a ++ b ++ c -> length b = 3%nat -> (3 <= length (b_edges b))%nat) /\
  l = l0 ++ z :: f ++ y :: l1 /\ p_cs_n (pins_of (b_host z)) = true /\ p_cs_n (pins_of (b_host y)) = true /\
  Forall (fun x => p_cs_n (pins_of (b_host x)) = false) f /\
  Forall (fun o => p_cs_n (so_pins o) = false -> cvalid (so_sink o) = true) (b_edges (f ++ [y])) /\
  b_rest y ++ b_edges l1 <> [] /\ length (sent (map b_host (z :: f))) = 2%nat /\
  forall x, concat (map (bits 4) (map bdata (returned (map b_host (z :: f))))) <>
    firstn 8 (x :: concat (map (bits 4) (taken (skipn 2 (filter low (b_edges (f ++ [y]))))))).
Proof.
  exists (firstn 6 (snd few_clear)). eexists _. exists (firstn 51 (skipn 7 (snd few_clear))). eexists _. exists (skipn 59 (snd few_clear)). cbv zeta.
  split; [vm_compute; reflexivity|]. split; [vm_compute; reflexivity|].
  split; [apply finds_clearb_ok; vm_compute; reflexivity|]. split; [apply finds_mixedb_ok; vm_compute; reflexivity|].
  split; [apply b_seesb_ok; vm_compute; reflexivity|]. split; [apply all_inb_ok; [vm_compute; lia|vm_compute; reflexivity]|].
  split; [vm_compute; reflexivity|]. split; [reflexivity|]. split; [reflexivity|].
  split; [apply b_selected_ok; vm_compute; reflexivity|]. split; [apply b_asking_ok; vm_compute; reflexivity|].
  split; [vm_compute; discriminate|]. split; [vm_compute; reflexivity|]. intros x. vm_compute. discriminate.
Qed.

Print Assumptions C166_late.
Print Assumptions C166_clear_needed.
