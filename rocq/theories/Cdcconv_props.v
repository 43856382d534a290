(** C135: Converter between two clock domains. *)
From Verif Require Import Stream Bits Fifo_model Fifo_proofs Converter_model Converter_spec Converter_proofs Converter_props Cdcconv_model Pipe_model.

(** ** What the user sees: beats taken from the sink (at edges of cd_from), beats given to the
    source (at edges of cd_to). *)
Definition cv_accepted (t : list cv_obs) : list (beat Z) := flat_map (fun o => match o with CvSink c r => xfer c r | _ => [] end) t.
Definition cv_emitted (t : list cv_obs) : list (beat Z) := flat_map (fun o => match o with CvSource c r => xfer c r | _ => [] end) t.
(** The sink at successive edges of its clock, and the stream rule there. *)
Definition cv_sinks (t : list cv_obs) : list (chan Z * bool) := flat_map (fun o => match o with CvSink c r => [(c, r)] | _ => [] end) t.
Definition cv_stable (t : list cv_obs) : Prop :=
  forall l1 c r c' r' l2, cv_sinks t = l1 ++ (c, r) :: (c', r') :: l2 -> cvalid c = true -> r = false -> c' = c.

(** ** The two parts of a run *)
Lemma state_snoc {I O} (c : circuit I O) a i : state c (a ++ [i]) = cnext c (state c a) i.
Proof. unfold state. rewrite state_from_app. reflexivity. Qed.
Lemma trace_snoc {I O} (c : circuit I O) a i : trace c (a ++ [i]) = trace c a ++ [cout c (state c a) i].
Proof. now rewrite trace_app. Qed.
Section First.
  Context (m : smod Z Z) (pw d : Z) (Hd : 8 <= d).
  Notation C := (convert_then_cross m pw d).
  Notation F := (async_words pw d).
  Lemma first_split ev : exists ins fev, state C ev = (state (scirc m) ins, state F fev) /\
    cv_sinks (trace C ev) = map (fun o => (o_sink o, o_sready o)) (strace m ins) /\
    af_accepted (trace F fev) = emitted (strace m ins) /\
    af_emitted (trace F fev) = cv_emitted (trace C ev).
  Proof.
    induction ev as [|e ev IH] using rev_ind; [exists [], []; repeat split|].
    destruct IH as (ins & fev & E & E1 & E2 & E3).
    rewrite trace_snoc, state_snoc, E. unfold cv_sinks, af_accepted, emitted, af_emitted, cv_emitted in *. rewrite !flat_map_app.
    destruct e as [c seen r0 sw|r seen].
    - exists (ins ++ [(c, af_wrdy d (state F fev) seen)]), (fev ++ [AfWrite (src m (state (scirc m) ins) c) seen]).
      rewrite !trace_snoc, !state_snoc, !flat_map_app, map_app, E1, E2, E3. cbn [cnext cout convert_then_cross async_words scirc fst snd flat_map map].
      cbn [o_sink o_sready o_src o_rready af_wr af_rdo app]. rewrite ?app_nil_r. repeat split; reflexivity.
    - exists ins, (fev ++ [AfRead r seen]).
      rewrite !trace_snoc, !state_snoc, !flat_map_app, E1, E2, E3. cbn [cnext cout convert_then_cross async_words fst snd flat_map].
      cbn [af_wr af_rdo app]. rewrite ?app_nil_r. repeat split; reflexivity.
  Qed.
  Lemma cv_accepted_sinks t : cv_accepted t = flat_map (fun p => xfer (fst p) (snd p)) (cv_sinks t).
  Proof. unfold cv_accepted, cv_sinks. induction t as [|[c r|c r] t IH]; [reflexivity| |]; cbn; [now rewrite IH|exact IH]. Qed.
  Lemma first_accepted ev ins : cv_sinks (trace C ev) = map (fun o => (o_sink o, o_sready o)) (strace m ins) -> cv_accepted (trace C ev) = accepted (strace m ins).
  Proof. intros E. rewrite cv_accepted_sinks, E. unfold accepted. generalize (strace m ins) as l. induction l as [|o l IH]; [reflexivity|]. cbn. now rewrite IH. Qed.
  Lemma first_stable ev ins : cv_sinks (trace C ev) = map (fun o => (o_sink o, o_sready o)) (strace m ins) -> cv_stable (trace C ev) -> stable_sink (strace m ins).
  Proof.
    intros E H t1 o o' t2 Et V R. unfold cv_stable in H. rewrite E, Et, map_app in H. cbn [map] in H.
    exact (H _ _ _ _ _ _ eq_refl V R).
  Qed.
  (** What the FIFO holds, and what it offers. *)
  Definition offers (t : list cv_obs) (ev : list cv_event) (held : list (beat Z)) : Prop :=
    forall r seen, exists c, trace C (ev ++ [CvTo r seen]) = t ++ [CvSource c r] /\
      (cvalid c = true -> hd_error held = Some (cbeat c)) /\
      (Z.of_nat (length (cv_emitted t ++ held)) <= seen -> held <> [] -> cvalid c = true).
  Lemma first_held ev ins fev : 0 <= pw -> state C ev = (state (scirc m) ins, state F fev) ->
    af_accepted (trace F fev) = emitted (strace m ins) -> af_emitted (trace F fev) = cv_emitted (trace C ev) ->
    Forall (fun b => 0 <= bdata b < 2 ^ pw) (emitted (strace m ins)) ->
    exists held, emitted (strace m ins) = cv_emitted (trace C ev) ++ held /\ Z.of_nat (length held) <= d /\ offers (trace C ev) ev held /\
      (forall seen, Z.of_nat (length (cv_emitted (trace C ev))) <= seen -> Z.of_nat (length held) < d -> af_wrdy d (state F fev) seen = true).
  Proof.
    intros Hp ES E2 E3 R. rewrite <- E2 in R |- *. rewrite <- E3. destruct (af_inv_run pw d Hp ltac:(lia) fev R) as (H1 & H2 & H3 & H4 & H5 & H6).
    set (s := state F fev) in *. set (a := af_accepted (trace F fev)) in *.
    assert (HL : length (af_mem s) = length a) by (rewrite H5; apply map_length).
    assert (HE : Z.of_nat (length (af_emitted (trace F fev))) = af_rd s) by (rewrite H6, firstn_length; lia).
    exists (skipn (Z.to_nat (af_rd s)) a). split; [rewrite H6; symmetry; apply firstn_skipn|].
    rewrite skipn_length. split; [lia|]. split.
    - intros r seen. exists (cv_out pw s seen). split; [rewrite trace_snoc, ES; reflexivity|]. cbn [cv_out cvalid cbeat].
      unfold af_rrdy, clampup. destruct (nth_error a (Z.to_nat (af_rd s))) as [b|] eqn:En.
      + assert (Hsk : exists l, skipn (Z.to_nat (af_rd s)) a = b :: l).
        { clear - En. revert En. generalize a as l, (Z.to_nat (af_rd s)) as k.
          intros l k. revert l. induction k; intros [|x l] E; try discriminate; cbn in *; [injection E as ->; eauto|eauto]. }
        split.
        * intros _. destruct Hsk as (l & ->). cbn. f_equal. rewrite H5.
          rewrite (nth_error_nth (map (fifo_pack pw) a) (Z.to_nat (af_rd s)) 0 (map_nth_error (fifo_pack pw) _ _ En)).
          symmetry. apply pack_unpack; auto. rewrite Forall_forall in R. apply R. eapply nth_error_In; eauto.
        * rewrite <- E3, H6, firstn_skipn, <- HL. intros Hs _. apply Z.ltb_lt. assert (Z.to_nat (af_rd s) < length a)%nat by (apply nth_error_Some; congruence). lia.
      + apply nth_error_None in En. rewrite skipn_all2 by auto. split; [|congruence]. intros H. apply Z.ltb_lt in H. lia.
    - intros seen Hs Hl. unfold af_wrdy, clampup. apply Z.ltb_lt. lia.
  Qed.
End First.

Lemma second_split pw d : 8 <= d -> forall ev, let C := cross_then_convert identity_conv pw d in let F := async_words pw d in
  exists fev, snd (state C ev) = state F fev /\
    af_accepted (trace F fev) = cv_accepted (trace C ev) /\ af_emitted (trace F fev) = cv_emitted (trace C ev).
Proof.
  intros Hd ev C F. induction ev as [|e ev IH] using rev_ind; [exists []; repeat split|].
  destruct IH as (fev & E & E2 & E3).
  rewrite trace_snoc, state_snoc. unfold af_accepted, af_emitted, cv_accepted, cv_emitted in *. rewrite !flat_map_app.
  destruct e as [c seen r0 sw|r seen].
  - exists (fev ++ [AfWrite c seen]). rewrite !trace_snoc, !state_snoc, !flat_map_app, E2, E3.
    unfold C, F in *. cbn [cnext cout cross_then_convert async_words fst snd flat_map]. rewrite E.
    cbn [af_wr af_rdo app]. rewrite ?app_nil_r. repeat split; reflexivity.
  - exists (fev ++ [AfRead r seen]). rewrite !trace_snoc, !state_snoc, !flat_map_app, E2, E3.
    unfold C, F in *. cbn [cnext cout cross_then_convert async_words fst snd flat_map]. rewrite E.
    cbn [af_wr af_rdo app]. rewrite ?app_nil_r. repeat split; reflexivity.
Qed.

(** What the source offers after the events [ev], when [held] is waiting in the converter:
    the oldest of these beats or nothing; and it does offer it when the reading side knows of
    everything that was written. *)
Definition cv_offers (c : circuit cv_event cv_obs) (ev : list cv_event) (held : list (beat Z)) : Prop :=
  forall r seen, exists ch, trace c (ev ++ [CvTo r seen]) = trace c ev ++ [CvSource ch r] /\
    (cvalid ch = true -> hd_error held = Some (cbeat ch)) /\
    (Z.of_nat (length (cv_emitted (trace c ev) ++ held)) <= seen -> held <> [] -> cvalid ch = true).
Definition cv_places (buffered : bool) : Z := if buffered then 9 else 8.
Lemma cv_depth_places b : cv_depth b = cv_places b.
Proof. destruct b; reflexivity. Qed.
Lemma places_8 b : 8 <= cv_places b.
Proof. destruct b; cbn; lia. Qed.

(** ** C135 *)

(** Narrow to wide, converter first: whatever the two clocks do, each complete group of
    accepted words becomes one wide word, in order, none lost or repeated; at most one waits
    in front of the FIFO and at most its places in it.  The sink is ready when no word waits,
    or when there is room and the writing side knows. *)
Theorem C135_widen_first_partial : forall n k reverse buffered ev c, 1 <= n -> 2 <= k ->
  cdc_converter n (n * k) reverse buffered true = Some c ->
  exists held pend,
    Forall2 (packs n k reverse) (fst (group k (cv_accepted (trace c ev)))) (cv_emitted (trace c ev) ++ held ++ pend) /\
    Z.of_nat (length held) <= cv_places buffered /\ (length pend <= 1)%nat /\
    cv_offers c ev held /\
    forall sink seen r sw, exists ready, trace c (ev ++ [CvFrom sink seen r sw]) = trace c ev ++ [CvSink sink ready] /\
      (pend = [] \/ (Z.of_nat (length (cv_emitted (trace c ev))) <= seen /\ Z.of_nat (length held) < cv_places buffered) -> ready = true).
Proof.
  intros n k rev b ev c Hn Hk Hc. unfold cdc_converter in Hc. rewrite (proj1 (C07_converter_kinds n k rev Hn Hk)) in Hc.
  injection Hc as <-. rewrite cv_depth_places. pose proof (places_8 b) as Hd. set (d := cv_places b) in *.
  destruct (first_split (up_conv n k rev) (n * k) d ev) as (ins & fev & ES & E1 & E2 & E3).
  rewrite (first_accepted _ _ _ _ _ E1).
  pose proof (up_inv_run n k rev Hn ltac:(lia) ins) as [Hdt HU]. set (s := state (scirc (up_conv n k rev)) ins) in *.
  set (pend := if up_strobe s then [Beat (up_first s) (up_last s) (up_data s)] else []).
  assert (HF : Forall2 (packs n k rev) (fst (group k (accepted (strace (up_conv n k rev) ins)))) (emitted (strace (up_conv n k rev) ins) ++ pend)).
  { unfold pend. destruct (up_strobe s).
    - destruct HU as [_ (g & gs' & -> & HF & Hg)]. apply Forall2_app; auto.
    - destruct HU as [HF _]. now rewrite app_nil_r. }
  destruct (first_held (up_conv n k rev) (n * k) d Hd ev ins fev ltac:(nia) ES E2 E3) as (held & H1 & H2 & H3 & H4).
  { clear - HF. remember (fst (group k _)) as G. clear HeqG. remember (emitted _) as L. clear HeqL. revert G HF.
    induction L as [|w L IH]; intros G HF; [constructor|]. cbn in HF. inversion HF as [|? ? ? ? HP HT]; subst. constructor; [|eauto]. destruct HP as (_ & _ & HP & _). exact HP. }
  exists held, pend. rewrite H1, <- app_assoc in HF. split; [exact HF|]. split; [exact H2|]. split; [unfold pend; destruct (up_strobe s); cbn; lia|].
  split; [exact H3|]. intros sink seen r sw. eexists. split; [rewrite trace_snoc, ES; reflexivity|].
  cbn [fst snd up_conv rdy]. unfold pend. intros [Hp|[Hs Hl]].
  - fold s. destruct (up_strobe s) eqn:Es; [discriminate|]. unfold up_rdy. now rewrite Es.
  - rewrite (H4 seen Hs Hl). unfold up_rdy. apply orb_true_r.
Qed.

(** Wide to narrow, converter first, a refused beat being kept on offer: the slices of the
    accepted beats in order, followed by some of those of the beat on offer. *)
Theorem C135_narrow_first_partial : forall n k reverse buffered ev c, 1 <= n -> 2 <= k ->
  cdc_converter (n * k) n reverse buffered true = Some c -> cv_stable (trace c ev) ->
  exists held more,
    flat_map (slices n k reverse) (cv_accepted (trace c ev)) ++ more = cv_emitted (trace c ev) ++ held /\
    (more = [] \/ exists l ch j, cv_sinks (trace c ev) = l ++ [(ch, false)] /\ cvalid ch = true /\ 0 < j < k /\
       more = firstn (Z.to_nat j) (slices n k reverse (cbeat ch))) /\
    Z.of_nat (length held) <= cv_places buffered /\ cv_offers c ev held.
Proof.
  intros n k rev b ev c Hn Hk Hc. unfold cdc_converter in Hc. rewrite (proj2 (C07_converter_kinds n k rev Hn Hk)) in Hc.
  injection Hc as <-. rewrite cv_depth_places. pose proof (places_8 b) as Hd. set (d := cv_places b) in *. intros Hst.
  destruct (first_split (down_conv n k rev) n d ev) as (ins & fev & ES & E1 & E2 & E3).
  rewrite (first_accepted _ _ _ _ _ E1).
  assert (HS : exists more, emitted (strace (down_conv n k rev) ins) = flat_map (slices n k rev) (accepted (strace (down_conv n k rev) ins)) ++ more /\
    (more = [] \/ exists l ch j, cv_sinks (trace (convert_then_cross (down_conv n k rev) n d) ev) = l ++ [(ch, false)] /\ cvalid ch = true /\ 0 < j < k /\
       more = firstn (Z.to_nat j) (slices n k rev (cbeat ch)))).
  { destruct (C05_down_converter_slices n k rev ins Hn ltac:(lia) (first_stable _ _ _ _ _ E1 Hst)) as [H|(t' & o & j & Ht & Hv & Hr & Hj & H)].
    - exists []. rewrite app_nil_r. auto.
    - eexists. split; [exact H|]. right. rewrite E1, Ht, map_app. exists (map (fun o => (o_sink o, o_sready o)) t'), (o_sink o), j. cbn. rewrite Hr. auto. }
  destruct HS as (more & HS & HM).
  destruct (first_held (down_conv n k rev) n d Hd ev ins fev ltac:(lia) ES E2 E3) as (held & H1 & H2 & H3 & _).
  { rewrite HS. assert (Hsl : forall x, Forall (fun y => 0 <= bdata y < 2 ^ n) (slices n k rev x)).
    { intros x. apply Forall_forall. intros y Hy. apply in_map_iff in Hy. destruct Hy as (i & <- & _). cbn. apply Z.mod_pos_bound. apply Z.pow_pos_nonneg; lia. }
    apply Forall_app. split.
    - apply Forall_flat_map. apply Forall_forall. intros x _. apply Hsl.
    - destruct HM as [->|(l & ch & j & _ & _ & _ & ->)]; [constructor|]. apply Forall_forall. intros y Hy. apply (proj1 (Forall_forall _ _) (Hsl (cbeat ch))).
      rewrite <- (firstn_skipn (Z.to_nat j)). apply in_or_app. auto. }
  exists held, more. rewrite <- HS, H1. auto.
Qed.

(** Equal widths, in either order: every accepted beat in order. *)
Theorem C135_same_width_partial : forall n reverse buffered first ev c, 1 <= n ->
  cdc_converter n n reverse buffered first = Some c ->
  Forall (fun b => 0 <= bdata b < 2 ^ n) (cv_accepted (trace c ev)) ->
  exists held, cv_accepted (trace c ev) = cv_emitted (trace c ev) ++ held /\ Z.of_nat (length held) <= cv_places buffered.
Proof.
  intros n rev b first ev c Hn Hc HR. unfold cdc_converter, converter, get_converter_ratio in Hc.
  rewrite Z.gtb_ltb, Z.ltb_irrefl in Hc. injection Hc as <-. rewrite cv_depth_places in *.
  pose proof (places_8 b) as Hd. set (d := cv_places b) in *. destruct first.
  - destruct (first_split identity_conv n d ev) as (ins & fev & ES & E1 & E2 & E3).
    rewrite (first_accepted _ _ _ _ _ E1) in *.
    destruct (C07_identity_converter n false ins identity_conv) as [EI _].
    { unfold converter, get_converter_ratio. now rewrite Z.gtb_ltb, Z.ltb_irrefl. }
    rewrite EI in *. destruct (first_held identity_conv n d Hd ev ins fev ltac:(lia) ES E2 E3 HR) as (held & H1 & H2 & _). eauto.
  - destruct (second_split n d Hd ev) as (fev & _ & E2 & E3). rewrite <- E2, <- E3 in *.
    destruct (af_inv_run n d ltac:(lia) ltac:(lia) fev HR) as (H1 & H2 & H3 & H4 & H5 & H6).
    eexists. split; [rewrite H6; symmetry; apply firstn_skipn|]. rewrite skipn_length. rewrite H5, map_length in *. lia.
Qed.

(** FIFO first, different widths: false.  The width converter stands on the cd_to side but is
    clocked by cd_from.  One beat 2211h from 16 bits to 8: with two edges of cd_to and none of
    cd_from in between, the low byte twice; with an edge of cd_from first, the high byte only,
    and the beat is gone. *)
Definition cv_one : cv_event := CvFrom (Chan true (Beat true true 8721)) 0 true 0.
Definition cv_idle : cv_event := CvFrom (Chan false (Beat false false 0)) 0 true 1.
Theorem C135_narrow_last_refuted : forall buffered, exists c ev1 ev2,
  cdc_converter 16 8 false buffered false = Some c /\
  slices 8 2 false (Beat true true 8721) = [Beat true false 17; Beat false true 34] /\
  cv_stable (trace c ev1) /\ cv_accepted (trace c ev1) = [Beat true true 8721] /\
  cv_emitted (trace c ev1) = [Beat true false 17; Beat true false 17] /\
  cv_stable (trace c ev2) /\ cv_accepted (trace c ev2) = [Beat true true 8721] /\
  cv_emitted (trace c ev2) = [Beat false true 34] /\
  exists ch, trace c (ev2 ++ [CvTo true 1]) = trace c ev2 ++ [CvSource ch true] /\ cvalid ch = false.
Proof.
  assert (HS : forall (l : chan Z * bool) (c1 c2 : chan Z), (forall l1 (c : chan Z) (r : bool) (c' : chan Z) (r' : bool) l2, [(c1, true); (c2, true)] = l1 ++ (c, r) :: (c', r') :: l2 -> cvalid c = true -> r = false -> c' = c) /\
               (forall l1 (c : chan Z) (r : bool) (c' : chan Z) (r' : bool) l2, [l] = l1 ++ (c, r) :: (c', r') :: l2 -> cvalid c = true -> r = false -> c' = c)).
  { intros l c1 c2. split; intros [|a [|b [|x l1]]] ch r ch' r' l2 E V R; try discriminate. injection E as -> <- <- <-. discriminate. }
  destruct buffered; eexists; exists [cv_one; CvTo true 1; CvTo true 1], [cv_one; cv_idle; CvTo true 1];
    (split; [reflexivity|]; split; [reflexivity|]; split; [exact (proj2 (HS _ (Chan true (Beat true true 0)) (Chan true (Beat true true 0))))|];
     split; [reflexivity|]; split; [reflexivity|]; split; [exact (proj1 (HS (Chan true (Beat true true 0), true) _ _))|];
     split; [reflexivity|]; split; [reflexivity|]; eexists; split; reflexivity).
Qed.
(** One word 11h from 8 bits to 16: the converter takes it twice, and offers 1111h. *)
Theorem C135_widen_last_refuted : forall buffered, exists c ev,
  cdc_converter 8 16 false buffered false = Some c /\
  cv_accepted (trace c ev) = [Beat true false 17] /\ fst (group 2 [Beat true false 17]) = [] /\
  cv_emitted (trace c ev) = [Beat true false 4369].
Proof.
  destruct buffered; eexists; exists [CvFrom (Chan true (Beat true false 17)) 0 true 0; cv_idle; cv_idle; CvTo true 1];
    (split; [reflexivity|]; split; [reflexivity|]; split; reflexivity).
Qed.

(** Bytes to 16 bits, converter first, the reading clock slow: both words arrive. *)
Example C135_nonvacuous : exists c, cdc_converter 8 (8 * 2) false true true = Some c /\
  let b f l d := CvFrom (Chan true (Beat f l d)) 0 false 0 in
  let ev := [b true false 17; b false false 34; CvTo true 0; b false false 51; b false true 68; cv_idle; CvTo true 1; CvTo true 2] in
  cv_accepted (trace c ev) = [Beat true false 17; Beat false false 34; Beat false false 51; Beat false true 68] /\
  cv_emitted (trace c ev) = [Beat true false 8721; Beat false true 17459].
Proof. eexists. split; [reflexivity|]. split; reflexivity. Qed.
(** 16 bits to bytes; and 8 to 8. *)
Example C135_nonvacuous2 : exists c c', cdc_converter (8 * 2) 8 true true true = Some c /\ cdc_converter 8 8 true true false = Some c' /\
  let b d := CvFrom (Chan true (Beat true true d)) 0 false 0 in
  cv_stable (trace c [b 8721; b 8721; CvTo true 2; CvTo true 2]) /\
  cv_emitted (trace c [b 8721; b 8721; CvTo true 2; CvTo true 2]) = [Beat true false 34; Beat false true 17] /\
  cv_emitted (trace c' [b 17; CvTo true 1]) = [Beat true true 17].
Proof.
  eexists _, _. split; [reflexivity|]. split; [reflexivity|]. split; [|split; reflexivity].
  intros [|a [|x l1]] ch r ch' r' l2 E V R; cbn in E; try discriminate.
  - injection E as <- <- <- <- <-. reflexivity.
  - destruct l1; discriminate.
Qed.

Print Assumptions C135_widen_first_partial.
Print Assumptions C135_narrow_first_partial.
Print Assumptions C135_same_width_partial.
Print Assumptions C135_narrow_last_refuted.
Print Assumptions C135_widen_last_refuted.
