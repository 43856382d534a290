(** C146: the cores are in reset until the PLL is locked, and start anew after any loss of lock. *)
From Verif Require Import Stream Reset_model Crg_model Cdcconv_props Reset_props.
From Verif Require I2c_model Spislave_model.

(** ** Specification *)
(** The reset request after some events: low once the PLL is locked and the button not pressed. *)
Definition calls {I} (has_rst : bool) (e : crg_event I) : option bool :=
  match e with CrgLevel locked button => Some (negb locked || has_rst && button) | CrgEdge _ => None end.
Definition requested {I} (has_rst : bool) (ev : list (crg_event I)) : bool :=
  fold_left (fun r e => match calls has_rst e with Some r' => r' | None => r end) ev true.
(** The inputs of the core at the clock edges, and what is seen at them. *)
Definition edges {I} (ev : list (crg_event I)) : list I := flat_map (fun e => match e with CrgEdge i => [i] | _ => [] end) ev.
Definition seen {O} (t : list (option (bool * O))) : list (bool * O) := flat_map (fun o => match o with Some x => [x] | None => [] end) t.
(** No reset request in these events. *)
Definition calm {I} (has_rst : bool) (ev : list (crg_event I)) : Prop := Forall (fun e => calls has_rst e <> Some true) ev.

(** ** Proofs *)
Lemma seen_app {O} (t u : list (option (bool * O))) : seen (t ++ u) = seen t ++ seen u.
Proof. apply flat_map_app. Qed.
Section Proofs.
  Context {I O : Type} (has_rst : bool) (c : circuit I O) (keep : cst c -> cst c).
  Notation W := (with_crg has_rst c keep).
  Lemma arst_calls l b : crg_arst has_rst l b = negb l || has_rst && b.
  Proof. unfold crg_arst. destruct has_rst, l, b; reflexivity. Qed.
  Lemma crg_inv ev : cg_arst (state W ev) = requested has_rst ev /\ (cg_arst (state W ev) = true -> cg_f1 (state W ev) = true /\ cg_f2 (state W ev) = true).
  Proof.
    induction ev as [|e ev IH] using rev_ind; [cbn; auto|]. rewrite state_snoc. unfold requested. rewrite fold_left_app. fold (requested has_rst ev). set (s := state W ev) in *. clearbody s.
    destruct IH as [<- H]. destruct e as [l b|i]; cbn [cnext with_crg fold_left calls].
    - rewrite <- arst_calls. destruct (crg_arst has_rst l b); cbn [cg_arst cg_f1 cg_f2]; split; auto; discriminate.
    - cbn [cg_arst cg_f1 cg_f2]. split; [reflexivity|]. intros E. rewrite E. auto.
  Qed.
  (** At most one edge since the request: still in reset. *)
  Lemma still b : forall s, cg_f2 s = true -> (length (edges b) <= if cg_f1 s then 1 else 0)%nat -> cg_f2 (state_from W s b) = true.
  Proof.
    induction b as [|e b IH]; intros s H2 Hl; [exact H2|]. cbn [state_from]. destruct e as [l u|i].
    - change (edges (CrgLevel l u :: b)) with (edges b) in Hl. apply IH; cbn [cnext with_crg]; destruct (crg_arst has_rst l u); cbn [cg_f1 cg_f2]; auto. destruct (cg_f1 s); lia.
    - change (edges (CrgEdge i :: b)) with (i :: edges b) in Hl. cbn [length] in Hl. destruct (cg_f1 s) eqn:E; [|lia].
      apply IH; cbn [cnext with_crg cg_f1 cg_f2]; [rewrite E; apply orb_true_r|]. destruct (cg_arst s); lia.
  Qed.
  (** Levels that request nothing change nothing. *)
  Lemma calm_edges ev : calm has_rst ev -> forall s, cg_arst s = false -> seen (trace_from W s ev) = seen (trace_from W s (map CrgEdge (edges ev))).
  Proof.
    induction ev as [|e ev IH]; intros Hc s Ha; [reflexivity|]. apply Forall_cons_iff in Hc. destruct Hc as [He Hc].
    destruct e as [l u|i].
    - change (edges (CrgLevel l u :: ev)) with (edges ev). cbn [trace_from]. change (seen (cout W s (CrgLevel l u) :: ?x)) with (seen x).
      cbn [calls] in He. rewrite <- arst_calls in He. cbn [cnext with_crg]. destruct (crg_arst has_rst l u); [congruence|]. rewrite IH; auto. destruct s as [a0 g1 g2 k0]; cbn [cg_arst cg_f1 cg_f2 cg_core] in *. now rewrite Ha.
    - change (edges (CrgEdge i :: ev)) with (i :: edges ev). cbn [trace_from map].
      change (seen (cout W s (CrgEdge i) :: ?x)) with ((cg_f2 s, cout c (cg_core s) i) :: seen x). f_equal. apply IH; auto.
  Qed.
  Lemma quiet_run ins : forall s, cg_arst s = false -> cg_f1 s = false -> cg_f2 s = false ->
    seen (trace_from W s (map CrgEdge ins)) = map (pair false) (trace_from c (cg_core s) ins).
  Proof.
    induction ins as [|i ins IH]; intros s Ha H1 H2; [reflexivity|]. cbn [map trace_from].
    change (seen (cout W s (CrgEdge i) :: ?x)) with ((cg_f2 s, cout c (cg_core s) i) :: seen x). rewrite IH by (cbn; rewrite ?Ha, ?H1; reflexivity).
    cbn [cnext with_crg cg_core resettable fst snd]. rewrite H2. reflexivity.
  Qed.
End Proofs.

(** ** C146 *)
(** While the reset is requested, and at the two edges of the clock after that, the core is in
    reset: at an edge with at most one edge since the last request (or since power-up). *)
Theorem C146_held : forall I O has_rst (c : circuit I O) keep ev1 ev2 i, requested has_rst ev1 = true -> (length (edges ev2) <= 1)%nat ->
  exists o, seen (trace (with_crg has_rst c keep) (ev1 ++ ev2 ++ [CrgEdge i])) = seen (trace (with_crg has_rst c keep) (ev1 ++ ev2)) ++ [(true, o)].
Proof.
  intros I O has_rst c keep ev1 ev2 i Hr Hl. rewrite app_assoc, trace_snoc. unfold seen. rewrite flat_map_app. cbn [flat_map cout with_crg app]. eexists. f_equal. f_equal. f_equal.
  unfold state. rewrite state_from_app. destruct (crg_inv has_rst c keep ev1) as [E H]. rewrite Hr in E. destruct (H E) as [F1 F2].
  apply still; [exact F2|]. unfold state in F1. rewrite F1. exact Hl.
Qed.
(** After the last request the core is in reset at exactly two edges and then goes on: it is
    as if it had been powered up at the first of the two, for every core that two cycles of
    reset make as new (C138). *)
Theorem C146_restart : forall I O has_rst (c : circuit I O) keep ev1 ok ev2 i j ins, as_new 2 c keep ->
  requested has_rst ev1 = true -> calls has_rst ok = Some false -> calm has_rst ev2 -> edges ev2 = i :: j :: ins ->
  exists x y, seen (trace (with_crg has_rst c keep) (ev1 ++ ok :: ev2)) =
    seen (trace (with_crg has_rst c keep) ev1) ++ (true, x) :: (true, y) :: map (pair false) (after_reset c keep [] [i; j] ins).
Proof.
  intros I O has_rst c keep ev1 ok ev2 i j ins HN Hr Hk Hc He. rewrite trace_app, seen_app.
  destruct (crg_inv has_rst c keep ev1) as [E H]. rewrite Hr in E. destruct (H E) as [F1 F2]. clear H. set (W := with_crg has_rst c keep) in *.
  change (state_from W (creset W) ev1) with (state W ev1) in *.
  assert (R : exists past, cg_core (state W ev1) = state (resettable c keep) past).
  { clear. induction ev1 as [|e ev1 [past IH]] using rev_ind; [exists []; reflexivity|]. rewrite state_snoc. destruct e as [l u|i].
    - exists past. cbn [cnext W with_crg]. destruct (crg_arst has_rst l u); exact IH.
    - eexists (past ++ [(_, i)]). rewrite state_snoc. cbn [cnext W with_crg cg_core]. rewrite IH. reflexivity. }
  destruct R as [past R]. set (s := state W ev1) in *. clearbody s.
  destruct ok as [l u|]; [|discriminate]. cbn [calls] in Hk. injection Hk as Hk. rewrite <- arst_calls in Hk.
  cbn [trace_from]. change (seen (cout W s (CrgLevel l u) :: ?x)) with (seen x).
  assert (K : cnext W s (CrgLevel l u) = Crg false true true (cg_core s)) by (cbn [cnext W with_crg]; now rewrite Hk, F1, F2). rewrite K.
  unfold W. rewrite calm_edges, He by auto. fold W. cbn [map trace_from].
  do 2 eexists. f_equal. change (seen (?a :: ?b :: ?x)) with (seen [a] ++ seen [b] ++ seen x).
  unfold W. rewrite quiet_run by reflexivity. cbn [seen flat_map cout cnext with_crg app cg_f2 cg_f1 cg_arst orb]. do 2 f_equal. f_equal.
  rewrite <- (HN past [i; j] ins ltac:(cbn; lia)), after_reset_state. rewrite <- R. reflexivity.
Qed.
(** With a core all of whose registers are reset, the same without the hypothesis: it starts
    from its power-up state. *)
Theorem C146_plain : forall I O has_rst (c : circuit I O) ev1 ok ev2 i j ins,
  requested has_rst ev1 = true -> calls has_rst ok = Some false -> calm has_rst ev2 -> edges ev2 = i :: j :: ins ->
  exists x y, seen (trace (with_crg has_rst c (keep_none c)) (ev1 ++ ok :: ev2)) =
    seen (trace (with_crg has_rst c (keep_none c)) ev1) ++ (true, x) :: (true, y) :: map (pair false) (trace c ins).
Proof.
  intros I O has_rst c ev1 ok ev2 i j ins Hr Hk Hc He.
  assert (HN : as_new 2 c (keep_none c)) by (intros past rst l Hl; rewrite !plain; try reflexivity; destruct rst; cbn in Hl; try lia; discriminate).
  destruct (C146_restart I O has_rst c (keep_none c) ev1 ok ev2 i j ins HN Hr Hk Hc He) as (x & y & E). exists x, y. rewrite E, plain by (reflexivity || discriminate). reflexivity.
Qed.

(** The domains "usb" and "usb_io" without ULPI are in reset exactly at the edges at which it is
    requested ... *)
Theorem C146_usb_partial : forall I O has_rst (c : circuit I O) keep ev i,
  exists o, seen (trace (with_crg_usb has_rst c keep) (ev ++ [CrgEdge i])) = seen (trace (with_crg_usb has_rst c keep) ev) ++ [(requested has_rst ev, o)].
Proof.
  intros I O has_rst c keep ev i. rewrite trace_snoc, seen_app. cbn [cout with_crg_usb]. eexists. f_equal. cbn [seen flat_map app]. f_equal. f_equal.
  induction ev as [|e ev IH] using rev_ind; [reflexivity|]. rewrite state_snoc. unfold requested. rewrite fold_left_app. fold (requested has_rst ev). rewrite <- IH.
  destruct e as [l b|j]; cbn [cnext with_crg_usb fst fold_left calls]; [apply arst_calls|reflexivity].
Qed.
(** ... so a loss of lock between two edges resets "sync" and passes "usb" by: the same core, in
    the same events, starts anew in the one and goes on in the other. *)
Theorem C146_usb_refuted : exists ev1 ev2 : list (crg_event unit),
  let c := Circuit nat O (fun s _ => s) (fun s _ => S s) in
  requested true (ev1 ++ [CrgLevel false false]) = true /\
  seen (trace (with_crg true c (keep_none c)) (ev1 ++ [CrgLevel false false; CrgLevel true false] ++ ev2)) =
    seen (trace (with_crg true c (keep_none c)) ev1) ++ [(true, 2%nat); (true, 0%nat); (false, 0%nat)] /\
  seen (trace (with_crg_usb true c (keep_none c)) (ev1 ++ [CrgLevel false false; CrgLevel true false] ++ ev2)) =
    seen (trace (with_crg_usb true c (keep_none c)) ev1) ++ [(false, 4%nat); (false, 5%nat); (false, 6%nat)].
Proof.
  exists (CrgLevel true false :: repeat (CrgEdge tt) 4), (repeat (CrgEdge tt) 3). repeat split; reflexivity.
Qed.

(** An SPI slave on a board with a button: powered up, used; the PLL loses its lock for less
    than a clock cycle. *)
Definition crg_pin (k : bool) : crg_event Spislave_model.sl_in := CrgEdge (Spislave_model.SlIn (Spislave_model.Pins k false 1) (Chan false (Beat false false (0, 0))) true).
Example C146_nonvacuous : let ev1 := CrgLevel true false :: map crg_pin [false; false; true; false; true; false; true] ++ [CrgLevel false false] in
  let ev2 := map crg_pin [false; true; false; true] in
  as_new 2 (Spislave_model.spi_slave false false 8 1 false [8]) (keep_sl 8 false) /\
  requested true ev1 = true /\ calls true (@CrgLevel Spislave_model.sl_in true false) = Some false /\ calm true ev2 /\ length (edges ev2) = 4%nat /\
  map fst (seen (trace (with_crg true (Spislave_model.spi_slave false false 8 1 false [8]) (keep_sl 8 false)) (ev1 ++ CrgLevel true false :: ev2))) =
    [true; true; false; false; false; false; false] ++ [true; true; false; false].
Proof.
  cbv zeta. split; [apply C138_as_new|]. repeat split; try reflexivity. repeat constructor; discriminate.
Qed.

Print Assumptions C146_held.
Print Assumptions C146_restart.
Print Assumptions C146_plain.
Print Assumptions C146_usb_partial.
Print Assumptions C146_usb_refuted.
