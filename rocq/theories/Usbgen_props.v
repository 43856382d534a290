(** C164: elaborating a USBGenericDevice. *)
From Verif Require Import Stream Usb_model Usb_props Usbgen_model.

(** The interfaces declared compatible with Windows' driver, as asked: True is interface 0. *)
Definition asked_interfaces (a : ms_arg) : list Z :=
  match a with MsBool true => [0] | MsBool false => [] | MsList l => l end.
Definition no_interface (a : ms_arg) : Prop := asked_interfaces a = [].
(** The Microsoft handlers among the handlers. *)
Definition microsoft (l : list handler) : list (list Z * Z) :=
  flat_map (fun h => match h with Microsoft f c => [(f, c)] | User _ => [] end) l.
Definition users (l : list handler) : list Z := flat_map (fun h => match h with User n => [n] | Microsoft _ _ => [] end) l.
(** The vendor request code announced by a Microsoft OS string: its last character, after MSFT100. *)
Definition announces (s : list Z) (code : Z) : Prop := s = [77; 83; 70; 84; 49; 48; 48] ++ [code].

Lemma users_map ns : users (map User ns) = ns.
Proof. unfold users. induction ns as [|n ns IH]; [reflexivity|]. cbn [map flat_map app]. now rewrite IH. Qed.
Lemma users_app a b : users (a ++ b) = users a ++ users b.
Proof. apply flat_map_app. Qed.
Lemma users_ms (b : bool) m l : users (if b then repeat (Microsoft l 0xee) m else []) = [].
Proof. destruct b; [|reflexivity]. induction m as [|m IH]; [reflexivity|exact IH]. Qed.
Lemma users_ms1 (b : bool) l c : users (if b then [Microsoft l c] else []) = [].
Proof. now destruct b. Qed.
Lemma microsoft_map ns : microsoft (map User ns) = [].
Proof. induction ns as [|n ns IH]; [reflexivity|]. exact IH. Qed.
Lemma truthy_asked a : truthy a = negb (match asked_interfaces a with [] => true | _ => false end).
Proof. destruct a as [[|]|[|x l]]; reflexivity. Qed.
Lemma added_asked a : truthy a = true -> match a with MsBool _ => [0] | MsList l => l end = asked_interfaces a.
Proof. destruct a as [[|]|[|x l]]; intros H; [reflexivity|discriminate|discriminate|reflexivity]. Qed.

(** The object after [n] elaborations. *)
Lemma elaborated_is c n : forall d, gd_handlers (elaborated n c d) =
    gd_handlers d ++ (if truthy (gd_ms d) then repeat (Microsoft (asked_interfaces (gd_ms d)) 0xee) n else []) /\
  asked_interfaces (gd_ms (elaborated n c d)) = asked_interfaces (gd_ms d).
Proof.
  induction n as [|n IH]; intros d; cbn [elaborated].
  { cbn [repeat]. destruct (truthy _); now rewrite app_nil_r. }
  destruct (IH (snd (elaborate c d))) as [E1 E2]. rewrite E1, E2. unfold elaborate, add_microsoft. destruct (truthy (gd_ms d)) eqn:T; cbn [snd gd_handlers gd_ms].
  - rewrite (added_asked _ T). split; [|reflexivity].
    assert (T' : truthy (MsList (asked_interfaces (gd_ms d))) = true) by (rewrite truthy_asked in *; exact T).
    rewrite T', <- app_assoc. reflexivity.
  - rewrite T. auto.
Qed.
(** What the next elaboration is then. *)
Lemma elaborate_is c d : let b := fst (elaborate c d) in
  b_handlers b = gd_handlers d ++ (if truthy (gd_ms d) then [Microsoft (asked_interfaces (gd_ms d)) 0xee] else []) /\
  b_strings b = (if truthy (gd_ms d) then [(0xee, msft_string)] else []).
Proof.
  cbv zeta. unfold elaborate, add_microsoft. destruct (truthy (gd_ms d)) eqn:T; cbn [fst b_handlers b_strings gd_handlers].
  - rewrite (added_asked _ T). auto.
  - now rewrite app_nil_r.
Qed.

(** C164: the first elaboration gives what was asked for: the user's handlers in order, the
    custom endpoints in order, and Microsoft descriptors exactly if some interface was to be
    declared compatible: then one string, announcing the request code of the one handler,
    which declares exactly the interfaces asked for. *)
Theorem C164_first_partial : forall c arg names, let b := fst (elaborate c (gen_init arg names)) in
  users (b_handlers b) = names /\ b_custom b = gc_custom c /\
  (no_interface arg -> b_strings b = [] /\ microsoft (b_handlers b) = []) /\
  (~ no_interface arg -> exists s code, b_strings b = [(0xee, s)] /\ announces s code /\ microsoft (b_handlers b) = [(asked_interfaces arg, code)]).
Proof.
  intros c arg names b. destruct (elaborate_is c (gen_init arg names)) as [E1 E2]. fold b in E1, E2. unfold gen_init in E1, E2. cbn [gd_handlers gd_ms] in E1, E2.
  rewrite E1, E2, truthy_asked. unfold no_interface, users, microsoft. rewrite !flat_map_app. change (flat_map _ (map User names)) with (users (map User names)) at 1. rewrite users_map.
  change (flat_map _ (map User names)) with (microsoft (map User names)). rewrite microsoft_map. split; [|split; [unfold b, elaborate; destruct (truthy (gd_ms (gen_init arg names))); reflexivity|]].
  - destruct (asked_interfaces arg); cbn [negb flat_map app]; now rewrite app_nil_r.
  - split; intros H; destruct (asked_interfaces arg) as [|x l]; try congruence; try discriminate; cbn [negb flat_map app]; [auto|].
    exists msft_string, 0xee. repeat split.
Qed.

(** Elaborating again gives the same device, if no Microsoft descriptors are asked for; the
    descriptors, endpoints, strings and the user's handlers are the same in any case. *)
Theorem C164_again_partial : forall c arg names n,
  let b := fst (elaborate c (gen_init arg names)) in let b' := fst (elaborate c (elaborated n c (gen_init arg names))) in
  (no_interface arg -> b' = b) /\
  b_descriptors b' = b_descriptors b /\ b_endpoints b' = b_endpoints b /\ b_custom b' = b_custom b /\ b_strings b' = b_strings b /\
  users (b_handlers b') = users (b_handlers b).
Proof.
  intros c arg names n b b'. destruct (elaborate_is c (gen_init arg names)) as [E1 E2]. fold b in E1, E2.
  destruct (elaborate_is c (elaborated n c (gen_init arg names))) as [F1 F2]. fold b' in F1, F2.
  destruct (elaborated_is c n (gen_init arg names)) as [H1 H2]. rewrite H1 in F1. rewrite !truthy_asked, H2 in F1, F2. rewrite truthy_asked in E1, E2. unfold gen_init in *. cbn [gd_handlers gd_ms] in *.
  assert (D : b_descriptors b' = b_descriptors b /\ b_endpoints b' = b_endpoints b /\ b_custom b' = b_custom b).
  { unfold b, b', elaborate. repeat split; repeat destruct (truthy _); reflexivity. }
  destruct D as (D1 & D2 & D3). split; [|split; [exact D1|split; [exact D2|split; [exact D3|split; [congruence|]]]]].
  - intros N. unfold no_interface in N. rewrite N in *. clearbody b b'. cbn [negb] in *. rewrite !app_nil_r in *.
    destruct b as [b1 b2 b3 b4 b5], b' as [c1 c2 c3 c4 c5]. cbn [b_strings b_descriptors b_handlers b_endpoints b_custom] in *.
    rewrite ?truthy_asked, ?H2 in F1. cbn [negb] in F1. rewrite ?app_nil_r in F1. congruence.
  - rewrite E1, F1, !users_app. rewrite users_ms, !users_ms1, !app_nil_r. reflexivity.
Qed.

(** With Microsoft descriptors it does not: each elaboration of the same object leaves its
    handler behind, and the n-th device has n of them for the same request code. *)
Theorem C164_again_refuted : forall c arg names n, ~ no_interface arg ->
  let b := fst (elaborate c (elaborated n c (gen_init arg names))) in
  microsoft (b_handlers b) = repeat (asked_interfaces arg, 0xee) (S n).
Proof.
  intros c arg names n N b. destruct (elaborate_is c (elaborated n c (gen_init arg names))) as [F1 _]. fold b in F1.
  destruct (elaborated_is c n (gen_init arg names)) as [H1 H2]. rewrite H1 in F1. rewrite !truthy_asked, H2 in F1. unfold gen_init in F1. cbn [gd_handlers gd_ms] in F1.
  unfold no_interface in N. rewrite F1. destruct (asked_interfaces arg) as [|x l]; [congruence|]. cbn [negb]. unfold microsoft. rewrite !flat_map_app.
  change (flat_map _ (map User names)) with (microsoft (map User names)). rewrite microsoft_map. cbn [app flat_map].
  clear. assert (E : forall m, flat_map (fun h => match h with Microsoft f c => [(f, c)] | User _ => [] end) (repeat (Microsoft (x :: l) 0xee) m) = repeat (x :: l, 0xee) m) by (induction m as [|m IH]; [reflexivity|]; cbn [repeat flat_map app]; now rewrite IH).
  rewrite E. change [(x :: l, 238)] with (repeat (x :: l, 238) 1). rewrite <- repeat_app, Nat.add_comm. reflexivity.
Qed.

(** The largest packet: as given, or 64 bytes on a full speed bus and 512 otherwise; the
    sizes of the endpoints: as given, or this one for both directions of every pair. *)
Theorem C164_sizes : forall c k i o,
  nth_error (gen_sizes c) k = Some (i, o) <->
  match gc_sizes c with
  | Some l => nth_error l k = Some (i, o)
  | None => (k < gc_pairs c)%nat /\ i = o /\ match gc_max c with Some m => o = m | None => o = if gc_full_speed c then 64 else 512 end
  end.
Proof.
  intros c k i o. unfold gen_sizes, gd_sizes. destruct (gc_sizes c) as [l|]; [reflexivity|].
  assert (M : forall m, nth_error (repeat (m, m) (gc_pairs c)) k = Some (i, o) <-> (k < gc_pairs c)%nat /\ i = o /\ o = m).
  { intros m. split.
    - intros H. assert (L : (k < length (repeat (m, m) (gc_pairs c)))%nat) by (apply nth_error_Some; congruence). rewrite repeat_length in L. split; [exact L|].
      apply nth_error_In, repeat_spec in H. injection H as -> ->. auto.
    - intros (L & -> & ->). rewrite (nth_error_nth' _ (m, m)) by now rewrite repeat_length. f_equal. apply nth_repeat. }
  rewrite M. unfold gen_max. destruct (gc_max c); reflexivity.
Qed.

(** The endpoints of every elaboration are those wanted by the sizes, one descriptor each. *)
Theorem C164_endpoints_partial : forall c d, (length (gen_sizes c) <= 15)%nat ->
  let b := fst (elaborate c d) in
  (forall e, In e (b_endpoints b) <-> wanted (gen_sizes c) e) /\
  b_descriptors b = map (fun e => (ep_address e, h_size e)) (b_endpoints b).
Proof.
  intros c d L b. destruct (C104_endpoints_partial (gen_sizes c) L) as (E1 & E2 & _).
  assert (X : b_endpoints b = gd_endpoints 0 (gen_sizes c) /\ b_descriptors b = gd_descriptors 0 (gen_sizes c)) by (unfold b, elaborate; destruct (truthy (gd_ms d)); split; reflexivity).
  destruct X as [-> ->]. auto.
Qed.

Example C164_nonvacuous :
  let c := GenConf false None (Some [(512, 512); (0, 64)]) 1 [7] in
  let b := fst (elaborate c (gen_init (MsList [0; 1]) [5; 6])) in
  ~ no_interface (MsList [0; 1]) /\ no_interface (MsBool false) /\ no_interface (MsList []) /\ asked_interfaces (MsBool true) = [0] /\
  b_handlers b = [User 5; User 6; Microsoft [0; 1] 0xee] /\ b_custom b = [7] /\ b_descriptors b = [(1, 512); (129, 512); (2, 64)] /\
  length (b_endpoints b) = 3%nat /\ nth_error (gen_sizes c) 1 = Some (0, 64) /\
  microsoft (b_handlers (fst (elaborate c (elaborated 1 c (gen_init (MsBool true) []))))) = [([0], 0xee); ([0], 0xee)].
Proof. cbv zeta. split; [discriminate|]. repeat split. Qed.

Print Assumptions C164_first_partial.
Print Assumptions C164_again_partial.
Print Assumptions C164_again_refuted.
Print Assumptions C164_sizes.
Print Assumptions C164_endpoints_partial.
