(** C163: the attribute wbusy of a USBEndpoint (software/usb/device.py). *)
From Coq Require Import Lia Permutation.
From Verif Require Import Usbep_model Usbep_spec Usbep_props.

(** ** Vocabulary *)
(** A write asked for by object [o] has not ended. *)
Definition writing (o : nat) (h : host) : Prop :=
  exists x d, In x (h_asked h) /\ x_obj x = o /\ x_dir x = Out_ d /\ ~ In x (map m_xfr (h_log h)).
(** The program sends on [o] only bytes, and only when wbusy is False. *)
Definition polite (conf : nat -> ep_conf) (o : nat) (prog : list (call * env)) : Prop :=
  forall before d e after h xs, prog = before ++ (Send o d, e) :: after -> run conf before host0 = (h, xs) ->
  all_bytes d = true /\ a_wbusy (h_attr h o) = false.

(** ** Submitted, outstanding and ended transfers *)
Definition wr (o : nat) (x : xfr) : bool := negb (xin x) && Nat.eqb (x_obj x) o.
Definition count (f : xfr -> bool) (l : list xfr) : nat := length (filter f l).
Lemma count_perm f l l' : Permutation l l' -> count f l = count f l'.
Proof. unfold count. induction 1 as [|x l l' _ IH|x y l|l l' l'' _ IH1 _ IH2]; cbn [filter]; [reflexivity| | |congruence]; [destruct (f x)|destruct (f x), (f y)]; cbn [length]; congruence. Qed.
Lemma count_app f l l' : count f (l ++ l') = (count f l + count f l')%nat.
Proof. unfold count. now rewrite filter_app, app_length. Qed.
Lemma count_0 f l : count f l = 0%nat -> forall x, In x l -> f x = false.
Proof.
  intros H x HX. destruct (f x) eqn:E; [|reflexivity]. exfalso. unfold count in H. assert (X : In x (filter f l)) by (apply filter_In; auto). destruct (filter f l); [destruct X|discriminate].
Qed.
Lemma take_id (l : list xfr) x : NoDup (map x_id l) -> In x l -> Permutation l (x :: filter (fun y => negb (Nat.eqb (x_id y) (x_id x))) l).
Proof.
  induction l as [|y l IH]; intros N H; [destruct H|]. cbn [map] in N. inversion N as [|? ? N1 N2]; subst. cbn [filter]. destruct H as [->|H].
  - rewrite Nat.eqb_refl. cbn [negb]. rewrite filter_id_all; [reflexivity|]. intros z Hz E. apply N1. rewrite <- E. now apply in_map.
  - destruct (Nat.eqb_spec (x_id y) (x_id x)) as [E|_]; [exfalso; apply N1; rewrite E; now apply in_map|]. cbn [negb].
    etransitivity; [apply perm_skip; apply (IH N2 H)|apply perm_swap].
Qed.
Record kept (h : host) : Prop := Kept {
  k_all : Permutation (h_asked h) (h_out h ++ map m_xfr (h_log h));
  k_ids : NoDup (map x_id (h_asked h));
  k_next : Forall (fun x => (x_id x < h_next h)%nat) (h_asked h) }.
Definition busy_ok (o : nat) (h : host) : Prop := count (wr o) (h_out h) = (if a_wbusy (h_attr h o) then 1 else 0)%nat.

Lemma finish_kept h d o : kept h -> busy_ok o h -> kept (finish h d) /\ busy_ok o (finish h d).
Proof.
  intros [K1 K2 K3] B. unfold finish. destruct (find _ (h_out h)) as [x|] eqn:F; [|split; [constructor; auto|exact B]].
  apply find_some in F. destruct F as [FI FE]. apply Nat.eqb_eq in FE. rewrite <- FE.
  assert (N : NoDup (map x_id (h_out h))).
  { assert (X : NoDup (map x_id (h_out h ++ map m_xfr (h_log h)))) by (eapply Permutation_NoDup; [apply Permutation_map; exact K1|exact K2]).
    rewrite map_app in X. revert X. generalize (map x_id (map m_xfr (h_log h))) (map x_id (h_out h)). clear. intros b a. induction a as [|y a IH]; intros H; [constructor|].
    cbn [app] in H. inversion H as [|? ? H1 H2]; subst. constructor; [|auto]. intros X. apply H1. apply in_or_app. now left. }
  pose proof (take_id _ x N FI) as T. set (out' := filter _ (h_out h)) in *. split.
  - constructor; cbn [h_asked h_out h_log h_next]; [|exact K2|exact K3].
    rewrite K1, map_app. cbn [map]. rewrite T. rewrite app_assoc. cbn [app]. apply Permutation_cons_append.
  - unfold busy_ok in *. cbn [h_out h_attr]. rewrite (count_perm _ _ _ T) in B. unfold upd.
    change (count (wr o) (x :: out')) with (length (if wr o x then x :: filter (wr o) out' else filter (wr o) out')) in B.
    change (length (filter (wr o) out')) with (count (wr o) out') in B.
    unfold wr at 1 in B. unfold callback, xin in *. destruct (Nat.eqb_spec o (x_obj x)) as [->|NE].
    + rewrite Nat.eqb_refl in B. destruct (x_dir x); cbn [negb andb a_wbusy length] in *; [exact B|]. fold (count (wr (x_obj x)) out') in B. destruct (a_wbusy _); lia.
    + destruct (Nat.eqb_spec (x_obj x) o); [congruence|]. rewrite andb_false_r in B. exact B.
Qed.
Lemma finish_all_kept ds o : forall h, kept h -> busy_ok o h -> kept (finish_all h ds) /\ busy_ok o (finish_all h ds).
Proof. induction ds as [|d ds IH]; intros h K B; [auto|]. destruct (finish_kept h d o K B) as [K' B']. exact (IH _ K' B'). Qed.
Lemma wait_kept o p evs : forall h, kept h -> busy_ok o h -> let h' := fst (wait p evs h) in kept h' /\ busy_ok o h'.
Proof.
  induction evs as [|e evs IH]; intros h K B; cbn [wait]; destruct (a_rbusy _); cbn [fst]; auto.
  destruct (finish_all_kept (ev_ends e) o h K B) as [K' B']. destruct (ev_raise e); cbn [fst]; auto.
Qed.
Lemma fresh h x : kept h -> x_id x = h_next h -> NoDup (map x_id (h_asked h ++ [x])) /\ Forall (fun y => (x_id y < S (h_next h))%nat) (h_asked h ++ [x]).
Proof.
  intros [_ K2 K3] E. split.
  - rewrite map_app. cbn [map]. apply Permutation_NoDup with (x_id x :: map x_id (h_asked h)); [apply Permutation_cons_append|]. constructor; [|exact K2].
    intros H. apply in_map_iff in H. destruct H as (y & Ey & Hy). rewrite Forall_forall in K3. specialize (K3 y Hy). lia.
  - apply Forall_app. split; [eapply Forall_impl; [|exact K3]; cbn; intros; lia|]. constructor; [lia|constructor].
Qed.
Lemma submit_kept h p addr dir : kept h -> kept (submit h p addr dir).
Proof.
  intros K. unfold submit. set (x := Xfr (h_next h) p addr dir). destruct (fresh h x K eq_refl) as [F1 F2]. destruct K as [K1 _ _].
  constructor; cbn [h_asked h_out h_log h_next]; [|exact F1|exact F2]. rewrite K1, <- !app_assoc. apply Permutation_app_head. apply Permutation_app_comm.
Qed.
Lemma sync_kept h p addr dir e o : kept h -> busy_ok o h -> kept (sync_transfer h p addr dir e) /\ busy_ok o (sync_transfer h p addr dir e).
Proof.
  intros K B. unfold sync_transfer. destruct (finish_all_kept (concat (map ev_ends (en_events e))) o h K B) as [K' B'].
  set (h1 := finish_all h _) in *. set (x := Xfr (h_next h1) p addr dir). split; [|exact B'].
  destruct (fresh h1 x K' eq_refl) as [F1 F2]. destruct K' as [K1 _ _]. constructor; cbn [h_asked h_out h_log h_next]; [|exact F1|exact F2].
  rewrite K1, map_app, <- app_assoc. cbn [map]. reflexivity.
Qed.
Lemma set_kept h p a : kept h -> kept (set_attr h p a).
Proof. intros [K1 K2 K3]. now constructor. Qed.
Lemma set_busy h p a o : busy_ok o h -> (p = o -> a_wbusy a = a_wbusy (h_attr h o)) -> busy_ok o (set_attr h p a).
Proof. unfold busy_ok, set_attr, upd. cbn [h_out h_attr]. intros B H. destruct (Nat.eqb_spec o p) as [E|_]; [|exact B]. now rewrite H. Qed.

Lemma call_kept conf c e h o : kept h -> busy_ok o h ->
  (forall d, c = Send o d -> all_bytes d = true /\ a_wbusy (h_attr h o) = false) ->
  let h' := fst (do_call conf c e h) in kept h' /\ busy_ok o h'.
Proof.
  intros K B P. destruct c as [p d|p l]; cbn [do_call].
  - unfold send. destruct (c_async (conf p)) eqn:A; cbn [negb].
    + rewrite is_bytes_spec. set (h1 := set_attr h p _).
      destruct (Nat.eqb_spec p o) as [->|NE].
      * destruct (P d eq_refl) as [P1 P2]. rewrite P1. cbn [negb fst]. split; [apply submit_kept, set_kept, K|].
        unfold busy_ok, submit. cbn [h_out h_attr]. rewrite count_app. unfold h1, set_attr. cbn [h_out h_attr]. rewrite upd_same. cbn [a_wbusy].
        unfold busy_ok in B. rewrite P2 in B. rewrite B. unfold count. cbn [filter]. unfold wr, xin. cbn [x_dir x_obj]. rewrite Nat.eqb_refl. reflexivity.
      * assert (B1 : busy_ok o h1) by (apply set_busy; [exact B|congruence]).
        destruct (all_bytes d); cbn [negb fst]; [|split; [apply set_kept, K|exact B1]]. split; [apply submit_kept, set_kept, K|].
        unfold busy_ok, submit in *. cbn [h_out h_attr]. rewrite count_app, B1. unfold count. cbn [filter]. unfold wr, xin. cbn [x_dir x_obj]. destruct (Nat.eqb_spec p o); [congruence|]. cbn [negb andb length]. lia.
    + destruct (negb (is_bytes d)); cbn [fst]; [auto|]. now apply sync_kept.
  - unfold recv. destruct (c_async (conf p)) eqn:A; cbn [negb]; [|now apply sync_kept]. apply wait_kept; [apply submit_kept, set_kept, K|].
    set (h1 := set_attr h p _). assert (B1 : busy_ok o h1) by (apply set_busy; [exact B|intros ->; reflexivity]).
    unfold busy_ok, submit in *. cbn [h_out h_attr]. rewrite count_app, B1. unfold count. cbn [filter]. unfold wr, xin. cbn [x_dir x_obj negb andb length]. lia.
Qed.

Definition is_wait (cx : call * result) : bool := match snd cx with Waiting => true | _ => false end.
Lemma run_app conf p q : forall h0, run conf (p ++ q) h0 =
  let (h, xs) := run conf p h0 in if existsb is_wait xs then (h, xs) else let (h', ys) := run conf q h in (h', xs ++ ys).
Proof.
  induction p as [|[c e] p IH]; intros h0; cbn [app run]; [cbn [existsb app]; now destruct (run conf q h0)|].
  destruct (do_call conf c e h0) as [h x]. destruct x; try (rewrite IH; destruct (run conf p h) as [h1 xs]; cbn [existsb is_wait snd orb]; destruct (existsb is_wait xs); [reflexivity|]; destruct (run conf q h1); reflexivity).
  reflexivity.
Qed.
Lemma run_kept conf o prog : forall h xs, run conf prog host0 = (h, xs) -> polite conf o prog -> kept h /\ busy_ok o h.
Proof.
  induction prog as [|[c e] prog IH] using rev_ind; intros h xs E P.
  { injection E as <- <-. split; [constructor; cbn; constructor|reflexivity]. }
  rewrite run_app in E. destruct (run conf prog host0) as [h1 x1] eqn:E1.
  assert (P1 : polite conf o prog) by (intros a d e' b h' xs' Ep Er; apply (P a d e' (b ++ [(c, e)]) h' xs'); [rewrite Ep, <- app_assoc; reflexivity|exact Er]).
  destruct (IH h1 x1 eq_refl P1) as [K B]. destruct (existsb is_wait x1); [injection E as <- <-; auto|].
  cbn [run] in E. assert (X : h = fst (do_call conf c e h1)).
  { destruct (do_call conf c e h1) as [h2 x]. destruct x; injection E as <- <-; reflexivity. }
  subst h. apply call_kept; auto. intros d ->. apply (P prog d e [] h1 x1 eq_refl E1).
Qed.

(** C163: if the program sends on the endpoint only when wbusy is False, and only bytes,
    then wbusy is True exactly while a write on it has not ended. *)
Theorem C163_wbusy_partial : forall conf prog h xs o,
  run conf prog host0 = (h, xs) -> polite conf o prog ->
  (a_wbusy (h_attr h o) = true <-> writing o h).
Proof.
  intros conf prog h xs o E P. destruct (run_kept conf o prog h xs E P) as [[K1 K2 _] B]. unfold busy_ok in B.
  assert (N : NoDup (map x_id (h_out h ++ map m_xfr (h_log h)))) by (eapply Permutation_NoDup; [apply Permutation_map; exact K1|exact K2]). split.
  - intros W. rewrite W in B. unfold count in B. destruct (filter (wr o) (h_out h)) as [|x l] eqn:F; [discriminate|].
    assert (H : In x (filter (wr o) (h_out h))) by (rewrite F; now left). apply filter_In in H. destruct H as [H1 H2]. unfold wr, xin in H2. apply andb_prop in H2. destruct H2 as [H2 H3]. apply Nat.eqb_eq in H3.
    destruct (x_dir x) as [len|d] eqn:D; [discriminate|]. exists x, d. split; [|split; [exact H3|split; [exact D|]]].
    + eapply Permutation_in; [symmetry; exact K1|]. apply in_or_app. now left.
    + intros HL. apply in_split in H1. destruct H1 as (a & b & Ea). rewrite Ea, <- app_assoc, map_app in N. cbn [app map] in N. apply NoDup_remove_2 in N. apply N.
      apply in_or_app. right. rewrite map_app. apply in_or_app. right. now apply in_map.
  - intros (x & d & H1 & H2 & H3 & H4). destruct (a_wbusy (h_attr h o)); [reflexivity|]. exfalso.
    eapply Permutation_in in H1; [|exact K1]. apply in_app_or in H1. destruct H1 as [H1|H1]; [|contradiction].
    pose proof (count_0 _ _ B x H1) as X. unfold wr, xin in X. rewrite H3, H2, Nat.eqb_refl in X. discriminate.
Qed.

(** It is not so in general: of two writes the first to end clears wbusy, and a send that
    raises, as a value is not a byte, leaves it True for good. *)
Theorem C163_wbusy_refuted :
  (exists prog h xs, run async_conf prog host0 = (h, xs) /\ (forall cx, In cx xs -> exists d, snd cx = Done \/ snd cx = Data d) /\
     a_wbusy (h_attr h 0) = false /\ writing 0 h) /\
  (exists prog h xs, run async_conf prog host0 = (h, xs) /\ a_wbusy (h_attr h 0) = true /\ h_asked h = []).
Proof.
  split.
  - exists [(Send 0 [1], Env [] Completed []); (Send 0 [2], Env [] Completed []); (Recv 1 None, Env [Events [Ending 0 Completed [1]; Ending 2 Completed [9]] false] Completed [])].
    eexists. eexists. split; [reflexivity|]. split; [cbn; intros cx [<-|[<-|[<-|[]]]]; cbn; [exists []; auto|exists []; auto|exists [9]; auto]|]. split; [reflexivity|].
    exists (Xfr 1 0 1 (Out_ [2])), [2]. split; [cbn; auto|]. split; [reflexivity|]. split; [reflexivity|]. cbn. intros [H|[H|[]]]; discriminate.
  - exists [(Send 0 [300], Env [] Completed [])]. eexists. eexists. split; [reflexivity|]. split; reflexivity.
Qed.

(** A send of something that is not bytes raises and asks for nothing. *)
Theorem C163_not_bytes : forall conf o data e h, all_bytes data = false ->
  let (h', r) := do_call conf (Send o data) e h in
  r = Raised /\ h_asked h' = h_asked h /\ h_log h' = h_log h /\ forall p, a_rbusy (h_attr h' p) = a_rbusy (h_attr h p) /\ a_rdata (h_attr h' p) = a_rdata (h_attr h p).
Proof.
  intros conf o data e h H. cbn [do_call]. unfold send. rewrite is_bytes_spec, H. destruct (c_async (conf o)); cbn [negb]; repeat split.
  - cbn [set_attr h_attr]. unfold upd. destruct (Nat.eqb_spec p o) as [->|]; reflexivity.
  - cbn [set_attr h_attr]. unfold upd. destruct (Nat.eqb_spec p o) as [->|]; reflexivity.
Qed.

(** A program that writes, looks at wbusy, reads meanwhile, and writes again when the first
    write has ended. *)
Definition wb_prog : list (call * env) :=
  [(Send 0 [1; 2], Env [] Completed []); (Recv 0 (Some 2), Env [Events [Ending 1 Completed [7; 8]; Ending 0 Completed [1; 2]] false] Completed []); (Send 0 [3], Env [] Completed [])].
Example C163_nonvacuous :
  polite async_conf 0 wb_prog /\
  (exists h xs, run async_conf (firstn 1 wb_prog) host0 = (h, xs) /\ a_wbusy (h_attr h 0) = true) /\
  (exists h xs, run async_conf (firstn 2 wb_prog) host0 = (h, xs) /\ a_wbusy (h_attr h 0) = false /\ map snd xs = [Done; Data [7; 8]]) /\
  (exists h xs, run async_conf wb_prog host0 = (h, xs) /\ a_wbusy (h_attr h 0) = true /\ map snd xs = [Done; Data [7; 8]; Done]).
Proof.
  split; [|repeat split; eexists; eexists; repeat split; reflexivity].
  intros a d e b h xs E R. destruct a as [|x a]; [injection E as <- <- _; injection R as <- _; split; reflexivity|]. injection E as <- E.
  destruct a as [|y a]; [discriminate E|]. injection E as <- E. destruct a as [|z a]; [injection E as <- <- _; cbv in R; injection R as <- _; split; reflexivity|].
  injection E as _ E. destruct a; discriminate.
Qed.

Print Assumptions C163_wbusy_partial.
Print Assumptions C163_wbusy_refuted.
Print Assumptions C163_not_bytes.
