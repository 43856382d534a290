(** Properties C118 - C120 (USBEndpoint of software/usb/device.py). *)
From Verif Require Import Usbep_model Usbep_spec.
From Coq Require Import Lia.

Definition xin (x : xfr) : bool := match x_dir x with In_ _ => true | Out_ _ => false end.

Record ok (h : host) : Prop := Ok {
  ok_out : filter xin (h_out h) = [];
  ok_ids : Forall (fun x => (x_id x < h_next h)%nat) (h_out h) }.

Lemma filter_filter {A} (f g : A -> bool) l : filter f (filter g l) = filter g (filter f l).
Proof. induction l as [|x l IH]; [reflexivity|]. cbn. destruct (g x) eqn:G, (f x) eqn:F; cbn; rewrite ?F, ?G, IH; reflexivity. Qed.
Lemma Forall_filter {A} (P : A -> Prop) f l : Forall P l -> Forall P (filter f l).
Proof. intros H. apply Forall_forall. intros x Hx. apply filter_In in Hx. rewrite Forall_forall in H. now apply H. Qed.

Lemma upd_same {A} (f : nat -> A) o a : upd f o a o = a.
Proof. unfold upd. now rewrite Nat.eqb_refl. Qed.

(** With only OUT transfers outstanding, ends leave the reading side alone. *)
Lemma finish_out h d : ok h ->
  let h' := finish h d in
  ok h' /\ h_next h' = h_next h /\ h_asked h' = h_asked h /\
  (forall o, a_rbusy (h_attr h' o) = a_rbusy (h_attr h o) /\ a_rdata (h_attr h' o) = a_rdata (h_attr h o)) /\
  exists new, h_log h' = h_log h ++ new /\ filter is_in new = [].
Proof.
  intros [H1 H2]. unfold finish. destruct (find _ (h_out h)) as [x|] eqn:F; cbn.
  - apply find_some in F. destruct F as [FI FE].
    assert (X : xin x = false).
    { destruct (xin x) eqn:X; [|reflexivity]. assert (In x (filter xin (h_out h))) as HI by (apply filter_In; auto). rewrite H1 in HI. destruct HI. }
    split; [constructor; cbn|].
    + now rewrite filter_filter, H1.
    + now apply Forall_filter.
    + do 2 (split; [reflexivity|]). split.
      * intros o. unfold upd, callback. destruct (Nat.eqb_spec o (x_obj x)) as [->|]; [|auto].
        unfold xin in X. destruct (x_dir x); [discriminate|auto].
      * eexists. split; [reflexivity|]. cbn. unfold is_in. cbn. unfold xin in X. destruct (x_dir x); [discriminate|reflexivity].
  - split; [constructor; auto|]. do 2 (split; [reflexivity|]). split; [auto|]. exists []. now rewrite app_nil_r.
Qed.

Lemma finish_all_out ds : forall h, ok h ->
  let h' := finish_all h ds in
  ok h' /\ h_next h' = h_next h /\ h_asked h' = h_asked h /\
  (forall o, a_rbusy (h_attr h' o) = a_rbusy (h_attr h o) /\ a_rdata (h_attr h' o) = a_rdata (h_attr h o)) /\
  exists new, h_log h' = h_log h ++ new /\ filter is_in new = [].
Proof.
  induction ds as [|d ds IH]; intros h H; cbv zeta.
  - split; [auto|]. do 2 (split; [reflexivity|]). split; [auto|]. exists []. now rewrite app_nil_r.
  - destruct (finish_out h d H) as (A1 & A2 & A3 & A4 & n1 & A5 & A6).
    destruct (IH _ A1) as (B1 & B2 & B3 & B4 & n2 & B5 & B6). cbv zeta in *. change (finish_all h (d :: ds)) with (finish_all (finish h d) ds).
    split; [auto|]. split; [congruence|]. split; [congruence|]. split.
    + intros o. destruct (A4 o), (B4 o). split; congruence.
    + exists (n1 ++ n2). rewrite app_assoc, <- A5. split; [auto|]. now rewrite filter_app, A6, B6.
Qed.

(** While object [o] waits for its transfer [x]. *)
Record reading (h : host) (x : xfr) : Prop := Reading {
  r_out : filter xin (h_out h) = [x];
  r_ids : Forall (fun y => (x_id y < h_next h)%nat) (h_out h);
  r_nodup : forall y, In y (h_out h) -> x_id y = x_id x -> y = x;
  r_busy : a_rbusy (h_attr h (x_obj x)) = true }.

Lemma filter_id_all (l : list xfr) n : (forall y, In y l -> x_id y <> n) -> filter (fun y => negb (Nat.eqb (x_id y) n)) l = l.
Proof.
  induction l as [|y l IH]; intros H; [reflexivity|]. cbn. destruct (Nat.eqb_spec (x_id y) n); [exfalso; eapply H; [left; reflexivity|auto]|].
  cbn. rewrite IH; [reflexivity|]. intros z Hz. apply H. now right.
Qed.

Lemma finish_reading h x d : reading h x -> xin x = true ->
  let h' := finish h d in
  h_next h' = h_next h /\ h_asked h' = h_asked h /\
  (reading h' x /\ (exists new, h_log h' = h_log h ++ new /\ filter is_in new = []) \/
   ok h' /\ a_rbusy (h_attr h' (x_obj x)) = false /\ a_rdata (h_attr h' (x_obj x)) = Some (d_bytes d) /\
   (exists st, h_log h' = h_log h ++ [Moved x st (d_bytes d)])).
Proof.
  intros [H1 H2 H3 H4] HX. unfold finish. destruct (find _ (h_out h)) as [y|] eqn:F; cbn.
  2:{ do 2 (split; [reflexivity|]). left. split; [constructor; auto|]. exists []. now rewrite app_nil_r. }
  do 2 (split; [reflexivity|]). apply find_some in F. destruct F as [FI FE]. apply Nat.eqb_eq in FE.
  destruct (xin y) eqn:Y.
  - right. assert (y = x) as ->.
    { assert (In y (filter xin (h_out h))) as HI by (apply filter_In; auto). rewrite H1 in HI. destruct HI as [->|[]]; reflexivity. }
    unfold xin in HX. split; [constructor; cbn|].
    + rewrite filter_filter, H1. cbn. now rewrite FE, Nat.eqb_refl.
    + now apply Forall_filter.
    + cbn. rewrite !upd_same. unfold callback. destruct (x_dir x) eqn:DX; [|discriminate]. cbn. split; [reflexivity|]. split; [reflexivity|].
      exists (d_status d). reflexivity.
  - left. split; [constructor; cbn|].
    + rewrite filter_filter, H1. cbn. destruct (Nat.eqb_spec (x_id x) (d_id d)) as [E|]; [|reflexivity].
      exfalso. assert (y = x) by (apply H3; [exact FI|congruence]). congruence.
    + now apply Forall_filter.
    + intros z Hz. apply filter_In in Hz. now apply H3.
    + unfold upd, callback. destruct (Nat.eqb_spec (x_obj x) (x_obj y)) as [E|]; [|exact H4].
      unfold xin in Y. destruct (x_dir y); [discriminate|]. cbn. congruence.
    + eexists. split; [reflexivity|]. cbn. unfold is_in. cbn. unfold xin in Y. destruct (x_dir y); [discriminate|reflexivity].
Qed.

Lemma is_in_xin x st d : is_in (Moved x st d) = xin x.
Proof. reflexivity. Qed.

Lemma finish_all_reading x ds : xin x = true -> forall h, reading h x ->
  let h' := finish_all h ds in
  h_next h' = h_next h /\ h_asked h' = h_asked h /\
  exists new, h_log h' = h_log h ++ new /\
  (reading h' x /\ filter is_in new = [] \/
   exists st d, ok h' /\ a_rbusy (h_attr h' (x_obj x)) = false /\ a_rdata (h_attr h' (x_obj x)) = Some d /\
     filter is_in new = [Moved x st d]).
Proof.
  intros HX. induction ds as [|d ds IH]; intros h H; cbv zeta.
  - do 2 (split; [reflexivity|]). exists []. change (finish_all h []) with h. rewrite app_nil_r. auto.
  - change (finish_all h (d :: ds)) with (finish_all (finish h d) ds). destruct (finish_reading h x d H HX) as (A1 & A2 & [[A3 (n1 & A4 & A5)]|(A3 & A4 & A5 & st & A6)]).
    + destruct (IH _ A3) as (B1 & B2 & n2 & B3 & B4). cbv zeta in *. split; [congruence|]. split; [congruence|].
      exists (n1 ++ n2). rewrite app_assoc, <- A4. split; [auto|]. rewrite filter_app, A5. cbn. exact B4.
    + destruct (finish_all_out ds _ A3) as (B1 & B2 & B3 & B4 & n2 & B5 & B6). cbv zeta in *. split; [congruence|]. split; [congruence|].
      exists ([Moved x st (d_bytes d)] ++ n2). rewrite app_assoc, <- A6. split; [auto|]. right.
      exists st, (d_bytes d). destruct (B4 (x_obj x)) as [C1 C2]. split; [auto|]. split; [congruence|]. split; [congruence|].
      rewrite filter_app, B6. cbn. rewrite is_in_xin, HX. reflexivity.
Qed.

(** The loop of recv. *)
Lemma wait_done o evs h : a_rbusy (h_attr h o) = false -> wait o evs h = (h, match a_rdata (h_attr h o) with Some d => Data d | None => Raised end).
Proof. intros H. destruct evs; cbn; now rewrite H. Qed.

Lemma wait_ok x : xin x = true -> forall evs h h' r, reading h x -> wait (x_obj x) evs h = (h', r) ->
  h_next h' = h_next h /\ h_asked h' = h_asked h /\
  exists new, h_log h' = h_log h ++ new /\
  (r = Raised \/ r = Waiting /\ reading h' x /\ filter is_in new = [] \/
   exists st d, r = Data d /\ ok h' /\ filter is_in new = [Moved x st d]).
Proof.
  intros HX. induction evs as [|e evs IH]; intros h h' r H E; pose proof (r_busy _ _ H) as HB; cbn in E; rewrite HB in E.
  - injection E as <- <-. do 2 (split; [reflexivity|]). exists []. rewrite app_nil_r. auto 10.
  - destruct (finish_all_reading x (ev_ends e) HX h H) as (A1 & A2 & n1 & A3 & A4). cbv zeta in *.
    destruct (ev_raise e). { injection E as <- <-. split; [congruence|]. split; [congruence|]. exists n1. auto. }
    destruct A4 as [[A4 A5]|(st & d & A4 & A5 & A6 & A7)].
    + destruct (IH _ _ _ A4 E) as (B1 & B2 & n2 & B3 & B4). split; [congruence|]. split; [congruence|].
      exists (n1 ++ n2). rewrite app_assoc, <- A3. split; [auto|]. rewrite filter_app, A5. exact B4.
    + rewrite wait_done in E by auto. rewrite A6 in E. injection E as <- <-. split; [congruence|]. split; [congruence|].
      exists n1. split; [auto|]. right. right. eauto.
Qed.

Lemma is_bytes_spec l : is_bytes l = all_bytes l.
Proof.
  unfold is_bytes, all_bytes. induction l as [|x l IH]; [reflexivity|]. cbn [forallb]. rewrite IH. f_equal.
  destruct (Z.eqb_spec (x mod 256) x) as [E|E].
  - pose proof (Z.mod_pos_bound x 256 ltac:(lia)). destruct (Z.leb_spec 0 x), (Z.ltb_spec x 256); try lia; reflexivity.
  - destruct (Z.leb_spec 0 x), (Z.ltb_spec x 256); try reflexivity. exfalso. apply E. apply Z.mod_small. lia.
Qed.

Section Props.
  Context (conf : nat -> ep_conf).

  Definition asked_len (o : nat) (length : option Z) : Z := match length with None => c_size (conf o) | Some l => l end.

  Lemma reading_start h o addr len b : ok h ->
    reading (submit (set_attr h o (EpAttr b true (a_rdata (h_attr h o)))) o addr (In_ len)) (Xfr (h_next h) o addr (In_ len)).
  Proof.
    intros [H1 H2]. constructor; cbn.
    - rewrite filter_app, H1. reflexivity.
    - apply Forall_app. split; [|constructor; [cbn; lia|constructor]]. eapply Forall_impl; [|exact H2]. cbn. intros. lia.
    - intros y Hy E. apply in_app_iff in Hy. destruct Hy as [Hy|[->|[]]]; [|reflexivity].
      rewrite Forall_forall in H2. specialize (H2 y Hy). lia.
    - now rewrite upd_same.
  Qed.

  Lemma recv_async o l e h h' r : ok h -> c_async (conf o) = true -> recv conf o l e h = (h', r) ->
    let x := Xfr (h_next h) o (in_addr conf o) (In_ (asked_len o l)) in
    h_asked h' = h_asked h ++ [x] /\
    exists new, h_log h' = h_log h ++ new /\
    (r = Raised \/ r = Waiting /\ reading h' x /\ filter is_in new = [] \/
     exists st d, r = Data d /\ ok h' /\ filter is_in new = [Moved x st d]).
  Proof.
    intros H HA E. unfold recv in E. rewrite HA in E. cbn [negb] in E. fold (asked_len o l) in E.
    pose proof (reading_start h o (in_addr conf o) (asked_len o l) (a_wbusy (h_attr h o)) H) as HR.
    destruct (wait_ok (Xfr (h_next h) o (in_addr conf o) (In_ (asked_len o l))) eq_refl _ _ _ _ HR E) as (A1 & A2 & n & A3 & A4).
    split; [exact A2|]. exists n. split; [exact A3|exact A4].
  Qed.

  Lemma sync_ok h o addr dir e : ok h ->
    let h' := sync_transfer h o addr dir e in
    ok h' /\ (exists x, x_obj x = o /\ x_addr x = addr /\ x_dir x = dir /\ h_asked h' = h_asked h ++ [x] /\
      exists new, h_log h' = h_log h ++ new ++ [Moved x (en_status e) (en_bytes e)] /\ filter is_in new = []).
  Proof.
    intros H. destruct (finish_all_out (concat (map ev_ends (en_events e))) h H) as ([B1 B1'] & B2 & B3 & B4 & n & B5 & B6).
    unfold sync_transfer. cbn in *. set (h1 := finish_all h _) in *.
    split.
    - constructor; cbn; [exact B1|]. eapply Forall_impl; [|exact B1']. cbn. intros. lia.
    - eexists. split; [|split; [|split; [|split; [rewrite B3; reflexivity|]]]]; try reflexivity. exists n. rewrite B5, app_assoc. auto.
  Qed.

  Lemma filter_obj o (l : list moved) : filter is_in l = [] -> delivered o l = [].
  Proof.
    intros H. unfold delivered. replace (filter _ l) with (@nil moved); [reflexivity|]. symmetry.
    induction l as [|m l IH]; [reflexivity|]. cbn in *. destruct (is_in m); [discriminate|]. cbn. auto.
  Qed.
  Lemma delivered_app o a b : delivered o (a ++ b) = delivered o a ++ delivered o b.
  Proof. unfold delivered. now rewrite filter_app, map_app, concat_app. Qed.
  Lemma delivered_in o l : delivered o l = delivered o (filter is_in l).
  Proof.
    unfold delivered. f_equal. f_equal. induction l as [|m l IH]; [reflexivity|]. cbn.
    destruct (is_in m) eqn:E; cbn; rewrite ?E; cbn; rewrite IH; reflexivity.
  Qed.
  Lemma delivered_1 o x st d : delivered o [Moved x st d] = if xin x && Nat.eqb (x_obj x) o then d else [].
  Proof. unfold delivered. cbn. rewrite is_in_xin. destruct (xin x && _); cbn; [apply app_nil_r|reflexivity]. Qed.
  Lemma received_cons o cx xs : received o (cx :: xs) = received o [cx] ++ received o xs.
  Proof. unfold received. cbn. now rewrite app_nil_r. Qed.
  Lemma received_1 o c r : received o [(c, r)] = match c, r with Recv p _, Data d => if Nat.eqb p o then d else [] | _, _ => [] end.
  Proof. unfold received. cbn. rewrite app_nil_r. destruct c; [reflexivity|]. destruct r; reflexivity. Qed.

  (** One call made with no read outstanding. *)
  Lemma call_ok c e h h' r : ok h -> do_call conf c e h = (h', r) ->
    (forall o l, c = Recv o l -> r = Raised -> c_async (conf o) = false) ->
    (r <> Waiting -> ok h') /\
    exists new, h_log h' = h_log h ++ new /\
    ((forall o l, c = Recv o l -> c_async (conf o) = false -> en_status e <> Completed -> en_bytes e = []) ->
     forall o, delivered o new = received o [(c, r)]).
  Proof.
    intros H E HU. destruct c as [o data|o l]; cbn [do_call] in E.
    - unfold send in E. destruct (c_async (conf o)); cbn [negb] in E.
      + destruct (is_bytes data); cbn [negb] in E; injection E as <- <-.
        * split.
          -- intros _. destruct H as [H1 H2]. constructor; cbn.
             ++ rewrite filter_app, H1. reflexivity.
             ++ apply Forall_app. split; [|constructor; [cbn; lia|constructor]]. eapply Forall_impl; [|exact H2]. cbn. intros. lia.
          -- exists []. rewrite app_nil_r. split; [reflexivity|]. intros _ p. now rewrite received_1.
        * split; [intros _; destruct H; constructor; auto|]. exists []. rewrite app_nil_r. split; [reflexivity|]. intros _ p. now rewrite received_1.
      + destruct (is_bytes data); cbn [negb] in E; injection E as <- <-.
        * destruct (sync_ok h o (out_addr conf o) (Out_ data) e H) as (A1 & x & A2 & _ & A3 & _ & n & A4 & A5). cbv zeta in *.
          split; [auto|]. eexists. split; [exact A4|]. intros _ p. rewrite delivered_app, (filter_obj p n A5), delivered_1, received_1.
          unfold xin. rewrite A3. reflexivity.
        * split; [auto|]. exists []. rewrite app_nil_r. split; [reflexivity|]. intros _ p. now rewrite received_1.
    - destruct (c_async (conf o)) eqn:HA.
      + destruct (recv_async o l e h h' r H HA E) as (_ & n & A2 & A3). cbv zeta in *.
        destruct A3 as [->|[(-> & _ & A3)|(st & d & -> & A3 & A4)]].
        * specialize (HU o l eq_refl eq_refl). congruence.
        * split; [congruence|]. exists n. split; [auto|]. intros _ p. now rewrite filter_obj, received_1.
        * split; [auto|]. exists n. split; [auto|]. intros _ p. rewrite delivered_in, A4, delivered_1, received_1. reflexivity.
      + unfold recv in E. rewrite HA in E. cbn [negb] in E. fold (asked_len o l) in E.
        destruct (sync_ok h o (in_addr conf o) (In_ (asked_len o l)) e H) as (A1 & x & A2 & _ & A3 & _ & n & A4 & A5). cbv zeta in *.
        injection E as <- <-. split; [auto|]. eexists. split; [exact A4|]. intros HC p.
        rewrite delivered_app, (filter_obj p n A5), delivered_1, received_1. unfold xin. rewrite A3, A2. cbn.
        specialize (HC o l eq_refl HA). destruct (en_status e); [reflexivity|rewrite HC by discriminate|rewrite HC by discriminate]; destruct (Nat.eqb o p); reflexivity.
  Qed.

  Lemma run_ok : forall prog h h' xs, ok h -> run conf prog h = (h', xs) -> uninterrupted conf xs ->
    ((forall cx, In cx xs -> snd cx <> Waiting) -> ok h') /\
    exists new, h_log h' = h_log h ++ new /\ (clean_timeouts conf prog -> forall o, delivered o new = received o xs).
  Proof.
    induction prog as [|[c e] prog IH]; intros h h' xs H E HU; cbn [run] in E.
    - injection E as <- <-. split; [auto|]. exists []. rewrite app_nil_r. auto.
    - destruct (do_call conf c e h) as [h1 r] eqn:E1.
      assert (CU : forall o l, c = Recv o l -> r = Raised -> c_async (conf o) = false).
      { intros o l -> ->. apply (HU o l). destruct (run conf prog h1). injection E as _ <-. now left. }
      destruct (call_ok c e h h1 r H E1 CU) as (A1 & n1 & A2 & A3).
      assert (D : r = Waiting \/ r <> Waiting) by (destruct r; auto; right; discriminate). destruct D as [D|D].
      + subst r. injection E as <- <-. split.
        * intros HW. exfalso. apply (HW (c, Waiting)); [now left|reflexivity].
        * exists n1. split; [auto|]. intros HC o. apply A3. intros o' l' ->. apply (HC o' l' e). now left.
      + destruct (run conf prog h1) as [h2 xs2] eqn:E2.
        assert (E' : (h2, (c, r) :: xs2) = (h', xs)) by (destruct r; [exact E..|congruence]). injection E' as <- <-.
        destruct (IH h1 h2 xs2 (A1 D) E2) as (B1 & n2 & B2 & B3).
        { intros o l HI. apply (HU o l). now right. }
        split; [intros HW; apply B1; intros cx Hcx; apply HW; now right|].
        exists (n1 ++ n2). rewrite app_assoc, <- A2. split; [auto|]. intros HC o.
        rewrite delivered_app, received_cons, A3, B3; [reflexivity| |].
        * intros o' l' e' HI. apply (HC o' l' e'). now right.
        * intros o' l' ->. apply (HC o' l' e). now left.
  Qed.
  Lemma ok0 : ok host0.
  Proof. constructor; cbn; constructor. Qed.

  (** Asked transfers. *)
  Lemma finish_asked ds : forall h, h_asked (finish_all h ds) = h_asked h.
  Proof.
    induction ds as [|d ds IH]; intros h; [reflexivity|]. change (finish_all h (d :: ds)) with (finish_all (finish h d) ds).
    rewrite IH. unfold finish. destruct (find _ _); reflexivity.
  Qed.
  Lemma wait_asked o evs : forall h, h_asked (fst (wait o evs h)) = h_asked h.
  Proof.
    induction evs as [|e evs IH]; intros h; cbn; destruct (a_rbusy _); try reflexivity.
    destruct (ev_raise e); [apply finish_asked|]. rewrite IH. apply finish_asked.
  Qed.
  Lemma outgoing_app o a b : outgoing o (a ++ b) = outgoing o a ++ outgoing o b.
  Proof. unfold outgoing. now rewrite map_app, concat_app. Qed.
  Lemma call_asked c e h o : outgoing o (h_asked (fst (do_call conf c e h))) =
    outgoing o (h_asked h) ++ map (fun d => (out_addr conf o, d)) (sends o [(c, snd (do_call conf c e h))]).
  Proof.
    destruct c as [p data|p l]; cbn [do_call].
    - unfold send, sends. cbn [map fst concat]. rewrite <- is_bytes_spec. destruct (c_async (conf p)); cbn [negb].
      + destruct (is_bytes data); cbn [negb fst].
        * rewrite andb_true_r. cbn [submit h_asked set_attr]. rewrite outgoing_app. f_equal. unfold outgoing. cbn.
          destruct (Nat.eqb_spec p o) as [->|]; reflexivity.
        * rewrite andb_false_r. cbn. now rewrite app_nil_r.
      + destruct (is_bytes data); cbn [negb fst].
        * rewrite andb_true_r. cbn [sync_transfer h_asked]. rewrite outgoing_app, finish_asked. f_equal. unfold outgoing. cbn.
          destruct (Nat.eqb_spec p o) as [->|]; reflexivity.
        * rewrite andb_false_r. cbn. now rewrite app_nil_r.
    - unfold sends. cbn [map fst concat app]. rewrite app_nil_r. unfold recv. destruct (c_async (conf p)); cbn [negb].
      + rewrite wait_asked. cbn [submit h_asked set_attr]. rewrite outgoing_app. cbn. now rewrite app_nil_r.
      + cbn [fst sync_transfer h_asked]. rewrite outgoing_app, finish_asked. cbn. now rewrite app_nil_r.
  Qed.
  Lemma run_asked o : forall prog h, outgoing o (h_asked (fst (run conf prog h))) =
    outgoing o (h_asked h) ++ map (fun d => (out_addr conf o, d)) (sends o (snd (run conf prog h))).
  Proof.
    induction prog as [|[c e] prog IH]; intros h; cbn [run]; [cbn; now rewrite app_nil_r|].
    pose proof (call_asked c e h o) as H. destruct (do_call conf c e h) as [h1 r]. cbn [fst snd] in H.
    assert (D : r = Waiting \/ r <> Waiting) by (destruct r; auto; right; discriminate). destruct D as [->|D]; [exact H|].
    specialize (IH h1). destruct (run conf prog h1) as [h2 xs]. cbn [fst snd] in IH.
    replace (match r with Waiting => (h1, [(c, r)]) | _ => (h2, (c, r) :: xs) end) with (h2, (c, r) :: xs) by (destruct r; congruence).
    cbn [fst snd]. rewrite IH, H, <- app_assoc, <- map_app. f_equal. f_equal. unfold sends. cbn. now rewrite app_nil_r.
  Qed.
End Props.

(** C118: a recv on an asynchronous endpoint, after any calls none of which is still
    waiting or was an interrupted recv, asks for one IN transfer; if it returns, that
    transfer has ended and the result is exactly what it delivered; while it waits, it has
    not ended.  No other IN transfer ended meanwhile, whatever else did. *)
Theorem C118_recv_own_transfer : forall conf prog h xs o len e h' r,
  run conf prog host0 = (h, xs) -> uninterrupted conf xs -> (forall cx, In cx xs -> snd cx <> Waiting) ->
  c_async (conf o) = true ->
  do_call conf (Recv o len) e h = (h', r) ->
  exists id new,
    let x := Xfr id o (Z.lor (c_num (conf o)) 128) (In_ (match len with None => c_size (conf o) | Some l => l end)) in
    h_asked h' = h_asked h ++ [x] /\ h_log h' = h_log h ++ new /\
    match r with
    | Data d => exists st, filter is_in new = [Moved x st d]
    | Waiting => filter is_in new = []
    | Raised => exists ev, In ev (en_events e) /\ ev_raise ev = true
    | Done => False
    end.
Proof.
  intros conf prog h xs o len e h' r ER HU HW HA E.
  destruct (run_ok conf prog host0 h xs ok0 ER HU) as (HO & _). specialize (HO HW).
  pose proof (recv_async conf o len e h h' r HO HA E) as (A1 & n & A2 & A3).
  exists (h_next h), n. cbv zeta. split; [exact A1|]. split; [exact A2|].
  destruct A3 as [->|[(-> & _ & A3)|(st & d & -> & A3 & A4)]]; [|exact A3|exists st; exact A4].
  cbn [do_call] in E. unfold recv in E. rewrite HA in E. cbn [negb] in E. fold (asked_len conf o len) in E.
  pose proof (reading_start h o (in_addr conf o) (asked_len conf o len) (a_wbusy (h_attr h o)) HO) as HR.
  revert HR E. set (x := Xfr _ _ _ _). set (h1 := submit _ _ _ _). clearbody h1. intros HR.
  assert (HX : xin x = true) by reflexivity. assert (HO' : o = x_obj x) by reflexivity. rewrite HO'. clearbody x. clear - HR HX.
  revert h1 HR. induction (en_events e) as [|ev evs IH]; intros h1 HR; cbn; rewrite (r_busy _ _ HR); [discriminate|].
  destruct (ev_raise ev) eqn:EV; [intros _; exists ev; auto|].
  destruct (finish_all_reading x (ev_ends ev) HX h1 HR) as (_ & _ & n & _ & [[A _]|(st & d & _ & A2 & A3 & _)]).
  - intros E. destruct (IH _ A E) as (ev' & I1 & I2). exists ev'. auto.
  - intros E. rewrite wait_done, A3 in E by auto. discriminate E.
Qed.

(** C118: what is sent: every send of bytes asks for exactly one OUT transfer of these
    bytes to the endpoint's address, in the order of the calls; a send with a value that is
    not a byte asks for none. *)
Theorem C118_send_order : forall conf prog h xs o,
  run conf prog host0 = (h, xs) ->
  outgoing o (h_asked h) = map (fun d => (Z.lor (c_num (conf o)) 0, d)) (sends o xs).
Proof. intros conf prog h xs o E. pose proof (run_asked conf o prog host0) as H. rewrite E in H. exact H. Qed.

(** C118: an exchange of bytes on an asynchronous endpoint asks for an OUT transfer of the
    bytes, then an IN transfer of as many bytes, and returns what that transfer delivered;
    with a value that is not a byte it asks for nothing. *)
Lemma run_snoc conf c e prog : forall h0 h xs, run conf prog h0 = (h, xs) -> (forall cx, In cx xs -> snd cx <> Waiting) ->
  run conf (prog ++ [(c, e)]) h0 = (fst (do_call conf c e h), xs ++ [(c, snd (do_call conf c e h))]).
Proof.
  induction prog as [|[c' e'] prog IH]; intros h0 h xs E HW; cbn [run app] in *.
  - injection E as <- <-. destruct (do_call conf c e h0) as [h' x]. cbn. destruct x; reflexivity.
  - destruct (do_call conf c' e' h0) as [h1 x]. destruct (run conf prog h1) as [h2 xs2] eqn:ER.
    assert (HX : x <> Waiting) by (destruct x; injection E as _ <-; try discriminate; exact (HW (c', Waiting) (or_introl eq_refl))).
    assert (E2 : h2 = h /\ xs = (c', x) :: xs2) by (destruct x; try congruence; injection E as <- <-; auto). destruct E2 as [-> ->].
    rewrite (IH h1 h xs2 ER) by (intros cx HC; apply HW; now right). destruct x; try congruence; reflexivity.
Qed.
Theorem C118_exchange : forall conf prog h xs o data e e' h' r,
  run conf prog host0 = (h, xs) -> uninterrupted conf xs -> (forall cx, In cx xs -> snd cx <> Waiting) ->
  c_async (conf o) = true ->
  exchange conf o data e e' h = (h', r) ->
  if all_bytes data then
    exists id id' new,
      let x := Xfr id o (Z.lor (c_num (conf o)) 0) (Out_ data) in
      let y := Xfr id' o (Z.lor (c_num (conf o)) 128) (In_ (Z.of_nat (length data))) in
      h_asked h' = h_asked h ++ [x; y] /\ h_log h' = h_log h ++ new /\
      match r with
      | Data d => exists st, filter is_in new = [Moved y st d]
      | Waiting => filter is_in new = []
      | Raised => exists ev, In ev (en_events e') /\ ev_raise ev = true
      | Done => False
      end
  else r = Raised /\ h_asked h' = h_asked h /\ h_log h' = h_log h.
Proof.
  intros conf prog h xs o data e e' h' r ER HU HW HA E. rewrite <- is_bytes_spec. unfold exchange in E.
  pose proof (run_snoc conf (Send o data) e prog _ _ _ ER HW) as ER'. cbn [do_call] in ER'.
  unfold send in E, ER'. rewrite HA in E, ER'. cbn [negb] in E, ER'. destruct (is_bytes data); cbn [negb fst snd] in E, ER'.
  2: { injection E as <- <-. auto. }
  match type of ER' with _ = (?a, _) => set (h1 := a) in * end.
  assert (HU' : uninterrupted conf (xs ++ [(Send o data, Done)])) by (intros p l H; apply in_app_or in H; destruct H as [H|[H|[]]]; [exact (HU p l H)|discriminate H]).
  assert (HW' : forall cx, In cx (xs ++ [(Send o data, Done)]) -> snd cx <> Waiting) by (intros cx H; apply in_app_or in H; destruct H as [H|[<-|[]]]; [exact (HW cx H)|discriminate]).
  destruct (C118_recv_own_transfer conf _ h1 _ o (Some (Z.of_nat (length data))) e' h' r ER' HU' HW' HA E) as (id & new & K1 & K2 & K3).
  exists (h_next h), id, new. cbv zeta. split; [rewrite K1; unfold h1; cbn; now rewrite <- app_assoc|]. split; [exact K2|exact K3].
Qed.

(** C119, what does hold: if no asynchronous recv was interrupted, and no synchronous one
    failed or timed out with bytes in hand, the bytes returned by the calls of recv on an
    endpoint are the bytes the device delivered for it, in order. *)
Theorem C119_bytes_partial : forall conf prog h xs o,
  run conf prog host0 = (h, xs) -> uninterrupted conf xs -> clean_timeouts conf prog ->
  received o xs = delivered o (h_log h).
Proof.
  intros conf prog h xs o E HU HC. destruct (run_ok conf prog host0 h xs ok0 E HU) as (_ & n & H1 & H2).
  rewrite H1. cbn [host0 h_log app]. symmetry. now apply H2.
Qed.

(** C119 is false in general.  A synchronous recv that times out drops the bytes it got. *)
Definition sync_conf : nat -> ep_conf := fun _ => EpConf 1 512 false.
Definition async_conf : nat -> ep_conf := fun o => EpConf (Z.of_nat o + 1) 512 true.
Theorem C119_sync_timeout_refuted :
  exists prog h xs, run sync_conf prog host0 = (h, xs) /\
    delivered 0 (h_log h) = [1; 2; 3; 4] /\ received 0 xs = [3; 4] /\ (forall cx, In cx xs -> snd cx <> Raised).
Proof.
  exists [(Recv 0 None, Env [] TimedOut [1; 2]); (Recv 0 None, Env [] Completed [3; 4])].
  eexists. eexists. split; [reflexivity|]. split; [reflexivity|]. split; [reflexivity|].
  cbn. intros cx [<-|[<-|[]]]; discriminate.
Qed.

(** After an interrupted asynchronous recv its transfer goes on: the next recv returns the
    bytes of the earlier transfer, or, when both end together, those are lost. *)
Theorem C119_interrupted_refuted :
  (exists prog h xs, run async_conf prog host0 = (h, xs) /\
     snd (last xs (Send 0 [], Done)) = Data [1; 2] /\ map m_bytes (h_log h) = [[1; 2]] /\
     map x_id (map m_xfr (h_log h)) = [0%nat] /\ map x_id (h_asked h) = [0%nat; 1%nat]) /\
  (exists prog h xs, run async_conf prog host0 = (h, xs) /\
     delivered 0 (h_log h) = [1; 2; 3; 4] /\ received 0 xs = [3; 4]).
Proof.
  split.
  - exists [(Recv 0 None, Env [Events [] true] Completed []); (Recv 0 None, Env [Events [Ending 0 Completed [1; 2]] false] Completed [])].
    eexists. eexists. split; [reflexivity|]. repeat split; reflexivity.
  - exists [(Recv 0 None, Env [Events [] true] Completed []);
            (Recv 0 None, Env [Events [Ending 0 Completed [1; 2]; Ending 1 Completed [3; 4]] false] Completed [])].
    eexists. eexists. split; [reflexivity|]. repeat split; reflexivity.
Qed.

(** C120 is false of asynchronous endpoints: a transfer that fails (the device is gone)
    makes recv return no bytes, without an exception, and a send that fails is not
    reported at all. *)
Theorem C120_errors_refuted :
  exists prog h xs, run async_conf prog host0 = (h, xs) /\
    map m_status (h_log h) = [Failed; Failed] /\ map snd xs = [Done; Data []].
Proof.
  exists [(Send 0 [7], Env [] Completed []); (Recv 0 None, Env [Events [Ending 0 Failed []; Ending 1 Failed []] false] Completed [])].
  eexists. eexists. split; [reflexivity|]. split; reflexivity.
Qed.

(** What does hold: on a synchronous endpoint a send succeeds exactly when its transfer
    did; a recv raises an exception exactly when its transfer failed, and returns nothing
    when it timed out. *)
Theorem C120_sync_errors_partial : forall conf o data len e h,
  c_async (conf o) = false -> Forall (fun x => 0 <= x < 256) data ->
  (snd (do_call conf (Send o data) e h) = Done <-> en_status e = Completed) /\
  (snd (do_call conf (Send o data) e h) = Raised <-> en_status e <> Completed) /\
  (snd (do_call conf (Recv o len) e h) = Raised <-> en_status e = Failed) /\
  (en_status e = Completed -> snd (do_call conf (Recv o len) e h) = Data (en_bytes e)) /\
  (en_status e = TimedOut -> snd (do_call conf (Recv o len) e h) = Data []).
Proof.
  intros conf o data len e h HA HB'. assert (HB : is_bytes data = true).
  { unfold is_bytes. apply forallb_forall. intros x HX. pose proof (proj1 (Forall_forall _ _) HB' x HX) as B. cbn in B. apply andb_true_iff. lia. }
  clear HB'. cbn [do_call]. unfold send, recv. rewrite HA, HB. cbn [negb snd].
  destruct (en_status e); intuition (try discriminate; try congruence).
Qed.

(** Two endpoints: a send, a recv during which the send ends, a recv on the other endpoint
    whose events also end nothing else, and a recv still waiting. *)
Definition ep_prog : list (call * env) :=
  [(Send 0 [1; 2], Env [] Completed []); (Send 0 [3; 300], Env [] Completed []); (Send 1 [9], Env [] Completed []);
   (Recv 0 (Some 2), Env [Events [Ending 1 Completed [9]] false; Events [Ending 2 Completed [5]; Ending 0 Completed [1; 2]] false] Completed []);
   (Recv 1 None, Env [Events [] false; Events [Ending 3 Completed [6; 7]] false] Completed []);
   (Recv 0 None, Env [Events [] false] Completed [])].
Example C118_nonvacuous :
  let '(h, xs) := run async_conf ep_prog host0 in
  map snd xs = [Done; Raised; Done; Data [5]; Data [6; 7]; Waiting] /\ uninterrupted async_conf xs /\
  clean_timeouts async_conf ep_prog /\ received 0 xs = [5] /\ sends 0 xs = [[1; 2]] /\
  (forall cx, In cx (firstn 5 xs) -> snd cx <> Waiting).
Proof.
  cbn. split; [reflexivity|]. split.
  - intros o l H. repeat (destruct H as [H|H]; [discriminate H|]). destruct H.
  - split; [intros o l e H; discriminate|]. split; [reflexivity|]. split; [reflexivity|].
    intros cx H. repeat (destruct H as [<-|H]; [discriminate|]). destruct H.
Qed.
(** After the first five of these calls, an exchange. *)
Example C118_nonvacuous_exchange :
  let '(h, xs) := run async_conf (firstn 5 ep_prog) host0 in
  let '(h', r) := exchange async_conf 0 [1; 2; 3] (Env [] Completed []) (Env [Events [Ending 4 Completed []] false; Events [Ending 5 Completed [8; 8]] false] Completed []) h in
  length xs = 5%nat /\ all_bytes [1; 2; 3] = true /\ r = Data [8; 8].
Proof. vm_compute. auto. Qed.
Definition C119_nonvacuous := C118_nonvacuous.

(** A synchronous endpoint: a transfer that completes, one that fails, one that times out. *)
Example C120_nonvacuous :
  let d o e := snd (do_call sync_conf o e host0) in
  d (Send 0 [1; 2]) (Env [] Completed []) = Done /\ d (Send 0 [1; 2]) (Env [] TimedOut []) = Raised /\
  d (Recv 0 None) (Env [] Completed [7; 8]) = Data [7; 8] /\ d (Recv 0 None) (Env [] TimedOut []) = Data [] /\ d (Recv 0 None) (Env [] Failed []) = Raised.
Proof. repeat split. Qed.

Print Assumptions C118_recv_own_transfer.
Print Assumptions C118_send_order.
Print Assumptions C118_exchange.
Print Assumptions C119_bytes_partial.
Print Assumptions C119_sync_timeout_refuted.
Print Assumptions C119_interrupted_refuted.
Print Assumptions C120_errors_refuted.
Print Assumptions C120_sync_errors_partial.
