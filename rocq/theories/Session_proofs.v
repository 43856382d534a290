(** Proofs about programs that use I2CBus over the bridge (C148). *)
From Verif Require Import Stream Bits I2c_model I2cstream_model I2cstream_spec I2cproto_model I2cproto_spec I2cbus_model I2cbus_props
  Serial_model Bridge_model Bridge_spec Bridge_proofs Session_spec.
From Coq Require Import Lia.

(** ** Events at the UART. *)
Inductive ev := Sent (b : Z) | Got (a : beat Z).
Definition host_ev (st : host * list exchange) (e : ev) := match e with Sent b => host_sent st b | Got a => host_got st a end.
Definition evs_view := fold_left host_ev.
Definition sent_of (l : list ev) : list Z := flat_map (fun e => match e with Sent b => [b] | Got _ => [] end) l.
Definition got_of (l : list ev) : list (beat Z) := flat_map (fun e => match e with Sent _ => [] | Got a => [a] end) l.
Lemma sent_app a b : sent_of (a ++ b) = sent_of a ++ sent_of b. Proof. apply flat_map_app. Qed.
Lemma got_app a b : got_of (a ++ b) = got_of a ++ got_of b. Proof. apply flat_map_app. Qed.
Lemma sent_map l : sent_of (map Sent l) = l. Proof. induction l as [|x l IH]; [reflexivity|]. change (x :: sent_of (map Sent l) = x :: l). now rewrite IH. Qed.
Lemma got_map l : got_of (map Sent l) = []. Proof. induction l; cbn; auto. Qed.
Lemma sent_gots l : sent_of (map Got l) = []. Proof. induction l; cbn; auto. Qed.
Lemma got_gots l : got_of (map Got l) = l. Proof. induction l as [|x l IH]; [reflexivity|]. change (x :: got_of (map Got l) = x :: l). now rewrite IH. Qed.
Lemma view_sents l : forall st, evs_view (map Sent l) st = sents l st. Proof. induction l; cbn; auto. Qed.
Lemma view_app a b st : evs_view (a ++ b) st = evs_view b (evs_view a st). Proof. apply fold_left_app. Qed.
Lemma ev_lost e st : fst st = HLost -> fst (host_ev st e) = HLost.
Proof. destruct st as [h g]. cbn. intros ->. destruct e; reflexivity. Qed.
Lemma view_lost l : forall st, fst st = HLost -> fst (evs_view l st) = HLost.
Proof. induction l as [|e l IH]; intros st H; cbn; auto. apply IH, ev_lost, H. Qed.

Definition in_time_for (f : host) (fut : list Z) : Prop :=
  fut <> [] -> match f with HIdle | HData _ _ _ => True | HHeader h => is_read h = true -> hd 0 fut <> 0 | _ => False end.

Lemma header_state l : forall st h, fst (sents l st) = HHeader h -> (fst st = HIdle \/ fst st = HHeader h /\ l = []).
Proof.
  induction l as [|x l IH]; intros [s g] h H; [right; auto|]. cbn in H. apply IH in H. destruct H as [H|[H ->]].
  - exfalso. apply (f_equal (fun z => z)) in H. cbn in H. destruct s; cbn in H; try discriminate.
    + destruct (is_read h0); [discriminate|]. destruct (x =? 0); discriminate.
    + destruct (left =? 1); discriminate.
  - left. cbn in H. destruct s; cbn in H; try discriminate; auto.
    + destruct (is_read h0); [discriminate|]. destruct (x =? 0); discriminate.
    + destruct (left =? 1); discriminate.
Qed.
Lemma header_idle l g h : fst (sents l (HIdle, g)) = HHeader h -> l = [h].
Proof.
  destruct l as [|x l]; [discriminate|]. cbn. intros H. pose proof (header_state _ _ _ H) as [E|[E ->]]; [discriminate|]. cbn in E. congruence.
Qed.

(** While a request is being sent nothing else can happen. *)
Lemma phase buf : forall st evs, fst (sents buf st) <> HLost -> fst (evs_view evs st) <> HLost ->
  (forall e1 b e2, evs = e1 ++ Sent b :: e2 -> got_of e1 = [] -> exists later, sent_of e1 ++ b :: later = buf) ->
  (exists fut, fut <> [] /\ evs = map Sent (sent_of evs) /\ buf = sent_of evs ++ fut) \/
  exists rest, evs = map Sent buf ++ rest /\ (rest = [] \/ exists a r, rest = Got a :: r).
Proof.
  induction buf as [|x buf IH]; intros st evs HB HL HC.
  - right. exists evs. split; [reflexivity|]. destruct evs as [|[b|a] r]; eauto. exfalso. destruct (HC [] b r eq_refl eq_refl) as (z & E). discriminate.
  - destruct evs as [|[b|a] evs].
    + left. exists (x :: buf). cbn. repeat split; auto. discriminate.
    + destruct (HC [] b evs eq_refl eq_refl) as (z & E). cbn in E. injection E as -> ->.
      destruct (IH (host_sent st x) evs) as [(fut & F1 & F2 & F3)|(rest & R1 & R2)]; auto.
      * intros e1 b e2 E1 E2. destruct (HC (Sent x :: e1) b e2) as (z & E); [cbn; congruence|exact E2|]. exists z. cbn in E. injection E as E. exact E.
      * left. exists fut. change (sent_of (Sent x :: evs)) with (x :: sent_of evs). cbn [map app]. repeat split; auto; congruence.
      * right. exists rest. split; [cbn; congruence|auto].
    + exfalso. apply HL. apply (view_lost evs). cbn [evs_view fold_left host_ev] in *.
      assert (S : sending (fst st)) by (apply (sents_sending (x :: buf)); [discriminate|exact HB]). destruct st as [s g]. destruct s; cbn in *; auto; contradiction.
Qed.
Lemma phase_open buf g fut evs : fst (sents buf (HIdle, g)) <> HLost -> (match buf with h :: n :: _ => is_read h = true -> n <> 0 | _ => False end) ->
  fut <> [] -> evs = map Sent (sent_of evs) -> buf = sent_of evs ++ fut -> in_time_for (fst (evs_view evs (HIdle, g))) fut.
Proof.
  intros HB HN HF HE E _. rewrite HE, view_sents. rewrite E, sents_app in HB. pose proof (sents_sending fut _ HF HB) as S.
  destruct (fst (sents (sent_of evs) (HIdle, g))) eqn:F; auto. apply header_idle in F. rewrite F in E. subst buf. cbn in HN. destruct fut; [congruence|exact HN].
Qed.

(** ** Calls, equation by equation. *)
Definition wr_buf (width a g : Z) (d : list Z) : list Z := 2 * a :: Z.of_nat (length (reg_bytes width g ++ d)) :: reg_bytes width g ++ d.
Lemma request_buf buf input : Forall is_byte buf ->
  request buf input = match input with [] => Call [buf] [] (inr IndexError) | s :: r => Call [buf] r (inl (s =? 0)) end.
Proof. intros H. unfold request. rewrite bytearray_ok by exact H. reflexivity. Qed.
Lemma wr_bytes width a g d : 0 <= width -> 0 <= a < 128 -> Forall is_byte d -> width / 8 + Z.of_nat (length d) < 256 ->
  Forall is_byte (wr_buf width a g d) /\ width / 8 + Z.of_nat (length d) = Z.of_nat (length (reg_bytes width g ++ d)).
Proof.
  intros HW HA HD HF. pose proof (Z.div_pos width 8 HW ltac:(lia)).
  assert (EL : width / 8 + Z.of_nat (length d) = Z.of_nat (length (reg_bytes width g ++ d))) by (rewrite app_length; unfold reg_bytes; rewrite big_endian_length; lia).
  split; [|exact EL]. constructor; [unfold is_byte; lia|]. constructor; [unfold is_byte; lia|]. apply Forall_app. split; auto. apply big_endian_bytes.
Qed.
Lemma so_far_write width a g d input : 0 <= width -> call_ok width (WriteBlock a g d) ->
  call_so_far width (WriteBlock a g d) input =
    (wr_buf width a g d, match input with [] => None | s :: r => Some (Written (if s =? 0 then Some (Z.of_nat (length d)) else None), r) end).
Proof.
  intros HW (HA & HD & HF). destruct (wr_bytes width a g d HW HA HD HF) as [B L]. unfold call_so_far, write_block_data.
  rewrite hdr_write, reg_array_big_endian, L. change (big_endian _ g) with (reg_bytes width g). fold (wr_buf width a g d). rewrite request_buf by exact B.
  destruct input as [|s r]; cbn; rewrite app_nil_r; [reflexivity|]. destruct (s =? 0); reflexivity.
Qed.
Lemma so_far_probe width a input : 0 <= a < 128 ->
  call_so_far width (Probe a) input = ([2 * a; 0], match input with [] => None | s :: r => Some (Present (s =? 0), r) end).
Proof.
  intros HA. unfold call_so_far, discover_loop. rewrite hdr_write, request_buf by (repeat constructor; unfold is_byte; lia).
  destruct input as [|s r]; cbn; [reflexivity|]. destruct (s =? 0); reflexivity.
Qed.
Lemma so_far_read width a g n input : 0 <= width -> call_ok width (ReadBlock a g n) ->
  call_so_far width (ReadBlock a g n) input =
    match input with
    | [] => (wr_buf width a g [], None)
    | s :: r =>
        if s =? 0 then
          (wr_buf width a g [] ++ [2 * a + 1; n],
           match r with
           | [] => None
           | s2 :: q =>
               if s2 =? 0 then if Z.of_nat (length (firstn (Z.to_nat n) q)) =? n then Some (Block (Some (firstn (Z.to_nat n) q)), skipn (Z.to_nat n) q) else None
               else Some (Block None, q)
           end)
        else (wr_buf width a g [], Some (Block None, r))
    end.
Proof.
  intros HW (HA & HF & HN). destruct (wr_bytes width a g [] HW HA (Forall_nil _) ltac:(cbn; lia)) as [B L]. cbn [length] in L. rewrite Z.add_0_r in L.
  unfold call_so_far, read_block_data. rewrite hdr_write, hdr_read, reg_array_big_endian. change (big_endian _ g) with (reg_bytes width g). rewrite L.
  replace (2 * a :: Z.of_nat (length (reg_bytes width g ++ [])) :: reg_bytes width g) with (wr_buf width a g []) by (unfold wr_buf; now rewrite !app_nil_r).
  rewrite (request_buf (wr_buf width a g [])) by exact B.
  destruct input as [|s r]; cbn [c_result c_written c_left concat fst snd]; [now rewrite app_nil_r|]. destruct (s =? 0); cbn [c_result c_written c_left concat fst snd]; [|now rewrite app_nil_r].
  rewrite request_buf by (repeat constructor; unfold is_byte; lia).
  destruct r as [|s2 q]; cbn [c_result c_written c_left concat fst snd app]; [reflexivity|].
  destruct (s2 =? 0); cbn [c_result c_written c_left concat fst snd app]; reflexivity.
Qed.
Lemma wr_sents width a g d log : sents (wr_buf width a g d) (HIdle, log) = (HStatusW (2 * a) (reg_bytes width g ++ d), log).
Proof. apply (sends_write a (reg_bytes width g ++ d) log). Qed.
Lemma even_header a : is_read (2 * a) = false. Proof. unfold is_read. now rewrite Z.odd_mul. Qed.
Lemma odd_header a : is_read (2 * a + 1) = true. Proof. unfold is_read. now rewrite Z.add_comm, Z.odd_add, Z.odd_mul. Qed.

(** ** What a call tells about the exchanges. *)
Inductive told (width : Z) : bus_call -> bus_result -> list exchange -> Prop :=
  | told_write a g d x : told width (WriteBlock a g d) (Written (if bdata x =? 0 then Some (Z.of_nat (length d)) else None)) [Wrote (2 * a) (reg_bytes width g ++ d) [x]]
  | told_probe a x : told width (Probe a) (Present (bdata x =? 0)) [Wrote (2 * a) [] [x]]
  | told_read0 a g n x : bdata x <> 0 -> told width (ReadBlock a g n) (Block None) [Wrote (2 * a) (reg_bytes width g) [x]]
  | told_read1 a g n x y : bdata x = 0 -> bdata y <> 0 -> told width (ReadBlock a g n) (Block None) [Wrote (2 * a) (reg_bytes width g) [x]; Asked (2 * a + 1) n [y]]
  | told_read2 a g n x y l : bdata x = 0 -> bdata y = 0 -> told width (ReadBlock a g n) (Block (Some (map bdata l))) [Wrote (2 * a) (reg_bytes width g) [x]; Asked (2 * a + 1) n (y :: l)].

Definition causal (width : Z) (p : program) (evs : list ev) : Prop :=
  forall e1 b e2, evs = e1 ++ Sent b :: e2 -> exists later, sent_of e1 ++ b :: later = written width p (map bdata (got_of e1)).

(** The host waits for the bridge. *)
Definition waiting (h : host) : Prop := match h with HStatusW _ _ | HStatusR _ _ | HBytes _ _ _ _ => True | _ => False end.
(** What the host has of an answer that has not all come. *)
Definition partial_answer (h : host) : list (beat Z) := match h with HBytes _ _ got _ => got | _ => [] end.
(** The claim for a program that starts when the host is idle. *)
Definition session_at (width : Z) (p : program) (evs : list ev) (log0 : list exchange) : Prop :=
  exists groups cur fut,
    snd (evs_view evs (HIdle, log0)) = log0 ++ concat groups ++ cur /\
    Forall2 (fun h g => told width (fst h) (snd h) g) (history width p (map bdata (got_of evs))) groups /\
    written width p (map bdata (got_of evs)) = sent_of evs ++ fut /\
    in_time_for (fst (evs_view evs (HIdle, log0))) fut /\
    (ended width p (map bdata (got_of evs)) = true -> cur = [] /\ fst (evs_view evs (HIdle, log0)) = HIdle) /\
    (ended width p (map bdata (got_of evs)) = false -> fut = [] -> waiting (fst (evs_view evs (HIdle, log0)))) /\
    (cur = [] \/ exists h d x, cur = [Wrote h d [x]]) /\
    (cur = [] -> partial_answer (fst (evs_view evs (HIdle, log0))) = []).

(** The bytes of a read. *)
Lemma bytes_phase h n l : forall got log evs, 1 <= l ->
  fst (evs_view evs (HBytes h n got l, log)) <> HLost ->
  (forall e1 b e2, evs = e1 ++ Sent b :: e2 -> Z.of_nat (length (got_of e1)) < l -> False) ->
  (exists bs, evs = map Got bs /\ Z.of_nat (length bs) < l /\ snd (evs_view evs (HBytes h n got l, log)) = log /\ waiting (fst (evs_view evs (HBytes h n got l, log)))) \/
  exists bs rest, evs = map Got bs ++ rest /\ Z.of_nat (length bs) = l /\ evs_view evs (HBytes h n got l, log) = evs_view rest (HIdle, log ++ [Asked h n (got ++ bs)]).
Proof.
  intros got log evs. revert l got. induction evs as [|[b|a] evs IH]; intros l got H1 HL HC.
  - left. exists []. cbn. repeat split; auto; lia.
  - exfalso. apply (HC [] b evs eq_refl). cbn. lia.
  - cbn [evs_view fold_left host_ev host_got] in HL |- *. destruct (Z.eqb_spec l 1) as [->|N].
    + right. exists [a], evs. cbn. auto.
    + destruct (IH (l - 1) (got ++ [a])) as [(bs & B1 & B2 & B3 & B4)|(bs & rest & B1 & B2 & B3)]; auto; try lia.
      * intros e1 b e2 E F. apply (HC (Got a :: e1) b e2); [cbn; congruence|]. change (got_of (Got a :: e1)) with (a :: got_of e1). cbn [length]. lia.
      * left. exists (a :: bs). cbn [map length]. split; [congruence|]. split; [lia|]. split; [exact B3|exact B4].
      * right. exists (a :: bs), rest. cbn [map length app]. split; [congruence|]. split; [lia|]. rewrite <- app_assoc in B3. exact B3.
Qed.

(** After the first [e0] events have carried out a call, the rest belongs to the rest of the program. *)
Lemma session_step width c k r e0 evs log0 x :
  (forall m, call_so_far width c (map bdata (got_of e0) ++ m) = (sent_of e0, Some (r, m))) ->
  evs_view e0 (HIdle, log0) = (HIdle, log0 ++ x) -> told width c r x ->
  (causal width (k r) evs -> fst (evs_view evs (HIdle, log0 ++ x)) <> HLost -> session_at width (k r) evs (log0 ++ x)) ->
  causal width (Do c k) (e0 ++ evs) -> fst (evs_view (e0 ++ evs) (HIdle, log0)) <> HLost -> session_at width (Do c k) (e0 ++ evs) log0.
Proof.
  intros HQ HV HT IH HC HL. rewrite view_app, HV in HL. destruct IH as (gs & cur & fut & G1 & G2 & G3 & G4 & G5 & G6 & G7 & G8); auto.
  - intros e1 b e2 E. destruct (HC (e0 ++ e1) b e2) as (later & L); [now rewrite E, app_assoc|]. exists later.
    rewrite sent_app, got_app, map_app in L. cbn [written] in L. rewrite HQ in L. cbn [fst snd] in L. rewrite <- app_assoc in L. apply app_inv_head in L. exact L.
  - exists (x :: gs), cur, fut. rewrite view_app, HV, got_app, sent_app, map_app. cbn [written history ended]. rewrite HQ. cbn [fst snd concat].
    rewrite G1, G3, <- !app_assoc. split; [reflexivity|]. split; [constructor; auto|]. split; [reflexivity|]. split; [exact G4|]. split; [exact G5|]. split; [exact G6|]. split; [exact G7|exact G8].
Qed.
(** The call has not returned. *)
Lemma session_wait width c k evs log0 fut :
  call_so_far width c (map bdata (got_of evs)) = (sent_of evs ++ fut, None) ->
  (exists x, snd (evs_view evs (HIdle, log0)) = log0 ++ x /\ (x = [] /\ partial_answer (fst (evs_view evs (HIdle, log0))) = [] \/ exists h d y, x = [Wrote h d [y]])) ->
  in_time_for (fst (evs_view evs (HIdle, log0))) fut -> (fut = [] -> waiting (fst (evs_view evs (HIdle, log0)))) -> session_at width (Do c k) evs log0.
Proof.
  intros HQ (x & HV & HX) HT HA. exists [], x, fut. cbn [written history ended]. rewrite HQ. cbn [fst snd concat app]. rewrite app_nil_r.
  split; [exact HV|]. split; [constructor|]. split; [reflexivity|]. split; [exact HT|]. split; [discriminate|]. split; [intros _; exact HA|].
  destruct HX as [[-> HX]|(h & d & y & ->)]; [auto|]. split; [right; eauto|discriminate].
Qed.

Lemma wr_not_lost width a g d log : fst (sents (wr_buf width a g d) (HIdle, log)) <> HLost. Proof. rewrite wr_sents. discriminate. Qed.
Lemma sents_snd l st : snd (sents l st) = snd st.
Proof. revert st. induction l as [|x l IH]; intros [h g]; cbn; auto. rewrite IH. reflexivity. Qed.

Lemma sents_partial l g : partial_answer (fst (sents l (HIdle, g))) = [].
Proof.
  assert (G : forall st, partial_answer (fst st) = [] -> partial_answer (fst (sents l st)) = []); [|now apply G].
  induction l as [|x l IH]; intros [h q] H; [exact H|]. cbn [sents fold_left]. apply IH. cbn. destruct h; try reflexivity; [destruct (is_read h); [|destruct (x =? 0)]|destruct (left =? 1)]; reflexivity.
Qed.

(** A call that starts with a write request: it is being sent, or has been sent, or has been answered. *)
Lemma first_request width c k evs log0 a g d :
  (forall input, exists more, fst (call_so_far width c input) = wr_buf width a g d ++ more) ->
  call_so_far width c [] = (wr_buf width a g d, None) ->
  causal width (Do c k) evs -> fst (evs_view evs (HIdle, log0)) <> HLost ->
  session_at width (Do c k) evs log0 \/
  exists x rest, evs = (map Sent (wr_buf width a g d) ++ [Got x]) ++ rest /\
    evs_view (map Sent (wr_buf width a g d) ++ [Got x]) (HIdle, log0) = (HIdle, log0 ++ [Wrote (2 * a) (reg_bytes width g ++ d) [x]]).
Proof.
  intros H1 H0 HC HL. destruct (phase (wr_buf width a g d) (HIdle, log0) evs) as [(fut & F1 & F2 & F3)|(rest & R1 & R2)]; auto.
  - apply wr_not_lost.
  - intros e1 b e2 E G. destruct (HC e1 b e2 E) as (later & L). rewrite G in L. cbn [map written] in L. rewrite H0 in L. cbn [fst snd] in L. rewrite app_nil_r in L. eauto.
  - left. assert (G : got_of evs = []) by (rewrite F2; apply got_map). apply (session_wait width c k evs log0 fut).
    + rewrite G. cbn [map]. rewrite H0, F3. reflexivity.
    + exists []. rewrite F2, view_sents, sents_snd, app_nil_r. split; [reflexivity|left; split; [reflexivity|apply sents_partial]].
    + apply (phase_open (wr_buf width a g d)); auto; [apply wr_not_lost|]. unfold wr_buf. rewrite even_header. discriminate.
    + intros E. congruence.
  - destruct R2 as [->|(x & r & ->)].
    + left. rewrite app_nil_r in R1. subst evs. apply (session_wait width c k _ log0 []).
      * rewrite got_map, sent_map, app_nil_r. exact H0.
      * exists []. rewrite view_sents, sents_snd, app_nil_r. split; [reflexivity|left; split; [reflexivity|apply sents_partial]].
      * intros N. congruence.
      * intros _. rewrite view_sents, wr_sents. exact I.
    + right. exists x, r. rewrite <- app_assoc. split; [exact R1|]. rewrite view_app, view_sents, wr_sents. reflexivity.
Qed.

Lemma session_main width (HW : 0 <= width) p : forall evs log0, program_ok width p -> causal width p evs ->
  fst (evs_view evs (HIdle, log0)) <> HLost -> session_at width p evs log0.
Proof.
  induction p as [|c k IH]; intros evs log0 HP HC HL.
  - destruct evs as [|[b|x] evs].
    + exists [], [], []. cbn. rewrite app_nil_r. repeat split; auto; try (constructor; fail); try discriminate.
    + exfalso. destruct (HC [] b evs eq_refl) as (later & E). discriminate.
    + exfalso. apply HL. apply (view_lost evs). reflexivity.
  - destruct HP as [HO HK]. destruct c as [a g d|a g n|a].
    + pose proof (fun i => so_far_write width a g d i HW HO) as Q.
      destruct (first_request width (WriteBlock a g d) k evs log0 a g d) as [S|(x & rest & E & V)]; auto.
      * intros i. exists []. now rewrite Q, app_nil_r.
      * now rewrite Q.
      * subst evs. eapply session_step with (x := [Wrote (2 * a) (reg_bytes width g ++ d) [x]]) (r := Written (if bdata x =? 0 then Some (Z.of_nat (length d)) else None)); eauto.
        -- intros m. rewrite Q, got_app, got_map, sent_app, sent_map. cbn. now rewrite app_nil_r.
        -- constructor.
    + pose proof (fun i => so_far_read width a g n i HW HO) as Q. destruct HO as (HA & HF & HN).
      destruct (first_request width (ReadBlock a g n) k evs log0 a g []) as [S|(x & rest & E & V)]; auto.
      * intros i. rewrite Q. destruct i as [|s r]; [exists []; now rewrite app_nil_r|]. destruct (s =? 0); [eexists; reflexivity|exists []; now rewrite app_nil_r].
      * now rewrite Q.
      * rewrite app_nil_r in V. set (e0 := map Sent (wr_buf width a g []) ++ [Got x]) in *.
        assert (G0 : got_of e0 = [x]) by (unfold e0; now rewrite got_app, got_map).
        assert (S0 : sent_of e0 = wr_buf width a g []) by (unfold e0; rewrite sent_app, sent_map; apply app_nil_r).
        subst evs. destruct (Z.eq_dec (bdata x) 0) as [X|X].
        2: { eapply session_step with (x := [Wrote (2 * a) (reg_bytes width g) [x]]) (r := Block None); eauto.
             - intros m. rewrite Q, G0, S0. cbn [map app]. rewrite (proj2 (Z.eqb_neq _ _) X). reflexivity.
             - constructor. exact X. }
        (* the register address was accepted: the read request *)
        set (log1 := log0 ++ [Wrote (2 * a) (reg_bytes width g) [x]]) in *.
        assert (HL1 : fst (evs_view rest (HIdle, log1)) <> HLost) by (rewrite view_app, V in HL; exact HL).
        assert (B2 : sents [2 * a + 1; n] (HIdle, log1) = (HStatusR (2 * a + 1) n, log1)) by (cbn [sents fold_left host_sent]; now rewrite odd_header).
        assert (W : forall m, written width (Do (ReadBlock a g n) k) (bdata x :: m) =
          wr_buf width a g [] ++ [2 * a + 1; n] ++ match snd (call_so_far width (ReadBlock a g n) (bdata x :: m)) with Some (r, l) => written width (k r) l | None => [] end).
        { intros m. cbn [written]. rewrite !Q, X. change (0 =? 0) with true. cbn [fst]. now rewrite <- app_assoc. }
        assert (HC1 : forall e1 b e2, rest = e1 ++ Sent b :: e2 -> exists later, sent_of e1 ++ b :: later =
          [2 * a + 1; n] ++ match snd (call_so_far width (ReadBlock a g n) (bdata x :: map bdata (got_of e1))) with Some (r, l) => written width (k r) l | None => [] end).
        { intros e1 b e2 E. destruct (HC (e0 ++ e1) b e2) as (later & L); [now rewrite E, app_assoc|]. exists later.
          rewrite sent_app, got_app, map_app, G0, S0 in L. cbn [map app] in L. rewrite W, <- app_assoc in L. apply app_inv_head in L. exact L. }
        destruct (phase [2 * a + 1; n] (HIdle, log1) rest) as [(fut & F1 & F2 & F3)|(rest2 & R1 & R2)]; auto.
        { rewrite B2. discriminate. }
        { intros e1 b e2 E G. destruct (HC1 e1 b e2 E) as (later & L). rewrite G, Q, X in L. cbn [map snd] in L. change (0 =? 0) with true in L. cbn [snd] in L. rewrite app_nil_r in L. eauto. }
        { assert (G : got_of rest = []) by (rewrite F2; apply got_map). apply (session_wait width _ k _ log0 fut).
          - rewrite got_app, sent_app, G0, S0, G, Q. cbn [map app]. rewrite X. change (0 =? 0) with true. cbv iota. rewrite F3, app_assoc. reflexivity.
          - exists [Wrote (2 * a) (reg_bytes width g) [x]]. split; [|right; eauto]. rewrite view_app, V, F2, view_sents, sents_snd. reflexivity.
          - rewrite view_app, V. apply (phase_open [2 * a + 1; n]); auto; [rewrite B2; discriminate|]. cbn. lia.
          - intros N. congruence. }
        destruct R2 as [->|(y & r & ->)].
        { rewrite app_nil_r in R1. subst rest. apply (session_wait width _ k _ log0 []).
          - rewrite got_app, sent_app, G0, S0, got_map, sent_map, Q. cbn [map app]. rewrite X, (app_nil_r (wr_buf width a g [] ++ [2 * a + 1; n])). reflexivity.
          - exists [Wrote (2 * a) (reg_bytes width g) [x]]. split; [|right; eauto]. rewrite view_app, V, view_sents, sents_snd. reflexivity.
          - intros N. congruence.
          - intros _. rewrite view_app, V, view_sents, B2. exact I. }
        destruct (Z.eq_dec (bdata y) 0) as [Y|Y].
        2: { set (e1 := e0 ++ map Sent [2 * a + 1; n] ++ [Got y]).
             assert (G1 : got_of e1 = [x; y]) by (unfold e1; now rewrite !got_app, G0, got_map).
             assert (S1 : sent_of e1 = wr_buf width a g [] ++ [2 * a + 1; n]) by (unfold e1; now rewrite !sent_app, S0, sent_map, app_nil_r).
             assert (E1 : e0 ++ rest = e1 ++ r) by (unfold e1; rewrite R1, <- !app_assoc; reflexivity). rewrite E1 in *.
             eapply session_step with (x := [Wrote (2 * a) (reg_bytes width g) [x]; Asked (2 * a + 1) n [y]]) (r := Block None); eauto.
             - intros m. rewrite Q, G1, S1. cbn [map app]. rewrite X, (proj2 (Z.eqb_neq _ _) Y). reflexivity.
             - unfold e1. rewrite !view_app, V, view_sents, B2. cbn [evs_view fold_left host_ev host_got]. rewrite (proj2 (Z.eqb_neq _ _) Y). unfold log1. now rewrite <- app_assoc.
             - constructor; auto. }
        (* accepted: the bytes *)
        assert (V2 : evs_view (map Sent [2 * a + 1; n] ++ [Got y]) (HIdle, log1) = (HBytes (2 * a + 1) n [y] n, log1)).
        { rewrite view_app, view_sents, B2. cbn [evs_view fold_left host_ev host_got]. now rewrite Y. }
        assert (R1' : rest = (map Sent [2 * a + 1; n] ++ [Got y]) ++ r) by (rewrite R1, <- app_assoc; reflexivity).
        destruct (bytes_phase (2 * a + 1) n n [y] log1 r) as [(bs & P1 & P2 & P3 & P4)|(bs & rest3 & P1 & P2 & P3)].
        { lia. }
        { rewrite R1', view_app, V2 in HL1. exact HL1. }
        { intros e1 b e2 E F. destruct (HC1 ((map Sent [2 * a + 1; n] ++ [Got y]) ++ e1) b e2) as (later & L); [now rewrite R1', E, app_assoc|].
          rewrite sent_app, !got_app, sent_app, sent_map in L. cbn [got_of flat_map map app] in L. fold got_of in L. rewrite Q, X, Y in L. change (0 =? 0) with true in L. cbn [snd] in L.
          replace (Z.of_nat _ =? n) with false in L; [injection L as L; apply app_eq_nil in L; destruct L; discriminate|].
          symmetry. apply Z.eqb_neq. rewrite firstn_length, map_length. change (flat_map _ e1) with (got_of e1). lia. }
        { apply (session_wait width _ k _ log0 []).
          - rewrite R1', P1, !got_app, !sent_app, G0, S0, got_map, sent_map, got_gots, sent_gots, Q, !app_nil_r. cbn [map app got_of sent_of flat_map]. rewrite X, Y. change (0 =? 0) with true. cbv iota.
            f_equal. replace (Z.of_nat _ =? n) with false; [reflexivity|]. symmetry. apply Z.eqb_neq. rewrite firstn_length, map_length. lia.
          - exists [Wrote (2 * a) (reg_bytes width g) [x]]. split; [|right; eauto]. rewrite view_app, V, R1', view_app, V2. exact P3.
          - intros N. congruence.
          - intros _. rewrite view_app, V, R1', view_app, V2. exact P4. }
        { set (e1 := e0 ++ (map Sent [2 * a + 1; n] ++ [Got y]) ++ map Got bs).
          assert (G1 : got_of e1 = x :: y :: bs) by (unfold e1; now rewrite !got_app, G0, got_map, got_gots).
          assert (S1 : sent_of e1 = wr_buf width a g [] ++ [2 * a + 1; n]) by (unfold e1; now rewrite !sent_app, S0, sent_map, sent_gots, !app_nil_r).
          assert (E1 : e0 ++ rest = e1 ++ rest3) by (unfold e1; rewrite R1', P1, <- !app_assoc; reflexivity). rewrite E1 in *.
          eapply session_step with (x := [Wrote (2 * a) (reg_bytes width g) [x]; Asked (2 * a + 1) n (y :: bs)]) (r := Block (Some (map bdata bs))); eauto.
          - intros m. rewrite Q, G1, S1. cbn [map app]. rewrite X, Y. change (0 =? 0) with true. cbv iota.
            assert (LB : length (map bdata bs) = Z.to_nat n) by (rewrite map_length; lia).
            rewrite firstn_app, skipn_app, LB, Nat.sub_diag. cbn [firstn skipn]. rewrite app_nil_r, firstn_all2, skipn_all2 by lia. rewrite LB, Z2Nat.id, Z.eqb_refl by lia. reflexivity.
          - unfold e1. rewrite view_app, V, view_app, V2. pose proof (bytes_phase (2 * a + 1) n n [y] log1 (map Got bs)) as K.
            destruct K as [(b2 & K1 & K2 & _)|(b2 & r3 & K1 & K2 & K3)]; try lia.
            + intros Z. apply HL1. rewrite R1', view_app, V2, P1, view_app. apply view_lost. exact Z.
            + intros f1 b f2 E F. apply (f_equal sent_of) in E. rewrite sent_gots, sent_app in E. symmetry in E. apply app_eq_nil in E. destruct E. discriminate.
            + apply (f_equal (@length _)) in K1. rewrite !map_length in K1. lia.
            + assert (N : r3 = []) by (apply (f_equal (@length _)) in K1; rewrite app_length, !map_length in K1; destruct r3; [reflexivity|cbn in K1; lia]).
              subst r3. rewrite app_nil_r in K1. apply (f_equal got_of) in K1. rewrite !got_gots in K1. subst b2. rewrite K3. unfold log1. cbn [evs_view fold_left]. now rewrite <- app_assoc.
          - constructor; auto. }
    + pose proof (fun i => so_far_probe width a i HO) as Q.
      assert (EB : wr_buf 0 a 0 [] = [2 * a; 0]) by reflexivity.
      assert (R0 : reg_bytes 0 0 = []) by reflexivity.
      destruct (phase [2 * a; 0] (HIdle, log0) evs) as [(fut & F1 & F2 & F3)|(rest & R1 & R2)]; auto.
      * rewrite <- EB. apply wr_not_lost.
      * intros e1 b e2 E G. destruct (HC e1 b e2 E) as (later & L). rewrite G in L. cbn [map written] in L. rewrite Q in L. cbn [fst snd] in L. rewrite app_nil_r in L. eauto.
      * assert (G : got_of evs = []) by (rewrite F2; apply got_map). apply (session_wait width _ k evs log0 fut).
        -- rewrite G. cbn [map]. rewrite Q, F3. reflexivity.
        -- exists []. rewrite F2, view_sents, sents_snd, app_nil_r. split; [reflexivity|left; split; [reflexivity|apply sents_partial]].
        -- apply (phase_open [2 * a; 0]); auto; [rewrite <- EB; apply wr_not_lost|]. rewrite even_header. discriminate.
        -- intros N. congruence.
      * assert (SB : sents [2 * a; 0] (HIdle, log0) = (HStatusW (2 * a) [], log0)) by (rewrite <- EB, wr_sents; reflexivity).
        destruct R2 as [->|(x & r & ->)].
        -- rewrite app_nil_r in R1. subst evs. apply (session_wait width _ k _ log0 []).
           ++ rewrite got_map, sent_map, app_nil_r. apply Q.
           ++ exists []. rewrite view_sents, sents_snd, app_nil_r. split; [reflexivity|left; split; [reflexivity|apply sents_partial]].
           ++ intros N. congruence.
           ++ intros _. rewrite view_sents, SB. exact I.
        -- replace evs with ((map Sent [2 * a; 0] ++ [Got x]) ++ r) in * by (rewrite R1, <- app_assoc; reflexivity).
           eapply session_step with (x := [Wrote (2 * a) [] [x]]) (r := Present (bdata x =? 0)); eauto.
           ++ intros m. rewrite Q, got_app, got_map, sent_app, sent_map. reflexivity.
           ++ rewrite view_app, view_sents, SB. reflexivity.
           ++ constructor.
Qed.
