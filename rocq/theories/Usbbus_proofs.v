(** Proofs about programs that use I2CBus over the USB bridge (C153). *)
From Verif Require Import Stream Bits I2c_model I2cstream_model I2cstream_spec I2cproto_model I2cproto_spec I2cproto_proofs I2cbus_model I2cbus_props
  Serial_model Bridge_model Bridge_spec Bridge_proofs Link_model Link_spec Link_proofs Session_spec Session_proofs Session_props Usbbus_model Usbbus_spec.
From Coq Require Import Lia.

(** ** Where the packets of the answers end. *)
Definition answer (e : exchange) : list (beat Z) := match e with Wrote _ _ a => a | Asked _ _ a => a end.
Definition marks (e : exchange) : Prop :=
  match e with
  | Wrote _ _ a => exists x, a = [x] /\ blast x = true
  | Asked _ n a => exists x d, a = x :: d /\ blast x = true /\
      (bdata x <> 0 /\ d = [] \/ bdata x = 0 /\ map blast d = map blast (read_beats (Z.to_nat n)))
  end.
Definition marks_open (h : host) : Prop :=
  match h with
  | HBytes _ _ got _ => exists x d, got = x :: d /\ blast x = true /\ bdata x = 0 /\ Forall (fun b => blast b = false) d
  | _ => True
  end.
Definition marked (v : host * list exchange) : Prop := marks_open (fst v) /\ Forall marks (snd v).
Definition shape (v : host * list exchange) : Prop :=
  match fst v with HBytes _ _ got _ => exists x d, got = x :: d /\ bdata x = 0 | _ => True end.

Lemma read_flags k d a : map blast (d ++ [a]) = map blast (read_beats k) -> Forall (fun b : beat Z => blast b = false) d /\ blast a = true.
Proof.
  revert k. induction d as [|x d IH]; intros k H.
  - destruct k as [|[|k]]; cbn in H; try discriminate. injection H as H. auto.
  - destruct k as [|[|k]]; cbn in H; try discriminate.
    + injection H as _ H. destruct d; discriminate.
    + injection H as H1 H2. destruct (IH (S k) H2). auto.
Qed.
Lemma sent_shape st b : shape st -> shape (host_sent st b).
Proof.
  destruct st as [h g]. unfold shape. destruct h; cbn; auto.
  - destruct (is_read h); [|destruct (b =? 0)]; auto.
  - destruct (left =? 1); auto.
Qed.
Lemma got_shape st a : shape st -> shape (host_got st a).
Proof.
  destruct st as [h g]. unfold shape. destruct h; cbn; auto.
  - intros _. destruct (Z.eqb_spec (bdata a) 0); cbn; eauto.
  - intros (x & d & -> & H). destruct (left =? 1); cbn; eauto.
Qed.
Lemma step_shape st o : shape st -> shape (host_step st o).
Proof.
  intros H. unfold host_step. destruct (xfer (o_sink o) (o_sready o)) as [|b [|? ?]], (xfer (o_src o) (o_rready o)) as [|a [|? ?]]; auto using sent_shape, got_shape; exact I.
Qed.
Lemma view_shape l : shape (host_view l).
Proof. induction l as [|o l IH] using rev_ind; [exact I|]. rewrite host_snoc. now apply step_shape. Qed.

Lemma got_marked_back st a : shape st -> fst (host_got st a) <> HLost -> marked (host_got st a) -> marked st.
Proof.
  destruct st as [h g]. unfold shape, marked. destruct h; cbn; try congruence; intros HS HL HM.
  - destruct HM as [_ HM]. apply Forall_app in HM. tauto.
  - destruct (bdata a =? 0); cbn in HM; destruct HM as [_ HM]; [auto|]. apply Forall_app in HM. tauto.
  - destruct HS as (x & d & -> & X). destruct (left =? 1); cbn in HM; destruct HM as [H1 H2].
    + apply Forall_app in H2. destruct H2 as [H2 H3]. inversion H3 as [|? ? H4 _]; subst. destruct H4 as (y & e & E & Y & [[N _]|[_ F]]); injection E as <- <-; [congruence|].
      apply read_flags in F. split; [|auto]. exists x, d. tauto.
    + destruct H1 as (y & e & E & Y & Z0 & F). injection E as <- <-. apply Forall_app in F. split; [|auto]. exists x, d. tauto.
Qed.
Lemma gots_marked_back l : forall st, shape st -> fst (gots l st) <> HLost -> marked (gots l st) -> marked st.
Proof.
  induction l as [|a l IH]; intros st HS HL HM; [exact HM|]. cbn [gots fold_left] in *. apply (got_marked_back st a); auto.
  - intros E. apply HL. now apply gots_lost.
  - apply IH; auto. now apply got_shape.
Qed.
Lemma sents_marked l : forall st, fst (sents l st) <> HLost -> marked st -> marked (sents l st).
Proof.
  induction l as [|a l IH]; intros st HL HM; [exact HM|]. cbn [sents fold_left] in *. apply IH; [exact HL|]. destruct st as [h g]. destruct HM as [H1 H2]. split; [|exact H2].
  destruct h; cbn; auto.
  - destruct (is_read h); [|destruct (a =? 0)]; exact I.
  - destruct (left =? 1); exact I.
Qed.

Lemma executed_marks e xs xd : executed e xs xd -> marks e.
Proof.
  intros H. destruct H; cbn.
  - exists (status_beat 0). auto.
  - exists (status_beat 1). auto.
  - exists (status_beat 0), data. auto.
  - exists (status_beat 1), []. repeat split; auto. left. split; [discriminate|reflexivity].
Qed.
Lemma done_flags n l (d : list (beat Z)) : map blast d = map blast (reads_done n l) -> Forall (fun b : beat Z => blast b = false) d.
Proof.
  unfold reads_done. generalize (Z.to_nat (n - l)) as k. revert d. induction d as [|x d IH]; intros k H; [constructor|].
  destruct k as [|k]; [discriminate|]. cbn in H. injection H as H1 H2. constructor; eauto.
Qed.
Lemma phase_marks s h xs xd : pr_phase s h xs xd -> marks_open h.
Proof.
  unfold pr_phase. destruct (p_f s); intros H.
  - destruct H as (-> & _). exact I.
  - destruct H as (-> & _). exact I.
  - destruct H as (-> & _). destruct (is_read _); [|destruct (_ =? 0)]; exact I.
  - destruct H as (_ & -> & _). exact I.
  - destruct H as (n & left & -> & _ & _ & _ & _ & F). exists (status_beat 0), xd. apply done_flags in F. auto.
  - destruct H as (n & -> & _ & _ & _ & _ & F). exists (status_beat 0), xd. apply done_flags in F. auto.
  - destruct H as (ds & _ & -> & _). exact I.
  - destruct H as (_ & _ & _ & H). destruct (is_read _); [destruct H as (n & -> & _)|destruct H as (ds & -> & _); destruct (_ =? 0)]; exact I.
  - destruct H as (_ & _ & H). destruct (is_read _); [destruct H as (n & -> & _)|destruct H as (ds & -> & _)]; exact I.
Qed.

Lemma link_marked period stretch oe ins : 1 <= period -> let t := trace (i2c_link period stretch oe) ins in
  good_link (36 * (period / 4 + 1) - 1) t -> marked (link_view t).
Proof.
  intros HP t HU. pose proof (link_run period stretch oe HP ins HU) as [V1 (pins & V2 & V3) (rxb & txb & _ & _ & _ & _ & _ & _ & Q7 & _) V5 _ _].
  fold t in V1, V2, Q7, V5. pose proof (pr_inv_run period stretch oe pins) as K. rewrite <- V2, <- V3 in K. specialize (K V1).
  destruct K as (segs & xs & xd & K1 & _ & _ & K4).
  assert (M : marked (host_view (map po_io (map lo_pr t)))).
  { split; [exact (phase_marks _ _ _ _ K4)|]. clear - K1. induction K1; constructor; eauto using executed_marks. }
  assert (NL : fst (host_view (map po_io (map lo_pr t))) <> HLost).
  { intros E. rewrite E in K4. clear - K4. unfold pr_phase in K4. destruct (p_f _).
    - destruct K4 as (K & _). discriminate.
    - destruct K4 as (K & _). discriminate.
    - destruct K4 as (K & _). destruct (is_read _); [|destruct (_ =? 0)]; discriminate.
    - destruct K4 as (_ & K & _). discriminate.
    - destruct K4 as (? & ? & K & _). discriminate.
    - destruct K4 as (? & K & _). discriminate.
    - destruct K4 as (? & _ & K & _). discriminate.
    - destruct K4 as (_ & _ & _ & K). destruct (is_read _); destruct K as (? & K & _); [discriminate|]. destruct (_ =? 0); discriminate.
    - destruct K4 as (_ & _ & K). destruct (is_read _); destruct K as (? & K & _); discriminate. }
  destruct Q7 as [[_ R]|[_ R]].
  - rewrite R. apply sents_marked; [|exact M]. rewrite <- R. exact V5.
  - apply (gots_marked_back txb); [apply view_shape|rewrite <- R; exact NL|rewrite <- R; exact M].
Qed.

(** ** The packets, exchange by exchange. *)
Lemma answers evs log0 : fst (evs_view evs (HIdle, log0)) <> HLost ->
  exists new, snd (evs_view evs (HIdle, log0)) = log0 ++ new /\ got_of evs = concat (map answer new) ++ partial_answer (fst (evs_view evs (HIdle, log0))).
Proof.
  induction evs as [|e evs IH] using rev_ind; [exists []; cbn; now rewrite app_nil_r|]. rewrite view_app, got_app. cbn [evs_view fold_left]. intros HL.
  assert (H0 : fst (evs_view evs (HIdle, log0)) <> HLost) by (intros E; apply HL; now apply ev_lost).
  destruct (IH H0) as (new & N1 & N2). destruct (evs_view evs (HIdle, log0)) as [h g]. cbn [fst snd] in *. subst g. rewrite N2.
  destruct e as [b|a]; cbn [host_ev host_sent host_got got_of flat_map app] in *; rewrite ?app_nil_r.
  - exists new. split; [reflexivity|]. cbn [fst] in *. destruct h; cbn in *; try congruence; rewrite ?app_nil_r; try reflexivity.
    + destruct (is_read h); [|destruct (b =? 0)]; now rewrite app_nil_r.
    + destruct (left =? 1); now rewrite app_nil_r.
  - destruct h; cbn [fst snd partial_answer] in *; try congruence.
    + exists (new ++ [Wrote h sent [a]]). rewrite map_app, concat_app. cbn. rewrite !app_assoc, !app_nil_r. auto.
    + destruct (bdata a =? 0); cbn [fst snd partial_answer] in *.
      * exists new. rewrite app_nil_r. auto.
      * exists (new ++ [Asked h n [a]]). rewrite map_app, concat_app. cbn. rewrite !app_assoc, !app_nil_r. auto.
    + destruct (left =? 1); cbn [fst snd partial_answer] in *.
      * exists (new ++ [Asked h n (got ++ [a])]). rewrite map_app, concat_app. cbn. rewrite !app_assoc, !app_nil_r. auto.
      * exists new. now rewrite app_assoc.
Qed.

Definition pks (e : exchange) : list (list Z) := match answer e with [] => [] | [x] => [[bdata x]] | x :: d => [[bdata x]; map bdata d] end.
Definition pks_open (h : host) : list (list Z) := match partial_answer h with [] => [] | x :: _ => [[bdata x]] end.
Lemma packets_open d : forall o, Forall (fun b : beat Z => blast b = false) d -> packets_from o d = [].
Proof. induction d as [|x d IH]; intros o H; [reflexivity|]. inversion H; subst. cbn. rewrite H2. auto. Qed.
Lemma packets_closed d : forall o a l, Forall (fun b : beat Z => blast b = false) d -> blast a = true -> packets_from o (d ++ a :: l) = (o ++ map bdata (d ++ [a])) :: packets l.
Proof.
  induction d as [|x d IH]; intros o a l H HA; cbn; [now rewrite HA|]. inversion H; subst. rewrite H2, IH by assumption. now rewrite <- app_assoc.
Qed.
Lemma packets_exchange e l : marks e -> packets (answer e ++ l) = pks e ++ packets l.
Proof.
  destruct e as [h d a|h n a]; cbn; unfold pks; cbn [answer].
  - intros (x & -> & X). unfold packets. cbn. now rewrite X.
  - intros (x & d & -> & X & [[_ ->]|[_ F]]); unfold packets; cbn [app packets_from]; rewrite X; [reflexivity|]. cbn [app]. fold (packets (d ++ l)).
    destruct (list_case d) as [->|(d' & z & ->)]; [reflexivity|]. destruct (read_flags _ _ _ F) as [F1 F2]. unfold packets. rewrite <- app_assoc. cbn [app]. rewrite packets_closed by assumption.
    destruct (d' ++ [z]) as [|y r] eqn:E; [destruct d'; discriminate|]. reflexivity.
Qed.
Lemma packets_view new h : Forall marks new -> marks_open h -> packets (concat (map answer new) ++ partial_answer h) = flat_map pks new ++ pks_open h.
Proof.
  intros HN HO. induction HN as [|e new H HN IH].
  - cbn. unfold pks_open. destruct h; try reflexivity. cbn in HO. destruct HO as (x & d & -> & X & _ & F). cbn. unfold packets. cbn. rewrite X. f_equal. now apply packets_open.
  - cbn. rewrite <- !app_assoc, packets_exchange by exact H. now rewrite IH.
Qed.

(** ** Calls over USB. *)
Lemma usb_request_wait buf : Forall is_byte buf -> usb_request buf [] = UCall [buf] [] [] (inr Waiting).
Proof. intros H. unfold usb_request. now rewrite bytearray_ok. Qed.
Lemma usb_request_one buf s r : Forall is_byte buf -> usb_request buf ([s] :: r) = UCall [buf] [(1, [s])] r (inl (s =? 0)).
Proof. intros H. unfold usb_request. now rewrite bytearray_ok. Qed.

Definition exact_reads (l : list (Z * list Z)) : Prop := Forall (fun r => Z.of_nat (length (snd r)) = fst r) l.

Lemma usb_write_wait width a g d : 0 <= width -> call_ok width (WriteBlock a g d) -> usb_so_far width (WriteBlock a g d) [] = (wr_buf width a g d, [], None).
Proof.
  intros HW (HA & HD & HF). destruct (wr_bytes width a g d HW HA HD HF) as [B L]. unfold usb_so_far, usb_write_block_data.
  rewrite hdr_write, reg_array_big_endian, L. change (big_endian _ g) with (reg_bytes width g). fold (wr_buf width a g d). rewrite usb_request_wait by exact B. cbn. now rewrite app_nil_r.
Qed.
Lemma usb_write_one width a g d s r : 0 <= width -> call_ok width (WriteBlock a g d) ->
  usb_so_far width (WriteBlock a g d) ([s] :: r) = (wr_buf width a g d, [(1, [s])], Some (Written (if s =? 0 then Some (Z.of_nat (length d)) else None), r)).
Proof.
  intros HW (HA & HD & HF). destruct (wr_bytes width a g d HW HA HD HF) as [B L]. unfold usb_so_far, usb_write_block_data.
  rewrite hdr_write, reg_array_big_endian, L. change (big_endian _ g) with (reg_bytes width g). fold (wr_buf width a g d). rewrite usb_request_one by exact B. cbn. rewrite app_nil_r. destruct (s =? 0); reflexivity.
Qed.
Lemma usb_probe_wait width a : 0 <= a < 128 -> usb_so_far width (Probe a) [] = ([2 * a; 0], [], None).
Proof. intros HA. unfold usb_so_far, usb_probe. now rewrite hdr_write, usb_request_wait by (repeat constructor; unfold is_byte; lia). Qed.
Lemma usb_probe_one width a s r : 0 <= a < 128 -> usb_so_far width (Probe a) ([s] :: r) = ([2 * a; 0], [(1, [s])], Some (Present (s =? 0), r)).
Proof. intros HA. unfold usb_so_far, usb_probe. now rewrite hdr_write, usb_request_one by (repeat constructor; unfold is_byte; lia). Qed.
Lemma usb_read_eq width a g n pk : 0 <= width -> call_ok width (ReadBlock a g n) -> Forall (fun q => length q = 1%nat) (firstn 2 pk) ->
  usb_so_far width (ReadBlock a g n) pk =
    match pk with
    | [] => (wr_buf width a g [], [], None)
    | q :: r => let s := hd 0 q in
        if s =? 0 then
           match r with
           | [] => (wr_buf width a g [] ++ [2 * a + 1; n], [(1, [s])], None)
           | q2 :: r2 => let s2 := hd 0 q2 in
               if s2 =? 0 then
                 match r2 with
                 | [] => (wr_buf width a g [] ++ [2 * a + 1; n], [(1, [s]); (1, [s2])], None)
                 | b :: r3 => (wr_buf width a g [] ++ [2 * a + 1; n], [(1, [s]); (1, [s2]); (n, b)], Some (Block (Some (firstn (Z.to_nat n) b)), r3))
                 end
               else (wr_buf width a g [] ++ [2 * a + 1; n], [(1, [s]); (1, [s2])], Some (Block None, r2))
           end
        else (wr_buf width a g [], [(1, [s])], Some (Block None, r))
    end.
Proof.
  intros HW (HA & HF & HN) H1. destruct (wr_bytes width a g [] HW HA (Forall_nil _) ltac:(cbn; lia)) as [B L]. cbn [length] in L. rewrite Z.add_0_r in L.
  unfold usb_so_far, usb_read_block_data. rewrite hdr_write, hdr_read, reg_array_big_endian. change (big_endian _ g) with (reg_bytes width g). rewrite L.
  replace (2 * a :: Z.of_nat (length (reg_bytes width g ++ [])) :: reg_bytes width g) with (wr_buf width a g []) by (unfold wr_buf; now rewrite !app_nil_r).
  destruct pk as [|q r]; [rewrite usb_request_wait by exact B; cbn [u_result u_written u_reads u_left concat]; now rewrite app_nil_r|].
  cbn [firstn] in H1. inversion H1 as [|? ? Q1 H2]; subst. destruct q as [|s [|? ?]]; try discriminate. rewrite (usb_request_one (wr_buf width a g [])) by exact B. cbn [u_result u_written u_reads u_left hd].
  destruct (s =? 0); cbn [u_result u_written u_reads u_left concat app]; [|now rewrite app_nil_r].
  assert (B2 : Forall is_byte [2 * a + 1; n]) by (repeat constructor; unfold is_byte; lia).
  destruct r as [|q2 r2]; [rewrite usb_request_wait by exact B2; reflexivity|].
  cbn [firstn] in H2. inversion H2 as [|? ? Q2 _]; subst. destruct q2 as [|s2 [|? ?]]; try discriminate. rewrite usb_request_one by exact B2. cbn [u_result u_written u_reads u_left hd].
  destruct (s2 =? 0); cbn [u_result u_written u_reads u_left concat app]; [|reflexivity].
  destruct r2 as [|b r3]; reflexivity.
Qed.

(** ** A program reads the packets as it reads the bytes. *)
Lemma usb_same width (HW : 0 <= width) p : forall groups cur hs, program_ok width p ->
  let bytes := map bdata (concat (map answer (concat groups ++ cur)) ++ partial_answer hs) in
  let pk := flat_map pks (concat groups ++ cur) ++ pks_open hs in
  Forall2 (fun h g => told width (fst h) (snd h) g) (history width p bytes) groups ->
  Forall marks (concat groups ++ cur) -> marks_open hs ->
  (cur = [] \/ exists h d x, cur = [Wrote h d [x]]) -> (cur = [] -> partial_answer hs = []) ->
  (ended width p bytes = true -> cur = [] /\ hs = HIdle) ->
  usb_written width p pk = written width p bytes /\ usb_history width p pk = history width p bytes /\
  usb_ended width p pk = ended width p bytes /\ (ended width p bytes = true -> usb_unread width p pk = []) /\ exact_reads (usb_reads width p pk).
Proof.
  induction p as [|c k IH]; intros groups cur hs HP bytes pk HF HM HO HC HC0 HE.
  - cbn [history] in HF. inversion HF; subst. cbn [ended] in HE. destruct (HE eq_refl) as [-> ->]. repeat split; constructor.
  - destruct HP as [HP HK]. destruct (call_so_far width c bytes) as [w [[r rest]|]] eqn:Q.
    + cbn [history] in HF. rewrite Q in HF. cbn [snd] in HF. inversion HF as [|? gr ? gs T HF']; subst. cbn [fst snd] in T.
      set (bytes' := map bdata (concat (map answer (concat gs ++ cur)) ++ partial_answer hs)). set (pk' := flat_map pks (concat gs ++ cur) ++ pks_open hs).
      cbn [concat] in HM. rewrite <- app_assoc in HM. apply Forall_app in HM. destruct HM as [HM1 HM2].
      assert (EB : bytes = map bdata (concat (map answer gr)) ++ bytes').
      { unfold bytes, bytes'. cbn [concat]. rewrite <- (app_assoc gr), (map_app answer), concat_app, <- app_assoc, (map_app bdata). reflexivity. }
      assert (EP : pk = flat_map pks gr ++ pk').
      { unfold pk, pk'. cbn [concat]. rewrite <- (app_assoc gr), flat_map_app, <- app_assoc. reflexivity. }
      assert (STEP : rest = bytes' /\ exists rd, usb_so_far width c pk = (w, rd, Some (r, pk')) /\ exact_reads rd).
      { rewrite EB in Q. rewrite EP. clear - HW HP Q T HM1.
        destruct T as [a g d x|a x|a g n x X|a g n x y X Y|a g n x y l X Y].
        - rewrite so_far_write in Q by assumption. cbn in Q. injection Q as <- <-. split; [reflexivity|]. exists [(1, [bdata x])]. split; [|repeat constructor].
          cbn [flat_map pks answer app]. rewrite usb_write_one by assumption. reflexivity.
        - rewrite so_far_probe in Q by assumption. cbn in Q. injection Q as <- <-. split; [reflexivity|]. exists [(1, [bdata x])]. split; [|repeat constructor].
          cbn [flat_map pks answer app]. rewrite usb_probe_one by assumption. reflexivity.
        - rewrite so_far_read in Q by assumption. cbn in Q. rewrite (proj2 (Z.eqb_neq _ _) X) in Q. injection Q as <- <-. split; [reflexivity|].
          exists [(1, [bdata x])]. split; [|repeat constructor]. cbn [flat_map pks answer app].
          unfold usb_so_far, usb_read_block_data. destruct HP as (HA & HFF & HN). destruct (wr_bytes width a g [] HW HA (Forall_nil _)) as [B L]; [cbn; lia|]. cbn [length] in L. rewrite Z.add_0_r in L.
          rewrite hdr_write, reg_array_big_endian. change (big_endian _ g) with (reg_bytes width g). rewrite L.
          replace (2 * a :: Z.of_nat (length (reg_bytes width g ++ [])) :: reg_bytes width g) with (wr_buf width a g []) by (unfold wr_buf; now rewrite !app_nil_r).
          rewrite usb_request_one by exact B. cbn [u_result]. rewrite (proj2 (Z.eqb_neq _ _) X). cbn [u_written u_reads u_left concat]. now rewrite app_nil_r.
        - rewrite so_far_read in Q by assumption. cbn in Q. rewrite X, (proj2 (Z.eqb_neq _ _) Y) in Q. cbn in Q. injection Q as <- <-. split; [reflexivity|].
          exists [(1, [bdata x]); (1, [bdata y])]. split; [|repeat constructor]. cbn [flat_map pks answer app].
          rewrite usb_read_eq by (try assumption; repeat constructor). cbn [hd]. rewrite X, (proj2 (Z.eqb_neq _ _) Y). cbn. reflexivity.
        - inversion HM1 as [|? ? _ M2]; subst. inversion M2 as [|? ? M3 _]; subst. destruct M3 as (y' & l' & E & _ & [[N _]|[_ F]]); injection E as <- <-; [congruence|].
          assert (HN : 1 <= n < 256) by (destruct HP as (_ & _ & HP); exact HP).
          assert (LL : length l = Z.to_nat n).
          { apply (f_equal (@length _)) in F. rewrite !map_length in F. rewrite F. clear. induction (Z.to_nat n); cbn; auto. }
          rewrite so_far_read in Q by assumption. cbn [map concat answer app] in Q. rewrite app_nil_r in Q. cbn [map app] in Q. rewrite X, Y in Q. change (0 =? 0) with true in Q. cbv iota in Q.
          rewrite firstn_app, skipn_app, map_length, LL, Nat.sub_diag in Q. cbn [firstn skipn] in Q. rewrite app_nil_r, firstn_all2, skipn_all2 in Q by (rewrite map_length; lia).
          rewrite map_length, LL, Z2Nat.id, Z.eqb_refl in Q by lia. injection Q as <- <-. split; [reflexivity|].
          exists [(1, [bdata x]); (1, [bdata y]); (n, map bdata l)]. split; [|repeat constructor; cbn; rewrite map_length; lia].
          destruct l as [|z l]; [cbn in LL; lia|]. cbn [flat_map pks answer app].
          rewrite usb_read_eq by (try assumption; repeat constructor). cbn [hd]. rewrite X, Y. change (0 =? 0) with true. cbv iota zeta.
          rewrite firstn_all2 by (rewrite map_length; lia). reflexivity. }
      destruct STEP as (-> & rd & U & RD).
      assert (HE' : ended width (k r) bytes' = true -> cur = [] /\ hs = HIdle) by (intros E; apply HE; cbn [ended]; now rewrite Q).
      destruct (IH r gs cur hs (HK r) HF' HM2 HO HC HC0 HE') as (I1 & I2 & I3 & I4 & I5).
      cbn [usb_written written usb_history history usb_ended ended usb_unread usb_reads]. rewrite Q, U. cbn [fst snd]. fold bytes' pk' in I1, I2, I3, I4, I5. rewrite I1, I2, I3.
      do 3 (split; [reflexivity|]). split; [exact I4|]. apply Forall_app. auto.
    + cbn [history] in HF. rewrite Q in HF. cbn [snd] in HF. inversion HF; subst. clear HF HE. cbn [concat app] in bytes, pk, HM.
      assert (U : exists rd, usb_so_far width c pk = (w, rd, None) /\ exact_reads rd).
      { destruct HC as [->|(h & d & x & ->)].
        - unfold bytes in Q. unfold pk. rewrite (HC0 eq_refl) in Q. unfold pks_open. rewrite (HC0 eq_refl). cbn in Q |- *. exists []. split; [|constructor].
          destruct c as [a g d|a g n|a].
          + rewrite so_far_write in Q by assumption. injection Q as <-. now apply usb_write_wait.
          + rewrite so_far_read in Q by assumption. injection Q as <-. rewrite usb_read_eq by (try assumption; constructor). reflexivity.
          + rewrite so_far_probe in Q by assumption. injection Q as <-. now apply usb_probe_wait.
        - unfold bytes in Q. unfold pk. cbn [map concat answer app flat_map pks] in Q |- *. unfold pks_open. destruct c as [a g d0|a g n|a].
          + rewrite so_far_write in Q by assumption. discriminate.
          + rewrite so_far_read in Q by assumption. destruct (Z.eqb_spec (bdata x) 0) as [X|X]; [|discriminate]. injection Q as <- Q.
            destruct hs; cbn [partial_answer] in *; try (exists [(1, [bdata x])]; split; [|repeat constructor]; rewrite usb_read_eq by (try assumption; repeat constructor); cbn [hd]; rewrite X; reflexivity).
            destruct HO as (y & l & -> & _ & Y & _). exists [(1, [bdata x]); (1, [bdata y])]. split; [|repeat constructor].
            rewrite usb_read_eq by (try assumption; repeat constructor). cbn [hd]. rewrite X, Y. reflexivity.
          + rewrite so_far_probe in Q by assumption. discriminate. }
      destruct U as (rd & U & RD).
      cbn [usb_written written usb_history history usb_ended ended usb_unread usb_reads]. rewrite Q, U. cbn [fst snd]. do 3 (split; [reflexivity|]). split; [discriminate|]. now rewrite app_nil_r.
Qed.
