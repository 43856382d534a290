(** I2CBus programs over the I2C core and over the UART bridge (C123). *)
From Verif Require Import Stream I2c_model I2c_spec I2cstream_model I2cstream_spec I2cproto_model I2cproto_spec I2cproto_proofs I2cproto_props I2cbus_model I2cbus_props
  Bridge_model Bridge_spec Bridge_props I2cend_spec.
From Coq Require Import Lia FinFun.

(** ** What the host's log says about the bytes exchanged. *)
Definition req (e : exchange) : list Z :=
  match e with Wrote h ds _ => h :: Z.of_nat (length ds) :: ds | Asked h n _ => [h; n] end.
Definition ans (e : exchange) : list (beat Z) := match e with Wrote _ _ a => a | Asked _ _ a => a end.
Definition sound (e : exchange) : Prop := match e with Wrote h _ _ => is_read h = false | Asked h _ _ => is_read h = true end.
Definition req_part (h : host) : list Z :=
  match h with
  | HIdle | HLost => []
  | HHeader x => [x]
  | HData x ds l => x :: Z.of_nat (length ds) + l :: ds
  | HStatusW x ds => x :: Z.of_nat (length ds) :: ds
  | HStatusR x n => [x; n]
  | HBytes x n _ _ => [x; n]
  end.
Definition ans_part (h : host) : list (beat Z) := match h with HBytes _ _ g _ => g | _ => [] end.
Definition sound_part (h : host) : Prop :=
  match h with HData x _ l => is_read x = false /\ l <> 0 | HStatusW x _ => is_read x = false | HStatusR x _ | HBytes x _ _ _ => is_read x = true | _ => True end.

Lemma log_bytes t : let '(h, log) := host_view t in h <> HLost ->
  map bdata (accepted t) = concat (map req log) ++ req_part h /\
  emitted t = concat (map ans log) ++ ans_part h /\ Forall sound log /\ sound_part h.
Proof.
  induction t as [|o t IH] using rev_ind; [cbn; auto|].
  unfold host_view in *. rewrite fold_left_app. cbn [fold_left]. destruct (fold_left host_step t (HIdle, [])) as [h log].
  unfold accepted, emitted in *. rewrite !flat_map_app, map_app. cbn [flat_map]. rewrite !app_nil_r. unfold host_step.
  set (b := xfer (o_sink o) (o_sready o)). set (c := xfer (o_src o) (o_rready o)).
  assert (K : h <> HLost -> map bdata (flat_map (fun o => xfer (o_sink o) (o_sready o)) t) = concat (map req log) ++ req_part h /\
    flat_map (fun o => xfer (o_src o) (o_rready o)) t = concat (map ans log) ++ ans_part h /\ Forall sound log /\ sound_part h) by exact IH. clear IH.
  destruct b as [|x [|? ?]], c as [|y [|? ?]]; cbn [snd]; try (intros H; congruence).
  - rewrite !app_nil_r. exact K.
  - cbn [host_got]. destruct h as [|h|h ds n|h ds|h n|h n g l|]; try (intros H; congruence).
    + intros _. destruct (K ltac:(discriminate)) as (K1 & K2 & K3 & K4). rewrite K1, K2, !map_app, !concat_app. cbn. rewrite !app_nil_r. repeat split; auto. apply Forall_app. split; auto.
    + destruct (bdata y =? 0); intros _; destruct (K ltac:(discriminate)) as (K1 & K2 & K3 & K4); rewrite K1, K2.
      * cbn. rewrite !app_nil_r. auto.
      * rewrite !map_app, !concat_app. cbn. rewrite !app_nil_r. repeat split; auto. apply Forall_app. split; auto.
    + destruct (l =? 1); intros _; destruct (K ltac:(discriminate)) as (K1 & K2 & K3 & K4); rewrite K1, K2.
      * rewrite !map_app, !concat_app. cbn. rewrite !app_nil_r, <- !app_assoc. repeat split; auto. apply Forall_app. split; auto.
      * cbn. rewrite !app_nil_r, <- !app_assoc. auto.
  - cbn [host_sent map]. destruct h as [|h|h ds n|h ds|h n|h n g l|]; try (intros H; congruence).
    + intros _. destruct (K ltac:(discriminate)) as (K1 & K2 & K3 & K4). rewrite K1, K2. cbn. rewrite !app_nil_r. auto.
    + destruct (is_read h) eqn:R; [|destruct (Z.eqb_spec (bdata x) 0) as [E|E]]; intros _; destruct (K ltac:(discriminate)) as (K1 & K2 & K3 & K4); rewrite K1, K2; cbn; rewrite !app_nil_r, <- ?app_assoc; cbn; repeat split; auto.
      rewrite E. reflexivity.
    + destruct (Z.eqb_spec n 1) as [->|E]; intros _; destruct (K ltac:(discriminate)) as (K1 & K2 & K3 & K4); rewrite K1, K2; cbn in K4; cbn; rewrite !app_nil_r, <- ?app_assoc, app_length; cbn [length app]; repeat split; try tauto; try lia.
      * do 3 f_equal. lia.
      * do 3 f_equal. lia.
Qed.

(** Requests can be told apart. *)
Lemma app_len {A} (a b c d : list A) : length a = length b -> a ++ c = b ++ d -> a = b /\ c = d.
Proof.
  revert b. induction a as [|x a IH]; intros [|y b] L E; try discriminate; [auto|]. cbn in E. injection E as -> E. injection L as L.
  destruct (IH b L E) as [-> ->]. auto.
Qed.
Lemma req_write e X a ds Y : sound e -> req e ++ X = (2 * a :: Z.of_nat (length ds) :: ds) ++ Y -> (exists x, e = Wrote (2 * a) ds x) /\ X = Y.
Proof.
  intros S E. pose proof (f_equal (hd 0) E) as EH. destruct e as [h ds' x|h n x]; cbn [req app sound hd] in *; subst h.
  - injection E as L E. apply Nat2Z.inj in L. destruct (app_len _ _ _ _ L E) as [-> ->]. eauto.
  - exfalso. unfold is_read in S. rewrite Z.odd_mul in S. discriminate.
Qed.
Lemma req_read e X a n Y : sound e -> req e ++ X = [2 * a + 1; n] ++ Y -> (exists x, e = Asked (2 * a + 1) n x) /\ X = Y.
Proof.
  intros S E. pose proof (f_equal (hd 0) E) as EH. destruct e as [h ds' x|h m x]; cbn [req app sound hd] in *; subst h.
  - exfalso. unfold is_read in S. rewrite Z.add_comm, Z.odd_add, Z.odd_mul in S. discriminate.
  - injection E as -> ->. eauto.
Qed.

Notation done := (Forall2 (fun e (g : list (beat (bool * Z) * bool) * list (beat Z)) => executed e (fst g) (snd g))).
Lemma first_write a ds (log : list exchange) (segs : list (list (beat (bool * Z) * bool) * list (beat Z))) R : done log segs -> Forall sound log ->
  concat (map req log) = (2 * a :: Z.of_nat (length ds) :: ds) ++ R ->
  exists (ok : bool) l2 g s2, log = Wrote (2 * a) ds [status_beat (if ok then 0 else 1)] :: l2 /\ segs = g :: s2 /\
    written_to a ds ok (fst g) /\ snd g = [] /\ R = concat (map req l2) /\ done l2 s2 /\ Forall sound l2.
Proof.
  intros D S E. destruct log as [|e log]; [discriminate|]. inversion D as [|? g ? s2 X D']; subst. inversion S; subst.
  cbn [map concat] in E. apply req_write in E; [|assumption]. destruct E as [[x ->] <-].
  assert (K : exists ok : bool, x = [status_beat (if ok then 0 else 1)] /\ written_to a ds ok (fst g) /\ snd g = []).
  { inversion X; subst; [exists true|exists false]; repeat split; try constructor; auto. econstructor; eauto. }
  destruct K as (ok & -> & K1 & K2). exists ok, log, g, s2. auto 10.
Qed.
Lemma first_read a n (log : list exchange) (segs : list (list (beat (bool * Z) * bool) * list (beat Z))) R : 0 <= n -> done log segs -> Forall sound log ->
  concat (map req log) = [2 * a + 1; n] ++ R ->
  exists x l2 g s2, log = Asked (2 * a + 1) n x :: l2 /\ segs = g :: s2 /\
    (x = [status_beat 1] /\ fst g = [(Beat false false (false, 2 * a + 1), true)] /\ snd g = [] \/
     x = status_beat 0 :: snd g /\ Z.of_nat (length (snd g)) = n /\
     fst g = (Beat false false (false, 2 * a + 1), false) :: taken (read_beats (Z.to_nat n))) /\
    R = concat (map req l2) /\ done l2 s2 /\ Forall sound l2.
Proof.
  intros HN D S E. destruct log as [|e log]; [discriminate|]. inversion D as [|? g ? s2 X D']; subst. inversion S; subst.
  cbn [map concat] in E. apply req_read in E; [|assumption]. destruct E as [[x ->] <-].
  exists x, log, g, s2. split; [reflexivity|]. split; [reflexivity|]. split; [|auto].
  pose proof (executed_asked _ _ _ _ _ X) as (A1 & A2 & A3).
  inversion X; subst; [right|left; auto]. split; [reflexivity|]. split; [|reflexivity].
  rewrite A2; [lia|]. match goal with H : _ = fst g |- _ => rewrite <- H end. cbn. apply taken_ok.
Qed.

Lemma reg_bytes_eq width reg : reg_array width reg = reg_bytes width reg.
Proof. rewrite reg_array_big_endian. reflexivity. Qed.
Lemma reg_bytes_len width reg : 0 <= width -> Z.of_nat (length (reg_bytes width reg)) = width / 8.
Proof. intros H. unfold reg_bytes. rewrite map_length, seq_length. pose proof (Z.div_pos width 8 H). lia. Qed.
Lemma reg_bytes_byte width reg : Forall is_byte (reg_bytes width reg).
Proof. apply big_endian_bytes. Qed.
Lemma addr_hdr a : addr_ a -> is_byte (2 * a) /\ is_byte (2 * a + 1).
Proof. unfold addr_, is_byte. lia. Qed.

Definition op_done (width : Z) (o : op) (log : list exchange) (segs : list (list (beat (bool * Z) * bool) * list (beat Z))) : Prop :=
  let '(w, unread, x) := do_op width o (map bdata (concat (map ans log))) in
  forall R, concat (map req log) = concat w ++ R ->
  exists l1 l2 s1 s2, log = l1 ++ l2 /\ segs = s1 ++ s2 /\ unread = map bdata (concat (map ans l2)) /\ R = concat (map req l2) /\
    did width o x (concat (map fst s1)) (concat (map snd s1)) /\ done l2 s2 /\ Forall sound l2.

Lemma write_done width a r d log segs : 0 <= width -> fits width (OWrite a r d) -> done log segs -> Forall sound log -> op_done width (OWrite a r d) log segs.
Proof.
  intros HW (HA & HD & HL) D S. unfold op_done, do_op, returned, write_block_data, request. rewrite hdr_write, reg_bytes_eq.
  assert (EL : width / 8 + Z.of_nat (length d) = Z.of_nat (length (reg_bytes width r ++ d))) by (rewrite app_length, Nat2Z.inj_add, reg_bytes_len by exact HW; reflexivity).
  rewrite EL. rewrite bytearray_ok.
  2: { constructor; [apply addr_hdr, HA|]. constructor; [unfold is_byte; lia|]. apply Forall_app. split; [apply reg_bytes_byte|exact HD]. }
  assert (F : forall R, concat (map req log) = (2 * a :: Z.of_nat (length (reg_bytes width r ++ d)) :: reg_bytes width r ++ d) ++ R -> _) by (intros R; exact (first_write a _ log segs R D S)).
  destruct (map bdata (concat (map ans log))) as [|st input] eqn:EI; cbn [c_written c_left c_result concat]; intros R E; rewrite app_nil_r in E; destruct (F R E) as (ok & l2 & g & s2 & -> & -> & W & G & -> & D2 & S2).
  - destruct ok; discriminate.
  - cbn [map ans concat] in EI. rewrite map_app in EI. cbn [map app] in EI. injection EI as <- <-.
    exists [Wrote (2 * a) (reg_bytes width r ++ d) [status_beat (if ok then 0 else 1)]], l2, [g], s2. repeat (split; [reflexivity|]).
    split; [|auto]. cbn [map concat]. rewrite !app_nil_r, G. replace ((bdata (status_beat (if ok then 0 else 1))) =? 0) with ok by (destruct ok; reflexivity).
    destruct ok; apply (did_write width a r d _ (fst g) W).
Qed.

Lemma read_eq width a r n input : 0 <= width -> fits width (ORead a r n) ->
  let rb := reg_bytes width r in let b1 := 2 * a :: Z.of_nat (length rb) :: rb in let b2 := [2 * a + 1; n] in
  read_block_data width a r n input =
  match input with
  | [] => Call [b1] [] (inr IndexError)
  | s :: i1 => if s =? 0 then
      match i1 with
      | [] => Call [b1; b2] [] (inr IndexError)
      | s2 :: i2 => if s2 =? 0 then Call [b1; b2] (skipn (Z.to_nat n) i2) (inl (Some (firstn (Z.to_nat n) i2)))
                    else Call [b1; b2] i2 (inl None)
      end
      else Call [b1] i1 (inl None)
  end.
Proof.
  intros HW (HA & HF & HN) rb b1 b2. unfold read_block_data, request. rewrite hdr_write, hdr_read, reg_bytes_eq.
  rewrite <- (reg_bytes_len width r HW). fold rb. rewrite !bytearray_ok.
  2: { constructor; [apply addr_hdr, HA|]. constructor; [unfold is_byte; lia|constructor]. }
  2: { constructor; [apply addr_hdr, HA|]. constructor; [unfold is_byte, rb; rewrite reg_bytes_len by exact HW; pose proof (Z.div_pos width 8 HW); lia|]. apply reg_bytes_byte. }
  destruct input as [|s i1]; cbn [c_result c_written c_left]; [reflexivity|]. destruct (s =? 0); [|reflexivity].
  destruct i1 as [|s2 i2]; cbn [c_result c_written c_left]; [reflexivity|]. destruct (s2 =? 0); reflexivity.
Qed.

Lemma read_done width a r n log segs : 0 <= width -> fits width (ORead a r n) -> done log segs -> Forall sound log -> op_done width (ORead a r n) log segs.
Proof.
  intros HW HF D S. unfold op_done, do_op, returned. rewrite read_eq by assumption. destruct HF as (HA & _ & HN).
  set (rb := reg_bytes width r). set (b1 := 2 * a :: Z.of_nat (length rb) :: rb). set (b2 := [2 * a + 1; n]).
  assert (F : forall R, concat (map req log) = b1 ++ R -> _) by (intros R; exact (first_write a _ log segs R D S)).
  destruct (map bdata (concat (map ans log))) as [|st input] eqn:EI; cbn [c_written c_left c_result concat]; intros R.
  { intros E; rewrite app_nil_r in E; destruct (F R E) as (ok & l2 & g & s2 & -> & _). destruct ok; discriminate. }
  destruct (st =? 0) eqn:ST.
  2: { cbn [c_written c_left c_result concat]. rewrite app_nil_r. intros E. destruct (F R E) as (ok & l2 & g & s2 & -> & -> & W & G & -> & D2 & S2).
    cbn [map ans concat] in EI. rewrite map_app in EI. cbn [map app] in EI. injection EI as <- <-. destruct ok; [discriminate|].
    exists [Wrote (2 * a) rb [status_beat 1]], l2, [g], s2. repeat (split; [reflexivity|]). split; [|auto]. cbn [map concat]. rewrite !app_nil_r, G. now apply did_read_reg. }
  assert (K : forall R', concat (map req log) = b1 ++ b2 ++ R' -> exists l2 g s2 x l3 h s3, log = Wrote (2 * a) rb [status_beat 0] :: l2 /\ segs = g :: s2 /\ input = map bdata (concat (map ans l2)) /\
      written_to a rb true (fst g) /\ snd g = [] /\ l2 = Asked (2 * a + 1) n x :: l3 /\ s2 = h :: s3 /\
    (x = [status_beat 1] /\ fst h = [(Beat false false (false, 2 * a + 1), true)] /\ snd h = [] \/
     x = status_beat 0 :: snd h /\ Z.of_nat (length (snd h)) = n /\
     fst h = (Beat false false (false, 2 * a + 1), false) :: taken (read_beats (Z.to_nat n))) /\
    R' = concat (map req l3) /\ done l3 s3 /\ Forall sound l3).
  { intros R' E. destruct (F _ E) as (ok & l2 & g & s2 & -> & -> & W & G & E2 & D2 & S2).
    cbn [map ans concat] in EI. rewrite map_app in EI. cbn [map app] in EI. injection EI as <- <-. destruct ok; [|discriminate].
    destruct (first_read a n l2 s2 R' ltac:(lia) D2 S2 (eq_sym E2)) as (x & l3 & h & s3 & E3 & E4 & K & E5 & D3 & S3).
    exists l2, g, s2, x, l3, h, s3. auto 15. }
  destruct input as [|st2 input]; [|destruct (st2 =? 0) eqn:ST2]; cbn [c_written c_left c_result concat]; rewrite app_nil_r, <- app_assoc; intros E;
    destruct (K R E) as (l2 & g & s2 & x & l3 & h & s3 & -> & -> & EI2 & W & G & -> & -> & KK & -> & D3 & S3); cbn [map ans concat] in EI2; rewrite map_app in EI2;
    destruct KK as [(-> & K2 & K3)|(-> & K2 & K3)]; try discriminate EI2; cbn [map app bdata status_beat] in EI2; injection EI2 as -> ->; try discriminate ST2.
  - exists [Wrote (2 * a) rb [status_beat 0]; Asked (2 * a + 1) n (status_beat 0 :: snd h)], l3, [g; h], s3. split; [reflexivity|]. split; [reflexivity|].
    assert (L : length (map bdata (snd h)) = Z.to_nat n) by (rewrite map_length; lia).
    rewrite skipn_app, firstn_app, <- L, skipn_all, firstn_all, Nat.sub_diag. cbn [skipn firstn app]. rewrite app_nil_r. split; [reflexivity|].
    split; [reflexivity|]. split; [|auto]. cbn [map concat]. rewrite !app_nil_r, G, K3. cbn [app]. now apply did_read.
  - exists [Wrote (2 * a) rb [status_beat 0]; Asked (2 * a + 1) n [status_beat 1]], l3, [g; h], s3. repeat (split; [reflexivity|]).
    split; [|auto]. cbn [map concat]. rewrite !app_nil_r, G, K2, K3. now apply did_read_addr.
Qed.

Lemma write_byte_done width a r x log segs : 0 <= width -> fits width (OWriteByte a r x) -> done log segs -> Forall sound log -> op_done width (OWriteByte a r x) log segs.
Proof.
  intros HW (HA & HX & HF) D S. pose proof (write_done width a r [x] log segs HW) as K. specialize (K ltac:(split; [exact HA|]; split; [constructor; [exact HX|constructor]|exact HF]) D S).
  unfold op_done, do_op, returned, write_byte_data in *. set (q := write_block_data _ _ _ _ _) in *. cbn [c_written c_left c_result].
  intros R E. destruct (K R E) as (l1 & l2 & s1 & s2 & -> & -> & K3 & -> & K5 & K6). exists l1, l2, s1, s2. repeat (split; [assumption || reflexivity|]). split; [|exact K6].
  destruct (c_result q); [|inversion K5]. replace (concat (map snd s1)) with (@nil (beat Z)) in * by (now inversion K5). eapply did_write_byte; eauto.
Qed.

Lemma read_ret width a r n ys bs data : did width (ORead a r n) (RRead (Some ys)) bs data -> ys = map bdata data /\ Z.of_nat (length data) = n.
Proof. intros H. inversion H; subst; auto. Qed.

Lemma read_byte_done width a r log segs : 0 <= width -> fits width (OReadByte a r) -> done log segs -> Forall sound log -> op_done width (OReadByte a r) log segs.
Proof.
  intros HW (HA & HF) D S. pose proof (read_done width a r 1 log segs HW) as K. specialize (K ltac:(split; [exact HA|]; split; [exact HF|lia]) D S).
  unfold op_done, do_op, returned, read_byte_data in *. set (q := read_block_data _ _ _ _ _) in *. cbn [c_written c_left c_result].
  intros R E. destruct (K R E) as (l1 & l2 & s1 & s2 & -> & -> & K3 & -> & K5 & K6). exists l1, l2, s1, s2. repeat (split; [assumption || reflexivity|]). split; [|exact K6].
  destruct (c_result q) as [[[|y l]|]|]; [| | |inversion K5].
  - exfalso. apply read_ret in K5. destruct K5 as [E1 E2]. destruct (concat (map snd s1)); [discriminate E2|discriminate E1].
  - assert (l = []) as ->.
    { apply read_ret in K5. destruct K5 as [E1 E2]. destruct (concat (map snd s1)) as [|u [|v w]]; cbn [length] in E2; try lia. now injection E1. }
    now apply did_read_byte.
  - now apply did_read_byte_no.
Qed.

Lemma discover_done addrs : forall log segs, Forall addr_ addrs -> NoDup addrs -> done log segs -> Forall sound log ->
  let q := discover_loop addrs (map bdata (concat (map ans log))) in
  forall R, concat (map req log) = concat (c_written q) ++ R ->
  exists l1 l2 s1 s2 ack, log = l1 ++ l2 /\ segs = s1 ++ s2 /\ c_left q = map bdata (concat (map ans l2)) /\ R = concat (map req l2) /\
    c_result q = inl (filter ack addrs) /\
    concat (map fst s1) = map (fun a => (Beat false true (false, 2 * a), negb (ack a))) addrs /\ concat (map snd s1) = [] /\
    done l2 s2 /\ Forall sound l2.
Proof.
  induction addrs as [|a addrs IH]; intros log segs HA ND D S q R E.
  - exists [], log, [], segs, (fun _ => true). cbn in *. auto 10.
  - inversion HA; subst. inversion ND as [|? ? NI ND']; subst.
    assert (F : forall R, concat (map req log) = [2 * a; 0] ++ R -> _) by (intros R0; exact (first_write a [] log segs R0 D S)).
    unfold q in *. clear q. cbn [discover_loop] in *. unfold request in *. rewrite hdr_write in *. rewrite bytearray_ok in * by (constructor; [now apply addr_hdr|]; constructor; [unfold is_byte; lia|constructor]).
    destruct (map bdata (concat (map ans log))) as [|st input] eqn:EI.
    { cbn [c_written c_result concat] in E. rewrite app_nil_r in E. destruct (F R E) as (ok & l2 & g & s2 & -> & _). destruct ok; discriminate. }
    cbn [c_written c_left c_result] in E |- *. set (q2 := discover_loop addrs input) in *.
    assert (E' : concat (map req log) = [2 * a; 0] ++ concat (c_written q2) ++ R) by (rewrite E; rewrite concat_app; cbn [concat]; rewrite app_nil_r, <- app_assoc; reflexivity).
    destruct (F _ E') as (ok & l2 & g & s2 & -> & -> & W & G & ER & D2 & S2).
    cbn [map ans concat] in EI. rewrite map_app in EI. cbn [map app] in EI. injection EI as <- <-.
    replace (bdata (status_beat (if ok then 0 else 1)) =? 0) with ok in * by (destruct ok; reflexivity).
    destruct (IH l2 s2 ltac:(assumption) ND' D2 S2 R (eq_sym ER)) as (m1 & m2 & n1 & n2 & ack & -> & -> & I3 & I4 & I5 & I6 & I7 & I8 & I9). fold q2 in I3, I5.
    exists (Wrote (2 * a) [] [status_beat (if ok then 0 else 1)] :: m1), m2, (g :: n1), n2, (fun b => if b =? a then ok else ack b).
    split; [reflexivity|]. split; [reflexivity|]. split; [exact I3|]. split; [exact I4|]. rewrite I5. cbn [filter map]. rewrite Z.eqb_refl.
    assert (EX : forall b, In b addrs -> (if b =? a then ok else ack b) = ack b) by (intros b HB; destruct (Z.eqb_spec b a); [subst; contradiction|reflexivity]).
    split; [rewrite (filter_ext_in _ ack addrs EX); destruct ok; reflexivity|]. cbn [concat]. rewrite I6, I7, G. split; [|auto].
    assert (EW : fst g = [(Beat false true (false, 2 * a), negb ok)]).
    { inversion W as [|good b rest EQ]; [reflexivity|]. destruct good as [|y [|z good]]; try discriminate EQ. injection EQ as <- _. reflexivity. }
    rewrite EW. cbn [app]. f_equal. apply map_ext_in. intros b HB. now rewrite EX.
Qed.

Lemma op_ok width o log segs : 0 <= width -> fits width o -> done log segs -> Forall sound log -> op_done width o log segs.
Proof.
  intros HW HF D S. destruct o; [now apply write_done|now apply read_done|now apply write_byte_done|now apply read_byte_done|].
  unfold op_done, do_op, returned, discover. intros R E.
  destruct (discover_done (map Z.of_nat (seq 0 128)) log segs) with (R := R) as (l1 & l2 & s1 & s2 & ack & E1 & E2 & E3 & E4 & E5 & E6 & E7 & E8 & E9); auto.
  - apply Forall_forall. intros x HX. apply in_map_iff in HX. destruct HX as (k & <- & HK). apply in_seq in HK. unfold addr_. lia.
  - apply Injective_map_NoDup; [intros x y; apply Nat2Z.inj|apply seq_NoDup].
  - exists l1, l2, s1, s2. repeat (split; [assumption|]). split; [|auto]. rewrite E5, E6, E7. apply did_discover.
Qed.

(** ** Programs. *)
Lemma ops_ok width prog : forall log segs, 0 <= width -> Forall (fits width) prog -> done log segs -> Forall sound log ->
  let '(w, unread, xs) := run_ops width prog (map bdata (concat (map ans log))) in
  concat (map req log) = w ->
  unread = [] /\ carried_out width prog xs (concat (map fst segs)) (concat (map snd segs)).
Proof.
  induction prog as [|o prog IH]; intros log segs HW HF D S; cbn [run_ops].
  - intros E. destruct log as [|e log]; [inversion D; subst; split; [reflexivity|constructor]|].
    destruct e; discriminate E.
  - inversion HF; subst. pose proof (op_ok width o log segs HW ltac:(assumption) D S) as K. unfold op_done in K.
    destruct (do_op width o _) as [[w unread] x]. destruct (run_ops width prog unread) as [[w' unread'] xs] eqn:ER. intros E.
    destruct (K w' E) as (l1 & l2 & s1 & s2 & -> & -> & K3 & K4 & K5 & K6 & K7). subst unread.
    specialize (IH l2 s2 HW ltac:(assumption) K6 K7). rewrite ER in IH. destruct (IH (eq_sym K4)) as (-> & P).
    split; [reflexivity|]. rewrite !map_app, !concat_app. constructor; assumption.
Qed.

(** C123, at the byte streams of the I2C core. *)
Theorem C123_core : forall period stretch oe ins width prog,
  let t := trace (i2c_proto period stretch oe) ins in
  good_host t -> fst (host_view (map po_io t)) = HIdle ->
  0 <= width -> Forall (fits width) prog ->
  let '(written, unread, results) := run_ops width prog (map bdata (emitted (map po_io t))) in
  map bdata (accepted (map po_io t)) = written ->
  unread = [] /\ carried_out width prog results (served (map po_i2c t)) (emitted (map so_io (map po_i2c t))).
Proof.
  intros period stretch oe ins width prog t HG HI HW HF. pose proof (C51_exchanges period stretch oe ins HG) as K. fold t in K.
  pose proof (log_bytes (map po_io t)) as L. destruct (host_view (map po_io t)) as [h log]. cbn [fst] in HI. subst h.
  destruct L as (L1 & L2 & L3 & _); [discriminate|]. destruct K as (_ & segs & beats & data & K1 & K2 & K3 & K4). destruct (K4 eq_refl) as [-> ->].
  cbn [req_part ans_part] in L1, L2. rewrite app_nil_r in *. rewrite L1, L2, K2, K3. now apply ops_ok.
Qed.

(** C123, over the UART of the bridge example. *)
Theorem C123_bridge : forall period stretch oe ins width prog, 1 <= period ->
  let t := trace (i2c_bridge period stretch oe) ins in
  good_user (36 * (period / 4 + 1) - 1) t -> fst (uart_view t) = HIdle ->
  0 <= width -> Forall (fits width) prog ->
  let '(written, unread, results) := run_ops width prog (map bdata (emitted (map uart t))) in
  map bdata (accepted (map uart t)) = written ->
  unread = [] /\ carried_out width prog results (served (i2c_of t)) (emitted (map so_io (i2c_of t))).
Proof.
  intros period stretch oe ins width prog HP t HG HI HW HF. pose proof (C122_bridge_partial period stretch oe ins HP HG) as K. fold t in K.
  unfold uart_view in *. pose proof (log_bytes (map uart t)) as L. destruct (host_view (map uart t)) as [h log]. cbn [fst] in HI. subst h.
  destruct L as (L1 & L2 & L3 & _); [discriminate|]. destruct K as (_ & later & segs & beats & data & K1 & _ & K2 & K3 & K4). destruct (K4 eq_refl) as (-> & -> & ->).
  cbn [req_part ans_part] in L1, L2. rewrite app_nil_r in *. rewrite L1, L2, K2, K3. now apply ops_ok.
Qed.

(** A program of three calls: the device answers the first two, then is gone. *)
Definition end_prog : list op := [OWrite 0x10 0x11 [0x22; 0x33]; ORead 0x10 0x44 2; OWriteByte 0x10 0x55 0x66].
Definition end_script : list br_in :=
  let c := i2c_bridge 4 false true in
  with_device c released (creset c)
    (at_rate 9 [0x20; 3; 0x11; 0x22; 0x33] ++ repeat rx0 320 ++ at_rate 9 [0x20; 1; 0x44] ++ repeat rx0 250 ++ at_rate 9 [0x21; 2] ++ repeat rx0 400) ++
  at_rate 9 [0x20; 2; 0x55; 0x66] ++ repeat rx0 150.
Example C123_nonvacuous :
  let t := trace (i2c_bridge 4 false true) end_script in
  good_user (36 * (4 / 4 + 1) - 1) t /\ fst (uart_view t) = HIdle /\ Forall (fits 8) end_prog /\
  run_ops 8 end_prog (map bdata (emitted (map uart t))) =
    (map bdata (accepted (map uart t)), [], [RWrite (Some 2); RRead (Some [0xff; 0xff]); RDone]) /\
  commands (map so_i2c (i2c_of t)) =
    [CStart; CWrite 0x20; CWrite 0x11; CWrite 0x22; CWrite 0x33; CStop;
     CStart; CWrite 0x20; CWrite 0x44; CStop; CStart; CWrite 0x21; CRead true; CRead false; CStop; CStart; CWrite 0x20; CStop].
Proof.
  cbv zeta. split; [apply good_userb_ok; vm_compute; reflexivity|]. split; [vm_compute; reflexivity|].
  split; [|vm_compute; auto]. repeat constructor; unfold addr_, byte_; cbn; try lia.
Qed.
(** The same program straight on the core (the requests of C51's run: a write with a
    register of 8 bits, a bare read is not a call of this class). *)
Example C123_nonvacuous_core :
  let c := i2c_proto 4 false true in
  let ins := map (fun o => (o_sink (po_io o), o_rready (po_io o), (ii_sda_pad (io_in (so_i2c (po_i2c o))), ii_scl_pad (io_in (so_i2c (po_i2c o))))))
               (map bo_pr (trace (i2c_bridge 4 false true) end_script)) in
  let t := trace c ins in
  good_host t /\ fst (host_view (map po_io t)) = HIdle /\
  run_ops 8 end_prog (map bdata (emitted (map po_io t))) =
    (map bdata (accepted (map po_io t)), [], [RWrite (Some 2); RRead (Some [0xff; 0xff]); RDone]).
Proof.
  cbv zeta. split; [apply good_hostb_ok; vm_compute; reflexivity|]. vm_compute. auto.
Qed.

Print Assumptions C123_core.
Print Assumptions C123_bridge.
