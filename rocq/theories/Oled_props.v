(** The display as seen on the panel: property C116. *)
From Verif Require Import Stream Mem_model I2cstream_proofs Lcd_model Mem_spec Lcd_spec Lcd_proofs Lcd_boot Lcd_props Oled_spec.

(** ** What the panel receives is what the driver feeds its wrapper. *)
Definition payload (b : beat (bool * Z)) : bool * Z := bdata b.

(** Within a packet all bytes are commands, or all are data. *)
Fixpoint uniform (prev : option bool) (l : list (beat (bool * Z))) : Prop :=
  match l with
  | [] => True
  | b :: l' => (match prev with Some d => fst (bdata b) = d | None => True end) /\
               uniform (if blast b then None else Some (fst (bdata b))) l'
  end.
Definition last_of (prev : option bool) (l : list (beat (bool * Z))) : option bool :=
  fold_left (fun _ b => if blast b then None else Some (fst (bdata b))) l prev.
Lemma uniform_app l1 : forall prev l2, uniform prev (l1 ++ l2) <-> uniform prev l1 /\ uniform (last_of prev l1) l2.
Proof.
  induction l1 as [|b l1 IH]; intros prev l2; cbn [app uniform last_of fold_left]; [tauto|].
  rewrite IH. unfold last_of. tauto.
Qed.
Lemma last_of_app prev l1 l2 : last_of prev (l1 ++ l2) = last_of (last_of prev l1) l2.
Proof. apply fold_left_app. Qed.
Lemma uniform_firstn n : forall l prev, uniform prev l -> uniform prev (firstn n l).
Proof. induction n; intros [|b l] prev H; cbn [firstn uniform] in *; auto. destruct H. auto. Qed.

Lemma uniform_cmds l : forall prev, prev = None -> uniform prev (cmds l) /\ last_of prev (cmds l) = None.
Proof.
  induction l as [|c l IH]; intros prev ->; [split; [exact I|reflexivity]|].
  cbn [cmds map uniform cmd_beat blast last_of fold_left]. destruct (IH None eq_refl). repeat split; auto.
Qed.
Lemma uniform_blank n : uniform None (blank n) /\ last_of None (blank n) = None.
Proof.
  unfold blank. rewrite uniform_app, last_of_app. split; [|reflexivity].
  assert (H : forall m, uniform (Some true) (repeat (Beat false false (true, 0)) m) /\
             (last_of (Some true) (repeat (Beat false false (true, 0)) m) = Some true)).
  { induction m as [|m [I1 I2]]; cbn [repeat uniform last_of fold_left blast bdata fst]; auto. }
  destruct (n - 1)%nat as [|m]; cbn [repeat uniform last_of fold_left blast bdata fst]; [auto|].
  destruct (H m) as [H1 H2]. unfold last_of in H2. rewrite H2. cbn. auto.
Qed.
Lemma uniform_boot g : uniform None (boot g) /\ last_of None (boot g) = None.
Proof.
  unfold boot. rewrite !uniform_app, !last_of_app.
  destruct (uniform_cmds (init_cmds g) None eq_refl) as [A ->]. destruct (uniform_cmds (display_cmds g) None eq_refl) as [B ->].
  destruct (uniform_blank (Z.to_nat (l_size g))) as [C ->]. auto.
Qed.
Lemma uniform_show g us : 1 <= l_size g -> forall k, 0 <= k ->
  uniform (if k =? 0 then None else Some true) (show g k us) /\
  last_of (if k =? 0 then None else Some true) (show g k us) = (if show_pos g k us =? 0 then None else Some true).
Proof.
  intros Hz. induction us as [|u us IH]; intros k Hk; cbn [show show_pos]; [split; [exact I|reflexivity]|].
  set (f := blast u || (k =? l_size g - 1)). set (k' := if f then 0 else k + 1).
  assert (E : (if k' =? 0 then None else Some true) = (if f then None else Some true)).
  { unfold k'. destruct f; [reflexivity|]. now rewrite (proj2 (Z.eqb_neq (k + 1) 0)) by lia. }
  destruct (IH k') as [A B]; [unfold k'; destruct f; lia|]. rewrite E in A, B.
  rewrite uniform_app, last_of_app.
  assert (P : exists q, (q = None \/ q = Some true) /\ uniform (if k =? 0 then None else Some true) (if k =? 0 then cmds (display_cmds g) else []) /\
     last_of (if k =? 0 then None else Some true) (if k =? 0 then cmds (display_cmds g) else []) = q).
  { destruct (k =? 0).
    - destruct (uniform_cmds (display_cmds g) None eq_refl). exists None. auto.
    - exists (Some true). repeat split; auto. }
  destruct P as (q & Q & P1 & ->). cbn [uniform last_of fold_left blast bdata fst].
  change (fold_left _ (show g k' us) ?x) with (last_of x (show g k' us)).
  split; [|exact B]. split; [exact P1|]. split; [destruct Q as [-> | ->]; auto|exact A].
Qed.

Lemma decode_app l1 : forall s l2, decode s (l1 ++ l2) = decode s l1 ++ decode (fold_left rx_next l1 s) l2.
Proof. induction l1 as [|b l1 IH]; intros s l2; cbn [app decode fold_left]; [reflexivity|]. now rewrite IH, app_assoc. Qed.

(** The bytes of a packet, once the control byte has been received. *)
Lemma decode_bytes d p : uniform (Some d) p -> no_last p ->
  decode (RxBytes d) (map data_beat p) = map payload p /\ fold_left rx_next (map data_beat p) (RxBytes d) = RxBytes d.
Proof.
  induction p as [|b p IH]; intros H N; [split; reflexivity|]. apply Forall_cons_iff in N. destruct N as [N N'].
  cbn [uniform] in H. destruct H as [H H']. rewrite N, H in H'. destruct (IH H' N') as [A B].
  cbn [map decode fold_left app]. assert (R : rx_next (RxBytes d) (data_beat b) = RxBytes d) by (unfold rx_next, data_beat; cbn; now rewrite N).
  rewrite R, A, B. split; [|reflexivity]. f_equal. unfold payload, data_beat. cbn. rewrite <- H. now destruct (bdata b).
Qed.
Lemma decode_head d (l : list (beat (bool * Z))) : decode RxIdle (addr_beat :: ctrl_beat d :: l) = decode (RxBytes d) l /\
  fold_left rx_next (addr_beat :: ctrl_beat d :: l) RxIdle = fold_left rx_next l (RxBytes d).
Proof. destruct d; split; reflexivity. Qed.
Lemma decode_part p : uniform None p -> no_last p -> p <> [] -> decode RxIdle (lcd_frame p) = map payload p.
Proof.
  destruct p as [|b p]; [congruence|]. intros H N _. unfold lcd_frame. rewrite (proj1 (decode_head _ _)).
  apply decode_bytes; [|exact N]. cbn [uniform] in *. split; [reflexivity|apply H].
Qed.
Lemma decode_whole p : uniform None p -> whole p ->
  decode RxIdle (lcd_frame p) = map payload p /\ fold_left rx_next (lcd_frame p) RxIdle = RxIdle.
Proof.
  intros H (q & b & -> & N & L). unfold lcd_frame.
  set (d := match q ++ [b] with x :: _ => fst (bdata x) | [] => false end).
  destruct (decode_head d (map data_beat (q ++ [b]))) as [-> ->].
  assert (U : uniform (Some d) (q ++ [b])).
  { unfold d. destruct q as [|x q]; cbn [app uniform] in *; (split; [reflexivity|apply H]). }
  rewrite map_app, map_app, decode_app, fold_left_app. apply uniform_app in U. destruct U as [U1 U2].
  destruct (decode_bytes d q U1 N) as [-> ->]. cbn [map decode fold_left app]. split.
  - f_equal. unfold payload, data_beat. cbn. f_equal.
    assert (last_of (Some d) q = Some d) as E.
    { clearbody d. clear - U1 N. induction q as [|x q IH]; [reflexivity|]. apply Forall_cons_iff in N. destruct N as [N N'].
      cbn [uniform] in U1. destruct U1 as [<- U1]. rewrite N in U1. cbn [last_of fold_left]. rewrite N. apply IH; auto. }
    rewrite E in U2. destruct U2 as [<- _]. now destruct (bdata b).
  - unfold rx_next, data_beat. cbn. now rewrite L.
Qed.

Lemma whole_last_of p prev : whole p -> last_of prev p = None.
Proof. intros (q & b & -> & _ & L). rewrite last_of_app. cbn. now rewrite L. Qed.

Lemma decode_packets ps : forall rest more, Forall whole ps -> no_last rest -> uniform None (concat ps ++ rest) ->
  (rest <> [] -> more = lcd_frame rest) ->
  (rest = [] -> exists n b, more = firstn n (lcd_frame [b]) /\ (n <= 2)%nat) ->
  decode RxIdle (concat (map lcd_frame ps) ++ more) = map payload (concat ps ++ rest).
Proof.
  induction ps as [|p ps IH]; intros rest more Hw N U H1 H2; cbn [concat map app] in *.
  - destruct rest as [|b rest].
    + destruct (H2 eq_refl) as (n & b & -> & Hn). destruct n as [|[|[|n]]]; [reflexivity|reflexivity| |lia].
      cbn [firstn lcd_frame map]. rewrite (proj1 (decode_head _ _)). reflexivity.
    + rewrite H1 by discriminate. now apply decode_part.
  - apply Forall_cons_iff in Hw. destruct Hw as [Hp Hw]. rewrite <- app_assoc in U |- *. apply uniform_app in U. destruct U as [U1 U2].
    rewrite (whole_last_of p None Hp) in U2. destruct (decode_whole p U1 Hp) as [D1 D2].
    rewrite decode_app, D1, D2, (IH rest more) by auto. now rewrite <- map_app, app_assoc.
Qed.

(** ** The panel's RAM. *)
Definition prun (p : panel) (l : list (beat (bool * Z))) : panel := fold_left panel_byte (map payload l) p.
Lemma prun_app p l1 l2 : prun p (l1 ++ l2) = prun (prun p l1) l2.
Proof. unfold prun. now rewrite map_app, fold_left_app. Qed.

Lemma prun_init g p : In g lcds -> p_args p = [] ->
  prun p (cmds (init_cmds g)) =
  Panel (running (l_width g) (l_height g)) (p_c0 p) (p_c1 p) (p_g0 p) (p_g1 p) (p_col p) (p_page p) (p_ram p) [] (p_bad p).
Proof.
  intros Hg Ha. destruct p as [cfg c0 c1 g0 g1 col pg ram args bad]. cbn in Ha. subst args.
  cbn [In lcds] in Hg. repeat (destruct Hg as [<-|Hg]; [reflexivity|]). destruct Hg.
Qed.
Lemma prun_home g p : p_args p = [] ->
  prun p (cmds (display_cmds g)) =
  Panel (p_cfg p) (l_colstart g) (l_colstart g + l_width g - 1) 0 (l_pages g - 1) (l_colstart g) 0 (p_ram p) [] (p_bad p).
Proof. intros Ha. destruct p as [cfg c0 c1 g0 g1 col pg ram args bad]. cbn in Ha. subst args. reflexivity. Qed.
Lemma prun_home_part g p n : p_args p = [] -> let q := prun p (firstn n (cmds (display_cmds g))) in
  p_cfg q = p_cfg p /\ p_ram q = p_ram p /\ p_bad q = p_bad p.
Proof.
  intros Ha. destruct p as [cfg c0 c1 g0 g1 col pg ram args bad]. cbn in Ha. subst args.
  do 7 (destruct n as [|n]; [repeat split|]). repeat split.
Qed.

(** The pointer is at byte [k] of the frame. *)
Definition at_pos (g : lcd) (k : Z) (p : panel) : Prop :=
  p_c0 p = l_colstart g /\ p_c1 p = l_colstart g + l_width g - 1 /\ p_g0 p = 0 /\ p_g1 p = l_pages g - 1 /\
  p_col p = l_colstart g + k mod l_width g /\ p_page p = k / l_width g.
(** The RAM holds [img] inside the window and is [r0] outside. *)
Definition holds (g : lcd) (img : Z -> Z) (r0 r : Z -> Z -> Z) : Prop :=
  (forall x y, 0 <= x < l_width g -> 0 <= y < l_pages g -> r (l_colstart g + x) y = img (y * l_width g + x)) /\
  (forall x y, ~ (l_colstart g <= x < l_colstart g + l_width g /\ 0 <= y < l_pages g) -> r x y = r0 x y).

Lemma data_step g img r0 k d p : 0 < l_width g -> 0 <= k < l_size g -> at_pos g k p -> holds g img r0 (p_ram p) ->
  d_mode (p_cfg p) = 0 ->
  let q := data_byte d p in
  p_cfg q = p_cfg p /\ p_args q = p_args p /\ p_bad q = p_bad p /\
  holds g (fun j => if j =? k then d else img j) r0 (p_ram q) /\
  (k + 1 < l_size g -> at_pos g (k + 1) q).
Proof.
  intros Hw Hk (A1 & A2 & A3 & A4 & A5 & A6) [H1 H2] Hm q. unfold l_size in Hk |- *. unfold at_pos, holds in *. set (w := l_width g) in *.
  pose proof (Z.div_mod k w ltac:(lia)) as Ek. pose proof (Z.mod_pos_bound k w Hw) as Bk.
  remember (k / w) as a eqn:Va. remember (k mod w) as b eqn:Vb. clear Va Vb. assert (Hw0 : 0 < w) by exact Hw. clearbody w.
  assert (Ha : 0 <= a < l_pages g) by nia.
  assert (R : p_ram q = fun x y => if (x =? p_col p) && (y =? p_page p) then d else p_ram p x y)
    by (unfold q, data_byte; now destruct (_ =? p_c1 p)).
  assert (C : p_cfg q = p_cfg p /\ p_args q = p_args p /\ p_bad q = p_bad p).
  { unfold q, data_byte. rewrite Hm. cbn [Z.eqb negb]. rewrite orb_false_r. now destruct (_ =? p_c1 p). }
  destruct C as (C1 & C2 & C3). do 3 (split; [assumption|]). split.
  - rewrite R, A5, A6. split.
    + intros x y Hx Hy. destruct (y * w + x =? k) eqn:E.
      * apply Z.eqb_eq in E. assert (y = a) by nia. assert (x = b) by nia. subst. now rewrite !Z.eqb_refl.
      * apply Z.eqb_neq in E. destruct (l_colstart g + x =? l_colstart g + b) eqn:X, (y =? a) eqn:Y; cbn [andb]; auto.
        apply Z.eqb_eq in X, Y. exfalso. apply E. nia.
    + intros x y N. destruct (x =? l_colstart g + b) eqn:X, (y =? a) eqn:Y; cbn [andb]; auto.
      apply Z.eqb_eq in X, Y. exfalso. apply N. nia.
  - intros Hn. unfold q, data_byte. rewrite A1, A2, A3, A4, A5, A6.
    destruct (l_colstart g + b =? l_colstart g + w - 1) eqn:E; [apply Z.eqb_eq in E|apply Z.eqb_neq in E]; cbn [p_c0 p_c1 p_g0 p_g1 p_col p_page].
    + assert (D : (k + 1) / w = a + 1) by (symmetry; apply Z.div_unique with 0; nia).
      assert (M : (k + 1) mod w = 0) by (symmetry; apply Z.mod_unique with (a + 1); nia).
      rewrite D, M. destruct (a =? l_pages g - 1) eqn:F; [apply Z.eqb_eq in F; exfalso; nia|]. repeat split; lia.
    + assert (D : (k + 1) / w = a) by (symmetry; apply Z.div_unique with (b + 1); nia).
      assert (M : (k + 1) mod w = b + 1) by (symmetry; apply Z.mod_unique with a; nia).
      rewrite D, M. repeat split; lia.
Qed.

(** Between the bytes of frames. *)
Definition shown (g : lcd) (img : Z -> Z) (p0 : panel) (k : Z) (p : panel) : Prop :=
  p_cfg p = running (l_width g) (l_height g) /\ p_args p = [] /\ p_bad p = p_bad p0 /\
  holds g img (p_ram p0) (p_ram p) /\ (k <> 0 -> at_pos g k p).

Lemma width_pos g : In g lcds -> 0 < l_width g.
Proof. intros Hg. cbn [In lcds] in Hg. repeat (destruct Hg as [<-|Hg]; [reflexivity|]). destruct Hg. Qed.
Lemma mode0 w h : d_mode (running w h) = 0.
Proof. unfold running. now destruct (wiring w h) as [[? ?] ?]. Qed.

Lemma home_shown g img p0 p : In g lcds -> shown g img p0 0 p ->
  shown g img p0 0 (prun p (cmds (display_cmds g))) /\ at_pos g 0 (prun p (cmds (display_cmds g))).
Proof.
  intros Hg (S1 & S2 & S3 & S4 & _). pose proof (width_pos g Hg) as Hw. rewrite prun_home by assumption. split.
  - split; [exact S1|]. split; [reflexivity|]. split; [exact S3|]. split; [exact S4|]. intros H0. now destruct H0.
  - repeat split; cbn; rewrite ?Z.mod_0_l, ?Z.div_0_l by lia; lia.
Qed.

Lemma byte_shown g img p0 k p d : In g lcds -> 0 <= k < l_size g -> shown g img p0 k p -> at_pos g k p ->
  shown g (fun j => if j =? k then d else img j) p0 0 (data_byte d p) /\
  (k + 1 < l_size g -> shown g (fun j => if j =? k then d else img j) p0 (k + 1) (data_byte d p)).
Proof.
  intros Hg Hk (S1 & S2 & S3 & S4 & _) A. pose proof (width_pos g Hg) as Hw.
  destruct (data_step g img (p_ram p0) k d p Hw Hk A S4) as (C1 & C2 & C3 & C4 & C5); [rewrite S1; apply mode0|].
  unfold shown. rewrite C1, C2, C3. split.
  - do 4 (split; [assumption|]). intros H0. now destruct H0.
  - intros Hn. do 4 (split; [assumption|]). intros _. auto.
Qed.

Lemma show_shown g p0 us : In g lcds -> forall img k p, 0 <= k < l_size g -> shown g img p0 k p ->
  shown g (picture (l_size g) k img us) p0 (show_pos g k us) (prun p (show g k us)) /\ 0 <= show_pos g k us < l_size g.
Proof.
  intros Hg. pose proof (lcd_size g Hg) as Hz. induction us as [|u us IH]; intros img k p Hk Hs; cbn [picture show show_pos]; [auto|].
  set (f := blast u || (k =? l_size g - 1)).
  assert (P : exists p', prun p ((if k =? 0 then cmds (display_cmds g) else []) ++ [Beat false f (true, bdata u)]) = data_byte (bdata u) p' /\
               shown g img p0 k p' /\ at_pos g k p').
  { rewrite prun_app. exists (prun p (if k =? 0 then cmds (display_cmds g) else [])). split; [reflexivity|].
    destruct (k =? 0) eqn:E; [apply Z.eqb_eq in E; subst k; now apply home_shown|apply Z.eqb_neq in E].
    split; [exact Hs|]. now apply Hs. }
  destruct P as (p' & P & Q1 & Q2).
  change (?a ++ ?b :: ?c) with (a ++ [b] ++ c). rewrite app_assoc, prun_app, P.
  destruct (byte_shown g img p0 k p' (bdata u) Hg Hk Q1 Q2) as [B1 B2].
  destruct f eqn:F.
  - apply IH; [lia|exact B1].
  - unfold f in F. apply orb_false_elim in F. destruct F as [_ F]. apply Z.eqb_neq in F. apply IH; [lia|apply B2; lia].
Qed.

Lemma picture_ext n us : forall k i1 i2 j, i1 j = i2 j -> picture n k i1 us j = picture n k i2 us j.
Proof. induction us as [|u us IH]; intros k i1 i2 j E; cbn [picture]; auto. apply IH. now destruct (j =? k). Qed.

Lemma zeros_shown g p0 m : In g lcds -> forall img p, Z.of_nat m < l_size g -> shown g img p0 0 p -> at_pos g 0 p ->
  let q := prun p (repeat (Beat false false (true, 0)) m) in
  shown g (fun j => if (0 <=? j) && (j <? Z.of_nat m) then 0 else img j) p0 (Z.of_nat m) q /\ at_pos g (Z.of_nat m) q.
Proof.
  intros Hg img p Hm Hs Ha. induction m as [|m IH].
  - cbn [repeat]. change (prun p []) with p. cbv zeta. split; [|exact Ha].
    destruct Hs as (S1 & S2 & S3 & S4 & _). do 3 (split; [assumption|]). split; [|intros H0; now destruct H0]. split; [|apply S4].
    intros x y Hx Hy. rewrite (proj1 S4) by assumption. set (j := y * l_width g + x). clearbody j. clear.
    destruct (Z.leb_spec 0 j), (Z.ltb_spec j (Z.of_nat 0)); cbn [andb]; try reflexivity; lia.
  - destruct IH as [I1 I2]; [lia|]. set (q := prun p (repeat (Beat false false (true, 0)) m)) in *.
    assert (E : prun p (repeat (Beat false false (true, 0)) (S m)) = data_byte 0 q).
    { replace (S m) with (m + 1)%nat by lia. rewrite repeat_app, prun_app. reflexivity. }
    cbv zeta. rewrite E. destruct (byte_shown g _ p0 (Z.of_nat m) q 0 Hg ltac:(lia) I1 I2) as [_ B].
    specialize (B ltac:(lia)). replace (Z.of_nat (S m)) with (Z.of_nat m + 1) by lia. split; [|apply B; lia].
    destruct B as (B1 & B2 & B3 & [B4 B4'] & B5). do 3 (split; [assumption|]). split; [|exact B5]. split; [|exact B4'].
    intros x y Hx Hy. rewrite B4 by assumption. set (j := y * l_width g + x). clearbody j. clear.
    destruct (Z.eqb_spec j (Z.of_nat m)), (Z.leb_spec 0 j), (Z.ltb_spec j (Z.of_nat m)), (Z.ltb_spec j (Z.of_nat m + 1)); cbn [andb]; try reflexivity; lia.
Qed.

Lemma boot_shown g p : In g lcds -> p_args p = [] -> shown g (fun _ => 0) p 0 (prun p (boot g)).
Proof.
  intros Hg Ha. pose proof (lcd_size g Hg) as Hz. pose proof (width_pos g Hg) as Hw.
  unfold boot. rewrite prun_app, prun_init by assumption.
  set (p1 := Panel _ _ _ _ _ _ _ _ _ _).
  rewrite prun_app.
  set (img0 := fun j => p_ram p (l_colstart g + j mod l_width g) (j / l_width g)).
  assert (S1 : shown g img0 p 0 p1).
  { do 3 (split; [reflexivity|]). split; [|intros H0; now destruct H0]. split; [|reflexivity]. intros x y Hx Hy. unfold img0, p1. cbn [p_ram].
    rewrite Z.add_comm with (n := y * l_width g), Z.mod_add, Z.div_add by lia. rewrite Z.mod_small, Z.div_small by lia. now rewrite Z.add_0_l. }
  destruct (home_shown g img0 p p1 Hg S1) as [S2 A2]. set (p2 := prun p1 _) in *.
  unfold blank. rewrite prun_app. destruct (zeros_shown g p (Z.to_nat (l_size g) - 1) Hg img0 p2 ltac:(lia) S2 A2) as [S3 A3].
  set (p3 := prun p2 _) in *. change (prun p3 [Beat false true (true, 0)]) with (data_byte 0 p3).
  destruct (byte_shown g _ p (Z.of_nat (Z.to_nat (l_size g) - 1)) p3 0 Hg ltac:(lia) S3 A3) as [(B1 & B2 & B3 & [B4 B4'] & B5) _].
  do 3 (split; [assumption|]). split; [|intros H0; now destruct H0]. split; [|exact B4']. intros x y Hx Hy. rewrite B4 by assumption.
  assert (Hj : 0 <= y * l_width g + x < l_size g) by (unfold l_size; nia). set (j := y * l_width g + x) in *. clearbody j.
  set (n1 := Z.of_nat (Z.to_nat (l_size g) - 1)). assert (n1 = l_size g - 1) by lia. clearbody n1.
  destruct (Z.eqb_spec j n1), (Z.leb_spec 0 j), (Z.ltb_spec j n1); cbn [andb]; try reflexivity; lia.
Qed.

(** The I2C bytes the driver has sent. *)
Definition i2c_sent (t : list ld_obs) : list (beat (bool * Z)) :=
  flat_map (fun o => xfer (o_src (lo_io (ld_wrap o))) (o_rready (lo_io (ld_wrap o)))) t.

(** ** C116: the screen shows what the user sent.
    Take any panel, whatever its settings and RAM (but not in the middle of a
    command), a display of any supported size, started once, whose I2C transfers
    succeed, and a user obeying the stream rule.  Whenever ready is high: the
    panel is on and set up for its size; it has received no unknown command; its
    visible RAM is the picture made of the frames accepted so far over a blank
    screen (byte k of a frame at column k mod width, page k / width); and the
    rest of its RAM is as it was. *)
Theorem C116_screen : forall g por ins t1 o t2 p, In g lcds ->
  trace (ssd1306 g por) ins = t1 ++ o :: t2 -> started_once por t1 -> ld_stable t1 ->
  (forall x, In x t1 -> lo_err (ld_wrap x) = false) -> ld_ready o = true -> p_args p = [] ->
  let q := panel_rx p (i2c_sent t1) in
  let w := l_width g in let h := l_height g in let c0 := snd (wiring w h) in
  p_cfg q = running w h /\ p_bad q = p_bad p /\
  (forall x y, 0 <= x < w -> 0 <= y < h / 8 ->
     p_ram q (c0 + x) y = picture (w * (h / 8)) 0 (fun _ => 0) (ld_user t1) (y * w + x)) /\
  (forall x y, ~ (c0 <= x < c0 + w /\ 0 <= y < h / 8) -> p_ram q x y = p_ram p x y).
Proof.
  intros g por ins t1 o t2 p Hg E Hst Hsb He Hr Hp q w h c0.
  destruct (C41_ready g por ins t1 o t2 Hg E Hst) as [[Hb _] _]. destruct (Hb Hr) as [l Hl].
  apply trace_one in E. destruct E as (a & i & b & -> & <- & ->). set (t := trace (ssd1306 g por) a) in *.
  pose proof (lcd_size g Hg) as Hz.
  assert (F : exists n, ld_fed t = boot g ++ show g 0 (ld_user t) ++ firstn n (if show_pos g 0 (ld_user t) =? 0 then cmds (display_cmds g) else [])).
  { destruct (C41_sequence g por a Hg Hst) as [(U & n & Hn)|H]; [|exact H]. fold t in U, Hn. rewrite U. cbn [show show_pos Z.eqb].
    exists 0%nat. rewrite firstn_O, !app_nil_r. rewrite Hn in Hl |- *.
    assert (L : (length (boot g) <= length (firstn n (boot g)))%nat) by (rewrite Hl, app_length; lia).
    apply firstn_all2. rewrite firstn_length in L. lia. }
  destruct F as [n F].
  destruct (C41_i2c g por a Hg Hst Hsb He) as (ps & rest & more & F1 & F2 & F3 & F4 & F5 & F6). fold t in F1, F2.
  destruct (uniform_boot g) as [U1 U2]. destruct (uniform_show g (ld_user t) ltac:(lia) 0 ltac:(lia)) as [U3 U4]. cbn [Z.eqb] in U3, U4.
  assert (D : decode RxIdle (i2c_sent t) = map payload (ld_fed t)).
  { unfold i2c_sent. rewrite F2, F1. apply decode_packets; auto. rewrite <- F1, F.
    rewrite !uniform_app, U2, U4. split; [exact U1|]. split; [exact U3|]. apply uniform_firstn.
    destruct (_ =? 0); [apply uniform_cmds; reflexivity|exact I]. }
  assert (Q : q = prun (prun (prun p (boot g)) (show g 0 (ld_user t))) (firstn n (if show_pos g 0 (ld_user t) =? 0 then cmds (display_cmds g) else []))).
  { unfold q, panel_rx. rewrite D, F. now rewrite <- !prun_app. }
  pose proof (boot_shown g p Hg Hp) as B. destruct (show_shown g p (ld_user t) Hg _ 0 _ ltac:(lia) B) as [(S1 & S2 & S3 & S4 & _) _].
  set (p3 := prun (prun p (boot g)) (show g 0 (ld_user t))) in *.
  assert (R : p_cfg q = p_cfg p3 /\ p_ram q = p_ram p3 /\ p_bad q = p_bad p3).
  { rewrite Q. destruct (_ =? 0); [now apply prun_home_part|]. now rewrite firstn_nil. }
  destruct R as (-> & -> & ->).
  assert (C0 : c0 = l_colstart g).
  { unfold c0, w, h. clear - Hg. cbn [In lcds] in Hg. repeat (destruct Hg as [<-|Hg]; [reflexivity|]). destruct Hg. }
  rewrite C0. split; [exact S1|]. split; [exact S3|]. exact S4.
Qed.

(** The supported screens. *)
Theorem C116_sizes : forall w h, (exists g, In g lcds /\ l_width g = w /\ l_height g = h) <->
  In (w, h) [(128, 64); (128, 32); (96, 16); (64, 48); (64, 32)].
Proof.
  intros w h. split.
  - intros (g & Hg & <- & <-). cbn [In lcds] in Hg. cbn [In].
    repeat (destruct Hg as [<-|Hg]; [cbn; tauto|]). destruct Hg.
  - intros H. cbn [In] in H.
    repeat (destruct H as [H|H]; [injection H as <- <-|]); [..|destruct H].
    + exists (Lcd 128 64 0x80 0x12 0). cbn. auto.
    + exists (Lcd 128 32 0x80 0x02 0). cbn. auto.
    + exists (Lcd 96 16 0x60 0x02 0). cbn. auto.
    + exists (Lcd 64 48 0x80 0x12 32). cbn. auto 10.
    + exists (Lcd 64 32 0x80 0x12 32). cbn. auto 10.
Qed.

(** The run of C41_nonvacuous on a panel holding garbage: the display is ready,
    and what the panel then holds at some corners of the 96x16 screen and beside it. *)
Definition garbage : panel := Panel (Settings false 0 0 5 9 0 2 false false 0 0 0 0 true true) 7 9 1 3 8 2 (fun x y => x + 3 * y) [] false.
Example C116_nonvacuous : let t := trace (ssd1306 g0 true) (busy_in 700) in
  In g0 lcds /\ started_once true t /\ ld_stable t /\ (forall o, In o t -> lo_err (ld_wrap o) = false) /\
  existsb ld_ready t = true /\
  let q := panel_rx garbage (i2c_sent t) in
  p_cfg q = running 96 16 /\ p_bad q = false /\
  map (fun xy => p_ram q (fst xy) (snd xy)) [(0, 0); (95, 0); (0, 1); (95, 1); (96, 1); (0, 2)] = [0x5A; 0x5A; 0x5A; 0x5A; 99; 6].
Proof.
  cbv zeta. destruct C41_nonvacuous as (H1 & H2 & H3 & H4 & _). do 4 (split; [assumption|]).
  split; [vm_compute; reflexivity|]. split; [vm_compute; reflexivity|]. split; vm_compute; reflexivity.
Qed.

Print Assumptions C116_screen.
Print Assumptions C116_sizes.
