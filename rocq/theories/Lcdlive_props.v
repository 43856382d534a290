(** SSD1306 driver: bounded response, property C108. *)
From Verif Require Import Stream Progress Pipe_model Mem_model Mem_spec Mem_proofs I2cstream_proofs I2cinit_props Lcd_model Lcd_spec Lcd_boot.

(** The wrapper's remaining transfers for a byte offered to it. *)
Definition w_wt (s : lw_state) : nat := match s with LwAddr => 3 | LwControl => 2 | _ => 1 end.
Lemma w_wt_pos s : (1 <= w_wt s <= 3)%nat.
Proof. destruct s; cbn; lia. Qed.

(** The work left in a command reader. *)
Section Reader.
  Context (l : list Z) (Hl : (1 <= length l)%nat).
  Definition rd_ok (x : mr_state * chan Z) : Prop := exists k, mr_ok l (fst x) k.
  Definition rd_rem (x : mr_state) : nat := if mr_done x then 0 else length l - Z.to_nat (mr_rd x).
  Definition rd_wt (w : lw_state) (x : mr_state * chan Z) : nat :=
    (5 * rd_rem (fst x) + (if mr_wait (fst x) then 1 else 0) + (if cvalid (snd x) then w_wt w else 0))%nat.
  Lemma rd_rem_ok x k : mr_ok l x k -> rd_rem x = (length l - k)%nat.
  Proof.
    intros (H1 & H2 & H3 & _). unfold rd_rem. rewrite H2. destruct (Nat.eqb_spec k (length l)); [lia|].
    rewrite H3 by lia. lia.
  Qed.
  Lemma rd_wt_max w x : rd_ok x -> (rd_wt w x <= 5 * length l + 4)%nat.
  Proof. intros (k & Hk). unfold rd_wt. rewrite (rd_rem_ok _ k Hk). pose proof (w_wt_pos w). destruct (mr_wait _), (cvalid _); lia. Qed.
  Lemma rd_ok_next x i : rd_ok x -> rd_ok (cnext (mem_reader_buffered l) x i).
  Proof.
    intros (k & Hk). destruct i as [rw r]. cbn [mem_reader_buffered cnext fst snd]. destruct rw.
    - exists 0%nat. now apply mr_ok_rewind.
    - eexists. cbn [fst]. apply mr_ok_step; [exact Hl|exact Hk].
  Qed.
  (** A cycle of a reader feeding the wrapper. *)
  Lemma rd_step (x : mr_state * chan Z) (w : lw_state) (wr : bool) (w' : lw_state) (tick : bool) :
    rd_ok x -> mr_done (fst x) && negb (cvalid (snd x)) = false ->
    (cvalid (snd x) = true -> if wr then w' = LwAddr else (w_wt w' + (if tick then 1 else 0) <= w_wt w)%nat) ->
    (cvalid (snd x) = false -> w' = w) ->
    ((if tick then 1 else 0) + rd_wt w' (cnext (mem_reader_buffered l) x (false, wr)) <= rd_wt w x)%nat.
  Proof.
    intros (k & Hk) Hd Hv Hi. pose proof (w_wt_pos w). pose proof (w_wt_pos w').
    unfold rd_wt. cbn [mem_reader_buffered cnext fst snd pipe_valid rdy nxt].
    pose proof (mr_ok_step l Hl (fst x) k (pv_en (snd x) wr) Hk) as Hn. pose proof (mr_ok_src l Hl (fst x) k Hk) as [Hs _].
    rewrite (rd_rem_ok _ _ Hn), (rd_rem_ok _ k Hk). pose proof Hk as (K1 & K2 & K3 & K4 & K5).
    cbn [mr_next mr_wait]. unfold pv_en in *. rewrite Hs in *.
    destruct (cvalid (snd x)) eqn:Ev; cbn [negb orb] in *.
    - specialize (Hv eq_refl). destruct wr; cbn [andb]; rewrite ?andb_true_r, ?andb_false_r, ?Ev.
      + rewrite Hs. destruct (mr_wait (fst x)); cbn [negb andb]; [destruct tick; lia|].
        destruct (Nat.ltb_spec k (length l)); destruct tick; lia.
      + destruct (mr_wait (fst x)); destruct tick; lia.
    - rewrite andb_true_r in *. rewrite (Hi eq_refl), Hs. rewrite Hd in K2. symmetry in K2. apply Nat.eqb_neq in K2.
      destruct (mr_wait (fst x)); cbn [negb andb]; [destruct tick; lia|].
      destruct (Nat.ltb_spec k (length l)); destruct tick; lia.
  Qed.
End Reader.

Section Live.
  Context (g : lcd) (por : bool) (Hg : In g lcds).
  Let c := ssd1306 g por.
  Let n := Z.to_nat (l_size g).

  Definition lv_inv (s : cst c) : Prop :=
    0 <= lcnt g s < l_size g /\ rd_ok (init_cmds g) (linit g s) /\ rd_ok (display_cmds g) (ldisp g s) /\
    match lf g s with LUnknown | LReset | LInit => lrdy g s = false | _ => True end.

  Lemma lv_inv0 : lv_inv (creset c).
  Proof.
    pose proof (lcd_size g Hg). unfold lv_inv. cbn. split; [lia|]. repeat split.
    - exists 0%nat. apply (mr_ok_reset (init_cmds g)). cbn. lia.
    - exists 0%nat. apply (mr_ok_reset (display_cmds g)). cbn. lia.
  Qed.

  Lemma lv_inv_next s i : lv_inv s -> lv_inv (cnext c s i).
  Proof.
    intros (Hc & Hi & Hd & Hr). pose proof (lcd_size g Hg).
    assert (Hi' : forall x, rd_ok (init_cmds g) (cnext (mem_reader_buffered (init_cmds g)) (linit g s) x))
      by (intros; apply rd_ok_next; [cbn; lia|assumption]).
    assert (Hd' : forall x, rd_ok (display_cmds g) (cnext (mem_reader_buffered (display_cmds g)) (ldisp g s) x))
      by (intros; apply rd_ok_next; [cbn; lia|assumption]).
    unfold c, ssd1306, lv_inv. cbn [cnext].
    set (i' := cnext (mem_reader_buffered (init_cmds g)) _ _). set (d' := cnext (mem_reader_buffered (display_cmds g)) _ _).
    specialize (Hi' (ld_iin g s i)). specialize (Hd' (ld_din g s i)). fold i' in Hi'. fold d' in Hd'. clearbody i' d'.
    destruct (lf g s) eqn:Ef.
    - destruct (li_reset i || por); cbn [lf lrdy lcnt linit ldisp]; auto.
    - cbn [lf lrdy lcnt linit ldisp]; auto.
    - cbn [lf lrdy lcnt linit ldisp]. repeat split; try assumption; try lia. destruct (_ && _); auto.
    - destruct (li_reset i); cbn [lf lrdy lcnt linit ldisp]; auto.
      destruct (negb (lrdy g s) || cvalid (li_sink i)); cbn [lf lrdy lcnt linit ldisp]; repeat split; try assumption; try lia.
      destruct (_ && _); auto.
    - destruct (ld_fire g s i) eqn:Ex; [|cbn [lf lrdy lcnt linit ldisp]; auto].
      destruct (blast (cbeat (ld_wsink g s i))) eqn:El; cbn [lf lrdy lcnt linit ldisp]; repeat split; try assumption; try lia.
      all: assert (lcnt g s <> l_size g - 1); [unfold ld_wsink in El; rewrite Ef in El; unfold ld_final in El;
        destruct (lrdy g s); cbn [cbeat blast] in El; try apply orb_false_iff in El; intros X; rewrite X in El; rewrite Z.eqb_refl in El; intuition discriminate|].
      all: rewrite trunc_range_small by lia; lia.
  Qed.

  (** Until ready: commands, then the blank frame. *)
  Definition disp_wt (s : cst c) : nat := (1 + rd_wt (display_cmds g) (lwrap g s) (ldisp g s))%nat.
  Definition boot_wt (s : cst c) : nat :=
    match lf g s with
    | LUnknown => 0
    | LReset => 300 + n
    | LInit => 100 + n + rd_wt (init_cmds g) (lwrap g s) (linit g s)
    | LDisplay => 4 + n + disp_wt s
    | LFrame => w_wt (lwrap g s) + (n - Z.to_nat (lcnt g s))
    end%nat.
  (** Until a user byte is taken. *)
  Definition user_wt (s : cst c) : nat :=
    match lf g s with LDisplay => 4 + disp_wt s | LFrame => w_wt (lwrap g s) | _ => 0 end%nat.

  Lemma wrap_step w k r e :
    (cvalid k = true -> blast (cbeat k) = true ->
       if lw_rdy w r then lw_next w k r e = LwAddr else (w_wt (lw_next w k r e) + (if r then 1 else 0) <= w_wt w)%nat) /\
    (cvalid k = false -> lw_next w k r e = w).
  Proof.
    split.
    - intros Hv Hb. destruct w; cbn; rewrite ?Hv, ?Hb; cbn; destruct r; cbn; try destruct e; cbn; try lia; reflexivity.
    - intros Hv. destruct w; cbn; now rewrite ?Hv.
  Qed.
  (** A byte of a packet moves the wrapper towards taking it. *)
  Lemma wrap_move w k r e : cvalid k = true -> lw_rdy w r = false ->
    (w_wt (lw_next w k r e) + (if r then 1 else 0) <= w_wt w)%nat.
  Proof. intros Hv Hr. destruct w; cbn in *; rewrite ?Hv; cbn; try discriminate; subst; try destruct r; cbn; try destruct e; cbn; lia. Qed.
  Lemma wrap_more w k r e : cvalid k = true -> lw_rdy w r = true -> blast (cbeat k) = false -> lw_next w k r e = w.
  Proof. intros Hv Hr Hb. destruct w; cbn in *; rewrite ?Hv, ?Hb, ?andb_false_r; try reflexivity; discriminate. Qed.

  Lemma display_move s i : lv_inv s -> lf g s = LDisplay -> li_reset i = false -> negb (lrdy g s) || cvalid (li_sink i) = true ->
    (mr_done (fst (ldisp g s)) && negb (cvalid (snd (ldisp g s))) = false ->
       ((if li_rready i then 1 else 0) + disp_wt (cnext c s i) <= disp_wt s)%nat /\ lf g (cnext c s i) = LDisplay /\ lrdy g (cnext c s i) = lrdy g s) /\
    (mr_done (fst (ldisp g s)) && negb (cvalid (snd (ldisp g s))) = true ->
       lf g (cnext c s i) = LFrame /\ lrdy g (cnext c s i) = lrdy g s).
  Proof.
    intros (Hc & Hi & Hd & Hr) Ef Hrst Hgo. unfold c, ssd1306, disp_wt. cbn [cnext].
    unfold ld_din, ld_wsink, ld_go. rewrite Ef, Hrst, Hgo. cbn [negb andb]. split; intros Hdone; rewrite Hdone; cbn [lf lrdy lwrap ldisp].
    - split; [|split; reflexivity].
      match goal with |- (_ + (1 + rd_wt _ (cnext _ _ (?k, _, _)) _) <= _)%nat => set (k0 := k) end.
      cbn [lcd_wrapper cnext].
      destruct (wrap_step (lwrap g s) k0 (li_rready i) (li_err i)) as [W1 W2].
      enough ((if li_rready i then 1 else 0) + rd_wt (display_cmds g) (lw_next (lwrap g s) k0 (li_rready i) (li_err i))
         (cnext (mem_reader_buffered (display_cmds g)) (ldisp g s) (false, ld_wrdy g s i)) <= rd_wt (display_cmds g) (lwrap g s) (ldisp g s))%nat by lia.
      apply rd_step; [cbn; lia|exact Hd|exact Hdone| |].
      + intros Hv. unfold ld_wrdy. apply W1; [exact Hv|reflexivity].
      + intros Hv. apply W2. exact Hv.
    - split; reflexivity.
  Qed.

  Lemma boot_step s i : lv_inv s -> li_reset i = false -> lf g s <> LUnknown -> lrdy g s = false ->
    lf g (cnext c s i) <> LUnknown /\
    ((if li_rready i then 1 else 0) + (if lrdy g (cnext c s i) then 0 else boot_wt (cnext c s i)) <= boot_wt s)%nat.
  Proof.
    intros Hinv Hrst Hu Hr. pose proof Hinv as (Hc & Hi & Hd & _).
    assert (Hn : (2 <= n)%nat) by (pose proof (lcd_size g Hg); unfold n; lia).
    assert (Hb : ((if li_rready i then 1 else 0) <= 1)%nat) by (destruct (li_rready i); lia).
    pose proof (w_wt_pos (lwrap g s)) as Hw.
    destruct (lv_inv_next s i Hinv) as (Hc' & Hi' & Hd' & _).
    unfold boot_wt at 2. destruct (lf g s) eqn:Ef; [congruence| | | |].
    - (* RESET *)
      assert (E : lf g (cnext c s i) = LInit /\ lrdy g (cnext c s i) = false)
        by (unfold c, ssd1306; cbn [cnext]; rewrite Ef; cbn [lf lrdy]; auto).
      destruct E as [E1 E2]. rewrite E1, E2. split; [discriminate|]. unfold boot_wt. rewrite E1.
      pose proof (rd_wt_max (init_cmds g) ltac:(cbn; lia) (lwrap g (cnext c s i)) _ Hi') as M. cbn [init_cmds length] in M. lia.
    - (* INIT *)
      destruct (mr_done (fst (linit g s)) && negb (cvalid (snd (linit g s)))) eqn:Ed.
      + assert (E : lf g (cnext c s i) = LDisplay /\ lrdy g (cnext c s i) = false)
          by (unfold c, ssd1306; cbn [cnext]; rewrite Ef, Ed; cbn [lf lrdy]; auto).
        destruct E as [E1 E2]. rewrite E1, E2. split; [discriminate|]. unfold boot_wt, disp_wt. rewrite E1.
        pose proof (rd_wt_max (display_cmds g) ltac:(cbn; lia) (lwrap g (cnext c s i)) _ Hd') as M. cbn [display_cmds length] in M. lia.
      + assert (E : lf g (cnext c s i) = LInit /\ lrdy g (cnext c s i) = false)
          by (unfold c, ssd1306; cbn [cnext]; rewrite Ef, Ed; cbn [lf lrdy]; auto).
        destruct E as [E1 E2]. rewrite E1, E2. split; [discriminate|]. unfold boot_wt. rewrite E1.
        enough ((if li_rready i then 1 else 0) + rd_wt (init_cmds g) (lwrap g (cnext c s i)) (linit g (cnext c s i)) <= rd_wt (init_cmds g) (lwrap g s) (linit g s))%nat by lia.
        clear E1 E2 Hc' Hi' Hd'.
        assert (Ei : linit g (cnext c s i) = cnext (mem_reader_buffered (init_cmds g)) (linit g s) (false, ld_wrdy g s i))
          by (unfold c, ssd1306; cbn [cnext]; unfold ld_iin; rewrite Ef; reflexivity).
        rewrite Ei.
        match goal with |- (_ + rd_wt _ ?w _ <= _)%nat => set (w' := w) end.
        assert (Ew : w' = lw_next (lwrap g s) (ld_wsink g s i) (li_rready i) (li_err i))
          by (unfold w', c, ssd1306; cbn [cnext]; rewrite Ef; reflexivity).
        destruct (wrap_step (lwrap g s) (ld_wsink g s i) (li_rready i) (li_err i)) as [W1 W2].
        rewrite Ew. unfold ld_wsink in *. rewrite Ef in *. apply rd_step; [cbn; lia|exact Hi|exact Ed| |].
        * intros Hv. unfold ld_wrdy. apply W1; [exact Hv|reflexivity].
        * intros Hv. apply W2. exact Hv.
    - (* DISPLAY *)
      destruct (display_move s i Hinv Ef Hrst) as [D1 D2]; [now rewrite Hr|].
      destruct (mr_done (fst (ldisp g s)) && negb (cvalid (snd (ldisp g s)))) eqn:Ed.
      + destruct (D2 eq_refl) as [E1 E2]. rewrite E1, E2, Hr. split; [discriminate|]. unfold boot_wt. rewrite E1.
        pose proof (w_wt_pos (lwrap g (cnext c s i))). unfold disp_wt. lia.
      + destruct (D1 eq_refl) as (E0 & E1 & E2). rewrite E1, E2, Hr. split; [discriminate|]. unfold boot_wt. rewrite E1. lia.
    - (* FRAME *)
      assert (Ek : ld_wsink g s i = Chan true (Beat false (ld_final g s) (true, 0))) by (unfold ld_wsink; now rewrite Ef, Hr).
      assert (Ew : lwrap g (cnext c s i) = lw_next (lwrap g s) (ld_wsink g s i) (li_rready i) (li_err i)).
      { unfold c, ssd1306. cbn [cnext]. rewrite Ef. destruct (ld_fire g s i); [destruct (blast _)|]; reflexivity. }
      destruct (lw_rdy (lwrap g s) (li_rready i)) eqn:Er.
      + assert (Ex : ld_fire g s i = true) by (unfold ld_fire, ld_wrdy; rewrite Ek, Er; reflexivity).
        destruct (ld_final g s) eqn:El.
        * assert (E : lf g (cnext c s i) = LDisplay /\ lrdy g (cnext c s i) = true)
            by (unfold c, ssd1306; cbn [cnext]; rewrite Ef, Ex, Ek; cbn [cbeat blast lf lrdy]; auto).
          destruct E as [E1 E2]. rewrite E1, E2. split; [discriminate|]. lia.
        * unfold ld_final in El. apply Z.eqb_neq in El.
          assert (E : lf g (cnext c s i) = LFrame /\ lrdy g (cnext c s i) = false /\ lcnt g (cnext c s i) = lcnt g s + 1).
          { unfold c, ssd1306; cbn [cnext]; rewrite Ef, Ex, Ek; cbn [cbeat blast lf lrdy lcnt].
            rewrite trunc_range_small by lia. auto. }
          destruct E as (E1 & E2 & E3). rewrite E1, E2. split; [discriminate|]. unfold boot_wt. rewrite E1, E3, Ew.
          rewrite wrap_more; rewrite ?Ek; auto. unfold n. lia.
      + assert (Ex : ld_fire g s i = false) by (unfold ld_fire, ld_wrdy; rewrite Ek, Er; reflexivity).
        assert (E : lf g (cnext c s i) = LFrame /\ lrdy g (cnext c s i) = false /\ lcnt g (cnext c s i) = lcnt g s)
          by (unfold c, ssd1306; cbn [cnext]; rewrite Ef, Ex; cbn [cbeat blast lf lrdy lcnt]; auto).
        destruct E as (E1 & E2 & E3). rewrite E1, E2. split; [discriminate|]. unfold boot_wt. rewrite E1, E3, Ew.
        pose proof (wrap_move (lwrap g s) (ld_wsink g s i) (li_rready i) (li_err i)) as M. rewrite Ek in *. specialize (M eq_refl Er). lia.
  Qed.

  Lemma user_step s i : lv_inv s -> li_reset i = false -> cvalid (li_sink i) = true -> lrdy g s = true -> ld_srdy g s i = false ->
    lrdy g (cnext c s i) = true /\ ((if li_rready i then 1 else 0) + user_wt (cnext c s i) <= user_wt s)%nat.
  Proof.
    intros Hinv Hrst Hv Hr Hs. pose proof Hinv as (Hc & Hi & Hd & Hf).
    assert (Hb : ((if li_rready i then 1 else 0) <= 1)%nat) by (destruct (li_rready i); lia).
    pose proof (w_wt_pos (lwrap g s)) as Hw.
    unfold user_wt at 2. destruct (lf g s) eqn:Ef; try congruence.
    - destruct (display_move s i Hinv Ef Hrst) as [D1 D2]; [rewrite Hv; apply orb_true_r|].
      destruct (mr_done (fst (ldisp g s)) && negb (cvalid (snd (ldisp g s)))) eqn:Ed.
      + destruct (D2 eq_refl) as [E1 E2]. rewrite E2, Hr. split; [reflexivity|]. unfold user_wt. rewrite E1.
        pose proof (w_wt_pos (lwrap g (cnext c s i))). unfold disp_wt. lia.
      + destruct (D1 eq_refl) as (E0 & E1 & E2). rewrite E2, Hr. split; [reflexivity|]. unfold user_wt. rewrite E1. lia.
    - unfold ld_srdy in Hs. rewrite Ef, Hr in Hs. cbn [andb] in Hs. unfold ld_wrdy in Hs.
      assert (Ex : ld_fire g s i = false) by (unfold ld_fire, ld_wrdy; rewrite Hs; apply andb_false_r).
      assert (Ew : lwrap g (cnext c s i) = lw_next (lwrap g s) (ld_wsink g s i) (li_rready i) (li_err i))
        by (unfold c, ssd1306; cbn [cnext]; rewrite Ef, Ex; reflexivity).
      assert (E : lf g (cnext c s i) = LFrame /\ lrdy g (cnext c s i) = true)
        by (unfold c, ssd1306; cbn [cnext]; rewrite Ef, Ex; cbn [lf lrdy]; auto).
      destruct E as [E1 E2]. rewrite E2. split; [reflexivity|]. unfold user_wt. rewrite E1, Ew.
      pose proof (wrap_move (lwrap g s) (ld_wsink g s i) (li_rready i) (li_err i)) as M.
      assert (Hk : cvalid (ld_wsink g s i) = true) by (unfold ld_wsink; rewrite Ef, Hr; exact Hv). specialize (M Hk Hs). lia.
  Qed.
End Live.

(** ** C108: the display starts, and takes what it is offered.
    [i2c_ready o]: the I2C layer accepts a byte in that cycle if one is offered. *)
Definition i2c_ready (o : ld_obs) : bool := o_rready (lo_io (ld_wrap o)).

(** From a start (reset high, or power-on start) onwards, if reset stays low the
    driver becomes ready before the I2C layer has been ready for 310 cycles plus
    one for each byte of the screen, whatever it acknowledges. *)
Theorem C108_starts : forall g por ins t1 o t2, In g lcds ->
  trace (ssd1306 g por) ins = t1 ++ o :: t2 ->
  ld_reset o || por = true -> Forall (fun x => ld_reset x = false) t2 ->
  (310 + Z.to_nat (l_size g) < count i2c_ready t2)%nat ->
  exists u x v, t2 = u ++ x :: v /\ ld_ready x = true /\ (count i2c_ready u <= 310 + Z.to_nat (l_size g))%nat.
Proof.
  intros g por ins t1 o t2 Hg E Ho Hr Hc. apply trace_split_from in E. destruct E as (a & i & b & -> & _ & -> & ->).
  change (state_from (ssd1306 g por) (creset (ssd1306 g por)) a) with (state (ssd1306 g por) a) in *.
  set (s := state (ssd1306 g por) a) in *.
  assert (Hs : lv_inv g por s) by (apply (state_inv (ssd1306 g por) (lv_inv g por)); [now apply lv_inv0|intros; now apply lv_inv_next]).
  assert (Hs' := lv_inv_next g por Hg s i Hs).
  set (s' := cnext (ssd1306 g por) s i) in *.
  assert (Hu : lf g s' <> LUnknown).
  { unfold s', ssd1306. cbn [cnext]. cbn [ssd1306 cout ld_reset] in Ho. destruct (lf g s).
    1: now rewrite Ho.
    all: repeat lazymatch goal with |- lf _ (if ?b then _ else _) <> _ => destruct b | |- lf _ (let _ := _ in _) <> _ => cbv zeta end.
    all: cbn [lf]; try discriminate; destruct (_ && _); discriminate. }
  set (m := fun x : cst (ssd1306 g por) => if lrdy g x then 0%nat else boot_wt g por x).
  assert (Hm : (m s' <= 310 + Z.to_nat (l_size g))%nat).
  { unfold m. destruct (lrdy g s'); [lia|]. destruct Hs' as (C1 & C2 & C3 & _). unfold boot_wt. destruct (lf g s'); try lia.
    - pose proof (rd_wt_max (init_cmds g) ltac:(cbn; lia) (lwrap g s') _ C2) as M. cbn [init_cmds length] in M. lia.
    - unfold disp_wt. pose proof (rd_wt_max (display_cmds g) ltac:(cbn; lia) (lwrap g s') _ C3) as M. cbn [display_cmds length] in M. lia.
    - pose proof (w_wt_pos (lwrap g s')). lia. }
  destruct (trace_progress (ssd1306 g por) (fun x => ld_reset x = false) (fun x => lv_inv g por x /\ lf g x <> LUnknown)
              ld_ready i2c_ready m) with (ins := b) (s := s') as (u & x & v & E & H1 & H2); auto.
  - intros x j y [Hx Hux] Hj Hd. destruct (boot_step g por Hg x j Hx Hj Hux Hd) as [B1 B2]. split; [split; [now apply lv_inv_next|exact B1]|].
    unfold m at 2. change (ld_ready y) with (lrdy g x) in Hd. rewrite Hd. exact B2.
  - lia.
  - exists u, x, v. rewrite E. repeat split; auto. lia.
Qed.

(** Once ready: if the user keeps a byte offered and reset stays low, a byte is
    taken before the I2C layer has been ready for 40 cycles. *)
Theorem C108_byte_taken : forall g por ins t1 o t2, In g lcds ->
  trace (ssd1306 g por) ins = t1 ++ o :: t2 -> ld_ready o = true ->
  Forall (fun x => ld_reset x = false /\ cvalid (ld_sink x) = true) (o :: t2) ->
  (40 < count i2c_ready (o :: t2))%nat ->
  exists u x v, o :: t2 = u ++ x :: v /\ ld_sready x = true /\ (count i2c_ready u <= 40)%nat.
Proof.
  intros g por ins t1 o t2 Hg E Ho HF Hc. apply trace_split_from in E. destruct E as (a & i & b & -> & _ & -> & ->).
  change (state_from (ssd1306 g por) (creset (ssd1306 g por)) a) with (state (ssd1306 g por) a) in *.
  set (s := state (ssd1306 g por) a) in *.
  assert (Hs : lv_inv g por s) by (apply (state_inv (ssd1306 g por) (lv_inv g por)); [now apply lv_inv0|intros; now apply lv_inv_next]).
  change (cout (ssd1306 g por) s i :: trace_from (ssd1306 g por) (cnext (ssd1306 g por) s i) b) with (trace_from (ssd1306 g por) s (i :: b)) in *.
  change (ld_ready (cout (ssd1306 g por) s i)) with (lrdy g s) in Ho.
  assert (Hm : (user_wt g por s <= 40)%nat).
  { destruct Hs as (C1 & C2 & C3 & _). unfold user_wt. destruct (lf g s); try lia.
    - unfold disp_wt. pose proof (rd_wt_max (display_cmds g) ltac:(cbn; lia) (lwrap g s) _ C3) as M. cbn [display_cmds length] in M. lia.
    - pose proof (w_wt_pos (lwrap g s)). lia. }
  destruct (trace_progress (ssd1306 g por) (fun x => ld_reset x = false /\ cvalid (ld_sink x) = true)
              (fun x => lv_inv g por x /\ lrdy g x = true) ld_sready i2c_ready (user_wt g por)) with (ins := i :: b) (s := s)
    as (u & x & v & E & H1 & H2); auto.
  - intros x j y [Hx Hrx] [Hj1 Hj2] Hd. destruct (user_step g por x j Hx Hj1 Hj2 Hrx Hd) as [B1 B2].
    split; [split; [now apply lv_inv_next|exact B1]|exact B2].
  - lia.
  - exists u, x, v. rewrite E. repeat split; auto. lia.
Qed.

(** A display that starts and takes its first byte, with an I2C layer that is
    ready every other cycle and refuses some addresses. *)
Definition live_in (n : nat) : list ld_in :=
  map (fun k => LdIn false (Chan true (Beat true false 0x5A)) (Nat.odd k) (Nat.eqb (Nat.modulo k 7) 0)) (seq 0 n).
Example C108_nonvacuous : let t2 := tl (trace (ssd1306 (nth 2 lcds (Lcd 0 0 0 0 0)) true) (live_in 1200)) in
  forallb (fun x => negb (ld_reset x) && cvalid (ld_sink x)) t2 = true /\
  (310 + Z.to_nat (l_size (nth 2 lcds (Lcd 0 0 0 0 0))) < count i2c_ready t2)%nat /\
  existsb ld_ready t2 = true /\ existsb ld_sready t2 = true.
Proof.
  cbv zeta. split; [vm_compute; reflexivity|]. split; [apply Nat.ltb_lt; vm_compute; reflexivity|]. split; vm_compute; reflexivity.
Qed.

Print Assumptions C108_starts.
Print Assumptions C108_byte_taken.
