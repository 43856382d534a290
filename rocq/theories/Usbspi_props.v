(** A program on the PC that uses exchange over the SPI bridge, C155. *)
From Verif Require Import Stream Bits Fifo_model Timer_model Spiclk_model I2cstream_proofs Spistream_model Spistream_props Spimaster_model Spimaster_props Progress Spilive_props Spislave_model Spislave_props Spilink_model Spilink_spec Spilink_proofs Spilink_props Spihostlive_props Spixchg_props Usbspi_model Usbspi_spec.

Section Usb.
  Context (every zlp : bool) (size : Z) (Hsz : 0 < size).
  Notation pk := (in_packets zlp size).
  Notation out := (out_beats every size).

  Lemma out_data room d : map bdata (out room d) = d.
  Proof. revert room. induction d as [|x d IH]; intros room; cbn [out_beats map bdata]; [reflexivity|]. now rewrite IH. Qed.
  Lemma out_length room d : length (out room d) = length d.
  Proof. rewrite <- (out_data room d) at 2. now rewrite map_length. Qed.

  (** All answers to a transfer are there: it gets them and leaves the rest. *)
  Lemma in_full d : forall room open acc r more len, d <> [] -> 0 < room <= size -> Z.of_nat (length open) = size - room ->
    map blast r = map blast (out room d) -> len = Z.of_nat (length acc + length open + length d) ->
    (every && zlp = true -> len < size) ->
    exists P, pk open (r ++ more) = P ++ pk [] more /\ forall later, bulk_in size len acc (P ++ later) = Some (acc ++ open ++ map bdata r, later).
  Proof.
    induction d as [|x d IH]; intros room open acc r more len Hd Hr Ho Hb Hl Hz; [congruence|].
    destruct r as [|b r]; [discriminate|]. cbn [out_beats map blast] in Hb. injection Hb as Hb1 Hb2. cbn [length] in Hl.
    cbn [app in_packets]. rewrite app_length. cbn [length].
    assert (Hfull : (Z.of_nat (length open + 1) =? size) = (room =? 1)) by (apply eq_true_iff_eq; rewrite !Z.eqb_eq; lia).
    rewrite Hfull, Hb1. destruct (Z.eqb_spec room 1) as [E|E].
    - (* the packet is full *)
      assert (Hzl : every && zlp = false) by (apply not_true_is_false; intros X; specialize (Hz X); lia).
      assert (S : (if every then (open ++ [bdata b]) :: (if zlp && true then [[]] else []) ++ pk [] (r ++ more) else (open ++ [bdata b]) :: pk [] (r ++ more)) = (open ++ [bdata b]) :: pk [] (r ++ more)).
      { clear - Hzl. destruct every, zlp; (discriminate Hzl || reflexivity). }
      rewrite S. clear S. destruct d as [|y d].
      + destruct r; [|discriminate]. exists [open ++ [bdata b]]. split; [reflexivity|]. intros later. cbn [app bulk_in map].
        rewrite !app_length. cbn [length]. assert (Q0 : (Z.of_nat (length open + 1) <? size) = false) by (apply Z.ltb_ge; lia). rewrite Q0.
        assert (Q : (len <=? Z.of_nat (length acc + (length open + 1))) = true) by (apply Z.leb_le; cbn [length] in Hl; lia). rewrite Q. cbn [orb].
        rewrite firstn_all2; [reflexivity|]. rewrite !app_length. cbn [length] in *. lia.
      + destruct (IH size [] (acc ++ open ++ [bdata b]) r more len) as (P & P1 & P2); auto; [discriminate|lia|cbn [length]; lia|rewrite !app_length; cbn [length] in *; lia|].
        exists ((open ++ [bdata b]) :: P). rewrite P1. split; [reflexivity|]. intros later. cbn [app bulk_in map]. rewrite !app_length. cbn [length].
        assert (Q0 : (Z.of_nat (length open + 1) <? size) = false) by (apply Z.ltb_ge; lia). rewrite Q0.
        assert (Q : (len <=? Z.of_nat (length acc + (length open + 1))) = false) by (apply Z.leb_gt; cbn [length] in Hl; lia). rewrite Q. cbn [orb]. rewrite P2. cbn [app].
        now rewrite <- !app_assoc.
    - destruct d as [|y d].
      + destruct r; [|discriminate]. rewrite andb_false_r. exists [open ++ [bdata b]]. split; [reflexivity|]. intros later. cbn [app bulk_in map].
        rewrite app_length. cbn [length]. assert (Q0 : (Z.of_nat (length open + 1) <? size) = true) by (apply Z.ltb_lt; lia). rewrite Q0. cbn [orb].
        rewrite firstn_all2; [reflexivity|]. rewrite !app_length. cbn [length] in *. lia.
      + destruct (IH (room - 1) (open ++ [bdata b]) acc r more len) as (P & P1 & P2); auto; [discriminate|lia|rewrite app_length; cbn [length]; lia|rewrite !app_length; cbn [length] in *; lia|].
        exists P. split; [exact P1|]. intros later. rewrite P2. cbn [map]. now rewrite <- app_assoc.
  Qed.
  (** Some are missing: it waits. *)
  Lemma in_part d : forall room open acc r len, 0 < room <= size -> Z.of_nat (length open) = size - room ->
    map blast r = firstn (length r) (map blast (out room d)) -> (length r < length d)%nat -> len = Z.of_nat (length acc + length open + length d) ->
    (every && zlp = true -> len < size) ->
    bulk_in size len acc (pk open r) = None.
  Proof.
    induction d as [|x d IH]; intros room open acc r len Hr Ho Hb Hn Hl Hz; [cbn in Hn; lia|].
    destruct r as [|b r]; [reflexivity|]. cbn [out_beats map blast length firstn] in Hb. injection Hb as Hb1 Hb2. cbn [length] in *.
    cbn [in_packets]. rewrite app_length. cbn [length].
    assert (Hfull : (Z.of_nat (length open + 1) =? size) = (room =? 1)) by (apply eq_true_iff_eq; rewrite !Z.eqb_eq; lia).
    rewrite Hfull, Hb1. destruct (Z.eqb_spec room 1) as [E|E].
    - assert (Hzl : every && zlp = false) by (apply not_true_is_false; intros X; specialize (Hz X); lia).
      assert (S : (if every then (open ++ [bdata b]) :: (if zlp && true then [[]] else []) ++ pk [] r else (open ++ [bdata b]) :: pk [] r) = (open ++ [bdata b]) :: pk [] r).
      { clear - Hzl. destruct every, zlp; (discriminate Hzl || reflexivity). }
      rewrite S. cbn [bulk_in]. rewrite !app_length. cbn [length]. assert (Q0 : (Z.of_nat (length open + 1) <? size) = false) by (apply Z.ltb_ge; lia). rewrite Q0.
      assert (Q : (len <=? Z.of_nat (length acc + (length open + 1))) = false) by (apply Z.leb_gt; lia). rewrite Q. cbn [orb].
      apply (IH size); auto; rewrite ?app_length; cbn [length]; rewrite ?app_length; cbn [length]; lia.
    - destruct d as [|y d]; [cbn [length] in Hn; lia|].
      apply (IH (room - 1)); auto; rewrite ?app_length; cbn [length] in *; rewrite ?app_length; cbn [length] in *; lia.
  Qed.

  (** The calls that have returned, from what went out and what came back. *)
  Lemma session p : forall s r, all_fit every zlp size p ->
    map blast r = firstn (length r) (map blast s) -> (length r <= length s)%nat ->
    (exists later, fst (fst (xrun every size p (pk [] r))) = s ++ later) ->
    let '(_, h, e) := xrun every size p (pk [] r) in
    exists s2 r2, map bdata s = concat (map fst h) ++ s2 /\ map bdata r = concat (map snd h) ++ r2 /\
      Forall (fun x => length (fst x) = length (snd x)) h /\ (e = true -> s2 = [] /\ r2 = []) /\
      (e = false -> (length r2 < length s2)%nat \/ exists b, fst (fst (xrun every size p (pk [] r))) = s ++ b /\ b <> []).
  Proof.
    induction p as [|d k IH]; intros s r HF Hb Hl [later Hw]; cbn [xrun] in *.
    - cbn [fst] in Hw. symmetry in Hw. apply app_eq_nil in Hw. destruct Hw as [-> ->]. cbn [length] in Hl. destruct r; [|cbn in Hl; lia].
      exists [], []. repeat split; auto. discriminate.
    - destruct HF as [[Hd Hz] HF].
      destruct (Nat.lt_ge_cases (length r) (length d)) as [Hlt|Hge].
      + assert (Hpre : map blast r = firstn (length r) (map blast (out size d))).
        { rewrite Hb. destruct (bulk_in size (Z.of_nat (length d)) [] (pk [] r)) as [[r1 pk1]|] eqn:BK.
          - destruct (xrun every size (k r1) pk1) as [[w h] e]. cbn [fst] in Hw. apply (f_equal (map blast)) in Hw. rewrite !map_app in Hw.
            apply (f_equal (firstn (length r))) in Hw. rewrite !firstn_app, !map_length, out_length in Hw.
            replace (length r - length d)%nat with 0%nat in Hw by lia. replace (length r - length s)%nat with 0%nat in Hw by lia.
            cbn [firstn] in Hw. rewrite !app_nil_r in Hw. now symmetry.
          - cbn [fst] in Hw. apply (f_equal (map blast)) in Hw. rewrite map_app in Hw. rewrite Hw. rewrite firstn_app, map_length.
            replace (length r - length s)%nat with 0%nat by lia. now rewrite app_nil_r. }
        rewrite (in_part d size [] [] r (Z.of_nat (length d))) in * by (auto; cbn [length]; lia). cbn [fst] in *.
        exists (map bdata s), (map bdata r). cbn [map concat app]. repeat split; auto; try discriminate. intros _. rewrite !map_length.
        apply (f_equal (@length _)) in Hw as Hlen. rewrite out_length, app_length in Hlen.
        destruct (Nat.lt_ge_cases (length r) (length s)) as [|Hge]; [auto|right]. exists later. split; [exact Hw|]. intros ->. cbn [length] in Hlen. lia.
      + set (r1 := firstn (length d) r). set (r2 := skipn (length d) r).
        assert (Er : r = r1 ++ r2) by (symmetry; apply firstn_skipn).
        assert (Lr1 : length r1 = length d) by (apply firstn_length_le; lia).
        assert (Hpre : forall w l, out size d ++ w = s ++ l -> map blast r1 = map blast (out size d) /\ exists s2, s = out size d ++ s2).
        { intros w l Hw'. assert (Es : s = out size d ++ skipn (length d) s).
          { rewrite <- (firstn_skipn (length d) s) at 1. f_equal. apply (f_equal (firstn (length d))) in Hw'. rewrite !firstn_app, out_length in Hw'.
            replace (length d - length s)%nat with 0%nat in Hw' by lia. rewrite Nat.sub_diag in Hw'. cbn [firstn] in Hw'. rewrite !app_nil_r in Hw'.
            rewrite <- Hw'. apply firstn_all2. rewrite out_length. lia. }
          split; [|eauto]. rewrite Er, map_app in Hb. apply (f_equal (firstn (length d))) in Hb. rewrite firstn_app, map_length, Lr1, Nat.sub_diag in Hb. cbn [firstn] in Hb.
          rewrite app_nil_r, firstn_firstn, app_length, Nat.min_l, Es, map_app in Hb by lia. rewrite firstn_app, !map_length, out_length, Nat.sub_diag in Hb. cbn [firstn] in Hb.
          rewrite app_nil_r in Hb. rewrite !firstn_all2 in Hb by (rewrite map_length, ?out_length; lia). exact Hb. }
        assert (HB : map blast r1 = map blast (out size d) /\ exists s2, s = out size d ++ s2).
        { destruct (bulk_in size (Z.of_nat (length d)) [] (pk [] r)) as [[q1 pk1]|] eqn:BK.
          - destruct (xrun every size (k q1) pk1) as [[w h] e]. cbn [fst] in Hw. eapply Hpre; eauto.
          - cbn [fst] in Hw. apply (Hpre [] later). rewrite app_nil_r. exact Hw. }
        destruct HB as [HB (s2 & Es)].
        destruct (in_full d size [] [] r1 r2 (Z.of_nat (length d))) as (P & P1 & P2); auto; try (cbn [length]; lia).
        rewrite <- Er in P1. rewrite P1, P2 in *. cbn [app] in *.
        specialize (IH (map bdata r1) s2 r2 (HF _)).
        destruct (xrun every size (k (map bdata r1)) (pk [] r2)) as [[w h] e] eqn:XR. cbn [fst] in *.
        rewrite Es, <- app_assoc in Hw. apply app_inv_head in Hw.
        assert (HL2 : length r = (length d + length r2)%nat) by (rewrite Er at 1; rewrite app_length; lia).
        assert (HL3 : length s = (length d + length s2)%nat) by (rewrite Es, app_length, out_length; lia).
        destruct IH as (s3 & r3 & I1 & I2 & I3 & I4 & I5).
        * rewrite Er, Es, !map_app in Hb. rewrite HB, app_length, Lr1 in Hb. rewrite firstn_app, map_length, out_length in Hb.
          replace (length d + length r2 - length d)%nat with (length r2) in Hb by lia. rewrite firstn_all2 in Hb by (rewrite map_length, out_length; lia).
          apply app_inv_head in Hb. exact Hb.
        * lia.
        * eauto.
        * exists s3, r3. cbn [map concat fst snd]. rewrite <- !app_assoc, <- I1, <- I2. rewrite Es at 1. rewrite Er at 1. rewrite !map_app, out_data. repeat split; auto.
          -- constructor; [|exact I3]. cbn [fst snd]. now rewrite map_length.
          -- apply I4; assumption.
          -- apply I4; assumption.
          -- intros He. destruct (I5 He) as [|(b & B1 & B2)]; [auto|right]. exists b. split; [|exact B2]. rewrite Es, <- app_assoc. now f_equal.
  Qed.
End Usb.

Lemma Forall3_app_inv2 {A B C} (R : A -> B -> C -> Prop) a1 c1 : forall a2 b c2, length a1 = length c1 -> Forall3 R (a1 ++ a2) b (c1 ++ c2) ->
  exists b1 b2, b = b1 ++ b2 /\ Forall3 R a1 b1 c1 /\ Forall3 R a2 b2 c2.
Proof.
  revert c1. induction a1 as [|x a1 IH]; intros [|y c1] a2 b c2 L H; try discriminate.
  - exists [], b. repeat split; [constructor|exact H].
  - cbn [app] in H. inversion H as [|x' z y' la lb lc H1 H2]; subst. destruct (IH c1 a2 lb c2 ltac:(cbn in L; lia) H2) as (b1 & b2 & -> & B1 & B2).
    exists (z :: b1), b2. repeat split; [constructor; assumption|exact B2].
Qed.
Lemma Forall3_map13 {A A' B C C'} (f : A -> A') (g : C -> C') (R : A' -> B -> C' -> Prop) la lb lc :
  Forall3 (fun a b c => R (f a) b (g c)) la lb lc -> Forall3 R (map f la) lb (map g lc).
Proof. induction 1; constructor; auto. Qed.
Lemma Forall3_blast width bw ws gs rs : Forall3 (exchanged width bw) ws gs rs -> map blast rs = map blast ws.
Proof. induction 1 as [|w g r ws gs rs (_ & _ & H) _ IH]; [reflexivity|]. cbn [map]. now rewrite H, IH. Qed.

Lemma by_call bw h : forall d2 r2 gs, Forall (fun x : list Z * list Z => length (fst x) = length (snd x)) h ->
  on_pins bw (concat (map fst h) ++ d2) (concat (map snd h) ++ r2) gs ->
  exists runs g2, gs = concat runs ++ g2 /\ Forall2 (fun x g => on_pins bw (fst x) (snd x) g) h runs /\ on_pins bw d2 r2 g2.
Proof.
  induction h as [|x h IH]; intros d2 r2 gs HL HP; cbn [map concat app] in HP.
  - exists [], gs. repeat split; auto.
  - apply Forall_cons_iff in HL. destruct HL as [HL1 HL2]. rewrite <- !app_assoc in HP.
    destruct (Forall3_app_inv2 _ _ _ _ _ _ HL1 HP) as (b1 & b2 & -> & B1 & B2).
    destruct (IH d2 r2 b2 HL2 B2) as (runs & g2 & -> & R1 & R2). exists (b1 :: runs), g2. cbn [concat]. rewrite <- app_assoc. repeat split; auto.
Qed.

(** What has been sent, what came back and the pulses, for the session. *)
Lemma host_pins bw div delay ins : 0 <= div < 256 -> In bw [1; 2; 4; 8] -> let t := trace (spi_host 8 bw div delay) ins in
  exists s1 s2 gs cur, sent t = s1 ++ s2 /\ edges t = concat gs ++ cur /\ on_pins bw (map bdata s1) (map bdata (returned t)) gs /\
    map blast (returned t) = map blast s1 /\ (s2 = [] -> cur = []).
Proof.
  intros Hd Hb t. assert (Hq : (bw | 8)) by (cbn [In] in Hb; destruct Hb as [<-|[<-|[<-|[<-|[]]]]]; [exists 8|exists 4|exists 2|exists 1]; reflexivity).
  destruct (C139_exchange 8 bw div delay ins Hd Hb Hq ltac:(lia)) as (ws & gs & pend & cur & held & E1 & E2 & E3 & E4 & E5 & E6). fold t in E1, E3, E4.
  destruct (Forall3_length _ _ _ _ E4) as [L1 L2]. rewrite app_length in L1.
  assert (Ew : ws = firstn (length (returned t)) ws ++ skipn (length (returned t)) ws) by (symmetry; apply firstn_skipn).
  rewrite Ew in E4. assert (LF : length (firstn (length (returned t)) ws) = length (returned t)) by (apply firstn_length_le; lia).
  destruct (Forall3_app_inv2 _ _ _ _ _ _ LF E4) as (b1 & b2 & Eb & B1 & B2).
  exists (firstn (length (returned t)) ws), (skipn (length (returned t)) ws ++ pend), b1, (concat b2 ++ cur).
  split; [rewrite app_assoc, <- Ew; exact E1|]. split; [rewrite E3, Eb, concat_app, <- app_assoc; reflexivity|].
  split; [|split; [eapply Forall3_blast; exact B1|]].
  - apply Forall3_map13. revert B1. apply Forall3_impl. intros a b c (X & Y & _). auto.
  - intros X. apply app_eq_nil in X. destruct X as [X ->]. rewrite X in B2. cbn beta iota in E6. rewrite E6. inversion B2. reflexivity.
Qed.

(** ** C155: whatever a program does with exchange over the bridge, each call that has returned
    put its bytes on the SPI lines, in the order of the calls and each bit once, and returned as many
    bytes, read at the same clock pulses; after the end of the program there were no other pulses. *)
Theorem C155_exchange_partial : forall every zlp size bw div delay p ins,
  0 < size -> 0 <= div < 256 -> In bw [1; 2; 4; 8] -> all_fit every zlp size p ->
  let t := trace (spi_host 8 bw div delay) ins in
  xdriven every zlp size p t ->
  exists runs later,
    Forall2 (fun h g => on_pins bw (fst h) (snd h) g) (xhistory every zlp size p t) runs /\
    edges t = concat (concat runs) ++ later /\
    (xended every zlp size p t = true -> later = []).
Proof.
  intros every zlp size bw div delay p ins Hs Hd Hb HF t HD.
  destruct (host_pins bw div delay ins Hd Hb) as (s1 & s2 & gs & cur & E1 & E2 & E3 & E4 & E5). fold t in E1, E2, E3, E4.
  assert (L : length (returned t) = length s1) by (apply (f_equal (@length _)) in E4; now rewrite !map_length in E4).
  assert (P : map blast (returned t) = firstn (length (returned t)) (map blast (sent t))).
  { rewrite E1, map_app, firstn_app, map_length, L, Nat.sub_diag. cbn [firstn]. rewrite app_nil_r, firstn_all2 by (rewrite map_length; lia). exact E4. }
  pose proof (session every zlp size Hs p (sent t) (returned t) HF P ltac:(rewrite E1, app_length; lia) HD) as S.
  unfold xhistory, xended, got. destruct (xrun every size p (in_packets zlp size [] (returned t))) as [[w h] e]. cbn [fst snd].
  destruct S as (d2 & r2 & S1 & S2 & S3 & S4 & _).
  assert (LC : length (concat (map fst h)) = length (concat (map snd h))).
  { clear - S3. induction h as [|x h IH]; [reflexivity|]. apply Forall_cons_iff in S3. destruct S3 as [A B]. cbn [map concat]. rewrite !app_length, A, IH by exact B. reflexivity. }
  assert (D1 : exists d1, map bdata s1 = concat (map fst h) ++ d1).
  { rewrite E1, map_app in S1. apply app_eq_app in S1. destruct S1 as (l & [[-> _]|[X Y]]); [eauto|].
    exists []. rewrite app_nil_r. apply (f_equal (@length _)) in S2. rewrite app_length, map_length, L, <- LC, X, app_length, map_length in S2.
    destruct l; [|cbn in S2; lia]. now rewrite X, app_nil_r. }
  destruct D1 as [d1 D1]. rewrite D1, S2 in E3.
  destruct (by_call bw h d1 r2 gs S3 E3) as (runs & g2 & -> & R1 & R2).
  exists runs, (concat g2 ++ cur). split; [exact R1|]. split; [rewrite E2, concat_app, <- app_assoc; reflexivity|].
  intros He. destruct (S4 He) as [-> ->].
  assert (d1 = []) as ->. { apply (f_equal (@length _)) in S1, D1, S2. rewrite E1, map_app, !app_length, !map_length in S1. rewrite app_length, map_length in D1. cbn [length] in S1. destruct d1; [reflexivity|cbn [length] in D1; lia]. }
  inversion R2. subst. cbn [concat app]. apply E5.
  apply (f_equal (@length _)) in S1, D1. rewrite E1, map_app, !app_length, !map_length in S1. rewrite app_length, map_length in D1. cbn [length] in *. destruct s2; [reflexivity|cbn [length] in S1; lia].
Qed.

(** ** What goes wrong with full packets. *)
Lemma in_unmarked zlp size : forall a open l, Forall (fun b => blast b = false) a -> Z.of_nat (length open + length a) < size ->
  in_packets zlp size open (a ++ l) = in_packets zlp size (open ++ map bdata a) l.
Proof.
  induction a as [|b a IH]; intros open l H L; cbn [map app]; [now rewrite app_nil_r|]. apply Forall_cons_iff in H. destruct H as [H1 H2]. cbn [length] in L.
  cbn [in_packets]. assert (Q : Z.of_nat (length (open ++ [bdata b])) =? size = false) by (apply Z.eqb_neq; rewrite app_length; cbn [length]; lia).
  rewrite H1, Q, IH; [now rewrite <- app_assoc|exact H2|rewrite app_length; cbn [length]; lia].
Qed.
Lemma out_first size d : forall room, 0 < room <= Z.of_nat (length d) -> exists m, map blast (out_beats true size room d) = repeat false (Z.to_nat (room - 1)) ++ true :: m.
Proof.
  induction d as [|x d IH]; intros room H; cbn [length] in H; [lia|]. cbn [out_beats map blast]. destruct (Z.eqb_spec room 1) as [->|E]; [eexists; reflexivity|].
  destruct (IH (room - 1) ltac:(lia)) as [m ->]. exists m. replace (Z.to_nat (room - 1)) with (S (Z.to_nat (room - 1 - 1))) by lia. cbn [repeat app]. f_equal. destruct d; [cbn [length] in H; lia|reflexivity].
Qed.
Lemma in_first size d bw div delay ins k : 0 < size <= Z.of_nat (length d) -> 0 <= div < 256 -> In bw [1; 2; 4; 8] ->
  let t := trace (spi_host 8 bw div delay) ins in
  xdriven true true size (Exchange d k) t -> size <= Z.of_nat (length (returned t)) ->
  exists q pk, Z.of_nat (length q) = size /\ got true size t = q :: [] :: pk.
Proof.
  intros Hs Hd Hb t [later HD] HR.
  destruct (host_pins bw div delay ins Hd Hb) as (s1 & s2 & gs & cur & E1 & E2 & E3 & E4 & E5). fold t in E1, E2, E3, E4.
  assert (L : length (returned t) = length s1) by (apply (f_equal (@length _)) in E4; now rewrite !map_length in E4).
  destruct (out_first size d size ltac:(lia)) as [m OM]. set (n := Z.to_nat (size - 1)) in *.
  assert (W : exists w, xwritten true true size (Exchange d k) t = out_beats true size size d ++ w).
  { unfold xwritten. cbn [xrun]. destruct (bulk_in _ _ _ _) as [[r pk']|]; [destruct (xrun _ _ _ _) as [[w h] e]; exists w; reflexivity|]. exists []. cbn [fst]. rewrite app_nil_r. reflexivity. }
  destruct W as [w W]. rewrite W, E1 in HD. apply (f_equal (map blast)) in HD. rewrite !map_app, OM, <- E4, <- !app_assoc in HD.
  assert (Ln : (n < length (returned t))%nat) by lia.
  assert (X : map blast (firstn n (returned t)) = repeat false n).
  { rewrite <- firstn_map. apply (f_equal (firstn n)) in HD. rewrite !firstn_app, repeat_length, map_length in HD.
    rewrite firstn_all2 in HD by (rewrite repeat_length; lia). replace (n - n)%nat with 0%nat in HD by lia. replace (n - length (returned t))%nat with 0%nat in HD by lia.
    cbn [firstn] in HD. now rewrite !app_nil_r in HD. }
  destruct (skipn n (returned t)) as [|b r] eqn:SK; [apply (f_equal (@length _)) in SK; rewrite skipn_length in SK; cbn [length] in SK; lia|].
  pose proof (firstn_skipn n (returned t)) as FS. rewrite SK in FS.
  assert (Y : blast b = true).
  { apply (f_equal (skipn n)) in HD. rewrite !skipn_app, repeat_length, map_length, (skipn_map blast n (returned t)), SK in HD. rewrite skipn_all2 in HD by (rewrite repeat_length; lia).
    replace (n - n)%nat with 0%nat in HD by lia. cbn [skipn app map] in HD. injection HD as HD1 HD2. now symmetry. }
  unfold got. rewrite <- FS, in_unmarked.
  - cbn [app in_packets]. rewrite Y. assert (Q : Z.of_nat (length (map bdata (firstn n (returned t)) ++ [bdata b])) = size) by (rewrite app_length, map_length, firstn_length; cbn [length]; lia).
    rewrite Q, Z.eqb_refl. cbn [andb app]. eauto.
  - clear - X. revert X. generalize (firstn n (returned t)) as l. induction n as [|n IH]; intros [|b l] X; try discriminate; constructor; injection X; auto.
  - rewrite firstn_length. cbn [length]. lia.
Qed.

(** An exchange of more bytes than a packet holds returns only the first [size] of its answers,
    if the endpoints mark full packets and follow them with an empty one. *)
Theorem C155_long : forall size bw div delay d k ins,
  0 < size < Z.of_nat (length d) -> 0 <= div < 256 -> In bw [1; 2; 4; 8] ->
  let t := trace (spi_host 8 bw div delay) ins in
  xdriven true true size (Exchange d k) t -> size <= Z.of_nat (length (returned t)) ->
  exists r h, xhistory true true size (Exchange d k) t = (d, r) :: h /\ Z.of_nat (length r) = size.
Proof.
  intros size bw div delay d k ins Hs Hd Hb t HD HR. destruct (in_first size d bw div delay ins k ltac:(lia) Hd Hb HD HR) as (q & pk & LQ & E). fold t in E.
  unfold xhistory. rewrite E. cbn [xrun bulk_in app]. rewrite LQ, Z.ltb_irrefl. cbn [orb].
  assert (Q : Z.of_nat (length d) <=? size = false) by (apply Z.leb_gt; lia). rewrite Q. cbn [length Z.of_nat]. assert (Q' : 0 <? size = true) by (apply Z.ltb_lt; lia). rewrite Q', app_nil_r. cbn [orb].
  rewrite firstn_all2 by lia. destruct (xrun _ _ _ _) as [[w h] e]. cbn [fst snd]. eauto.
Qed.

(** After an exchange of exactly one full packet the next one returns nothing. *)
Theorem C155_next : forall size bw div delay d d' k ins,
  0 < size -> Z.of_nat (length d) = size -> 0 <= div < 256 -> In bw [1; 2; 4; 8] ->
  let t := trace (spi_host 8 bw div delay) ins in let p := Exchange d (fun r => Exchange d' (k r)) in
  xdriven true true size p t -> size <= Z.of_nat (length (returned t)) ->
  exists r h, xhistory true true size p t = (d, r) :: (d', []) :: h /\ Z.of_nat (length r) = size.
Proof.
  intros size bw div delay d d' k ins Hs Hl Hd Hb t p HD HR. destruct (in_first size d bw div delay ins _ ltac:(lia) Hd Hb HD HR) as (q & pk & LQ & E). fold t in E.
  unfold xhistory, p. rewrite E. cbn [xrun bulk_in app]. rewrite LQ, Hl, Z.ltb_irrefl, Z.leb_refl. cbn [orb xrun bulk_in app length Z.of_nat]. assert (Q' : 0 <? size = true) by (apply Z.ltb_lt; lia). rewrite Q'. cbn [orb].
  rewrite firstn_nil, firstn_all2 by lia. destruct (xrun _ _ _ _) as [[w h] e]. cbn [fst snd]. eauto.
Qed.

(** ** Examples, with packets of 4 bytes. *)
(** The bytes [l] offered one after the other for [n] cycles; the line read from changes
    every three cycles. *)
Fixpoint feed (n : nat) (s : cst (spi_host 8 1 0 0)) (l : list (beat Z)) : list host_in :=
  match n with
  | O => []
  | S k =>
      let i := HostIn (match l with [] => Chan false (Beat false false 0) | b :: _ => Chan true b end) (if Nat.even (Nat.div k 3) then 2 else 0) true in
      i :: feed k (cnext _ s i) (match xfer (o_sink (so_tx (ho_app (cout _ s i)))) (o_sready (so_tx (ho_app (cout _ s i)))) with [] => l | _ => tl l end)
  end.
Definition xdemo1 : list host_in := feed 50 (creset (spi_host 8 1 0 0)) (out_beats true 4 4 [0xa5; 0x3c]).
Definition xdemo : list host_in := xdemo1 ++ feed 70 (state (spi_host 8 1 0 0) xdemo1) (out_beats true 4 4 [73; 36; 7]).
(** The second call sends the result of the first one and one byte more. *)
Definition xdemo_program : xprogram := Exchange [0xa5; 0x3c] (fun r => Exchange (firstn 2 r ++ [7]) (fun _ => XDone)).
Example C155_nonvacuous :
  all_fit true true 4 xdemo_program /\
  let t := trace (spi_host 8 1 0 0) xdemo in
  xdriven true true 4 xdemo_program t /\ xended true true 4 xdemo_program t = true /\
  xhistory true true 4 xdemo_program t = [([0xa5; 0x3c], [73; 36]); ([73; 36; 7], [36; 146; 73])] /\
  length (edges t) = 40%nat.
Proof.
  split; [cbn; unfold fits_usb|cbv zeta; split; [exists []; vm_compute; reflexivity|vm_compute; repeat split; reflexivity]].
  split; [split; [discriminate|cbn; lia]|]. intros r. split; [|intros; exact I].
  split; [destruct r as [|x [|y r]]; discriminate|]. intros _. destruct r as [|x [|y r]]; cbn; lia.
Qed.

(** Without the limit it is false: one call, five bytes, four of them returned; and after four
    bytes a call that returns nothing, although its byte goes out and is answered. *)
Definition xlong : list host_in := feed 110 (creset (spi_host 8 1 0 0)) (out_beats true 4 4 [1; 2; 3; 4; 5]).
Definition xlong_program : xprogram := Exchange [1; 2; 3; 4; 5] (fun _ => XDone).
Definition xnext : list host_in := feed 110 (creset (spi_host 8 1 0 0)) (out_beats true 4 4 [1; 2; 3; 4] ++ out_beats true 4 4 [9]).
Definition xnext_program : xprogram := Exchange [1; 2; 3; 4] (fun _ => Exchange [9] (fun _ => XDone)).
Theorem C155_exchange_refuted :
  (let t := trace (spi_host 8 1 0 0) xlong in
   xdriven true true 4 xlong_program t /\ xhistory true true 4 xlong_program t = [([1; 2; 3; 4; 5], [73; 36; 146; 73])] /\ length (returned t) = 5%nat) /\
  (let t := trace (spi_host 8 1 0 0) xnext in
   xdriven true true 4 xnext_program t /\ xhistory true true 4 xnext_program t = [([1; 2; 3; 4], [73; 36; 146; 73]); ([9], [])] /\ length (returned t) = 5%nat).
Proof. split; (cbv zeta; split; [exists []; vm_compute; reflexivity|vm_compute; repeat split; reflexivity]). Qed.

Print Assumptions C155_exchange_partial.
Print Assumptions C155_long.
Print Assumptions C155_next.
Print Assumptions C155_exchange_refuted.
