(** Lemmas for an SPI slave that always has words to send. *)
From Verif Require Import Stream Bits Fifo_model Spislave_model Spislave_props Spimiso_props.

(** The words handed to the slave. *)
Definition taken (t : list sl_obs) : list Z :=
  flat_map (fun o => map (fun b => fst (bdata b)) (xfer (so_sink o) (so_sready o))) t.
Lemma taken_snoc t o : taken (t ++ [o]) = taken t ++ map (fun b => fst (bdata b)) (xfer (so_sink o) (so_sready o)).
Proof. unfold taken. rewrite flat_map_app. cbn [flat_map]. now rewrite app_nil_r. Qed.

Section Slave.
  Context (cpol cpha : bool) (width bw : Z) (stages : list Z) (n : nat).
  Context (Hm : Bool.eqb cpol cpha = true) (Hbw : 0 < bw) (Hn : (0 < n)%nat) (Hw : width = bw * Z.of_nat n).
  Notation c := (spi_slave cpol cpha width bw false stages).

  Definition grp (w : Z) : list Z := map (nth_group bw width w) (seq 1 n).
  Definition G (ws : list Z) : list Z := concat (map grp ws).
  Lemma grp_len w : length (grp w) = n.
  Proof. unfold grp. now rewrite map_length, seq_length. Qed.
  Lemma G_snoc ws w : G (ws ++ [w]) = G ws ++ grp w.
  Proof. unfold G. rewrite map_app, concat_app. cbn [map concat]. now rewrite app_nil_r. Qed.
  Lemma G_len ws : length (G ws) = (n * length ws)%nat.
  Proof. induction ws as [|w ws IH] using rev_ind; [cbn; lia|]. rewrite G_snoc, !app_length, IH, grp_len. cbn [length]. lia. Qed.
  Lemma grp_nth w k : (k < n)%nat -> nth k (grp w) 0 = nth_group bw width w (S k).
  Proof.
    intros H. unfold grp. rewrite (nth_indep _ 0 (nth_group bw width w 0)) by (rewrite map_length, seq_length; lia).
    now rewrite map_nth, seq_nth by lia.
  Qed.

  (** Rising and falling edges alternate. *)
  Lemma alt p t : p_clk p = false -> Forall (fun o => p_cs_n (so_pins o) = false) t ->
    Z.of_nat (length (master_reads cpol cpha p t)) = updates cpol cpha p (map so_pins t) + (if p_clk (last (map so_pins t) p) then 1 else 0).
  Proof.
    intros Hp Hs. induction t as [|o t IH] using rev_ind; [cbn [master_reads map updates last length]; rewrite Hp; lia|].
    apply Forall_app in Hs. destruct Hs as [Hs Ho]. apply Forall_cons_iff in Ho. destruct Ho as [Ho _].
    rewrite reads_snoc, map_app. cbn [map]. rewrite updates_snoc, app_length, last_last. specialize (IH Hs).
    unfold sample_edge, update_edge. rewrite Hm, Ho. cbn [negb andb].
    destruct (p_clk (last (map so_pins t) p)), (p_clk (so_pins o)); cbn [negb andb length] in *; lia.
  Qed.

  (** Next state of the outgoing side. *)
  Lemma out_next s i : let m := cnext c s i in
    l_p1 _ _ m = sl_pins i /\ l_p2 _ _ m = l_p1 _ _ s /\ l_clk_r _ _ m = p_clk (l_p2 _ _ s) /\
    (l_cnto _ _ m, l_rego _ _ m, l_dqo _ _ m) =
      (if sl_load width false s then
         if cvalid (sl_sink i) then (trunc (range_width (width + 1)) width,
            trunc width (Z.shiftl (fst (bdata (cbeat (sl_sink i)))) (width - width)), l_dqo _ _ s)
         else (l_cnto _ _ s, l_rego _ _ s, l_dqo _ _ s)
       else if sl_update cpol cpha width false s then
         (if 0 <? l_cnto _ _ s then trunc (range_width (width + 1)) (l_cnto _ _ s - bw) else l_cnto _ _ s,
          trunc width (2 ^ bw * l_rego _ _ s), trunc bw (Z.shiftr (l_rego _ _ s) (width - bw)))
       else if sl_en _ _ s then (l_cnto _ _ s, l_rego _ _ s, l_dqo _ _ s) else (0, l_rego _ _ s, l_dqo _ _ s)).
  Proof.
    cbv zeta. cbn [cnext spi_slave]. change (sl_wdlen width false (sl_sink i)) with width.
    destruct (if sl_load width false s then _ else _) as [[cnto rego] dqo].
    destruct (sl_sample _ _ _ _ s); [|destruct (sl_pushing _ _ _ _ _ s)]; cbn [l_p1 l_p2 l_clk_r l_cnto l_rego l_dqo]; repeat split.
  Qed.

  Definition asked (o : sl_obs) : Prop := p_cs_n (so_pins o) = false /\ cvalid (so_sink o) = true.

  (** Where the outgoing word is after [K] update edges with words [ws] taken. *)
  Definition sending (s : sl_state width false) (ws : list Z) (K : Z) : Prop :=
    l_cnto _ _ s = 0 /\ K = Z.of_nat n * Z.of_nat (length ws) /\ l_clk_r _ _ s = false \/
    exists ws' w k, ws = ws' ++ [w] /\ 0 <= k < Z.of_nat n /\ K = Z.of_nat n * Z.of_nat (length ws') + k /\
      l_cnto _ _ s = width - bw * k /\ l_rego _ _ s = trunc width (Z.shiftl w (bw * k)).
  Lemma sending_le s ws K : sending s ws K -> 0 <= K <= Z.of_nat n * Z.of_nat (length ws).
  Proof.
    intros [(_ & -> & _)|(ws' & w & k & -> & Hk & -> & _)]; [nia|]. rewrite app_length. cbn [length]. nia.
  Qed.

  (** One step. *)
  Lemma sending_step s i ws K x : p_cs_n (l_p2 _ _ s) = false -> cvalid (sl_sink i) = true -> sending s ws K ->
    l_dqo _ _ s = nth (Z.to_nat K) (x :: G ws) 0 ->
    let ws2 := ws ++ map (fun b => fst (bdata b)) (xfer (sl_sink i) (sl_load width false s)) in
    let K2 := K + (if l_clk_r _ _ s && negb (p_clk (l_p2 _ _ s)) then 1 else 0) in
    sending (cnext c s i) ws2 K2 /\ l_dqo _ _ (cnext c s i) = nth (Z.to_nat K2) (x :: G ws2) 0.
  Proof.
    intros Hc Hv HS HD ws2 K2. destruct (out_next s i) as (_ & _ & N3 & N4). set (m := cnext c s i) in *. clearbody m.
    assert (Hen : sl_en width false s = true) by (unfold sl_en; now rewrite Hc).
    assert (Hup : sl_update cpol cpha width false s = l_clk_r _ _ s && negb (p_clk (l_p2 _ _ s))).
    { unfold sl_update, sl_mode, sl_fall. rewrite Hm, Hen. reflexivity. }
    pose proof (sending_le _ _ _ HS) as KB.
    assert (W0 : 0 < width) by nia.
    rewrite Hup, Hen, Hv in N4. unfold ws2, xfer. rewrite Hv. unfold sl_load in *. rewrite Hen in *. cbn [andb] in *.
    destruct HS as [(C0 & HK & Hr)|(ws' & w & k & -> & Hk & HK & C0 & R0)].
    - rewrite C0 in *. rewrite Z.eqb_refl in *. unfold K2. rewrite Hr in *. cbn [andb] in *. rewrite Z.add_0_r.
      injection N4 as M1 M2 M3. rewrite Z.sub_diag in M2. rewrite trunc_range_small in M1 by lia. cbn [map].
      set (w := fst (bdata (cbeat (sl_sink i)))) in *. split.
      + right. exists ws, w, 0. rewrite Z.mul_0_r, Z.sub_0_r, Z.add_0_r. repeat split; auto; lia.
      + rewrite M3, HD, G_snoc. rewrite app_comm_cons. symmetry. apply app_nth1. cbn [length]. rewrite G_len. nia.
    - assert (Hnz : (l_cnto _ _ s =? 0) = false) by (apply Z.eqb_neq; nia). rewrite Hnz in *. cbn [map]. rewrite app_nil_r.
      unfold K2. destruct (l_clk_r _ _ s && negb (p_clk (l_p2 _ _ s))) eqn:Hf.
      + destruct (Z.ltb_spec 0 (l_cnto _ _ s)) as [_|]; [|nia]. injection N4 as M1 M2 M3. rewrite C0 in M1. rewrite trunc_range_small in M1 by nia.
        apply andb_prop in Hf. destruct Hf as [_ Hf]. apply negb_true_iff in Hf. split.
        * destruct (Z.eq_dec (k + 1) (Z.of_nat n)) as [He|Hne].
          -- left. rewrite M1, N3, Hf, app_length. cbn [length]. repeat split; nia.
          -- right. exists ws', w, (k + 1). split; [reflexivity|]. split; [lia|]. split; [lia|]. split; [rewrite M1; lia|].
             rewrite M2, R0. unfold trunc. rewrite Z.mul_mod_idemp_r by (apply Z.pow_nonzero; lia).
             rewrite !Z.shiftl_mul_pow2 by nia. f_equal. rewrite Z.mul_add_distr_l, Z.mul_1_r, (Z.pow_add_r 2 _ bw) by nia. lia.
        * rewrite M3, R0. replace (Z.to_nat (K + 1)) with (S (Z.to_nat K)) by lia. cbn [nth]. rewrite G_snoc, app_nth2 by (rewrite G_len; nia).
          rewrite G_len. replace (Z.to_nat K - n * length ws')%nat with (Z.to_nat k) by nia. rewrite grp_nth by lia. unfold nth_group.
          replace (Z.of_nat (S (Z.to_nat k))) with (k + 1) by lia.
          rewrite <- (chunk_step width bw w width k) by nia. rewrite Z.sub_diag, Z.add_0_l. reflexivity.
      + injection N4 as M1 M2 M3. rewrite Z.add_0_r. split.
        * right. exists ws', w, k. rewrite M1, M2. repeat split; auto; lia.
        * now rewrite M3.
  Qed.

  (** A frame: [z] is the cycle before the chip select falls. *)
  Context (z : sl_obs) (Hz1 : p_cs_n (so_pins z) = true) (Hz2 : p_clk (so_pins z) = false).
  Notation reads t := (master_reads cpol cpha (so_pins z) t).
  Definition frame_inv (t : list sl_obs) (s : sl_state width false) : Prop :=
    Forall asked t -> slow cpol cpha (z :: t) ->
    match t with
    | [] => l_p1 _ _ s = so_pins z
    | [a] => l_p2 _ _ s = so_pins z /\ l_p1 _ _ s = so_pins a /\ reads t = []
    | _ => exists t' a b x, t = t' ++ [a; b] /\ l_p2 _ _ s = so_pins a /\ l_p1 _ _ s = so_pins b /\
             l_clk_r _ _ s = p_clk (last (map so_pins t') (so_pins z)) /\
             let ws := taken (skipn 2 t) in let K := updates cpol cpha (so_pins z) (map so_pins t') in
             sending s ws K /\ l_dqo _ _ s = nth (Z.to_nat K) (x :: G ws) 0 /\
             reads t = firstn (length (reads t)) (x :: G ws) /\ Z.of_nat (length (reads t)) <= 1 + K
    end.

  Lemma no_read (t : list sl_obs) o : slow cpol cpha (z :: t ++ [o]) -> (length t < 2)%nat ->
    sample_edge cpol cpha (last (map so_pins t) (so_pins z)) (so_pins o) = false.
  Proof.
    intros HS HL. destruct (sample_edge _ _ _ _) eqn:E; [|reflexivity]. exfalso.
    destruct t as [|a [|b t]]; [| |cbn [length] in HL; lia].
    - destruct (HS [] z o [] eq_refl E) as (u & x & y & X & _). destruct u; discriminate.
    - destruct (HS [z] a o [] eq_refl E) as (u & x & y & X & _). destruct u as [|? [|? ?]]; discriminate.
  Qed.

  Lemma frame_run s0 ins : l_p1 _ _ s0 = so_pins z -> frame_inv (trace_from c s0 ins) (state_from c s0 ins).
  Proof.
    intros H0.
    apply (run_inv_from c frame_inv [] s0); [intros _ _; exact H0|]. clear s0 H0 ins.
    intros t s i IH HF HS. apply Forall_app in HF. destruct HF as [HF Ho]. apply Forall_cons_iff in Ho. destruct Ho as [[Ho1 Ho2] _].
    assert (HS' : slow cpol cpha (z :: t)).
    { intros u q o v Eu. apply (HS u q o (v ++ [cout c s i])). now rewrite app_comm_cons, Eu, <- app_assoc. }
    specialize (IH HF HS').
    destruct (out_next s i) as (N1 & N2 & N3 & N4). set (m := cnext c s i) in *.
    set (o := cout c s i) in *.
    assert (O1 : so_pins o = sl_pins i) by reflexivity. assert (O2 : so_sink o = sl_sink i) by reflexivity.
    assert (O3 : so_sready o = sl_load width false s) by reflexivity. assert (O4 : so_dq_o o = l_dqo _ _ s) by reflexivity.
    clearbody o. rewrite O2 in Ho2.
    destruct t as [|a [|b t]].
    - cbn [app]. rewrite N1, N2, IH, O1. repeat split.
      pose proof (no_read [] o HS ltac:(cbn; lia)) as X. cbn [map last] in X. cbn [master_reads]. rewrite X. reflexivity.
    - cbn [app] in *. destruct IH as (I2 & I1 & IR). exists [], a, o, (l_dqo _ _ m). split; [reflexivity|]. rewrite N1, N2, N3, I1, I2, O1.
      split; [reflexivity|]. split; [reflexivity|]. split; [reflexivity|]. cbv zeta. cbn [skipn taken flat_map map updates].
      assert (Hen : sl_en width false s = false) by (unfold sl_en; now rewrite I2, Hz1).
      unfold sl_load, sl_update, sl_mode, sl_fall in N4. rewrite Hm, Hen in N4. cbn [andb] in N4. injection N4 as M1 M2 M3. split; [|split; [|split]].
      + left. split; [exact M1|]. split; [cbn [length]; lia|]. now rewrite N3, I2, Hz2.
      + reflexivity.
      + change [a; o] with ([a] ++ [o]). rewrite reads_snoc. pose proof (no_read [a] o HS ltac:(cbn; lia)) as X. rewrite X, app_nil_r.
        change (reads [a]) with (reads [a]). rewrite IR. reflexivity.
      + change [a; o] with ([a] ++ [o]). rewrite reads_snoc. pose proof (no_read [a] o HS ltac:(cbn; lia)) as X. rewrite X, app_nil_r, IR. cbn [length]. lia.
    - cbn iota in IH. set (tt := a :: b :: t) in *. assert (LT : (2 <= length tt)%nat) by (unfold tt; cbn [length]; lia).
      destruct IH as (t' & a' & b' & x & Et & I2 & I1 & IC & IH). cbv zeta in IH. destruct IH as (SE & DQ & RD & RL).
      assert (Goal' : exists t' a b x, tt ++ [o] = t' ++ [a; b] /\ l_p2 _ _ m = so_pins a /\ l_p1 _ _ m = so_pins b /\
             l_clk_r _ _ m = p_clk (last (map so_pins t') (so_pins z)) /\
             let ws := taken (skipn 2 (tt ++ [o])) in let K := updates cpol cpha (so_pins z) (map so_pins t') in
             sending m ws K /\ l_dqo _ _ m = nth (Z.to_nat K) (x :: G ws) 0 /\
             reads (tt ++ [o]) = firstn (length (reads (tt ++ [o]))) (x :: G ws) /\ Z.of_nat (length (reads (tt ++ [o]))) <= 1 + K).
      2:{ unfold tt in Goal' |- *. exact Goal'. }
      exists (t' ++ [a']), b', o, x. split; [rewrite Et, <- !app_assoc; reflexivity|].
      rewrite N1, N2, N3, I1, I2, O1. split; [reflexivity|]. split; [reflexivity|].
      rewrite map_app. cbn [map]. split; [now rewrite last_last|]. cbv zeta.
      assert (SK : skipn 2 (tt ++ [o]) = skipn 2 tt ++ [o]) by reflexivity.
      rewrite SK, taken_snoc, updates_snoc. rewrite O2, O3.
      set (ws := taken (skipn 2 tt)) in *. set (K := updates cpol cpha (so_pins z) (map so_pins t')) in *.
      assert (Ha : p_cs_n (so_pins a') = false /\ p_cs_n (so_pins b') = false /\ Forall (fun o => p_cs_n (so_pins o) = false) tt).
      { assert (X : Forall (fun o => p_cs_n (so_pins o) = false) tt) by (eapply Forall_impl; [|exact HF]; intros ? [H _]; exact H).
        split; [|split; [|exact X]]; rewrite Et in X; apply Forall_app in X; destruct X as [_ X]; apply Forall_cons_iff in X; destruct X as [X Y]; auto.
        apply Forall_cons_iff in Y; apply Y. }
      destruct Ha as (Ha & Hb & Hall).
      assert (UE : update_edge cpol cpha (last (map so_pins t') (so_pins z)) (so_pins a') = l_clk_r _ _ s && negb (p_clk (l_p2 _ _ s))).
      { unfold update_edge. rewrite Hm, Ha, IC, I2. reflexivity. }
      rewrite UE.
      destruct (sending_step s i ws K x ltac:(now rewrite I2) Ho2 SE DQ) as [S1 S2]. fold m in S1, S2. cbv zeta in S1, S2.
      pose proof (sending_le _ _ _ SE) as KB.
      set (new := map (fun b => fst (bdata b)) (xfer (sl_sink i) (sl_load width false s))) in *.
      split; [exact S1|]. split; [exact S2|].
      assert (PG : exists g, G (ws ++ new) = G ws ++ g) by (unfold G; rewrite map_app, concat_app; eexists; reflexivity). destruct PG as [g PG].
      assert (FN : forall k, (k <= 1 + n * length ws)%nat -> firstn k (x :: G (ws ++ new)) = firstn k (x :: G ws)).
      { intros k Hk. rewrite PG, app_comm_cons, firstn_app. cbn [length]. rewrite G_len. replace (k - S (n * length ws))%nat with 0%nat by lia. now rewrite firstn_O, app_nil_r. }
      rewrite reads_snoc, app_length.
      destruct (sample_edge cpol cpha (last (map so_pins tt) (so_pins z)) (so_pins o)) eqn:SEd.
      + (* the master reads: the clock was low for three cycles *)
        assert (Lb : last (map so_pins tt) (so_pins z) = so_pins b').
        { rewrite Et, map_app. cbn [map]. replace (map so_pins t' ++ [so_pins a'; so_pins b']) with ((map so_pins t' ++ [so_pins a']) ++ [so_pins b']) by now rewrite <- app_assoc. apply last_last. }
        rewrite Lb in SEd.
        assert (Hlow : p_clk (so_pins b') = false).
        { unfold sample_edge in SEd. rewrite Hm in SEd. apply andb_prop in SEd. destruct SEd as [_ X]. apply andb_prop in X. destruct X as [X _]. now apply negb_true_iff. }
        destruct (HS (z :: t' ++ [a']) b' o []) as (u & y1 & y2 & Eu & L1 & L2).
        { rewrite Et. cbn [app]. f_equal. rewrite <- !app_assoc. reflexivity. }
        { exact SEd. }
        rewrite Hlow in L1, L2.
        assert (EY : y2 = a' /\ p_clk (last (map so_pins t') (so_pins z)) = false).
        { change (z :: t' ++ [a']) with ((z :: t') ++ [a']) in Eu. replace (u ++ [y1; y2]) with ((u ++ [y1]) ++ [y2]) in Eu by now rewrite <- app_assoc.
          apply app_inj_tail in Eu. destruct Eu as [Eu Ey]. split; [now symmetry|].
          destruct t' as [|q t' _] using rev_ind; [exact Hz2|]. rewrite map_app. cbn [map]. rewrite last_last.
          rewrite app_comm_cons in Eu. apply app_inj_tail in Eu. destruct Eu as [_ <-]. exact L1. }
        destruct EY as [-> Hl3].
        assert (UP : l_clk_r _ _ s && negb (p_clk (l_p2 _ _ s)) = false) by (now rewrite IC, Hl3).
        rewrite UP in *. rewrite Z.add_0_r in *.
        pose proof (alt (so_pins z) tt Hz2 Hall) as AL. rewrite Lb, Hlow, Z.add_0_r in AL.
        assert (UU : updates cpol cpha (so_pins z) (map so_pins tt) = K).
        { rewrite Et, map_app. cbn [map]. replace (map so_pins t' ++ [so_pins a'; so_pins b']) with ((map so_pins t' ++ [so_pins a']) ++ [so_pins b']) by now rewrite <- app_assoc.
          rewrite !updates_snoc, last_last. unfold update_edge. rewrite Hm, Hl3, L2. cbn [andb]. rewrite !andb_false_r. fold K. lia. }
        rewrite UU in AL. cbn [length]. set (L := length (reads tt)) in *.
        assert (EL : L = Z.to_nat K) by lia. split; [|lia].
        rewrite Nat.add_1_r, FN by nia. rewrite RD, O4, DQ, <- EL.
        assert (SN : forall (l : list Z) k, (k < length l)%nat -> firstn k l ++ [nth k l 0] = firstn (S k) l).
        { clear. induction l as [|h l IH]; intros k Hk; [cbn in Hk; lia|]. destruct k; [reflexivity|]. cbn [firstn nth app]. f_equal. apply IH. cbn in Hk. lia. }
        apply SN. cbn [length]. rewrite G_len. nia.
      + cbn [length]. rewrite app_nil_r, Nat.add_0_r. rewrite FN by nia. split; [exact RD|]. destruct (_ && _); lia.
  Qed.
End Slave.
