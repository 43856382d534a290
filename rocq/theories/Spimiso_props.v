(** C92, the modes with CPHA = 1. *)
From Verif Require Import Stream Bits Spislave_model Spislave_props.

(** The clock is slow: three cycles without a change before every sampling edge. *)
Definition slow (cpol cpha : bool) (t : list sl_obs) : Prop :=
  forall u z o v, t = u ++ z :: o :: v -> sample_edge cpol cpha (so_pins z) (so_pins o) = true ->
    exists u' x y, u = u' ++ [x; y] /\ p_clk (so_pins x) = p_clk (so_pins z) /\ p_clk (so_pins y) = p_clk (so_pins z).
(** The k-th group of [bw] bits of a [len]-bit word, from the top, counting from 1. *)
Definition nth_group (bw len d : Z) (k : nat) : Z := Z.shiftr d (len - bw * Z.of_nat k) mod 2 ^ bw.

Lemma reads_snoc cpol cpha p t o : master_reads cpol cpha p (t ++ [o]) =
  master_reads cpol cpha p t ++ (if sample_edge cpol cpha (last (map so_pins t) p) (so_pins o) then [so_dq_o o] else []).
Proof.
  revert p. induction t as [|x t IH]; intros p; [cbn; now rewrite app_nil_r|].
  cbn [app master_reads map]. rewrite IH, <- app_assoc. do 2 f_equal.
  destruct (map so_pins t) as [|y l]; [reflexivity|]. change (last (so_pins x :: y :: l) p) with (last (y :: l) p). now rewrite (last_dflt l y (so_pins x) p).
Qed.
(** Update and sampling edges alternate, an update edge first. *)
Lemma alternate cpol p l : p_clk p = cpol -> Forall (fun q => p_cs_n q = false) l ->
  forall n, n = length (sampled cpol true p l) ->
  updates cpol true p l = Z.of_nat n + (if Bool.eqb (p_clk (last l p)) cpol then 0 else 1).
Proof.
  intros Hp Hs n ->. induction l as [|q l IH] using rev_ind; [cbn; rewrite Hp, Bool.eqb_reflx; reflexivity|].
  apply Forall_app in Hs. destruct Hs as [Hs Hq]. inversion Hq as [|? ? Hq' _]; subst. rewrite updates_snoc, sampled_snoc, app_length, last_last, (IH Hs).
  unfold update_edge, sample_edge. rewrite Hq'. destruct (p_clk (last l p)), (p_clk q), (p_clk p); cbn; lia.
Qed.
Lemma reads_length cpol cpha p t : length (master_reads cpol cpha p t) = length (sampled cpol cpha p (map so_pins t)).
Proof. revert p. induction t as [|o t IH]; intros p; [reflexivity|]. cbn. rewrite !app_length, IH. now destruct (sample_edge _ _ _ _). Qed.
Lemma updates_app cpol cpha p l l' : updates cpol cpha p (l ++ l') = updates cpol cpha p l + updates cpol cpha (last l p) l'.
Proof.
  revert p. induction l as [|q l IH]; intros p; [cbn; lia|]. cbn [app updates]. rewrite IH.
  destruct l as [|y l]; [cbn; lia|]. change (last (q :: y :: l) p) with (last (y :: l) p). rewrite (last_dflt l y q p). lia.
Qed.
Lemma updates_still cpol cpha p q l : p_clk q = p_clk p -> updates cpol cpha p (q :: l) = updates cpol cpha q l.
Proof. intros H. cbn [updates]. unfold update_edge. rewrite H. destruct (p_clk p), (Bool.eqb cpol cpha), (p_cs_n q); reflexivity. Qed.

Lemma looked_two l y z : looked_at (l ++ [y; z]) = low :: low :: map so_pins l.
Proof.
  unfold looked_at. rewrite app_length, map_app. cbn [length map]. rewrite Nat.add_comm. cbn [Nat.add firstn]. do 2 f_equal.
  rewrite <- (map_length so_pins l) at 1. rewrite firstn_app, Nat.sub_diag, firstn_all. cbn. apply app_nil_r.
Qed.

(** With CPHA = 1: a word taken while the clock is at rest is read by the master at its
    sampling edges, most significant bits first, starting with the first sampling edge,
    however slow and irregular the clock is. *)
Theorem C92_cpha1_partial : forall cpol width bw with_len stages ins t0 a b o t2 t3,
  0 < bw -> 0 < width ->
  trace (spi_slave cpol true width bw with_len stages) ins = (t0 ++ [a; b]) ++ o :: t2 ++ t3 ->
  let d := fst (bdata (cbeat (so_sink o))) in
  let len := if with_len then snd (bdata (cbeat (so_sink o))) else width in
  cvalid (so_sink o) = true -> so_sready o = true -> 0 < len <= width -> (bw | len) ->
  Forall (fun x => p_clk (so_pins x) = cpol) [a; b; o] ->
  Forall (fun x => p_cs_n (so_pins x) = false) (a :: b :: o :: t2) ->
  slow cpol true (o :: t2) ->
  let r := master_reads cpol true (so_pins o) t2 in
  bw * Z.of_nat (length r) <= len ->
  r = map (nth_group bw len d) (seq 1 (length r)).
Proof.
  intros cpol width bw wl stages ins t0 a b o t2 t3 Hb Hw E d len H1 H2 H3 H4 HI HS HL r Hr.
  revert t3 E HS HL Hr. unfold r. clear r. induction t2 as [|o' t2 IH] using rev_ind; intros t3 E HS HL Hr; [reflexivity|].
  rewrite reads_snoc in Hr |- *. rewrite app_length in Hr |- *.
  assert (HS' : Forall (fun x => p_cs_n (so_pins x) = false) (a :: b :: o :: t2)).
  { rewrite !app_comm_cons in HS. apply Forall_app in HS. apply HS. }
  assert (HL' : slow cpol true (o :: t2)).
  { intros u z x v Eu. apply (HL u z x (v ++ [o'])). now rewrite app_comm_cons, Eu, <- app_assoc. }
  specialize (IH (o' :: t3)). rewrite <- (app_assoc t2) in E. specialize (IH E HS' HL').
  destruct (sample_edge cpol true (last (map so_pins t2) (so_pins o)) (so_pins o')) eqn:Es.
  2:{ cbn [length] in *. rewrite Nat.add_0_r in *. rewrite app_nil_r. auto. }
  cbn [length] in *. rewrite seq_app, map_app. f_equal; [apply IH; lia|]. cbn [seq map]. f_equal.
  set (n := length (master_reads cpol true (so_pins o) t2)) in *.
  (* the three still cycles *)
  assert (exists u z, o :: t2 = u ++ [z]) as (u & z & Eu) by (destruct (exists_last (l := o :: t2)) as (u & z & ->); [discriminate|eauto]).
  assert (El : last (map so_pins t2) (so_pins o) = so_pins z).
  { assert (last (map so_pins (o :: t2)) (so_pins o) = so_pins z) as <- by (rewrite Eu, map_app; apply last_last). cbn [map]. destruct (map so_pins t2) as [|y l]; reflexivity. }
  rewrite El in Es.
  destruct (HL u z o' []) as (u' & x & y & Eu' & Hx & Hy); [rewrite app_comm_cons, Eu, <- app_assoc; reflexivity|exact Es|]. subst u.
  (* no update edge is on its way *)
  assert (LA : looked_at ((t0 ++ [a; b]) ++ o :: t2) = (low :: low :: map so_pins t0 ++ [so_pins a]) ++ so_pins b :: map so_pins (u' ++ [x])).
  { replace ((t0 ++ [a; b]) ++ o :: t2) with ((t0 ++ a :: b :: u' ++ [x]) ++ [y; z]).
    - rewrite looked_two, map_app. cbn [map app]. rewrite <- app_assoc. reflexivity.
    - rewrite Eu, <- !app_assoc. cbn [app]. rewrite <- !app_assoc. reflexivity. }
  assert (LP : last (looked_at ((t0 ++ [a; b]) ++ [o])) low = so_pins a).
  { replace ((t0 ++ [a; b]) ++ [o]) with ((t0 ++ [a]) ++ [b; o]) by (rewrite <- !app_assoc; reflexivity).
    rewrite looked_two, map_app. cbn [map]. change (low :: low :: map so_pins t0 ++ [so_pins a]) with ((low :: low :: map so_pins t0) ++ [so_pins a]). apply last_last. }
  assert (SK : skipn (length ((t0 ++ [a; b]) ++ [o])) (looked_at ((t0 ++ [a; b]) ++ o :: t2)) = so_pins b :: map so_pins (u' ++ [x])).
  { rewrite LA. rewrite skipn_app. replace (length _ - length _)%nat with 0%nat by (cbn [length]; rewrite !app_length, map_length; cbn [length]; lia).
    rewrite skipn_all2 by (cbn [length]; rewrite !app_length, map_length; cbn [length]; lia). reflexivity. }
  rewrite Forall_forall in HI. pose proof (HI a ltac:(cbn; auto)) as Ia. pose proof (HI b ltac:(cbn; auto)) as Ib. pose proof (HI o ltac:(cbn; auto)) as Io.
  assert (CS : Forall (fun q => p_cs_n q = false) (so_pins b :: map so_pins (u' ++ [x]))).
  { apply Forall_cons; [now inversion HS' as [|? ? _ HS1]; inversion HS1|]. apply Forall_map.
    inversion HS' as [|? ? _ HS1]. inversion HS1 as [|? ? _ HS2]. rewrite Eu in HS2. replace ((u' ++ [x; y]) ++ [z]) with ((u' ++ [x]) ++ [y; z]) in HS2 by (rewrite <- !app_assoc; reflexivity). apply Forall_app in HS2. apply HS2. }
  assert (UK : updates cpol true (so_pins a) (so_pins b :: map so_pins (u' ++ [x])) = Z.of_nat n + 1).
  { rewrite updates_still by congruence.
    assert (T : updates cpol true (so_pins b) (map so_pins (o :: t2)) = updates cpol true (so_pins b) (map so_pins (u' ++ [x]))).
    { rewrite Eu. replace ((u' ++ [x; y]) ++ [z]) with ((u' ++ [x]) ++ [y; z]) by (rewrite <- !app_assoc; reflexivity). rewrite map_app, updates_app, map_app. cbn [map]. rewrite last_last, !updates_still by congruence. cbn. lia. }
    rewrite <- T. cbn [map]. rewrite updates_still by congruence.
    rewrite (alternate _ (so_pins o) (map so_pins t2) Io) with (n := n); [| |unfold n; apply reads_length].
    - rewrite El. unfold sample_edge in Es. destruct cpol, (p_clk (so_pins z)), (p_cs_n (so_pins o')), (p_clk (so_pins o')); cbn in *; try discriminate; lia.
    - apply Forall_map. inversion HS' as [|? ? _ HS1]. inversion HS1 as [|? ? _ HS2]. now inversion HS2. }
  pose proof (C92_update_edges_partial cpol true width bw wl stages ins (t0 ++ [a; b]) o t2 o' t3 Hb Hw E H1 H2 H3 H4) as K.
  cbv zeta in K. fold d in K. rewrite LP, SK, UK in K. fold len in K. destruct (K CS ltac:(lia)) as [K' _].
  unfold nth_group. rewrite K' by lia. do 2 f_equal. lia.
Qed.

(** With CPHA = 0 a sampling edge comes first. *)
Lemma alternate0 cpol p l : p_clk p = cpol -> Forall (fun q => p_cs_n q = false) l ->
  forall n, n = length (sampled cpol false p l) ->
  updates cpol false p l = Z.of_nat n - (if Bool.eqb (p_clk (last l p)) cpol then 0 else 1).
Proof.
  intros Hp Hs n ->. induction l as [|q l IH] using rev_ind; [cbn; rewrite Hp, Bool.eqb_reflx; reflexivity|].
  apply Forall_app in Hs. destruct Hs as [Hs Hq]. inversion Hq as [|? ? Hq' _]; subst. rewrite updates_snoc, sampled_snoc, app_length, last_last, (IH Hs).
  unfold update_edge, sample_edge. rewrite Hq'. destruct (p_clk (last l p)), (p_clk q), (p_clk p); cbn; lia.
Qed.
(** With CPHA = 0: the same word is read one group late, whatever the clock: the first
    sampling edge reads the line as it was before, every later one the group that the
    previous one should have read. *)
Theorem C92_cpha0_partial : forall cpol width bw with_len stages ins t0 a b o t2 t3,
  0 < bw -> 0 < width ->
  trace (spi_slave cpol false width bw with_len stages) ins = (t0 ++ [a; b]) ++ o :: t2 ++ t3 ->
  let d := fst (bdata (cbeat (so_sink o))) in
  let len := if with_len then snd (bdata (cbeat (so_sink o))) else width in
  cvalid (so_sink o) = true -> so_sready o = true -> 0 < len <= width -> (bw | len) ->
  Forall (fun x => p_clk (so_pins x) = cpol) [a; b; o] ->
  Forall (fun x => p_cs_n (so_pins x) = false) (a :: b :: o :: t2) ->
  slow cpol false (o :: t2) ->
  let r := master_reads cpol false (so_pins o) t2 in
  bw * (Z.of_nat (length r) - 1) <= len ->
  tl r = map (nth_group bw len d) (seq 1 (length r - 1)).
Proof.
  intros cpol width bw wl stages ins t0 a b o t2 t3 Hb Hw E d len H1 H2 H3 H4 HI HS HL r Hr.
  revert t3 E HS HL Hr. unfold r. clear r. induction t2 as [|o' t2 IH] using rev_ind; intros t3 E HS HL Hr; [reflexivity|].
  rewrite reads_snoc in Hr |- *. rewrite app_length in Hr |- *.
  assert (HS' : Forall (fun x => p_cs_n (so_pins x) = false) (a :: b :: o :: t2)).
  { rewrite !app_comm_cons in HS. apply Forall_app in HS. apply HS. }
  assert (HL' : slow cpol false (o :: t2)).
  { intros u z x v Eu. apply (HL u z x (v ++ [o'])). now rewrite app_comm_cons, Eu, <- app_assoc. }
  specialize (IH (o' :: t3)). rewrite <- (app_assoc t2) in E. specialize (IH E HS' HL').
  destruct (sample_edge cpol false (last (map so_pins t2) (so_pins o)) (so_pins o')) eqn:Es.
  2:{ cbn [length] in *. rewrite Nat.add_0_r in *. rewrite app_nil_r. auto. }
  cbn [length] in *. destruct (length (master_reads cpol false (so_pins o) t2)) as [|n'] eqn:Ln.
  { destruct (master_reads cpol false (so_pins o) t2); [reflexivity|discriminate]. }
  assert (TL : tl (master_reads cpol false (so_pins o) t2 ++ [so_dq_o o']) = tl (master_reads cpol false (so_pins o) t2) ++ [so_dq_o o']) by (destruct (master_reads cpol false (so_pins o) t2); [discriminate|reflexivity]).
  rewrite TL. replace (S n' + 1 - 1)%nat with (n' + 1)%nat by lia. rewrite seq_app, map_app. replace n' with (S n' - 1)%nat at 1 by lia. f_equal; [apply IH; lia|]. cbn [seq map]. f_equal. rewrite <- Ln in *.
  set (n := length (master_reads cpol false (so_pins o) t2)) in *.
  (* the three still cycles *)
  assert (exists u z, o :: t2 = u ++ [z]) as (u & z & Eu) by (destruct (exists_last (l := o :: t2)) as (u & z & ->); [discriminate|eauto]).
  assert (El : last (map so_pins t2) (so_pins o) = so_pins z).
  { assert (last (map so_pins (o :: t2)) (so_pins o) = so_pins z) as <- by (rewrite Eu, map_app; apply last_last). cbn [map]. destruct (map so_pins t2) as [|y l]; reflexivity. }
  rewrite El in Es.
  destruct (HL u z o' []) as (u' & x & y & Eu' & Hx & Hy); [rewrite app_comm_cons, Eu, <- app_assoc; reflexivity|exact Es|]. subst u.
  (* no update edge is on its way *)
  assert (LA : looked_at ((t0 ++ [a; b]) ++ o :: t2) = (low :: low :: map so_pins t0 ++ [so_pins a]) ++ so_pins b :: map so_pins (u' ++ [x])).
  { replace ((t0 ++ [a; b]) ++ o :: t2) with ((t0 ++ a :: b :: u' ++ [x]) ++ [y; z]).
    - rewrite looked_two, map_app. cbn [map app]. rewrite <- app_assoc. reflexivity.
    - rewrite Eu, <- !app_assoc. cbn [app]. rewrite <- !app_assoc. reflexivity. }
  assert (LP : last (looked_at ((t0 ++ [a; b]) ++ [o])) low = so_pins a).
  { replace ((t0 ++ [a; b]) ++ [o]) with ((t0 ++ [a]) ++ [b; o]) by (rewrite <- !app_assoc; reflexivity).
    rewrite looked_two, map_app. cbn [map]. change (low :: low :: map so_pins t0 ++ [so_pins a]) with ((low :: low :: map so_pins t0) ++ [so_pins a]). apply last_last. }
  assert (SK : skipn (length ((t0 ++ [a; b]) ++ [o])) (looked_at ((t0 ++ [a; b]) ++ o :: t2)) = so_pins b :: map so_pins (u' ++ [x])).
  { rewrite LA. rewrite skipn_app. replace (length _ - length _)%nat with 0%nat by (cbn [length]; rewrite !app_length, map_length; cbn [length]; lia).
    rewrite skipn_all2 by (cbn [length]; rewrite !app_length, map_length; cbn [length]; lia). reflexivity. }
  rewrite Forall_forall in HI. pose proof (HI a ltac:(cbn; auto)) as Ia. pose proof (HI b ltac:(cbn; auto)) as Ib. pose proof (HI o ltac:(cbn; auto)) as Io.
  assert (CS : Forall (fun q => p_cs_n q = false) (so_pins b :: map so_pins (u' ++ [x]))).
  { apply Forall_cons; [now inversion HS' as [|? ? _ HS1]; inversion HS1|]. apply Forall_map.
    inversion HS' as [|? ? _ HS1]. inversion HS1 as [|? ? _ HS2]. rewrite Eu in HS2. replace ((u' ++ [x; y]) ++ [z]) with ((u' ++ [x]) ++ [y; z]) in HS2 by (rewrite <- !app_assoc; reflexivity). apply Forall_app in HS2. apply HS2. }
  assert (UK : updates cpol false (so_pins a) (so_pins b :: map so_pins (u' ++ [x])) = Z.of_nat n).
  { rewrite updates_still by congruence.
    assert (T : updates cpol false (so_pins b) (map so_pins (o :: t2)) = updates cpol false (so_pins b) (map so_pins (u' ++ [x]))).
    { rewrite Eu. replace ((u' ++ [x; y]) ++ [z]) with ((u' ++ [x]) ++ [y; z]) by (rewrite <- !app_assoc; reflexivity). rewrite map_app, updates_app, map_app. cbn [map]. rewrite last_last, !updates_still by congruence. cbn. lia. }
    rewrite <- T. cbn [map]. rewrite updates_still by congruence.
    rewrite (alternate0 _ (so_pins o) (map so_pins t2) Io) with (n := n); [| |unfold n; apply reads_length].
    - rewrite El. unfold sample_edge in Es. destruct cpol, (p_clk (so_pins z)), (p_cs_n (so_pins o')), (p_clk (so_pins o')); cbn in *; try discriminate; lia.
    - apply Forall_map. inversion HS' as [|? ? _ HS1]. inversion HS1 as [|? ? _ HS2]. now inversion HS2. }
  pose proof (C92_update_edges_partial cpol false width bw wl stages ins (t0 ++ [a; b]) o t2 o' t3 Hb Hw E H1 H2 H3 H4) as K.
  cbv zeta in K. fold d in K. rewrite LP, SK, UK in K. fold len in K. destruct (K CS ltac:(lia)) as [K' _].
  unfold nth_group. rewrite K' by lia. do 2 f_equal. lia.
Qed.

(** A 16-bit word read through 4 lines, in mode CPOL = 1, CPHA = 1: the hypotheses are met. *)
Definition miso_in (w : Z) : list sl_in :=
  let f v := repeat (SlIn (Pins v false 0) (Chan true (Beat false false (w, 16))) true) in
  repeat (SlIn (Pins true true 0) (Chan true (Beat false false (w, 16))) true) 4 ++ f true 3%nat ++ flat_map (fun n => f false (n + 3)%nat ++ f true (2 * n + 3)%nat) (seq 0 4).
Definition slowb (cpol cpha : bool) (t : list sl_obs) : bool :=
  let pin i := nth i (map so_pins t) low in
  forallb (fun i => negb (sample_edge cpol cpha (pin i) (pin (S i))) ||
    (Nat.leb 2 i && Bool.eqb (p_clk (pin (i - 1)%nat)) (p_clk (pin i)) && Bool.eqb (p_clk (pin (i - 2)%nat)) (p_clk (pin i)))) (seq 0 (length t)).
Lemma slowb_ok cpol cpha t : slowb cpol cpha t = true -> slow cpol cpha t.
Proof.
  intros H u z o v -> Es. unfold slowb in H. rewrite forallb_forall in H. specialize (H (length u)).
  rewrite !map_app in H. cbn [map] in H.
  assert (N0 : nth (length u) (map so_pins u ++ so_pins z :: so_pins o :: map so_pins v) low = so_pins z) by (rewrite <- (map_length so_pins u); apply nth_middle).
  assert (N1 : nth (S (length u)) (map so_pins u ++ so_pins z :: so_pins o :: map so_pins v) low = so_pins o).
  { change (so_pins z :: so_pins o :: map so_pins v) with ([so_pins z] ++ so_pins o :: map so_pins v). rewrite app_assoc.
    replace (S (length u)) with (length (map so_pins u ++ [so_pins z])) by (rewrite app_length, map_length; cbn; lia). apply nth_middle. }
  rewrite N0, N1, Es in H. cbn [negb orb] in H. assert (I : In (length u) (seq 0 (length (u ++ z :: o :: v)))) by (apply in_seq; rewrite app_length; cbn; lia).
  specialize (H I). apply andb_prop in H. destruct H as [H H3]. apply andb_prop in H. destruct H as [H1 H2]. apply Nat.leb_le in H1.
  apply eqb_prop in H2, H3.
  destruct u as [|y u _] using rev_ind; [cbn in H1; lia|]. destruct u as [|x u _] using rev_ind; [cbn in H1; lia|].
  exists u, x, y. rewrite <- app_assoc. split; [reflexivity|]. rewrite !app_length in H2, H3. cbn [length] in H2, H3.
  rewrite !map_app, <- !app_assoc in H2, H3. cbn [map app] in H2, H3.
  replace (length u + 1 + 1 - 1)%nat with (length (map so_pins u ++ [so_pins x])) in H2 by (rewrite app_length, map_length; cbn; lia).
  replace (length u + 1 + 1 - 2)%nat with (length (map so_pins u)) in H3 by (rewrite map_length; lia).
  rewrite nth_middle in H3. change (so_pins x :: so_pins y :: ?l) with ([so_pins x] ++ so_pins y :: l) in H2. rewrite app_assoc, nth_middle in H2. auto.
Qed.
Example C92_cpha1_nonvacuous : exists t0 a b o t2,
  trace (spi_slave true true 16 4 false [16]) (miso_in 51966) = (t0 ++ [a; b]) ++ o :: t2 ++ [] /\
  cvalid (so_sink o) = true /\ so_sready o = true /\
  Forall (fun x => p_clk (so_pins x) = true) [a; b; o] /\
  Forall (fun x => p_cs_n (so_pins x) = false) (a :: b :: o :: t2) /\ slow true true (o :: t2) /\
  master_reads true true (so_pins o) t2 = [12; 10; 15; 14].
Proof.
  eexists (firstn 4 (trace (spi_slave true true 16 4 false [16]) (miso_in 51966))), _, _, _, (skipn 7 (trace (spi_slave true true 16 4 false [16]) (miso_in 51966))).
  split; [vm_compute; reflexivity|]. split; [reflexivity|]. split; [vm_compute; reflexivity|].
  split; [repeat constructor|]. split; [vm_compute; repeat constructor|].
  split; [apply slowb_ok; vm_compute; reflexivity|vm_compute; reflexivity].
Qed.
Print Assumptions C92_cpha1_partial.

(** The same waveform, with a longer rest, in mode CPOL = 1, CPHA = 0. *)
Definition miso0_in (w : Z) : list sl_in :=
  let f v := repeat (SlIn (Pins v false 0) (Chan true (Beat false false (w, 16))) true) in
  repeat (SlIn (Pins true true 0) (Chan true (Beat false false (w, 16))) true) 4 ++ f true 6%nat ++ flat_map (fun n => f false (n + 3)%nat ++ f true (2 * n + 3)%nat) (seq 0 4).
Example C92_cpha0_nonvacuous : exists t0 a b o t2,
  trace (spi_slave true false 16 4 false [16]) (miso0_in 51966) = (t0 ++ [a; b]) ++ o :: t2 ++ [] /\
  cvalid (so_sink o) = true /\ so_sready o = true /\
  Forall (fun x => p_clk (so_pins x) = true) [a; b; o] /\
  Forall (fun x => p_cs_n (so_pins x) = false) (a :: b :: o :: t2) /\ slow true false (o :: t2) /\
  master_reads true false (so_pins o) t2 = [0; 12; 10; 15].
Proof.
  eexists (firstn 4 (trace (spi_slave true false 16 4 false [16]) (miso0_in 51966))), _, _, _, (skipn 7 (trace (spi_slave true false 16 4 false [16]) (miso0_in 51966))).
  split; [vm_compute; reflexivity|]. split; [reflexivity|]. split; [vm_compute; reflexivity|].
  split; [repeat constructor|]. split; [vm_compute; repeat constructor|].
  split; [apply slowb_ok; vm_compute; reflexivity|vm_compute; reflexivity].
Qed.
Print Assumptions C92_cpha0_partial.
