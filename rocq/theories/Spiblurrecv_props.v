(** C165: the two boards of the SPI bridge, each on its own clock, with edges of the
    slave's clock that may fall on a change of the pins. *)
From Verif Require Import Stream Bits Fifo_model Fifo_proofs I2cstream_proofs Chain_props Spistream_model Spimaster_model Spimaster_props Spislave_model Spislave_props Spilink_model Spilink_spec Spilink_proofs Spilink_props Spirate_props Spixchg_props Spipair_model Spipair_proofs Spipair_props Spipairrx_props Usbspi_model Usbspi_spec Usbspi_props Usbspirecv_props Spiclock_spec Spiclock_proofs Spiclock_props Spiclockrecv_props Spiblur_spec Spiblur_props.

(** The clock of the slave has a clear edge in every min(div+1, 5) cycles of the host's,
    and any others. *)
Definition clear_enough (bw div : Z) (gs : list glimpse) (u : list sl_obs) (t : list host_obs) : Prop :=
  exists w, (0 < w)%nat /\ Z.of_nat w <= Z.min (div + 1) 5 /\ blurry bw w gs u t.

(** Whatever the pace of the slave's user, as long as it never leaves a word waiting for
    [2 * (width / bw)] cycles of the slave in a row: nothing is lost, repeated or
    reordered, and at most eight words wait in the slave. *)
Theorem C165_paced : forall width bw div delay cpol cpha ins sins gs m L,
  0 <= div < 256 -> In bw [1; 2; 4; 8] -> width = bw * m -> 0 < width <= 256 -> cpol = cpha -> 0 < L <= 2 * m ->
  let t := trace (spi_host width bw div delay) ins in
  let u := trace (spi_slave cpol cpha width bw false [width]) sins in
  Forall (fun b => 0 <= bdata b < 2 ^ width) (sent t) ->
  clear_enough bw div gs u t -> taken_within L (map so_fifo u) ->
  exists held coming, map bdata (sent t) = map bdata (emitted (map so_fifo u)) ++ held ++ coming /\ (length held <= 8)%nat.
Proof.
  intros width bw div delay cpol cpha ins sins gs m L Hd Hb Hq Hw Hm HL t u HS (w & W1 & W2 & HC) HT.
  assert (B : 0 < bw) by (cbn [In] in Hb; lia). assert (HD : (bw | width)) by (exists m; lia).
  destruct (C162_words_partial width bw div delay cpol cpha false ins sins gs w Hd Hb HD Hw Hm HS W1 W2 HC) as [WL _]. fold u in WL.
  apply (C162_delivered width bw div delay cpol cpha ins sins gs w Hd Hb HD Hw Hm HS W1 W2 HC).
  apply (C55_no_overrun cpol cpha width bw false [width] sins m L); auto.
  - apply (slave_ok width bw (Z.to_nat m)); [exact B|lia|rewrite Z2Nat.id by nia; exact Hq].
  - destruct HC as (L1 & _ & Bl & EW). unfold t in L1. rewrite trace_length in L1.
    exact (blur_dq width bw div delay cpol cpha false Hb ins sins gs L1 Bl EW).
  - fold u. eapply Forall_impl; [|exact WL]. intros x ->. lia.
Qed.

(** The host at rest, and five more edges of the slave's clock: with a user that is
    always ready, everything has been delivered. *)
Theorem C165_rest : forall width bw div delay cpol cpha ins sins gs v p,
  0 <= div < 256 -> In bw [1; 2; 4; 8] -> (bw | width) -> 0 < width <= 256 -> cpol = cpha ->
  let t := trace (spi_host width bw div delay) ins in
  let u := trace (spi_slave cpol cpha width bw false [width]) sins in
  Forall (fun b => 0 <= bdata b < 2 ^ width) (sent t) ->
  clear_enough bw div gs u t -> Forall (fun o => o_rready (so_fifo o) = true) u ->
  p = last (map pins_of t) low -> p_cs_n p = true -> map so_pins u = v ++ repeat p 5 ->
  map bdata (emitted (map so_fifo u)) = map bdata (sent t).
Proof.
  intros width bw div delay cpol cpha ins sins gs v p Hd Hb HD Hw Hm t u HS (w & W1 & W2 & HC) HR Hp Hc Hv.
  assert (B : 0 < bw) by (cbn [In] in Hb; lia). assert (Hn := HD). destruct Hn as [q Hn].
  assert (Hn' : width = bw * Z.of_nat (Z.to_nat q)) by (rewrite Z2Nat.id by nia; lia). set (n := Z.to_nat q) in *.
  destruct (C162_words_partial width bw div delay cpol cpha false ins sins gs w Hd Hb HD Hw Hm HS W1 W2 HC) as [WL _]. fold u in WL.
  assert (Hv' : map so_pins u = (v ++ [p; p]) ++ [p; p; p]) by (rewrite Hv, <- app_assoc; reflexivity).
  pose proof (C162_complete width bw div delay cpol cpha false ins sins gs w (v ++ [p; p]) p Hd Hb HD Hw Hm HS W1 W2 HC Hp Hc Hv') as G. fold t u in G.
  assert (DQ : dq_ok bw u).
  { destruct HC as (L1 & _ & Bl & EW). unfold t in L1. rewrite trace_length in L1. exact (blur_dq width bw div delay cpol cpha false Hb ins sins gs L1 Bl EW). }
  assert (HPr : Forall (fun x => 0 <= fst (fst x) < 2 ^ width) (pushes u)).
  { apply (Forall_map (fun x => fst (fst x)) (fun x => 0 <= x < 2 ^ width)). rewrite G. apply Forall_map. exact HS. }
  (* the last two cycles *)
  assert (Lu : (5 <= length u)%nat) by (rewrite <- (map_length so_pins), Hv, app_length, repeat_length; lia).
  assert (EU : exists u3 x y, u = u3 ++ [x; y]).
  { destruct u as [|y u2 _] using rev_ind; [cbn in Lu; lia|]. destruct u2 as [|x u3 _] using rev_ind; [cbn in Lu; lia|]. exists u3, x, y. now rewrite <- app_assoc. }
  destruct EU as (u3 & x & y & EU). rewrite <- G.
  apply (fifo_late width bw cpol cpha ltac:(lia) sins HR HPr u3 x y EU).
  destruct (trace_two_fewer _ _ _ _ _ EU) as (si & i & j & -> & E3).
  assert (OK := slave_ok width bw n B ltac:(lia) Hn').
  assert (P3 : map so_pins u3 = v ++ [p; p; p]).
  { rewrite EU, map_app in Hv. cbn [map] in Hv. change (repeat p 5) with ([p; p; p] ++ [p; p]) in Hv. rewrite app_assoc in Hv.
    change [so_pins x; so_pins y] with ([so_pins x] ++ [so_pins y]) in Hv. change [p; p] with ([p] ++ [p]) in Hv. rewrite !app_assoc in Hv.
    apply app_inj_tail in Hv. destruct Hv as [Hv _]. apply app_inj_tail in Hv. destruct Hv as [Hv _]. rewrite Hv, <- ?app_assoc. reflexivity. }
  assert (LK : forall r l, map so_pins r = l ++ [p; p] -> looked_at r = low :: low :: l).
  { clear. intros r l E. unfold looked_at. rewrite E. assert (Lr : length r = S (S (length l))) by (rewrite <- (map_length so_pins), E, app_length; cbn [length]; lia).
    rewrite Lr. change (firstn (S (S (length l))) (low :: low :: l ++ [p; p])) with (low :: low :: firstn (length l) (l ++ [p; p])).
    rewrite firstn_app, Nat.sub_diag, firstn_all. cbn [firstn]. now rewrite app_nil_r. }
  assert (L3 : looked_at u3 = low :: low :: v ++ [p]) by (apply LK; rewrite <- app_assoc; exact P3).
  assert (L5 : looked_at u = low :: low :: (v ++ [p]) ++ repeat p 2) by (apply LK; rewrite Hv, <- !app_assoc; reflexivity).
  assert (C3 : forall l, p_cs_n (last (low :: low :: l ++ [p]) low) = true) by (intros l; change (low :: low :: l ++ [p]) with ((low :: low :: l) ++ [p]); now rewrite last_last).
  assert (DQ3 : dq_ok bw u3) by (unfold dq_ok in *; rewrite EU in DQ; apply Forall_app in DQ; apply DQ).
  rewrite <- E3 in DQ3. assert (PU : pushes u = pushes u3 ++ pushes [x; y]) by (rewrite EU; unfold pushes; apply flat_map_app).
  destruct (C55_received cpol cpha width bw false [width] (si ++ [i; j]) OK DQ) as (c5 & p5 & S5 & F5 & _ & _ & Q5). fold u in S5, F5, Q5.
  destruct (C55_received cpol cpha width bw false [width] si OK DQ3) as (c3 & p3 & S3 & F3 & _ & _ & Q3). rewrite E3 in S3, F3, Q3.
  rewrite L3 in S3, Q3. rewrite (Q3 (C3 _)), app_nil_r in S3.
  rewrite L5 in S5, Q5. change (repeat p 2) with ([p] ++ [p]) in Q5. rewrite (app_assoc (v ++ [p])) in Q5. rewrite (Q5 (C3 _)), app_nil_r in S5.
  change (low :: low :: (v ++ [p]) ++ repeat p 2) with ((low :: low :: v ++ [p]) ++ repeat p 2) in S5. rewrite sampled_app in S5.
  change (low :: low :: v ++ [p]) with ((low :: low :: v) ++ [p]) in S5 at 2. rewrite last_last, sampled_again, app_nil_r, S3 in S5.
  assert (WL3 : Forall (fun x => snd (fst x) = width) (pushes u3)) by (rewrite PU in WL; apply Forall_app in WL; apply WL).
  pose proof (full_chunks width bw n ltac:(lia) Hn' _ _ F5 WL) as K5. pose proof (full_chunks width bw n ltac:(lia) Hn' _ _ F3 WL3) as K3.
  apply (f_equal (@length Z)) in S5. rewrite (concat_len n _ K5), (concat_len n _ K3) in S5.
  assert (N5 : length c5 = length (pushes u)) by (clear -F5; induction F5; cbn [length]; congruence).
  assert (N3 : length c3 = length (pushes u3)) by (clear -F3; induction F3; cbn [length]; congruence).
  pose proof (n_pos width bw n Hb Hn' Hw). rewrite PU, app_length in N5. destruct (pushes [x; y]) as [|z l]; [reflexivity|]. cbn [length] in N5. nia.
Qed.

(** The PC on the slave's side, with a program that calls recv: every result is a packet
    of bytes sent by the host board; none is lost, repeated or reordered in between. *)
Theorem C165_recv : forall zlp size bw div delay cpol cpha ins sins gs m L,
  0 < size -> 0 <= div < 256 -> In bw [1; 2; 4; 8] -> 8 = bw * m -> cpol = cpha -> 0 < L <= 2 * m ->
  let t := trace (spi_host 8 bw div delay) ins in
  let u := trace (spi_slave cpol cpha 8 bw false [8]) sins in
  Forall (fun b => 0 <= bdata b < 256) (sent t) ->
  clear_enough bw div gs u t -> taken_within L (map so_fifo u) ->
  exists later, map bdata (sent t) = concat (received zlp size u) ++ later.
Proof.
  intros zlp size bw div delay cpol cpha ins sins gs m L Hs Hd Hb Hq Hm HL t u HS HF HT.
  destruct (C165_paced 8 bw div delay cpol cpha ins sins gs m L Hd Hb Hq ltac:(lia) Hm HL HS HF HT) as (held & coming & E & _). fold t u in E.
  destruct (C157_blocks zlp size cpol cpha bw [8] sins Hs) as (_ & rest & R & _). fold u in R. rewrite E, R, <- app_assoc. eauto.
Qed.

(** From one PC to the other: the program on the host's side uses exchange and has ended,
    the bus is at rest; the other side has received its bytes, rounded down to whole packets. *)
Theorem C165_program : forall every zlp size bw div delay cpol cpha prog ins sins gs v p,
  0 < size -> 0 <= div < 256 -> In bw [1; 2; 4; 8] -> cpol = cpha -> all_fit every zlp size prog ->
  let t := trace (spi_host 8 bw div delay) ins in
  let u := trace (spi_slave cpol cpha 8 bw false [8]) sins in
  Forall (fun b => 0 <= bdata b < 256) (sent t) ->
  xdriven every zlp size prog t -> xended every zlp size prog t = true ->
  clear_enough bw div gs u t -> Forall (fun o => o_rready (so_fifo o) = true) u ->
  p = last (map pins_of t) low -> p_cs_n p = true -> map so_pins u = v ++ repeat p 5 ->
  let bytes := concat (map fst (xhistory every zlp size prog t)) in
  concat (received zlp size u) = firstn (Z.to_nat (size * (Z.of_nat (length bytes) / size))) bytes.
Proof.
  intros every zlp size bw div delay cpol cpha prog ins sins gs v p Hs Hd Hb Hm HA t u HS HD HE HF HR Hp Hc Hv bytes.
  assert (HD8 : (bw | 8)) by (cbn [In] in Hb; destruct Hb as [<-|[<-|[<-|[<-|[]]]]]; [exists 8|exists 4|exists 2|exists 1]; reflexivity).
  pose proof (C165_rest 8 bw div delay cpol cpha ins sins gs v p Hd Hb HD8 ltac:(lia) Hm HS HF HR Hp Hc Hv) as W. fold t u in W.
  assert (X : map bdata (sent t) = bytes) by (apply ended_sent; auto). rewrite X in W.
  destruct (C157_blocks zlp size cpol cpha bw [8] sins Hs) as (F & rest & R & LR). fold u in F, R. rewrite W in R.
  set (rs := received zlp size u) in *. clearbody rs bytes.
  assert (Q : Z.of_nat (length (concat rs)) = size * Z.of_nat (length rs)).
  { clear - F. induction F as [|x l H _ IH]; [cbn; lia|]. cbn [concat length]. rewrite app_length. lia. }
  assert (D : Z.of_nat (length bytes) / size = Z.of_nat (length rs)).
  { rewrite R, app_length, Nat2Z.inj_add, Q. symmetry. apply (Z.div_unique _ _ _ (Z.of_nat (length rest))); lia. }
  rewrite D, <- Q, Nat2Z.id. rewrite R, firstn_app, Nat.sub_diag, firstn_all. cbn [firstn]. now rewrite app_nil_r.
Qed.

Lemma blurredb_hd bw d t gs : t <> [] -> blurredb bw (pins_of (hd d t)) t gs = true -> blurred bw t gs.
Proof. destruct t as [|o t]; [congruence|]. intros _ H. exact (blurredb_ok bw o t gs H). Qed.

(** The run of C159's example, and besides its edges one on every change of the pins,
    which finds the chip select new and the clock and the data lines old. *)
Definition dawn : pins := pins_of (hd (cout (spi_host 8 4 2 1) (creset _) (HostIn nobeat 0 true)) clock_run).
Definition clear_gs : list glimpse := smear dawn clock_run clock_ks.
Definition clear_sins : list sl_in := blur_sins clock_run clear_gs.
Definition clear_slave : list sl_obs := trace (spi_slave true true 8 4 false [8]) clear_sins.
Example C165_nonvacuous :
  Forall (fun b => 0 <= bdata b < 256) (sent clock_run) /\ all_fit true true 4 recv_program /\
  xdriven true true 4 recv_program clock_run /\ xended true true 4 recv_program clock_run = true /\
  clear_enough 4 2 clear_gs clear_slave clock_run /\
  (0 < length (filter (fun g => match g_blur g with Some _ => true | None => false end) clear_gs))%nat /\
  taken_within 4 (map so_fifo clear_slave) /\ Forall (fun o => o_rready (so_fifo o) = true) clear_slave /\
  p_cs_n (last (map pins_of clock_run) low) = true /\ (exists v, map so_pins clear_slave = v ++ repeat (last (map pins_of clock_run) low) 5) /\
  map bdata (emitted (map so_fifo clear_slave)) = [0xa5; 0x3c; 1; 2; 3] /\ received true 4 clear_slave = [[0xa5; 0x3c; 1; 2]].
Proof.
  destruct C159_nonvacuous as (N1 & N2 & N3 & N4 & (w & W1 & W2 & (_ & O & _)) & _).
  do 4 (split; [assumption|]). split.
  { exists 3%nat. split; [lia|]. split; [cbn; lia|]. split; [vm_compute; reflexivity|]. split; [|split; [|vm_compute; reflexivity]].
    - assert (X : map g_clear clear_gs = clock_ks) by (vm_compute; reflexivity). rewrite X. apply (zeros_often 3 ltac:(lia) _ 0%nat ltac:(lia)). vm_compute. reflexivity.
    - apply (blurredb_hd _ (cout (spi_host 8 4 2 1) (creset _) (HostIn nobeat 0 true))); [vm_compute; discriminate|]. vm_compute. reflexivity. }
  split; [vm_compute; lia|].
  split; [apply taken_check; [lia|vm_compute; reflexivity]|].
  split; [apply Forall_forall; intros i Hi; assert (X : forallb (fun o => o_rready (so_fifo o)) clear_slave = true) by (vm_compute; reflexivity); rewrite forallb_forall in X; auto|].
  split; [vm_compute; reflexivity|]. split; [|split; vm_compute; reflexivity].
  exists (firstn (length clear_slave - 5) (map so_pins clear_slave)). vm_compute. reflexivity.
Qed.

Print Assumptions C165_paced.
Print Assumptions C165_rest.
Print Assumptions C165_recv.
Print Assumptions C165_program.
