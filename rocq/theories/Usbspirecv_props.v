(** C157: recv on the slave board of the SPI bridge. *)
From Verif Require Import Stream Bits Fifo_model Fifo_proofs I2cstream_proofs Chain_props Spistream_model Spimaster_model Spimaster_props Spislave_model Spislave_props Spilink_model Spilink_spec Spilink_proofs Spilink_props Spirate_props Spixchg_props Spipair_model Spipair_proofs Spipair_props Spipairrx_props Usbspi_model Usbspi_spec Usbspi_props.

(** The results of the calls of recv made so far by a program that does nothing else. *)
Definition received (zlp : bool) (size : Z) (u : list sl_obs) : list (list Z) := recv_all size (in_packets zlp size [] (emitted (map so_fifo u))).

(** The slave does not mark any word. *)
Lemma slave_unmarked cpol cpha width bw stages ins : 0 < width -> Forall (fun b => blast b = false) (emitted (map so_fifo (trace (spi_slave cpol cpha width bw false stages) ins))).
Proof.
  intros Hw. set (c := spi_slave cpol cpha width bw false stages).
  destruct (part_trace c (scirc (sl_fifo width false)) (fun o => (o_sink o, o_rready o)) (fun s => l_fifo _ _ s)
    (fun s i => (sl_fsink cpol cpha width false stages s, sl_rready i)) so_fifo
    ltac:(intros ? [? ?]; reflexivity) eq_refl
    ltac:(intros s i; cbn [c cnext spi_slave]; destruct (sl_sample _ _ _ _ s); [|destruct (sl_pushing _ _ _ _ _ s)]; destruct (if sl_load _ _ s then _ else _) as [[? ?] ?]; reflexivity)
    ltac:(reflexivity) ins) as [PT _].
  assert (K : Forall (fun b => blast b = false /\ 0 <= bdata b < 2 ^ width) (accepted (map so_fifo (trace c ins)))).
  { apply (run_inv c (fun t s => Forall (fun b => blast b = false /\ 0 <= bdata b < 2 ^ width) (accepted (map so_fifo t)) /\ 0 <= l_reg _ _ s < 2 ^ width)).
    - split; [constructor|]. cbn. assert (0 < 2 ^ width) by (apply Z.pow_pos_nonneg; lia). lia.
    - intros t s i [H1 H2]. split.
      + rewrite map_app, accepted_app. apply Forall_app. split; [exact H1|]. unfold accepted. cbn [map flat_map c cout spi_slave so_fifo o_sink o_sready]. rewrite app_nil_r.
        unfold xfer. destruct (_ && _); constructor; [|constructor]. cbn [sl_fsink cbeat blast bdata sl_payload]. auto.
      + assert (T : forall x, 0 <= trunc width x < 2 ^ width) by (intros x; unfold trunc; apply Z.mod_pos_bound, Z.pow_pos_nonneg; lia).
        cbn [c cnext spi_slave]. destruct (sl_sample _ _ _ _ s); [|destruct (sl_pushing _ _ _ _ _ s)]; destruct (if sl_load _ _ s then _ else _) as [[? ?] ?]; cbn [l_reg]; auto. }
  change (trace (scirc (sl_fifo width false)) ?l) with (strace (sl_fifo width false) l) in PT. rewrite PT in K |- *.
  destruct (ssf_lossless width 8 ltac:(lia) true (map (fun o => (o_sink o, o_rready o)) (map so_fifo (trace c ins)))) as (held & E & _).
  { eapply Forall_impl; [|exact K]. cbn. tauto. }
  change (stream_sync_fifo width 8 true) with (sl_fifo width false) in E. rewrite E in K. apply Forall_app in K. eapply Forall_impl; [|exact (proj1 K)]. cbn. tauto.
Qed.

(** Bytes without a mark come in full packets only. *)
Lemma in_blocks zlp size : 0 < size -> forall l open, Forall (fun b => blast b = false) l -> Z.of_nat (length open) < size ->
  exists rest, open ++ map bdata l = concat (recv_all size (in_packets zlp size open l)) ++ rest /\ Z.of_nat (length rest) < size /\
    Forall (fun r => Z.of_nat (length r) = size) (recv_all size (in_packets zlp size open l)).
Proof.
  intros Hs. induction l as [|b l IH]; intros open H L; [exists open; cbn; rewrite app_nil_r; auto|].
  apply Forall_cons_iff in H. destruct H as [H1 H2]. cbn [map in_packets]. rewrite H1.
  destruct (Z.eqb_spec (Z.of_nat (length (open ++ [bdata b]))) size) as [E|E].
  - destruct (IH [] H2 ltac:(cbn; lia)) as (rest & R1 & R2 & R3). exists rest. cbn [recv_all concat]. rewrite firstn_all2 by lia. split; [|split; [exact R2|constructor; assumption]].
    rewrite <- app_assoc, <- R1, <- app_assoc. reflexivity.
  - destruct (IH (open ++ [bdata b]) H2) as (rest & R1 & R2 & R3); [rewrite app_length in *; cbn [length] in *; lia|]. exists rest. split; [|auto]. rewrite <- R1, <- app_assoc. reflexivity.
Qed.

(** Whatever is on the pins: every call of recv returns a whole packet, and the results are the
    bytes the slave has taken off the lines and its FIFO, in order, less than a packet at the end. *)
Theorem C157_blocks : forall zlp size cpol cpha bw stages ins,
  0 < size ->
  let u := trace (spi_slave cpol cpha 8 bw false stages) ins in
  Forall (fun r => Z.of_nat (length r) = size) (received zlp size u) /\
  exists rest, map bdata (emitted (map so_fifo u)) = concat (received zlp size u) ++ rest /\ Z.of_nat (length rest) < size.
Proof.
  intros zlp size cpol cpha bw stages ins Hs u. destruct (in_blocks zlp size Hs (emitted (map so_fifo u)) []) as (rest & R1 & R2 & R3).
  { apply slave_unmarked. lia. }
  { cbn. lia. }
  split; [exact R3|]. exists rest. auto.
Qed.

(** With the host board at the other end of the wires: nothing the program on the slave's side
    receives was not sent, nothing is lost, repeated or reordered in between. *)
Theorem C157_pair : forall zlp size div delay cpol cpha ins L,
  0 < size -> 0 <= div < 256 -> cpol = cpha -> 0 < L <= 16 ->
  let t := trace (spi_pair 8 div delay cpol cpha [8]) ins in
  Forall (fun b => 0 <= bdata b < 256) (sent (map po_host t)) ->
  taken_within L (map so_fifo (map po_slave t)) ->
  exists later, map bdata (sent (map po_host t)) = concat (received zlp size (map po_slave t)) ++ later.
Proof.
  intros zlp size div delay cpol cpha ins L Hs Hd Hm HL t HS HT.
  destruct (C147_paced 8 div delay cpol cpha ins L Hd ltac:(lia) Hm ltac:(lia) HS HT) as (held & coming & E & _). fold t in E.
  destruct (pair_slave 8 div delay cpol cpha [8] ins) as [PS _]. fold t in PS. set (si := map slave_back _) in PS. clearbody si.
  destruct (C157_blocks zlp size cpol cpha 1 [8] si Hs) as (_ & rest & R & _). rewrite <- PS in R. rewrite E, R, <- app_assoc. eauto.
Qed.

(** Once the bus is at rest, it has received the bytes sent, rounded down to whole packets. *)
Theorem C157_rest : forall zlp size div delay cpol cpha ins t1 a b d e f p,
  0 < size -> 0 <= div < 256 -> cpol = cpha -> Forall (fun i => pi_rready i = true) ins ->
  let t := trace (spi_pair 8 div delay cpol cpha [8]) ins in
  Forall (fun b => 0 <= bdata b < 256) (sent (map po_host t)) ->
  t = t1 ++ [a; b; d; e; f] -> Forall (fun o => pins_of (po_host o) = p) [a; b; d; e; f] -> p_cs_n p = true ->
  let bytes := map bdata (sent (map po_host t)) in
  concat (received zlp size (map po_slave t)) = firstn (Z.to_nat (size * (Z.of_nat (length bytes) / size))) bytes.
Proof.
  intros zlp size div delay cpol cpha ins t1 a b d e f p Hs Hd Hm HR t HS E HP Hp bytes.
  pose proof (C147_words 8 div delay cpol cpha ins t1 a b d e f p Hd ltac:(lia) Hm HR HS E HP Hp) as W. fold t in W. fold bytes in W.
  destruct (pair_slave 8 div delay cpol cpha [8] ins) as [PS _]. fold t in PS. set (si := map slave_back _) in PS. clearbody si.
  destruct (C157_blocks zlp size cpol cpha 1 [8] si Hs) as (F & rest & R & LR). rewrite <- PS in R, F. rewrite W in R.
  set (rs := received zlp size (map po_slave t)) in *. clearbody rs bytes.
  assert (Q : Z.of_nat (length (concat rs)) = size * Z.of_nat (length rs)).
  { clear - F. induction F as [|x l H _ IH]; [cbn; lia|]. cbn [concat length]. rewrite app_length. lia. }
  assert (D : Z.of_nat (length bytes) / size = Z.of_nat (length rs)).
  { rewrite R, app_length, Nat2Z.inj_add, Q. symmetry. apply (Z.div_unique _ _ _ (Z.of_nat (length rest))); lia. }
  rewrite D, <- Q, Nat2Z.id. rewrite R, firstn_app, Nat.sub_diag, firstn_all. cbn [firstn]. now rewrite app_nil_r.
Qed.

(** A program that uses exchange and has ended: its bytes are those the host board was given. *)
Lemma ended_sent every zlp size bw div delay prog hi : let t := trace (spi_host 8 bw div delay) hi in
  0 < size -> 0 <= div < 256 -> In bw [1; 2; 4; 8] -> all_fit every zlp size prog ->
  xdriven every zlp size prog t -> xended every zlp size prog t = true ->
  map bdata (sent t) = concat (map fst (xhistory every zlp size prog t)).
Proof.
  intros t Hs Hd Hb HF HD HE.
  destruct (host_pins bw div delay hi Hd Hb) as (s1 & s2 & gs & cur & E1 & E2 & E3 & E4 & E5). fold t in E1, E2, E3, E4.
  assert (L : length (returned t) = length s1) by (apply (f_equal (@length _)) in E4; now rewrite !map_length in E4).
  assert (P : map blast (returned t) = firstn (length (returned t)) (map blast (sent t))).
  { rewrite E1, map_app, firstn_app, map_length, L, Nat.sub_diag. cbn [firstn]. rewrite app_nil_r, firstn_all2 by (rewrite map_length; lia). exact E4. }
  pose proof (session every zlp size Hs prog (sent t) (returned t) HF P ltac:(rewrite E1, app_length; lia) HD) as S.
  unfold xhistory, xended, got in *. destruct (xrun every size prog (in_packets zlp size [] (returned t))) as [[w h] e]. cbn [fst snd] in *.
  destruct S as (d2 & r2 & S1 & _ & _ & S4 & _). destruct (S4 HE) as [-> _]. now rewrite app_nil_r in S1.
Qed.

(** From one PC to the other: a program that uses exchange on the host board and has ended. *)
Theorem C157_program : forall every zlp size div delay cpol cpha prog ins t1 a b d e f p,
  0 < size -> 0 <= div < 256 -> cpol = cpha -> Forall (fun i => pi_rready i = true) ins -> all_fit every zlp size prog ->
  let t := trace (spi_pair 8 div delay cpol cpha [8]) ins in
  Forall (fun b => 0 <= bdata b < 256) (sent (map po_host t)) ->
  xdriven every zlp size prog (map po_host t) -> xended every zlp size prog (map po_host t) = true ->
  t = t1 ++ [a; b; d; e; f] -> Forall (fun o => pins_of (po_host o) = p) [a; b; d; e; f] -> p_cs_n p = true ->
  let bytes := concat (map fst (xhistory every zlp size prog (map po_host t))) in
  concat (received zlp size (map po_slave t)) = firstn (Z.to_nat (size * (Z.of_nat (length bytes) / size))) bytes.
Proof.
  intros every zlp size div delay cpol cpha prog ins t1 a b d e f p Hs Hd Hm HR HF t HS HD HE E HP Hp bytes.
  assert (X : map bdata (sent (map po_host t)) = bytes).
  { destruct (pair_host 8 div delay cpol cpha [8] ins) as [PH _]. fold t in PH. set (hi := map host_back _) in PH. clearbody hi.
    subst bytes. rewrite PH in HD, HE |- *. apply ended_sent; auto. cbn. auto. }
  rewrite <- X. exact (C157_rest zlp size div delay cpol cpha ins t1 a b d e f p Hs Hd Hm HR HS E HP Hp).
Qed.

Lemma ends_still (t : list pair_obs) n p : map (fun o => pins_of (po_host o)) (skipn n t) = repeat p 5 -> p_cs_n p = true ->
  exists t1 a b d e f p, t = t1 ++ [a; b; d; e; f] /\ Forall (fun o => pins_of (po_host o) = p) [a; b; d; e; f] /\ p_cs_n p = true.
Proof.
  intros X H. pose proof (firstn_skipn n t) as FS. destruct (skipn n t) as [|a [|b [|d [|e [|f [|g r]]]]]]; try discriminate X. cbn [map repeat] in X. injection X as Xa Xb Xd Xe Xf.
  exists (firstn n t), a, b, d, e, f, p. split; [symmetry; exact FS|]. split; [repeat constructor; assumption|exact H].
Qed.

(** Two frames of the host, two and three bytes, packets of four bytes. *)
Fixpoint feed_pair (n : nat) (s : cst (spi_pair 8 0 0 false false [8])) (l : list (beat Z)) : list pair_in :=
  match n with
  | O => []
  | S k =>
      let i := PairIn (match l with [] => Chan false (Beat false false 0) | b :: _ => Chan true b end) true (Chan true (Beat true true (0x80, 8))) true in
      i :: feed_pair k (cnext _ s i) (match took (po_host (cout _ s i)) with [] => l | _ => tl l end)
  end.
Definition recv_ins : list pair_in := feed_pair 120 (creset (spi_pair 8 0 0 false false [8])) (out_beats true 4 4 [0xa5; 0x3c] ++ out_beats true 4 4 [1; 2; 3]).
Definition recv_program : xprogram := Exchange [0xa5; 0x3c] (fun _ => Exchange [1; 2; 3] (fun _ => XDone)).
Definition recv_run : list pair_obs := trace (spi_pair 8 0 0 false false [8]) recv_ins.
Example C157_nonvacuous :
  Forall (fun i => pi_rready i = true) recv_ins /\ all_fit true true 4 recv_program /\
  Forall (fun b => 0 <= bdata b < 256) (sent (map po_host recv_run)) /\
  xdriven true true 4 recv_program (map po_host recv_run) /\ xended true true 4 recv_program (map po_host recv_run) = true /\
  (exists t1 a b d e f p, recv_run = t1 ++ [a; b; d; e; f] /\ Forall (fun o => pins_of (po_host o) = p) [a; b; d; e; f] /\ p_cs_n p = true) /\
  received true 4 (map po_slave recv_run) = [[0xa5; 0x3c; 1; 2]].
Proof.
  split; [apply Forall_forall; intros i Hi; assert (X : forallb (fun i => pi_rready i) recv_ins = true) by (vm_compute; reflexivity); rewrite forallb_forall in X; auto|].
  split; [cbn; unfold fits_usb; repeat split; try discriminate; cbn; lia|].
  split; [apply Forall_forall; intros b Hb; assert (X : forallb (fun b => (0 <=? bdata b) && (bdata b <? 256)) (sent (map po_host recv_run)) = true) by (vm_compute; reflexivity);
    rewrite forallb_forall in X; specialize (X b Hb); apply andb_prop in X; destruct X as [X1 X2]; apply Z.leb_le in X1; apply Z.ltb_lt in X2; lia|].
  split; [exists []; vm_compute; reflexivity|]. split; [vm_compute; reflexivity|].
  split; [|vm_compute; reflexivity].
  apply (ends_still recv_run 115 (Pins false true 0)); vm_compute; reflexivity.
Qed.

(** So not everything that was sent is received: here the program on the host's side has ended,
    the bus is at rest, and the last byte stays in the slave's USB endpoint. *)
Theorem C157_rest_refuted :
  xended true true 4 recv_program (map po_host recv_run) = true /\ p_cs_n (last (map pins_of (map po_host recv_run)) low) = true /\
  concat (map fst (xhistory true true 4 recv_program (map po_host recv_run))) = [0xa5; 0x3c; 1; 2; 3] /\
  received true 4 (map po_slave recv_run) = [[0xa5; 0x3c; 1; 2]].
Proof. repeat split; vm_compute; reflexivity. Qed.

Print Assumptions C157_blocks.
Print Assumptions C157_pair.
Print Assumptions C157_rest.
Print Assumptions C157_program.
Print Assumptions C157_rest_refuted.
