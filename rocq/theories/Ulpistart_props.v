(** ULPI start-up and register dump, cycle by cycle: properties C65 and C79. *)
From Verif Require Import Stream I2cstream_proofs Ulpi_model Ulpi_props.

(** ** C65: when the dumper asks and when it answers. *)
Definition du_por_seen (t : list du_obs) : Prop := exists x, In x t /\ duo_por_done x = true.
(** The last cycle took an output byte. *)
Definition just_output (t : list du_obs) : Prop := exists u x, t = u ++ [x] /\ cvalid (duo_src x) = true /\ duo_rready x = true.

Section Dump.
  Context (m : Z) (Hm : 0 <= m).
  Let outs (t : list du_obs) : nat := length (du_outputs t).
  Let coms (t : list du_obs) : nat := length (du_commands t).
  Definition du_track (t : list du_obs) (s : du_state) : Prop :=
    let '(w, ans) := fold_left answer_step t (false, []) in
    (du_fsm s <> DuReset <-> du_por_seen t) /\ (du_fsm s = DuInc <-> just_output t) /\
    match du_fsm s with
    | DuReset => coms t = 0%nat /\ outs t = 0%nat /\ w = false /\ ans = [] /\ du_addr s = 0
    | DuCmd => coms t = outs t /\ w = false /\ length ans = outs t /\ du_addr s = Z.of_nat (outs t) mod 64 /\ (m <= 63 -> Z.of_nat (outs t) <= m)
    | DuVal => coms t = S (outs t) /\ w = true /\ length ans = outs t /\ du_addr s = Z.of_nat (outs t) mod 64 /\ (m <= 63 -> Z.of_nat (outs t) <= m)
    | DuOut => coms t = S (outs t) /\ w = false /\ length ans = S (outs t) /\ last ans 0 = du_data s /\
               du_addr s = Z.of_nat (outs t) mod 64 /\ (m <= 63 -> Z.of_nat (outs t) <= m)
    | DuInc => coms t = outs t /\ w = false /\ length ans = outs t /\ (1 <= outs t)%nat /\ du_addr s = (Z.of_nat (outs t) - 1) mod 64 /\
               (m <= 63 -> Z.of_nat (outs t) - 1 <= m)
    | DuDone => coms t = outs t /\ w = false /\ length ans = outs t /\ m <= 63 /\ Z.of_nat (outs t) = m + 1
    end.

  Lemma por_seen_snoc t o : du_por_seen (t ++ [o]) <-> du_por_seen t \/ duo_por_done o = true.
  Proof.
    unfold du_por_seen. split.
    - intros (x & Hx & Hd). apply in_app_iff in Hx. destruct Hx as [Hx|[->|[]]]; eauto.
    - intros [(x & Hx & Hd)|Hd]; [exists x|exists o]; (split; [apply in_app_iff|assumption]); cbn; auto.
  Qed.
  Lemma just_output_snoc t o : just_output (t ++ [o]) <-> cvalid (duo_src o) = true /\ duo_rready o = true.
  Proof.
    unfold just_output. split.
    - intros (u & x & E & H). apply app_inj_tail in E. destruct E as [_ <-]. exact H.
    - intros H. exists t, o. auto.
  Qed.

  Lemma du_track_inv ins : du_track (trace (dump m) ins) (state (dump m) ins).
  Proof.
    revert ins. apply (run_inv (dump m) du_track).
    - cbn. unfold du_por_seen, just_output. split; [split; [congruence|intros (x & [] & _)]|].
      split; [split; [discriminate|intros (u & x & E & _); now destruct u]|]. repeat split.
    - intros t s i H. unfold du_track in *. rewrite fold_left_app. cbn [fold_left].
      destruct (fold_left answer_step t (false, [])) as [w ans]. destruct H as (Hp & Hj & H).
      set (o := cout (dump m) s i). set (n := cnext (dump m) s i).
      destruct (answer_step (w, ans) o) as [w' ans'] eqn:Ea. rewrite por_seen_snoc, just_output_snoc, <- Hp.
      assert (Hc : coms (t ++ [o]) = (coms t + length (sink_xfer (duo_xc o)))%nat).
      { unfold coms, du_commands. rewrite flat_map_app, map_app, app_length, map_length. cbn [flat_map]. now rewrite app_nil_r, !map_length. }
      assert (Ho : outs (t ++ [o]) = (outs t + length (xfer (duo_src o) (duo_rready o)))%nat).
      { unfold outs, du_outputs. rewrite flat_map_app, app_length. cbn [flat_map]. now rewrite app_nil_r, map_length. }
      rewrite Hc, Ho. clear Hc Ho.
      assert (Hx : sink_xfer (duo_xc o) = match du_fsm s with DuCmd => if xc_ready (du_xc s) (du_phy i) then [Beat false false (Z.lor 192 (du_addr s))] else [] | _ => [] end).
      { unfold o, sink_xfer, xfer. cbn [cout dump duo_xc xc_out xo_sink xo_sready]. unfold du_sink. now destruct (du_fsm s). }
      assert (Hs : xo_src (duo_xc o) = x_src (du_xc s)) by reflexivity.
      assert (He : xfer (duo_src o) (duo_rready o) = match du_fsm s with DuOut => if du_rready i then [Beat false false (du_data s)] else [] | _ => [] end).
      { unfold o, xfer. cbn [cout dump duo_src duo_rready cvalid cbeat]. now destruct (du_fsm s). }
      assert (Hd : duo_por_done o = du_por_done i) by reflexivity.
      assert (Hv : cvalid (duo_src o) = match du_fsm s with DuOut => true | _ => false end) by reflexivity.
      assert (Hr : duo_rready o = du_rready i) by reflexivity.
      rewrite Hx, He, Hd, Hv, Hr. unfold answer_step in Ea. rewrite Hs, Hx in Ea. clearbody o. clear Hd Hv Hr He Hx Hs.
      unfold n. cbn [cnext dump du_fsm du_addr du_data]. clear n.
      generalize dependent (outs t). generalize dependent (coms t). intros c u H. clear Hp Hj.
      destruct (du_fsm s) eqn:Ef.
      + destruct H as (-> & -> & -> & -> & A). injection Ea as <- <-. cbn [length Nat.add]. destruct (du_por_done i).
        * split; [split; [auto|discriminate]|]. split; [split; [discriminate|intros [? _]; discriminate]|]. repeat split; auto.
        * split; [split; [congruence|intros [?|?]; congruence]|]. split; [split; [discriminate|intros [? _]; discriminate]|]. repeat split; auto.
      + destruct H as (-> & -> & L & A & B). cbn [length]. rewrite Nat.add_0_r. split; [split; [intros _; left; discriminate|intros _; now destruct (xc_ready _ _)]|].
        split; [split; [now destruct (xc_ready _ _)|intros [? _]; discriminate]|].
        destruct (xc_ready _ _); injection Ea as <- <-; cbn [length]; repeat split; auto; lia.
      + destruct H as (-> & -> & L & A & B). cbn [length]. rewrite !Nat.add_0_r. split; [split; [intros _; left; discriminate|intros _; now destruct (rx_valid _)]|].
        split; [split; [now destruct (rx_valid _)|intros [? _]; discriminate]|].
        destruct (rx_valid _); injection Ea as <- <-; [|repeat split; auto]. rewrite app_length, last_last. cbn [length]. repeat split; auto; lia.
      + destruct H as (-> & -> & L & D & A & B). injection Ea as <- <-. cbn [length]. rewrite !Nat.add_0_r. split; [split; [intros _; left; discriminate|intros _; now destruct (du_rready i)]|].
        split; [destruct (du_rready i); split; auto; try discriminate; now intros []|].
        destruct (du_rready i); cbn [length]; rewrite ?Nat.add_0_r; [|repeat split; auto].
        replace (u + 1)%nat with (S u) by lia. repeat split; auto; try lia. rewrite A. f_equal. lia.
      + destruct H as (-> & -> & L & G & A & B). injection Ea as <- <-. cbn [length]. rewrite !Nat.add_0_r. split; [split; [intros _; left; discriminate|intros _; now destruct (_ =? m)]|].
        split; [split; [now destruct (_ =? m)|intros [? _]; discriminate]|].
        pose proof (Z.mod_pos_bound (Z.of_nat u - 1) 64 ltac:(lia)) as Hb.
        destruct (Z.eqb_spec (du_addr s) m) as [E|E].
        * assert (m <= 63) by lia. specialize (B ltac:(lia)). rewrite Z.mod_small in A by lia. repeat split; auto; lia.
        * repeat split; auto.
          -- unfold trunc. change (2 ^ 6) with 64. rewrite A, Z.add_mod_idemp_l by lia. f_equal. lia.
          -- intros Hx. specialize (B Hx). rewrite Z.mod_small in A by lia. lia.
      + destruct H as (-> & -> & L & A & B). injection Ea as <- <-. cbn [length]. rewrite !Nat.add_0_r. split; [split; [intros _; left; discriminate|intros _; discriminate]|].
        split; [split; [discriminate|intros [? _]; discriminate]|]. repeat split; auto.
  Qed.
End Dump.

Lemma or_192 a : 0 <= a <= 63 -> Z.lor 192 a = 192 + a.
Proof. apply (lor_192 63). lia. Qed.

(** A command is on offer exactly when the power-on reset has been seen finished,
    every command so far has been answered and its answer output (not in the very
    last cycle), and registers are left to read: command number c reads register c,
    or c modulo 64 if max_addr is beyond the 6-bit address, when there is no end. *)
Theorem C65_command : forall max_addr ins t1 o t2, 0 <= max_addr ->
  trace (dump max_addr) ins = t1 ++ o :: t2 ->
  let c := Z.of_nat (length (du_commands t1)) in
  (cvalid (xo_sink (duo_xc o)) = true <->
     du_por_seen t1 /\ c = Z.of_nat (length (du_outputs t1)) /\ (max_addr <= 63 -> c <= max_addr) /\ ~ just_output t1) /\
  (cvalid (xo_sink (duo_xc o)) = true -> cbeat (xo_sink (duo_xc o)) = Beat false false (192 + c mod 64)).
Proof.
  intros m ins t1 o t2 Hm E. apply trace_one in E. destruct E as (a & i & b & -> & <- & ->).
  pose proof (du_track_inv m Hm a) as H. set (t := trace (dump m) a) in *. set (s := state (dump m) a) in *. cbv zeta.
  unfold du_track in H. destruct (fold_left answer_step t (false, [])) as [w ans]. destruct H as (Hp & Hj & H).
  rewrite <- Hp, <- Hj. cbn [cout dump duo_xc xc_out xo_sink]. unfold du_sink. generalize dependent (length (du_outputs t)). generalize dependent (length (du_commands t)).
  intros c u H. clear Hp Hj. destruct (du_fsm s); cbn [cvalid cbeat].
  - split; [|discriminate]. split; [discriminate|]. intros ([] & _). reflexivity.
  - destruct H as (-> & _ & _ & A & B). split.
    + split; [|reflexivity]. intros _. repeat split; auto; discriminate.
    + intros _. rewrite A, or_192; [reflexivity|]. pose proof (Z.mod_pos_bound (Z.of_nat u) 64 ltac:(lia)). lia.
  - destruct H as (-> & _). split; [|discriminate]. split; [discriminate|]. lia.
  - destruct H as (-> & _). split; [|discriminate]. split; [discriminate|]. lia.
  - split; [|discriminate]. split; [discriminate|]. intros (_ & _ & _ & []). reflexivity.
  - destruct H as (-> & _ & _ & A & B). split; [|discriminate]. split; [discriminate|]. intros (_ & _ & C & _). specialize (C A). lia.
Qed.

(** An output byte is on offer exactly while one answer has not been output, and it
    is the last answer. *)
Theorem C65_output : forall max_addr ins t1 o t2, 0 <= max_addr ->
  trace (dump max_addr) ins = t1 ++ o :: t2 ->
  (cvalid (duo_src o) = true <-> length (answers t1) = S (length (du_outputs t1))) /\
  (cvalid (duo_src o) = true -> cbeat (duo_src o) = Beat false false (last (answers t1) 0)).
Proof.
  intros m ins t1 o t2 Hm E. apply trace_one in E. destruct E as (a & i & b & -> & <- & ->).
  pose proof (du_track_inv m Hm a) as H. set (t := trace (dump m) a) in *. set (s := state (dump m) a) in *. unfold answers.
  unfold du_track in H. destruct (fold_left answer_step t (false, [])) as [w ans]. destruct H as (_ & _ & H). cbn [snd].
  cbn [cout dump duo_src cvalid cbeat]. generalize dependent (length (du_outputs t)). generalize dependent (length (du_commands t)).
  intros c u H. destruct (du_fsm s); (split; [|try discriminate]).
  - destruct H as (_ & -> & _ & -> & _). split; discriminate.
  - destruct H as (_ & _ & -> & _). split; [discriminate|lia].
  - destruct H as (_ & _ & -> & _). split; [discriminate|lia].
  - destruct H as (_ & _ & -> & _). split; auto.
  - destruct H as (_ & _ & _ & -> & _). auto.
  - destruct H as (_ & _ & -> & _). split; [discriminate|lia].
  - destruct H as (_ & _ & -> & _). split; [discriminate|lia].
Qed.

(** ** C79: when the set-up bytes are offered. *)
Definition di_por_seen (t : list di_obs) : Prop := exists x, In x t /\ dio_por_done x = true.
Definition sends (x : di_obs) : bool := match sink_xfer (dio_xc x) with [] => false | _ => true end.

Lemma di_por_seen_snoc t o : di_por_seen (t ++ [o]) <-> di_por_seen t \/ dio_por_done o = true.
Proof.
  unfold di_por_seen. split.
  - intros (x & Hx & Hd). apply in_app_iff in Hx. destruct Hx as [Hx|[->|[]]]; eauto.
  - intros [(x & Hx & Hd)|Hd]; [exists x|exists o]; (split; [apply in_app_iff|assumption]); cbn; auto.
Qed.
Lemma di_sent_app a b : di_sent (a ++ b) = di_sent a ++ di_sent b.
Proof. apply flat_map_app. Qed.
Lemma di_sent_cons x v : di_sent (x :: v) = sink_xfer (dio_xc x) ++ di_sent v.
Proof. reflexivity. Qed.

Section Direct.
  Context (nt : Z) (Hnt : 0 <= nt < 2 ^ 30).
  (** [v] follows the cycle in which the second byte was taken. *)
  Definition since_second (t v : list di_obs) : Prop :=
    exists u x, t = u ++ x :: v /\ length (di_sent u) = 1%nat /\ sends x = true.
  Definition di_track (t : list di_obs) (s : di_state) : Prop :=
    (di_fsm s <> DiReset <-> di_por_seen t) /\
    (length (di_sent t) = di_taken s \/ (di_fsm s = DiUp /\ 4 <= length (di_sent t)))%nat /\
    match di_fsm s with
    | Di2 => (forall v, since_second t v -> Z.of_nat (length v) = di_cnt s) /\ 0 <= di_cnt s <= nt
    | Di3 => forall v, since_second t v -> nt < Z.of_nat (length v)
    | _ => di_cnt s = 0
    end.
  Lemma since_snoc t o v : since_second (t ++ [o]) v ->
    (v = [] /\ length (di_sent t) = 1%nat /\ sends o = true) \/ (exists v', v = v' ++ [o] /\ since_second t v').
  Proof.
    intros (u & x & E & H1 & H2). destruct v as [|y v _] using rev_ind.
    - apply app_inj_tail in E. destruct E as [<- <-]. auto.
    - right. exists v. assert (E' : t ++ [o] = (u ++ x :: v) ++ [y]) by now rewrite <- app_assoc.
      apply app_inj_tail in E'. destruct E' as [-> <-]. split; [reflexivity|]. exists u, x. auto.
  Qed.
  Lemma since_two t v : since_second t v -> (2 <= length (di_sent t))%nat.
  Proof.
    intros (u & x & -> & H1 & H2). rewrite di_sent_app, di_sent_cons, !app_length. unfold sends in H2.
    destruct (sink_xfer (dio_xc x)); [discriminate|]. cbn [length]. lia.
  Qed.
  Lemma di_track_inv ins : di_track (trace (direct nt) ins) (state (direct nt) ins).
  Proof.
    revert ins. apply (run_inv (direct nt) di_track).
    - split; [split; [intros []; reflexivity|intros (x & [] & _)]|]. split; [left; reflexivity|reflexivity].
    - intros t s i (Hp & Hl & H). set (o := cout (direct nt) s i). set (n := cnext (direct nt) s i).
      unfold di_track. rewrite di_por_seen_snoc, <- Hp, di_sent_app, app_length. cbn [di_sent flat_map]. rewrite app_nil_r.
      assert (Hd : dio_por_done o = di_por_done i) by reflexivity.
      assert (Hx : sink_xfer (dio_xc o) = xfer (di_sink s (di_tx i)) (xc_ready (di_xc s) (di_phy i))) by reflexivity.
      assert (Hs : sends o = match xfer (di_sink s (di_tx i)) (xc_ready (di_xc s) (di_phy i)) with [] => false | _ => true end) by reflexivity.
      rewrite Hd, Hx. pose proof (since_snoc t o) as S0. pose proof (since_two t) as S2. clearbody o. clear Hd Hx.
      unfold n, di_taken in *. cbn [cnext direct di_fsm di_cnt]. clear n Hp.
      unfold di_sink, di_const, xfer in *. destruct (di_fsm s) eqn:Ef; cbn [cvalid cbeat andb] in *.
      + destruct Hl as [Hl|[? _]]; [|discriminate]. rewrite Hl. destruct (di_por_done i).
        * split; [split; [auto|discriminate]|]. split; [left; reflexivity|reflexivity].
        * split; [split; [congruence|intros [?|?]; congruence]|]. split; [left; reflexivity|reflexivity].
      + destruct Hl as [Hl|[? _]]; [|discriminate]. rewrite Hl. destruct (xc_ready _ _); (split; [split; [intros _; left; discriminate|discriminate]|]); (split; [left; reflexivity|reflexivity]).
      + destruct Hl as [Hl|[? _]]; [|discriminate]. rewrite Hl in *. destruct (xc_ready _ _).
        * split; [split; [intros _; left; discriminate|discriminate]|]. split; [left; reflexivity|]. cbn [tm_next orb]. split; [|lia].
          intros v Hv. destruct (S0 v Hv) as [[-> _]|(v' & _ & Hv')]; [reflexivity|]. specialize (S2 v' Hv'). lia.
        * split; [split; [intros _; left; discriminate|discriminate]|]. split; [left; reflexivity|reflexivity].
      + destruct Hl as [Hl|[? _]]; [|discriminate]. rewrite Hl in *. destruct H as [H Hc]. cbn [tm_done tm_next orb andb].
        unfold tm_next, tm_done. cbn [orb andb]. rewrite !orb_false_r.
        destruct (Z.eqb_spec (di_cnt s) nt) as [E|E]; (split; [split; [intros _; left; discriminate|discriminate]|]); (split; [left; reflexivity|]).
        * intros v Hv. destruct (S0 v Hv) as [[_ [? _]]|(v' & -> & Hv')]; [lia|]. specialize (H v' Hv'). rewrite app_length. cbn [length]. lia.
        * rewrite (trunc_small 30) by lia. split; [|lia].
          intros v Hv. destruct (S0 v Hv) as [[_ [? _]]|(v' & -> & Hv')]; [lia|]. specialize (H v' Hv'). rewrite app_length. cbn [length]. lia.
      + destruct Hl as [Hl|[? _]]; [|discriminate]. rewrite Hl in *. destruct (xc_ready _ _); (split; [split; [intros _; left; discriminate|discriminate]|]); (split; [left; reflexivity|]); [reflexivity|].
        intros v Hv. destruct (S0 v Hv) as [[_ [? _]]|(v' & -> & Hv')]; [lia|]. specialize (H v' Hv'). rewrite app_length. cbn [length]. lia.
      + destruct Hl as [Hl|[? _]]; [|discriminate]. rewrite Hl. destruct (xc_ready _ _); (split; [split; [intros _; left; discriminate|discriminate]|]); (split; [left; reflexivity|reflexivity]).
      + split; [split; [intros _; left; discriminate|discriminate]|]. split; [|reflexivity]. right. split; [reflexivity|]. destruct Hl as [Hl|[_ Hl]]; lia.
  Qed.
End Direct.

(** Until the power-on reset has been seen finished nothing is offered to the PHY,
    and its reset pin follows the power-on reset; afterwards its reset is released. *)
Theorem C79_reset : forall nt ins t1 o t2, 0 <= nt < 2 ^ 30 -> trace (direct nt) ins = t1 ++ o :: t2 ->
  (~ di_por_seen t1 -> cvalid (xo_sink (dio_xc o)) = false /\ dio_rst o = dio_por_rst o) /\
  (di_por_seen t1 -> dio_rst o = false).
Proof.
  intros nt ins t1 o t2 Hn E. apply trace_one in E. destruct E as (a & i & b & -> & <- & ->).
  destruct (di_track_inv nt Hn a) as (Hp & _ & _). rewrite <- Hp. set (s := state (direct nt) a) in *.
  cbn [cout direct dio_xc xc_out xo_sink dio_rst dio_por_rst]. unfold di_sink. destruct (di_fsm s).
  1: split; [intros _; split; reflexivity|intros []; reflexivity].
  all: split; [intros H; exfalso; apply H; discriminate|reflexivity].
Qed.

(** After that, the first, second and fourth set-up bytes are on offer as soon as the
    previous ones have been taken; the third from nt + 1 cycles after the second was
    taken, with nothing offered before; and then the user's stream goes through, packet
    starts turned into transmit commands. *)
Theorem C79_offers : forall nt ins t1 o t2, 0 <= nt < 2 ^ 30 -> trace (direct nt) ins = t1 ++ o :: t2 ->
  di_por_seen t1 ->
  let n := length (di_sent t1) in let k := xo_sink (dio_xc o) in
  ((n < 4)%nat -> n <> 2%nat -> k = Chan true (nth n phy_init (Beat false false 0))) /\
  (n = 2%nat -> forall u x v, t1 = u ++ x :: v -> length (di_sent u) = 1%nat -> sends x = true ->
     if Z.of_nat (length v) <=? nt then cvalid k = false else k = Chan true (nth n phy_init (Beat false false 0))) /\
  ((4 <= n)%nat -> cvalid k = cvalid (o_sink (dio_tx o)) /\ o_sready (dio_tx o) = xo_sready (dio_xc o) /\
     blast (cbeat k) = blast (cbeat (o_sink (dio_tx o))) /\
     bdata (cbeat k) = let d := bdata (cbeat (o_sink (dio_tx o))) in if at_start (di_accepted t1) then 64 + d mod 16 else d).
Proof.
  intros nt ins t1 o t2 Hn E. apply trace_one in E. destruct E as (a & i & b & -> & <- & ->).
  destruct (di_track_inv nt Hn a) as (Hp & Hl & H). rewrite <- Hp. intros Hseen. cbv zeta. pose proof (di_inv nt a) as [_ Hat].
  set (s := state (direct nt) a) in *. set (t := trace (direct nt) a) in *. rewrite <- Hat.
  cbn [cout direct dio_xc xc_out xo_sink xo_sready dio_tx o_sink o_sready]. unfold di_sink, di_se_ready, di_taken in *.
  destruct (di_fsm s) eqn:Ef; try (destruct Hl as [->|[? _]]; [|discriminate]).
  - congruence.
  - split; [reflexivity|]. split; [discriminate|lia].
  - split; [reflexivity|]. split; [discriminate|lia].
  - split; [lia|]. split; [|lia]. intros _ u x v Et H1 H2. destruct H as [H Hc].
    rewrite (H v) by (exists u, x; auto). rewrite (proj2 (Z.leb_le _ _)) by lia. reflexivity.
  - split; [lia|]. split; [|lia]. intros _ u x v Et H1 H2.
    rewrite (proj2 (Z.leb_gt _ _)) by (apply (H v); exists u, x; auto). reflexivity.
  - split; [reflexivity|]. split; [discriminate|lia].
  - assert (4 <= length (di_sent t))%nat by (destruct Hl as [->|[_ ?]]; lia).
    split; [lia|]. split; [lia|]. intros _. cbn [sender src rdy]. unfold sender_tag.
    destruct (di_se s); cbn [cvalid cbeat blast bdata]; repeat split. lia.
Qed.

(** In the runs of C65_nonvacuous and C79_nonvacuous the power-on reset is seen, both
    commands and all the set-up bytes are offered and taken. *)
Example C65_start_nonvacuous : let t := trace (dump 1) du_demo in
  existsb duo_por_done t = true /\ map (fun o => cvalid (xo_sink (duo_xc o))) t =
   [false; true; true; false; false; false; false; false; true; true; false; false; false; false; false; false; false; false; false; false].
Proof. vm_compute. auto. Qed.
Example C79_start_nonvacuous : let t := trace (direct 1) di_demo in
  existsb dio_por_done t = true /\ map (fun o => cvalid (xo_sink (dio_xc o))) (firstn 9 t) =
   [false; true; true; false; false; true; true; true; false].
Proof. vm_compute. auto. Qed.

Print Assumptions C65_command.
Print Assumptions C65_output.
Print Assumptions C79_reset.
Print Assumptions C79_offers.
