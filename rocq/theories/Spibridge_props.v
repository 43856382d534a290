(** SPIWishboneBridge: C61. *)
From Verif Require Import Stream Spibridge_model.

(** ** Specification: what a list of received SPI words asks for. *)
Inductive bus_op := Wr (adr data : Z) | Rd (adr : Z) (last : bool).
Inductive parse := PCommand | PAddress (write : bool) (bytes : Z) | PWrite (adr words : Z).

Section Spec.
  Context (width addr_width : Z).
  (** Words needed for a byte count: at least one. *)
  Definition words_of (bytes : Z) : Z := Z.max 1 ((bytes + width / 8 - 1) / (width / 8)).
  Definition word_adr (addr k : Z) : Z := (addr / 2 ^ (width - addr_width) + k) mod 2 ^ addr_width.
  Definition reads (addr n : Z) : list bus_op :=
    map (fun k => Rd (word_adr addr (Z.of_nat k)) (Z.of_nat k =? n - 1)) (seq 0 (Z.to_nat n)).
  (** One word: a command is write in bit 0, the byte count from bit 2; then the byte
      address; then, for a write, the words. *)
  Definition parse_word (p : parse) (w : Z * Z) : parse * list bus_op :=
    let '(data, len) := w in
    match p with
    | PCommand => if len =? width then (PAddress (Z.odd data) (data / 4), []) else (PCommand, [])
    | PAddress write bytes =>
        if len =? width
        then if write then (PWrite (word_adr data 0) (words_of bytes), []) else (PCommand, reads data (words_of bytes))
        else (PCommand, [])
    | PWrite adr n =>
        (if (n =? 1) || (len <? width) then PCommand else PWrite ((adr + 1) mod 2 ^ addr_width) (n - 1), [Wr adr data])
    end.
  Fixpoint parse_all (p : parse) (ws : list (Z * Z)) : parse * list bus_op :=
    match ws with
    | [] => (p, [])
    | w :: ws' => let '(p1, l1) := parse_word p w in let '(p2, l2) := parse_all p1 ws' in (p2, l1 ++ l2)
    end.
  Definition asked (ws : list (Z * Z)) : list bus_op := snd (parse_all PCommand ws).

  Lemma parse_all_app p a b : parse_all p (a ++ b) =
    (fst (parse_all (fst (parse_all p a)) b), snd (parse_all p a) ++ snd (parse_all (fst (parse_all p a)) b)).
  Proof.
    revert p. induction a as [|w a IH]; intros p; cbn [app parse_all fst snd]; [now destruct (parse_all p b)|].
    destruct (parse_word p w) as [p1 l1]. rewrite IH. destruct (parse_all p1 a) as [p2 l2]. cbn [fst snd].
    destruct (parse_all p2 b). cbn. now rewrite app_assoc.
  Qed.
End Spec.

(** What happened: bus cycles (stb and ack), words taken, words returned. *)
Definition bus_ops (t : list br_obs) : list bus_op :=
  flat_map (fun o => if bo_stb o && bo_ack o then [if bo_we o then Wr (bo_adr o) (bo_dat_w o) else Rd (bo_adr o) (blast (cbeat (o_src (bo_io o))))] else []) t.
Definition br_taken (t : list br_obs) : list (Z * Z) := map bdata (accepted (map bo_io t)).

Lemma bus_ops_snoc t o : bus_ops (t ++ [o]) = bus_ops t ++
  (if bo_stb o && bo_ack o then [if bo_we o then Wr (bo_adr o) (bo_dat_w o) else Rd (bo_adr o) (blast (cbeat (o_src (bo_io o))))] else []).
Proof. unfold bus_ops. rewrite flat_map_app. cbn [flat_map]. now rewrite app_nil_r. Qed.
Lemma br_taken_snoc t o : br_taken (t ++ [o]) = br_taken t ++ map bdata (xfer (o_sink (bo_io o)) (o_sready (bo_io o))).
Proof. unfold br_taken. rewrite map_app, accepted_app, map_app. cbn [map]. now rewrite accepted_1. Qed.

Section Bridge.
  Context (W A : Z) (HW : 8 <= W) (HA : 0 < A <= W) (Hal : 2 ^ (W - A) = W / 8).
  Notation c := (bridge W A).
  (** The inputs are in range. *)
  Definition br_ok (t : list br_obs) : Prop :=
    Forall (fun w => 0 <= fst w < 2 ^ W /\ 0 <= snd w <= W) (br_taken t).

  Lemma words_small n : 0 <= n -> n <= W / 8 -> words_of W n = 1.
  Proof.
    intros H0 H. assert (1 <= W / 8) by (apply Z.div_le_lower_bound; lia). unfold words_of. apply Z.max_l.
    assert ((n + W / 8 - 1) / (W / 8) < 2); [|lia]. apply Z.div_lt_upper_bound; lia.
  Qed.
  Lemma words_big n : W / 8 < n -> words_of W n = words_of W (n - W / 8) + 1 /\ 1 < words_of W n.
  Proof.
    intros H. assert (1 <= W / 8) by (apply Z.div_le_lower_bound; lia). unfold words_of.
    replace (n + W / 8 - 1) with (n - W / 8 + W / 8 - 1 + 1 * (W / 8)) by lia. rewrite Z.div_add by lia.
    assert (1 <= (n - W / 8 + W / 8 - 1) / (W / 8)) by (apply Z.div_le_lower_bound; lia). lia.
  Qed.
  Lemma words_pos n : 1 <= words_of W n.
  Proof. unfold words_of. lia. Qed.

  Lemma reads_one a : reads W A a 1 = [Rd (word_adr W A a 0) true].
  Proof. reflexivity. Qed.

  Lemma adr_next a k : 0 <= a < 2 ^ W -> word_adr W A (trunc W (a + W / 8)) k = word_adr W A a (k + 1).
  Proof.
    intros Ha. unfold word_adr, trunc. rewrite <- Hal. set (q := 2 ^ (W - A)) in *. assert (0 < q) by (apply Z.pow_pos_nonneg; lia).
    assert (E : 2 ^ W = q * 2 ^ A) by (unfold q; rewrite <- Z.pow_add_r by lia; f_equal; lia).
    assert (0 < 2 ^ A) by (apply Z.pow_pos_nonneg; lia).
    rewrite E, Z.rem_mul_r by lia.
    rewrite (Z.mul_comm q), Z.div_add by lia. rewrite Z.div_small with (a := (a + q) mod q) by (apply Z.mod_pos_bound; lia).
    rewrite Z.add_0_l, Z.add_mod_idemp_l by lia. f_equal.
    replace (a + q) with (a + 1 * q) by lia. rewrite Z.div_add by lia. lia.
  Qed.

  Lemma reads_next a n : 0 <= a < 2 ^ W -> 1 < n ->
    reads W A a n = Rd (word_adr W A a 0) false :: reads W A (trunc W (a + W / 8)) (n - 1).
  Proof.
    intros Ha Hn. unfold reads. replace (Z.to_nat n) with (S (Z.to_nat (n - 1))) by lia. cbn [seq map].
    f_equal; [f_equal; destruct (Z.eqb_spec (Z.of_nat 0) (n - 1)); lia|].
    rewrite <- seq_shift, map_map. apply map_ext. intros k. rewrite adr_next by assumption. f_equal.
    - f_equal. lia.
    - destruct (Z.eqb_spec (Z.of_nat (S k)) (n - 1)), (Z.eqb_spec (Z.of_nat k) (n - 1 - 1)); lia.
  Qed.

  Definition br_inv (t : list br_obs) (s : br_state) : Prop :=
    0 <= b_count s < 2 ^ (W - 2) /\ 0 <= b_addr s < 2 ^ W /\
    exists p l, parse_all W A PCommand (br_taken t) = (p, bus_ops t ++ l) /\
    match bf s with
    | BrCommand => p = PCommand /\ l = []
    | BrAddr => p = PAddress (b_write s) (b_count s) /\ l = []
    | BrRun => if b_write s then p = PWrite (word_adr W A (b_addr s) 0) (words_of W (b_count s)) /\ l = []
               else p = PCommand /\ l = reads W A (b_addr s) (words_of W (b_count s))
    end.

  Lemma adr_shift a : 0 <= a < 2 ^ W -> trunc A (Z.shiftr a (br_shift W A)) = word_adr W A a 0.
  Proof. intros Ha. unfold trunc, word_adr, br_shift. now rewrite Z.shiftr_div_pow2, Z.add_0_r by lia. Qed.

  Lemma br_run ins : br_ok (trace c ins) -> br_inv (trace c ins) (state c ins).
  Proof.
    revert ins. apply (run_inv_hyp c br_ok br_inv).
    - intros t u H. unfold br_ok, br_taken in *. rewrite map_app, accepted_app, map_app in H. apply Forall_app in H. apply H.
    - unfold br_inv. cbn [creset bridge bf b_count b_addr b_write]. assert (0 < 2 ^ (W - 2)) by (apply Z.pow_pos_nonneg; lia). assert (0 < 2 ^ W) by (apply Z.pow_pos_nonneg; lia).
      split; [lia|]. split; [lia|]. exists PCommand, []. auto.
    - intros t s i Hok (Hc & Ha & p & l & Ep & Hs). set (o := cout c s i) in *.
      assert (O1 : bo_io o = Obs (bi_sink i) (br_ready s i) (br_src W s i) (bi_rready i)) by reflexivity.
      assert (O2 : bo_stb o = br_stb s i) by reflexivity.
      assert (O3 : bo_ack o = bi_ack i) by reflexivity.
      assert (O4 : bf s = BrRun -> bo_we o = b_write s) by (unfold o; cbn; now intros ->).
      assert (O5 : bf s = BrRun -> bo_adr o = word_adr W A (b_addr s) 0) by (unfold o; cbn; intros ->; apply adr_shift; assumption).
      assert (O6 : bf s = BrRun -> b_write s = true -> bo_dat_w o = fst (bdata (cbeat (bi_sink i)))) by (unfold o; cbn; now intros -> ->).
      clearbody o. unfold br_inv. unfold br_ok in Hok. rewrite br_taken_snoc, O1 in Hok. apply Forall_app in Hok. destruct Hok as [_ Hw].
      rewrite br_taken_snoc, bus_ops_snoc, parse_all_app, Ep, O1, O2, O3. cbn [fst snd o_sink o_sready o_src] in *.
      unfold xfer in *. cbn [bridge cnext]. fold c.
      assert (Hwl : 1 <= W / 8) by (apply Z.div_le_lower_bound; lia).
      set (k := bi_sink i) in *. unfold br_ready in *. unfold br_stb. fold k.
      destruct (bf s) eqn:Ef.
      + (* COMMAND *)
        destruct Hs as [-> ->]. cbn [andb]. rewrite !app_nil_r. rewrite andb_true_r in *.
        destruct (cvalid k); cbn [andb map] in *.
        2: { rewrite Ef. split; [lia|]. split; [lia|]. exists PCommand, []. cbn [parse_all fst snd]. now rewrite !app_nil_r. }
        apply Forall_cons_iff in Hw. destruct Hw as [[Hw1 Hw2] _]. destruct (bdata (cbeat k)) as [data len]. cbn [fst snd] in *.
        cbn [parse_all parse_word]. destruct (Z.eqb_spec len W) as [->|Hl].
        * cbn [bf b_write b_count b_addr]. rewrite Z.shiftr_div_pow2 by lia. change (2 ^ 2) with 4.
          assert (E4 : 2 ^ W = 4 * 2 ^ (W - 2)) by (change 4 with (2 ^ 2); rewrite <- Z.pow_add_r by lia; f_equal; lia).
          assert (0 <= data / 4 < 2 ^ (W - 2)) by (split; [apply Z.div_pos; lia|apply Z.div_lt_upper_bound; lia]).
          rewrite trunc_small by assumption. split; [lia|]. split; [lia|]. exists (PAddress (Z.odd data) (data / 4)), []. cbn. now rewrite !app_nil_r.
        * rewrite Ef. split; [lia|]. split; [lia|]. exists PCommand, []. cbn. now rewrite !app_nil_r.
      + (* ADDR *)
        destruct Hs as [-> ->]. cbn [andb]. rewrite !app_nil_r. rewrite andb_true_r in *.
        destruct (cvalid k); cbn [andb map] in *.
        2: { rewrite Ef. split; [lia|]. split; [lia|]. exists (PAddress (b_write s) (b_count s)), []. cbn [parse_all fst snd]. now rewrite !app_nil_r. }
        apply Forall_cons_iff in Hw. destruct Hw as [[Hw1 Hw2] _]. destruct (bdata (cbeat k)) as [data len]. cbn [fst snd] in *.
        cbn [parse_all parse_word]. destruct (Z.eqb_spec len W) as [->|Hl].
        * cbn [bf b_write b_count b_addr]. rewrite trunc_small by assumption. split; [lia|]. split; [assumption|].
          destruct (b_write s).
          -- exists (PWrite (word_adr W A data 0) (words_of W (b_count s))), []. cbn. now rewrite !app_nil_r.
          -- exists PCommand, (reads W A data (words_of W (b_count s))). cbn [fst snd]. now rewrite !app_nil_r.
        * cbn [bf b_write b_count b_addr]. split; [lia|]. split; [lia|]. exists PCommand, []. cbn. now rewrite !app_nil_r.
      + (* RUN *)
        rewrite (O4 eq_refl), (O5 eq_refl). destruct (b_write s) eqn:Ew; cbn [andb] in *.
        * destruct Hs as [-> ->]. rewrite app_nil_r. rewrite (O6 eq_refl eq_refl).
          destruct (cvalid k && bi_ack i) eqn:Ex; cbn [map] in *.
          2: { rewrite Ef, Ew. split; [lia|]. split; [lia|]. eexists _, []. cbn [parse_all fst snd]. rewrite !app_nil_r. eauto. }
          apply Forall_cons_iff in Hw. destruct Hw as [[Hw1 Hw2] _]. destruct (bdata (cbeat k)) as [data len]. cbn [fst snd] in *.
          assert (0 <= trunc (W - 2) (b_count s - br_wordlen W) < 2 ^ (W - 2)) by (apply trunc_range; lia).
          assert (0 <= trunc W (b_addr s + br_wordlen W) < 2 ^ W) by (apply trunc_range; lia).
          cbn [bf b_write b_count b_addr]. split; [assumption|]. split; [assumption|].
          cbn [parse_all parse_word fst snd]. eexists _, []. rewrite !app_nil_r. split; [reflexivity|].
          unfold br_final. destruct (Z.leb_spec (b_count s) (br_wordlen W)) as [Hle|Hgt]; cbn [orb].
          -- rewrite words_small by (unfold br_wordlen in *; lia). cbn [Z.eqb orb Pos.eqb]. auto.
          -- destruct (words_big (b_count s) Hgt) as [B1 B2]. destruct (Z.eqb_spec (words_of W (b_count s)) 1) as [|_]; [lia|]. cbn [orb].
             destruct (Z.ltb_spec len W); [auto|]. split; [|reflexivity]. f_equal.
             ++ unfold br_wordlen. rewrite adr_next by assumption. unfold word_adr. rewrite Z.add_mod_idemp_l by lia. f_equal. lia.
             ++ unfold br_wordlen in *. rewrite trunc_small by lia. lia.
        * destruct Hs as [-> ->]. rewrite andb_false_r in *. cbn [map parse_all fst snd].
          destruct (bi_rready i && bi_ack i) eqn:Ex.
          2: { rewrite Ef, Ew. split; [lia|]. split; [lia|]. exists PCommand, (reads W A (b_addr s) (words_of W (b_count s))). rewrite !app_nil_r. auto. }
          assert (0 <= trunc (W - 2) (b_count s - br_wordlen W) < 2 ^ (W - 2)) by (apply trunc_range; lia).
          assert (0 <= trunc W (b_addr s + br_wordlen W) < 2 ^ W) by (apply trunc_range; lia).
          cbn [bf b_write b_count b_addr orb andb]. split; [assumption|]. split; [assumption|]. rewrite orb_false_r.
          unfold br_src. rewrite Ef, Ew. cbn [cbeat blast].
          unfold br_final. destruct (Z.leb_spec (b_count s) (br_wordlen W)) as [Hle|Hgt].
          -- rewrite words_small by (unfold br_wordlen in *; lia). rewrite reads_one. exists PCommand, []. rewrite !app_nil_r. auto.
          -- destruct (words_big (b_count s) Hgt) as [B1 B2]. rewrite reads_next by assumption. rewrite app_nil_r.
             exists PCommand, (reads W A (trunc W (b_addr s + W / 8)) (words_of W (b_count s) - 1)).
             split; [rewrite <- app_assoc; reflexivity|]. split; [reflexivity|].
             unfold br_wordlen in *. rewrite (trunc_small (W - 2)) by lia. rewrite B1. now rewrite Z.add_simpl_r.
  Qed.
End Bridge.

(** ** C61.  The wishbone cycles performed are exactly those the received words ask
    for, in order; only reads of the current command may be outstanding (then no
    word is being taken). *)
Theorem C61_bursts : forall width addr_width ins, 8 <= width -> 0 < addr_width <= width ->
  2 ^ (width - addr_width) = width / 8 ->
  let t := trace (bridge width addr_width) ins in br_ok width t ->
  exists l, asked width addr_width (br_taken t) = bus_ops t ++ l /\
    (forall op, In op l -> exists adr last, op = Rd adr last).
Proof.
  intros W A ins HW HA Hal t Hok. destruct (br_run W A HW HA Hal ins Hok) as (_ & _ & p & l & Ep & Hs). fold t in Ep.
  exists l. unfold asked. rewrite Ep. split; [reflexivity|]. intros op Hop.
  destruct (bf (state (bridge W A) ins)).
  1, 2: destruct Hs as [_ ->]; destruct Hop.
  destruct (b_write _); destruct Hs as [_ ->]; [destruct Hop|].
  unfold reads in Hop. apply in_map_iff in Hop. destruct Hop as (k & <- & _). eauto.
Qed.

(** The word returned for each read is the bus data of that cycle, with last as in
    C61_bursts, and nothing else is returned. *)
Theorem C61_read_data : forall width addr_width ins o, In o (trace (bridge width addr_width) ins) ->
  xfer (o_src (bo_io o)) (o_rready (bo_io o)) =
  if bo_stb o && bo_ack o && negb (bo_we o)
  then [Beat false (blast (cbeat (o_src (bo_io o)))) (bo_dat_r o, width)] else [].
Proof.
  intros W A ins o Ho. apply in_split in Ho. destruct Ho as (t1 & t2 & E). apply trace_one in E.
  destruct E as (a & i & b & -> & _ & ->). set (s := state (bridge W A) a). clearbody s.
  cbn [bridge cout bo_io bo_stb bo_ack bo_we bo_dat_r o_src o_rready]. unfold xfer, br_src, br_stb.
  destruct (bf s); try reflexivity. destruct (b_write s); cbn [cvalid cbeat blast andb negb].
  - now rewrite andb_false_r.
  - rewrite andb_true_r, (andb_comm (bi_ack i)). reflexivity.
Qed.

(** A write word is taken in the very cycle it is written; during reads, no word
    is taken; cyc covers stb. *)
Theorem C61_handshake : forall width addr_width ins o, In o (trace (bridge width addr_width) ins) ->
  (bo_stb o = true -> bo_cyc o = true) /\
  (bo_cyc o = true -> o_sready (bo_io o) = bo_we o && bo_ack o) /\
  (bo_cyc o = true -> bo_we o = true -> bo_stb o = cvalid (o_sink (bo_io o))) /\
  (bo_cyc o = true -> bo_we o = false -> bo_stb o = o_rready (bo_io o)) /\
  (bo_cyc o = false -> o_sready (bo_io o) = true).
Proof.
  intros W A ins o Ho. apply in_split in Ho. destruct Ho as (t1 & t2 & E). apply trace_one in E.
  destruct E as (a & i & b & -> & _ & ->). set (s := state (bridge W A) a). clearbody s.
  cbn [bridge cout bo_io bo_stb bo_ack bo_we bo_cyc o_sink o_sready o_rready]. unfold br_stb, br_ready.
  destruct (bf s), (b_write s); cbn; intuition congruence.
Qed.

(** A write of 6 bytes, a stray short word, then a read of 8 bytes. *)
Definition br_ex : list br_in :=
  let w d := Chan true (Beat false false (d, 32)) in let n := Chan false (Beat false false (0, 0)) in
  [BrIn (w 25) true false 0; BrIn (w 0x100) true false 0; BrIn (w 0xAA) true true 0; BrIn (w 0xBB) true false 0; BrIn (w 0xBB) true true 0;
   BrIn (Chan true (Beat false false (3, 8))) true false 0;
   BrIn (w 32) true false 0; BrIn (w 0x200) true false 0; BrIn n true true 0x11; BrIn n false true 0x22; BrIn n true true 0x22; BrIn n true true 0].
Example C61_nonvacuous : let t := trace (bridge 32 30) br_ex in
  br_ok 32 t /\ 2 ^ (32 - 30) = 32 / 8 /\
  bus_ops t = [Wr 0x40 0xAA; Wr 0x41 0xBB; Rd 0x80 false; Rd 0x81 true] /\
  asked 32 30 (br_taken t) = bus_ops t.
Proof. split; [repeat constructor; cbn; lia|]. repeat split. Qed.

Print Assumptions C61_bursts.
Print Assumptions C61_read_data.
Print Assumptions C61_handshake.
