From Verif Require Import Stream Bits Fifo_model.

Lemma pack_unpack pw b : 0 <= pw -> 0 <= bdata b < 2 ^ pw -> fifo_unpack pw (fifo_pack pw b) = b.
Proof.
  intros Hp Hb. unfold fifo_unpack, fifo_pack. destruct b as [f l d]. cbn [bfirst blast bdata] in *.
  assert (H2 : 2 ^ (pw + 1) = 2 * 2 ^ pw) by (rewrite Z.pow_add_r by lia; lia).
  assert (0 < 2 ^ pw) by (apply Z.pow_pos_nonneg; lia).
  set (w := d + 2 ^ pw * Z.b2z f + 2 ^ (pw + 1) * Z.b2z l).
  assert (Hw : w = d + 2 ^ pw * (Z.b2z f + 2 * Z.b2z l)) by (unfold w; rewrite H2; lia).
  assert (Hd : w / 2 ^ pw = Z.b2z f + 2 * Z.b2z l).
  { rewrite Hw. symmetry. apply Z.div_unique with (r := d); lia. }
  assert (Hm : w mod 2 ^ pw = d).
  { rewrite Hw. symmetry. apply Z.mod_unique with (q := Z.b2z f + 2 * Z.b2z l); lia. }
  f_equal; auto.
  - replace pw with (0 + pw) by lia. rewrite <- Z.div_pow2_bits, Hd by lia. destruct f, l; reflexivity.
  - replace (pw + 1) with (1 + pw) by lia. rewrite <- Z.div_pow2_bits, Hd by lia. destruct f, l; reflexivity.
Qed.

Lemma pack_injective pw a b : 0 <= pw -> 0 <= bdata a < 2 ^ pw -> 0 <= bdata b < 2 ^ pw ->
  fifo_pack pw a = fifo_pack pw b -> a = b.
Proof. intros Hp Ha Hb E. rewrite <- (pack_unpack pw a), <- (pack_unpack pw b) by auto. now rewrite E. Qed.

Definition sfb_content (s : list Z * option Z) : list Z :=
  match snd s with None => fst s | Some w => w :: fst s end.

Definition sfb_inv (d : Z) (s : list Z * option Z) : Prop := Z.of_nat (length (fst s)) <= d - 1.

Section Wrap.
  Context (pw : Z) (f : wfifo) (cap : Z) (content : wf_st f -> list Z) (inv : wf_st f -> Prop).
  Hypothesis Hpw : 0 <= pw.
  Hypothesis H0 : content (wf_0 f) = [].
  Hypothesis I0 : inv (wf_0 f).
  Hypothesis HI : forall s we wd re, inv s -> inv (wf_next f s we wd re).
  Hypothesis Hcap : forall s, inv s -> Z.of_nat (length (content s)) <= cap.
  Hypothesis Hhead : forall s, inv s -> wf_rrdy f s = true -> exists q, content s = wf_rdata f s :: q.
  Hypothesis Hnext : forall s we wd re, inv s ->
      content (wf_next f s we wd re) =
        (if wf_rrdy f s && re then tl (content s) else content s) ++
        (if we && wf_wrdy f s then [wd] else []).
  Let m := fifo_wrapper pw f.

  Definition okdata (l : list (beat Z)) : Prop := Forall (fun b => 0 <= bdata b < 2 ^ pw) l.

  Lemma wrap_inv ins : inv (state (scirc m) ins).
  Proof. apply (state_inv (scirc m)); [exact I0|]. intros s [c r] Hs. cbn. auto. Qed.

  Lemma wrap_lossless ins : okdata (accepted (strace m ins)) ->
    exists held, accepted (strace m ins) = emitted (strace m ins) ++ held /\
      map (fifo_pack pw) held = content (state (scirc m) ins) /\ Z.of_nat (length held) <= cap.
  Proof.
    intros Hok.
    enough (E : exists held, accepted (strace m ins) = emitted (strace m ins) ++ held /\
      map (fifo_pack pw) held = content (state (scirc m) ins)).
    { destruct E as (held & E1 & E2). exists held. repeat split; auto.
      rewrite <- (map_length (fifo_pack pw)), E2. apply Hcap, wrap_inv. }
    revert Hok. apply (run_inv_hyp (scirc m) (fun t => okdata (accepted t))
      (fun t s => inv s /\ exists held, accepted t = emitted t ++ held /\ map (fifo_pack pw) held = content s)).
    - intros t u. rewrite accepted_app. unfold okdata. rewrite Forall_app. tauto.
    - split; auto. exists []. cbn. auto.
    - intros t s [c r] Hok [Hi (held & E1 & E2)]. split; [cbn; auto|].
      rewrite accepted_app, emitted_app, accepted_1, emitted_1, E1 in *.
      cbn [m fifo_wrapper scirc cout cnext src rdy nxt fst snd o_sink o_sready o_src o_rready] in *.
      rewrite Hnext by auto. rewrite <- E2.
      assert (Hpush : map (fifo_pack pw) (xfer c (wf_wrdy f s)) = if cvalid c && wf_wrdy f s then [fifo_pack pw (cbeat c)] else []).
      { unfold xfer. destruct (_ && _); reflexivity. }
      rewrite <- Hpush. unfold xfer at 2. cbn [cvalid cbeat].
      destruct (wf_rrdy f s && r) eqn:Er.
      + apply andb_true_iff in Er. destruct Er as [Er _]. destruct (Hhead s Hi Er) as [q Eq].
        rewrite Eq in E2. destruct held as [|b held]; [discriminate|]. cbn in E2. injection E2 as Eb Eq'.
        assert (Hb : fifo_unpack pw (wf_rdata f s) = b).
        { rewrite <- Eb. apply pack_unpack; auto. unfold okdata in Hok. rewrite Forall_app in Hok. destruct Hok as [Hok _].
          rewrite Forall_app in Hok. destruct Hok as [_ Hok]. now inversion Hok. }
        exists (held ++ xfer c (wf_wrdy f s)). rewrite Hb. split.
        * now rewrite <- !app_assoc.
        * rewrite map_app. reflexivity.
      + exists (held ++ xfer c (wf_wrdy f s)). rewrite app_nil_r, map_app. split; auto. now rewrite <- app_assoc.
  Qed.
End Wrap.

Section SyncProps.
  Context (pw depth : Z).
  Hypothesis Hpw : 0 <= pw.
  Let d := wrapper_depth depth.

  Lemma d_ge : 8 <= d.
  Proof. unfold d, wrapper_depth. destruct (Z.ltb_spec depth 8); lia. Qed.

  Lemma ssf_lossless b ins : okdata pw (accepted (strace (stream_sync_fifo pw depth b) ins)) ->
    exists held, accepted (strace (stream_sync_fifo pw depth b) ins) = emitted (strace (stream_sync_fifo pw depth b) ins) ++ held /\
       Z.of_nat (length held) <= d.
  Proof.
    intros Hok. pose proof d_ge. destruct b; unfold stream_sync_fifo in *; fold d in Hok |- *.
    - destruct (wrap_lossless pw (sync_fifo_buffered d) d sfb_content (sfb_inv d) Hpw) with (ins := ins) as (held & E1 & _ & E2); eauto.
      + unfold sfb_inv; cbn; lia.
      + intros [q o] we wd re. unfold sfb_inv. cbn.
        destruct (Z.eqb_spec (Z.of_nat (length q)) (d - 1)); rewrite ?andb_false_r, ?andb_true_r; cbn [negb];
        destruct o, re, we, q; cbn in *; rewrite ?app_length; cbn in *; lia.
      + intros [q o]. unfold sfb_inv, sfb_content. cbn. destruct o; cbn; lia.
      + intros [q o] _. unfold sfb_content. cbn. destruct o; [eauto|discriminate].
      + intros [q o] we wd re _. unfold sfb_content. cbn.
        destruct (Z.of_nat (length q) =? d - 1); cbn [negb]; rewrite ?andb_false_r, ?andb_true_r;
          destruct o, re, we, q; cbn; rewrite ?app_nil_r; reflexivity.
    - destruct (wrap_lossless pw (sync_fifo d) d (fun q => q) (fun q => Z.of_nat (length q) <= d) Hpw) with (ins := ins) as (held & E1 & _ & E2); eauto.
      + cbn; lia.
      + intros q we wd re Hq. cbn. rewrite app_length.
        destruct (Z.eqb_spec (Z.of_nat (length q)) d); rewrite ?andb_false_r, ?andb_true_r; cbn [negb];
          destruct re, we, q; cbn in *; lia.
      + intros q _. cbn. destruct q; [discriminate|eauto].
      + intros q we wd re _. cbn. destruct q, re; reflexivity.
  Qed.

  Lemma ssf_stable b ins : stable_src (strace (stream_sync_fifo pw depth b) ins).
  Proof.
    apply (stable_src_intro _ (fun _ => True)); auto. unfold stream_sync_fifo. fold d. destruct b.
    - intros [q o] c c' _. cbn. destruct o; [|discriminate]. intros _. reflexivity.
    - intros q c c' _. cbn. destruct q; [discriminate|]. reflexivity.
  Qed.
End SyncProps.

(* ---------------- AsyncFIFO ---------------- *)
Section AsyncProofs.
  Context (pw d : Z).
  Hypothesis Hpw : 0 <= pw.
  Hypothesis Hd : 0 <= d.
  Let m := async_words pw d.

  Definition af_accepted (t : list af_obs) : list (beat Z) := flat_map af_wr t.
  Definition af_emitted (t : list af_obs) : list (beat Z) := flat_map af_rdo t.

  Definition af_inv (t : list af_obs) (s : af_state) : Prop :=
    let n := Z.of_nat (length (af_mem s)) in
    0 <= af_seen_r s <= af_rd s /\ af_rd s <= af_seen_w s /\ af_seen_w s <= n /\ n - af_seen_r s <= d /\
    af_mem s = map (fifo_pack pw) (af_accepted t) /\
    af_emitted t = firstn (Z.to_nat (af_rd s)) (af_accepted t).

  Lemma firstn_snoc_nth {X} (l : list X) k x : nth_error l k = Some x -> firstn (S k) l = firstn k l ++ [x].
  Proof. revert l. induction k; intros [|y l] H; try discriminate; simpl in *. { now injection H as ->. } now rewrite IHk. Qed.

  Lemma af_inv_run ins : Forall (fun b => 0 <= bdata b < 2 ^ pw) (af_accepted (trace m ins)) -> af_inv (trace m ins) (state m ins).
  Proof.
    apply (run_inv_hyp m (fun t => Forall (fun b => 0 <= bdata b < 2 ^ pw) (af_accepted t)) af_inv).
    - intros t u. unfold af_accepted. rewrite flat_map_app, Forall_app. tauto.
    - unfold af_inv; cbn. repeat split; auto; lia.
    - intros t s e Hok (H1 & H2 & H3 & H4 & H5 & H6).
      unfold af_inv, af_accepted, af_emitted in *. rewrite !flat_map_app in *. 
      set (acc := flat_map af_wr t) in *. set (em := flat_map af_rdo t) in *.
      pose proof (f_equal (@length Z) H5) as HL. rewrite map_length in HL.
      destruct e as [c seen|r seen]; cbn [m async_words cout cnext flat_map af_wr af_rdo af_mem af_rd af_seen_r af_seen_w] in *;
        rewrite ?app_nil_r in *.
      + unfold clampup. set (sr := Z.max (af_seen_r s) (Z.min (af_rd s) seen)).
        assert (Hsr : af_seen_r s <= sr <= af_rd s) by (unfold sr; lia).
        assert (Hlen : Z.of_nat (length (af_mem s ++ map (fifo_pack pw) (xfer c (af_wrdy d s seen)))) - sr <= d /\
                       Z.of_nat (length (af_mem s)) <= Z.of_nat (length (af_mem s ++ map (fifo_pack pw) (xfer c (af_wrdy d s seen))))).
        { rewrite app_length, map_length. unfold xfer, af_wrdy, clampup. fold sr.
          destruct (Z.ltb_spec (Z.of_nat (length (af_mem s)) - sr) d); rewrite ?andb_true_r, ?andb_false_r;
            [destruct (cvalid c)|]; simpl; lia. }
        repeat split; try lia.
        * rewrite map_app, <- H5. reflexivity.
        * rewrite firstn_app. replace (Z.to_nat (af_rd s) - length acc)%nat with 0%nat by lia.
          rewrite firstn_O, app_nil_r. exact H6.
      + unfold clampup. set (sw := Z.max (af_seen_w s) (Z.min (Z.of_nat (length (af_mem s))) seen)).
        assert (Hsw : af_seen_w s <= sw <= Z.of_nat (length (af_mem s))) by (unfold sw; lia).
        unfold af_rrdy, clampup. fold sw. unfold xfer. cbn [cvalid cbeat].
        destruct (Z.ltb_spec (af_rd s) sw); cbn [andb].
        * destruct r; [|rewrite app_nil_r; repeat split; auto; lia].
          repeat split; auto; try lia.
          replace (Z.to_nat (af_rd s + 1)) with (S (Z.to_nat (af_rd s))) by lia.
          destruct (nth_error acc (Z.to_nat (af_rd s))) as [b|] eqn:En.
          2:{ apply nth_error_None in En. lia. }
          rewrite (firstn_snoc_nth _ _ _ En), H6. f_equal. f_equal.
          rewrite H5.
          rewrite (nth_error_nth (map (fifo_pack pw) acc) (Z.to_nat (af_rd s)) 0 (map_nth_error (fifo_pack pw) _ _ En)).
          apply pack_unpack; auto. rewrite Forall_forall in Hok. apply Hok. eapply nth_error_In; eauto.
        * rewrite app_nil_r. repeat split; auto; lia.
  Qed.

  Lemma af_lossless ins : Forall (fun b => 0 <= bdata b < 2 ^ pw) (af_accepted (trace m ins)) ->
    exists held, af_accepted (trace m ins) = af_emitted (trace m ins) ++ held /\ Z.of_nat (length held) <= d.
  Proof.
    intros Hok. destruct (af_inv_run ins Hok) as (H1 & H2 & H3 & H4 & H5 & H6).
    exists (skipn (Z.to_nat (af_rd (state m ins))) (af_accepted (trace m ins))).
    rewrite H6, firstn_skipn. split; auto.
    rewrite skipn_length. pose proof (f_equal (@length Z) H5) as HL. rewrite map_length in HL. lia.
  Qed.
End AsyncProofs.

Lemma async_depth_pos depth : 0 <= async_depth depth.
Proof. apply Z.pow_nonneg. lia. Qed.
Lemma async_depth_max depth : async_depth depth = 2 ^ Z.log2_up (Z.max depth 8).
Proof. unfold async_depth, wrapper_depth. do 2 f_equal. destruct (Z.ltb_spec depth 8); lia. Qed.
