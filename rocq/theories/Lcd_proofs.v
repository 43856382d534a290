From Verif Require Import Stream Mem_model Lcd_model Mem_spec Lcd_spec.

Lemma lw_taken_snoc t o : lw_taken (t ++ [o]) = lw_taken t ++ xfer (o_sink (lo_io o)) (o_sready (lo_io o)).
Proof. unfold lw_taken. rewrite map_app, accepted_app. cbn [map]. now rewrite accepted_1. Qed.
Lemma lw_sent_snoc t o : lw_sent (t ++ [o]) =
  lw_sent t ++ map (fun b => (b, lo_err o)) (xfer (o_src (lo_io o)) (o_rready (lo_io o))).
Proof. unfold lw_sent. rewrite flat_map_app. cbn [flat_map]. now rewrite app_nil_r. Qed.

Definition pend (t : list lw_obs) (k : chan (bool * Z)) : Prop :=
  exists t' o, t = t' ++ [o] /\ o_sink (lo_io o) = k /\ cvalid k = true /\ o_sready (lo_io o) = false.

Lemma pend_next t k o : stable_sink (map lo_io (t ++ [o])) -> pend t k -> o_sink (lo_io o) = k.
Proof.
  intros H (t' & o' & -> & E & Hv & Hr). rewrite !map_app in H. cbn [map] in H. rewrite <- app_assoc in H.
  cbn [app] in H. rewrite <- E in *. now apply (stable_sink_last _ _ _ H).
Qed.

Lemma no_last_snoc {A} (p : list (beat A)) b : no_last p -> blast b = false -> no_last (p ++ [b]).
Proof. intros. apply Forall_app. auto. Qed.

(** What the wrapper has done with the packet in progress. *)
Definition lw_open (t : list lw_obs) (s : lw_state) (rest : list (beat (bool * Z))) (more : list (beat (bool * Z) * bool)) : Prop :=
  no_last rest /\
  match s with
  | LwAddr => rest = [] /\ more = []
  | LwControl => rest = [] /\ more = [(addr_beat, false)] /\ exists k, pend t k
  | LwData =>
      (rest = [] /\ exists k e, more = [(addr_beat, false); (ctrl_beat (fst (bdata (cbeat k))), e)] /\ pend t k) \/
      (rest <> [] /\ exists l, more = (addr_beat, false) :: l /\ map fst more = lcd_frame rest)
  | LwError => more = [(addr_beat, true)]
  end.

Lemma frame_snoc p b : p <> [] -> lcd_frame (p ++ [b]) = lcd_frame p ++ [data_beat b].
Proof. destruct p; [congruence|]. intros _. unfold lcd_frame. cbn. now rewrite map_app. Qed.

Lemma lw_inv ins : stable_sink (map lo_io (trace lcd_wrapper ins)) ->
  let t := trace lcd_wrapper ins in
  exists ps rest more,
    lw_taken t = concat (map fst ps) ++ rest /\ lw_sent t = concat (map snd ps) ++ more /\
    Forall (fun x => whole (fst x) /\ carries (fst x) (snd x)) ps /\ lw_open t (state lcd_wrapper ins) rest more.
Proof.
  revert ins. refine (run_inv_hyp lcd_wrapper (fun t => stable_sink (map lo_io t))
    (fun t s => exists ps rest more, lw_taken t = concat (map fst ps) ++ rest /\ lw_sent t = concat (map snd ps) ++ more /\
       Forall (fun x => whole (fst x) /\ carries (fst x) (snd x)) ps /\ lw_open t s rest more) _ _ _).
  - intros t u. rewrite map_app. apply stable_sink_prefix.
  - exists [], [], []. repeat split; constructor.
  - intros t s [[c r] e] Hst (ps & rest & more & E1 & E2 & Hps & Hnl & Hs).
    set (o := cout lcd_wrapper s (c, r, e)) in *.
    assert (P : cvalid c = true -> lw_rdy s r = false -> pend (t ++ [o]) c) by (intros; exists t, o; auto).
    assert (Q : forall k, pend t k -> c = k) by (intros k Hk; exact (pend_next _ _ _ Hst Hk)).
    rewrite lw_taken_snoc, lw_sent_snoc, E1, E2.
    assert (O1 : lo_io o = Obs c (lw_rdy s r) (lw_src s c) r) by reflexivity.
    assert (O2 : lo_err o = e) by reflexivity. clearbody o. rewrite O1, O2. clear E1 E2 Hst O1 O2.
    unfold lcd_wrapper. cbn [cnext o_sink o_sready o_src o_rready].
    destruct c as [[|] b]; unfold xfer; cbn [cvalid cbeat] in *.
    2: { exists ps, rest, more.
      destruct s; cbn [lw_src lw_rdy lw_next cvalid cbeat andb map]; rewrite !app_nil_r; do 4 (split; [auto|]).
      - exact Hs.
      - destruct Hs as (? & ? & k & Hk). destruct (Q k Hk). destruct Hk as (? & ? & ? & ? & [=] & ?).
      - destruct Hs as [(? & k & ? & ? & Hk)|Hs]; [|auto]. destruct (Q k Hk). destruct Hk as (? & ? & ? & ? & [=] & ?).
      - exact Hs. }
    specialize (P eq_refl).
    destruct s; cbn [lw_src lw_rdy lw_next cvalid cbeat andb map] in *.
    + destruct Hs as [-> ->]. destruct r; cbn [map].
      * exists ps, [], [(addr_beat, e)]. rewrite !app_nil_r. do 4 (split; [auto|]).
        destruct e; [reflexivity|]. repeat split. eauto.
      * exists ps, [], []. rewrite !app_nil_r. do 4 (split; [auto|]). auto.
    + destruct Hs as (-> & -> & k & Hk). destruct r; cbn [map].
      * exists ps, [], [(addr_beat, false); (ctrl_beat (fst (bdata b)), e)]. rewrite !app_nil_r, <- app_assoc.
        do 4 (split; [auto|]). left. split; [reflexivity|]. exists (Chan true b), e. split; [reflexivity|auto].
      * exists ps, [], [(addr_beat, false)]. rewrite !app_nil_r. do 4 (split; [auto|]). eauto.
    + destruct r; cbn [map].
      * assert (F : exists l, more ++ [(data_beat b, e)] = (addr_beat, false) :: l /\
                    map fst (more ++ [(data_beat b, e)]) = lcd_frame (rest ++ [b])).
        { rewrite map_app. destruct Hs as [(-> & k & e' & -> & Hk)|(Hr & l & -> & Hm)].
          - destruct (Q k Hk). eexists. split; reflexivity.
          - exists (l ++ [(data_beat b, e)]). split; [reflexivity|]. rewrite Hm, frame_snoc by assumption. reflexivity. }
        destruct F as (l & F1 & F2). fold (data_beat b).
        assert (D : Beat false (blast b) (false, snd (bdata b)) = data_beat b) by reflexivity.
        destruct (blast b) eqn:Eb; rewrite ?D.
        -- exists (ps ++ [(rest ++ [b], more ++ [(data_beat b, e)])]), [], [].
           rewrite !map_app, !concat_app. cbn [map fst snd concat]. rewrite !app_nil_r, <- !app_assoc.
           split; [reflexivity|]. split; [reflexivity|]. split; [|repeat split; constructor].
           apply Forall_app. split; [assumption|]. constructor; [|constructor]. cbn [fst snd]. split; [exists rest, b; auto|].
           rewrite F1 in *. exact F2.
        -- exists ps, (rest ++ [b]), (more ++ [(data_beat b, e)]). rewrite <- !app_assoc.
           do 3 (split; [auto|]). split; [apply no_last_snoc; auto|]. right. split; [destruct rest; discriminate|]. eauto.
      * exists ps, rest, more. rewrite !app_nil_r. do 4 (split; [auto|]).
        destruct Hs as [(-> & k & e' & -> & Hk)|Hs]; [|right; exact Hs]. left. split; [reflexivity|]. destruct (Q k Hk). exists (Chan true b), e'. split; [reflexivity|auto].
    + subst more. rewrite app_nil_r. destruct (blast b) eqn:Eb.
      * exists (ps ++ [(rest ++ [b], [(addr_beat, true)])]), [], [].
        rewrite !map_app, !concat_app. cbn [map fst snd concat]. rewrite !app_nil_r, <- !app_assoc.
        split; [reflexivity|]. split; [reflexivity|]. split; [|repeat split; constructor].
        apply Forall_app. split; [assumption|]. constructor; [|constructor]. cbn [fst snd]. split; [exists rest, b; auto|]. now split.
      * exists ps, (rest ++ [b]), [(addr_beat, true)]. rewrite <- !app_assoc. do 3 (split; [auto|]).
        split; [apply no_last_snoc; auto|reflexivity].
Qed.
