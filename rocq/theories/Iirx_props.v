(** Property C115: IIRFilter with an external multiplier and dynamic coefficients. *)
From Verif Require Import Stream Bits Math_model Math_proofs Iir_model Iir_spec Iir_proofs Iirx_model.

(** ** Specification. *)
(** What the multiplier was given and what it returned. *)
Definition operands (t : list ix_obs) : list (beat (Z * Z)) := flat_map (fun o => xfer (xo_mi o) (xo_mready o)) t.
Definition results (t : list ix_obs) : list (beat Z) := flat_map (fun o => xfer (xo_mo o) true) t.
(** The product of a pair, with its last mark: [w] bits, signed. *)
Definition product (w : Z) (p : beat (Z * Z)) : bool * Z := (blast p, swrap w (fst (bdata p) * snd (bdata p))).
Definition result (r : beat Z) : bool * Z := (blast r, bdata r).
(** A multiplier: at any time the results so far are the products of the first pairs
    accepted so far, in order.  Latency and readiness are free. *)
Definition multiplies (w : Z) (t : list ix_obs) : Prop := forall t1 t2, t = t1 ++ t2 ->
  exists waiting, map (product w) (operands t1) = map result (results t1) ++ waiting.

(** The coefficients are not changed while a sample is being computed (neither ready for
    a new one, nor offering the result): [coefs_of] is what they are in a cycle. *)
Definition computing (o : ix_obs) : bool := negb (o_sready (xo_io o)) && negb (cvalid (o_src (xo_io o))).
Definition steady (t : list ix_obs) : Prop := forall t1 o o' t2, t = t1 ++ o :: o' :: t2 ->
  computing o = true -> computing o' = true -> xo_cf o' = xo_cf o.
(** The coefficients each sample was computed with: those of the cycle after it was accepted. *)
Fixpoint used (t : list ix_obs) : list coefs :=
  match t with
  | o :: ((o' :: _) as r) => (if cvalid (o_sink (xo_io o)) && o_sready (xo_io o) then [xo_cf o'] else []) ++ used r
  | _ => []
  end.

Section Spec.
  Context (size : nat) (width width_s width_c shift_c : Z).
  (** Accumulators, newest first, for the samples with their coefficients, newest first:
      acc[n] = sum_{0<=i<size} b_i * (x[n-i] << shift_s) + sum_{1<=i<size} na_i * y[n-i] *)
  Fixpoint xaccs (xs : list (coefs * Z)) : list Z :=
    match xs with
    | [] => []
    | (k, _) :: r =>
        let ys := map (y_of width_s shift_c) (xaccs r) in
        swrap (width_s + width_c)
          (zsum (map (fun i => cf_b k (Z.of_nat i) * (nth i (map snd xs) 0 * 2 ^ (width_s - width))) (seq 0 size))
           + zsum (map (fun i => cf_na k (Z.of_nat i) * nth (i - 1) ys 0) (seq 1 (size - 1)))) :: xaccs r
    end.
  Definition xout (l : list (coefs * beat Z)) : list (beat Z) :=
    map (fun p => Beat (bfirst (snd (fst p))) (blast (snd (fst p)))
                    (swrap width (Z.shiftr (snd p) (shift_c + (width_s - width)))))
        (combine l (rev (xaccs (rev (map (fun q => (fst q, bdata (snd q))) l))))).
End Spec.

(** ** Proof. *)

Definition acc_last (t : list ix_obs) : bool :=
  match rev t with o :: _ => cvalid (o_sink (xo_io o)) && o_sready (xo_io o) | [] => false end.
Definition last_cf (t : list ix_obs) : option coefs :=
  match rev t with o :: _ => if computing o then Some (xo_cf o) else None | [] => None end.

Lemma used_snoc t o' : used (t ++ [o']) = used t ++ (if acc_last t then [xo_cf o'] else []).
Proof.
  unfold acc_last. destruct t as [|o t _] using rev_ind; [reflexivity|].
  rewrite rev_app_distr. cbn [rev app].
  induction t as [|x t IH].
  - cbn [app used]. now rewrite ?app_nil_r.
  - destruct t as [|y t].
    + cbn [app used] in *. rewrite ?app_nil_r in *. rewrite <- ?app_assoc. reflexivity.
    + change (((x :: y :: t) ++ [o]) ++ [o']) with (x :: y :: ((t ++ [o]) ++ [o'])).
      change ((x :: y :: t) ++ [o]) with (x :: y :: (t ++ [o])).
      change (used (x :: y :: ((t ++ [o]) ++ [o']))) with
        ((if cvalid (o_sink (xo_io x)) && o_sready (xo_io x) then [xo_cf y] else []) ++ used (((y :: t) ++ [o]) ++ [o'])).
      change (used (x :: y :: (t ++ [o]))) with
        ((if cvalid (o_sink (xo_io x)) && o_sready (xo_io x) then [xo_cf y] else []) ++ used ((y :: t) ++ [o])).
      rewrite IH, <- app_assoc. reflexivity.
Qed.
Lemma acc_last_snoc t o : acc_last (t ++ [o]) = cvalid (o_sink (xo_io o)) && o_sready (xo_io o).
Proof. unfold acc_last. now rewrite rev_app_distr. Qed.
Lemma last_cf_snoc t o : last_cf (t ++ [o]) = if computing o then Some (xo_cf o) else None.
Proof. unfold last_cf. now rewrite rev_app_distr. Qed.
Lemma last_cf_steady t o k : steady (t ++ [o]) -> last_cf t = Some k -> computing o = true -> xo_cf o = k.
Proof.
  intros H E Ho. unfold last_cf in E. destruct t as [|x t _] using rev_ind; [discriminate|].
  rewrite rev_app_distr in E. cbn [rev app] in E. destruct (computing x) eqn:Ex; [|discriminate]. injection E as <-.
  apply (H t x o []); auto. now rewrite <- app_assoc.
Qed.

Lemma operands_snoc t o : operands (t ++ [o]) = operands t ++ xfer (xo_mi o) (xo_mready o).
Proof. unfold operands. rewrite flat_map_app. cbn. now rewrite app_nil_r. Qed.
Lemma results_snoc t o : results (t ++ [o]) = results t ++ xfer (xo_mo o) true.
Proof. unfold results. rewrite flat_map_app. cbn. now rewrite app_nil_r. Qed.
Lemma multiplies_prefix w t u : multiplies w (t ++ u) -> multiplies w t.
Proof. intros H t1 t2 E. apply (H t1 (t2 ++ u)). now rewrite E, <- app_assoc. Qed.
Lemma steady_prefix t u : steady (t ++ u) -> steady t.
Proof. intros H t1 o o' t2 E. apply (H t1 o o' (t2 ++ u)). rewrite E, <- app_assoc. reflexivity. Qed.

(** One cycle of the multiplier. *)
Lemma pending_step w t o q : multiplies w (t ++ [o]) ->
  map (product w) (operands t) = map result (results t) ++ q ->
  exists q', map (product w) (operands (t ++ [o])) = map result (results (t ++ [o])) ++ q' /\
    q ++ (if cvalid (xo_mi o) && xo_mready o then [product w (cbeat (xo_mi o))] else []) =
    (if cvalid (xo_mo o) then [result (cbeat (xo_mo o))] else []) ++ q'.
Proof.
  intros H E. destruct (H (t ++ [o]) []) as [q' E']; [now rewrite app_nil_r|].
  exists q'. split; [exact E'|]. rewrite operands_snoc, results_snoc, !map_app, E, <- !app_assoc in E'.
  apply app_inv_head in E'. unfold xfer in E'. rewrite andb_true_r in E'.
  destruct (cvalid (xo_mi o) && xo_mready o), (cvalid (xo_mo o)); exact E'.
Qed.

Lemma combine_snoc' {X Y} (l : list X) (k : list Y) x y : length l = length k ->
  combine (l ++ [x]) (k ++ [y]) = combine l k ++ [(x, y)].
Proof. revert k. induction l; intros [|? k] H; simpl in *; try lia; auto. f_equal. apply IHl. lia. Qed.

Section P.
  Context (size : nat) (width width_s width_c shift_c : Z).
  Hypothesis Hsize : (2 <= size)%nat.
  Hypothesis Hw : 1 <= width.
  Hypothesis Hws : width <= width_s.
  Hypothesis Hwc : 1 <= width_c.
  Let ss := width_s - width.
  Let W := width_s + width_c.
  Let M := 2 ^ W.
  Let c := iirx size width width_s width_c shift_c.
  Let yy := y_of width_s shift_c.
  Let aa := xaccs size width width_s width_c shift_c.
  Let out := xout size width width_s width_c shift_c.
  Let xr (x : Z) := - 2 ^ (width - 1) <= x < 2 ^ (width - 1).
  Let io (t : list ix_obs) := map xo_io t.

  Definition dat (L : list (coefs * beat Z)) : list Z := rev (map (fun q => bdata (snd q)) L).
  Definition cdat (L : list (coefs * beat Z)) : list (coefs * Z) := rev (map (fun q => (fst q, bdata (snd q))) L).
  Lemma cdat_snd L : map snd (cdat L) = dat L.
  Proof. unfold cdat, dat. rewrite map_rev, map_map. reflexivity. Qed.

  Definition PBx (k : coefs) (xs : list Z) (n : nat) : Z :=
    zsum (map (fun i => cf_b k (Z.of_nat i) * (nth i xs 0 * 2 ^ ss)) (seq 0 n)).
  Definition PAx (k : coefs) (ys : list Z) (n : nat) : Z :=
    zsum (map (fun i => cf_na k (Z.of_nat i) * nth (i - 1) ys 0) (seq 1 n)).
  Lemma PBx_S k xs n : PBx k xs (S n) = PBx k xs n + cf_b k (Z.of_nat n) * (nth n xs 0 * 2 ^ ss).
  Proof. unfold PBx. rewrite seq_S, map_app, zsum_app. simpl. lia. Qed.
  Lemma PAx_S k ys n : PAx k ys (S n) = PAx k ys n + cf_na k (Z.of_nat (S n)) * nth n ys 0.
  Proof. unfold PAx. rewrite seq_S, map_app, zsum_app. simpl. rewrite Nat.sub_0_r. lia. Qed.

  Lemma aa_len xs : length (aa xs) = length xs.
  Proof. induction xs as [|[k x] xs IH]; simpl; auto. Qed.
  Lemma acc_snoc L k p : aa (cdat (L ++ [(k, p)])) =
    swrap W (PBx k (bdata p :: dat L) size + PAx k (map yy (aa (cdat L))) (size - 1)) :: aa (cdat L).
  Proof.
    unfold cdat at 1. rewrite map_app, rev_app_distr. cbn [map rev app fst snd].
    fold (cdat L). cbn [aa xaccs map snd]. rewrite cdat_snd. reflexivity.
  Qed.
  Lemma xout_snoc L k p : out (L ++ [(k, p)]) = out L ++
    [Beat (bfirst p) (blast p) (swrap width (Z.shiftr
       (swrap W (PBx k (bdata p :: dat L) size + PAx k (map yy (aa (cdat L))) (size - 1))) (shift_c + ss)))].
  Proof.
    unfold out, xout. fold (cdat (L ++ [(k, p)])). fold (cdat L). fold aa. rewrite acc_snoc.
    cbn [rev]. rewrite combine_snoc'; [rewrite map_app; reflexivity|].
    rewrite rev_length, aa_len. unfold cdat. rewrite rev_length, map_length. reflexivity.
  Qed.
  Lemma xout_len L : length (out L) = length L.
  Proof.
    unfold out, xout. fold (cdat L). fold aa. rewrite map_length, combine_length, rev_length, aa_len.
    unfold cdat. rewrite rev_length, map_length. apply Nat.min_id.
  Qed.

  Definition Tx (s : ix_state) (q : list (bool * Z)) : Z :=
    x_sum s + (if x_vr s then x_cr s else 0) + zsum (map snd q).
  Definition eqx (x y : Z) := x mod M = y mod M.
  Lemma eqx_add x y z w : eqx x y -> eqx z w -> eqx (x + z) (y + w).
  Proof. unfold eqx. intros H1 H2. rewrite Zplus_mod, H1, H2, <- Zplus_mod. reflexivity. Qed.
  Lemma eqx_swrap x : eqx (swrap W x) x.
  Proof. apply swrap_mod. unfold W. lia. Qed.
  Lemma eqx_refl x : eqx x x. Proof. reflexivity. Qed.
  Lemma eqx_sym x y : eqx x y -> eqx y x. Proof. unfold eqx. congruence. Qed.
  Lemma eqx_trans x y z : eqx x y -> eqx y z -> eqx x z. Proof. unfold eqx. congruence. Qed.

  Definition plain (q : list (bool * Z)) : Prop := Forall (fun x => fst x = false) q.
  Definition xregs (xs ys : list Z) (s : ix_state) : Prop :=
    length (x_i s) = size /\ length (x_o s) = size /\
    (forall i, (i < size)%nat -> nth i (x_i s) 0 = nth i xs 0 * 2 ^ ss) /\
    (forall i, (1 <= i < size)%nat -> nth i (x_o s) 0 = nth (i - 1) ys 0).

  (** The sample being computed uses the coefficients k. *)
  Definition current (t : list ix_obs) (L : list (coefs * beat Z)) (k : coefs) : Prop :=
    (acc_last t = true /\ used t = map fst L) \/
    (acc_last t = false /\ used t = map fst L ++ [k] /\ last_cf t = Some k).

  Definition IdleX (t : list ix_obs) (s : ix_state) (q : list (bool * Z)) : Prop :=
    exists L, accepted (io t) = map snd L /\ used t = map fst L /\ acc_last t = false /\
      emitted (io t) = out L /\ q = [] /\ x_vr s = false /\ x_idx s = 0 /\
      length (x_i s) = size /\ length (x_o s) = size /\
      (forall i, (i < size)%nat -> nth i (x_i s) 0 = nth i (dat L) 0 * 2 ^ ss) /\
      (forall i, (i < size)%nat -> nth i (x_o s) 0 = nth i (map yy (aa (cdat L))) 0).
  Definition BusyX (st : iir_fsm) (t : list ix_obs) (s : ix_state) (q : list (bool * Z)) : Prop :=
    exists L k p, accepted (io t) = map snd L ++ [p] /\ emitted (io t) = out L /\
      x_first s = bfirst p /\ x_last s = blast p /\
      let xs := bdata p :: dat L in
      let ys := map yy (aa (cdat L)) in
      xregs xs ys s /\
      match st with
      | FRunB => current t L k /\ (acc_last t = true -> x_idx s = 0) /\ 0 <= x_idx s < Z.of_nat size /\
                 eqx (Tx s q) (PBx k xs (Z.to_nat (x_idx s))) /\ plain q /\ (x_vr s = true -> x_lr s = false)
      | FRunA => current t L k /\ acc_last t = false /\ 1 <= x_idx s < Z.of_nat size /\
                 eqx (Tx s q) (PBx k xs size + PAx k ys (Z.to_nat (x_idx s - 1))) /\ plain q /\ (x_vr s = true -> x_lr s = false)
      | FWait => current t L k /\ acc_last t = false /\ x_idx s = 0 /\
                 eqx (Tx s q) (PBx k xs size + PAx k ys (size - 1)) /\
                 ((exists q0 v, q = q0 ++ [(true, v)] /\ plain q0 /\ (x_vr s = true -> x_lr s = false)) \/
                  (q = [] /\ x_vr s = true /\ x_lr s = true))
      | _ => acc_last t = false /\ used t = map fst L ++ [k] /\ x_idx s = 0 /\ q = [] /\ x_vr s = false /\
             x_sum s = swrap W (PBx k xs size + PAx k ys (size - 1))
      end.
  Definition InvX (t : list ix_obs) (s : ix_state) : Prop :=
    Forall xr (map bdata (accepted (io t))) -> multiplies W t -> steady t ->
    exists q, map (product W) (operands t) = map result (results t) ++ q /\
    match x_st s with FIdle => IdleX t s q | st => BusyX st t s q end.

  Lemma ix_small x : 0 <= x < Z.of_nat size -> ix_idx size x = x.
  Proof. intros. unfold ix_idx. now apply trunc_range_small. Qed.

  (** The accumulator over one cycle. *)
  Lemma mac (s : ix_state) i q q' : x_st s <> FIdle ->
    q ++ (if cvalid (ix_mi size s (xi_cf i)) && xi_mready i then [product W (cbeat (ix_mi size s (xi_cf i)))] else []) =
    (if cvalid (xi_mo i) then [result (cbeat (xi_mo i))] else []) ++ q' ->
    let s' := ix_next size width width_s width_c shift_c s i in
    let mi := ix_mi size s (xi_cf i) in
    x_vr s' = cvalid (xi_mo i) /\ x_lr s' = blast (cbeat (xi_mo i)) /\
    x_sum s' = (if x_vr s then swrap W (x_sum s + x_cr s) else x_sum s) /\
    x_first s' = x_first s /\ x_last s' = x_last s /\ x_i s' = x_i s /\
    eqx (Tx s' q') (Tx s q + (if cvalid mi && xi_mready i then fst (bdata (cbeat mi)) * snd (bdata (cbeat mi)) else 0)).
  Proof.
    intros Hs Hq s' mi. fold mi in Hq.
    assert (E : x_vr s' = cvalid (xi_mo i) /\ x_lr s' = blast (cbeat (xi_mo i)) /\ x_cr s' = bdata (cbeat (xi_mo i)) /\
      x_sum s' = (if x_vr s then swrap W (x_sum s + x_cr s) else x_sum s) /\
      x_first s' = x_first s /\ x_last s' = x_last s /\ x_i s' = x_i s).
    { unfold s', ix_next. destruct (x_st s); try congruence; try destruct (xi_mready i); try destruct (_ <? _); cbn; repeat split. }
    destruct E as (E1 & E2 & E3 & E4 & E5 & E6 & E7).
    split; [exact E1|]. split; [exact E2|]. split; [exact E4|]. split; [exact E5|]. split; [exact E6|]. split; [exact E7|].
    unfold Tx. rewrite E1, E3, E4.
    apply (f_equal (fun l => zsum (map snd l))) in Hq. rewrite !map_app, !zsum_app in Hq.
    assert (A : eqx (if x_vr s then swrap W (x_sum s + x_cr s) else x_sum s) (x_sum s + (if x_vr s then x_cr s else 0))).
    { destruct (x_vr s); [apply eqx_swrap|rewrite Z.add_0_r; apply eqx_refl]. }
    rewrite <- !Z.add_assoc. rewrite (Z.add_assoc (x_sum s)). apply eqx_add; [exact A|].
    replace ((if cvalid (xi_mo i) then bdata (cbeat (xi_mo i)) else 0) + zsum (map snd q'))
      with (zsum (map snd q) + (if cvalid mi && xi_mready i then swrap W (fst (bdata (cbeat mi)) * snd (bdata (cbeat mi))) else 0)).
    - apply eqx_add; [apply eqx_refl|]. destruct (_ && _); [apply eqx_swrap|apply eqx_refl].
    - revert Hq. destruct (cvalid mi && xi_mready i), (cvalid (xi_mo i)); cbn; lia.
  Qed.

  Lemma plain_app a b : plain (a ++ b) <-> plain a /\ plain b.
  Proof. apply Forall_app. Qed.

  Lemma scale_srx x : xr x -> - 2 ^ (width_s - 1) <= x * 2 ^ ss < 2 ^ (width_s - 1).
  Proof.
    unfold xr. intros. replace (width_s - 1) with ((width - 1) + ss) by (unfold ss; lia).
    rewrite Z.pow_add_r by (unfold ss; lia). assert (0 < 2 ^ ss) by (apply Z.pow_pos_nonneg; unfold ss; lia). nia.
  Qed.

  Lemma inv_stepX t s i : InvX t s -> InvX (t ++ [cout c s i]) (cnext c s i).
  Proof.
    intros HI HF HM HS.
    assert (Eio : io (t ++ [cout c s i]) = io t ++ [xo_io (cout c s i)]) by (unfold io; now rewrite map_app).
    rewrite Eio in *. rewrite accepted_app, accepted_1 in *.
    assert (HF1 : Forall xr (map bdata (accepted (io t)))) by (rewrite map_app in HF; apply Forall_app in HF; apply HF).
    destruct (HI HF1 (multiplies_prefix _ _ _ HM) (steady_prefix _ _ HS)) as (q & Eq & HB). clear HI.
    destruct (pending_step W t (cout c s i) q HM Eq) as (q' & Eq' & Hq).
    exists q'. split; [exact Eq'|]. clear Eq Eq'.
    cbn [c iirx cout xo_mi xo_mready xo_mo] in Hq.
    change (o_sink (xo_io (cout c s i))) with (xi_sink i) in *.
    change (o_sready (xo_io (cout c s i))) with (ix_rdy s) in *.
    assert (Eem : emitted (io t ++ [xo_io (cout c s i)]) = emitted (io t) ++ xfer (ix_src width width_s shift_c s) (xi_rready i))
      by (rewrite emitted_app, emitted_1; reflexivity).
    assert (Ecomp : computing (cout c s i) = negb (ix_rdy s) && negb (cvalid (ix_src width width_s shift_c s))) by reflexivity.
    assert (Ecf : xo_cf (cout c s i) = xi_cf i) by reflexivity.
    change (cnext c s i) with (ix_next size width width_s width_c shift_c s i).
    assert (Esx : accepted (io t) ++ xfer (o_sink (xo_io (cout c s i))) (o_sready (xo_io (cout c s i))) = accepted (io t) ++ xfer (xi_sink i) (ix_rdy s)) by reflexivity.
    set (o := cout c s i) in *.
    assert (Eal : acc_last (t ++ [o]) = cvalid (xi_sink i) && ix_rdy s) by (rewrite acc_last_snoc; reflexivity).
    pose proof (used_snoc t o) as Eu. rewrite Ecf in Eu.
    pose proof (last_cf_snoc t o) as Elc. rewrite Ecf, Ecomp in Elc.
    assert (Hk : forall L k, current t L k -> computing o = true ->
       (acc_last t = true \/ k = xi_cf i) /\ used (t ++ [o]) = map fst L ++ [xi_cf i]).
    { intros L k [[C1 C2]|(C1 & C2 & C3)] Hc.
      - split; [now left|]. rewrite Eu, C1, C2. reflexivity.
      - pose proof (last_cf_steady t o k HS C3 Hc) as Ek. rewrite Ecf in Ek. split; [now right|].
        rewrite Eu, C1, C2, Ek, app_nil_r. reflexivity. }
    clearbody o. clear Ecf.
    assert (Eac : accepted (io (t ++ [o])) = accepted (io t) ++ xfer (xi_sink i) (ix_rdy s))
      by (rewrite Eio, accepted_app, accepted_1; exact Esx).
    rewrite <- Eio in Eem.
    destruct (x_st s) eqn:Est.
    - (* IDLE *)
      destruct HB as (L & Ea & EU & EA & Ee & -> & Hv & Hidx & L1 & L2 & HI1 & HO).
      unfold ix_mi in Hq. rewrite Est in Hq. cbn [cvalid andb app] in Hq.
      destruct (cvalid (xi_mo i)) eqn:Emo; [discriminate|]. cbn in Hq. subst q'.
      unfold ix_src in Eem. rewrite Est in Eem. unfold xfer in Eem. cbn [cvalid andb] in Eem. rewrite app_nil_r in Eem.
      unfold ix_rdy in *. rewrite Est in *. rewrite EA in Eu. rewrite app_nil_r in Eu.
      unfold ix_next. rewrite Est, Hv. unfold xfer in HF, Eac. rewrite andb_true_r in *.
      destruct (cvalid (xi_sink i)) eqn:Ec; cbn [x_st].
      + set (p := cbeat (xi_sink i)) in *.
        exists L, (xi_cf i), p.
        assert (Hx : xr (bdata p)).
        { rewrite map_app in HF. apply Forall_app in HF. destruct HF as [_ HF]. now apply Forall_inv in HF. }
        split; [congruence|]. split; [congruence|]. split; [reflexivity|]. split; [reflexivity|]. cbv zeta. split.
        * unfold xregs. cbn [x_i x_o length]. rewrite !removelast_length, L1, L2. split; [lia|]. split; [lia|]. split.
          -- intros [|j] Hj; cbn [nth].
             ++ change (swrap width_s (Z.shiftl (bdata p) ss) = bdata p * 2 ^ ss).
                rewrite Z.shiftl_mul_pow2 by (unfold ss; lia). apply swrap_id; [lia|]. now apply scale_srx.
             ++ rewrite nth_removelast by lia. apply HI1. lia.
          -- intros [|j] Hj; [lia|]. cbn [nth]. rewrite nth_removelast by lia. rewrite HO by lia. f_equal. lia.
        * cbn [x_idx x_vr x_lr]. rewrite Hidx. split; [left; split; congruence|]. split; [auto|]. split; [lia|]. split.
          -- unfold Tx. cbn. rewrite Emo. reflexivity.
          -- split; [constructor|congruence].
      + exists L. rewrite app_nil_r in Eac. cbn [x_idx x_vr x_i x_o]. repeat (split; [congruence|]). split; assumption.
    - (* RUN_B *)
      destruct HB as (L & k & p & Ea & Ee & Ef & El & (L1 & L2 & HI1 & HO) & Hcur & H0 & Hidx & HT & HN & HV). cbv zeta in *.
      set (xs := bdata p :: dat L) in *. set (ys := map yy (aa (cdat L))) in *.
      unfold ix_src in *. unfold ix_rdy in *. rewrite Est in *. cbn [cvalid negb andb] in *.
      unfold xfer in Eem, Eac. cbn [cvalid andb] in Eem. rewrite andb_false_r, app_nil_r in *.
      destruct (Hk L k Hcur Ecomp) as [Hkk EU].
      assert (HT0 : eqx (Tx s q) (PBx (xi_cf i) xs (Z.to_nat (x_idx s)))).
      { destruct Hkk as [Hal|<-]; [|exact HT]. rewrite (H0 Hal) in HT |- *. exact HT. }
      clear HT Hkk Hcur k. set (k := xi_cf i) in *.
      destruct (mac s i q q' ltac:(congruence) Hq) as (E1 & E2 & _ & E4 & E5 & E6 & ET).
      unfold ix_mi in Hq, ET. rewrite Est in Hq, ET. cbn [cvalid cbeat blast bdata fst snd andb] in Hq, ET. fold k in Hq, ET.
      assert (HN' : plain q' /\ (cvalid (xi_mo i) = true -> blast (cbeat (xi_mo i)) = false)).
      { assert (A : plain (q ++ (if xi_mready i then [product W (Beat false false (nth (Z.to_nat (x_idx s)) (x_i s) 0, cf_b k (x_idx s)))] else []))).
        { apply plain_app. split; [exact HN|]. destruct (xi_mready i); repeat constructor. }
        rewrite Hq in A. apply plain_app in A. destruct A as [A1 A2]. split; [exact A2|].
        intros Hvv. rewrite Hvv in A1. now apply Forall_inv in A1. }
      destruct HN' as [HN' HNl].
      assert (Hcur : current (t ++ [o]) L k).
      { right. split; [exact Eal|]. split; [exact EU|exact Elc]. }
      set (s' := ix_next size width width_s width_c shift_c s i) in *.
      assert (Hsh : x_st s' = (if xi_mready i then if x_idx s <? Z.of_nat size - 1 then FRunB else FRunA else FRunB) /\
                    x_idx s' = (if xi_mready i then if x_idx s <? Z.of_nat size - 1 then x_idx s + 1 else 1 else x_idx s) /\
                    x_o s' = x_o s).
      { unfold s', ix_next. rewrite Est. destruct (xi_mready i); [|cbn; auto].
        destruct (Z.ltb_spec (x_idx s) (Z.of_nat size - 1)); cbn; rewrite ix_small by lia; auto. }
      destruct Hsh as (S1 & S2 & S3).
      assert (HR : xregs xs ys s') by (unfold xregs; rewrite E6, S3; auto).
      assert (HB : forall st, st <> FIdle -> match st with
          | FRunB => 0 <= x_idx s' < Z.of_nat size /\ eqx (Tx s' q') (PBx k xs (Z.to_nat (x_idx s')))
          | FRunA => 1 <= x_idx s' < Z.of_nat size /\ eqx (Tx s' q') (PBx k xs size + PAx k ys (Z.to_nat (x_idx s' - 1)))
          | _ => False end -> BusyX st (t ++ [o]) s' q').
      { intros st Hst Hc. exists L, k, p. split; [congruence|]. split; [congruence|]. split; [congruence|]. split; [congruence|].
        cbv zeta. fold xs ys. split; [exact HR|]. destruct st; try contradiction; destruct Hc as [Hc1 Hc2].
        - split; [exact Hcur|]. split; [congruence|]. split; [exact Hc1|]. split; [exact Hc2|]. split; [exact HN'|]. rewrite E1, E2. exact HNl.
        - split; [exact Hcur|]. split; [congruence|]. split; [exact Hc1|]. split; [exact Hc2|]. split; [exact HN'|]. rewrite E1, E2. exact HNl. }
      rewrite S1. destruct (xi_mready i).
      + assert (HT' : eqx (Tx s' q') (PBx k xs (S (Z.to_nat (x_idx s))))).
        { eapply eqx_trans; [exact ET|]. rewrite PBx_S. apply eqx_add; [exact HT0|].
          rewrite (HI1 (Z.to_nat (x_idx s))) by lia. rewrite Z2Nat.id by lia. rewrite Z.mul_comm. apply eqx_refl. }
        destruct (Z.ltb_spec (x_idx s) (Z.of_nat size - 1)); apply HB; try discriminate; rewrite S2; (split; [lia|]).
        * replace (Z.to_nat (x_idx s + 1)) with (S (Z.to_nat (x_idx s))) by lia. exact HT'.
        * replace size with (S (Z.to_nat (x_idx s))) by lia. change (Z.to_nat (1 - 1)) with 0%nat.
          unfold PAx. cbn [seq map zsum]. rewrite Z.add_0_r. exact HT'.
      + apply HB; try discriminate. rewrite S2. split; [lia|]. eapply eqx_trans; [exact ET|]. rewrite Z.add_0_r. exact HT0.
    - (* RUN_A *)
      destruct HB as (L & k & p & Ea & Ee & Ef & El & (L1 & L2 & HI1 & HO) & Hcur & H0 & Hidx & HT & HN & HV). cbv zeta in *.
      set (xs := bdata p :: dat L) in *. set (ys := map yy (aa (cdat L))) in *.
      unfold ix_src in *. unfold ix_rdy in *. rewrite Est in *. cbn [cvalid negb andb] in *.
      unfold xfer in Eem, Eac. cbn [cvalid andb] in Eem. rewrite andb_false_r, app_nil_r in *.
      destruct (Hk L k Hcur Ecomp) as [Hkk EU].
      assert (Ek : k = xi_cf i) by (destruct Hkk; [congruence|assumption]). rewrite <- Ek in *. clear Hkk Hcur.
      destruct (mac s i q q' ltac:(congruence)) as (E1 & E2 & _ & E4 & E5 & E6 & ET); [rewrite <- Ek; exact Hq|].
      rewrite <- Ek in ET.
      unfold ix_mi in Hq, ET. rewrite Est in Hq, ET. cbn [cvalid cbeat blast bdata fst snd andb] in Hq, ET.
      assert (Hcur : current (t ++ [o]) L k).
      { right. split; [exact Eal|]. split; [exact EU|exact Elc]. }
      set (s' := ix_next size width width_s width_c shift_c s i) in *.
      assert (Hsh : x_st s' = (if xi_mready i then if x_idx s <? Z.of_nat size - 1 then FRunA else FWait else FRunA) /\
                    x_idx s' = (if xi_mready i then if x_idx s <? Z.of_nat size - 1 then x_idx s + 1 else 0 else x_idx s) /\
                    x_o s' = x_o s).
      { unfold s', ix_next. rewrite Est. destruct (xi_mready i); [|cbn; auto].
        destruct (Z.ltb_spec (x_idx s) (Z.of_nat size - 1)); cbn; rewrite ?ix_small by lia; auto. }
      destruct Hsh as (S1 & S2 & S3).
      assert (HR : xregs xs ys s') by (unfold xregs; rewrite E6, S3; auto).
      assert (HT' : xi_mready i = true -> eqx (Tx s' q') (PBx k xs size + PAx k ys (Z.to_nat (x_idx s)))).
      { intros Hr. rewrite Hr in ET. eapply eqx_trans; [exact ET|].
        replace (Z.to_nat (x_idx s)) with (S (Z.to_nat (x_idx s - 1))) at 2 by lia. rewrite PAx_S, Z.add_assoc.
        apply eqx_add; [exact HT|]. rewrite (HO (Z.to_nat (x_idx s))) by lia.
        replace (Z.to_nat (x_idx s) - 1)%nat with (Z.to_nat (x_idx s - 1)) by lia.
        replace (Z.of_nat (S (Z.to_nat (x_idx s - 1)))) with (x_idx s) by lia. rewrite Z.mul_comm. apply eqx_refl. }
      rewrite S1.
      destruct (xi_mready i) eqn:Er; [destruct (Z.ltb_spec (x_idx s) (Z.of_nat size - 1))|].
      + assert (HN' : plain q' /\ (cvalid (xi_mo i) = true -> blast (cbeat (xi_mo i)) = false)).
        { replace (x_idx s =? Z.of_nat size - 1) with false in Hq by (symmetry; apply Z.eqb_neq; lia).
          match type of Hq with ?X = _ => assert (A : plain X) by (apply plain_app; split; [exact HN|repeat constructor]) end.
          rewrite Hq in A. apply plain_app in A. destruct A as [A1 A2]. split; [exact A2|].
          intros Hvv. rewrite Hvv in A1. now apply Forall_inv in A1. }
        exists L, k, p. split; [congruence|]. split; [congruence|]. split; [congruence|]. split; [congruence|].
        cbv zeta. fold xs ys. split; [exact HR|]. split; [exact Hcur|]. split; [congruence|]. rewrite S2. split; [lia|].
        split; [replace (x_idx s + 1 - 1) with (x_idx s) by lia; apply HT'; reflexivity|]. split; [apply HN'|]. rewrite E1, E2. apply HN'.
      + replace (x_idx s =? Z.of_nat size - 1) with true in Hq by (symmetry; apply Z.eqb_eq; lia).
        exists L, k, p. split; [congruence|]. split; [congruence|]. split; [congruence|]. split; [congruence|].
        cbv zeta. fold xs ys. split; [exact HR|]. split; [exact Hcur|]. split; [congruence|]. split; [exact S2|].
        split; [replace (size - 1)%nat with (Z.to_nat (x_idx s)) by lia; apply HT'; reflexivity|].
        rewrite E1, E2. unfold product in Hq. cbn [blast] in Hq. destruct (cvalid (xi_mo i)); cbn [app] in Hq.
        * destruct q as [|q1 q]; cbn [app] in Hq; injection Hq as Hq1 Hq2.
          -- right. split; [congruence|]. split; [reflexivity|]. congruence.
          -- left. inversion HN; subst. exists q. eexists. split; [reflexivity|]. split; [assumption|].
             intros _. match goal with H : fst (result _) = false |- _ => exact H end.
        * left. exists q. eexists. split; [symmetry; exact Hq|]. split; [exact HN|discriminate].
      + rewrite app_nil_r in Hq.
        assert (HN' : plain q' /\ (cvalid (xi_mo i) = true -> blast (cbeat (xi_mo i)) = false)).
        { rewrite Hq in HN. apply plain_app in HN. destruct HN as [A1 A2]. split; [exact A2|].
          intros Hvv. rewrite Hvv in A1. now apply Forall_inv in A1. }
        exists L, k, p. split; [congruence|]. split; [congruence|]. split; [congruence|]. split; [congruence|].
        cbv zeta. fold xs ys. split; [exact HR|]. split; [exact Hcur|]. split; [congruence|]. rewrite S2. split; [lia|].
        split; [eapply eqx_trans; [exact ET|]; rewrite Z.add_0_r; exact HT|]. split; [apply HN'|]. rewrite E1, E2. apply HN'.
    - (* WAIT *)
      destruct HB as (L & k & p & Ea & Ee & Ef & El & (L1 & L2 & HI1 & HO) & Hcur & H0 & Hidx & HT & HL). cbv zeta in *.
      set (xs := bdata p :: dat L) in *. set (ys := map yy (aa (cdat L))) in *.
      unfold ix_src in *. unfold ix_rdy in *. rewrite Est in *. cbn [cvalid negb andb] in *.
      unfold xfer in Eem, Eac. cbn [cvalid andb] in Eem. rewrite andb_false_r, app_nil_r in *.
      destruct (Hk L k Hcur Ecomp) as [Hkk EU].
      assert (Ek : k = xi_cf i) by (destruct Hkk; [congruence|assumption]). clear Hkk Hcur.
      destruct (mac s i q q' ltac:(congruence) Hq) as (E1 & E2 & E3 & E4 & E5 & E6 & ET).
      unfold ix_mi in Hq, ET. rewrite Est in Hq, ET. cbn [cvalid andb] in Hq, ET. rewrite Z.add_0_r in ET. rewrite app_nil_r in Hq.
      rewrite <- Ek in *.
      assert (Hcur : current (t ++ [o]) L k).
      { right. split; [exact Eal|]. split; [exact EU|exact Elc]. }
      set (s' := ix_next size width width_s width_c shift_c s i) in *.
      assert (Hsh : x_st s' = (if x_vr s && x_lr s then FOutput else FWait) /\ x_idx s' = x_idx s /\ x_o s' = x_o s).
      { unfold s', ix_next. rewrite Est. cbn. auto. }
      destruct Hsh as (S1 & S2 & S3).
      assert (HR : xregs xs ys s') by (unfold xregs; rewrite E6, S3; auto).
      rewrite S1. destruct HL as [(q0 & v & Eqq & HN & HV)|(Eqq & V1 & V2)].
      + assert (EN : x_vr s && x_lr s = false) by (destruct (x_vr s); [now rewrite HV|reflexivity]). rewrite EN.
        exists L, k, p. split; [congruence|]. split; [congruence|]. split; [congruence|]. split; [congruence|].
        cbv zeta. fold xs ys. split; [exact HR|]. split; [exact Hcur|]. split; [congruence|]. split; [congruence|].
        split; [eapply eqx_trans; [exact ET|exact HT]|]. rewrite E1, E2. rewrite Eqq in Hq.
        destruct (cvalid (xi_mo i)); cbn [app] in Hq.
        * destruct q0 as [|q1 q0]; cbn [app] in Hq; injection Hq as Hq1 Hq2.
          -- right. split; [congruence|]. split; [reflexivity|]. unfold result in Hq1. congruence.
          -- left. inversion HN; subst. exists q0, v. split; [reflexivity|]. split; [assumption|].
             intros _. match goal with H : fst (result _) = false |- _ => exact H end.
        * left. exists q0, v. split; [congruence|]. split; [exact HN|discriminate].
      + rewrite V1, V2. cbn [andb]. subst q. destruct (cvalid (xi_mo i)) eqn:Emo; [discriminate|]. cbn in Hq. subst q'.
        exists L, k, p. split; [congruence|]. split; [congruence|]. split; [congruence|]. split; [congruence|].
        cbv zeta. fold xs ys. split; [exact HR|]. split; [congruence|]. split; [congruence|]. split; [congruence|].
        split; [reflexivity|]. split; [congruence|].
        rewrite E3, V1. apply swrap_eqm. unfold Tx in HT. rewrite V1 in HT. cbn in HT. rewrite Z.add_0_r in HT. exact HT.
    - (* OUTPUT *)
      destruct HB as (L & k & p & Ea & Ee & Ef & El & (L1 & L2 & HI1 & HO) & HA & HU & Hidx & -> & HV & HSum). cbv zeta in *.
      set (xs := bdata p :: dat L) in *. set (ys := map yy (aa (cdat L))) in *.
      unfold ix_mi in Hq. rewrite Est in Hq. cbn [cvalid andb app] in Hq.
      destruct (cvalid (xi_mo i)) eqn:Emo; [discriminate|]. cbn in Hq. subst q'.
      unfold ix_src in Eem. unfold ix_rdy in *. rewrite Est in *. unfold xfer in Eem, Eac. cbn [cvalid cbeat andb] in Eem.
      rewrite HA in Eu. rewrite andb_false_r, app_nil_r in *.
      unfold ix_next. rewrite Est, HV.
      change (wrap (Shape width_s true) (Z.shiftr (x_sum s) shift_c)) with (yy (x_sum s)).
      assert (Hol : length (yy (x_sum s) :: tl (x_o s)) = size).
      { destruct (x_o s); cbn in *; lia. }
      assert (Hon : forall j, (1 <= j < size)%nat -> nth j (yy (x_sum s) :: tl (x_o s)) 0 = nth (j - 1) ys 0).
      { intros j Hj. rewrite <- HO by lia. destruct (x_o s); cbn in *; [lia|]. destruct j; [lia|]. reflexivity. }
      destruct (xi_rready i); cbn [x_st].
      + exists (L ++ [(k, p)]). rewrite !map_app. cbn [map fst snd].
        split; [congruence|]. split; [congruence|]. split; [exact Eal|].
        split. { rewrite Eem, Ee, xout_snoc, Ef, El. fold xs ys. rewrite <- HSum. reflexivity. }
        split; [reflexivity|]. cbn [x_vr x_idx x_i x_o]. split; [exact Emo|]. split; [exact Hidx|]. split; [exact L1|]. split; [exact Hol|].
        assert (Ed : dat (L ++ [(k, p)]) = xs) by (unfold dat; rewrite map_app, rev_app_distr; reflexivity).
        split; [rewrite Ed; exact HI1|].
        intros j Hj. rewrite acc_snoc. fold xs ys. cbn [map]. fold ys. destruct j as [|j]; [cbn [nth]; now rewrite HSum|].
        rewrite Hon by lia. cbn [nth]. f_equal. lia.
      + rewrite app_nil_r in Eem. exists L, k, p. split; [congruence|]. split; [congruence|]. split; [exact Ef|]. split; [exact El|].
        cbv zeta. fold xs ys. split; [unfold xregs; cbn [x_i x_o]; auto|]. cbn [x_idx x_vr x_sum].
        split; [exact Eal|]. split; [congruence|]. split; [exact Hidx|]. split; [reflexivity|]. split; [exact Emo|exact HSum].
  Qed.

  Lemma inv_allX ins : InvX (trace c ins) (state c ins).
  Proof.
    apply (run_inv c InvX); [|intros; now apply inv_stepX].
    intros _ _ _. exists []. split; [reflexivity|]. exists []. cbn. rewrite !repeat_length. unfold acc_last. cbn.
    repeat (split; [reflexivity|]). split; intros j Hj; rewrite nth_repeat; destruct j; reflexivity.
  Qed.

  Lemma split_combine {X Y} (l : list (X * Y)) : combine (map fst l) (map snd l) = l.
  Proof. induction l as [|[x y] l IH]; cbn; congruence. Qed.
  Lemma split_combine1 {X Y} (l : list (X * Y)) y : combine (map fst l) (map snd l ++ [y]) = l.
  Proof. induction l as [|[x z] l IH]; cbn; congruence. Qed.
  Lemma split_combine2 {X Y} (l : list (X * Y)) x y : combine (map fst l ++ [x]) (map snd l ++ [y]) = l ++ [(x, y)].
  Proof. induction l as [|[a z] l IH]; cbn; congruence. Qed.
  Lemma current_combine t L k p : current t L k -> exists tail, (length tail <= 1)%nat /\
    out (combine (used t) (map snd L ++ [p])) = out L ++ tail.
  Proof.
    intros [(_ & ->)|(_ & -> & _)].
    - rewrite split_combine1. exists []. rewrite app_nil_r. split; [repeat constructor|reflexivity].
    - rewrite split_combine2, xout_snoc. eexists. split; [|reflexivity]. repeat constructor.
  Qed.
End P.

(** ** Theorems. *)
(** At least two coefficients, and a sample width that fits the multiplier's input. *)
Definition iirx_legal (size : nat) (width width_s width_c : Z) : Prop :=
  (2 <= size)%nat /\ 1 <= width <= width_s /\ 1 <= width_c.
(** The environment: samples in range, a multiplier, coefficients that are steady. *)
Definition iirx_env (width width_s width_c : Z) (t : list ix_obs) : Prop :=
  Forall (fun x => - 2 ^ (width - 1) <= bdata x < 2 ^ (width - 1)) (accepted (map xo_io t)) /\
  multiplies (width_s + width_c) t /\ steady t.

Lemma env_prefix width width_s width_c t u : iirx_env width width_s width_c (t ++ u) -> iirx_env width width_s width_c t.
Proof.
  intros (H1 & H2 & H3). split; [|split; [eapply multiplies_prefix; eassumption|eapply steady_prefix; eassumption]].
  rewrite map_app, accepted_app in H1. apply Forall_app in H1. apply H1.
Qed.
Lemma env_inv size width width_s width_c shift_c ins :
  iirx_legal size width width_s width_c ->
  iirx_env width width_s width_c (trace (iirx size width width_s width_c shift_c) ins) ->
  let c := iirx size width width_s width_c shift_c in
  exists q, map (product (width_s + width_c)) (operands (trace c ins)) = map result (results (trace c ins)) ++ q /\
    match x_st (state c ins) with
    | FIdle => IdleX size width width_s width_c shift_c (trace c ins) (state c ins) q
    | st => BusyX size width width_s width_c shift_c st (trace c ins) (state c ins) q end.
Proof.
  intros (H1 & [H2 H3] & H4) (E1 & E2 & E3).
  apply (inv_allX size width width_s width_c shift_c H1 H2 H3 H4 ins); auto. apply Forall_map. exact E1.
Qed.

(** Every accepted sample yields one output sample, in order, with its marks, and the
    values are those of the difference equation with the coefficients in force while each
    sample was computed. *)
Theorem C115_difference_equation : forall size width width_s width_c shift_c ins,
  iirx_legal size width width_s width_c ->
  let t := trace (iirx size width width_s width_c shift_c) ins in
  iirx_env width width_s width_c t ->
  exists held, (length held <= 1)%nat /\
    xout size width width_s width_c shift_c (combine (used t) (accepted (map xo_io t))) =
    emitted (map xo_io t) ++ held.
Proof.
  intros size w ws wc sc ins HL t HE.
  destruct (env_inv size w ws wc sc ins HL HE) as (q & _ & HI). fold t in HI.
  destruct (x_st _).
  - destruct HI as (L & E1 & E2 & _ & E3 & _). exists []. split; [cbn; lia|]. now rewrite E1, E2, E3, split_combine, app_nil_r.
  - destruct HI as (L & k & p & E1 & E2 & _ & _ & _ & E3 & _). rewrite E1, E2. eapply current_combine; exact E3.
  - destruct HI as (L & k & p & E1 & E2 & _ & _ & _ & E3 & _). rewrite E1, E2. eapply current_combine; exact E3.
  - destruct HI as (L & k & p & E1 & E2 & _ & _ & _ & E3 & _). rewrite E1, E2. eapply current_combine; exact E3.
  - destruct HI as (L & k & p & E1 & E2 & _ & _ & _ & _ & E3 & _). rewrite E1, E2, E3, split_combine2, xout_snoc.
    eexists. split; [|reflexivity]. cbn. lia.
Qed.

(** A sample is accepted whenever all earlier ones have been answered. *)
Theorem C115_ready : forall size width width_s width_c shift_c ins t1 o t2,
  iirx_legal size width width_s width_c ->
  let t := trace (iirx size width width_s width_c shift_c) ins in
  iirx_env width width_s width_c t -> t = t1 ++ o :: t2 ->
  o_sready (xo_io o) = Nat.eqb (length (accepted (map xo_io t1))) (length (emitted (map xo_io t1))).
Proof.
  intros size w ws wc sc ins t1 o t2 HL t HE E. rewrite E in HE. apply env_prefix in HE.
  apply trace_one in E. destruct E as (p & i & l & -> & <- & ->).
  destruct (env_inv size w ws wc sc p HL HE) as (q & _ & HI).
  cbn [iirx cout xo_io o_sready]. unfold ix_rdy.
  destruct (x_st _).
  - destruct HI as (L & E1 & E2 & _ & E3 & _). rewrite E1, E3, xout_len, map_length, Nat.eqb_refl. reflexivity.
  - destruct HI as (L & k & b & E1 & E2 & _). rewrite E1, E2, xout_len, app_length, map_length. symmetry. apply Nat.eqb_neq. cbn. lia.
  - destruct HI as (L & k & b & E1 & E2 & _). rewrite E1, E2, xout_len, app_length, map_length. symmetry. apply Nat.eqb_neq. cbn. lia.
  - destruct HI as (L & k & b & E1 & E2 & _). rewrite E1, E2, xout_len, app_length, map_length. symmetry. apply Nat.eqb_neq. cbn. lia.
  - destruct HI as (L & k & b & E1 & E2 & _). rewrite E1, E2, xout_len, app_length, map_length. symmetry. apply Nat.eqb_neq. cbn. lia.
Qed.

(** An offered output sample stays offered, unchanged, until taken, whatever is done to
    the coefficients meanwhile. *)
Theorem C115_stable : forall size width width_s width_c shift_c ins,
  iirx_legal size width width_s width_c ->
  let t := trace (iirx size width width_s width_c shift_c) ins in
  iirx_env width width_s width_c t -> stable_src (map xo_io t).
Proof.
  intros size w ws wc sc ins HL t HE t1 o o' t2 E Hv Hr.
  apply map_eq_app in E. destruct E as (u1 & u2 & Et & <- & E).
  destruct u2 as [|x [|x' u2]]; try discriminate. cbn [map] in E. injection E as <- <- _.
  rewrite Et in HE. apply env_prefix in HE.
  apply trace_two in Et. destruct Et as (p & i & i' & l & -> & <- & -> & ->).
  destruct (env_inv size w ws wc sc p HL HE) as (q & _ & HI).
  set (c := iirx size w ws wc sc) in *. set (s := state c p) in *.
  change (ix_src w ws sc (ix_next size w ws wc sc s i) = ix_src w ws sc s).
  change (cvalid (ix_src w ws sc s) = true) in Hv. change (xi_rready i = false) in Hr.
  unfold ix_src in *. destruct (x_st s) eqn:Est; try discriminate.
  destruct HI as (_ & _ & _ & _ & _ & _ & _ & _ & _ & _ & _ & _ & Q & _).
  unfold ix_next. rewrite Est, Hr, Q. cbn. reflexivity.
Qed.

(** Operands offered to the multiplier stay offered, unchanged, until it takes them. *)
Theorem C115_operands_stable : forall size width width_s width_c shift_c ins t1 o o' t2,
  iirx_legal size width width_s width_c ->
  let t := trace (iirx size width width_s width_c shift_c) ins in
  steady t -> t = t1 ++ o :: o' :: t2 ->
  cvalid (xo_mi o) = true -> xo_mready o = false -> xo_mi o' = xo_mi o.
Proof.
  intros size w ws wc sc ins t1 o o' t2 HL t HS E Hv Hr. pose proof (HS t1 o o' t2 E) as Hcf.
  apply trace_two in E. destruct E as (p & i & i' & l & -> & <- & -> & ->).
  set (c := iirx size w ws wc sc) in *. set (s := state c p) in *.
  change (ix_mi size (ix_next size w ws wc sc s i) (xi_cf i') = ix_mi size s (xi_cf i)).
  change (cvalid (ix_mi size s (xi_cf i)) = true) in Hv. change (xi_mready i = false) in Hr.
  change (computing (cout c s i)) with (negb (ix_rdy s) && negb (cvalid (ix_src w ws sc s))) in Hcf.
  change (computing (cout c (cnext c s i) i')) with
    (negb (ix_rdy (ix_next size w ws wc sc s i)) && negb (cvalid (ix_src w ws sc (ix_next size w ws wc sc s i)))) in Hcf.
  change (xo_cf (cout c (cnext c s i) i')) with (xi_cf i') in Hcf. change (xo_cf (cout c s i)) with (xi_cf i) in Hcf.
  unfold ix_mi, ix_rdy, ix_src, ix_next in *.
  destruct (x_st s) eqn:Est; try discriminate; rewrite Hr in *; cbn [x_st x_i x_o x_idx cvalid negb andb] in *;
    rewrite (Hcf eq_refl eq_refl); reflexivity.
Qed.

(** The last marks of one burst. *)
Definition burst (size : nat) : list bool := repeat false (2 * size - 2) ++ [true].
Definition BurstI (size : nat) (t : list ix_obs) (s : ix_state) : Prop := exists n,
     match x_st s with
     | FRunB => 0 <= x_idx s < Z.of_nat size /\ length (accepted (map xo_io t)) = (n + 1)%nat /\
                map blast (operands t) = concat (repeat (burst size) n) ++ repeat false (Z.to_nat (x_idx s))
     | FRunA => 1 <= x_idx s < Z.of_nat size /\ length (accepted (map xo_io t)) = (n + 1)%nat /\
                map blast (operands t) = concat (repeat (burst size) n) ++ repeat false (size + Z.to_nat (x_idx s - 1))
     | _ => x_idx s = 0 /\ length (accepted (map xo_io t)) = n /\ map blast (operands t) = concat (repeat (burst size) n)
     end.
Lemma bursts_inv size w ws wc sc ins : (2 <= size)%nat ->
  BurstI size (trace (iirx size w ws wc sc) ins) (state (iirx size w ws wc sc) ins).
Proof.
  intros HL. set (c := iirx size w ws wc sc) in *.
  apply (run_inv c (BurstI size)); [exists 0%nat; cbn; auto|].
    clear ins. intros t s i (n & HI). unfold BurstI.
    rewrite operands_snoc, (map_app blast), (map_app xo_io), accepted_app, app_length.
    change (map xo_io [cout c s i]) with [xo_io (cout c s i)]. rewrite accepted_1.
    change (xo_mi (cout c s i)) with (ix_mi size s (xi_cf i)). change (xo_mready (cout c s i)) with (xi_mready i).
    change (o_sink (xo_io (cout c s i))) with (xi_sink i). change (o_sready (xo_io (cout c s i))) with (ix_rdy s).
    change (cnext c s i) with (ix_next size w ws wc sc s i).
    unfold ix_mi, ix_rdy, ix_next, xfer. destruct (x_st s) eqn:Est; cbn [cvalid cbeat andb].
    - destruct HI as (I1 & I2 & I3). rewrite andb_true_r, I3. destruct (cvalid (xi_sink i)); cbn [x_st x_idx length map]; exists n; rewrite I1, I2.
      + split; [lia|]. split; [lia|]. reflexivity.
      + split; [lia|]. split; [lia|]. now rewrite app_nil_r.
    - destruct HI as (I1 & I2 & I3). rewrite andb_false_r, I3, I2. cbn [length]. exists n.
      destruct (xi_mready i); [destruct (Z.ltb_spec (x_idx s) (Z.of_nat size - 1))|]; cbn [x_st x_idx map blast]; rewrite ?ix_small by lia.
      + split; [lia|]. split; [lia|]. rewrite <- app_assoc. f_equal.
        replace (Z.to_nat (x_idx s + 1)) with (Z.to_nat (x_idx s) + 1)%nat by lia. now rewrite repeat_app.
      + split; [lia|]. split; [lia|]. rewrite <- app_assoc. f_equal.
        replace (size + Z.to_nat (1 - 1))%nat with (Z.to_nat (x_idx s) + 1)%nat by lia. now rewrite repeat_app.
      + split; [lia|]. split; [lia|]. now rewrite app_nil_r.
    - destruct HI as (I1 & I2 & I3). rewrite andb_false_r, I3, I2. cbn [length].
      destruct (xi_mready i); [destruct (Z.ltb_spec (x_idx s) (Z.of_nat size - 1))|]; cbn [x_st x_idx map blast]; rewrite ?ix_small by lia.
      + exists n. split; [lia|]. split; [lia|]. rewrite <- app_assoc. f_equal.
        replace (x_idx s =? Z.of_nat size - 1) with false by (symmetry; apply Z.eqb_neq; lia).
        replace (size + Z.to_nat (x_idx s + 1 - 1))%nat with (size + Z.to_nat (x_idx s - 1) + 1)%nat by lia. now rewrite (repeat_app _ _ 1).
      + exists (n + 1)%nat. split; [reflexivity|]. split; [lia|]. rewrite (repeat_app (burst size) n 1), concat_app. cbn [repeat concat].
        rewrite <- app_assoc, app_nil_r. f_equal. unfold burst.
        replace (x_idx s =? Z.of_nat size - 1) with true by (symmetry; apply Z.eqb_eq; lia).
        replace (size + Z.to_nat (x_idx s - 1))%nat with (2 * size - 2)%nat by lia. reflexivity.
      + exists n. split; [lia|]. split; [lia|]. now rewrite app_nil_r.
    - destruct HI as (I1 & I2 & I3). rewrite andb_false_r, I3, I2. exists n. cbn [x_st x_idx length map].
      destruct (x_vr s && x_lr s); rewrite app_nil_r; split; auto; split; auto; lia.
    - destruct HI as (I1 & I2 & I3). rewrite andb_false_r, I3, I2. exists n. cbn [x_st x_idx length map].
      destruct (xi_rready i); rewrite app_nil_r; split; auto; split; auto; lia.
Qed.

(** Each sample hands the multiplier one burst of 2 * size - 1 pairs, of which exactly the
    final one is marked last; no pair belongs to no sample. *)
Theorem C115_bursts : forall size width width_s width_c shift_c ins,
  iirx_legal size width width_s width_c ->
  let t := trace (iirx size width width_s width_c shift_c) ins in
  exists n j, map blast (operands t) = concat (repeat (burst size) n) ++ repeat false j /\
    (j <= 2 * size - 2)%nat /\
    (n <= length (accepted (map xo_io t)) <= n + 1)%nat /\
    ((0 < j)%nat -> length (accepted (map xo_io t)) = (n + 1)%nat).
Proof.
  intros size w ws wc sc ins (HL & _) t.
  destruct (bursts_inv size w ws wc sc ins HL) as (n & H). fold t in H. exists n. destruct (x_st _).
  - destruct H as (_ & E1 & E2). exists 0%nat. rewrite E1, E2, app_nil_r. repeat split; lia.
  - destruct H as (Hr & E1 & E2). eexists. split; [exact E2|]. rewrite E1. lia.
  - destruct H as (Hr & E1 & E2). eexists. split; [exact E2|]. rewrite E1. lia.
  - destruct H as (_ & E1 & E2). exists 0%nat. rewrite E1, E2, app_nil_r. repeat split; lia.
  - destruct H as (_ & E1 & E2). exists 0%nat. rewrite E1, E2, app_nil_r. repeat split; lia.
Qed.

(** While pairs of an accepted sample are still to be taken, one is offered; otherwise none. *)
Theorem C115_offers : forall size width width_s width_c shift_c ins t1 o t2,
  iirx_legal size width width_s width_c ->
  trace (iirx size width width_s width_c shift_c) ins = t1 ++ o :: t2 ->
  cvalid (xo_mi o) = (length (operands t1) <? (2 * size - 1) * length (accepted (map xo_io t1)))%nat.
Proof.
  intros size w ws wc sc ins t1 o t2 (HL & _) E.
  apply trace_one in E. destruct E as (p & i & l & -> & <- & ->).
  destruct (bursts_inv size w ws wc sc p HL) as (n & H).
  set (c := iirx size w ws wc sc) in *. set (s := state c p) in *.
  change (cvalid (xo_mi (cout c s i))) with (cvalid (ix_mi size s (xi_cf i))). unfold ix_mi.
  assert (LB : forall n, length (concat (repeat (burst size) n)) = ((2 * size - 1) * n)%nat).
  { induction n0 as [|n0 IH]; [cbn; lia|]. cbn [repeat concat]. rewrite app_length, IH. unfold burst.
    rewrite app_length, repeat_length. cbn [length]. nia. }
  rewrite <- (map_length blast (operands _)). symmetry.
  destruct (x_st s); cbn [cvalid].
  - destruct H as (_ & E1 & E2). rewrite E1, E2, LB. apply Nat.ltb_irrefl.
  - destruct H as (Hr & E1 & E2). rewrite E1, E2, app_length, LB, repeat_length. apply Nat.ltb_lt. nia.
  - destruct H as (Hr & E1 & E2). rewrite E1, E2, app_length, LB, repeat_length. apply Nat.ltb_lt. nia.
  - destruct H as (_ & E1 & E2). rewrite E1, E2, LB. apply Nat.ltb_irrefl.
  - destruct H as (_ & E1 & E2). rewrite E1, E2, LB. apply Nat.ltb_irrefl.
Qed.

(** The output sample is offered two cycles after the multiplier returned the product
    marked last, and not before. *)
Theorem C115_answers : forall size width width_s width_c shift_c ins t1 o o1 o2 t2,
  iirx_legal size width width_s width_c ->
  let t := trace (iirx size width width_s width_c shift_c) ins in
  iirx_env width width_s width_c t -> t = t1 ++ o :: o1 :: o2 :: t2 ->
  cvalid (xo_mo o) = true -> blast (cbeat (xo_mo o)) = true ->
  cvalid (o_src (xo_io o)) = false /\ cvalid (o_src (xo_io o1)) = false /\ cvalid (o_src (xo_io o2)) = true.
Proof.
  intros size w ws wc sc ins t1 o o1 o2 t2 HL t HE E Hv Hl.
  assert (HE0 : iirx_env w ws wc (t1 ++ [o])).
  { rewrite E in HE. change (o :: o1 :: o2 :: t2) with ([o] ++ o1 :: o2 :: t2) in HE. rewrite app_assoc in HE. now apply env_prefix in HE. }
  apply trace_split_from in E. destruct E as (p & i & l & -> & <- & -> & E). destruct l as [|i1 [|i2 l]]; try discriminate.
  set (c := iirx size w ws wc sc) in *.
  assert (E1 : o1 = cout c (cnext c (state c p) i) i1) by exact (f_equal (fun l => hd o1 l) E).
  assert (E2 : o2 = cout c (cnext c (cnext c (state c p) i) i1) i2) by exact (f_equal (fun l => hd o2 (tl l)) E).
  clear E. rewrite E1, E2. change (state_from c (creset c) p) with (state c p) in *.
  destruct (env_inv size w ws wc sc p HL) as (q & Eq & HI); [now apply env_prefix in HE0|]. fold c in Eq, HI.
  destruct HE0 as (_ & HM & _). change (trace_from c (creset c) p) with (trace c p) in *.
  destruct (pending_step _ _ _ _ HM Eq) as (q' & _ & Hq).
  set (s := state c p) in *.
  change (cvalid (xi_mo i) = true) in Hv. change (blast (cbeat (xi_mo i)) = true) in Hl.
  change (xo_mi (cout c s i)) with (ix_mi size s (xi_cf i)) in Hq. change (xo_mready (cout c s i)) with (xi_mready i) in Hq.
  change (xo_mo (cout c s i)) with (xi_mo i) in Hq. rewrite Hv in Hq. cbn [app] in Hq.
  assert (K : match x_st s with FRunA => xi_mready i = true /\ (x_idx s <? Z.of_nat size - 1) = false | FWait => x_vr s && x_lr s = false | _ => False end).
  { unfold ix_mi in Hq. destruct (x_st s).
    - destruct HI as (L & _ & _ & _ & _ & -> & _). discriminate.
    - destruct HI as (L & k & b & _ & _ & _ & _ & _ & _ & _ & _ & _ & HN & _). cbn [cvalid cbeat] in Hq.
      assert (A : plain (q ++ (if true && xi_mready i then [product (ws + wc) (Beat false false (nth (Z.to_nat (x_idx s)) (x_i s) 0, cf_b (xi_cf i) (x_idx s)))] else []))).
      { apply plain_app. split; [exact HN|]. destruct (xi_mready i); repeat constructor. }
      rewrite Hq in A. apply Forall_inv in A. unfold result in A. cbn in A. congruence.
    - destruct HI as (L & k & b & _ & _ & _ & _ & _ & _ & _ & Hidx & _ & HN & _). cbn [cvalid cbeat andb] in Hq.
      destruct q as [|[q1 q2] q].
      + cbn [app] in Hq. destruct (xi_mready i); [|discriminate]. injection Hq as Hq _. unfold product, result in Hq. cbn [blast] in Hq.
        split; [reflexivity|]. assert (A : (x_idx s =? Z.of_nat size - 1) = true) by congruence. apply Z.ltb_ge. lia.
      + cbn [app] in Hq. apply Forall_inv in HN. cbn in HN. unfold result in Hq. congruence.
    - destruct HI as (L & k & b & _ & _ & _ & _ & _ & _ & _ & _ & _ & [(q0 & v & _ & _ & HV)|(-> & _)]).
      + destruct (x_vr s); [now rewrite HV|reflexivity].
      + discriminate.
    - destruct HI as (L & k & b & _ & _ & _ & _ & _ & _ & _ & _ & -> & _). discriminate. }
  change (cvalid (ix_src w ws sc s) = false /\ cvalid (ix_src w ws sc (ix_next size w ws wc sc s i)) = false /\
          cvalid (ix_src w ws sc (ix_next size w ws wc sc (ix_next size w ws wc sc s i) i1)) = true).
  assert (K1 : x_st (ix_next size w ws wc sc s i) = FWait /\ x_vr (ix_next size w ws wc sc s i) = true /\ x_lr (ix_next size w ws wc sc s i) = true).
  { unfold ix_next. destruct (x_st s); try contradiction.
    - destruct K as [K1 K2]. rewrite K1, K2. cbn. auto.
    - rewrite K. cbn. auto. }
  destruct K1 as (K1 & K2 & K3). set (s1 := ix_next size w ws wc sc s i) in *. clearbody s1.
  assert (K4 : x_st (ix_next size w ws wc sc s1 i1) = FOutput) by (unfold ix_next; rewrite K1, K2, K3; reflexivity).
  unfold ix_src. rewrite K1, K4. destruct (x_st s); try contradiction; auto.
Qed.

(** With the internal multiplier and fixed coefficients the filter of C35 is obtained,
    cycle for cycle. *)
Theorem C115_internal : forall b a width width_s width_c shift_c ins,
  map xo_io (trace (iirx_internal b a width width_s width_c shift_c) ins) =
  strace (iir_filter b a width width_s width_c shift_c) ins.
Proof.
  intros b a w ws wc sc ins. unfold strace, trace.
  set (x := iirx_internal b a w ws wc sc). set (m := iir_filter b a w ws wc sc).
  set (R := fun (s : cst x) (f : iir_state) => f = Iir (x_st (fst s)) (x_idx (fst s)) (x_i (fst s)) (x_o (fst s)) (snd s) (x_cr (fst s)) (x_vr (fst s))
     (x_lr (fst s)) (x_sum (fst s)) (x_first (fst s)) (x_last (fst s))).
  assert (G : forall s f, R s f -> map xo_io (trace_from x s ins) = trace_from (scirc m) f ins).
  { induction ins as [|[c r] ins IH]; intros [s ms] f HR; [reflexivity|].
    cbn [trace_from map]. f_equal.
    - rewrite HR. reflexivity.
    - apply IH. unfold R in *. cbn [fst snd] in HR. subst f.
      cbn [x iirx_internal cnext scirc m iir_filter nxt fst snd iirx].
      unfold ix_next, iir_next, iirx_in, iir_mul_in, ix_mi, the_mul.
      cbn [xi_sink xi_rready xi_cf xi_mready xi_mo f_st f_idx f_i f_o f_mul f_cr f_vr f_lr f_sum f_first f_last const_coefs cf_b cf_na].
      unfold iir_size, ix_idx, iir_idx, iir_size, ix_acc_shape, sh_acc, sh_s, sh_c, shift_s. cbn [multiplier rdy]. rewrite !orb_true_r.
      destruct (x_st s); cbn [fst snd]; repeat match goal with |- context [if ?b then _ else _] => destruct b end; reflexivity. }
  apply G. reflexivity.
Qed.

(** Concrete case: the first-order filter of C35 with a three-cycle multiplier that is
    ready every other cycle; the coefficients change between the first two samples. *)
Definition mul3 : Type := list (chan Z).
Fixpoint run3 (s : ix_state) (m : mul3) (n : nat) (ins : list (chan Z * coefs)) : list ix_obs :=
  match ins with
  | [] => []
  | (d, k) :: r =>
      let x := iirx 2 8 10 12 1 in
      let i := IxIn d true k (Nat.even n) (hd (Chan false (Beat false false 0)) m) in
      let mi := ix_mi 2 s k in
      let p := bdata (cbeat mi) in
      cout x s i :: run3 (cnext x s i) (tl m ++ [Chan (cvalid mi && Nat.even n) (Beat false (blast (cbeat mi)) (fst p * snd p))]) (S n) r
  end.
Definition k1 := Coefs (fun i => if i =? 0 then 2 else 1) (fun i => if i =? 0 then -2 else 1).
Definition k2 := Coefs (fun i => if i =? 0 then 4 else 0) (fun i => if i =? 0 then -2 else 1).
Definition d3 (d : Z) := Chan true (Beat true false d).
Definition ins3 : list (chan Z * coefs) := repeat (d3 10, k1) 13 ++ repeat (d3 (-3), k2) 12.
Definition t3 := run3 (ix_reset 2) (repeat (Chan false (Beat false false 0)) 3) 0 ins3.
Definition in3 : list ix_in :=
  map (fun o => IxIn (o_sink (xo_io o)) (o_rready (xo_io o)) (xo_cf o) (xo_mready o) (xo_mo o)) t3.
Lemma trace3 : trace (iirx 2 8 10 12 1) in3 = t3.
Proof. vm_compute. reflexivity. Qed.
Lemma multiplies_check w t :
  (forall n, (n <= length t)%nat -> exists q, map (product w) (operands (firstn n t)) = map result (results (firstn n t)) ++ q) -> multiplies w t.
Proof.
  intros H t1 t2 ->. destruct (H (length t1)) as [q E]; [rewrite app_length; lia|].
  rewrite firstn_app, firstn_all, Nat.sub_diag in E. cbn in E. rewrite app_nil_r in E. now exists q.
Qed.
Lemma steady_check t o0 : (forall n, (S n < length t)%nat -> computing (nth n t o0) && computing (nth (S n) t o0) = true ->
    xo_cf (nth (S n) t o0) = xo_cf (nth n t o0)) -> steady t.
Proof.
  intros H t1 o o' t2 -> H1 H2. specialize (H (length t1)). rewrite app_length in H. cbn [length] in H.
  rewrite !app_nth2, Nat.sub_diag in H by lia. replace (S (length t1) - length t1)%nat with 1%nat in H by lia. cbn [nth] in H.
  apply H; [lia|]. now rewrite H1, H2.
Qed.
Example C115_nonvacuous :
  iirx_legal 2 8 10 12 /\
  let t := trace (iirx 2 8 10 12 1) in3 in
  iirx_env 8 10 12 t /\ used t = [k1; k2] /\
  emitted (map xo_io t) = [Beat true false 10; Beat true false 25] /\
  length (operands t) = 6%nat.
Proof.
  cbv zeta. rewrite trace3. split; [repeat split; lia|]. split; [|vm_compute; auto].
  split; [vm_compute; repeat constructor; discriminate|]. split.
  - apply multiplies_check. intros n Hn. change (n <= 25)%nat in Hn.
    do 26 (destruct n as [|n]; [vm_compute; eexists; reflexivity|]). lia.
  - apply (steady_check _ (IxObs (Obs (d3 0) false (d3 0) false) k1 (Chan false (Beat false false (0, 0))) false (d3 0))).
    intros n Hn. change (S n < 25)%nat in Hn.
    do 25 (destruct n as [|n]; [vm_compute; intros; (discriminate || reflexivity)|]). lia.
Qed.

Print Assumptions C115_difference_equation.
Print Assumptions C115_ready.
Print Assumptions C115_stable.
Print Assumptions C115_operands_stable.
Print Assumptions C115_bursts.
Print Assumptions C115_offers.
Print Assumptions C115_answers.
Print Assumptions C115_internal.
