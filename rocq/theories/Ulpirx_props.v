(** Receiving through ulpi_wrapper: C128, C129. *)
From Verif Require Import Hdl Ulpiw_model Ulpiw_spec.

Notation uw := ulpi_wrapper.

Lemma was_dir_snoc t o : was_dir (t ++ [o]) = uo_dir o.
Proof. unfold was_dir. rewrite rev_app_distr. reflexivity. Qed.
Lemma dir_inv : forall ins, u_dir (state uw ins) = was_dir (trace uw ins).
Proof.
  apply (run_inv uw (fun t s => u_dir s = was_dir t)); [reflexivity|]. intros t s i _. now rewrite was_dir_snoc.
Qed.

(** The receiver's registers after a cycle, by what the PHY did in it. *)
Lemma rx_next_spec s i (o := cout uw s i) (was := u_dir s) (r := u_rx (cnext uw s i)) :
  r_v r = rx_data_cycle was o /\ r_d r = (if rx_data_cycle was o then ui_data i else r_d (u_rx s)) /\
  r_a r = match rx_report was o with RxOn => true | RxOff => false | RxSame => r_a (u_rx s) end /\
  r_e r = (if rx_cmd_cycle was o then if (rx_event o =? 0) || (rx_event o =? 1) then false else if rx_event o =? 3 then true else r_e (u_rx s) else r_e (u_rx s)) /\
  r_line r = (if rx_cmd_cycle was o then ui_data i mod 4 else r_line (u_rx s)).
Proof.
  unfold r, o, was, rx_data_cycle, rx_report, rx_cmd_cycle, rx_event, uo_dir, uo_nxt. cbn [cnext uw u_rx cout uo_in]. unfold rx_next.
  destruct (u_dir s), (ui_dir i), (ui_nxt i); cbn [xorb andb negb r_v r_d r_a r_e r_line]; repeat (split; [reflexivity|]); try reflexivity.
  destruct ((ui_data i / 16) mod 4 =? 0); [repeat (split; [reflexivity|]); reflexivity|].
  destruct ((ui_data i / 16) mod 4 =? 1), ((ui_data i / 16) mod 4 =? 3); repeat (split; [reflexivity|]); reflexivity.
Qed.

(** C128: every byte the PHY sends is shown with rx_valid one cycle later, and rx_valid shows
    nothing else. *)
Theorem C128_bytes : forall ins t1 x y t2, trace uw ins = t1 ++ x :: y :: t2 ->
  uo_rxv y = rx_data_cycle (was_dir t1) x /\ (uo_rxv y = true -> uo_rxd y = ui_data (uo_in x)) /\
  (rx_cmd_cycle (was_dir t1) x = true -> uo_line y = ui_data (uo_in x) mod 4) /\
  (rx_cmd_cycle (was_dir t1) x = false -> uo_line y = uo_line x).
Proof.
  intros ins t1 x y t2 E. apply trace_two in E. destruct E as (a & i & i' & b & _ & <- & -> & ->). rewrite <- dir_inv.
  destruct (rx_next_spec (state uw a) i) as (V & D & _ & _ & L). cbn [cout uw uo_rxv uo_rxd uo_line uo_in] in *.
  split; [exact V|]. split; [rewrite V, D; now intros ->|]. split; intros H; rewrite L, H; reflexivity.
Qed.

Lemma rx_packets_from s ins i A C : (A = false -> C = []) ->
  let got := if r_v (u_rx s) then [r_d (u_rx s)] else [] in
  core_packets A C (trace_from uw s (ins ++ [i])) =
  let '(ps, q) := phy_packets (u_dir s) (r_a (u_rx s)) (if r_a (u_rx s) then C ++ got else []) (trace_from uw s ins) in
  (if A && negb (r_a (u_rx s)) then C :: ps else ps, q).
Proof.
  revert s A C. induction ins as [|j ins IH]; intros s A C HA got.
  - cbn [app trace_from core_packets phy_packets cout uw uo_rxa uo_rxv uo_rxd]. fold got. destruct (r_a (u_rx s)) eqn:RA; cbn [negb]; rewrite ?andb_false_r, ?andb_true_r; destruct A; try reflexivity.
    now rewrite (HA eq_refl).
  - rewrite <- app_comm_cons. cbn [trace_from]. set (o := cout uw s j). set (s' := cnext uw s j) in *.
    destruct (rx_next_spec s j) as (V & D & RA & _). fold o s' in V, D, RA. cbn [core_packets phy_packets].
    change (uo_rxa o) with (r_a (u_rx s)). change (uo_rxv o) with (r_v (u_rx s)). change (uo_rxd o) with (r_d (u_rx s)). change (uo_dir o) with (u_dir s'). fold got.
    assert (G : (if r_v (u_rx s') then [r_d (u_rx s')] else []) = if rx_data_cycle (u_dir s) o then [ui_data (uo_in o)] else []).
    { rewrite V, D. now destruct (rx_data_cycle (u_dir s) o). }
    assert (ND : rx_report (u_dir s) o <> RxSame -> rx_data_cycle (u_dir s) o = false).
    { unfold rx_report, rx_data_cycle, rx_cmd_cycle. destruct (u_dir s), (uo_dir o), (uo_nxt o); cbn [andb negb]; intros H; try reflexivity. now destruct H. }
    destruct (r_a (u_rx s)) eqn:A0; cbn [negb]; rewrite ?andb_true_r, ?andb_false_r.
    + replace (if A then C ++ got else got) with (C ++ got) by (destruct A; [reflexivity|now rewrite HA]).
      rewrite (IH s' true (C ++ got)) by discriminate. rewrite G, RA.
      destruct (rx_report (u_dir s) o); cbn [negb andb].
      * destruct (phy_packets (u_dir s') true _ _). reflexivity.
      * destruct (phy_packets (u_dir s') false _ _). reflexivity.
      * destruct (phy_packets (u_dir s') true _ _). reflexivity.
    + assert (E : forall C', phy_packets (u_dir s') (r_a (u_rx s')) (if r_a (u_rx s') then C' ++ (if rx_data_cycle (u_dir s) o then [ui_data (uo_in o)] else []) else []) (trace_from uw s' ins) =
        phy_packets (u_dir s') (r_a (u_rx s')) (if r_a (u_rx s') then C' else []) (trace_from uw s' ins)).
      { intros C'. rewrite RA. destruct (rx_report (u_dir s) o) eqn:ER; try reflexivity. rewrite ND by discriminate. now rewrite app_nil_r. }
      destruct A.
      * rewrite (IH s' false []) by reflexivity. rewrite G, E, RA. destruct (rx_report (u_dir s) o); cbn [andb];
          destruct (phy_packets (u_dir s') _ _ _); reflexivity.
      * rewrite (IH s' false []) by reflexivity. rewrite G, E, RA. destruct (rx_report (u_dir s) o); cbn [andb];
          destruct (phy_packets (u_dir s') _ _ _); reflexivity.
Qed.

(** C128: the packets the device core sees are those the PHY sent, one cycle later, for every
    behaviour of PHY and core. *)
Theorem C128_packets : forall ins i,
  core_packets false [] (trace uw (ins ++ [i])) = phy_packets false false [] (trace uw ins).
Proof.
  intros ins i. unfold trace. rewrite rx_packets_from by reflexivity.
  match goal with |- (let '(_, _) := ?x in _) = _ => change x with (phy_packets false false [] (trace_from uw (creset uw) ins)) end.
  destruct (phy_packets false false [] (trace_from uw (creset uw) ins)). reflexivity.
Qed.

(** The last status byte that says anything about errors (event 0, 1 or 3). *)
Fixpoint last_error (was e : bool) (t : list uw_obs) : bool :=
  match t with
  | [] => e
  | o :: t' => last_error (uo_dir o) (if rx_cmd_cycle was o && negb (rx_event o =? 2) then rx_event o =? 3 else e) t'
  end.
(** C129, what holds: rx_error repeats the last status byte, whatever happened since. *)
Theorem C129_flag_partial : forall ins i, exists o, trace uw (ins ++ [i]) = trace uw ins ++ [o] /\
  uo_rxe o = last_error false false (trace uw ins).
Proof.
  intros ins i. rewrite trace_app. cbn [trace_from]. eexists. split; [reflexivity|]. cbn [cout uw uo_rxe].
  unfold state, trace. change false with (u_dir (creset uw)) at 1. change false with (r_e (u_rx (creset uw))) at 1.
  generalize (creset uw) as s. induction ins as [|j ins IH]; intros s; [reflexivity|].
  cbn [state_from trace_from last_error]. rewrite IH. destruct (rx_next_spec s j) as (_ & _ & _ & E & _). set (o := cout uw s j) in *.
  change (uo_dir o) with (u_dir (cnext uw s j)). f_equal. rewrite E. destruct (rx_cmd_cycle (u_dir s) o); [|reflexivity]. cbn [andb].
  assert (0 <= rx_event o < 4) by (apply Z.mod_pos_bound; lia).
  assert (C : rx_event o = 0 \/ rx_event o = 1 \/ rx_event o = 2 \/ rx_event o = 3) by lia. destruct C as [->|[->|[->| ->]]]; reflexivity.
Qed.

(** C129 is false: after a packet with an error that ends with the PHY's turn, the next
    packet is flagged although the PHY reports no error about it. *)
Definition rx_cyc (dir nxt : bool) (d : Z) : uw_in := UwIn dir nxt d false 0 (Setting 3 0 false true true).
Theorem C129_error_refuted : exists a b i, let t := trace uw (a ++ b ++ [i]) in
  was_dir (trace uw a) = false /\ Forall (fun j => rx_event (UwObs j 0 false false false 0 false false 0) <> 3) b /\
  core_packets false [] t = ([[195; 1]; [165; 2]], None) /\
  exists t1 o t2, skipn (length a) t = t1 ++ o :: t2 /\ uo_rxa o = true /\ uo_rxe o = true /\ uo_rxv o = true /\ uo_rxd o = 165.
Proof.
  exists [rx_cyc true true 0; rx_cyc true true 195; rx_cyc true true 1; rx_cyc true false 48; rx_cyc false false 0; rx_cyc false false 0],
    [rx_cyc true true 0; rx_cyc true true 165; rx_cyc true true 2; rx_cyc false false 0], (rx_cyc false false 0).
  cbv zeta. split; [vm_compute; reflexivity|]. split; [repeat (constructor; [vm_compute; discriminate|]); constructor|]. split; [vm_compute; reflexivity|].
  eexists [_; _], _, _. split; [vm_compute; reflexivity|]. vm_compute. repeat split.
Qed.

(** Two packets, the second one opened by a status byte. *)
Example C128_nonvacuous :
  let t := trace uw [rx_cyc true true 0; rx_cyc true true 195; rx_cyc true false 17; rx_cyc true true 1; rx_cyc false false 0;
    rx_cyc true false 0; rx_cyc true false 16; rx_cyc true true 210; rx_cyc true false 1; rx_cyc true true 9; rx_cyc false false 0] in
  phy_packets false false [] t = ([[195; 1]; [210]], None) /\ map uo_rxv t = [false; false; true; false; true; false; false; false; true; false; true].
Proof. vm_compute. repeat split. Qed.

(** An RXCMD with RxError sets the flag, the next RXCMD without it clears it. *)
Example C129_nonvacuous :
  map uo_rxe (trace uw [rx_cyc true false 0; rx_cyc true false 0x30; rx_cyc true true 1; rx_cyc true false 0x10; rx_cyc true false 0; rx_cyc false false 0]) =
  [false; false; true; true; false; false].
Proof. vm_compute. reflexivity. Qed.

Print Assumptions C128_bytes.
Print Assumptions C128_packets.
Print Assumptions C129_flag_partial.
Print Assumptions C129_error_refuted.
