(** C156: a program that uses exchange over the SPI bridge comes to its end. *)
From Verif Require Import Stream Fifo_model Timer_model Spiclk_model Spistream_model Spimaster_model Spimaster_props Spilink_model Spilink_spec Spixchg_props Usbspi_model Usbspi_spec Usbspi_props Usbspilive_proofs.

(** Whatever the packets are, if every call has a byte to send and the USB link works, the
    program ends. *)
Theorem C156_ends : forall every zlp size bw div delay p ins,
  0 < size -> 0 <= div < 256 -> In bw [1; 2; 4; 8] -> 0 <= delay -> all_some p ->
  let run := host_cycles bw div delay ins in
  (forall n, xdriven every zlp size p (run n)) -> xusb_works every zlp size p ins run ->
  exists n, xended every zlp size p (run n) = true.
Proof. intros every zlp size bw div delay p ins Hs Hd Hb Hdl HF run HD HW. exact (ends every zlp size bw div delay p ins Hs Hd Hb Hdl HF HD HW). Qed.

(** If no packet is empty or the calls are short, all its calls are then right: all the bytes
    sent by a call and all those returned by it were on the lines in its own run of clock
    pulses, and there were no other pulses. *)
Theorem C156_done : forall every zlp size bw div delay p ins,
  0 < size -> 0 <= div < 256 -> In bw [1; 2; 4; 8] -> 0 <= delay -> all_fit every zlp size p ->
  let run := host_cycles bw div delay ins in
  (forall n, xdriven every zlp size p (run n)) -> xusb_works every zlp size p ins run ->
  exists n runs, xended every zlp size p (run n) = true /\
    Forall2 (fun h g => on_pins bw (fst h) (snd h) g) (xhistory every zlp size p (run n)) runs /\
    edges (run n) = concat (concat runs).
Proof.
  intros every zlp size bw div delay p ins Hs Hd Hb Hdl HF run HD HW.
  assert (HA : all_some p) by (clear - HF; induction p as [|d k IH]; [exact I|]; destruct HF as [[H1 _] H2]; split; [exact H1|]; intros r; apply IH, H2).
  destruct (ends every zlp size bw div delay p ins Hs Hd Hb Hdl HA HD HW) as [n E].
  destruct (C155_exchange_partial every zlp size bw div delay p (map ins (seq 0 n)) Hs Hd Hb HF (HD n)) as (runs & later & R1 & R2 & R3).
  exists n, runs. split; [exact E|]. split; [exact R1|]. rewrite (R3 E), app_nil_r in R2. exact R2.
Qed.

(** ** Runs that come to a standstill. *)
Definition hi0 : host_in := HostIn (Chan false (Beat false false 0)) 0 true.
Definition then_idle (l : list host_in) (n : nat) : host_in := nth n l hi0.
Lemma then_idle_short l n : (n <= length l)%nat -> map (then_idle l) (seq 0 n) = firstn n l.
Proof.
  unfold then_idle. assert (G : forall l a n, (n <= length l)%nat -> map (fun i => nth (i - a) l hi0) (seq a n) = firstn n l).
  { clear. induction l as [|x l IH]; intros a n H; [destruct n; [reflexivity|cbn in H; lia]|]. destruct n as [|n]; [reflexivity|]. cbn [seq map firstn length] in *. rewrite Nat.sub_diag. f_equal.
    rewrite <- (IH (S a) n) by lia. apply map_ext_in. intros i Hi. apply in_seq in Hi. replace (i - a)%nat with (S (i - S a)) by lia. reflexivity. }
  intros H. rewrite <- (G l 0%nat n H). apply map_ext. intros i. now rewrite Nat.sub_0_r.
Qed.
Section Standstill.
  Context (every zlp : bool) (size bw div delay : Z) (l : list host_in) (p : xprogram).
  Let B := spi_host 8 bw div delay.
  Let T := host_cycles bw div delay (then_idle l).
  Context (HS : cnext B (state B l) hi0 = state B l) (HX : snd (m_fifo _ (snd (state B l))) = None) (HD : xdriven every zlp size p (trace B l)).
  Lemma still_state k : state B (map (then_idle l) (seq 0 (length l + k))) = state B l /\ sent (T (length l + k)) = sent (trace B l) /\ returned (T (length l + k)) = returned (trace B l).
  Proof using HS HX.
    induction k as [|k (I1 & I2 & I3)].
    - unfold T, host_cycles. rewrite Nat.add_0_r, then_idle_short, firstn_all by lia. auto.
    - unfold T. rewrite Nat.add_succ_r, sent_S, returned_S. fold T. rewrite I2, I3. fold B. rewrite I1.
      assert (N : then_idle l (length l + k) = hi0) by (apply nth_overflow; lia). rewrite N.
      rewrite seq_S, map_app. unfold state in *. rewrite state_from_app, I1. cbn [map plus]. rewrite N. split; [exact HS|].
      unfold gave, took, xfer. change (cvalid (o_src (so_rx (ho_app (cout B (state_from B (creset B) l) hi0))))) with (match snd (m_fifo _ (snd (state_from B (creset B) l))) with None => false | _ => true end && ss_rx_en (fst (state_from B (creset B) l))).
      rewrite HX. cbn. now rewrite !app_nil_r.
  Qed.
  Lemma still_driven n : (forall n, (n < length l)%nat -> xdriven every zlp size p (trace B (firstn n l))) -> xdriven every zlp size p (T n).
  Proof using HS HX HD.
    intros H. destruct (Nat.lt_ge_cases n (length l)) as [L|L].
    - unfold T, host_cycles. rewrite then_idle_short by lia. now apply H.
    - replace n with (length l + (n - length l))%nat by lia. destruct (still_state (n - length l)) as (_ & S1 & S2). unfold xdriven, xwritten, got in *. now rewrite S1, S2.
  Qed.
  Lemma still_works : xwritten every zlp size p (trace B l) = sent (trace B l) -> xusb_works every zlp size p (then_idle l) T.
  Proof using HS HX.
    intros H. split; intros n; exists (length l + n)%nat; (split; [lia|]).
    - right. destruct (still_state n) as (_ & S1 & S2). unfold xwritten, got in *. now rewrite S1, S2.
    - unfold then_idle. rewrite nth_overflow by lia. reflexivity.
  Qed.
End Standstill.

(** A check of all the prefixes of a run. *)
Definition same_beat (a b : beat Z) : bool := Bool.eqb (bfirst a) (bfirst b) && Bool.eqb (blast a) (blast b) && (bdata a =? bdata b).
Fixpoint prefixb (a b : list (beat Z)) : bool :=
  match a, b with [], _ => true | x :: a', y :: b' => same_beat x y && prefixb a' b' | _, [] => false end.
Lemma prefixb_ok a : forall b, prefixb a b = true -> exists later, b = a ++ later.
Proof.
  induction a as [|x a IH]; intros [|y b] H; try discriminate; [exists []; reflexivity|eexists; reflexivity|]. cbn [prefixb] in H. apply andb_prop in H. destruct H as [H1 H2].
  destruct (IH b H2) as [later ->]. exists later. destruct x as [f1 l1 d1], y as [f2 l2 d2]. unfold same_beat in H1. cbn in H1. apply andb_prop in H1. destruct H1 as [H1 H3]. apply andb_prop in H1. destruct H1 as [H1 H4].
  apply Bool.eqb_prop in H1, H4. apply Z.eqb_eq in H3. subst. reflexivity.
Qed.
Definition moved (t : list host_obs) : list (list (beat Z) * list (beat Z)) := map (fun o => (took o, gave o)) t.
Definition xdrivenb (every zlp : bool) (size : Z) (p : xprogram) (e : list (list (beat Z) * list (beat Z))) : bool :=
  prefixb (flat_map fst e) (fst (fst (xrun every size p (in_packets zlp size [] (flat_map snd e))))).
Fixpoint drivenb (every zlp : bool) (size : Z) (p : xprogram) (past e : list (list (beat Z) * list (beat Z))) : bool :=
  xdrivenb every zlp size p past && match e with [] => true | ([], []) :: r => drivenb every zlp size p past r | x :: r => drivenb every zlp size p (past ++ [x]) r end.
Lemma moved_sent t : flat_map fst (moved t) = sent t /\ flat_map snd (moved t) = returned t.
Proof. unfold moved, sent, returned. split; induction t as [|o t IH]; [reflexivity| |reflexivity|]; cbn [map flat_map fst snd]; rewrite IH; reflexivity. Qed.
Lemma drivenb_ok every zlp size p e : forall past, drivenb every zlp size p past e = true -> forall n, xdrivenb every zlp size p (past ++ firstn n e) = true.
Proof.
  induction e as [|x e IH]; intros past H n; cbn [drivenb] in H; apply andb_prop in H; destruct H as [H1 H2]; (destruct n as [|n]; [cbn [firstn]; now rewrite app_nil_r|]); cbn [firstn].
  - now rewrite app_nil_r.
  - destruct x as [[|b s] [|c r]]; [|specialize (IH _ H2 n); now rewrite <- app_assoc in IH..].
    specialize (IH _ H2 n). unfold xdrivenb in *. rewrite !flat_map_app in *. exact IH.
Qed.
Lemma driven_all every zlp size p bw div delay l : drivenb every zlp size p [] (moved (trace (spi_host 8 bw div delay) l)) = true ->
  forall n, xdriven every zlp size p (trace (spi_host 8 bw div delay) (firstn n l)).
Proof.
  intros H n. pose proof (drivenb_ok every zlp size p _ [] H n) as X. cbn [app] in X.
  assert (E : firstn n (moved (trace (spi_host 8 bw div delay) l)) = moved (trace (spi_host 8 bw div delay) (firstn n l))).
  { unfold moved. rewrite firstn_map. f_equal. unfold trace. clear. generalize (creset (spi_host 8 bw div delay)). revert n. induction l as [|i l IH]; intros [|n] s; try reflexivity. cbn [firstn trace_from]. f_equal. apply IH. }
  rewrite E in X. unfold xdrivenb in X. destruct (moved_sent (trace (spi_host 8 bw div delay) (firstn n l))) as [M1 M2]. rewrite M1, M2 in X. exact (prefixb_ok _ _ X).
Qed.

(** The program of C155 that sends its first result again; it has not ended before its answers are there. *)
Example C156_nonvacuous :
  all_fit true true 4 xdemo_program /\
  let run := host_cycles 1 0 0 (then_idle xdemo) in
  (forall n, xdriven true true 4 xdemo_program (run n)) /\ xusb_works true true 4 xdemo_program (then_idle xdemo) run /\
  xended true true 4 xdemo_program (run 90%nat) = false.
Proof.
  destruct C155_nonvacuous as (H1 & HD & _). split; [exact H1|]. cbv zeta.
  assert (HS : cnext (spi_host 8 1 0 0) (state (spi_host 8 1 0 0) xdemo) hi0 = state (spi_host 8 1 0 0) xdemo) by (vm_compute; reflexivity).
  assert (HX : snd (m_fifo _ (snd (state (spi_host 8 1 0 0) xdemo))) = None) by (vm_compute; reflexivity).
  split; [|split; [apply still_works; [exact HS|exact HX|vm_compute; reflexivity]|vm_compute; reflexivity]].
  intros n. apply still_driven; [exact HS|exact HX|exact HD|]. intros m _. apply driven_all. vm_compute. reflexivity.
Qed.

Print Assumptions C156_ends.
Print Assumptions C156_done.
