(** Property C26 (WS2812B). *)
From Verif Require Import Stream Bits Timing_model Timing_proofs Led_model Led_spec Led_proofs.

Lemma timings f : 0 <= f -> 0 <= ws_t0h f <= ws_t f /\ 0 <= ws_t1h f <= ws_t f /\ ws_t f <= ws_trst f.
Proof.
  intros H. unfold ws_t0h, ws_t1h, ws_t, ws_trst.
  split; [|split]; [| |eapply proj2]; apply const_mono; auto; discriminate.
Qed.

(** The driver behaves, cycle by cycle, as a player of the pixel waveforms: for
    every clock frequency, width, pixel sequence and schedule. *)
Theorem C26_ws2812b_plays_waveforms : forall f width ins, 0 <= f -> 1 <= width ->
  Forall (fun c => 0 <= bdata (cbeat c) < 2 ^ width) ins ->
  trace (ws2812b f width) ins =
  trace (ws_player (ws_t0h f) (ws_t1h f) (ws_t f) (ws_trst f) width) ins.
Proof. intros f width ins Hf Hw. destruct (timings f Hf) as (A & B & C). apply refine; auto. Qed.

(** The same per pixel: after a pixel is accepted its waveform follows, nothing is
    accepted meanwhile, and the cycle after it the driver is ready again. *)
Theorem C26_ws2812b_pixel : forall f width ins t1 o t2, 0 <= f -> 1 <= width ->
  Forall (fun c => 0 <= bdata (cbeat c) < 2 ^ width) ins ->
  trace (ws2812b f width) ins = t1 ++ o :: t2 ->
  cvalid (wo_sink o) = true -> wo_ready o = true ->
  let w := pixel_wave (ws_t0h f) (ws_t1h f) (ws_t f) (ws_trst f) width (cbeat (wo_sink o)) in
  wo_pin o = false /\
  map (fun x => (wo_ready x, wo_pin x)) (firstn (length w) t2) = map (fun p => (false, p)) (firstn (length t2) w) /\
  forall x t3, skipn (length w) t2 = x :: t3 -> wo_ready x = true /\ wo_pin x = false.
Proof.
  intros f width ins t1 o t2 Hf Hw HF E Hv Hr w.
  rewrite C26_ws2812b_plays_waveforms in E by auto.
  apply trace_split_from in E. destruct E as (a & i & b & -> & <- & -> & ->).
  set (pl := ws_player (ws_t0h f) (ws_t1h f) (ws_t f) (ws_trst f) width) in *.
  set (s := state_from pl (creset pl) a) in *.
  change (cst pl) with (list bool) in s. clearbody s.
  destruct s as [|p s]; [|discriminate]. cbn in Hv.
  assert (Ew : cnext pl [] i = w). { cbn. rewrite Hv. reflexivity. }
  rewrite Ew. split; [reflexivity|]. destruct (player_wave (ws_t0h f) (ws_t1h f) (ws_t f) (ws_trst f) width w b) as [A B].
  split.
  - fold pl in A. rewrite A, trace_from_length. reflexivity.
  - intros x t3 E. fold pl in B.
    destruct (nth_error b (length w)) as [j|] eqn:Ej.
    + specialize (B (length w) (le_n _) j Ej).
      assert (Hl : (length w < length b)%nat) by (apply nth_error_Some; congruence).
      rewrite <- (firstn_skipn (length w) b) in E. rewrite trace_from_app, B in E.
      rewrite skipn_app, skipn_all2, trace_from_length, firstn_length in E by (rewrite trace_from_length, firstn_length; lia).
      replace (length w - Nat.min (length w) (length b))%nat with 0%nat in E by lia. cbn [skipn app] in E.
      destruct (skipn (length w) b); [discriminate|]. cbn in E. inversion E. auto.
    + apply nth_error_None in Ej. rewrite skipn_all2 in E by (rewrite trace_from_length; lia). discriminate.
Qed.

(** The times behind the cycle counts, for a clock of f Hz up to 2^32, as the program's
    floats compute them: the high pulses last at most 295 ns and 595 ns and fall short of
    that by less than one cycle (the 295 ns pulse by at most one), a bit lasts 890 ns and
    up to one cycle more, the reset pause more than 80 us by at most one cycle. *)
Theorem C26_ws2812b_timings : forall f, 0 <= f <= 2 ^ 32 ->
  (ws_t0h f * 10 ^ 9 <= 295 * f <= (ws_t0h f + 1) * 10 ^ 9) /\
  (ws_t1h f * 10 ^ 9 <= 595 * f < (ws_t1h f + 1) * 10 ^ 9) /\
  (890 * f <= (ws_t f + 1) * 10 ^ 9 <= 890 * f + 10 ^ 9) /\
  (80 * f < (ws_trst f + 1) * 10 ^ 6 <= 80 * f + 10 ^ 6).
Proof.
  intros f Hf. unfold ws_t0h, ws_t1h, ws_t, ws_trst.
  rewrite (const_up 595 1000000000 f) by (try discriminate; lia). rewrite (const_up 80 1000000 f) by (try discriminate; lia).
  pose proof (const_bounds 295 1000000000 f eq_refl ltac:(lia) ltac:(lia)) as B1. pose proof (const_bounds 890 1000000000 f eq_refl ltac:(lia) ltac:(lia)) as B2. cbv zeta in B1, B2.
  pose proof (Z.mul_div_le (595 * f) 1000000000 ltac:(lia)). pose proof (Z.mul_succ_div_gt (595 * f) 1000000000 ltac:(lia)).
  pose proof (Z.mul_div_le (80 * f) 1000000 ltac:(lia)). pose proof (Z.mul_succ_div_gt (80 * f) 1000000 ltac:(lia)).
  lia.
Qed.

(** Concrete case: 10 MHz, 4-bit pixels, second one last. *)
Example C26_nonvacuous :
  let ins := repeat (Chan true (Beat false true 5)) 40 in
  let z := [true; true; false; false; false; false; false; false; false] in
  let o := [true; true; true; true; true; false; false; false; false] in
  pixel_wave (ws_t0h 10000000) (ws_t1h 10000000) (ws_t 10000000) 3 4 (Beat false true 5) =
    z ++ o ++ z ++ o ++ [false; false; false; false] /\
  map wo_pin (firstn 37 (trace (ws2812b 10000000 4) ins)) =
    false :: flat_map (bit_wave (ws_t0h 10000000) (ws_t1h 10000000) (ws_t 10000000)) [false; true; false; true].
Proof. vm_compute. auto. Qed.

Print Assumptions C26_ws2812b_plays_waveforms.
Print Assumptions C26_ws2812b_pixel.
Print Assumptions C26_ws2812b_timings.
