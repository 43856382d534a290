(** Specification of the WS2812B line protocol. *)
From Verif Require Import Stream Led_model.

Section Spec.
  Context (T0H T1H T TRST width : Z).
  (** one bit: high for T1H or T0H cycles, T + 1 cycles in total *)
  Definition bit_wave (b : bool) : list bool :=
    let h := if b then T1H else T0H in
    repeat true (Z.to_nat h) ++ repeat false (Z.to_nat (T + 1 - h)).
  (** the bits of a pixel, most significant first *)
  Definition msb_first (d : Z) : list bool :=
    map (fun i => Z.testbit d (width - 1 - Z.of_nat i)) (seq 0 (Z.to_nat width)).
  Definition pixel_wave (b : beat Z) : list bool :=
    flat_map bit_wave (msb_first (bdata b)) ++ (if blast b then repeat false (Z.to_nat (TRST + 1)) else []).

  (** The driver as a player of waveforms: the state is what remains to be
      played; with nothing to play it is ready, and the pin is low. *)
  Definition ws_player : circuit (chan Z) ws_obs :=
    Circuit (list bool) []
      (fun w c => match w with [] => WsObs c true false | p :: _ => WsObs c false p end)
      (fun w c => match w with [] => if cvalid c then pixel_wave (cbeat c) else [] | _ :: w' => w' end).
End Spec.
