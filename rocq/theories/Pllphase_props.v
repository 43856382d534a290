(** C134: the phase of a 7-series secondary output. *)
From Coq Require Import QArith Qround List Lia String Lqa.
From Verif Require Import Float_model Pll_model Pll_props.
Import ListNotations.
Open Scope Q_scope.

(** Every phase given to the primitive is at least 0 and less than 360 degrees, and is the phase asked
    for: as it was written, except that a full turn becomes no turn. *)
Theorem C134_phase : forall i_freq o_freq ops d f p, In (d, (f, p)) (pl_os (xil_run i_freq o_freq ops pll_new)) ->
  0 <= x_out_phase p < 360 /\ (p < 360 -> x_out_phase p == p) /\ (p == 360 -> x_out_phase p == 0).
Proof.
  intros i o ops d f p H.
  assert (Hp : 0 <= p <= 360).
  { assert (S : forall ops (o0 : pll_obj xil_set), incl (pl_os o0) (pl_outs o0) -> incl (pl_os (xil_run i o ops o0)) (pl_outs (xil_run i o ops o0))).
    { clear. induction ops as [|op ops IH]; intros o0 H; [exact H|]. cbn [xil_run pll_run fold_left]. apply IH. destruct op as [d f p|]; cbn [pll_step].
      - destruct (pl_set o0); [exact H|]. destruct (_ || _)%bool; [exact H|]. cbn [fst pl_os pl_outs]. intros x X. apply in_or_app. left. apply H, X.
      - destruct (pl_set o0); [exact H|]. destruct (xil_settings i o); [|exact H]. cbn [fst pl_os pl_outs]. intros y X. exact X. }
    apply (S ops pll_new (fun x X => X)) in H. destruct (C68_outputs i o ops) as (_ & _ & _ & K). destruct (K d f p H) as (_ & K2). exact K2. }
  unfold x_out_phase.
  assert (L : inject_Z (Qfloor (p / 360)) <= p / 360) by apply Qfloor_le.
  assert (U : p / 360 < inject_Z (Qfloor (p / 360) + 1)) by apply Qlt_floor.
  rewrite inject_Z_plus in U. change (inject_Z 1) with 1 in U.
  assert (Q : 360 * (p / 360) == p) by field.
  split; [lra|]. split.
  - intros Lt. assert (E : Qfloor (p / 360) = 0%Z).
    { assert (inject_Z (Qfloor (p / 360)) < inject_Z 1 /\ inject_Z (-1) < inject_Z (Qfloor (p / 360))) as (A & B) by (change (inject_Z 1) with 1; change (inject_Z (-1)) with (-1); lra).
      rewrite <- Zlt_Qlt in A, B. lia. }
    rewrite E. change (inject_Z 0) with 0. lra.
  - intros E. assert (E2 : p / 360 == 1) by (rewrite E; reflexivity). rewrite E2. rewrite E. reflexivity.
Qed.
Example C134_nonvacuous : let ops := [AddSecondary "a" 50000000 90; AddSecondary "b" 25000000 360] in
  let o := xil_run 100000000 100000000 (ops ++ [Compute]) pll_new in
  In ("a"%string, (50000000, 90)) (pl_os o) /\ In ("b"%string, (25000000, 360)) (pl_os o) /\ Qred (x_out_phase 90) = 90 /\ Qred (x_out_phase 360) = 0.
Proof.
  cbv zeta. assert (z_in 19000000 100000000 800000000) by (split; lia).
  destruct (C68_xilinx_freeze 100000000 100000000 [AddSecondary "a" 50000000 90; AddSecondary "b" 25000000 360] [] H) as (_ & E & _). rewrite E.
  split; [left; lazy; reflexivity|]. split; [right; left; lazy; reflexivity|]. split; reflexivity.
Qed.
Print Assumptions C134_phase.
