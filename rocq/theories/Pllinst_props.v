(** C149: the clocks a PLL really makes. *)
From Coq Require Import Lqa.
From Verif Require Import Pll_model Float_proofs Pll_props Pllinst_model.
Open Scope Q_scope.

(** ** Specification: the primitives, after Lattice TN-02200 and Xilinx UG472.  The arguments
    name, for each output, the domain it clocks; its frequency follows from the dividers. *)
Definition num (k : kwargs) (key : string) : option Q := match kw_get k key with Some (VNum q) => Some q | _ => None end.
Definition clk (k : kwargs) (key : string) : option string := match kw_get k key with Some (VClk d) => Some d | _ => None end.
(** EHXPLLL: the feedback divider is fed from CLKOP, through the clock net of its domain or
    inside the PLL. *)
Definition ehxplll_loop (k : kwargs) : Prop :=
  kw_get k "p_FEEDBK_PATH" = Some (VStr "CLKOP") /\ kw_get k "i_CLKFB" = kw_get k "o_CLKOP" \/
  kw_get k "p_FEEDBK_PATH" = Some (VStr "INT_OP") /\ kw_get k "i_CLKFB" = kw_get k "o_CLKINTFB" /\ kw_get k "i_CLKFB" <> None.
Definition ehxplll_vco (f_in : Q) (k : kwargs) : option Q :=
  match num k "p_CLKI_DIV", num k "p_CLKFB_DIV", num k "p_CLKOP_DIV" with
  | Some i, Some fb, Some op => Some (f_in / i * fb * op)
  | _, _, _ => None
  end.
Definition ehxplll_clock (f_in : Q) (k : kwargs) (port : string) : option (string * Q) :=
  match kw_get k ("p_" ++ port ++ "_ENABLE")%string, ehxplll_vco f_in k, num k ("p_" ++ port ++ "_DIV")%string, clk k ("o_" ++ port)%string with
  | Some (VStr e), Some vco, Some div, Some d => if String.eqb e "ENABLED" then Some (d, vco / div) else None
  | _, _, _, _ => None
  end.
(** PLLE2_BASE; a fractional divider, which it does not take (C69), is read as the number it is. *)
Definition plle2_loop (k : kwargs) : Prop := kw_get k "i_CLKFBIN" = kw_get k "o_CLKFBOUT" /\ kw_get k "i_CLKFBIN" <> None.
Definition plle2_clock (f_in : Q) (k : kwargs) (port : string) : option (string * Q) :=
  match num k "p_DIVCLK_DIVIDE", num k "p_CLKFBOUT_MULT", num k ("p_" ++ port ++ "_DIVIDE")%string, clk k ("o_" ++ port)%string with
  | Some dv, Some mul, Some div, Some d => Some (d, f_in * mul / dv / div)
  | _, _, _, _ => None
  end.
Definition ecp5_ports : list string := ["CLKOS"; "CLKOS2"; "CLKOS3"]%string.
Definition xil_ports : list string := ["CLKOUT1"; "CLKOUT2"; "CLKOUT3"; "CLKOUT4"; "CLKOUT5"]%string.

Ltac each_shape3 os OS := destruct OS as [OS|[OS|[OS|OS]]]; destruct os as [|[? [? ?]] [|[? [? ?]] [|[? [? ?]] [|? ?]]]]; try discriminate OS.
Ltac each_shape5 os OS := destruct OS as [OS|[OS|[OS|[OS|[OS|OS]]]]]; destruct os as [|[? [? ?]] [|[? [? ?]] [|[? [? ?]] [|[? [? ?]] [|[? [? ?]] [|? ?]]]]]]; try discriminate OS.
(** C149, ECP5: after any calls, the primary domain gets the clock that is closest to the
    requested one, each accepted secondary output the next port with its own divider and the
    asked delay in VCO cycles, and the other ports are off. *)
Theorem C149_ecp5 : forall i_domain i_freq o_domain o_freq rl fbi ops,
  z_in 8000000 i_freq 400000000 -> z_in 10000000 o_freq 400000000 ->
  let o := ecp5_run i_freq o_freq (ops ++ [Compute])%list pll_new in
  exists v, pl_set o = Some v /\
  let k := ecp5_kwargs i_domain i_freq o_domain rl fbi v (pl_os o) in
  ehxplll_loop k /\ clk k "i_CLKI" = Some i_domain /\
  kw_get k "p_PLLRST_ENA" = Some (VStr (if rl then "DISABLED" else "ENABLED")) /\ (rl = false -> kw_get k "i_RST" = Some (VRst i_domain)) /\
  (exists q, ehxplll_clock (inject_Z i_freq) k "CLKOP" = Some (o_domain, q) /\
     forall w, ecp5_legal i_freq w -> Qabs (q - inject_Z o_freq) <= ecp5_out_error i_freq o_freq w) /\
  (forall n d f p, nth_error (pl_os o) n = Some (d, (f, p)) ->
     exists port q, nth_error ecp5_ports n = Some port /\ ehxplll_clock (inject_Z i_freq) k port = Some (d, q) /\
       f * (1 - 2 ^ (-49)) <= q /\ q < 2 * f * (1 + 2 ^ (-49)) /\
       ((exists m : Z, ecp5_vco i_freq v == inject_Z m * f) -> (e_i_div v | i_freq)%Z -> q == f) /\
       exists vco a b, ehxplll_vco (inject_Z i_freq) k = Some vco /\ num k "p_CLKOP_CPHASE" = Some a /\ num k ("p_" ++ port ++ "_CPHASE")%string = Some b /\
         Qabs (b - a - p / 360 * (vco / f)) <= 1 # 1000000000000) /\
  (forall n port, nth_error ecp5_ports n = Some port -> (length (pl_os o) <= n)%nat ->
     kw_get k ("p_" ++ port ++ "_ENABLE")%string = Some (VStr "DISABLED") /\ ehxplll_clock (inject_Z i_freq) k port = None).
Proof.
  intros i_domain i_freq o_domain o_freq rl fbi ops HI HO o.
  destruct (C66_ecp5_partial i_freq o_freq HI HO) as (v & HV & HL & HM & _).
  destruct (C68_ecp5_freeze i_freq o_freq ops [] HI) as (S1 & S2 & _). fold o in S1, S2.
  destruct (C68_outputs i_freq o_freq ops) as ((L & _ & R) & _). cbv zeta in L, R. rewrite <- S2 in L, R.
  exists v. split; [congruence|]. generalize dependent (pl_os o). intros os S2 L R. clear o S1 S2. cbv zeta.
  assert (C : forall d f p, In (d, (f, p)) os -> 
     (f * (1 - 2 ^ (-49)) <= ecp5_os_actual i_freq v f /\ ecp5_os_actual i_freq v f < 2 * f * (1 + 2 ^ (-49)) /\
     ((exists m : Z, ecp5_vco i_freq v == inject_Z m * f) -> (e_i_div v | i_freq)%Z -> ecp5_os_actual i_freq v f == f)) /\
     Qabs (e_os_cphase i_freq v f p - e_op_cphase i_freq v - p / 360 * (ecp5_vco i_freq v / f)) <= 1 # 1000000000000).
  { intros d f p H. destruct (R d f p H) as [R1 R2]. split; [apply (C97_bounds_partial i_freq o_freq v f HI HV R1)|apply (C98_phase_partial i_freq o_freq v f p HI HV R1 R2)]. }
  assert (ND : ~ inject_Z (e_op_div v) == 0).
  { destruct HL as (_ & _ & HL & _). unfold z_in in HL. unfold Qeq. cbn. lia. }
  assert (OS : (length os = 0 \/ length os = 1 \/ length os = 2 \/ length os = 3)%nat) by lia.
  split; [destruct fbi; [right|left]; each_shape3 os OS; destruct rl; repeat split; discriminate|].
  split; [each_shape3 os OS; destruct fbi, rl; reflexivity|].
  split; [each_shape3 os OS; destruct fbi, rl; reflexivity|].
  split; [intros ->; each_shape3 os OS; destruct fbi; reflexivity|].
  split.
  { exists (ecp5_vco i_freq v / inject_Z (e_op_div v)). split.
    - each_shape3 os OS; destruct fbi, rl; reflexivity.
    - intros w W. specialize (HM w W). unfold ecp5_out_error in HM at 1. unfold ecp5_vco. 
      setoid_replace (ecp5_out i_freq v * inject_Z (e_op_div v) / inject_Z (e_op_div v)) with (ecp5_out i_freq v) by (field; exact ND). exact HM. }
  split.
  - intros n d f p H. pose proof (nth_error_In _ _ H) as HIn. destruct (C d f p HIn) as [(C1 & C2 & C3) C4]. clear C HIn R.
    assert (HN : (n < 3)%nat) by (assert (n < length os)%nat by (apply nth_error_Some; congruence); lia).
    assert (K : exists port, nth_error ecp5_ports n = Some port /\
       ehxplll_clock (inject_Z i_freq) (ecp5_kwargs i_domain i_freq o_domain rl fbi v os) port = Some (d, ecp5_os_actual i_freq v f) /\
       ehxplll_vco (inject_Z i_freq) (ecp5_kwargs i_domain i_freq o_domain rl fbi v os) = Some (ecp5_vco i_freq v) /\
       num (ecp5_kwargs i_domain i_freq o_domain rl fbi v os) "p_CLKOP_CPHASE" = Some (e_op_cphase i_freq v) /\
       num (ecp5_kwargs i_domain i_freq o_domain rl fbi v os) ("p_" ++ port ++ "_CPHASE")%string = Some (e_os_cphase i_freq v f p)).
    { clear C1 C2 C3 C4. destruct n as [|[|[|n]]]; [..|lia]; eexists; (split; [reflexivity|]);
      each_shape3 os OS; try discriminate H; cbn [nth_error] in H; injection H as -> -> ->; destruct fbi, rl; repeat split. }
    destruct K as (port & K1 & K2 & K3 & K4 & K5). exists port, (ecp5_os_actual i_freq v f). repeat split; auto.
    exists (ecp5_vco i_freq v), (e_op_cphase i_freq v), (e_os_cphase i_freq v f p). auto.
  - intros n port H LE.
    destruct n as [|[|[|n]]]; cbn in H; try discriminate; [injection H as <-..|destruct n; discriminate];
      each_shape3 os OS; cbn [length] in LE; try lia; destruct fbi, rl; split; reflexivity.
Qed.

Lemma div_close vco d f : 0 < f -> 0 < vco -> 1 <= d -> Qabs (d - vco / f) <= vco / f * 2 ^ (-50) -> Qabs (vco / d - f) <= f * 2 ^ (-49).
Proof.
  intros F V D H. set (x := vco / f) in *. assert (X : 0 < x) by (apply Qlt_shift_div_l; lra).
  assert (E : vco == x * f) by (unfold x; field; lra). set (e := 2 ^ (-50)) in *. assert (E2 : 2 ^ (-49) == 2 * e) by reflexivity. assert (EP : 0 < e /\ e < 1 # 4) by (split; reflexivity).
  clearbody e x. rewrite E2, E. clear E E2 V. apply Qabs_Qle_condition in H. destruct H as [H1 H2].
  assert (P : f * (x * f / d - f) == f * f * ((x - d) / d)) by (field; lra).
  setoid_replace (x * f / d - f) with (f * ((x - d) / d)) by (field; lra).
  assert (B : (x - d) / d <= 2 * e /\ - (2 * e) <= (x - d) / d).
  { split; [apply Qle_shift_div_r; [lra|]|apply Qle_shift_div_l; [lra|]].
    - assert (x <= 2 * d) by nra. nra.
    - assert (x <= 2 * d) by nra. nra. }
  apply Qabs_Qle_condition. split; nra.
Qed.

(** C149, 7 series; the primary output is at most 2 uHz off the closest clock there is (C67). *)
Theorem C149_xilinx : forall i_domain i_freq o_domain o_freq rl ops,
  z_in 19000000 i_freq 800000000 -> z_in 6250000 o_freq 800000000 ->
  let o := xil_run i_freq o_freq (ops ++ [Compute])%list pll_new in
  exists v, pl_set o = Some v /\
  let k := xil_kwargs i_domain i_freq o_domain rl v (pl_os o) in
  plle2_loop k /\ clk k "i_CLKIN1" = Some i_domain /\ (rl = false -> kw_get k "i_RST" = Some (VRst i_domain)) /\
  (exists q, plle2_clock (inject_Z i_freq) k "CLKOUT0" = Some (o_domain, q) /\ num k "p_CLKOUT0_PHASE" = Some 0 /\
     (forall w, xil_legal i_freq w -> Qabs (q - inject_Z o_freq) <= xil_out_error i_freq o_freq w + (2 # 1000000)) /\
     (forall w, xil_legal i_freq w -> xil_out i_freq w == inject_Z o_freq -> q == inject_Z o_freq)) /\
  (forall n d f p, nth_error (pl_os o) n = Some (d, (f, p)) ->
     exists port q ph, nth_error xil_ports n = Some port /\ plle2_clock (inject_Z i_freq) k port = Some (d, q) /\
       Qabs (q - f) <= f * 2 ^ (-49) /\
       num k ("p_" ++ port ++ "_PHASE")%string = Some ph /\ (p < 360 -> ph == p) /\ (p == 360 -> ph == 0)) /\
  (forall n port, nth_error xil_ports n = Some port -> (length (pl_os o) <= n)%nat -> plle2_clock (inject_Z i_freq) k port = None).
Proof.
  intros i_domain i_freq o_domain o_freq rl ops HI HO o.
  destruct (C67_xilinx_partial i_freq o_freq HI HO) as (v & HV & HL & HM & HE).
  destruct (C68_xilinx_freeze i_freq o_freq ops [] HI) as (S1 & S2 & _). fold o in S1, S2.
  destruct (C68_outputs i_freq o_freq ops) as (_ & L & _ & R). cbv zeta in L, R. rewrite <- S2 in L, R.
  exists v. split; [congruence|]. generalize dependent (pl_os o). intros os S2 L R. clear o S1 S2. cbv zeta.
  assert (OS : (length os = 0 \/ length os = 1 \/ length os = 2 \/ length os = 3 \/ length os = 4 \/ length os = 5)%nat) by lia.
  split; [each_shape5 os OS; destruct rl; repeat split; discriminate|].
  split; [each_shape5 os OS; destruct rl; reflexivity|].
  split; [intros ->; each_shape5 os OS; reflexivity|].
  split.
  { exists (xil_out i_freq v). split; [|split; [|split]].
    - each_shape5 os OS; destruct rl; reflexivity.
    - each_shape5 os OS; destruct rl; reflexivity.
    - exact HM.
    - intros w W E. exact (proj1 (HE w W E)). }
  split.
  - intros n d f p H. destruct (R d f p (nth_error_In _ _ H)) as [R1 R2]. 
    destruct (C69_xilinx_partial i_freq o_freq v f HI HV R1) as (_ & _ & _ & Q1 & Q2 & _). clear R.
    assert (HN : (n < 5)%nat) by (assert (n < length os)%nat by (apply nth_error_Some; congruence); lia).
    assert (K : exists port, nth_error xil_ports n = Some port /\
       plle2_clock (inject_Z i_freq) (xil_kwargs i_domain i_freq o_domain rl v os) port = Some (d, xil_vco i_freq v / x_out_div i_freq v f) /\
       num (xil_kwargs i_domain i_freq o_domain rl v os) ("p_" ++ port ++ "_PHASE")%string = Some (x_out_phase p)).
    { clear Q1 Q2 R1 R2. destruct n as [|[|[|[|[|n]]]]]; [..|lia]; eexists; (split; [reflexivity|]);
      each_shape5 os OS; try discriminate H; cbn [nth_error] in H; injection H as -> -> ->; destruct rl; split; reflexivity. }
    destruct K as (port & K1 & K2 & K3). exists port, (xil_vco i_freq v / x_out_div i_freq v f), (x_out_phase p).
    split; [exact K1|]. split; [exact K2|]. split; [|split; [exact K3|]].
    + unfold q_in in *. destruct HL as (_ & _ & _ & HL & _). unfold q_in in HL. apply div_close; lra.
    + unfold x_out_phase, q_in in *. split.
      * intros P. assert (E : Qfloor (p / 360) = 0%Z).
        { assert (A : 0 <= p / 360 /\ p / 360 < 1) by (split; [apply Qle_shift_div_l; lra|apply Qlt_shift_div_r; lra]).
          pose proof (Qfloor_le (p / 360)) as B. pose proof (Qlt_floor (p / 360)) as C. 
          assert (inject_Z (Qfloor (p / 360)) < inject_Z 1) by (change (inject_Z 1) with 1; lra). rewrite <- Zlt_Qlt in H0.
          assert (inject_Z 0 < inject_Z (Qfloor (p / 360) + 1)) by (change (inject_Z 0) with 0; lra). rewrite <- Zlt_Qlt in H1. lia. }
        rewrite E. change (inject_Z 0) with 0. lra.
      * intros P. assert (E : Qfloor (p / 360) = 1%Z) by (transitivity (Qfloor 1); [apply Qfloor_comp; setoid_replace p with 360 by exact P; reflexivity|reflexivity]).
        rewrite E. change (inject_Z 1) with 1. lra.
  - intros n port H LE.
    destruct n as [|[|[|[|[|n]]]]]; cbn in H; try discriminate; [injection H as <-..|destruct n; discriminate];
      each_shape5 os OS; cbn [length] in LE; try lia; destruct rl; reflexivity.
Qed.

(** Different domains get different ports, save that a secondary output may take the domain of
    the primary one (C99). *)
Theorem C149_one_port : forall i_domain i_freq o_domain o_freq rl fbi ops v,
  z_in 8000000 i_freq 400000000 ->
  let o := ecp5_run i_freq o_freq (ops ++ [Compute])%list pll_new in
  let k := ecp5_kwargs i_domain i_freq o_domain rl fbi v (pl_os o) in
  forall p1 p2 d q1 q2, In p1 ecp5_ports -> In p2 ecp5_ports ->
    ehxplll_clock (inject_Z i_freq) k p1 = Some (d, q1) -> ehxplll_clock (inject_Z i_freq) k p2 = Some (d, q2) -> p1 = p2.
Proof.
  intros i_domain i_freq o_domain o_freq rl fbi ops v HI o.
  destruct (C68_ecp5_freeze i_freq o_freq ops [] HI) as (_ & S2 & _). fold o in S2.
  destruct (C68_outputs i_freq o_freq ops) as ((L & N & _) & _). cbv zeta in L, N. rewrite <- S2 in L, N.
  generalize dependent (pl_os o). intros os S2 L N. clear o S2. cbv zeta.
  assert (OS : (length os = 0 \/ length os = 1 \/ length os = 2 \/ length os = 3)%nat) by lia.
  assert (K : forall p d q, In p ecp5_ports -> ehxplll_clock (inject_Z i_freq) (ecp5_kwargs i_domain i_freq o_domain rl fbi v os) p = Some (d, q) ->
     exists n, nth_error ecp5_ports n = Some p /\ nth_error (map fst os) n = Some d).
  { intros p d q I H. assert (F : clk (ecp5_kwargs i_domain i_freq o_domain rl fbi v os) ("o_" ++ p)%string = Some d).
    { unfold ehxplll_clock in H. repeat match type of H with match ?x with _ => _ end = _ => destruct x; try discriminate H end. congruence. }
    clear H. destruct I as [<-|[<-|[<-|[]]]]; [exists 0%nat|exists 1%nat|exists 2%nat]; (split; [reflexivity|]); revert F;
      each_shape3 os OS; destruct fbi, rl; intros F; try discriminate F; exact F. }
  intros p1 p2 d q1 q2 I1 I2 H1 H2. destruct (K _ _ _ I1 H1) as (n1 & A1 & B1). destruct (K _ _ _ I2 H2) as (n2 & A2 & B2).
  assert (n1 = n2) by (eapply (proj1 (NoDup_nth_error _) N); [apply nth_error_Some; congruence|congruence]). congruence.
Qed.

Theorem C149_one_port_xilinx : forall i_domain i_freq o_domain o_freq rl ops v,
  z_in 19000000 i_freq 800000000 ->
  let o := xil_run i_freq o_freq (ops ++ [Compute])%list pll_new in
  let k := xil_kwargs i_domain i_freq o_domain rl v (pl_os o) in
  forall p1 p2 d q1 q2, In p1 xil_ports -> In p2 xil_ports ->
    plle2_clock (inject_Z i_freq) k p1 = Some (d, q1) -> plle2_clock (inject_Z i_freq) k p2 = Some (d, q2) -> p1 = p2.
Proof.
  intros i_domain i_freq o_domain o_freq rl ops v HI o.
  destruct (C68_xilinx_freeze i_freq o_freq ops [] HI) as (_ & S2 & _). fold o in S2.
  destruct (C68_outputs i_freq o_freq ops) as (_ & L & N & _). cbv zeta in L, N. rewrite <- S2 in L, N.
  generalize dependent (pl_os o). intros os S2 L N. clear o S2. cbv zeta.
  assert (OS : (length os = 0 \/ length os = 1 \/ length os = 2 \/ length os = 3 \/ length os = 4 \/ length os = 5)%nat) by lia.
  assert (K : forall p d q, In p xil_ports -> plle2_clock (inject_Z i_freq) (xil_kwargs i_domain i_freq o_domain rl v os) p = Some (d, q) ->
     exists n, nth_error xil_ports n = Some p /\ nth_error (map fst os) n = Some d).
  { intros p d q I H. assert (F : clk (xil_kwargs i_domain i_freq o_domain rl v os) ("o_" ++ p)%string = Some d).
    { unfold plle2_clock in H. repeat match type of H with match ?x with _ => _ end = _ => destruct x; try discriminate H end. congruence. }
    clear H. destruct I as [<-|[<-|[<-|[<-|[<-|[]]]]]]; [exists 0%nat|exists 1%nat|exists 2%nat|exists 3%nat|exists 4%nat]; (split; [reflexivity|]); revert F;
      each_shape5 os OS; destruct rl; intros F; try discriminate F; exact F. }
  intros p1 p2 d q1 q2 I1 I2 H1 H2. destruct (K _ _ _ I1 H1) as (n1 & A1 & B1). destruct (K _ _ _ I2 H2) as (n2 & A2 & B2).
  assert (n1 = n2) by (eapply (proj1 (NoDup_nth_error _) N); [apply nth_error_Some; congruence|congruence]). congruence.
Qed.

(** 100 MHz in and out, with a 50 MHz output delayed by a quarter period. *)
Example C149_nonvacuous : z_in 8000000 100000000 400000000 /\ z_in 10000000 100000000 400000000 /\ z_in 19000000 100000000 800000000 /\
  let ops := [AddSecondary "half" 50000000 90] in
  pl_os (ecp5_run 100000000 100000000 (ops ++ [Compute])%list pll_new) = [("half"%string, (50000000, 90))] /\
  pl_os (xil_run 100000000 100000000 (ops ++ [Compute])%list pll_new) = [("half"%string, (50000000, 90))] /\
  (exists v, pl_set (ecp5_run 100000000 100000000 (ops ++ [Compute])%list pll_new) = Some v /\ ecp5_vco 100000000 v == inject_Z 12 * 50000000).
Proof.
  split; [split; discriminate|]. split; [split; discriminate|]. split; [split; discriminate|]. cbv zeta. split; [|split].
  - destruct (C68_ecp5_freeze 100000000 100000000 [AddSecondary "half" 50000000 90] []) as (_ & E & _); [split; discriminate|]. etransitivity; [exact E|reflexivity].
  - destruct (C68_xilinx_freeze 100000000 100000000 [AddSecondary "half" 50000000 90] []) as (_ & E & _); [split; discriminate|]. etransitivity; [exact E|reflexivity].
  - destruct C97_nonvacuous as (_ & _ & v & A & B). exists v. split; [|exact B].
    destruct (C68_ecp5_freeze 100000000 100000000 [AddSecondary "half" 50000000 90] []) as (E & _); [split; discriminate|]. etransitivity; [exact E|exact A].
Qed.

Print Assumptions C149_ecp5.
Print Assumptions C149_xilinx.
Print Assumptions C149_one_port.
Print Assumptions C149_one_port_xilinx.
