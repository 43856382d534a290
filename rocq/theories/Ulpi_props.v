(** ULPI: C62, C63, C64, C65, C78, C79, C94. *)
From Verif Require Import Stream I2cstream_proofs Ulpi_model.

(** ** C78: the transceiver *)
Definition no_phy : phy := Phy false false 0.
Definition sink_xfer (o : xc_obs) : list (beat Z) := xfer (xo_sink o) (xo_sready o).
Definition last_of {A} (d : A) (t : list A) : A := fold_left (fun _ o => o) t d.
Lemma last_of_snoc {A} (d : A) t o : last_of d (t ++ [o]) = o.
Proof. unfold last_of. now rewrite fold_left_app. Qed.

Lemma list_snoc_dec {A} (t : list A) : t = [] \/ exists t0 x, t = t0 ++ [x].
Proof. induction t as [|x t _] using rev_ind; eauto. Qed.
Lemma last_of_some {A} (t : list A) q : last_of None (map Some t) = Some q -> exists t0, t = t0 ++ [q].
Proof.
  destruct (list_snoc_dec t) as [->|(t0 & x & ->)]; [discriminate|]. rewrite map_app. cbn [map]. rewrite last_of_snoc.
  intros E. injection E as <-. eauto.
Qed.

(** What the bus side does in a cycle [o] coming after the cycles [t1]. *)
Definition before (t1 : list xc_obs) : option xc_obs := last_of None (map Some t1).
Definition bus_ok (t1 : list xc_obs) (o : xc_obs) : Prop :=
  let dir_before := match before t1 with Some q => ph_dir (xo_phy q) | None => false end in
  (* stp right after the last byte of a packet was taken, and then only *)
  (xo_stp o = true <-> exists q b, before t1 = Some q /\ sink_xfer q = [b] /\ blast b = true) /\
  (* the link drives the bus only when the PHY does not, nor did in the cycle before *)
  (xo_oe o = true <-> ph_dir (xo_phy o) = false /\ dir_before = false) /\
  (* a byte is taken when the PHY says next while the link drives it, not in the stp cycle *)
  (xo_sready o = true <-> xo_oe o = true /\ ph_nxt (xo_phy o) = true /\ xo_stp o = false) /\
  (forall b, sink_xfer o = [b] -> xo_data_o o = bdata b) /\
  (* idle (0) is driven when there is nothing to send *)
  (cvalid (xo_sink o) = false -> xo_data_o o = 0) /\
  (* a byte is received exactly when the PHY owned the bus in the two cycles before;
     it is the one of the second, a command iff nxt was low *)
  (rx_valid (xo_src o) = true <-> exists t0 q1 q2, t1 = t0 ++ [q1; q2] /\ ph_dir (xo_phy q1) = true /\ ph_dir (xo_phy q2) = true) /\
  (forall t0 q2, rx_valid (xo_src o) = true -> t1 = t0 ++ [q2] ->
     rx_data (xo_src o) = ph_data (xo_phy q2) /\ rx_cmd (xo_src o) = negb (ph_nxt (xo_phy q2))).

Definition xc_holds (t : list xc_obs) (s : xc_state) : Prop :=
  x_dir_r s = match before t with Some q => ph_dir (xo_phy q) | None => false end /\
  (x_stp s = true <-> exists q b, before t = Some q /\ sink_xfer q = [b] /\ blast b = true) /\
  (rx_valid (x_src s) = true <-> exists t0 q1 q2, t = t0 ++ [q1; q2] /\ ph_dir (xo_phy q1) = true /\ ph_dir (xo_phy q2) = true) /\
  (forall t0 q2, rx_valid (x_src s) = true -> t = t0 ++ [q2] ->
       rx_data (x_src s) = ph_data (xo_phy q2) /\ rx_cmd (x_src s) = negb (ph_nxt (xo_phy q2))).
Lemma xc_inv ins : xc_holds (trace transceiver ins) (state transceiver ins).
Proof.
  revert ins. apply (run_inv transceiver xc_holds).
  - cbn. split; [reflexivity|]. split; [split; [discriminate|intros (q & b & E & _); discriminate]|]. split; [|discriminate].
    split; [discriminate|]. intros (t0 & q1 & q2 & E & _). destruct t0; discriminate.
  - intros t s [p k] (H1 & _). unfold xc_holds, before. rewrite map_app. cbn [map]. rewrite last_of_snoc. cbn [cnext transceiver fst snd cout].
    split; [reflexivity|]. split; [|split].
    + unfold xc_next. cbn [x_stp]. unfold sink_xfer, xc_out, xc_ready, xfer. cbn [xo_sink xo_sready].
      destruct (x_stp s) eqn:Es; [split; [discriminate|]|split].
      * intros (q & b & E & H & _). injection E as <-. cbn [xo_sink xo_sready] in H. destruct (cvalid k), (xc_oe s p), (ph_nxt p); discriminate.
      * intros H. apply andb_prop in H. destruct H as [H H2]. apply andb_prop in H. destruct H as [H H3]. apply andb_prop in H. destruct H as [H H4].
        eexists _, (cbeat k). split; [reflexivity|]. cbn [xo_sink xo_sready]. rewrite H, H4, H2. cbn. auto.
      * intros (q & b & E & H & Hb). injection E as <-. cbn [xo_sink xo_sready negb] in H. rewrite andb_true_r in H.
        destruct (cvalid k); [|discriminate]. destruct (xc_oe s p); [|discriminate]. destruct (ph_nxt p); [|discriminate]. cbn [andb] in H. injection H as <-. now rewrite Hb.
    + unfold xc_next. cbn [x_src]. split.
      * destruct (x_dir_r s && ph_dir p) eqn:E; [|discriminate]. intros _. apply andb_prop in E. destruct E as [E1 E2].
        rewrite H1 in E1. destruct (before t) as [q|] eqn:Eb; [|discriminate]. apply last_of_some in Eb. destruct Eb as [t0 ->].
        exists t0, q. eexists. split; [now rewrite <- app_assoc|]. auto.
      * intros (t0 & q1 & q2 & E & D1 & D2). change [q1; q2] with ([q1] ++ [q2]) in E. rewrite app_assoc in E. apply app_inj_tail in E. destruct E as [-> <-].
        unfold before in H1. rewrite map_app in H1. cbn [map] in H1. rewrite last_of_snoc in H1. cbn [xc_out xo_phy] in D2. now rewrite H1, D1, D2.
    + intros t0 q2 Hv E. apply app_inj_tail in E. destruct E as [<- <-]. unfold xc_next in *. cbn [x_src] in *.
      destruct (x_dir_r s && ph_dir p); [|discriminate]. auto.
Qed.

Theorem C78_bus : forall ins t1 o t2, trace transceiver ins = t1 ++ o :: t2 -> bus_ok t1 o.
Proof.
  intros ins t1 o t2 E. apply trace_one in E. destruct E as (a & [p k] & b & -> & <- & ->).
  destruct (xc_inv a) as (H1 & H2 & H3 & H4).
  set (s := state transceiver a) in *. set (t := trace transceiver a) in *. clearbody s t.
  unfold bus_ok. cbn [cout transceiver fst snd]. cbn [xc_out xo_stp xo_sready xo_oe xo_phy xo_data_o xo_sink xo_src].
  rewrite <- H1. split; [exact H2|]. split; [|split; [|split; [|split; [|split; [exact H3|exact H4]]]]].
  - unfold xc_oe. destruct (x_dir_r s), (ph_dir p); cbn; intuition discriminate.
  - unfold xc_ready. destruct (xc_oe s p), (x_stp s), (ph_nxt p); cbn; intuition discriminate.
  - intros b' Hx. unfold sink_xfer, xfer in Hx. cbn [xc_out xo_sink xo_sready] in Hx. unfold xc_data_o, xc_ready in *.
    destruct (cvalid k), (xc_oe s p), (x_stp s), (ph_nxt p); try discriminate Hx. injection Hx as <-. reflexivity.
  - intros Hv. unfold xc_data_o. now rewrite Hv, andb_false_r.
Qed.

Example C78_nonvacuous :
  let k := Chan true (Beat false true 7) in let none := Chan false (Beat false false 0) in
  let t := trace transceiver [(Phy false false 0, k); (Phy false true 0, k); (no_phy, none); (Phy true true 0, none); (Phy true true 5, none); (no_phy, none)] in
  map xo_stp t = [false; false; true; false; false; false] /\ map xo_oe t = [true; true; true; false; false; false] /\
  map (fun o => rx_valid (xo_src o)) t = [false; false; false; false; false; true] /\ flat_map sink_xfer t = [Beat false true 7].
Proof. vm_compute. repeat split. Qed.

(** ** C62: the splitter *)
(** The events: data bytes, and commands that close the packet (RXACTIVE and the host
    disconnect bit both 0) or not. *)
Inductive event := EData (d : Z) | EClose | EOther.
Definition event_of (e : rxev) : list event :=
  if rx_valid e then [if negb (rx_cmd e) then EData (rx_data e) else if Z.land (rx_data e) 48 =? 0 then EClose else EOther] else [].
(** Closed packets and the bytes of the open one. *)
Fixpoint packets (cur : list Z) (es : list event) : list (list Z) * list Z :=
  match es with
  | [] => ([], cur)
  | EData d :: r => packets (cur ++ [d]) r
  | EOther :: r => packets cur r
  | EClose :: r => let (ps, o) := packets [] r in (cur :: ps, o)
  end.
Fixpoint as_beats (p : list Z) : list (beat Z) :=
  match p with [] => [] | [d] => [Beat false true d] | d :: r => Beat false false d :: as_beats r end.
Definition rx_out (t : list (rxev * chan Z)) : list (beat Z) := flat_map (fun o => if cvalid (snd o) then [cbeat (snd o)] else []) t.

Lemma packets_snoc es e cur : packets cur (es ++ [e]) =
  match e with
  | EData d => (fst (packets cur es), snd (packets cur es) ++ [d])
  | EOther => packets cur es
  | EClose => (fst (packets cur es) ++ [snd (packets cur es)], [])
  end.
Proof.
  revert cur. induction es as [|x es IH]; intros cur; [destruct e; reflexivity|].
  destruct x; cbn [app packets]; [apply IH| |apply IH]. rewrite IH. destruct (packets [] es) as [ps o]. destruct e; reflexivity.
Qed.
Lemma as_beats_snoc p d : as_beats (p ++ [d]) = map (Beat false false) p ++ [Beat false true d].
Proof.
  induction p as [|x p IH]; [reflexivity|]. cbn [app map]. rewrite <- IH. destruct p; reflexivity.
Qed.

Definition sp_pend (s : sp_state) : list (beat Z) := if cvalid (p_src s) then [cbeat (p_src s)] else [].
Definition sp_holds (es : list event) (out : list (beat Z)) (s : sp_state) : Prop :=
  exists body, snd (packets [] es) = body ++ (match p_buf s with Some d => [d] | None => [] end) /\
    (p_buf s = None -> body = []) /\
    out ++ sp_pend s = flat_map as_beats (fst (packets [] es)) ++ map (Beat false false) body.
Lemma sp_step es out s e : sp_holds es out s -> sp_holds (es ++ event_of e) (out ++ sp_pend s) (sp_next s e).
Proof.
  intros (body & H1 & H2 & H3). unfold sp_holds. rewrite H3. unfold sp_next, event_of.
  destruct (rx_valid e).
  2: { rewrite app_nil_r. exists body. cbn [p_buf sp_pend p_src sp_idle cvalid]. rewrite app_nil_r. auto. }
  rewrite packets_snoc. destruct (negb (rx_cmd e)).
  - cbn [fst snd p_buf]. exists (body ++ match p_buf s with Some d => [d] | None => [] end). rewrite H1. split; [reflexivity|]. split; [discriminate|].
    unfold sp_pend. destruct (p_buf s) as [d|]; cbn [p_src cvalid cbeat sp_idle].
    + rewrite map_app, app_assoc. reflexivity.
    + now rewrite !app_nil_r.
  - destruct (Z.land (rx_data e) 48 =? 0).
    + cbn [fst snd]. unfold sp_pend. destruct (p_buf s) as [d|]; exists []; cbn [p_buf p_src cvalid cbeat sp_idle map app]; (split; [reflexivity|]); (split; [reflexivity|]).
      * rewrite flat_map_app. cbn [flat_map]. rewrite H1, as_beats_snoc, !app_nil_r, <- app_assoc. reflexivity.
      * rewrite flat_map_app. cbn [flat_map]. rewrite H1, (H2 eq_refl). cbn. now rewrite !app_nil_r.
    + exists body. cbn [p_buf sp_pend p_src sp_idle cvalid]. rewrite app_nil_r. auto.
Qed.
Lemma sp_inv ins : sp_holds (flat_map (fun o => event_of (fst o)) (trace splitter ins)) (rx_out (trace splitter ins)) (state splitter ins).
Proof.
  revert ins. apply (run_inv splitter (fun t s => sp_holds (flat_map (fun o => event_of (fst o)) t) (rx_out t) s)).
  - exists []. repeat split.
  - intros t s e H. unfold rx_out. rewrite !flat_map_app. cbn [flat_map]. rewrite !app_nil_r. exact (sp_step _ _ s e H).
Qed.
(** What a state says of the output. *)
Definition rx_stream_ok (es : list event) (out : list (beat Z)) : Prop :=
  let (closed, open) := packets [] es in
  exists next, (length next <= 1)%nat /\
    out ++ next = flat_map as_beats closed ++ map (Beat false false) (removelast open).
Lemma sp_out es out s : sp_holds es out s -> rx_stream_ok es out.
Proof.
  intros (body & H1 & H2 & H3). unfold rx_stream_ok. destruct (packets [] es) as [closed open]. cbn [fst snd] in *.
  exists (sp_pend s). split; [unfold sp_pend; destruct (cvalid _); cbn; lia|]. rewrite H3. do 2 f_equal.
  rewrite H1. destruct (p_buf _); [now rewrite removelast_last|]. rewrite (H2 eq_refl). reflexivity.
Qed.

(** C62: what came out, plus at most the beat shown in the next cycle, is the closed
    packets, each with last on its final byte and only there, followed by the bytes of
    the open packet but its latest, without last. *)
Theorem C62_splitter : forall ins, let t := trace splitter ins in
  rx_stream_ok (flat_map (fun o => event_of (fst o)) t) (rx_out t).
Proof. intros ins t. exact (sp_out _ _ _ (sp_inv ins)). Qed.
Example C62_nonvacuous :
  rx_out (trace splitter [Rx true 16 true; Rx true 165 false; Rx true 1 false; Rx true 17 true; Rx true 2 false; Rx true 0 true; Rx true 0 true; Rx true 9 false; Rx false 0 false; Rx true 0 true; Rx false 0 false])
  = [Beat false false 165; Beat false false 1; Beat false true 2; Beat false true 9].
Proof. vm_compute. reflexivity. Qed.

(** ** C63: the sender *)
(** First bytes of packets become 0x40 + low nibble. *)
Fixpoint tagged (start : bool) (bs : list (beat Z)) : list (Z * bool) :=
  match bs with
  | [] => []
  | b :: r => (if start then 64 + bdata b mod 16 else bdata b, blast b) :: tagged (blast b) r
  end.
Definition plain (bs : list (beat Z)) : list (Z * bool) := map (fun b => (bdata b, blast b)) bs.
Definition at_start (bs : list (beat Z)) : bool := fold_left (fun _ b => blast b) bs true.
Lemma tagged_snoc bs b start : tagged start (bs ++ [b]) =
  tagged start bs ++ [(if fold_left (fun _ b => blast b) bs start then 64 + bdata b mod 16 else bdata b, blast b)].
Proof. revert start. induction bs as [|x bs IH]; intros start; [reflexivity|]. cbn [app tagged fold_left]. now rewrite IH. Qed.

Lemma sender_inv ins : let t := strace sender ins in
  plain (emitted t) = tagged true (accepted t) /\ state (scirc sender) ins = at_start (accepted t).
Proof.
  cbv zeta. unfold strace. revert ins. apply (run_inv (scirc sender) (fun t s => plain (emitted t) = tagged true (accepted t) /\ s = at_start (accepted t))).
  - auto.
  - intros t s [k r] [H1 H2]. rewrite accepted_app, emitted_app, accepted_1, emitted_1.
    cbn [cout cnext scirc fst snd o_sink o_sready o_src o_rready]. unfold xfer.
    cbn [sender src rdy nxt st].
    assert (Hv : cvalid (if s then Chan (cvalid k) (Beat false (blast (cbeat k)) (sender_tag (bdata (cbeat k)))) else k) = cvalid k) by (destruct s; reflexivity).
    rewrite Hv. destruct (cvalid k && r); [|now rewrite !app_nil_r].
    unfold plain in *. rewrite map_app, H1, tagged_snoc. fold (at_start (accepted t)). rewrite <- H2. split.
    + f_equal. cbn [map]. unfold sender_tag. destruct s; cbn [cbeat bdata blast]; [rewrite Z.add_comm|]; reflexivity.
    + unfold at_start. rewrite fold_left_app. reflexivity.
Qed.
Theorem C63_tags : forall ins, let t := strace sender ins in
  plain (emitted t) = tagged true (accepted t).
Proof. intros ins. apply sender_inv. Qed.
(** The stream rule is kept. *)
Theorem C63_stable : forall ins, let t := strace sender ins in stable_sink t -> stable_src t.
Proof.
  intros ins t Hs t1 o o' t2 E Hv Hr. specialize (Hs t1 o o' t2 E). unfold t, strace in E. apply trace_two in E.
  destruct E as (a & [k r] & [k' r'] & b & -> & _ & -> & ->). 
  cbn [scirc cout cnext fst snd o_sink o_sready o_src o_rready sender src rdy nxt st] in *.
  rewrite Hr in *. rewrite andb_false_r.
  assert (Hk : cvalid k = true) by (destruct (state (scirc sender) a); exact Hv). now rewrite (Hs Hk eq_refl).
Qed.
Example C63_nonvacuous :
  plain (emitted (strace sender [(Chan true (Beat false false 195), true); (Chan true (Beat false true 17), true); (Chan true (Beat false true 210), true)]))
  = [(67, false); (17, true); (66, true)].
Proof. vm_compute. reflexivity. Qed.

(** ** C64: power-on reset *)
Lemma por_at n2 n4 ins : 0 <= n2 < 2 ^ 30 -> 0 <= n4 < 2 ^ 30 ->
  let n := Z.of_nat (length ins) in
  state (por n2 n4) ins = if n <=? n2 then Por PorReset n else if n <=? n2 + 1 + n4 then Por PorWait (n - n2 - 1) else Por PorIdle 0.
Proof.
  intros H2 H4. cbv zeta. induction ins as [|i ins IH] using rev_ind; [cbn; destruct (Z.leb_spec 0 n2); [reflexivity|lia]|].
  unfold state in *. rewrite state_from_app, IH, app_length. cbn [length]. replace (Z.of_nat (length ins + 1)) with (Z.of_nat (length ins) + 1) by lia.
  set (n := Z.of_nat (length ins)) in *. cbn [state_from fold_left por cnext]. 
  repeat match goal with |- context [Z.leb ?a ?b] => destruct (Z.leb_spec a b); try lia end; cbn [po_st po_cnt]; unfold tm_next, tm_done; cbn [andb orb];
  repeat match goal with |- context [Z.eqb ?a ?b] => destruct (Z.eqb_spec a b); try lia end; cbn [andb orb]; try (f_equal; try rewrite trunc_small by lia; lia); try reflexivity.
Qed.

(** [n2] = int(2us * f), [n4] = int(4ms * f): in the cycle number n (from 0) the reset
    is high iff n <= n2, and done is high iff n > n2 + n4 + 1. *)
Theorem C64_por : forall n2 n4 ins t1 o t2, 0 <= n2 < 2 ^ 30 -> 0 <= n4 < 2 ^ 30 ->
  trace (por n2 n4) ins = t1 ++ o :: t2 ->
  (poo_rst o = true <-> Z.of_nat (length t1) < n2 + 1) /\
  (poo_done o = true <-> (n2 + 1) + (n4 + 1) <= Z.of_nat (length t1)).
Proof.
  intros n2 n4 ins t1 o t2 H2 H4 E. apply trace_one in E. destruct E as (a & i & b & -> & <- & ->). rewrite trace_length.
  pose proof (por_at n2 n4 a H2 H4) as P. cbv zeta in P. cbn [cout por poo_rst poo_done]. fold (por n2 n4). rewrite P.
  repeat match goal with |- context [Z.leb ?a ?b] => destruct (Z.leb_spec a b) end; cbn [po_st]; split; (split; [intros; try discriminate; lia|intros; try reflexivity; lia]).
Qed.
Example C64_nonvacuous : map poo_rst (trace (por 2 3) (repeat tt 9)) = [true;true;true;false;false;false;false;false;false] /\
  map poo_done (trace (por 2 3) (repeat tt 9)) = [false;false;false;false;false;false;false;true;true].
Proof. vm_compute. auto. Qed.

(** ** C65: the register dumper *)
Definition du_commands (t : list du_obs) : list Z := map bdata (flat_map (fun o => sink_xfer (duo_xc o)) t).
Definition du_outputs (t : list du_obs) : list Z := flat_map (fun o => map bdata (xfer (duo_src o) (duo_rready o))) t.
(** The answer to a command is the first byte received from the PHY after it. *)
Definition answer_step (a : bool * list Z) (o : du_obs) : bool * list Z :=
  let (waiting, got) := a in
  if waiting then if rx_valid (xo_src (duo_xc o)) then (false, got ++ [rx_data (xo_src (duo_xc o))]) else (true, got)
  else (match sink_xfer (duo_xc o) with [] => false | _ => true end, got).
Definition answers (t : list du_obs) : list Z := snd (fold_left answer_step t (false, [])).
Definition addresses (k : nat) : list Z := map (fun a => 192 + Z.of_nat a) (seq 0 k).

Section Dump.
  Context (max_addr : Z) (Hmax : 0 <= max_addr <= 63).
  Definition du_holds (t : list du_obs) (s : du_state) : Prop :=
    let '(w, ans) := fold_left answer_step t (false, []) in
    0 <= du_addr s <= max_addr /\
    match du_fsm s with
    | DuReset => du_commands t = [] /\ du_outputs t = ans /\ w = false /\ ans = [] /\ du_addr s = 0
    | DuCmd => du_commands t = addresses (Z.to_nat (du_addr s)) /\ du_outputs t = ans /\ w = false /\ length ans = Z.to_nat (du_addr s)
    | DuVal => du_commands t = addresses (Z.to_nat (du_addr s + 1)) /\ du_outputs t = ans /\ w = true /\ length ans = Z.to_nat (du_addr s)
    | DuOut => du_commands t = addresses (Z.to_nat (du_addr s + 1)) /\ du_outputs t ++ [du_data s] = ans /\ w = false /\ length ans = Z.to_nat (du_addr s + 1)
    | DuInc => du_commands t = addresses (Z.to_nat (du_addr s + 1)) /\ du_outputs t = ans /\ w = false /\ length ans = Z.to_nat (du_addr s + 1)
    | DuDone => du_addr s = max_addr /\ du_commands t = addresses (Z.to_nat (du_addr s + 1)) /\ du_outputs t = ans /\ w = false /\ length ans = Z.to_nat (du_addr s + 1)
    end.
  Lemma lor_192 a : 0 <= a <= 63 -> Z.lor 192 a = 192 + a.
  Proof.
    intros Ha. rewrite (Z.add_nocarry_lxor 192 a), <- Z.lxor_lor; [reflexivity|..];
    (apply Z.bits_inj'; intros n Hn; rewrite Z.land_spec, Z.bits_0;
     assert (n < 6 \/ 6 <= n) as [X|X] by lia;
     [ replace (Z.testbit 192 n) with false; [reflexivity|]; assert (n = 0 \/ n = 1 \/ n = 2 \/ n = 3 \/ n = 4 \/ n = 5) as D by lia; intuition subst; reflexivity
     | replace (Z.testbit a n) with false; [apply andb_false_r|]; symmetry; rewrite <- (Z.mod_small a (2 ^ 6)) by (cbn; lia); apply Z.mod_pow2_bits_high; lia]).
  Qed.
  Lemma addresses_snoc k : addresses (S k) = addresses k ++ [192 + Z.of_nat k].
  Proof. unfold addresses. rewrite seq_S, map_app. reflexivity. Qed.
  Lemma du_inv ins : du_holds (trace (dump max_addr) ins) (state (dump max_addr) ins).
  Proof.
    revert ins. apply (run_inv (dump max_addr) du_holds).
    - cbn. lia || (split; [lia|repeat split]).
    - intros t s i H. unfold du_holds in *. rewrite fold_left_app. cbn [fold_left].
      destruct (fold_left answer_step t (false, [])) as [w ans]. destruct H as [Ha H].
      set (o := cout (dump max_addr) s i). set (n := cnext (dump max_addr) s i).
      assert (Hc : du_commands (t ++ [o]) = du_commands t ++ map bdata (sink_xfer (duo_xc o))).
      { unfold du_commands. rewrite flat_map_app, map_app. cbn [flat_map]. now rewrite app_nil_r. }
      assert (Ho : du_outputs (t ++ [o]) = du_outputs t ++ map bdata (xfer (duo_src o) (duo_rready o))).
      { unfold du_outputs. rewrite flat_map_app. cbn [flat_map]. now rewrite app_nil_r. }
      rewrite Hc, Ho. clear Hc Ho.
      assert (Hx : sink_xfer (duo_xc o) = match du_fsm s with DuCmd => if xc_ready (du_xc s) (du_phy i) then [Beat false false (Z.lor 192 (du_addr s))] else [] | _ => [] end).
      { unfold o, sink_xfer, xfer. cbn [cout dump duo_xc xc_out xo_sink xo_sready]. unfold du_sink. now destruct (du_fsm s). }
      assert (Hs : xo_src (duo_xc o) = x_src (du_xc s)) by reflexivity.
      assert (He : xfer (duo_src o) (duo_rready o) = match du_fsm s with DuOut => if du_rready i then [Beat false false (du_data s)] else [] | _ => [] end).
      { unfold o, xfer. cbn [cout dump duo_src duo_rready cvalid cbeat]. now destruct (du_fsm s). }
      rewrite Hx, He. unfold answer_step. rewrite Hs, Hx. clearbody o.
      unfold n. cbn [cnext dump du_fsm du_addr du_data]. clear n.
      assert (E1 : Z.to_nat (du_addr s + 1) = S (Z.to_nat (du_addr s))) by lia.
      destruct (du_fsm s).
      + destruct H as (C & O & -> & -> & A). rewrite C, O. cbn [map app]. split; [lia|]. destruct (du_por_done i); rewrite A; auto.
      + destruct H as (C & O & -> & L). rewrite O. cbn [map app]. rewrite app_nil_r. split; [lia|].
        destruct (xc_ready _ _); cbn [map].
        * rewrite E1, addresses_snoc, C, Z2Nat.id, lor_192 by lia. auto.
        * rewrite app_nil_r. auto.
      + destruct H as (C & O & -> & L). rewrite C, O. cbn [map app]. rewrite !app_nil_r.
        destruct (rx_valid _); (split; [lia|]); [|auto]. rewrite app_length. cbn [length]. repeat split; auto; lia.
      + destruct H as (C & O & -> & L). rewrite C. cbn [map app]. rewrite !app_nil_r. split; [lia|].
        destruct (du_rready i); cbn [map]; [|rewrite app_nil_r; auto]. auto.
      + destruct H as (C & O & -> & L). rewrite C, O. cbn [map app]. rewrite !app_nil_r.
        destruct (Z.eqb_spec (du_addr s) max_addr); [split; [lia|]; auto|]. rewrite (trunc_small 6) by lia. split; [lia|]. auto.
      + destruct H as (A & C & O & -> & L). rewrite C, O. cbn [map app]. rewrite !app_nil_r. auto 10.
  Qed.
End Dump.

(** For every PHY and back-pressure: the k commands taken so far are the reads of
    registers 0..k-1, k never exceeds max_addr + 1, the bytes output are the answers in
    order, at most one behind, and there is one answer per command but maybe the last. *)
Theorem C65_dump : forall max_addr ins, 0 <= max_addr <= 63 ->
  let t := trace (dump max_addr) ins in
  exists k pend, du_commands t = addresses k /\ Z.of_nat k <= max_addr + 1 /\
    answers t = du_outputs t ++ pend /\ (length pend <= 1)%nat /\
    (length (du_outputs t) <= k <= S (length (du_outputs t)))%nat.
Proof.
  intros max_addr ins Hm t. pose proof (du_inv max_addr Hm ins) as H. fold t in H. unfold du_holds in H. unfold answers.
  destruct (fold_left answer_step t (false, [])) as [w ans]. cbn [snd]. destruct H as [Ha H].
  destruct (du_fsm _).
  - destruct H as (C & O & -> & -> & A). exists 0%nat, []. rewrite C, O. cbn. repeat split; lia.
  - destruct H as (C & O & -> & L). eexists _, []. split; [exact C|]. rewrite O, app_nil_r, L. cbn [length]. repeat split; lia.
  - destruct H as (C & O & -> & L). eexists _, []. split; [exact C|]. rewrite O, app_nil_r, L. cbn [length]. repeat split; lia.
  - destruct H as (C & O & -> & L). eexists _, _. split; [exact C|]. split; [lia|]. split; [symmetry; exact O|]. cbn [length]. rewrite <- O, app_length in L. cbn [length] in L. lia.
  - destruct H as (C & O & -> & L). eexists _, []. split; [exact C|]. rewrite O, app_nil_r, L. cbn [length]. repeat split; lia.
  - destruct H as (A & C & O & -> & L). eexists _, []. split; [exact C|]. rewrite O, app_nil_r, L. cbn [length]. repeat split; lia.
Qed.
(** A byte offered is held until it is taken. *)
Theorem C65_held : forall max_addr ins t1 o o' t2, trace (dump max_addr) ins = t1 ++ o :: o' :: t2 ->
  cvalid (duo_src o) = true -> duo_rready o = false -> duo_src o' = duo_src o.
Proof.
  intros m ins t1 o o' t2 E Hv Hr. apply trace_two in E. destruct E as (a & i & i' & b & -> & _ & -> & ->).
  cbn [cout cnext dump duo_src duo_rready du_fsm du_data] in *. destruct (du_fsm (state (dump m) a)); try discriminate. now rewrite Hr.
Qed.
Definition du_demo : list du_in :=
  let lo n := DuIn (Phy false n 0) true true in let hi d := DuIn (Phy true false d) true true in
  let read d := [lo false; lo true; hi 0; hi d; lo false; lo false; lo false] in
  lo false :: read 7 ++ read 9 ++ repeat (lo true) 5.
Example C65_nonvacuous : let t := trace (dump 1) du_demo in du_commands t = [192; 193] /\ du_outputs t = [7; 9].
Proof. vm_compute. auto. Qed.

(** ** C79, C94: DirectULPI *)
Definition phy_init : list (beat Z) := [Beat false false 132; Beat false true 96; Beat false false 138; Beat false true 0].
Definition di_sent (t : list di_obs) : list (beat Z) := flat_map (fun o => sink_xfer (dio_xc o)) t.
Definition di_accepted (t : list di_obs) : list (beat Z) := accepted (map dio_tx t).
Definition di_taken (s : di_state) : nat := match di_fsm s with DiReset | Di0 => 0 | Di1 => 1 | Di2 | Di3 => 2 | Di4 => 3 | DiUp => 4 end.
(** The events received in the cycles after the four bytes have been taken. *)
Definition di_events (t : list di_obs) : list event :=
  snd (fold_left (fun a o => (fst a ++ sink_xfer (dio_xc o), snd a ++ if (length (fst a) <? 4)%nat then [] else event_of (xo_src (dio_xc o)))) t ([], [])).
Definition di_received (t : list di_obs) : list (beat Z) := flat_map (fun o => if cvalid (dio_rx o) then [cbeat (dio_rx o)] else []) t.

Section Direct.
  Context (nt : Z).
  Definition di_holds (t : list di_obs) (s : di_state) : Prop :=
    match di_fsm s with
    | DiUp => plain (di_sent t) = plain phy_init ++ tagged true (di_accepted t)
    | _ => di_sent t = firstn (di_taken s) phy_init /\ di_accepted t = []
    end /\ di_se s = at_start (di_accepted t).
  Lemma di_inv ins : di_holds (trace (direct nt) ins) (state (direct nt) ins).
  Proof.
    revert ins. apply (run_inv (direct nt) di_holds); [repeat split|]. intros t s i [H1 H2].
    set (o := cout (direct nt) s i). set (n := cnext (direct nt) s i).
    assert (Ha : di_accepted (t ++ [o]) = di_accepted t ++ xfer (di_tx i) (di_se_ready s (di_phy i))).
    { unfold di_accepted. rewrite map_app, accepted_app. cbn [map]. now rewrite accepted_1. }
    assert (Hs : di_sent (t ++ [o]) = di_sent t ++ sink_xfer (dio_xc o)).
    { unfold di_sent. rewrite flat_map_app. cbn [flat_map]. now rewrite app_nil_r. }
    assert (Hx : sink_xfer (dio_xc o) = xfer (di_sink s (di_tx i)) (xc_ready (di_xc s) (di_phy i))) by reflexivity.
    assert (Hn : di_se n = nxt sender (di_se s) (di_tx i) (di_se_ready s (di_phy i))) by reflexivity.
    unfold di_holds. rewrite Ha, Hs, Hx, Hn. clear Ha Hs Hx Hn. clearbody o.
    split.
    - unfold n. cbn [cnext direct di_fsm di_taken]. unfold di_sink, di_se_ready, di_const, xfer. destruct (di_fsm s) eqn:Ef; unfold di_taken in *; rewrite ?Ef in H1; cbn [cvalid cbeat andb].
      + destruct H1 as [-> ->]. rewrite andb_false_r. destruct (di_por_done i); cbn; auto.
      + destruct H1 as [-> ->]. rewrite andb_false_r. destruct (xc_ready _ _); cbn; auto.
      + destruct H1 as [-> ->]. rewrite andb_false_r. destruct (xc_ready _ _); cbn; auto.
      + destruct H1 as [-> ->]. rewrite andb_false_r. destruct (tm_done _ _ _ _ _); cbn; auto.
      + destruct H1 as [-> ->]. rewrite andb_false_r. destruct (xc_ready _ _); cbn; auto.
      + destruct H1 as [-> ->]. rewrite andb_false_r. destruct (xc_ready _ _); cbn; auto.
      + cbn [sender src]. set (r := xc_ready (di_xc s) (di_phy i)). clearbody r. set (k := di_tx i). clearbody k.
        assert (Hv : cvalid (if di_se s then Chan (cvalid k) (Beat false (blast (cbeat k)) (sender_tag (bdata (cbeat k)))) else k) = cvalid k) by (destruct (di_se s); reflexivity).
        rewrite Hv. destruct (cvalid k && r); [|now rewrite !app_nil_r].
        unfold plain in *. rewrite map_app, H1, tagged_snoc, <- app_assoc. fold (at_start (di_accepted t)). rewrite <- H2. do 2 f_equal.
        cbn [map]. unfold sender_tag. destruct (di_se s); cbn [cbeat bdata blast]; [rewrite Z.add_comm|]; reflexivity.
    - cbn [sender nxt]. unfold xfer. destruct (cvalid (di_tx i) && _); [|now rewrite app_nil_r]. unfold at_start. now rewrite fold_left_app.
  Qed.
  (** The transceiver inside runs like a lone one. *)
  Lemma di_part ins : exists ins', map dio_xc (trace (direct nt) ins) = trace transceiver ins'.
  Proof.
    eexists. apply (part_trace (direct nt) transceiver (fun o => (xo_phy o, xo_sink o)) di_xc (fun s i => (di_phy i, di_sink s (di_tx i))) dio_xc); auto.
    intros s [p k]. reflexivity.
  Qed.
End Direct.

(** Whatever the PHY does, what it has taken so far is either a prefix of the four set-up
    bytes, and then nothing was accepted from the user, or all four of them followed by
    the user's bytes accepted so far with packet starts turned into transmit commands. *)
Theorem C79_init_first : forall nt ins, let t := trace (direct nt) ins in
  (exists k, di_sent t = firstn k phy_init /\ di_accepted t = []) \/
  plain (di_sent t) = plain phy_init ++ tagged true (di_accepted t).
Proof.
  intros nt ins t. destruct (di_inv nt ins) as [H _]. fold t in H.
  destruct (di_fsm (state (direct nt) ins)); eauto.
Qed.
(** The bus rules of C78 hold of it. *)
Theorem C79_bus : forall nt ins t1 o t2, trace (direct nt) ins = t1 ++ o :: t2 -> bus_ok (map dio_xc t1) (dio_xc o).
Proof.
  intros nt ins t1 o t2 E. destruct (di_part nt ins) as (ins' & H). rewrite E, map_app in H. cbn [map] in H. symmetry in H. exact (C78_bus _ _ _ _ H).
Qed.

(** C94: the beats given to the receive FIFO are the packets of the events seen since the
    set-up bytes were taken. *)
Lemma di_events_snoc t o : di_events (t ++ [o]) = di_events t ++ if (length (di_sent t) <? 4)%nat then [] else event_of (xo_src (dio_xc o)).
Proof.
  assert (H : forall t a, fst (fold_left (fun a o => (fst a ++ sink_xfer (dio_xc o), snd a ++ if (length (fst a) <? 4)%nat then [] else event_of (xo_src (dio_xc o)))) t a) = fst a ++ di_sent t).
  { clear. induction t as [|o t IH]; intros [a b]; cbn [fold_left]; [now rewrite app_nil_r|]. rewrite IH. cbn [fst]. unfold di_sent. cbn [flat_map]. now rewrite app_assoc. }
  unfold di_events at 1. rewrite fold_left_app. cbn [fold_left snd]. rewrite H. reflexivity.
Qed.
Theorem C94_received : forall nt ins, let t := trace (direct nt) ins in rx_stream_ok (di_events t) (di_received t).
Proof.
  intros nt ins t. enough (H : sp_holds (di_events t) (di_received t) (di_sp (state (direct nt) ins)) /\ di_holds t (state (direct nt) ins)) by exact (sp_out _ _ _ (proj1 H)).
  split; [|apply di_inv]. subst t.
  apply (run_inv (direct nt) (fun t s => sp_holds (di_events t) (di_received t) (di_sp s) /\ exists ins, t = trace (direct nt) ins /\ s = state (direct nt) ins)).
  - split; [exists []; repeat split|]. exists []. auto.
  - intros t s i [H (ins0 & -> & ->)]. split.
    2: { exists (ins0 ++ [i]). unfold trace, state. rewrite trace_from_app, state_from_app. auto. }
    rewrite di_events_snoc. unfold di_received. rewrite flat_map_app. cbn [flat_map]. rewrite app_nil_r. fold (di_received (trace (direct nt) ins0)).
    destruct (di_inv nt ins0) as [D _].
    set (t := trace (direct nt) ins0) in *. set (s := state (direct nt) ins0) in *. clearbody t s.
    pose proof (sp_step _ _ _ (di_ev s) H) as N. cbn [cout cnext direct di_sp dio_rx dio_xc xc_out xo_src].
    assert (Ee : event_of (di_ev s) = if (length (di_sent t) <? 4)%nat then [] else event_of (x_src (di_xc s))).
    { unfold di_ev. destruct (di_fsm s) eqn:Ef; unfold di_taken in D; rewrite ?Ef in D; try (destruct D as [-> _]; reflexivity).
      apply (f_equal (@length _)) in D. unfold plain in D. rewrite app_length, map_length in D. cbn [length map phy_init] in D.
      destruct (Nat.ltb_spec (length (di_sent t)) 4); [lia|reflexivity]. }
    rewrite <- Ee. exact N.
Qed.

Definition di_demo : list di_in :=
  let b p k := DiIn p false true k in let none := Chan false (Beat false false 0) in
  let n := Phy false true 0 in let w := Phy false false 0 in
  let u l d := Chan true (Beat false l d) in
  [b w none; b n none; b n none; b w none; b w none; b w none; b n none; b n none; b w none;
   b n (u false 195); b n (u true 17); b w none;
   b (Phy true true 0) none; b (Phy true true 165) none; b (Phy true true 1) none; b (Phy true false 0) none; b w none; b w none; b w none].
Example C79_nonvacuous : let t := trace (direct 1) di_demo in
  plain (di_sent t) = [(132, false); (96, true); (138, false); (0, true); (67, false); (17, true)] /\ length (di_accepted t) = 2%nat.
Proof. vm_compute. auto. Qed.
Example C94_nonvacuous : di_received (trace (direct 1) di_demo) = [Beat false false 165; Beat false true 1].
Proof. vm_compute. auto. Qed.

(** A packet whose first byte has to wait. *)
Example C63_nonvacuous_stable :
  let t := strace sender [(Chan true (Beat false false 195), false); (Chan true (Beat false false 195), true); (Chan true (Beat false true 17), false); (Chan true (Beat false true 17), true)] in
  stable_sink t /\ plain (emitted t) = [(67, false); (17, true)].
Proof. cbv zeta. split; [apply stable_sinkb_ok; vm_compute; reflexivity|]. vm_compute. reflexivity. Qed.

Print Assumptions C78_bus.
Print Assumptions C62_splitter.
Print Assumptions C63_tags.
Print Assumptions C63_stable.
Print Assumptions C64_por.
Print Assumptions C65_dump.
Print Assumptions C65_held.
Print Assumptions C79_init_first.
Print Assumptions C79_bus.
Print Assumptions C94_received.
