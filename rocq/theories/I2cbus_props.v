(** Properties of the software I2CBus (C54, C88). *)
From Verif Require Import Stream I2c_model I2cstream_model I2cstream_spec I2cproto_model I2cproto_spec I2cbus_model.
From Coq Require Import Lia.

Definition is_byte (x : Z) : Prop := 0 <= x < 256.

(** The bytes of [reg], most significant first. *)
Definition big_endian (size : nat) (reg : Z) : list Z :=
  map (fun i => (reg / 256 ^ Z.of_nat (size - 1 - i)) mod 256) (seq 0 size).

(** The host automaton of I2CProto after sending a buffer. *)
Definition sends (buf : list Z) (log : list exchange) : host * list exchange :=
  fold_left host_sent buf (HIdle, log).

Lemma reg_loop_length n reg : length (reg_loop n reg) = n.
Proof. revert reg. induction n; intros; cbn; auto. Qed.

Lemma reg_loop_map n reg : reg_loop n reg = map (fun i => (reg / 256 ^ Z.of_nat i) mod 256) (seq 0 n).
Proof.
  revert reg. induction n as [|n IH]; intros reg; [reflexivity|]. cbn [reg_loop seq map].
  f_equal.
  - change 255 with (Z.ones 8). rewrite Z.land_ones by lia. cbn [Z.of_nat]. rewrite Z.pow_0_r, Z.div_1_r. reflexivity.
  - rewrite IH, <- seq_shift, map_map. apply map_ext. intros i. rewrite Z.shiftr_div_pow2 by lia. change (2 ^ 8) with 256.
    rewrite Z.div_div by (try apply Z.pow_pos_nonneg; lia). rewrite Nat2Z.inj_succ, Z.pow_succ_r by lia. reflexivity.
Qed.

Lemma rev_map_seq {A} (f : nat -> A) n : rev (map f (seq 0 n)) = map (fun i => f (n - 1 - i)%nat) (seq 0 n).
Proof.
  induction n as [|n IH]; [reflexivity|]. transitivity (rev (map f (seq 0 n ++ [n]))); [now rewrite seq_S|].
  rewrite map_app, rev_app_distr, IH. cbn [map rev app].
  cbn [seq map]. f_equal; [f_equal; lia|]. rewrite <- seq_shift, map_map. apply map_ext_in. intros i Hi. apply in_seq in Hi. f_equal. lia.
Qed.

Lemma reg_array_big_endian width reg : reg_array width reg = big_endian (Z.to_nat (width / 8)) reg.
Proof. unfold reg_array, big_endian. rewrite reg_loop_map, rev_map_seq. reflexivity. Qed.

Lemma big_endian_bytes n reg : Forall is_byte (big_endian n reg).
Proof. unfold big_endian. apply Forall_forall. intros x H. apply in_map_iff in H. destruct H as (i & <- & _). apply Z.mod_pos_bound. lia. Qed.

Lemma big_endian_length n reg : length (big_endian n reg) = n.
Proof. unfold big_endian. now rewrite map_length, seq_length. Qed.

Lemma bytearray_ok l : Forall is_byte l -> bytearray l = Some l.
Proof.
  intros H. unfold bytearray. replace (forallb _ l) with true; auto. symmetry. apply forallb_forall. intros x Hx.
  rewrite Forall_forall in H. specialize (H x Hx). unfold is_byte in H. lia.
Qed.

Lemma bytearray_bad l : ~ Forall is_byte l -> bytearray l = None.
Proof.
  intros H. unfold bytearray. destruct (forallb _ l) eqn:E; auto. destruct H. rewrite forallb_forall in E.
  apply Forall_forall. intros x Hx. specialize (E x Hx). unfold is_byte. lia.
Qed.

Lemma hdr_write addr : Z.lor (Z.shiftl addr 1) 0 = 2 * addr.
Proof. rewrite Z.lor_0_r, Z.shiftl_mul_pow2 by lia. lia. Qed.
Lemma hdr_read addr : Z.lor (Z.shiftl addr 1) 1 = 2 * addr + 1.
Proof.
  rewrite Z.shiftl_mul_pow2 by lia. change (2 ^ 1) with 2. rewrite (Z.mul_comm addr 2). symmetry. 
  rewrite <- Z.lxor_lor by (apply Z.bits_inj'; intros n Hn; rewrite Z.land_spec, Z.bits_0; destruct (Z.eq_dec n 0) as [->|]; [now rewrite Z.testbit_even_0|replace (Z.testbit 1 n) with false; [apply andb_false_r|symmetry; change 1 with (2 ^ 0); apply Z.pow2_bits_false; lia]]).
  apply Z.add_nocarry_lxor. apply Z.bits_inj'. intros n Hn. rewrite Z.land_spec, Z.bits_0. destruct (Z.eq_dec n 0) as [->|].
  - now rewrite Z.testbit_even_0.
  - replace (Z.testbit 1 n) with false; [apply andb_false_r|]. symmetry. change 1 with (2 ^ 0). apply Z.pow2_bits_false. lia.
Qed.

Lemma sends_data l : forall h ds n log, l <> [] -> Z.of_nat (length l) = n ->
  fold_left host_sent l (HData h ds n, log) = (HStatusW h (ds ++ l), log).
Proof.
  induction l as [|x l IH]; intros h ds n log Hne Hn; [congruence|]. cbn [fold_left host_sent].
  cbn [length] in Hn. destruct l as [|y l].
  - cbn in Hn. subst n. reflexivity.
  - destruct (Z.eqb_spec n 1); [cbn [length] in Hn; lia|]. rewrite IH; [now rewrite <- app_assoc|discriminate|lia].
Qed.

Lemma sends_write addr l log :
  sends (2 * addr :: Z.of_nat (length l) :: l) log = (HStatusW (2 * addr) l, log).
Proof.
  unfold sends. cbn [fold_left host_sent]. unfold is_read. rewrite Z.odd_mul. cbn [Z.odd andb].
  destruct l as [|x l]; [reflexivity|]. destruct (Z.eqb_spec (Z.of_nat (length (x :: l))) 0); [cbn [length] in *; lia|].
  now rewrite sends_data by (auto; discriminate).
Qed.

Lemma sends_read addr n log : sends [2 * addr + 1; n] log = (HStatusR (2 * addr + 1) n, log).
Proof. unfold sends. cbn [fold_left host_sent]. unfold is_read. rewrite Z.add_comm, Z.odd_add, Z.odd_mul. reflexivity. Qed.

(** C54: a block write that fits sends one write request, for the 7-bit address, the
    register address most significant byte first, and the data. *)
Theorem C54_write : forall width addr reg data input log,
  0 <= width -> 0 <= addr < 128 -> Forall is_byte data -> width / 8 + Z.of_nat (length data) < 256 ->
  exists buf, c_written (write_block_data width addr reg data input) = [buf] /\
    sends buf log = (HStatusW (2 * addr) (big_endian (Z.to_nat (width / 8)) reg ++ data), log).
Proof.
  intros width addr reg data input log HW HA HD HF. unfold write_block_data, request.
  rewrite hdr_write, reg_array_big_endian. set (ra := big_endian _ reg). pose proof (Z.div_pos width 8 HW ltac:(lia)).
  assert (EL : width / 8 + Z.of_nat (length data) = Z.of_nat (length (ra ++ data))).
  { rewrite app_length. unfold ra. rewrite big_endian_length. lia. }
  rewrite EL. rewrite bytearray_ok.
  - exists (2 * addr :: Z.of_nat (length (ra ++ data)) :: ra ++ data). split; [destruct input; reflexivity|]. apply sends_write.
  - constructor; [unfold is_byte; lia|]. constructor; [unfold is_byte; lia|]. apply Forall_app. split; auto. apply big_endian_bytes.
Qed.

(** C54: a block write that does not fit raises ValueError and sends nothing. *)
Theorem C54_write_raises : forall width addr reg data input,
  0 <= width -> addr < 0 \/ 128 <= addr \/ ~ Forall is_byte data \/ 256 <= width / 8 + Z.of_nat (length data) ->
  write_block_data width addr reg data input = Call [] input (inr ValueError).
Proof.
  intros width addr reg data input HW H. unfold write_block_data, request. rewrite bytearray_bad; [reflexivity|].
  rewrite hdr_write. intros X. apply Forall_cons_iff in X. destruct X as [X1 X]. apply Forall_cons_iff in X. destruct X as [X3 X4].
  apply Forall_app in X4. unfold is_byte in X1, X3. destruct X4 as [_ X4]. destruct H as [H|[H|[H|H]]]; [lia|lia|contradiction|lia].
Qed.

Lemma taken_ok (l : list (beat (bool * Z))) : existsb snd (taken l) = false.
Proof. induction l; cbn; auto. Qed.

Lemma executed_wrote h ds ans b d : executed (Wrote h ds ans) b d ->
  ans = [status_beat (if existsb snd b then 1 else 0)].
Proof. intros H. inversion H; subst; [now rewrite taken_ok|]. rewrite existsb_app, taken_ok. reflexivity. Qed.

Lemma executed_asked h n ans b d : executed (Asked h n ans) b d ->
  ans = status_beat (if existsb snd b then 1 else 0) :: d /\ (existsb snd b = false -> length d = Z.to_nat n) /\
  (existsb snd b = true -> d = []).
Proof.
  intros H. inversion H; subst; [|cbn; repeat split; intros; auto; discriminate].
  cbn [existsb snd orb]. rewrite taken_ok. split; auto. split; [intros _|discriminate].
  assert (L : forall m, length (read_beats m) = m) by (induction m; cbn; auto).
  match goal with E : map blast _ = _ |- _ => apply (f_equal (@length _)) in E; rewrite !map_length, L in E; exact E end.
Qed.

(** C54: if the device executes the request as I2CProto does, the block write returns the
    number of bytes when all were acknowledged and None when one was refused. *)
Theorem C54_write_result : forall width addr reg data ans beats bytes rest,
  0 <= width -> 0 <= addr < 128 -> Forall is_byte data -> width / 8 + Z.of_nat (length data) < 256 ->
  executed (Wrote (2 * addr) (big_endian (Z.to_nat (width / 8)) reg ++ data) ans) beats bytes ->
  let q := write_block_data width addr reg data (map bdata ans ++ rest) in
  c_left q = rest /\
  c_result q = inl (if existsb snd beats then None else Some (Z.of_nat (length data))).
Proof.
  intros width addr reg data ans beats bytes rest HW HA HD HF HX q.
  assert (E : forall s r, let q := write_block_data width addr reg data (s :: r) in
     c_left q = r /\ c_result q = inl (if s =? 0 then Some (Z.of_nat (length data)) else None)).
  { intros s r. unfold write_block_data, request. rewrite hdr_write, reg_array_big_endian, bytearray_ok.
    - cbn. destruct (s =? 0); auto.
    - pose proof (Z.div_pos width 8 HW ltac:(lia)). constructor; [unfold is_byte; lia|]. constructor; [unfold is_byte; lia|].
      apply Forall_app. split; auto. apply big_endian_bytes. }
  apply executed_wrote in HX. subst ans. unfold q. cbn [map app bdata status_beat]. destruct (E (if existsb snd beats then 1 else 0) rest) as [E1 E2].
  rewrite E1, E2. destruct (existsb snd beats); auto.
Qed.

(** C54: a block read first writes the register address to the device and then, if that
    was acknowledged, asks for [len] bytes of the same device. *)
Theorem C54_read : forall width addr reg len input log,
  0 <= width -> width / 8 < 256 -> 0 <= addr < 128 -> 0 <= len < 256 ->
  let q := read_block_data width addr reg len input in
  exists b1, (c_written q = [b1] /\ hd 0 input <> 0 \/ input = [] /\ c_written q = [b1] \/
              exists b2, c_written q = [b1; b2] /\ hd 1 input = 0 /\ sends b2 log = (HStatusR (2 * addr + 1) len, log)) /\
    sends b1 log = (HStatusW (2 * addr) (big_endian (Z.to_nat (width / 8)) reg), log).
Proof.
  intros width addr reg len input log HW HF HA HL q. pose proof (Z.div_pos width 8 HW ltac:(lia)).
  exists (2 * addr :: Z.of_nat (length (big_endian (Z.to_nat (width / 8)) reg)) :: big_endian (Z.to_nat (width / 8)) reg).
  split; [|apply sends_write]. unfold q, read_block_data. rewrite hdr_write, hdr_read, reg_array_big_endian, big_endian_length. rewrite Z2Nat.id by lia.
  unfold request. rewrite !bytearray_ok.
  - destruct input as [|s r]; [right; left; auto|]. cbn [c_result c_written c_left hd]. destruct (Z.eqb_spec s 0) as [->|].
    + right. right. exists [2 * addr + 1; len]. split; [|split; [reflexivity|apply sends_read]].
      destruct r as [|s2 r]; [reflexivity|]. cbn [c_result c_written c_left]. destruct (s2 =? 0); reflexivity.
    + left. auto.
  - constructor; [unfold is_byte; lia|]. constructor; [unfold is_byte; lia|constructor].
  - constructor; [unfold is_byte; lia|]. constructor; [unfold is_byte; lia|]. apply big_endian_bytes.
Qed.

(** C54: if the device executes both requests as I2CProto does, the block read returns
    the bytes read on the bus, or None when a byte was refused. *)
Theorem C54_read_result : forall width addr reg len ans1 beats1 bytes1 ans2 beats2 bytes2 rest,
  0 <= width -> width / 8 < 256 -> 0 <= addr < 128 -> 0 <= len < 256 ->
  executed (Wrote (2 * addr) (big_endian (Z.to_nat (width / 8)) reg) ans1) beats1 bytes1 ->
  executed (Asked (2 * addr + 1) len ans2) beats2 bytes2 ->
  let answers := if existsb snd beats1 then ans1 else ans1 ++ ans2 in
  let q := read_block_data width addr reg len (map bdata answers ++ rest) in
  c_left q = rest /\
  c_result q = inl (if existsb snd beats1 || existsb snd beats2 then None else Some (map bdata bytes2)).
Proof.
  intros width addr reg len ans1 beats1 bytes1 ans2 beats2 bytes2 rest HW HF HA HL H1 H2 answers q.
  pose proof (Z.div_pos width 8 HW ltac:(lia)).
  assert (R1 : forall s r, request (2 * addr :: width / 8 :: big_endian (Z.to_nat (width / 8)) reg) (s :: r)
     = Call [2 * addr :: width / 8 :: big_endian (Z.to_nat (width / 8)) reg] r (inl (s =? 0))).
  { intros. unfold request. rewrite bytearray_ok; [reflexivity|]. constructor; [unfold is_byte; lia|]. constructor; [unfold is_byte; lia|]. apply big_endian_bytes. }
  assert (R2 : forall s r, request [2 * addr + 1; len] (s :: r) = Call [[2 * addr + 1; len]] r (inl (s =? 0))).
  { intros. unfold request. rewrite bytearray_ok; [reflexivity|]. constructor; [unfold is_byte; lia|]. constructor; [unfold is_byte; lia|constructor]. }
  unfold q, read_block_data. rewrite hdr_write, hdr_read, reg_array_big_endian. unfold answers.
  apply executed_wrote in H1. subst ans1. apply executed_asked in H2. destruct H2 as (-> & H2 & H3).
  destruct (existsb snd beats1); cbn [app map bdata status_beat]; rewrite R1; cbn [c_result c_left c_written Z.eqb orb]; auto.
  rewrite R2. destruct (existsb snd beats2); cbn [c_result c_left c_written Z.eqb].
  - rewrite H3 by auto. auto.
  - specialize (H2 eq_refl). rewrite <- (map_length bdata) in H2. split.
    + rewrite skipn_app, <- H2, skipn_all, Nat.sub_diag. reflexivity.
    + rewrite firstn_app, <- H2, firstn_all, Nat.sub_diag, app_nil_r. reflexivity.
Qed.

(** C54: a read of more than 255 bytes is never asked for: the call raises, unless the device
    has refused the register address before or does not answer. *)
Theorem C54_read_raises : forall width addr reg len input,
  0 <= width -> 256 <= len \/ len < 0 ->
  let q := read_block_data width addr reg len input in
  (c_result q = inr ValueError \/ hd 0 input <> 0 /\ c_result q = inl None \/ input = [] /\ c_result q = inr IndexError) /\
  (length (c_written q) <= 1)%nat /\ forall b, In b (c_written q) -> exists ds, snd (sends b []) = [] /\ fst (sends b []) = HStatusW (2 * addr) ds.
Proof.
  intros width addr reg len input HW HL q. pose proof (Z.div_pos width 8 HW ltac:(lia)).
  unfold q, read_block_data. rewrite hdr_write, hdr_read, reg_array_big_endian. set (ra := big_endian _ reg).
  assert (B2 : bytearray [2 * addr + 1; len] = None).
  { apply bytearray_bad. intros X. apply Forall_cons_iff in X. destruct X as [X1 X]. apply Forall_cons_iff in X. destruct X as [X2 _]. unfold is_byte in *. lia. }
  assert (EL : width / 8 = Z.of_nat (length ra)) by (unfold ra; rewrite big_endian_length; lia). rewrite EL.
  unfold request. rewrite B2. pose proof (sends_write addr ra []) as SW. unfold bytearray. destruct (forallb _ _).
  - destruct input as [|s r]; cbn [c_result c_written c_left hd]; [|destruct (Z.eqb_spec s 0); cbn [c_result c_written c_left]].
    all: split; [auto|]; split; [auto|]; intros b [<-|[]]; exists ra; rewrite SW; auto.
  - cbn. split; [auto|]. split; [lia|]. intros b [].
Qed.

(** C54: a device that stops answering makes the call raise IndexError where the status
    byte is missing; it is never taken for an acknowledgement or a refusal. *)
Theorem C54_silent : forall width addr reg data len,
  0 <= width -> 0 <= addr < 128 -> Forall is_byte data -> width / 8 + Z.of_nat (length data) < 256 -> 0 <= len < 256 ->
  c_result (write_block_data width addr reg data []) = inr IndexError /\
  c_result (read_block_data width addr reg len []) = inr IndexError /\
  c_result (read_block_data width addr reg len [0]) = inr IndexError.
Proof.
  intros width addr reg data len HW HA HD HF HL. pose proof (Z.div_pos width 8 HW ltac:(lia)).
  unfold write_block_data, read_block_data, request. rewrite hdr_write, hdr_read, reg_array_big_endian. set (ra := big_endian _ reg).
  assert (B1 : bytearray (2 * addr :: width / 8 + Z.of_nat (length data) :: ra ++ data) = Some (2 * addr :: width / 8 + Z.of_nat (length data) :: ra ++ data)).
  { apply bytearray_ok. constructor; [unfold is_byte; lia|]. constructor; [unfold is_byte; lia|]. apply Forall_app. split; [apply big_endian_bytes|auto]. }
  assert (B2 : bytearray (2 * addr :: width / 8 :: ra) = Some (2 * addr :: width / 8 :: ra)).
  { apply bytearray_ok. constructor; [unfold is_byte; lia|]. constructor; [unfold is_byte; lia|]. apply big_endian_bytes. }
  assert (B3 : bytearray [2 * addr + 1; len] = Some [2 * addr + 1; len]).
  { apply bytearray_ok. constructor; [unfold is_byte; lia|]. constructor; [unfold is_byte; lia|constructor]. }
  rewrite B1, B2, B3. cbn [c_result c_written c_left Z.eqb]. auto.
Qed.

(** C54: discover returns the addresses that acknowledged, in order, and sends one empty
    write to each of the 128 addresses; discover_queue finds the same. *)
Theorem C54_discover : forall acks rest, length acks = 128%nat ->
  let input := map (fun ok : bool => if ok then 0 else 1) acks ++ rest in
  let addrs := map Z.of_nat (seq 0 128) in
  let found := map fst (filter snd (combine addrs acks)) in
  discover input = Call (map (fun a => [2 * a; 0]) addrs) rest (inl found) /\
  discover_queue input = Call [flat_map (fun a => [2 * a; 0]) addrs] rest (inl found).
Proof.
  intros acks rest HL input addrs found. split.
  - unfold discover. fold addrs. unfold input, found. clear input found. assert (HB : Forall (fun a => 0 <= a < 128) addrs).
    { apply Forall_forall. intros a H. apply in_map_iff in H. destruct H as (n & <- & H). apply in_seq in H. lia. }
    assert (HL' : length acks = length addrs) by (rewrite HL; reflexivity). clearbody addrs. clear HL. revert addrs HB HL'.
    induction acks as [|k acks IH]; intros [|a addrs] HB HL; try discriminate; [reflexivity|].
    inversion HB; subst. cbn [discover_loop map app]. unfold request. rewrite hdr_write, bytearray_ok by (repeat constructor; lia).
    cbn [c_result c_left c_written]. rewrite IH by auto. cbn [c_result c_left c_written app combine filter snd]. destruct k; reflexivity.
  - unfold discover_queue. unfold found, addrs, input. set (ns := seq 0 128). change 128%nat with (length ns) in HL. assert (HN : Forall (fun n => (n < 128)%nat) ns).
    { apply Forall_forall. intros x H. apply in_seq in H. lia. }
    assert (HM : length (map (fun ok : bool => if ok then 0 else 1) acks) = 128%nat) by (rewrite map_length, HL; reflexivity).
    rewrite bytearray_ok.
    + rewrite skipn_app, firstn_app, HM, Nat.sub_diag, <- HM, skipn_all, firstn_all, app_nil_r. cbn [app skipn].
      clear HM HN. clearbody ns.
      assert (E1 : flat_map (fun a => [Z.lor (Z.shiftl (Z.of_nat a) 1) 0; 0]) ns = flat_map (fun a => [2 * a; 0]) (map Z.of_nat ns)).
      { rewrite (flat_map_concat_map _ (map _ _)), map_map, <- flat_map_concat_map. apply flat_map_ext. intros a. now rewrite hdr_write. }
      assert (E2 : map (fun x => Z.of_nat (fst x)) (filter (fun x => snd x =? 0) (combine ns (map (fun ok : bool => if ok then 0 else 1) acks)))
        = map fst (filter snd (combine (map Z.of_nat ns) acks))).
      { clear -HL. revert acks HL. induction ns as [|n l IH]; intros [|k acks] HS; try discriminate; [reflexivity|]. cbn [map combine filter snd].
        specialize (IH acks ltac:(auto)). destruct k; cbn [Z.eqb map fst]; rewrite IH; reflexivity. }
      rewrite E1, E2. reflexivity.
    + apply Forall_forall. intros x H. apply in_flat_map in H. destruct H as (n & Hn & [<-|[<-|[]]]); [|unfold is_byte; lia].
      rewrite Forall_forall in HN. specialize (HN n Hn). rewrite hdr_write. unfold is_byte. lia.
Qed.

Example C54_nonvacuous :
  write_block_data 16 0x50 0x1234 [1; 2; 3] [0; 7] = Call [[0xa0; 5; 0x12; 0x34; 1; 2; 3]] [7] (inl (Some 3)) /\
  sends [0xa0; 5; 0x12; 0x34; 1; 2; 3] [] = (HStatusW (2 * 0x50) [0x12; 0x34; 1; 2; 3], []) /\
  read_block_data 8 0x50 0x12 2 [0; 0; 0xaa; 0xbb; 7] = Call [[0xa0; 1; 0x12]; [0xa1; 2]] [7] (inl (Some [0xaa; 0xbb])) /\
  write_block_data 8 0x50 0 (repeat 0 255) [0] = Call [] [0] (inr ValueError) /\
  executed (Wrote (2 * 0x50) (big_endian (Z.to_nat (8 / 8)) 0x12) [status_beat 1])
    [(Beat false false (false, 0xa0), false); (Beat false true (false, 0x12), true)] [].
Proof.
  repeat split. apply (ex_write_refused _ _ (Beat false true (false, 0x12)) [Beat false false (false, 0xa0)] []). reflexivity.
Qed.

(** C88: a refused byte write is not reported: write_byte_data returns the same on
    success and on failure; a refused byte read ends in a TypeError. *)
Theorem C88_byte_helpers_refuted : forall width addr reg data rest,
  0 <= width -> width / 8 < 255 -> 0 <= addr < 128 -> is_byte data ->
  write_byte_data width addr reg data (0 :: rest) = write_byte_data width addr reg data (1 :: rest) /\
  c_result (write_byte_data width addr reg data (1 :: rest)) = inl tt /\
  c_result (read_byte_data width addr reg (1 :: rest)) = inr TypeError.
Proof.
  intros width addr reg data rest HW HF HA HD. pose proof (Z.div_pos width 8 HW ltac:(lia)).
  unfold write_byte_data, write_block_data, read_byte_data, read_block_data, request. rewrite hdr_write, reg_array_big_endian.
  set (ra := big_endian _ reg).
  assert (B1 : bytearray (2 * addr :: width / 8 + Z.of_nat (length [data]) :: ra ++ [data]) = Some (2 * addr :: width / 8 + Z.of_nat (length [data]) :: ra ++ [data])).
  { apply bytearray_ok. constructor; [unfold is_byte; lia|]. constructor; [unfold is_byte; cbn [length]; lia|]. apply Forall_app. split; [apply big_endian_bytes|auto]. }
  assert (B2 : bytearray (2 * addr :: width / 8 :: ra) = Some (2 * addr :: width / 8 :: ra)).
  { apply bytearray_ok. constructor; [unfold is_byte; lia|]. constructor; [unfold is_byte; lia|]. apply big_endian_bytes. }
  rewrite B1, B2. cbn [c_result c_written c_left Z.eqb]. auto.
Qed.

(** C88, what does hold: a byte read that is acknowledged returns the byte read. *)
Theorem C88_byte_helpers_partial : forall width addr reg x rest,
  0 <= width -> width / 8 < 256 -> 0 <= addr < 128 ->
  read_byte_data width addr reg (0 :: 0 :: x :: rest) =
    Call [2 * addr :: width / 8 :: big_endian (Z.to_nat (width / 8)) reg; [2 * addr + 1; 1]] rest (inl x).
Proof.
  intros width addr reg x rest HW HF HA. pose proof (Z.div_pos width 8 HW ltac:(lia)).
  unfold read_byte_data, read_block_data, request. rewrite hdr_write, hdr_read, reg_array_big_endian.
  rewrite !bytearray_ok; [reflexivity|..].
  - constructor; [unfold is_byte; lia|]. constructor; [unfold is_byte; lia|constructor].
  - constructor; [unfold is_byte; lia|]. constructor; [unfold is_byte; lia|]. apply big_endian_bytes.
Qed.

Example C88_nonvacuous : read_byte_data 16 0x50 0x1234 [0; 0; 0xab; 7] = Call [[0xa0; 2; 0x12; 0x34]; [0xa1; 1]] [7] (inl 0xab).
Proof. reflexivity. Qed.

Print Assumptions C54_write.
Print Assumptions C54_silent.
Print Assumptions C54_write_raises.
Print Assumptions C54_write_result.
Print Assumptions C54_read.
Print Assumptions C54_read_result.
Print Assumptions C54_read_raises.
Print Assumptions C54_discover.
Print Assumptions C88_byte_helpers_refuted.
Print Assumptions C88_byte_helpers_partial.
