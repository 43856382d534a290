(** hexdump: C80. *)
From Verif Require Import Hexdump_model.

(** Value of a lower case hexadecimal digit and of a numeral. *)
Definition dval (c : ascii) : option Z :=
  let n := Z.of_nat (nat_of_ascii c) in
  if (48 <=? n) && (n <=? 57) then Some (n - 48) else if (97 <=? n) && (n <=? 102) then Some (n - 87) else None.
Fixpoint nval (acc : Z) (t : text) : option Z :=
  match t with [] => Some acc | c :: r => match dval c with Some d => nval (16 * acc + d) r | None => None end end.
Definition denotes (t : text) (n : Z) : Prop := t <> [] /\ nval 0 t = Some n.

(** The text: a header line, then one line per 16 bytes (and one empty line after a full
    one), line k being the label of offset 16 k, ": ", and its bytes, each as two digits
    and a space. *)
Definition byte_text (b : Z) (t : text) : Prop := exists d1 d2, t = [d1; d2; " "%char] /\ denotes [d1; d2] b.
Definition eol : ascii := "010"%char.
Definition line_ok (k : nat) (bytes : list Z) (t : text) : Prop :=
  exists label ts, t = lit "0x" ++ label ++ lit ": " ++ List.concat ts /\ denotes label (16 * Z.of_nat k) /\ Forall2 byte_text bytes ts.
Fixpoint lines_ok (k : nat) (chunks : list (list Z)) (t : text) : Prop :=
  match chunks with
  | [] => t = []
  | c :: r => exists t1 t2, t = t1 ++ eol :: t2 /\ line_ok k c t1 /\ lines_ok (S k) r t2
  end.
Definition chunks_of (data : list Z) : list (list Z) :=
  map (fun k => firstn 16 (skipn (16 * k) data)) (seq 0 (S (length data / 16))).

Lemma dval_digit d : 0 <= d < 16 -> dval (digit d) = Some d.
Proof.
  intros H. assert (D : d = 0 \/ d = 1 \/ d = 2 \/ d = 3 \/ d = 4 \/ d = 5 \/ d = 6 \/ d = 7 \/ d = 8 \/ d = 9 \/ d = 10 \/ d = 11 \/ d = 12 \/ d = 13 \/ d = 14 \/ d = 15) by lia.
  repeat (destruct D as [->|D]; [reflexivity|]). subst. reflexivity.
Qed.
Lemma hex_digits_acc fuel n acc : hex_digits fuel n acc = hex_digits fuel n [] ++ acc.
Proof.
  revert n acc. induction fuel as [|f IH]; intros n acc; [reflexivity|]. cbn [hex_digits]. destruct (n <? 16); [reflexivity|].
  rewrite IH, (IH _ [digit _]), <- app_assoc. reflexivity.
Qed.
Lemma nval_app t1 t2 a : nval a (t1 ++ t2) = match nval a t1 with Some b => nval b t2 | None => None end.
Proof. revert a. induction t1 as [|c t1 IH]; intros a; [reflexivity|]. cbn. destruct (dval c); [apply IH|reflexivity]. Qed.
Lemma hex_digits_val fuel n : 0 <= n < Z.of_nat fuel -> nval 0 (hex_digits fuel n []) = Some n /\ hex_digits fuel n [] <> [].
Proof.
  revert n. induction fuel as [|f IH]; intros n H; [lia|]. cbn [hex_digits]. destruct (Z.ltb_spec n 16).
  - cbn [nval]. rewrite dval_digit by lia. split; [f_equal; lia|discriminate].
  - rewrite hex_digits_acc. pose proof (Z.div_mod n 16 ltac:(lia)) as D. pose proof (Z.mod_pos_bound n 16 ltac:(lia)).
    assert (0 <= n / 16 < Z.of_nat f) by (split; [apply Z.div_pos; lia|]; apply Z.lt_le_trans with (n); [apply Z.div_lt; lia|lia]).
    destruct (IH _ H2) as [E N]. rewrite nval_app, E. cbn [nval]. rewrite dval_digit by lia. split; [f_equal; lia|].
    intros X. apply app_eq_nil in X. destruct X; discriminate.
Qed.
Lemma fmt_x_denotes n : 0 <= n -> denotes (fmt_x n) n.
Proof. intros H. destruct (hex_digits_val (S (Z.to_nat n)) n) as [A B]; [lia|]. split; assumption. Qed.
Lemma fmt_02x_byte b : 0 <= b < 256 -> byte_text b (fmt_02x b ++ lit " ").
Proof.
  intros H. assert (E : fmt_02x b = [digit (b / 16); digit (b mod 16)]).
  { unfold fmt_02x, fmt_x. cbn [hex_digits]. destruct (Z.ltb_spec b 16).
    - cbn [length Nat.ltb Nat.leb]. rewrite Z.div_small, Z.mod_small by lia. reflexivity.
    - destruct (Z.to_nat b) as [|f] eqn:Ef; [lia|]. cbn [hex_digits].
      assert (b / 16 < 16) by (apply Z.div_lt_upper_bound; lia). destruct (Z.ltb_spec (b / 16) 16); [reflexivity|lia]. }
  rewrite E. exists (digit (b / 16)), (digit (b mod 16)). split; [reflexivity|]. split; [discriminate|].
  pose proof (Z.div_mod b 16 ltac:(lia)). pose proof (Z.mod_pos_bound b 16 ltac:(lia)).
  assert (0 <= b / 16 < 16) by (split; [apply Z.div_pos; lia|apply Z.div_lt_upper_bound; lia]).
  cbn [nval]. rewrite !dval_digit by lia. f_equal. lia.
Qed.

Definition bytes_text (l : list Z) : list text := map (fun b => fmt_02x b ++ lit " ") l.
Lemma bytes_text_ok l : Forall (fun b => 0 <= b < 256) l -> Forall2 byte_text l (bytes_text l).
Proof. induction 1; cbn; constructor; auto. now apply fmt_02x_byte. Qed.
Lemma loop_part a b i : 0 <= i -> i mod 16 + Z.of_nat (length a) <= 15 ->
  hd_loop i (a ++ b) = List.concat (bytes_text a) ++ hd_loop (i + Z.of_nat (length a)) b.
Proof.
  revert i. induction a as [|x a IH]; intros i Hi Hm.
  - cbn. now rewrite Z.add_0_r.
  - cbn [app hd_loop length bytes_text map List.concat] in *. destruct (Z.eqb_spec (i mod 16) 15); [lia|].
    assert (E : (i + 1) mod 16 = i mod 16 + 1).
    { pose proof (Z.mod_pos_bound i 16 ltac:(lia)). rewrite <- Z.add_mod_idemp_l by lia. apply Z.mod_small. lia. }
    rewrite IH by lia. cbn [app]. rewrite <- !app_assoc. do 2 f_equal. fold (bytes_text a). f_equal. f_equal. lia.
Qed.
Lemma loop_line c b k : length c = 16%nat ->
  hd_loop (16 * Z.of_nat k) (c ++ b) =
  List.concat (bytes_text c) ++ newline :: py_hex (16 * Z.of_nat (S k)) ++ lit ": " ++ hd_loop (16 * Z.of_nat (S k)) b.
Proof.
  intros L. destruct (exists_last (l := c)) as (a & x & ->); [destruct c; discriminate|]. rewrite app_length in L. cbn in L.
  rewrite <- app_assoc. assert (M : (16 * Z.of_nat k) mod 16 = 0) by (rewrite Z.mul_comm; apply Z.mod_mul; lia).
  rewrite loop_part by lia. replace (Z.of_nat (length a)) with 15 by lia. cbn [app hd_loop].
  replace ((16 * Z.of_nat k + 15) mod 16) with 15 by (rewrite <- Z.add_mod_idemp_l, M by lia; reflexivity). cbn [Z.eqb Pos.eqb].
  unfold bytes_text. rewrite map_app, concat_app. cbn [map List.concat]. rewrite app_nil_r, <- !app_assoc. do 3 f_equal. cbn [app]. f_equal.
  replace (16 * Z.of_nat k + 15 + 1) with (16 * Z.of_nat (S k)) by lia. rewrite <- !app_assoc. reflexivity.
Qed.
Lemma skipn_skipn {A} x y (l : list A) : skipn x (skipn y l) = skipn (x + y) l.
Proof. revert l. induction y as [|y IH]; intros l; [now rewrite Nat.add_0_r|]. rewrite Nat.add_succ_r. destruct l; [now rewrite !skipn_nil|]. apply IH. Qed.
Lemma chunks_step data : chunks_of data = if Nat.ltb (length data) 16 then [data] else firstn 16 data :: chunks_of (skipn 16 data).
Proof.
  unfold chunks_of. destruct (Nat.ltb_spec (length data) 16).
  - rewrite Nat.div_small by lia. cbn [seq map]. rewrite Nat.mul_0_r. cbn [skipn]. now rewrite firstn_all2 by lia.
  - assert (E : (length data / 16 = S (length (skipn 16 data) / 16))%nat).
    { rewrite skipn_length. replace (length data) with ((length data - 16) + 1 * 16)%nat at 1 by lia. rewrite Nat.div_add by lia. lia. }
    rewrite E. cbn [seq map]. f_equal. f_equal.
    rewrite <- (seq_shift _ 1), map_map. apply map_ext_in. intros q _. rewrite skipn_skipn. do 2 f_equal. lia.
Qed.
Lemma loop_lines n : forall data k label, (length data <= n)%nat -> Forall (fun b => 0 <= b < 256) data -> denotes label (16 * Z.of_nat k) ->
  lines_ok k (chunks_of data) (lit "0x" ++ label ++ lit ": " ++ hd_loop (16 * Z.of_nat k) data ++ [newline]).
Proof.
  induction n as [n IH] using lt_wf_ind. intros data k label Hn Hd Hl. rewrite chunks_step. destruct (Nat.ltb_spec (length data) 16).
  - cbn [lines_ok]. exists (lit "0x" ++ label ++ lit ": " ++ List.concat (bytes_text data)), [].
    assert (M : (16 * Z.of_nat k) mod 16 = 0) by (rewrite Z.mul_comm; apply Z.mod_mul; lia).
    pose proof (loop_part data [] (16 * Z.of_nat k)) as P. rewrite app_nil_r in P. rewrite P by lia. cbn [hd_loop]. rewrite app_nil_r, <- !app_assoc.
    split; [reflexivity|]. split; [|reflexivity]. exists label, (bytes_text data). split; [reflexivity|]. split; [exact Hl|]. now apply bytes_text_ok.
  - assert (Hc : length (firstn 16 data) = 16%nat) by (rewrite firstn_length; lia).
    assert (F : Forall (fun b => 0 <= b < 256) (firstn 16 data) /\ Forall (fun b => 0 <= b < 256) (skipn 16 data)) by (apply Forall_app; now rewrite firstn_skipn).
    destruct F as [F1 F2].
    pose proof (loop_line (firstn 16 data) (skipn 16 data) k Hc) as P. rewrite firstn_skipn in P. rewrite P. cbn [lines_ok].
    exists (lit "0x" ++ label ++ lit ": " ++ List.concat (bytes_text (firstn 16 data))). eexists. split.
    { rewrite <- !app_assoc. cbn [app]. reflexivity. }
    split; [exists label, (bytes_text (firstn 16 data)); split; [reflexivity|]; split; [exact Hl|]; now apply bytes_text_ok|].
    unfold py_hex. rewrite <- !app_assoc. apply (IH (length (skipn 16 data))); [rewrite skipn_length; lia|lia|exact F2|].
    apply fmt_x_denotes. lia.
Qed.
Theorem C80_lines : forall data, Forall (fun b => 0 <= b < 256) data ->
  exists header body, hexdump data = header ++ eol :: body /\ ~ In eol header /\ lines_ok 0 (chunks_of data) body.
Proof.
  intros data Hd. exists hd_header. eexists. split; [reflexivity|]. split.
  - vm_compute. intros H. repeat (destruct H as [H|H]; [discriminate|]). destruct H.
  - apply (loop_lines (length data) data 0 (lit "00")); [lia|exact Hd|]. split; [discriminate|reflexivity].
Qed.
(** The chunks are the data. *)
Theorem C80_all_bytes : forall data, List.concat (chunks_of data) = data /\ Forall (fun c => (length c <= 16)%nat) (chunks_of data).
Proof.
  intros data. split.
  - remember (length data) as n eqn:E. revert data E. induction n as [n IH] using lt_wf_ind. intros data E. rewrite chunks_step. destruct (Nat.ltb_spec (length data) 16).
    + cbn. now rewrite app_nil_r.
    + cbn [List.concat]. rewrite (IH (length (skipn 16 data))); [apply firstn_skipn|rewrite skipn_length; lia|reflexivity].
  - unfold chunks_of. apply Forall_forall. intros c H. apply in_map_iff in H. destruct H as (k & <- & _). rewrite firstn_length. lia.
Qed.
(** The first line numbers the columns: its label i stands over the second digit of the
    i-th byte of each line, all else being spaces. *)
Theorem C80_header : forall data, exists header body, hexdump data = header ++ eol :: body /\
  length header = 55%nat /\
  (forall i, (i < 16)%nat -> denotes [nth (7 + 3 * i) header "?"%char] (Z.of_nat i)) /\
  (forall j, (j < 55)%nat -> (forall i, (i < 16)%nat -> j <> 7 + 3 * i)%nat -> nth j header "?"%char = " "%char).
Proof.
  intros data. exists hd_header. eexists. split; [reflexivity|]. split; [reflexivity|]. split.
  - intros i Hi. do 16 (destruct i as [|i]; [split; [discriminate|reflexivity]|]). lia.
  - intros j Hj N. do 55 (destruct j as [|j]; [first [reflexivity | exfalso; match goal with N : forall i, _ -> ?k <> _ |- _ => let q := eval vm_compute in ((k - 7) / 3)%nat in apply (N q); lia end]|]). lia.
Qed.
Example C80_nonvacuous : string_of_list_ascii (skipn 56 (hexdump (map Z.of_nat (seq 5 17)))) =
  ("0x00: 05 06 07 08 09 0a 0b 0c 0d 0e 0f 10 11 12 13 14 " ++ String newline ("0x10: 15 " ++ String newline ""))%string.
Proof. vm_compute. reflexivity. Qed.
Print Assumptions C80_lines.
Print Assumptions C80_header.
Print Assumptions C80_all_bytes.
