(** Theorems C173: which packets the calls of I2CBus consume over USB, and how they fail. *)
From Verif Require Import Stream I2cbus_model Usbbus_model.

(** The reads that have returned took the packets in order, one each, and left the others. *)
Definition in_order {A} (pk : list (list Z)) (q : ucall A) : Prop := map snd (u_reads q) ++ u_left q = pk.
(** [begins_with l m]: [l] is a beginning of [m]. *)
Definition begins_with {A} (l m : list A) : Prop := exists rest, m = l ++ rest.
Definition is_octet (x : Z) : Prop := 0 <= x < 256.

Lemma bytearray_some l b : bytearray l = Some b -> b = l /\ Forall is_octet l.
Proof.
  unfold bytearray. destruct (forallb _ l) eqn:E; [|discriminate]. intros H. injection H as <-. split; auto.
  apply Forall_forall. intros x Hx. rewrite forallb_forall in E. apply E in Hx. unfold is_octet. lia.
Qed.
Lemma bytearray_none l : bytearray l = None -> ~ Forall is_octet l.
Proof.
  unfold bytearray. destruct (forallb _ l) eqn:E; [discriminate|]. intros _ H. rewrite Forall_forall in H.
  assert (forallb (fun x => (0 <=? x) && (x <? 256)) l = true); [|congruence]. apply forallb_forall. intros x Hx. apply H in Hx. unfold is_octet in Hx. lia.
Qed.

Ltac calls := unfold usb_write_block_data, usb_read_block_data, usb_request; cbv zeta;
  repeat match goal with |- context [bytearray ?b] => let E := fresh "E" in destruct (bytearray b) eqn:E end; cbn;
  repeat match goal with
  | |- context [recv _ ?pk] => is_var pk; destruct pk as [|[|? ?] pk]; cbn; change (Pos.to_nat 1) with 1%nat; cbn
  | |- context [if ?b then _ else _] => destruct b eqn:?; cbn
  | |- context [if ?b then inl ?x else _] => destruct b eqn:?; cbn
  end.

(** C173: a write asks for one status byte; a read for two, and then for the block.  Whatever
    the outcome, the packets taken are the first ones, one for each read, and the others are
    left for the next call. *)
Theorem C173_reads : forall width addr reg data len pk,
  let w := usb_write_block_data width addr reg data pk in
  let r := usb_read_block_data width addr reg len pk in
  in_order pk w /\ begins_with (map fst (u_reads w)) [1] /\
  in_order pk r /\ begins_with (map fst (u_reads r)) [1; 1; len].
Proof.
  intros width addr reg data len pk w r. unfold w, r, in_order, begins_with. clear w r.
  split; [calls; auto|]. split; [calls; eexists; reflexivity|]. split; [calls; auto|]. calls; eexists; reflexivity.
Qed.

(** C173: a call only waits when every packet that has come was taken. *)
Theorem C173_waits : forall width addr reg data len pk,
  let w := usb_write_block_data width addr reg data pk in
  let r := usb_read_block_data width addr reg len pk in
  (u_result w = inr Waiting -> u_left w = []) /\ (u_result r = inr Waiting -> u_left r = []).
Proof.
  intros width addr reg data len pk w r. unfold w, r. clear w r. split; calls; intros H; try discriminate; auto.
Qed.

(** C173: IndexError means that an empty packet came where a status was expected; the call
    has then sent what it had to send so far and asks for nothing more. *)
Theorem C173_index_error : forall width addr reg data len pk,
  let w := usb_write_block_data width addr reg data pk in
  let r := usb_read_block_data width addr reg len pk in
  (u_result w = inr (Raised IndexError) -> u_reads w = [(1, [])]) /\
  (u_result r = inr (Raised IndexError) ->
     u_reads r = [(1, [])] \/ exists s p, s = 0 /\ u_reads r = [(1, s :: p); (1, [])]).
Proof.
  intros width addr reg data len pk w r. unfold w, r. clear w r. split; calls; intros H; try discriminate; auto.
  right. match goal with H : (?z =? 0) = true |- _ => apply Z.eqb_eq in H end. eauto.
Qed.

(** C173: ValueError means that some number to be sent is not a byte.  A write has then sent
    nothing.  A read has sent nothing if the register or address is to blame; if only the
    length is, the register address has already been sent and acknowledged. *)
Theorem C173_value_error : forall width addr reg data len pk,
  let w := usb_write_block_data width addr reg data pk in
  let r := usb_read_block_data width addr reg len pk in
  (u_result w = inr (Raised ValueError) -> u_written w = [] /\ u_reads w = []) /\
  (u_result r = inr (Raised ValueError) ->
     u_written r = [] /\ u_reads r = [] \/
     ~ Forall is_octet [Z.lor (Z.shiftl addr 1) 1; len] /\
     u_written r = [Z.lor (Z.shiftl addr 1) 0 :: width / 8 :: reg_array width reg] /\
     exists p, u_reads r = [(1, 0 :: p)]).
Proof.
  intros width addr reg data len pk w r. unfold w, r. clear w r. split; calls; intros H; try discriminate; auto.
  right. match goal with H : (?z =? 0) = true |- _ => apply Z.eqb_eq in H; subst z end.
  repeat match goal with H : bytearray _ = Some _ |- _ => apply bytearray_some in H; destruct H as [-> _] | H : bytearray _ = None |- _ => apply bytearray_none in H end. eauto.
Qed.

(** C173: in particular a read of more than 255 bytes from a device that is present. *)
Theorem C173_too_long : forall width addr reg len p pk,
  0 <= width -> 0 <= addr < 128 -> width / 8 < 256 -> Forall is_octet (reg_array width reg) ->
  ~ is_octet len ->
  let r := usb_read_block_data width addr reg len ((0 :: p) :: pk) in
  u_result r = inr (Raised ValueError) /\ u_left r = pk /\
  u_written r = [2 * addr :: width / 8 :: reg_array width reg].
Proof.
  intros width addr reg len p pk HW HA HW2 HR HL r. unfold r. clear r.
  assert (EA : Z.lor (Z.shiftl addr 1) 0 = 2 * addr) by (rewrite Z.lor_0_r, Z.shiftl_mul_pow2; lia).
  assert (HW3 : 0 <= width / 8) by (apply Z.div_pos; lia).
  calls; auto.
  all: repeat match goal with H : bytearray _ = Some _ |- _ => apply bytearray_some in H; destruct H as [-> ?] | H : bytearray _ = None |- _ => apply bytearray_none in H end.
  all: try (exfalso; match goal with H : ~ Forall is_octet (_ :: _ :: reg_array _ _) |- _ => apply H end; rewrite EA; repeat (constructor; [unfold is_octet; lia|]); exact HR).
  all: try (exfalso; match goal with H : Forall is_octet [_; _] |- _ => inversion H as [|? ? ? X]; inversion X; contradiction end).
  all: rewrite EA; auto.
Qed.

Example C173_nonvacuous :
  u_result (usb_read_block_data 8 0x50 3 2 [[0; 7]; [0]; [1; 2]; [9]]) = inl (Some [1; 2]) /\
  u_left (usb_read_block_data 8 0x50 3 2 [[0; 7]; [0]; [1; 2]; [9]]) = [[9]] /\
  u_result (usb_read_block_data 8 0x50 3 2 [[0]]) = inr Waiting /\
  u_result (usb_read_block_data 8 0x50 3 2 [[0]; []; [5]]) = inr (Raised IndexError) /\
  u_left (usb_read_block_data 8 0x50 3 2 [[0]; []; [5]]) = [[5]] /\
  u_result (usb_write_block_data 8 0x50 3 [256] [[0]]) = inr (Raised ValueError) /\
  u_result (usb_read_block_data 8 0x50 3 256 [[0]; [0]]) = inr (Raised ValueError) /\
  u_written (usb_read_block_data 8 0x50 3 256 [[0]; [0]]) = [[0xA0; 1; 3]].
Proof. vm_compute. repeat split; reflexivity. Qed.

Print Assumptions C173_reads.
Print Assumptions C173_waits.
Print Assumptions C173_index_error.
Print Assumptions C173_value_error.
Print Assumptions C173_too_long.
