(** I2CBus programs and what they should do on the I2C bus (C123). *)
From Verif Require Import Stream I2c_model I2cstream_model I2cstream_spec I2cproto_model I2cproto_spec I2cbus_model.

(** The calls of a program and what they return. *)
Inductive op :=
  | OWrite (addr reg : Z) (data : list Z)      (* write_block_data *)
  | ORead (addr reg len : Z)                   (* read_block_data *)
  | OWriteByte (addr reg x : Z)                (* write_byte_data *)
  | OReadByte (addr reg : Z)                   (* read_byte_data *)
  | ODiscover.                                 (* discover *)
Inductive outcome :=
  | RWrite (r : option Z) | RRead (r : option (list Z)) | RDone | RByte (x : Z) | RFound (addrs : list Z)
  | RRaised (e : py_error).

Definition returned {A} (f : A -> outcome) (c : call A) : list (list Z) * list Z * outcome :=
  (c_written c, c_left c, match c_result c with inl x => f x | inr e => RRaised e end).
Definition do_op (width : Z) (o : op) (input : list Z) : list (list Z) * list Z * outcome :=
  match o with
  | OWrite a r d => returned RWrite (write_block_data width a r d input)
  | ORead a r n => returned RRead (read_block_data width a r n input)
  | OWriteByte a r x => returned (fun _ => RDone) (write_byte_data width a r x input)
  | OReadByte a r => returned RByte (read_byte_data width a r input)
  | ODiscover => returned RFound (discover input)
  end.
(** A program run against the bytes the device sends: the bytes written, the bytes left
    unread, the outcome of each call. *)
Fixpoint run_ops (width : Z) (prog : list op) (input : list Z) : list Z * list Z * list outcome :=
  match prog with
  | [] => ([], input, [])
  | o :: r => let '(w, unread, x) := do_op width o input in
              let '(w', unread', xs) := run_ops width r unread in (concat w ++ w', unread', x :: xs)
  end.

(** The arguments that fit. *)
Definition byte_ (x : Z) : Prop := 0 <= x < 256.
Definition addr_ (a : Z) : Prop := 0 <= a < 128.
Definition fits (width : Z) (o : op) : Prop :=
  match o with
  | OWrite a _ d => addr_ a /\ Forall byte_ d /\ width / 8 + Z.of_nat (length d) < 256
  | ORead a _ n => addr_ a /\ width / 8 < 256 /\ 0 <= n < 256
  | OWriteByte a _ x => addr_ a /\ byte_ x /\ width / 8 + 1 < 256
  | OReadByte a _ => addr_ a /\ width / 8 < 256
  | ODiscover => True
  end.

(** The register number, most significant byte first, in [width / 8] bytes. *)
Definition reg_bytes (width reg : Z) : list Z :=
  map (fun i => (reg / 256 ^ Z.of_nat (Z.to_nat (width / 8) - 1 - i)) mod 256) (seq 0 (Z.to_nat (width / 8))).

(** A write of [bytes] to device [addr], all acknowledged or refused at some byte: the
    beats on the I2C bus with their error flags. *)
Inductive written_to (addr : Z) (bytes : list Z) : bool -> list (beat (bool * Z) * bool) -> Prop :=
  | wt_ok : written_to addr bytes true (taken (write_beats (2 * addr :: bytes)))
  | wt_no good b rest : write_beats (2 * addr :: bytes) = good ++ b :: rest ->
      written_to addr bytes false (taken good ++ [(b, true)]).

(** [did width o x beats data]: on the bus, [o] was carried out by [beats], the bytes read
    being [data], and [x] is the right outcome. *)
Inductive did (width : Z) : op -> outcome -> list (beat (bool * Z) * bool) -> list (beat Z) -> Prop :=
  | did_write a r d ok bs :
      written_to a (reg_bytes width r ++ d) ok bs ->
      did width (OWrite a r d) (RWrite (if ok then Some (Z.of_nat (length d)) else None)) bs []
  | did_read_reg a r n bs :
      written_to a (reg_bytes width r) false bs -> did width (ORead a r n) (RRead None) bs []
  | did_read_addr a r n bs :
      written_to a (reg_bytes width r) true bs ->
      did width (ORead a r n) (RRead None) (bs ++ [(Beat false false (false, 2 * a + 1), true)]) []
  | did_read a r n bs data :
      written_to a (reg_bytes width r) true bs -> Z.of_nat (length data) = n ->
      did width (ORead a r n) (RRead (Some (map bdata data)))
        (bs ++ (Beat false false (false, 2 * a + 1), false) :: taken (read_beats (Z.to_nat n))) data
  | did_write_byte a r x y bs :
      did width (OWrite a r [x]) y bs [] -> did width (OWriteByte a r x) RDone bs []
  | did_read_byte a r x bs data :
      did width (ORead a r 1) (RRead (Some [x])) bs data -> did width (OReadByte a r) (RByte x) bs data
  | did_read_byte_no a r bs data :
      did width (ORead a r 1) (RRead None) bs data -> did width (OReadByte a r) (RRaised TypeError) bs data
  | did_discover (ack : Z -> bool) :
      let all := map Z.of_nat (seq 0 128) in
      did width ODiscover (RFound (filter ack all))
        (map (fun a => (Beat false true (false, 2 * a), negb (ack a))) all) [].

(** A program carried out call by call, in order. *)
Inductive carried_out (width : Z) : list op -> list outcome -> list (beat (bool * Z) * bool) -> list (beat Z) -> Prop :=
  | co_nil : carried_out width [] [] [] []
  | co_cons o prog x xs beats beats' data data' :
      did width o x beats data -> carried_out width prog xs beats' data' ->
      carried_out width (o :: prog) (x :: xs) (beats ++ beats') (data ++ data').
