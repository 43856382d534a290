(** Model of lambdalib/software/i2c/bus.py: I2CBus.  The device [dev] is a pair of byte
    streams: [dev.write] appends a buffer, [dev.read n] returns the next [n] bytes (fewer
    if no more are to come).  Python integers are [Z]; [data] is a list of integers. *)
From Verif Require Import Hdl.

Inductive py_error := ValueError | IndexError | TypeError.

(** A method call: from the bytes the device will send, to the buffers written, the bytes
    left, and a result or an exception. *)
Record call (A : Type) := Call { c_written : list (list Z); c_left : list Z; c_result : A + py_error }.
Arguments Call {A}. Arguments c_written {A}. Arguments c_left {A}. Arguments c_result {A}.

(** bytearray([...]): every element must be in range(256). *)
Definition bytearray (l : list Z) : option (list Z) :=
  if forallb (fun x => (0 <=? x) && (x <? 256)) l then Some l else None.

(** bus.py:29-33 and 50-54: the loop, then reverse(). *)
Fixpoint reg_loop (n : nat) (reg : Z) : list Z :=
  match n with
  | O => []
  | S m => Z.land reg 0xff :: reg_loop m (Z.shiftr reg 8)
  end.
Definition reg_array (width reg : Z) : list Z := rev (reg_loop (Z.to_nat (width / 8)) reg).

(** One request: build the buffer, write it, read one status byte (lines 39-44, 57-62, 65-70).
    [inl true]: status 0. *)
Definition request (buf : list Z) (input : list Z) : call bool :=
  match bytearray buf with
  | None => Call [] input (inr ValueError)
  | Some b =>
      match input with
      | [] => Call [b] [] (inr IndexError)                  (* dev.read(1)[0] *)
      | s :: r => Call [b] r (inl (s =? 0))
      end
  end.

(** write_block_data, bus.py:27-46.  The result is [Some n] or Python's None. *)
Definition write_block_data (width addr reg : Z) (data : list Z) (input : list Z) : call (option Z) :=
  let array := reg_array width reg ++ data in
  let size := width / 8 + Z.of_nat (length data) in
  let q := request (Z.lor (Z.shiftl addr 1) 0 :: size :: array) input in
  Call (c_written q) (c_left q)
    match c_result q with
    | inl true => inl (Some (Z.of_nat (length data)))
    | inl false => inl None
    | inr e => inr e
    end.

(** read_block_data, bus.py:48-73.  [dev.read(length)] with a negative length is not modelled
    (bytearray has raised before). *)
Definition read_block_data (width addr reg : Z) (len : Z) (input : list Z) : call (option (list Z)) :=
  let q := request (Z.lor (Z.shiftl addr 1) 0 :: width / 8 :: reg_array width reg) input in
  match c_result q with
  | inr e => Call (c_written q) (c_left q) (inr e)
  | inl false => Call (c_written q) (c_left q) (inl None)
  | inl true =>
      let q2 := request [Z.lor (Z.shiftl addr 1) 1; len] (c_left q) in
      match c_result q2 with
      | inr e => Call (c_written q ++ c_written q2) (c_left q2) (inr e)
      | inl false => Call (c_written q ++ c_written q2) (c_left q2) (inl None)
      | inl true => Call (c_written q ++ c_written q2) (skipn (Z.to_nat len) (c_left q2))
                      (inl (Some (firstn (Z.to_nat len) (c_left q2))))
      end
  end.

(** read_byte_data, bus.py:24-25: None[0] raises TypeError. *)
Definition read_byte_data (width addr reg : Z) (input : list Z) : call Z :=
  let q := read_block_data width addr reg 1 input in
  Call (c_written q) (c_left q)
    match c_result q with
    | inl (Some (x :: _)) => inl x
    | inl (Some []) => inr IndexError
    | inl None => inr TypeError
    | inr e => inr e
    end.

(** write_byte_data, bus.py:21-22: the result of write_block_data is not returned. *)
Definition write_byte_data (width addr reg data : Z) (input : list Z) : call unit :=
  let q := write_block_data width addr reg [data] input in
  Call (c_written q) (c_left q) match c_result q with inl _ => inl tt | inr e => inr e end.

(** discover, bus.py:75-99, without the printing: zero-length writes to every address. *)
Fixpoint discover_loop (addrs : list Z) (input : list Z) : call (list Z) :=
  match addrs with
  | [] => Call [] input (inl [])
  | a :: r =>
      let q := request [Z.lor (Z.shiftl a 1) 0; 0] input in
      match c_result q with
      | inr e => Call (c_written q) (c_left q) (inr e)
      | inl ok =>
          let q2 := discover_loop r (c_left q) in
          Call (c_written q ++ c_written q2) (c_left q2)
            match c_result q2 with
            | inl found => inl (if ok then a :: found else found)
            | inr e => inr e
            end
      end
  end.
Definition discover (input : list Z) : call (list Z) := discover_loop (map Z.of_nat (seq 0 128)) input.

(** discover_queue, bus.py:101-121, likewise; it returns nothing, the addresses printed
    as present are given here. *)
Definition discover_queue (input : list Z) : call (list Z) :=
  let buf := flat_map (fun a => [Z.lor (Z.shiftl (Z.of_nat a) 1) 0; 0]) (seq 0 128) in
  match bytearray buf with
  | None => Call [] input (inr ValueError)
  | Some b => Call [b] (skipn 128 input)
      (inl (map (fun x => Z.of_nat (fst x)) (filter (fun x => snd x =? 0) (combine (seq 0 128) (firstn 128 input)))))
  end.
