(** A program on the PC that uses I2CBus over the UART bridge (C148). *)
From Verif Require Import Stream I2c_model I2cstream_model I2cstream_spec I2cproto_model I2cproto_spec I2cbus_model I2cbus_props Serial_model Bridge_model Bridge_spec.

(** The calls: write_block_data, read_block_data and one address of discover. *)
Inductive bus_call := WriteBlock (addr reg : Z) (data : list Z) | ReadBlock (addr reg len : Z) | Probe (addr : Z).
Inductive bus_result := Written (r : option Z) | Block (r : option (list Z)) | Present (r : bool).
(** A program: what it does next depends on what it was told so far. *)
Inductive program := Finished | Do (c : bus_call) (k : bus_result -> program).

(** A call on a port whose [read] waits for as many bytes as asked for (pyserial without a
    timeout, as in examples/i2c_bridge_soft.py): the bytes written given the bytes received so
    far, and, if the call has returned, its result and the bytes received that it did not use. *)
Definition call_so_far (width : Z) (c : bus_call) (input : list Z) : list Z * option (bus_result * list Z) :=
  match c with
  | WriteBlock a g d =>
      let q := write_block_data width a g d input in
      (concat (c_written q), match c_result q with inl r => Some (Written r, c_left q) | inr _ => None end)
  | ReadBlock a g n =>
      let q := read_block_data width a g n input in
      (concat (c_written q),
       match c_result q with
       | inl (Some l) => if Z.of_nat (length l) =? n then Some (Block (Some l), c_left q) else None
       | inl None => Some (Block None, c_left q)
       | inr _ => None
       end)
  | Probe a =>
      let q := discover_loop [a] input in
      (concat (c_written q),
       match c_result q with inl l => Some (Present (match l with [] => false | _ => true end), c_left q) | inr _ => None end)
  end.
(** The bytes a program has written, the calls that have returned with their results, and
    whether it has ended, given the bytes received so far. *)
Fixpoint written (width : Z) (p : program) (input : list Z) : list Z :=
  match p with
  | Finished => []
  | Do c k => fst (call_so_far width c input) ++
      match snd (call_so_far width c input) with Some (r, rest) => written width (k r) rest | None => [] end
  end.
Fixpoint history (width : Z) (p : program) (input : list Z) : list (bus_call * bus_result) :=
  match p with
  | Finished => []
  | Do c k => match snd (call_so_far width c input) with Some (r, rest) => (c, r) :: history width (k r) rest | None => [] end
  end.
Fixpoint ended (width : Z) (p : program) (input : list Z) : bool :=
  match p with
  | Finished => true
  | Do c k => match snd (call_so_far width c input) with Some (r, rest) => ended width (k r) rest | None => false end
  end.
(** Arguments that fit the request format (others raise, C54); no read of 0 bytes (C87). *)
Definition call_ok (width : Z) (c : bus_call) : Prop :=
  match c with
  | WriteBlock a _ d => 0 <= a < 128 /\ Forall is_byte d /\ width / 8 + Z.of_nat (length d) < 256
  | ReadBlock a _ n => 0 <= a < 128 /\ width / 8 < 256 /\ 1 <= n < 256
  | Probe a => 0 <= a < 128
  end.
Fixpoint program_ok (width : Z) (p : program) : Prop :=
  match p with Finished => True | Do c k => call_ok width c /\ forall r, program_ok width (k r) end.

(** Each byte that enters the bridge is the next one the program has written, given the bytes
    that have left the bridge before. *)
Definition driven_by (width : Z) (p : program) (t : list br_obs) : Prop :=
  forall t1 o t2, t = t1 ++ o :: t2 -> uo_rx_rdy (bo_us o) && uo_rx_ack (bo_us o) = true ->
    exists later, map bdata (accepted (map uart t1)) ++ uo_rx_data (bo_us o) :: later = written width p (map bdata (emitted (map uart t1))).
(** The values on the receiver's data lines are bytes; no write request has been incomplete for
    more than [limit] cycles since its length byte (UART: as [good_user]). *)
Definition bytes_in (t : list br_obs) : Prop := Forall (fun o => 0 <= uo_rx_data (bo_us o) < 256) t.
Definition in_time (limit : Z) (t : list br_obs) : Prop := forall t1 t2, t = t1 ++ t2 -> waited t1 <= limit.

(** What a call must have made of the I2C bus, given what it returned: the bytes served with
    their error flags, and the bytes read. *)
Definition reg_bytes (width reg : Z) : list Z := big_endian (Z.to_nat (width / 8)) reg.
Inductive explained (width : Z) : bus_call -> bus_result -> list (beat (bool * Z) * bool) -> list (beat Z) -> Prop :=
  | written_all a g d :
      explained width (WriteBlock a g d) (Written (Some (Z.of_nat (length d)))) (taken (write_beats (2 * a :: reg_bytes width g ++ d))) []
  | written_refused a g d good b rest :
      write_beats (2 * a :: reg_bytes width g ++ d) = good ++ b :: rest ->
      explained width (WriteBlock a g d) (Written None) (taken good ++ [(b, true)]) []
  | read_all a g n data :
      map blast data = map blast (read_beats (Z.to_nat n)) ->
      explained width (ReadBlock a g n) (Block (Some (map bdata data)))
        (taken (write_beats (2 * a :: reg_bytes width g)) ++ (Beat false false (false, 2 * a + 1), false) :: taken (read_beats (Z.to_nat n))) data
  | read_reg_refused a g n good b rest :
      write_beats (2 * a :: reg_bytes width g) = good ++ b :: rest ->
      explained width (ReadBlock a g n) (Block None) (taken good ++ [(b, true)]) []
  | read_refused a g n :
      explained width (ReadBlock a g n) (Block None)
        (taken (write_beats (2 * a :: reg_bytes width g)) ++ [(Beat false false (false, 2 * a + 1), true)]) []
  | probe_there a : explained width (Probe a) (Present true) [(Beat false true (false, 2 * a), false)] []
  | probe_absent a : explained width (Probe a) (Present false) [(Beat false true (false, 2 * a), true)] [].
