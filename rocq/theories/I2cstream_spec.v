(** What a user of I2CStream / I2CWriterStream expects on the bus. *)
From Verif Require Import Stream I2c_model I2cstream_model.

(** The commands carried out by the initiator, in order. *)
Definition commands (t : list i2c_obs) : list i2c_cmd :=
  flat_map (fun o => match io_cmd o with Some c => [c] | None => [] end) t.

(** The beats served by an I2CStream, each with the error flag of that cycle. *)
Definition served (t : list ist_obs) : list (beat (bool * Z) * bool) :=
  flat_map (fun o => map (fun b => (b, so_error o)) (xfer (o_sink (so_io o)) (o_sready (so_io o)))) t.

(** One command per beat: reads are acknowledged unless last. *)
Definition beat_cmd (b : beat (bool * Z)) : i2c_cmd :=
  if fst (bdata b) then CRead (negb (blast b)) else CWrite (snd (bdata b)).

Definition closes (x : beat (bool * Z) * bool) : bool := blast (fst x) || snd x.

(** The commands for a list of served beats: a start before the first beat of a
    transaction, a stop after a last or refused beat. *)
Fixpoint expected (is_open : bool) (l : list (beat (bool * Z) * bool)) : list i2c_cmd :=
  match l with
  | [] => []
  | x :: r => (if is_open then [] else [CStart]) ++ beat_cmd (fst x) ::
              (if closes x then [CStop] else []) ++ expected (negb (closes x)) r
  end.

Fixpoint bus_open (is_open : bool) (l : list (beat (bool * Z) * bool)) : bool :=
  match l with
  | [] => is_open
  | x :: r => bus_open (negb (closes x)) r
  end.

(** Commands with their outcome: [Some ack] once the command is over. *)
Definition close_result (o : i2c_obs) (l : list (i2c_cmd * option bool)) : list (i2c_cmd * option bool) :=
  match rev l with
  | (c, None) :: r => if io_busy o then l else rev r ++ [(c, Some (io_ack o))]
  | _ => l
  end.
Definition results_step (l : list (i2c_cmd * option bool)) (o : i2c_obs) : list (i2c_cmd * option bool) :=
  close_result o l ++ match io_cmd o with Some c => [(c, None)] | None => [] end.
Definition results (t : list i2c_obs) : list (i2c_cmd * option bool) := fold_left results_step t [].

(** Replay of a command log as three-byte transactions over [bytes].  [k] triples are
    done; inside a transaction [j] bytes of triple [k] have been acknowledged. *)
Inductive wphase := Between | Inside (j : nat) | Waiting (j : nat) | Over.

Definition replay1 (bytes : list Z) (st : wphase * nat) (e : i2c_cmd * option bool) : option (wphase * nat) :=
  let '(ph, k) := st in
  match ph, e with
  | Between, (CStart, _) => Some (Inside 0, k)
  | Inside j, (CWrite x, r) =>
      match nth_error bytes (3 * k + j) with
      | None => None
      | Some y =>
          if negb (x =? y) then None
          else match r with
               | None => Some (Waiting j, k)                     (* not over yet *)
               | Some false => Some (Over, k)                    (* refused: end, try again *)
               | Some true => if (j =? 2)%nat then Some (Over, S k) else Some (Inside (S j), k)
               end
      end
  | Over, (CStop, _) => Some (Between, k)
  | _, _ => None
  end.

Fixpoint replay (bytes : list Z) (st : wphase * nat) (l : list (i2c_cmd * option bool)) : option (wphase * nat) :=
  match l with
  | [] => Some st
  | e :: r => match replay1 bytes st e with Some st' => replay bytes st' r | None => None end
  end.

(** The sink side of an I2CWriterStream, as a stream observation (no source). *)
Definition wo_io (o : iw_obs) : obs Z unit := Obs (wo_sink o) (wo_ready o) (Chan false (Beat false false tt)) false.
Definition bytes_of (t : list iw_obs) : list Z := map bdata (accepted (map wo_io t)).
