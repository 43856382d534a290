(** What an observer of the two I2C lines records.  Only the levels asked for by
    the initiator, the levels it sees and the commands it takes are used. *)
From Verif Require Import Hdl I2c_model.

(** Bus conditions: SDA changing while SCL is high. *)
Inductive i2c_cond := BusStart | BusStop.

(** Record of the current command: the command itself and the levels when it was
    taken (SCL seen, SDA seen, SDA driven); SDA (as driven) at each rising edge of
    SCL, SDA (as seen) in each high phase of SCL, the bus conditions, and the number
    of falling edges of SCL; then the previous levels and whether SDA has been
    sampled in the present high phase. *)
Record monitor := Mon {
  m_cmd : option i2c_cmd; m_at : bool * bool * bool;
  m_rises : list bool; m_samples : list bool; m_conds : list i2c_cond; m_falls : Z;
  m_scl : bool; m_sda : bool; m_sampled : bool }.

Definition mon_reset : monitor := Mon None (true, true, true) [] [] [] 0 true true true.

Section Monitor.
  (** With clock stretching a high phase begins when SCL is seen high; without, as
      soon as it is released. *)
  Context (stretch : bool).

  Definition mon_step (m : monitor) (o : i2c_obs) : monitor :=
    match io_cmd o with
    | Some c => Mon (Some c) (io_scl_i o, io_sda_i o, io_sda o) [] [] [] 0 (io_scl o) (io_sda o) true
    | None =>
        let rise := io_scl o && negb (m_scl m) in
        let fall := negb (io_scl o) && m_scl m in
        let sampled := m_sampled m && negb rise in
        let sample := io_scl o && negb sampled && (negb stretch || io_scl_i o) in
        let high := io_scl o && m_scl m in
        Mon (m_cmd m) (m_at m)
          (m_rises m ++ if rise then [io_sda o] else [])
          (m_samples m ++ if sample then [io_sda_i o] else [])
          (m_conds m ++ if high && m_sda m && negb (io_sda o) then [BusStart]
                        else if high && negb (m_sda m) && io_sda o then [BusStop] else [])
          (m_falls m + if fall then 1 else 0)
          (io_scl o) (io_sda o) (sampled || sample)
    end.

  Definition monitored (t : list i2c_obs) : monitor := fold_left mon_step t mon_reset.
End Monitor.

(** The last command taken. *)
Definition last_cmd (t : list i2c_obs) : option i2c_cmd :=
  fold_left (fun c o => match io_cmd o with Some x => Some x | None => c end) t None.

(** Bits of an octet, most significant first. *)
Definition msb_first (x : Z) : list bool := map (fun k => Z.testbit x (7 - Z.of_nat k)) (seq 0 8).
Fixpoint from_msb (l : list bool) (acc : Z) : Z :=
  match l with [] => acc | b :: r => from_msb r (2 * acc + Z.b2z b) end.
