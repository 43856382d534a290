(** Model of lambdalib/cores/i2c/init.py: I2CRegisterInit, with its buffered
    MemoryStreamReader and its I2CWriterStream inside. *)
From Verif Require Import Stream Mem_model I2c_model I2cstream_model.

(** init.py:31-39 regs_data_to_mem, stored in an 8-bit memory (45). *)
Definition ri_table (addr : Z) (regs : list (Z * Z)) : list Z :=
  flat_map (fun rv => [trunc 8 (Z.shiftl addr 1); trunc 8 (fst rv); trunc 8 (snd rv)]) regs.

(** One cycle: the exposed writer stream (53-64), done, and the two submodules. *)
Record ri_obs := RiObs { ri_user : chan Z; ri_uready : bool; ri_done : bool; ri_mem : mr_obs; ri_w : iw_obs }.

Section RegInit.
  Context (addr : Z) (regs : list (Z * Z)) (expose : bool) (period : Z) (stretch oe : bool).
  Let mem := mem_reader_buffered (ri_table addr regs).     (* 45; rewind is left at 0 *)
  Let wrt := i2c_writer period stretch oe.                 (* 48 *)
  Record ri_state := Ri { rs_done : bool; rs_mem : cst mem; rs_w : cst wrt }.
  Definition ri_reset : ri_state := Ri false (creset mem) (creset wrt).

  (** mem.source, a register, so independent of mem.source.ready. *)
  Definition ri_msrc (s : ri_state) : chan Z := snd (rs_mem s).
  Definition ri_tomem (s : ri_state) : bool := negb expose || negb (rs_done s).             (* 53, 56 *)
  (** The sink of the writer, and the two ready signals it drives (53-64). *)
  Definition ri_wsink (s : ri_state) (u : chan Z) : chan Z := if ri_tomem s then ri_msrc s else u.
  Definition ri_mready (s : ri_state) : bool := ri_tomem s && iw_take (rs_w s).
  Definition ri_urdy (s : ri_state) : bool := expose && rs_done s && iw_take (rs_w s).

  Definition reg_init : circuit (chan Z * pads) ri_obs :=
    Circuit ri_state ri_reset
      (fun s '(u, p) => RiObs u (ri_urdy s) (rs_done s) (cout mem (rs_mem s) (false, ri_mready s))
                          (cout wrt (rs_w s) (ri_wsink s u, p)))
      (fun s '(u, p) =>
         Ri (if cvalid (ri_msrc s) && ri_mready s && blast (cbeat (ri_msrc s)) then true else rs_done s)  (* 50-51 *)
            (cnext mem (rs_mem s) (false, ri_mready s))
            (cnext wrt (rs_w s) (ri_wsink s u, p))).
End RegInit.
