(** What a ULPI PHY does with the register reads it is sent (UTMI+ Low Pin Interface, 3.8.3):
    the specification against which the values dumped are judged.  Nothing here refers to the
    dumper. *)
From Verif Require Import Stream Ulpi_model.

(** A read command is a byte 11aaaaaa that the PHY takes (nxt) from the bus.  Address 101111
    announces an extended register, whose address is the next byte taken.  The PHY then raises
    dir, and in the cycle after that drives the value of the register, with nxt low.
      Idle      no read is under way (the PHY may own the bus, receive, send status)
      Address   the byte taken next is the address of an extended register
      Reading v the command is taken, dir not yet raised
      Turn v    dir was raised; v is driven now *)
Inductive pst := Idle | Address | Reading (v : Z) | Turn (v : Z).
Section Phy.
  Context (reg ext : Z -> Z).          (* contents of the immediate and of the extended registers *)
  Definition driven (o : xc_obs) : bool := xo_oe o && negb (ph_dir (xo_phy o)) && ph_nxt (xo_phy o).
  Definition idle_next (o : xc_obs) : pst :=
    if driven o && (xo_data_o o / 64 =? 3) then
      if xo_data_o o mod 64 =? 47 then Address else Reading (reg (xo_data_o o mod 64))
    else Idle.
  (** [abort]: whether the PHY may give up a read because a USB packet comes in, which it
      does by raising dir and nxt together. *)
  Definition phy_next (abort : bool) (p : pst) (o : xc_obs) : option pst :=
    let d := ph_dir (xo_phy o) in let n := ph_nxt (xo_phy o) in
    match p with
    | Idle => Some (idle_next o)
    | Address => if d then if abort && n then Some Idle else None else if n then Some (Reading (ext (xo_data_o o))) else Some Address
    | Reading v => if d then if n then if abort then Some Idle else None else Some (Turn v)
                   else if n then None else Some (Reading v)
    | Turn v => if d && negb n && (ph_data (xo_phy o) =? v) then Some Idle else None
    end.
  Definition phy_after (abort : bool) (t : list xc_obs) : option pst :=
    fold_left (fun p o => match p with None => None | Some q => phy_next abort q o end) t (Some Idle).
  (** The PHY keeps to the protocol, and does not give up reads. *)
  Definition serves (t : list xc_obs) : Prop := exists p, phy_after false t = Some p.
  (** The PHY keeps to the protocol. *)
  Definition complies (t : list xc_obs) : Prop := exists p, phy_after true t = Some p.
End Phy.
