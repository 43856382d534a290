(** Model of Endpoint.bfm_send and bfm_read, lambdalib/interface/stream.py:66-107: coroutines of the
    Amaranth simulator.  Between two clock edges the process sets the signals, lets the design settle and
    reads ready (valid) of that same cycle.  So a cycle's outputs are those of the state and the next state
    depends on the signal read in it.  A packet is any type: one value for each key. *)
From Verif Require Import Stream.

(** ** bfm_send.  [elapsed] as in the code (77-83). *)
Inductive bs_state := BsRun (i : nat) (elapsed : Z) | BsEnd | BsTimeout.
Record bs_obs (A : Type) := BsObs { bso_valid : bool; bso_first : bool; bso_last : bool; bso_pkt : option A; bso_ready : bool }.
Arguments BsObs {A} _ _ _ _ _. Arguments bso_valid {A} _. Arguments bso_first {A} _. Arguments bso_last {A} _. Arguments bso_pkt {A} _. Arguments bso_ready {A} _.
Section Send.
  Context {A : Type} (pkts : list A) (timeout : Z).
  Definition bs_at (i : nat) : bs_state := if Nat.ltb i (length pkts) then BsRun i 1 else BsEnd.   (* 68, 77 *)
  Definition bs_out (s : bs_state) (ready : bool) : bs_obs A :=
    match s with
    | BsRun i _ => BsObs true (Nat.eqb i 0) (Nat.eqb i (length pkts - 1)) (nth_error pkts i) ready  (* 70-74 *)
    | BsEnd => BsObs false false false None ready                                                   (* 86; the other signals keep their values, not shown *)
    | BsTimeout => BsObs false false false None ready                                               (* the simulation is over *)
    end.
  Definition bs_next (s : bs_state) (ready : bool) : bs_state :=
    match s with
    | BsRun i e =>
        if ready then bs_at (S i)                                                                   (* 78, 85-86 *)
        else if timeout <=? e + 1 then BsTimeout else BsRun i (e + 1)                               (* 79-83 *)
    | _ => s
    end.
  Definition bfm_send : circuit bool (bs_obs A) := Circuit bs_state (bs_at 0) bs_out bs_next.
End Send.

(** ** [n] calls of bfm_read one after the other; the results so far. *)
Inductive br_pc := BrWait (elapsed : Z) | BrEnd | BrTimeout.
Record br_state (A : Type) := Br { br_pc_ : br_pc; br_res : list A }.
Arguments Br {A} _ _. Arguments br_pc_ {A} _. Arguments br_res {A} _.
Record br_obs (A : Type) := BrObs { bro_valid : bool; bro_pkt : A; bro_ready : bool; bro_res : list A }.
Arguments BrObs {A} _ _ _ _. Arguments bro_valid {A} _. Arguments bro_pkt {A} _. Arguments bro_ready {A} _. Arguments bro_res {A} _.
Section Read.
  Context {A : Type} (n : nat) (timeout : Z).
  Definition br_start (res : list A) : br_state A :=
    Br (if Nat.ltb (length res) n then BrWait 0 else BrEnd) res.                                    (* 89 *)
  Definition br_ready (s : br_state A) : bool := match br_pc_ s with BrWait _ => true | _ => false end.   (* 91, 105 *)
  Definition br_next (s : br_state A) (i : bool * A) : br_state A :=
    match br_pc_ s with
    | BrWait e =>
        if fst i then br_start (br_res s ++ [snd i])                                                (* 93, 100-107 *)
        else if timeout <=? e + 1 then Br BrTimeout (br_res s) else Br (BrWait (e + 1)) (br_res s)  (* 94-98 *)
    | _ => s
    end.
  Definition bfm_read : circuit (bool * A) (br_obs A) :=
    Circuit (br_state A) (br_start []) (fun s i => BrObs (fst i) (snd i) (br_ready s) (br_res s)) br_next.
End Read.
