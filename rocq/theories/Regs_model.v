(** Model of lambdalib/cores/regs.py (StreamRegs) and lambdalib/litex/cores/regs.py
    (StreamRegs, RegsStream). *)
From Verif Require Import Stream Bits.

(** ** cores/regs.py:12-58, StreamRegs.
    One payload of type [A] stands for all the fields of the layout (lines 23-26,
    45-49 do the same for each).  Registers: the arrays (24-26, reset [d0]), we
    (27-29), idx (36).  An out of range array index cannot occur. *)
Record sr_state (A : Type) := Sr { sr_regs : Z -> A; sr_we : Z -> bool; sr_idx : Z }.
Arguments Sr {A} _ _ _.
Arguments sr_regs {A} _ _.
Arguments sr_we {A} _ _.
Arguments sr_idx {A} _.
Record sr_obs (A : Type) := SrObs {
  sro_sink : chan A; sro_ready : bool; sro_regs : Z -> A; sro_we : Z -> bool }.
Arguments SrObs {A} _ _ _ _.
Arguments sro_sink {A} _.
Arguments sro_ready {A} _.
Arguments sro_regs {A} _ _.
Arguments sro_we {A} _ _.

Definition sr_idx_next (w length idx : Z) (last : bool) : Z :=           (* lines 53-56 *)
  if (idx =? length - 1) || last then 0 else trunc w (idx + 1).

Definition sr_next {A} (length : Z) (s : sr_state A) (c : chan A) : sr_state A :=
  if cvalid c then                                                       (* line 42 *)
    Sr (fun k => if k =? sr_idx s then bdata (cbeat c) else sr_regs s k) (* lines 45-49 *)
       (fun k => k =? sr_idx s)                                          (* lines 39-40, 50 *)
       (sr_idx_next (range_width length) length (sr_idx s) (blast (cbeat c)))
  else Sr (sr_regs s) (fun _ => false) (sr_idx s).                       (* lines 39-40 *)

Definition stream_regs {A} (d0 : A) (length : Z) : circuit (chan A) (sr_obs A) :=
  Circuit (sr_state A) (Sr (fun _ => d0) (fun _ => false) 0)
    (fun s c => SrObs c true (sr_regs s) (sr_we s))                      (* line 38 *)
    (sr_next length).

(** ** litex/cores/regs.py:16-58, StreamRegs.
    The CSR bus side is not modelled: the observation is the value of each
    CSRStatus and of the event trigger. *)

(** litex.gen.common.reverse_bytes, used at line 42, for a value of [n] bytes:
    Cat of the bytes from the highest to the lowest. *)
Fixpoint reverse_bytes (n : nat) (x : Z) : Z :=
  match n with
  | O => 0
  | S k => cat 8 (slice (8 * Z.of_nat k) 8 x) (reverse_bytes k x)
  end.

Record lr_obs := LrObs {
  lro_sink : chan Z; lro_ready : bool; lro_regs : Z -> Z; lro_trigger : bool }.
Record lr_state := Lr { lr_regs : Z -> Z; lr_idx : Z }.
(** Signal(max=depth) is bits_for(depth-1) bits wide, at least one (line 36). *)
Definition migen_max_width (n : Z) : Z := Z.max 1 (range_width n).

Section LitexRegs.
  Context (depth : Z) (bytes : nat) (reverse : bool).
  Definition lr_next (s : lr_state) (c : chan Z) : lr_state :=
    if cvalid c then                                                     (* line 40 *)
      Lr (fun k => if k =? lr_idx s
                   then (if reverse then reverse_bytes bytes (bdata (cbeat c)) else bdata (cbeat c))
                   else lr_regs s k)                                     (* line 42 *)
         (sr_idx_next (migen_max_width depth) depth (lr_idx s) (blast (cbeat c))) (* 45-49 *)
    else s.
  Definition litex_stream_regs : circuit (chan Z) lr_obs :=
    Circuit lr_state (Lr (fun _ => 0) 0)
      (fun s c => LrObs c true (lr_regs s)                               (* line 38 *)
                    (cvalid c && blast (cbeat c)))                       (* lines 54-58, ready = 1 *)
      lr_next.
End LitexRegs.

(** ** litex/cores/regs.py:61-75, RegsStream.
    A CSR write is one event: the storage takes the value and [re] is high during
    the following cycle (litex CSRStorage; [last] is used through its storage
    only).  The FIFO is litex stream.SyncFIFO(buffered=True): a queue of [depth]
    beats followed by an output register (line 63). *)
Record rs_in := RsIn { ri_data : option Z; ri_last : option bool; ri_ready : bool }.
Record rs_state := Rs {
  rs_data : Z; rs_re : bool; rs_last : bool; rs_q : list (beat Z); rs_out : option (beat Z) }.
Record rs_obs := RsObs {
  rso_wdata : option Z; rso_wlast : option bool;         (* CSR writes in this cycle *)
  rso_push : chan Z; rso_pready : bool;                  (* fifo.sink *)
  rso_src : chan Z; rso_rready : bool }.                 (* source *)

Definition rs_push (s : rs_state) : chan Z :=            (* lines 71-75; first undriven *)
  Chan (rs_re s) (Beat false (rs_last s) (rs_data s)).
Definition rs_pready (depth : Z) (s : rs_state) : bool := negb (Z.of_nat (length (rs_q s)) =? depth).
Definition rs_src (s : rs_state) : chan Z :=             (* line 64 *)
  match rs_out s with Some b => Chan true b | None => Chan false (Beat false false 0) end.
Definition rs_next (depth : Z) (s : rs_state) (i : rs_in) : rs_state :=
  let push := xfer (rs_push s) (rs_pready depth s) in
  let free := match rs_out s with None => true | Some _ => ri_ready i end in
  Rs (match ri_data i with Some d => d | None => rs_data s end)
     (match ri_data i with Some _ => true | None => false end)
     (match ri_last i with Some l => l | None => rs_last s end)
     (if free then tl (rs_q s) ++ push else rs_q s ++ push)
     (if free then hd_error (rs_q s) else rs_out s).
Definition regs_stream (depth : Z) : circuit rs_in rs_obs :=
  Circuit rs_state (Rs 0 false false [] None)
    (fun s i => RsObs (ri_data i) (ri_last i) (rs_push s) (rs_pready depth s) (rs_src s) (ri_ready i))
    (rs_next depth).
