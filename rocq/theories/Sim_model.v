(** Model of lambdalib/interface/stream_sim.py.  A process added with add_sync_process
    runs at each clock edge from one bare [yield] to the next; the signals it reads have
    the values of the cycle that ends, the signals it sets change in the next cycle.  So
    it is a circuit.  random.random() < speed is an input [rnd], one draw per cycle
    (each process draws at most once between two yields).  Printing is left out. *)
From Verif Require Import Stream.

(** ** StreamSimSender, 17-60, for a list of items (one value for each key; all the lists
    of the dict have the same length). *)
Inductive sd_pc := SdDelay (n : nat) | SdRun | SdEnd.
Record sd_state (A : Type) := Sd { sd_pc_ : sd_pc; sd_i : nat; sd_valid : bool; sd_data : option A }.
Arguments Sd {A} _ _ _ _. Arguments sd_pc_ {A} _. Arguments sd_i {A} _. Arguments sd_valid {A} _. Arguments sd_data {A} _.
Record sd_in := SdIn { sd_ready : bool; sd_rnd : bool }.
(** The sink as the design sees it: valid, the item driven (None before the first), ready. *)
Record sd_obs (A : Type) := SdObs { sdo_valid : bool; sdo_data : option A; sdo_ready : bool; sdo_rnd : bool }.
Arguments SdObs {A} _ _ _ _. Arguments sdo_valid {A} _. Arguments sdo_data {A} _. Arguments sdo_ready {A} _. Arguments sdo_rnd {A} _.
Section Sender.
  Context {A : Type} (items : list A) (delay : nat).
  (** From the top of the while loop to its yield (42-51), valid being [v0] so far, [old]
      the valid and ready read at this edge. *)
  Definition sd_body (i : nat) (v0 old_v old_r rnd : bool) (d : option A) : sd_state A :=
    match nth_error items i with
    | Some x => Sd SdRun i (if (negb old_v || (old_v && old_r)) && rnd then true else v0) (Some x)   (* 43-49 *)
    | None => Sd SdEnd i v0 d                                                                        (* 42 *)
    end.
  Definition sim_sender : circuit sd_in (sd_obs A) :=
    Circuit (sd_state A) (Sd (SdDelay delay) 0 false None)
      (fun s i => SdObs (sd_valid s) (sd_data s) (sd_ready i) (sd_rnd i))
      (fun s i =>
         match sd_pc_ s with
         | SdDelay (S n) => Sd (SdDelay n) (sd_i s) (sd_valid s) (sd_data s)                         (* 38-39 *)
         | SdDelay O => sd_body 0 (sd_valid s) (sd_valid s) (sd_ready i) (sd_rnd i) (sd_data s)      (* 41 *)
         | SdRun =>
             if sd_valid s && sd_ready i                                                             (* 53 *)
             then sd_body (S (sd_i s)) false (sd_valid s) (sd_ready i) (sd_rnd i) (sd_data s)        (* 59-60 *)
             else sd_body (sd_i s) (sd_valid s) (sd_valid s) (sd_ready i) (sd_rnd i) (sd_data s)
         | SdEnd => s
         end).
End Sender.

(** ** StreamSimReceiver, 63-115.  [length] None: for ever; [full]: speed == 1.0. *)
Inductive rv_pc := RvDelay (n : nat) | RvRun | RvEnd.
Record rv_state (A : Type) := Rv { rv_pc_ : rv_pc; rv_ready : bool; rv_data : list A }.
Arguments Rv {A} _ _ _. Arguments rv_pc_ {A} _. Arguments rv_ready {A} _. Arguments rv_data {A} _.
Record rv_obs (A : Type) := RvObs { rvo_valid : bool; rvo_beat : A; rvo_ready : bool; rvo_rnd : bool; rvo_data : list A }.
Arguments RvObs {A} _ _ _ _ _. Arguments rvo_valid {A} _. Arguments rvo_beat {A} _. Arguments rvo_ready {A} _. Arguments rvo_rnd {A} _. Arguments rvo_data {A} _.
Record rv_in (A : Type) := RvIn { rvi_valid : bool; rvi_beat : A; rvi_rnd : bool }.
Arguments RvIn {A} _ _ _. Arguments rvi_valid {A} _. Arguments rvi_beat {A} _. Arguments rvi_rnd {A} _.
Section Receiver.
  Context {A : Type} (len : option nat) (full : bool) (delay : nat).
  Definition rv_done (data : list A) : bool := match len with Some n => Nat.eqb (length data) n | None => false end.   (* 87: i = number recorded *)
  Definition rv_body (s : rv_state A) (data : list A) (v rnd : bool) : rv_state A :=
    if rv_done data then Rv RvEnd (rv_ready s) data                                                  (* 87 *)
    else Rv RvRun ((v && rnd) || full) data.                                                         (* 88-92 *)
  Definition sim_receiver : circuit (rv_in A) (rv_obs A) :=
    Circuit (rv_state A) (Rv (RvDelay delay) false [])
      (fun s i => RvObs (rvi_valid i) (rvi_beat i) (rv_ready s) (rvi_rnd i) (rv_data s))
      (fun s i =>
         match rv_pc_ s with
         | RvDelay (S n) => Rv (RvDelay n) (rv_ready s) (rv_data s)                                  (* 83-84 *)
         | RvDelay O => rv_body s (rv_data s) (rvi_valid i) (rvi_rnd i)
         | RvRun => rv_body s (if rvi_valid i && rv_ready s then rv_data s ++ [rvi_beat i] else rv_data s)   (* 96-111 *)
                            (rvi_valid i) (rvi_rnd i)
         | RvEnd => s
         end).
End Receiver.

(** verify, 117-139.  [data], [expected] as functions of the key for the keys of
    expected; a missing key of the defaultdict gives []. *)
Fixpoint same_values (r e : list Z) : bool :=                                                        (* 130-137 *)
  match e, r with
  | [], _ => true
  | x :: e', y :: r' => (y =? x) && same_values r' e'
  | _ :: _, [] => false
  end.
Definition sim_verify {K} (keys : list K) (data expected : K -> list Z) : bool :=
  forallb (fun k => Nat.eqb (length (expected k)) (length (data k))) keys &&                         (* 120-124 *)
  forallb (fun k => same_values (data k) (expected k)) keys.                                         (* 126-137 *)

(** ** StreamSimConnect, 142-198.  [f]: what omit and remap make of the fields
    (184-189).  The program counter says after which yield the process stands. *)
Inductive cn_pc := CnInit | CnPoll | CnTake | CnGive | CnGap.
Record cn_state (A B : Type) := Cn { cn_pc_ : cn_pc; cn_ready : bool; cn_store : option A; cn_valid : bool; cn_out : option B }.
Arguments Cn {A B} _ _ _ _ _. Arguments cn_pc_ {A B} _. Arguments cn_ready {A B} _. Arguments cn_store {A B} _. Arguments cn_valid {A B} _. Arguments cn_out {A B} _.
Record cn_in (A : Type) := CnIn { cni_valid : bool; cni_beat : A; cni_sready : bool; cni_rnd : bool }.
Arguments CnIn {A} _ _ _ _. Arguments cni_valid {A} _. Arguments cni_beat {A} _. Arguments cni_sready {A} _. Arguments cni_rnd {A} _.
Record cn_obs (A B : Type) := CnObs { cno_valid : bool; cno_beat : A; cno_ready : bool;              (* source *)
                                      cno_svalid : bool; cno_out : option B; cno_sready : bool }.    (* sink *)
Arguments CnObs {A B} _ _ _ _ _ _. Arguments cno_valid {A B} _. Arguments cno_beat {A B} _. Arguments cno_ready {A B} _.
Arguments cno_svalid {A B} _. Arguments cno_out {A B} _. Arguments cno_sready {A B} _.
Section Connect.
  Context {A B : Type} (f : A -> B).
  Implicit Types (s : cn_state A B).
  Definition cn_loop s (store : option A) : cn_state A B := Cn CnPoll false store (cn_valid s) (cn_out s).   (* 163-164 *)
  Definition sim_connect : circuit (cn_in A) (cn_obs A B) :=
    Circuit (cn_state A B) (Cn CnInit false None false None)
      (fun s i => CnObs (cni_valid i) (cni_beat i) (cn_ready s) (cn_valid s) (cn_out s) (cni_sready i))
      (fun s i =>
         match cn_pc_ s with
         | CnInit => cn_loop s None                                                                  (* 156-164 *)
         | CnPoll =>
             match cn_store s with
             | None => if cni_valid i && cni_rnd i                                                   (* 166-178 *)
                       then Cn CnTake true (Some (cni_beat i)) (cn_valid s) (cn_out s)
                       else cn_loop s None
             | Some a => if cni_rnd i then Cn CnGive (cn_ready s) (Some a) true (Some (f a))         (* 180-191 *)
                         else cn_loop s (Some a)
             end
         | CnTake => cn_loop s (cn_store s)
         | CnGive => if cni_sready i then Cn CnGap (cn_ready s) (cn_store s) false (cn_out s)        (* 193-197 *)
                     else s
         | CnGap => cn_loop s None                                                                   (* 198 *)
         end).
End Connect.
