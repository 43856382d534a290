(** Specification vocabulary for the memory streams. *)
From Verif Require Import Stream Mem_model.

(** The observations after the last cycle with rewind high (all, if none). *)
Definition since {O} (rew : O -> bool) (t : list O) : list O :=
  fold_left (fun acc o => if rew o then [] else acc ++ [o]) t [].

(** The words accepted on the sink. *)
Definition ms_written (t : list mem_obs) : list Z :=
  flat_map (fun o => map bdata (xfer (mo_sink o) (mo_sready o))) t.
(** The beats delivered on the source. *)
Definition ms_delivered (t : list mem_obs) : list (beat Z) :=
  flat_map (fun o => xfer (mo_src o) (mo_rready o)) t.
Definition mr_delivered (t : list mr_obs) : list (beat Z) :=
  flat_map (fun o => xfer (ro_src o) (ro_rready o)) t.

(** A list of words as one packet: last on the final word only. *)
Definition packet_beat (ws : list Z) (k : nat) : beat Z :=
  Beat false (Nat.eqb (S k) (length ws)) (nth k ws 0).
Definition packet (ws : list Z) : list (beat Z) := map (packet_beat ws) (seq 0 (length ws)).

(** A MemoryStream of either kind. *)
Definition memory_stream (depth : Z) (buffered : bool) : circuit mem_in mem_obs :=
  if buffered then mem_stream_buffered depth else mem_stream depth.
Definition memory_reader (init : list Z) (buffered : bool) : circuit (bool * bool) mr_obs :=
  if buffered then mem_reader_buffered init else mem_reader init.

(** The history is empty or its final cycle has rewind high. *)
Definition ends_with_rewind (t : list mem_obs) : Prop :=
  t = [] \/ exists t' o, t = t' ++ [o] /\ mo_rewind o = true.

(** What the memory should contain: the k-th word accepted since the last rewind
    goes to position k; the first component counts the words since the rewind. *)
Definition image_step (x : nat * (nat -> Z)) (o : mem_obs) : nat * (nat -> Z) :=
  if mo_rewind o then (0%nat, snd x)
  else if cvalid (mo_sink o) then
    (S (fst x), fun p => if Nat.eqb p (fst x) then bdata (cbeat (mo_sink o)) else snd x p)
  else x.
Definition image (t : list mem_obs) : nat * (nat -> Z) := fold_left image_step t (0%nat, fun _ => 0).
