(** Vocabulary for C118 - C120: what a program using USBEndpoint objects asked and got. *)
From Verif Require Import Usbep_model.

Definition is_in (m : moved) : bool := match x_dir (m_xfr m) with In_ _ => true | Out_ _ => false end.

(** The bytes the device delivered in the transfers asked by object [o], in order. *)
Definition delivered (o : nat) (log : list moved) : list Z :=
  concat (map m_bytes (filter (fun m => is_in m && Nat.eqb (x_obj (m_xfr m)) o) log)).
(** The bytes returned by the calls of recv on [o], in order. *)
Definition received (o : nat) (xs : list (call * result)) : list Z :=
  concat (map (fun cx => match cx with (Recv p _, Data d) => if Nat.eqb p o then d else [] | _ => [] end) xs).

(** The byte strings of the OUT transfers submitted for [o], in order. *)
Definition outgoing (o : nat) (asked : list xfr) : list (Z * list Z) :=
  concat (map (fun x => match x_dir x with Out_ d => if Nat.eqb (x_obj x) o then [(x_addr x, d)] else [] | In_ _ => [] end) asked).
(** All values are bytes. *)
Definition all_bytes (d : list Z) : bool := forallb (fun x => x mod 256 =? x) d.
(** The data given to send on [o], where all values are bytes. *)
Definition sends (o : nat) (xs : list (call * result)) : list (list Z) :=
  concat (map (fun cx => match fst cx with Send p d => if Nat.eqb p o && all_bytes d then [d] else [] | Recv _ _ => [] end) xs).

(** No asynchronous recv of the history was left by an exception. *)
Definition uninterrupted (conf : nat -> ep_conf) (xs : list (call * result)) : Prop :=
  forall o l, In (Recv o l, Raised) xs -> c_async (conf o) = false.
(** No synchronous recv moved bytes and then failed or timed out. *)
Definition clean_timeouts (conf : nat -> ep_conf) (prog : list (call * env)) : Prop :=
  forall o l e, In (Recv o l, e) prog -> c_async (conf o) = false -> en_status e <> Completed -> en_bytes e = [].
