(** Model of the transfers of lambdalib/software/usb/device.py:9-68, USBEndpoint.  The
    program has one thread.  usb1/libusb and the device are the environment: they decide
    when a submitted transfer ends, how (its status) and with which bytes, and which ends
    are noticed in one call of handleEvents (any number, in any order).  Submitting itself
    is taken to succeed. *)
From Coq Require Export ZArith List Bool.
Export ListNotations.
Open Scope Z_scope.

Inductive status := Completed | TimedOut | Failed.

(** USBEndpoint.__init__, 10-18: what does not change.  Objects are numbered. *)
Record ep_conf := EpConf { c_num : Z; c_size : Z; c_async : bool }.
(** The attributes wbusy (26, 40), rbusy (32, 57) and rdata (31; absent before the first
    read ends). *)
Record ep_attr := EpAttr { a_wbusy : bool; a_rbusy : bool; a_rdata : option (list Z) }.

(** A submitted transfer: the object whose callback it calls, the endpoint address, IN
    (with the length asked, 59) or OUT (with its bytes, 42). *)
Inductive direction := In_ (len : Z) | Out_ (bytes : list Z).
Record xfr := Xfr { x_id : nat; x_obj : nat; x_addr : Z; x_dir : direction }.
(** What happened on the bus: a transfer ended with this status, moving these bytes. *)
Record moved := Moved { m_xfr : xfr; m_status : status; m_bytes : list Z }.

(** The program's state; [h_log] and [h_asked] record the ended and the submitted
    transfers, in order (no part of the code, used to state theorems). *)
Record host := Host {
  h_attr : nat -> ep_attr; h_out : list xfr; h_next : nat; h_log : list moved; h_asked : list xfr }.
Definition host0 : host := Host (fun _ => EpAttr false false None) [] 0 [] [].

Definition upd {A} (f : nat -> A) (o : nat) (a : A) : nat -> A := fun p => if Nat.eqb p o then a else f p.
Definition set_attr (h : host) (o : nat) (a : ep_attr) : host :=
  Host (upd (h_attr h) o a) (h_out h) (h_next h) (h_log h) (h_asked h).

(** The end of a transfer as the environment gives it. *)
Record ending := Ending { d_id : nat; d_status : status; d_bytes : list Z }.

(** cb_wr (24-26) and cb_rd (28-32): getBuffer()[0:length] is what was moved. *)
Definition callback (x : xfr) (bytes : list Z) (a : ep_attr) : ep_attr :=
  match x_dir x with
  | Out_ _ => EpAttr false (a_rbusy a) (a_rdata a)
  | In_ _ => EpAttr (a_wbusy a) false (Some bytes)
  end.

(** One end noticed: the transfer is no longer outstanding, its callback runs.  An end of
    a transfer that is not outstanding does not happen. *)
Definition finish (h : host) (d : ending) : host :=
  match find (fun x => Nat.eqb (x_id x) (d_id d)) (h_out h) with
  | None => h
  | Some x =>
      Host (upd (h_attr h) (x_obj x) (callback x (d_bytes d) (h_attr h (x_obj x))))
           (filter (fun y => negb (Nat.eqb (x_id y) (d_id d))) (h_out h))
           (h_next h) (h_log h ++ [Moved x (d_status d) (d_bytes d)]) (h_asked h)
  end.
Definition finish_all (h : host) (ds : list ending) : host := fold_left finish ds h.

(** getTransfer, setBulk, submit (41-44, 58-60). *)
Definition submit (h : host) (o : nat) (addr : Z) (dir : direction) : host :=
  let x := Xfr (h_next h) o addr dir in
  Host (h_attr h) (h_out h ++ [x]) (S (h_next h)) (h_log h) (h_asked h ++ [x]).

Inductive result := Done | Data (bytes : list Z) | Raised | Waiting.

(** One call of handleEvents: the ends it notices, and whether it raises an exception
    afterwards (an error of libusb, an interrupt from the keyboard). *)
Record events := Events { ev_ends : list ending; ev_raise : bool }.

(** The loop 62-64.  When the events run out it is still waiting. *)
Fixpoint wait (o : nat) (evs : list events) (h : host) : host * result :=
  if a_rbusy (h_attr h o) then
    match evs with
    | [] => (h, Waiting)
    | e :: r => let h' := finish_all h (ev_ends e) in
                if ev_raise e then (h', Raised) else wait o r h'
    end
  else (h, match a_rdata (h_attr h o) with Some d => Data d | None => Raised end).

(** bytearray(data) raises when a value is not a byte. *)
Definition is_bytes (l : list Z) : bool := forallb (fun x => (0 <=? x) && (x <? 256)) l.

(** What the environment does during a call: the calls of handleEvents, and, for a
    synchronous transfer, how it ends (the other transfers ending meanwhile are noticed
    too). *)
Record env := Env { en_events : list events; en_status : status; en_bytes : list Z }.

(** A synchronous transfer (bulkWrite, bulkRead) is submitted and ends within the call. *)
Definition sync_transfer (h : host) (o : nat) (addr : Z) (dir : direction) (e : env) : host :=
  let h1 := finish_all h (concat (map ev_ends (en_events e))) in
  let x := Xfr (h_next h1) o addr dir in
  Host (h_attr h1) (h_out h1) (S (h_next h1)) (h_log h1 ++ [Moved x (en_status e) (en_bytes e)]) (h_asked h1 ++ [x]).

Section Endpoint.
  Context (conf : nat -> ep_conf).

  (** usb1.ENDPOINT_OUT and ENDPOINT_IN (42, 59; bulkWrite and bulkRead add them themselves). *)
  Definition out_addr (o : nat) : Z := Z.lor (c_num (conf o)) 0.
  Definition in_addr (o : nat) : Z := Z.lor (c_num (conf o)) 128.

  (** send, 34-44. *)
  Definition send (o : nat) (data : list Z) (e : env) (h : host) : host * result :=
    if negb (c_async (conf o)) then
      if negb (is_bytes data) then (h, Raised)
      else (sync_transfer h o (out_addr o) (Out_ data) e, match en_status e with Completed => Done | _ => Raised end)   (* 36-37 *)
    else
      let h := set_attr h o (EpAttr true (a_rbusy (h_attr h o)) (a_rdata (h_attr h o))) in     (* 40 *)
      if negb (is_bytes data) then (h, Raised) else (submit h o (out_addr o) (Out_ data), Done).

  (** recv, 46-64. *)
  Definition recv (o : nat) (length : option Z) (e : env) (h : host) : host * result :=
    let len := match length with None => c_size (conf o) | Some l => l end in                  (* 47-48 *)
    if negb (c_async (conf o)) then                                                            (* 50-54 *)
      (sync_transfer h o (in_addr o) (In_ len) e,
       match en_status e with Completed => Data (en_bytes e) | TimedOut => Data [] | Failed => Raised end)
    else
      let h := set_attr h o (EpAttr (a_wbusy (h_attr h o)) true (a_rdata (h_attr h o))) in     (* 57 *)
      wait o (en_events e) (submit h o (in_addr o) (In_ len)).

  (** exchange, 66-68: the two calls have their own environments. *)
  Definition exchange (o : nat) (data : list Z) (e e' : env) (h : host) : host * result :=
    let (h1, r) := send o data e h in
    match r with
    | Raised => (h1, Raised)
    | _ => recv o (Some (Z.of_nat (List.length data))) e' h1
    end.

  (** A program: calls of send and recv, one after the other. *)
  Inductive call := Send (o : nat) (data : list Z) | Recv (o : nat) (length : option Z).
  Definition do_call (c : call) (e : env) (h : host) : host * result :=
    match c with Send o d => send o d e h | Recv o l => recv o l e h end.
  (** The calls made so far with their results; a call that is still waiting is the last. *)
  Fixpoint run (prog : list (call * env)) (h : host) : host * list (call * result) :=
    match prog with
    | [] => (h, [])
    | (c, e) :: r =>
        let (h', x) := do_call c e h in
        match x with
        | Waiting => (h', [(c, x)])
        | _ => let (h'', xs) := run r h' in (h'', (c, x) :: xs)
        end
    end.
End Endpoint.
