(** Model of the life of a USBDevice, lambdalib/software/usb/device.py:71-109: opening,
    endpoints, the end.  The library usb1 is an environment: any call may succeed or raise.
    Objects live as CPython's do: an object without references is finalised at once; an
    object in a cycle of references is finalised by a run of the garbage collector. *)
From Verif Require Import Stream Usb_model.

(** The calls made to usb1: USBContext(), getDeviceList, open of the device at an index of
    the list, claimInterface, releaseInterface, close of the context, and any transfer
    (control_write, control_read, the methods of an endpoint). *)
Inductive ucall := UContext | UList | UOpen (k : nat) | UClaim | URelease | UClose | UTransfer.
(** Does a call succeed, given the calls before it? *)
Definition ulib := list ucall -> ucall -> bool.

Section Life.
  Context (lib : ulib) (devs : list (Z * Z)) (vid pid idx : Z).

  (** What the object has: self.context, self.handle (78-79, 87). *)
  Record uobj := UObj { u_context : bool; u_handle : bool }.
  (** __init__, 72-93: the calls made, whether it raised, and the object as it is then.
      The search is that of Usb_model (81-89). *)
  Definition u_init (h : list ucall) : list ucall * bool * uobj :=
    let h1 := h ++ [UContext] in
    if negb (lib h UContext) then (h1, true, UObj false false)                              (* 79 *)
    else let h2 := h1 ++ [UList] in
    if negb (lib h1 UList) then (h2, true, UObj true false)                                 (* 82 *)
    else match dev_open vid pid idx devs with
    | None => (h2, true, UObj true false)                                                   (* 91-92 *)
    | Some k =>
        let h3 := h2 ++ [UOpen k] in
        if negb (lib h2 (UOpen k)) then (h3, true, UObj true false)                         (* 87 *)
        else (h3 ++ [UClaim], negb (lib h3 UClaim), UObj true true)                         (* 93 *)
    end.
  (** __del__, 106-109: an exception in it is printed and ignored by Python; the rest of
      the method is not executed.  Without self.context (79 raised), self.context.close()
      raises AttributeError: no call is made. *)
  Definition u_del (o : uobj) (h : list ucall) : list ucall :=
    if u_handle o && negb (lib h URelease) then h ++ [URelease]
    else let h' := if u_handle o then h ++ [URelease] else h in
    if u_context o then h' ++ [UClose] else h'.

  (** The program: get_endpoint (101-104), a transfer on the device (95-99) or on its j-th
      endpoint, dropping the last reference to either, a run of the collector.  (Simplification: the program does not take
      the device back from the attribute device of an endpoint; each transfer is one call.) *)
  Inductive uop := OGet | ODevice | OEndpoint (j : nat) | ODropDevice | ODrop (j : nat) | OCollect.
  (** The device object: referenced by the program, by its endpoints (device=self, 104).
      The endpoints not yet finalised: is the j-th referenced by the program?  Each is in a
      cycle: self.write = self.send (21-22) is a bound method, which refers to self. *)
  Record ulife := ULife { u_held : bool; u_eps : list (option bool); u_alive : bool; u_calls : list ucall }.
  Definition u_kept (s : ulife) : bool := u_held s || existsb (fun e => match e with Some _ => true | None => false end) (u_eps s).
  Definition u_sweep (s : ulife) : ulife :=
    if u_alive s && negb (u_kept s) then ULife (u_held s) (u_eps s) false (u_del (UObj true true) (u_calls s)) else s.
  Definition set_nth (j : nat) (e : option bool) (l : list (option bool)) := firstn j l ++ match skipn j l with [] => [] | _ :: r => e :: r end.
  Definition u_holds (s : ulife) (j : nat) : bool := match nth j (u_eps s) None with Some b => b | None => false end.
  Definition u_step (s : ulife) (op : uop) : ulife :=
    match op with
    | OGet => if u_held s then ULife true (u_eps s ++ [Some true]) (u_alive s) (u_calls s) else s
    | ODevice => if u_held s then ULife true (u_eps s) (u_alive s) (u_calls s ++ [UTransfer]) else s
    | OEndpoint j => if u_holds s j then ULife (u_held s) (u_eps s) (u_alive s) (u_calls s ++ [UTransfer]) else s
    | ODropDevice => u_sweep (ULife false (u_eps s) (u_alive s) (u_calls s))
    | ODrop j => if u_holds s j then ULife (u_held s) (set_nth j (Some false) (u_eps s)) (u_alive s) (u_calls s) else s
    | OCollect => u_sweep (ULife (u_held s) (map (fun e => match e with Some true => Some true | _ => None end) (u_eps s)) (u_alive s) (u_calls s))
    end.
  (** A whole life: __init__, then, if it raised, the end of the object (simplification: at
      once, not when the traceback, which refers to it, is forgotten); the program otherwise. *)
  Definition u_run (ops : list uop) : ulife :=
    match u_init [] with
    | (h, true, o) => ULife false [] false (u_del o h)
    | (h, false, o) => fold_left u_step ops (ULife true [] true h)
    end.
End Life.
