(** Model of the construction and elaboration of USBGenericDevice
    (lambdalib/cores/usb/generic_device.py), beyond the endpoint lists of Usb_model: Microsoft
    descriptors, request handlers, custom endpoints.  LUNA's USBDevice and usb_protocol's
    descriptor emitters are not in the repository: what is modelled is what they are given. *)
From Verif Require Import Stream Usb_model.

(** with_microsoft_os_1_0: a bool, or a list of interface numbers (36-37). *)
Inductive ms_arg := MsBool (b : bool) | MsList (l : list Z).
(** Request handlers of the control endpoint: the user's, by name, and
    MicrosoftOS10RequestHandler with the interfaces declared compatible and its request
    code (139-146). *)
Inductive handler := User (name : Z) | Microsoft (functions : list Z) (code : Z).
(** The attributes that do not stay as __init__ set them (64, 66). *)
Record gen_dev := GenDev { gd_ms : ms_arg; gd_handlers : list handler }.

(** What never changes: pins has an attribute d_n (51), max_packet_size, ep_sizes,
    ep_pairs, custom_ep by name (27-40). *)
Record gen_conf := GenConf {
  gc_full_speed : bool; gc_max : option Z; gc_sizes : option (list (Z * Z)); gc_pairs : nat; gc_custom : list Z }.
(** 50-54. *)
Definition gen_max (c : gen_conf) : Z := match gc_max c with None => if gc_full_speed c then 64 else 512 | Some m => m end.
(** 56-60. *)
Definition gen_sizes (c : gen_conf) : list (Z * Z) := gd_sizes (gc_sizes c) (gc_pairs c) (gen_max c).

(** __init__ (64-66), then add_control_ep_handler (149-150) for each handler of the user. *)
Definition gen_init (arg : ms_arg) (users : list Z) : gen_dev := GenDev arg (map User users).

(** Truth of with_microsoft_os_1_0 (161). *)
Definition truthy (a : ms_arg) : bool := match a with MsBool b => b | MsList [] => false | MsList _ => true end.

(** add_microsoft_os_1_0, 121-147: the string descriptor at index 0xee, as the code points of the
    string (123), and the object afterwards. *)
Definition msft_string : list Z := [77; 83; 70; 84; 49; 48; 48; 0xee].
Definition add_microsoft (d : gen_dev) : list (Z * list Z) * gen_dev :=
  let l := match gd_ms d with MsBool _ => [0] | MsList l => l end in                           (* 129-130 *)
  ([(0xee, msft_string)], GenDev (MsList l) (gd_handlers d ++ [Microsoft l 0xee])).            (* 132-147 *)

(** What elaborate (152-215) gives to LUNA: string descriptors with an index of their own, bulk endpoint
    descriptors, handlers of the control endpoint in the order they are added (172-173),
    endpoints of the gateware (183-201), custom endpoints (203-204). *)
Record built := Built {
  b_strings : list (Z * list Z); b_descriptors : list (Z * Z); b_handlers : list handler; b_endpoints : list hw_ep; b_custom : list Z }.
Definition elaborate (c : gen_conf) (d : gen_dev) : built * gen_dev :=
  let (s, d') := if truthy (gd_ms d) then add_microsoft d else ([], d) in                      (* 161-162 *)
  (Built s (gd_descriptors 0 (gen_sizes c)) (gd_handlers d') (gd_endpoints 0 (gen_sizes c)) (gc_custom c), d').

(** The object elaborated [n] more times. *)
Fixpoint elaborated (n : nat) (c : gen_conf) (d : gen_dev) : gen_dev :=
  match n with O => d | S m => elaborated m c (snd (elaborate c d)) end.
