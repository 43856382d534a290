(** Model of the layout checks of lambdalib/interface/stream.py and stream_utils.py.
    A raised ValueError is [None]. *)
From Coq Require Export String.
From Coq Require Import List Bool.
Export ListNotations.

(** A layout: a list of (name, shape), a shape being an integer width or a nested
    layout. *)
Inductive shape := Leaf (width : nat) | Nest (fields : list (string * shape)).
Definition layout := list (string * shape).
Inductive dir := Fanout | Fanin.
(** A full layout, as given to Record: leaves carry a direction. *)
Inductive fshape := FLeaf (width : nat) (d : dir) | FNest (fields : list (string * fshape)).
Definition flayout := list (string * fshape).

Definition mem (x : string) (l : list string) : bool := existsb (String.eqb x) l.

(** _make_fanout, stream.py:18-25. *)
Fixpoint fanout_shape (s : shape) : fshape :=
  match s with
  | Leaf w => FLeaf w Fanout                                                   (* 21-22 *)
  | Nest l => FNest (map (fun p => (fst p, fanout_shape (snd p))) l)           (* 23-24 *)
  end.
Definition make_fanout (l : layout) : flayout := map (fun p => (fst p, fanout_shape (snd p))) l.

(** EndpointDescription.get_full_layout, stream.py:32-49. *)
Definition reserved : list string := ["valid"; "ready"; "first"; "last"; "payload"]%string.   (* 33 *)
Fixpoint check_fields (attributed : list string) (l : layout) : bool :=        (* 34-40 *)
  match l with
  | [] => true
  | f :: r => if mem (fst f) attributed then false
              else if mem (fst f) reserved then false
              else check_fields (fst f :: attributed) r
  end.
Definition full_layout (l : layout) : option flayout :=
  if check_fields [] l then
    Some [("valid", FLeaf 1 Fanout); ("ready", FLeaf 1 Fanin); ("first", FLeaf 1 Fanout);
          ("last", FLeaf 1 Fanout); ("payload", FNest (make_fanout l))]%string  (* 42-48 *)
  else None.
(** Endpoint.__init__, 53-58: raises when get_full_layout does.  What Record itself
    rejects (nested duplicates, bad names) is not modelled. *)
Definition endpoint_ok (l : layout) : bool := match full_layout l with Some _ => true | None => false end.

(** Splitter.__init__, stream_utils.py:68-85. *)
Fixpoint split_fields (fields used : list string) (l : layout) : option (list string) :=   (* 80-85 *)
  match l with
  | [] => Some used
  | f :: r => if negb (mem (fst f) fields) then None
              else if mem (fst f) used then None
              else split_fields fields (fst f :: used) r
  end.
Fixpoint split_layouts (fields used : list string) (ls : list layout) : option (list string) :=   (* 79 *)
  match ls with
  | [] => Some used
  | l :: r => match split_fields fields used l with Some u => split_layouts fields u r | None => None end
  end.
Definition splitter_ok (from : layout) (tos : list layout) : bool :=
  endpoint_ok from && forallb endpoint_ok tos &&                               (* 72-75 *)
  match split_layouts (map fst from) [] tos with Some _ => true | None => false end.

(** Merger.__init__, stream_utils.py:147-163: the fields seen so far; the merged layout,
    of which PipeValid makes endpoints. *)
Fixpoint merge_fields (fields : list string) (l : layout) : option (list string) :=        (* 155-158 *)
  match l with
  | [] => Some fields
  | f :: r => if mem (fst f) fields then None else merge_fields (fst f :: fields) r
  end.
Fixpoint merge_layouts (fields : list string) (ls : list layout) : option layout :=        (* 154-160 *)
  match ls with
  | [] => Some []
  | l :: r => match merge_fields fields l with
              | Some fs => if endpoint_ok l then match merge_layouts fs r with Some m => Some (l ++ m) | None => None end else None
              | None => None end
  end.
Definition merger_layout (ls : list layout) : option layout :=
  match merge_layouts [] ls with Some m => if endpoint_ok m then Some m else None | None => None end.   (* 162 *)
