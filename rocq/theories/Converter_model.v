(** Model of the width converters, lambdalib/interface/stream.py:244-401. *)
From Verif Require Import Stream Bits Pipe_model.

(** n = self.ratio-i-1 if self.reverse else i   (stream.py:302, 349) *)
Definition lane (k : Z) (reverse : bool) (i : Z) : Z := if reverse then k - i - 1 else i.

(** ** _UpConverter, stream.py:244-307 *)
(** Registers: demux (260), strobe_all (262), source.first/last (282-297),
    source.data (299-305). *)
Record up_state := Up { up_demux : Z; up_strobe : bool; up_first : bool; up_last : bool; up_data : Z }.

Section Up.
  Variables (n k : Z) (reverse : bool).   (* nbits_from, ratio, reverse *)

  Definition up_reset : up_state := Up 0 false false false 0.

  (** sink.ready, line 264 *)
  Definition up_rdy (s : up_state) (r : bool) : bool := negb (up_strobe s) || r.

  (** source.valid is strobe_all (line 265) *)
  Definition up_src (s : up_state) : chan Z :=
    Chan (up_strobe s) (Beat (up_first s) (up_last s) (up_data s)).

  Definition up_next (s : up_state) (c : chan Z) (r : bool) : up_state :=
    let load := cvalid c && up_rdy s r in                        (* load_part, line 266 *)
    let sink := cbeat c in
    let demux_last := (up_demux s =? k - 1) || blast sink in     (* line 269 *)
    Up
      (* demux, lines 273-280 *)
      (if load then (if demux_last then 0 else trunc (range_width k) (up_demux s + 1))
       else up_demux s)
      (* strobe_all, lines 271-277: the later assignment wins *)
      (if load && demux_last then true else if r then false else up_strobe s)
      (* source.first, lines 282-297 *)
      (if up_strobe s && r then (if load then bfirst sink else false)
       else if load then bfirst sink || up_first s else up_first s)
      (* source.last *)
      (if up_strobe s && r then (if load then blast sink else false)
       else if load then blast sink || up_last s else up_last s)
      (* source.data, lines 300-305 *)
      (if load && (0 <=? up_demux s) && (up_demux s <? k)
       then set_slice (n * lane k reverse (up_demux s)) n (up_data s) (bdata sink)
       else up_data s).

  Definition up_conv : smod Z Z :=
    SMod up_state up_reset (fun s _ => up_src s) (fun s _ r => up_rdy s r) up_next.
End Up.

(** ** _DownConverter, stream.py:312-353.  Register: mux (328). *)
Section Down.
  Variables (n k : Z) (reverse : bool).   (* nbits_to, ratio, reverse *)

  Definition down_src (mux : Z) (c : chan Z) : chan Z :=
    Chan (cvalid c)                                              (* line 334 *)
      (Beat (bfirst (cbeat c) && (mux =? 0))                     (* lines 332, 335 *)
            (blast (cbeat c) && (mux =? k - 1))                  (* lines 333, 336 *)
            (* lines 347-351; no case selected leaves the default 0 *)
            (if (0 <=? mux) && (mux <? k)
             then slice (n * lane k reverse mux) n (bdata (cbeat c)) else 0)).

  Definition down_rdy (mux : Z) (r : bool) : bool := (mux =? k - 1) && r.  (* line 337 *)

  Definition down_next (mux : Z) (c : chan Z) (r : bool) : Z :=  (* lines 340-344 *)
    if cvalid c && r then (if mux =? k - 1 then 0 else trunc (range_width k) (mux + 1))
    else mux.

  Definition down_conv : smod Z Z :=
    SMod Z 0 down_src (fun s _ r => down_rdy s r) down_next.
End Down.

(** ** _get_converter_ratio, stream.py:373-388.  [None] is the ValueError. *)
Inductive conv_kind := KDown | KUp | KIdentity.

Definition get_converter_ratio (nbits_from nbits_to : Z) : option (conv_kind * Z) :=
  if nbits_from >? nbits_to then
    if negb (nbits_from mod nbits_to =? 0) then None else Some (KDown, nbits_from / nbits_to)
  else if nbits_from <? nbits_to then
    if negb (nbits_to mod nbits_from =? 0) then None else Some (KUp, nbits_to / nbits_from)
  else Some (KIdentity, 1).

(** ** _Converter, stream.py:393-401 *)
Definition converter (nbits_from nbits_to : Z) (reverse : bool) : option (smod Z Z) :=
  match get_converter_ratio nbits_from nbits_to with
  | None => None
  | Some (KDown, ratio) => Some (down_conv nbits_to ratio reverse)
  | Some (KUp, ratio) => Some (up_conv nbits_from ratio reverse)
  | Some (KIdentity, _) => Some identity_conv
  end.
