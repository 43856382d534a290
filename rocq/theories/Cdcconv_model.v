(** Model of Converter, lambdalib/interface/stream.py:404-463, between two clock domains
    (cd_from and cd_to differ).  In one clock domain it is [converter] of Converter_model,
    whose equal-width case is the plain connection of 429.

    As for [async_fifo], an execution is a list of clock edges of either domain; what a side
    of the FIFO knows of the other is chosen by the environment.  The buffered FIFO
    (AsyncFIFOBuffered, one place more) differs from the other in capacity and delay only. *)
From Verif Require Import Stream Fifo_model Converter_model.

(** An edge of cd_from: the sink, the writer's view; and, because a part of the design may be
    clocked by this edge and connected to the other side, the levels there: source.ready and
    the reader's view. *)
Inductive cv_event :=
| CvFrom (sink : chan Z) (seen_reads : Z) (ready : bool) (seen_writes : Z)
| CvTo (ready : bool) (seen_writes : Z).
(** What the user sees: the sink at edges of cd_from, the source at edges of cd_to. *)
Inductive cv_obs := CvSink (sink : chan Z) (ready : bool) | CvSource (src : chan Z) (ready : bool).

Section Cdc.
  (** [m]: the width converter (419-427), or wires; [pw]: payload width of the FIFO (434-435);
      [depth]: its depth. *)
  Context (m : smod Z Z) (pw depth : Z).
  (** asc.source *)
  Definition cv_out (f : af_state) (seen : Z) : chan Z :=
    Chan (af_rrdy f seen) (fifo_unpack pw (nth (Z.to_nat (af_rd f)) (af_mem f) 0)).
  (** An edge of either domain for the FIFO: [c] at asc.sink; [r] at asc.source.ready. *)
  Definition cv_write (f : af_state) (c : chan Z) (seen : Z) : af_state :=
    Af (af_mem f ++ map (fifo_pack pw) (xfer c (af_wrdy depth f seen))) (af_rd f) (clampup (af_seen_r f) (af_rd f) seen) (af_seen_w f).
  Definition cv_read (f : af_state) (r : bool) (seen : Z) : af_state :=
    Af (af_mem f) (if af_rrdy f seen && r then af_rd f + 1 else af_rd f) (af_seen_r f)
       (clampup (af_seen_w f) (Z.of_nat (length (af_mem f))) seen).

  (** put_width_converter_first (455-457): sink -> cvt -> asc -> source.  The converter is
      clocked by cd_from (422). *)
  Definition convert_then_cross : circuit cv_event cv_obs :=
    Circuit (st m * af_state) (st0 m, Af [] 0 0 0)
      (fun s e => match e with
        | CvFrom c seen _ _ => CvSink c (rdy m (fst s) c (af_wrdy depth (snd s) seen))
        | CvTo r seen => CvSource (cv_out (snd s) seen) r
        end)
      (fun s e => match e with
        | CvFrom c seen _ _ => (nxt m (fst s) c (af_wrdy depth (snd s) seen), cv_write (snd s) (src m (fst s) c) seen)
        | CvTo r seen => (fst s, cv_read (snd s) r seen)
        end).
  (** Otherwise (458-460): sink -> asc -> cvt -> source.  The converter is clocked by cd_from
      here too (422), although both its streams belong to cd_to. *)
  Definition cross_then_convert : circuit cv_event cv_obs :=
    Circuit (st m * af_state) (st0 m, Af [] 0 0 0)
      (fun s e => match e with
        | CvFrom c seen _ _ => CvSink c (af_wrdy depth (snd s) seen)
        | CvTo r seen => CvSource (src m (fst s) (cv_out (snd s) seen)) r
        end)
      (fun s e => match e with
        | CvFrom c seen r seen_w => (nxt m (fst s) (cv_out (snd s) seen_w) r, cv_write (snd s) c seen)
        | CvTo r seen => (fst s, cv_read (snd s) (rdy m (fst s) (cv_out (snd s) seen) r) seen)
        end).
End Cdc.

(** AsyncFIFO(s.description, 8, buffered=self.buffered), 434-437: 8 words, and one more in
    the output register of AsyncFIFOBuffered. *)
Definition cv_depth (buffered : bool) : Z := wrapper_depth 8 + if buffered then 1 else 0.
(** Converter.elaborate, 444-463.  [None] is the ValueError of _Converter. *)
Definition cdc_converter (nbits_from nbits_to : Z) (reverse buffered first : bool) : option (circuit cv_event cv_obs) :=
  match converter nbits_from nbits_to reverse with
  | None => None
  | Some m => Some (if first then convert_then_cross m nbits_to (cv_depth buffered)
                    else cross_then_convert m nbits_from (cv_depth buffered))
  end.
