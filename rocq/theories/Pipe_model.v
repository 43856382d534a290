(** Model of PipeValid and PipeReady, lambdalib/interface/stream.py:178-239.
    The payload is an arbitrary type [A] (the cores only copy it); [dflt] is the
    reset value of the payload registers (all zero in the hardware). *)
From Verif Require Import Stream.

Section Pipe.
  Context {A : Type} (dflt : A).

  Definition beat0 : beat A := Beat false false dflt.

  (** PipeValid registers: source.valid/first/last/payload (stream.py:194-200);
      they are the source endpoint itself. *)
  Definition pv_state := chan A.
  Definition pv_reset : pv_state := Chan false beat0.

  (** en = ~source.valid | source.ready  (stream.py:190-191) *)
  Definition pv_en (s : pv_state) (rready : bool) : bool := negb (cvalid s) || rready.

  (** PipeValid.elaborate, stream.py:184-203 *)
  Definition pipe_valid : smod A A :=
    SMod pv_state pv_reset
      (fun s _ => s)                                     (* source is the register *)
      (fun s _ r => pv_en s r)                           (* sink.ready, line 201 *)
      (fun s c r => if pv_en s r then c else s).         (* lines 194-200 *)

  (** PipeReady registers: [valid] (line 221) and sink_d (line 222).  Of sink_d
      only valid/first/last/payload are kept: sink_d.ready is copied by line 230
      but never read (line 235 excludes it). *)
  Record pr_state := PR { pr_valid : bool; pr_sink_d : chan A }.
  Definition pr_reset : pr_state := PR false (Chan false beat0).

  (** PipeReady.elaborate, stream.py:215-239 *)
  Definition pipe_ready : smod A A :=
    SMod pr_state pr_reset
      (fun s c => if pr_valid s then pr_sink_d s else c) (* lines 234-237 *)
      (fun s _ _ => negb (pr_valid s))                   (* line 232 *)
      (fun s c r =>
         PR (if cvalid c && negb r then true             (* lines 224-225 *)
             else if r then false                        (* lines 226-227 *)
             else pr_valid s)
            (if negb r && negb (pr_valid s) then c       (* lines 229-230 *)
             else pr_sink_d s)).

  (** The identity converter, stream.py:358-368 (sink.connect(source)). *)
  Definition identity_conv : smod A A :=
    SMod unit tt (fun _ c => c) (fun _ _ r => r) (fun _ _ _ => tt).
End Pipe.
