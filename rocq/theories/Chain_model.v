(** Streams connected in series: a pipeline of the single-clock buffering stages of
    lambdalib/interface/stream.py, each stage's source connected to the next stage's sink
    (source.connect(sink), as in examples/i2c_bridge.py:54-59).  Each stage is the model of
    the class of the same name. *)
From Verif Require Import Stream Pipe_model Fifo_model.

(** One stage: PipeValid (stream.py:178-203), PipeReady (stream.py:206-239), SyncFIFO
    (stream.py:142-152) of some depth, the identity converter (stream.py:358-368). *)
Inductive stage := StPipeValid | StPipeReady | StSyncFIFO (depth : Z) (buffered : bool) | StIdentity.

(** [pw]: width of the payload. *)
Definition stage_mod (pw : Z) (s : stage) : smod Z Z :=
  match s with
  | StPipeValid => pipe_valid 0
  | StPipeReady => pipe_ready 0
  | StSyncFIFO depth buffered => stream_sync_fifo pw depth buffered
  | StIdentity => identity_conv
  end.
(** The stages in order, from the sink to the source; no stage at all is a wire. *)
Fixpoint pipeline (pw : Z) (l : list stage) : smod Z Z :=
  match l with
  | [] => identity_conv
  | s :: l => compose (stage_mod pw s) (pipeline pw l)
  end.
