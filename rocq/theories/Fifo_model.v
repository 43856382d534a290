(** Model of _FIFOWrapper, SyncFIFO and AsyncFIFO, lambdalib/interface/stream.py:104-173.

    The word FIFOs themselves come from amaranth.lib.fifo (not part of the
    repository).  They are modelled by their documented behaviour as a record
    [wfifo]: SyncFIFO (first word fall through) and SyncFIFOBuffered (an inner
    queue of depth-1 words followed by an output register).  The Memory inside is
    abstracted to the list of words it holds; r_data while r_rdy is low is
    unspecified in the hardware and shown as 0 here. *)
From Verif Require Import Stream Bits.

(** A FIFO of words: w_rdy, (r_rdy, r_data), level, and the clock edge. *)
Record wfifo := WFifo {
  wf_st : Type;
  wf_0 : wf_st;
  wf_wrdy : wf_st -> bool;
  wf_rrdy : wf_st -> bool;
  wf_rdata : wf_st -> Z;
  wf_level : wf_st -> Z;
  wf_next : wf_st -> bool -> Z -> bool -> wf_st }.    (* w_en, w_data, r_en *)

(** amaranth.lib.fifo.SyncFIFO(width, depth): first word fall through queue. *)
Definition sync_fifo (depth : Z) : wfifo :=
  WFifo (list Z) []
    (fun q => negb (Z.of_nat (length q) =? depth))
    (fun q => match q with [] => false | _ => true end)
    (fun q => hd 0 q)
    (fun q => Z.of_nat (length q))
    (fun q we wd re =>
       (if re then tl q else q) ++
       (if we && negb (Z.of_nat (length q) =? depth) then [wd] else [])).

(** amaranth.lib.fifo.SyncFIFOBuffered(width, depth): a queue of depth-1 words and
    an output register (valid bit r_rdy). *)
Definition sync_fifo_buffered (depth : Z) : wfifo :=
  WFifo (list Z * option Z) ([], None)
    (fun s => negb (Z.of_nat (length (fst s)) =? depth - 1))
    (fun s => match snd s with None => false | _ => true end)
    (fun s => match snd s with None => 0 | Some w => w end)
    (fun s => Z.of_nat (length (fst s)) + match snd s with None => 0 | _ => 1 end)
    (fun s we wd re =>
       let free := match snd s with None => true | _ => re end in
       let push := if we && negb (Z.of_nat (length (fst s)) =? depth - 1) then [wd] else [] in
       if free then match fst s with
                    | [] => (push, None)
                    | w :: q => (q ++ push, Some w)
                    end
       else (fst s ++ push, snd s)).

(** The packing of a beat into a FIFO word: Record of payload (low bits, [pw] bits
    wide), first, last (stream.py:109-113). *)
Definition fifo_pack (pw : Z) (b : beat Z) : Z :=
  bdata b + 2 ^ pw * Z.b2z (bfirst b) + 2 ^ (pw + 1) * Z.b2z (blast b).
Definition fifo_unpack (pw : Z) (w : Z) : beat Z :=
  Beat (Z.testbit w pw) (Z.testbit w (pw + 1)) (w mod 2 ^ pw).

(** _FIFOWrapper.elaborate, stream.py:115-138, around a word FIFO. *)
Definition fifo_wrapper (pw : Z) (f : wfifo) : smod Z Z :=
  SMod (wf_st f) (wf_0 f)
    (fun s _ => Chan (wf_rrdy f s) (fifo_unpack pw (wf_rdata f s)))      (* lines 131-134 *)
    (fun s _ _ => wf_wrdy f s)                                           (* line 125 *)
    (fun s c r => wf_next f s (cvalid c) (fifo_pack pw (cbeat c)) r).    (* lines 122, 126-129, 135 *)

(** SyncFIFO.__init__, stream.py:142-152: the depth is forced to at least 8. *)
Definition wrapper_depth (depth : Z) : Z := if depth <? 8 then 8 else depth.
Definition stream_sync_fifo (pw depth : Z) (buffered : bool) : smod Z Z :=
  let d := wrapper_depth depth in
  fifo_wrapper pw (if buffered then sync_fifo_buffered d else sync_fifo d).

(** The attribute level, stream.py:157. *)
Definition sync_fifo_level (pw depth : Z) (buffered : bool) : st (stream_sync_fifo pw depth buffered) -> Z :=
  match buffered with
  | true => wf_level (sync_fifo_buffered (wrapper_depth depth))
  | false => wf_level (sync_fifo (wrapper_depth depth))
  end.

(** AsyncFIFO, stream.py:155-173.  The two clock domains are unrelated: an
    execution is a list of events, each a clock edge of the write domain or of the
    read domain (simultaneous edges are two consecutive events).  The word FIFO of
    amaranth.lib.fifo.AsyncFIFO is modelled by what its Gray-code pointer
    synchronisers guarantee: the writer sees a possibly stale (smaller) count of
    words read, the reader a possibly stale count of words written; [seen] gives
    the counts as an arbitrary monotone bounded choice made by the environment. *)
Inductive af_event :=
| AfWrite (sink : chan Z) (seen_reads : Z)      (* write-domain edge *)
| AfRead (rready : bool) (seen_writes : Z).     (* read-domain edge *)

Record af_state := Af { af_mem : list Z; af_rd : Z; af_seen_r : Z; af_seen_w : Z }.
(** [af_mem] is the list of all words ever written, [af_rd] the number read. *)

Definition clampup (lo hi x : Z) : Z := Z.max lo (Z.min hi x).

Definition af_wrdy (depth : Z) (s : af_state) (seen : Z) : bool :=
  Z.of_nat (length (af_mem s)) - clampup (af_seen_r s) (af_rd s) seen <? depth.
Definition af_rrdy (s : af_state) (seen : Z) : bool :=
  af_rd s <? clampup (af_seen_w s) (Z.of_nat (length (af_mem s))) seen.

(** What a clock edge shows: the beats written, the beats read, and at a read edge the
    source and the attribute r_level (stream.py:173), the words the reader can see. *)
Record af_obs := AfObs { af_wr : list (beat Z); af_rdo : list (beat Z); af_source : option (chan Z); af_level : option Z }.

(** A FIFO of exactly [depth] words. *)
Section Async.
  Context (pw depth : Z).
  Definition async_words : circuit af_event af_obs :=
    let out s seen := Chan (af_rrdy s seen) (fifo_unpack pw (nth (Z.to_nat (af_rd s)) (af_mem s) 0)) in
    let lvl s seen := clampup (af_seen_w s) (Z.of_nat (length (af_mem s))) seen - af_rd s in
    Circuit af_state (Af [] 0 0 0)
      (fun s e => match e with
        | AfWrite c seen => AfObs (xfer c (af_wrdy depth s seen)) [] None None
        | AfRead r seen => AfObs [] (xfer (out s seen) r) (Some (out s seen)) (Some (lvl s seen))
        end)
      (fun s e => match e with
        | AfWrite c seen =>
            Af (af_mem s ++ map (fifo_pack pw) (xfer c (af_wrdy depth s seen))) (af_rd s)
               (clampup (af_seen_r s) (af_rd s) seen) (af_seen_w s)
        | AfRead r seen =>
            Af (af_mem s) (if af_rrdy s seen && r then af_rd s + 1 else af_rd s)
               (af_seen_r s) (clampup (af_seen_w s) (Z.of_nat (length (af_mem s))) seen)
        end).
End Async.
(** stream.py:163-173 (buffered=False): the depth is forced to at least 8, and
    amaranth's AsyncFIFO rounds it up to a power of two.  buffered=True is only used by
    Converter: see Cdcconv_model.  Not modelled: r_rst. *)
Definition async_depth (depth : Z) : Z := 2 ^ Z.log2_up (wrapper_depth depth).
Definition async_fifo (pw depth : Z) : circuit af_event af_obs := async_words pw (async_depth depth).
