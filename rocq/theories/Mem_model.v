(** Model of lambdalib/cores/mem/stream.py: MemoryStream and MemoryStreamReader. *)
From Verif Require Import Stream Pipe_model.

(** Inputs of a cycle: rewind, the sink channel (MemoryStream only), source.ready. *)
Record mem_in := MemIn { mi_rewind : bool; mi_sink : chan Z; mi_rready : bool }.
Record mem_obs := MemObs {
  mo_rewind : bool; mo_sink : chan Z; mo_sready : bool;
  mo_src : chan Z; mo_rready : bool }.

(** ** MemoryStream, mem/stream.py:16-107.
    Registers: the memory contents (line 58), the read port's output register
    (line 60; non transparent: a read sees the contents before this cycle's
    write), addr_wr, addr_rd (62-63), level (66).  Reads or writes outside the
    depth (possible when depth is not a power of two) read 0 and are dropped. *)
Record ms_state := Ms { ms_mem : Z -> Z; ms_rp : Z; ms_wr : Z; ms_rd : Z; ms_level : Z }.

Section MemStream.
  Context (depth : Z).
  Definition ms_aw : Z := range_width depth.
  (** underflow (67) and last (68); level - 1 is a signed comparison *)
  Definition ms_underflow (s : ms_state) : bool := ms_level s <=? ms_rd s.
  Definition ms_last (s : ms_state) : bool := ms_rd s =? ms_level s - 1.
  Definition ms_src (s : ms_state) (rewind : bool) (c : chan Z) : chan Z :=
    Chan (negb rewind && negb (cvalid c) && negb (ms_underflow s))       (* line 102 *)
         (Beat false (ms_last s) (ms_rp s)).                             (* lines 103-104 *)
  Definition ms_sready (rewind : bool) : bool := negb rewind.            (* line 95 *)
  Definition ms_next (s : ms_state) (rewind : bool) (c : chan Z) (r : bool) : ms_state :=
    let wfire := cvalid c && ms_sready rewind in
    let rfire := cvalid (ms_src s rewind c) && r in
    let addr_nxt := if rewind then 0                                     (* lines 71-74 *)
                    else if wfire then 0                                 (* 79-81: not driven, default 0 *)
                    else if rfire then trunc ms_aw (ms_rd s + 1)         (* line 84 *)
                    else ms_rd s in                                      (* line 88 *)
    Ms (fun a => if cvalid c && (a =? ms_wr s) && (a <? depth)           (* lines 92-94: en = sink.valid *)
                 then bdata (cbeat c) else ms_mem s a)
       (if addr_nxt <? depth then ms_mem s addr_nxt else 0)              (* lines 100-101 *)
       (if rewind then 0 else if wfire then trunc ms_aw (ms_wr s + 1) else ms_wr s)
       (if rewind then 0 else if wfire then ms_rd s else if rfire then addr_nxt else ms_rd s)
       (if rewind then ms_level s
        else if wfire then trunc (range_width (depth + 1)) (ms_wr s + 1) else ms_level s).
  Definition ms_reset : ms_state := Ms (fun _ => 0) 0 0 0 0.

  (** buffered=False: source is the memory side. *)
  Definition mem_stream : circuit mem_in mem_obs :=
    Circuit ms_state ms_reset
      (fun s i => MemObs (mi_rewind i) (mi_sink i) (ms_sready (mi_rewind i))
                    (ms_src s (mi_rewind i) (mi_sink i)) (mi_rready i))
      (fun s i => ms_next s (mi_rewind i) (mi_sink i) (mi_rready i)).

  (** buffered=True: a PipeValid under ResetInserter(rewind) (lines 40-43, 55-56). *)
  Definition mem_stream_buffered : circuit mem_in mem_obs :=
    let pv := pipe_valid 0 in
    Circuit (ms_state * chan Z) (ms_reset, pv_reset 0)
      (fun s i => MemObs (mi_rewind i) (mi_sink i) (ms_sready (mi_rewind i)) (snd s) (mi_rready i))
      (fun s i =>
         let mid := ms_src (fst s) (mi_rewind i) (mi_sink i) in
         (ms_next (fst s) (mi_rewind i) (mi_sink i) (rdy pv (snd s) mid (mi_rready i)),
          if mi_rewind i then pv_reset 0 else nxt pv (snd s) mid (mi_rready i))).
End MemStream.

(** ** MemoryStreamReader, mem/stream.py:110-194.
    Registers: done (line 132), wait (reset 1, line 155), addr_rd (157), the read
    port's output register.  Words read past the end are 0. *)
Record mr_state := Mr { mr_done : bool; mr_wait : bool; mr_rd : Z; mr_rp : Z }.
Record mr_obs := MrObs { ro_rewind : bool; ro_src : chan Z; ro_rready : bool; ro_done : bool }.

Section MemReader.
  Context (init : list Z).
  Definition mr_depth : Z := Z.of_nat (length init).
  Definition mr_last (s : mr_state) : bool := mr_rd s =? mr_depth - 1.   (* line 160 *)
  Definition mr_src (s : mr_state) (rewind : bool) : chan Z :=
    Chan (negb rewind && negb (mr_wait s) && negb (mr_done s))           (* line 185 *)
         (Beat false (mr_last s) (mr_rp s)).
  Definition mr_next (s : mr_state) (rewind r : bool) : mr_state :=
    let fire := cvalid (mr_src s rewind) && r in
    let addr_nxt := if rewind then 0 else if fire then trunc (range_width mr_depth) (mr_rd s + 1)
                    else mr_rd s in                                      (* lines 163-179 *)
    Mr (if rewind then false else if fire then (if mr_last s then true else mr_done s) else mr_done s)
       rewind                                                            (* line 192 *)
       (if rewind then 0 else if fire then addr_nxt else mr_rd s)
       (nth (Z.to_nat addr_nxt) init 0).                                 (* lines 183-184 *)
  Definition mr_reset : mr_state := Mr false true 0 0.
  Definition mem_reader : circuit (bool * bool) mr_obs :=                (* inputs: rewind, source.ready *)
    Circuit mr_state mr_reset
      (fun s i => MrObs (fst i) (mr_src s (fst i)) (snd i) (mr_done s))
      (fun s i => mr_next s (fst i) (snd i)).
  Definition mem_reader_buffered : circuit (bool * bool) mr_obs :=
    let pv := pipe_valid 0 in
    Circuit (mr_state * chan Z) (mr_reset, pv_reset 0)
      (fun s i => MrObs (fst i) (snd s) (snd i) (mr_done (fst s)))
      (fun s i =>
         let mid := mr_src (fst s) (fst i) in
         (mr_next (fst s) (fst i) (rdy pv (snd s) mid (snd i)),
          if fst i then pv_reset 0 else nxt pv (snd s) mid (snd i))).
End MemReader.
