(** Model of lambdalib/interface/stream_utils.py. *)
From Verif Require Import Stream Pipe_model Timer_model.

(** ** Stitcher, stream_utils.py:19-59.  Registers f_idx, l_idx (37-38). *)
Record sti_state := Sti { sti_f : Z; sti_l : Z }.

Definition sti_idx_next (count idx : Z) (go : bool) : Z :=               (* lines 47-57 *)
  if go then (if idx <? count - 1 then trunc (range_width count) (idx + 1) else 0) else idx.

Definition stitcher {A} (count : Z) : smod A A :=
  SMod sti_state (Sti 0 0)
    (fun s c => let b := cbeat c in
       Chan (cvalid c)                                                   (* line 41 *)
            (Beat (bfirst b && (sti_f s =? 0))                           (* line 43 *)
                  (blast b && (sti_l s =? count - 1))                    (* line 44 *)
                  (bdata b)))
    (fun _ _ r => r)                                                     (* connect: sink.ready = source.ready *)
    (fun s c r => let fire := cvalid c && r in
       Sti (sti_idx_next count (sti_f s) (fire && bfirst (cbeat c)))
           (sti_idx_next count (sti_l s) (fire && blast (cbeat c)))).

(** ** LastInserter, stream_utils.py:203-253.  Modelled as the stage placed
    between the wrapped module's source ([src], the sink here) and [dst];
    [compose m (last_inserter count)] is LastInserter(count)(m).
    Register: counter (236). *)
Definition last_inserter {A} (count : Z) : smod A A :=
  let lst (s : Z) (c : chan A) := (s =? count - 1) || blast (cbeat c) in (* line 245 *)
  SMod Z 0
    (fun s c => Chan (cvalid c) (Beat (bfirst (cbeat c)) (lst s c) (bdata (cbeat c))))
    (fun _ _ r => r)                                                     (* line 244 *)
    (fun s c r => if cvalid c && r                                       (* lines 247-251 *)
                  then (if negb (lst s c) then trunc (range_width count) (s + 1) else 0) else s).

(** ** LastOnTimeout, stream_utils.py:256-301.  Registers: the WaitTimer count
    (276), last_r, loaded (279-280), source.data (284).  The layout is the
    single field "data" (the code only copies source.data); source.first is never
    driven, hence false. *)
Record lot_state (A : Type) := Lot { lot_count : Z; lot_last : bool; lot_loaded : bool; lot_data : A }.
Arguments Lot {A} _ _ _ _.
Arguments lot_count {A} _.
Arguments lot_last {A} _.
Arguments lot_loaded {A} _.
Arguments lot_data {A} _.

Section Lot.
  Context {A : Type} (dflt : A) (timeout : Z).
  Definition lot_src (s : lot_state A) (c : chan A) : chan A :=
    let done := wt_done (lot_count s) in
    Chan (lot_loaded s && (lot_last s || cvalid c || done))              (* lines 297-298 *)
         (Beat false (lot_last s || done) (lot_data s)).                 (* line 299 *)
  Definition lot_rdy (s : lot_state A) (c : chan A) (r : bool) : bool := (* lines 291-292 *)
    negb (cvalid (lot_src s c)) || r.
  Definition lot_next (s : lot_state A) (c : chan A) (r : bool) : lot_state A :=
    let count' := wt_next timeout (lot_count s) (negb (cvalid c)) in     (* line 277 *)
    if cvalid c && lot_rdy s c r                                         (* lines 282-287 *)
    then Lot count' (blast (cbeat c)) true (bdata (cbeat c))
    else if cvalid (lot_src s c) && r                                    (* lines 288-289 *)
    then Lot count' (lot_last s) false (lot_data s)
    else Lot count' (lot_last s) (lot_loaded s) (lot_data s).
  Definition last_on_timeout : smod A A :=
    SMod (lot_state A) (Lot timeout false false dflt) lot_src lot_rdy lot_next.
End Lot.

(** Vectors of signals are functions of the index (only indices below the number
    of streams are meaningful). *)
Definition all_below (n : nat) (f : nat -> bool) : bool := forallb f (seq 0 n).
Definition any_below (n : nat) (f : nat -> bool) : bool := existsb f (seq 0 n).

(** ** Splitter, stream_utils.py:87-138.  Register: done (93).  [proj i] selects
    the fields of source i (134-136). *)
Record sp_obs (A P : Type) := SpObs {
  sp_sink : chan A; sp_sready : bool; sp_src : nat -> chan P; sp_rready : nat -> bool }.
Arguments SpObs {A P} _ _ _ _.
Arguments sp_sink {A P} _.
Arguments sp_sready {A P} _.
Arguments sp_src {A P} _ _.
Arguments sp_rready {A P} _ _.

Section Splitter.
  Context {A P : Type} (n : nat) (proj : nat -> A -> P).
  Definition sp_source (done : nat -> bool) (c : chan A) (i : nat) : chan P :=
    Chan (cvalid c && negb (done i))                                     (* line 100 *)
         (Beat (bfirst (cbeat c)) (blast (cbeat c)) (proj i (bdata (cbeat c)))). (* 127-136 *)
  Definition sp_ready (done : nat -> bool) (r : nat -> bool) : bool :=   (* lines 104-107 *)
    all_below n (fun i => r i || done i).
  Definition sp_flow (done : nat -> bool) (c : chan A) (r : nat -> bool) (i : nat) : bool :=
    cvalid (sp_source done c i) && r i.                                  (* lines 109-110 *)
  Definition sp_next (done : nat -> bool) (c : chan A) (r : nat -> bool) : nat -> bool :=
    if all_below n (fun i => sp_flow done c r i || done i)               (* lines 111-118 *)
    then fun _ => false
    else fun i => sp_flow done c r i || done i.                          (* lines 122-125 *)
  Definition splitter : circuit (chan A * (nat -> bool)) (sp_obs A P) :=
    Circuit (nat -> bool) (fun _ => false)
      (fun d i => SpObs (fst i) (sp_ready d (snd i)) (sp_source d (fst i)) (snd i))
      (fun d i => sp_next d (fst i) (snd i)).
End Splitter.

(** ** Merger, stream_utils.py:165-200: combinational merge into a PipeValid
    buffer (162-167).  The merged payload is the list of the sinks' payloads. *)
Record mg_obs (A : Type) := MgObs {
  mg_sink : nat -> chan A; mg_sready : nat -> bool; mg_src : chan (list A); mg_rready : bool }.
Arguments MgObs {A} _ _ _ _.
Arguments mg_sink {A} _ _.
Arguments mg_sready {A} _ _.
Arguments mg_src {A} _.
Arguments mg_rready {A} _.

Section Merger.
  Context {A : Type} (n : nat).
  Definition mg_merge (c : nat -> chan A) : chan (list A) :=
    Chan (all_below n (fun i => cvalid (c i)))                           (* lines 174-176 *)
      (Beat (any_below n (fun i => bfirst (cbeat (c i))))                (* lines 185-193 *)
            (any_below n (fun i => blast (cbeat (c i))))
            (map (fun i => bdata (cbeat (c i))) (seq 0 n))).             (* lines 196-198 *)
  Definition merger : circuit ((nat -> chan A) * bool) (mg_obs A) :=
    let pv := pipe_valid ([] : list A) in
    Circuit (st pv) (st0 pv)
      (fun s i => MgObs (fst i)
         (fun _ => cvalid (mg_merge (fst i)) && rdy pv s (mg_merge (fst i)) (snd i))  (* lines 180-181 *)
         (src pv s (mg_merge (fst i))) (snd i))
      (fun s i => nxt pv s (mg_merge (fst i)) (snd i)).
End Merger.

(** ** RoundRobin, stream_utils.py:304-328 *)
Definition rr_next (n grant : nat) (request : nat -> bool) : nat :=
  match find (fun j => request (j mod n)%nat) (seq (grant + 1) (n - 1)) with   (* lines 322-326 *)
  | Some j => (j mod n)%nat
  | None => grant
  end.

(** ** Arbiter, stream_utils.py:331-380.  Registers: rr.grant, ongoing (361) and
    the stall WaitTimer (367). *)
Record arb_state := Arb { arb_grant : nat; arb_ongoing : bool; arb_stall : Z }.
Record arb_obs (A : Type) := ArbObs {
  ao_sink : nat -> chan A; ao_sready : nat -> bool; ao_src : chan A; ao_rready : bool; ao_grant : nat }.
Arguments ArbObs {A} _ _ _ _ _.
Arguments ao_sink {A} _ _.
Arguments ao_sready {A} _ _.
Arguments ao_src {A} _.
Arguments ao_rready {A} _.
Arguments ao_grant {A} _.

Section Arbiter.
  Context {A : Type} (n : nat) (timeout : Z).
  (** Lines 375-378.  grant stays below n, so that one Case matches; but with one sink grant has
      shape range(1), no bit at all, and Amaranth 0.4 (Module.Case) takes a pattern that needs more
      bits than the Switch value has, as 0 does (1 bit), for one that never matches. *)
  Definition arb_connected : bool := (2 <=? n)%nat.
  (** source is connected to the granted sink; not connected it is all 0 (of which only valid is
      shown here, the beat of a source that is not valid has no meaning). *)
  Definition arb_src (s : arb_state) (c : nat -> chan A) : chan A :=
    Chan (arb_connected && cvalid (c (arb_grant s))) (cbeat (c (arb_grant s))).
  Definition arb_run (s : arb_state) (c : nat -> chan A) (r : bool) : bool :=   (* lines 359-361, 373 *)
    let source := arb_src s c in
    negb (arb_ongoing s || cvalid source)
    || (cvalid source && r && blast (cbeat source))
    || wt_done (arb_stall s).
  Definition arb_next (s : arb_state) (c : nat -> chan A) (r : bool) : arb_state :=
    let source := arb_src s c in
    let run := arb_run s c r in
    Arb (if run then rr_next n (arb_grant s) (fun i => cvalid (c i)) else arb_grant s)  (* 353-357 *)
        (if cvalid source && r then negb (blast (cbeat source)) else arb_ongoing s)     (* 362-363 *)
        (wt_next timeout (arb_stall s) (arb_ongoing s && negb (cvalid source) && negb run)). (* 367-368 *)
  Definition arbiter : circuit ((nat -> chan A) * bool) (arb_obs A) :=
    Circuit arb_state (Arb 0 false timeout)
      (fun s i => ArbObs (fst i) (fun k => arb_connected && Nat.eqb k (arb_grant s) && snd i) (arb_src s (fst i)) (snd i) (arb_grant s))
      (fun s i => arb_next s (fst i) (snd i)).
End Arbiter.
