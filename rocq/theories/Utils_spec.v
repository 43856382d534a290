(** Specification vocabulary for the stream utilities. *)
From Verif Require Import Stream Utils_model.

Definition count_if {X} (f : X -> bool) (l : list X) : Z := Z.of_nat (length (filter f l)).

(** Beat [b] as it must leave a Stitcher(count) when [before] are the beats that
    passed earlier. *)
Definition stitched {A} (count : Z) (before : list (beat A)) (b : beat A) : beat A :=
  Beat (bfirst b && (count_if bfirst before mod count =? 0))
       (blast b && (count_if blast before mod count =? count - 1))
       (bdata b).

(** Length of the unfinished packet at the end of a list of beats. *)
Definition open_step {A} (n : Z) (b : beat A) : Z := if blast b then 0 else n + 1.
Definition open_len {A} (l : list (beat A)) : Z := fold_left open_step l 0.

(** The list a LastInserter(count) must deliver for the list [l], when the open
    packet already has [n] beats. *)
Fixpoint insert_lasts {A} (count n : Z) (l : list (beat A)) : list (beat A) :=
  match l with
  | [] => []
  | b :: r => let e := Beat (bfirst b) (blast b || (n =? count - 1)) (bdata b) in
              e :: insert_lasts count (open_step n e) r
  end.

(** The sink was idle in each of the last [k] cycles of the history [t]. *)
Definition idle_for {A B} (k : Z) (t : list (obs A B)) : Prop :=
  exists a b, t = a ++ b /\ Z.of_nat (length b) = k /\ Forall (fun o => cvalid (o_sink o) = false) b.

(** What source [i] of a Splitter received. *)
Definition sp_received {A P} (i : nat) (t : list (sp_obs A P)) : list (beat P) :=
  flat_map (fun o => xfer (sp_src o i) (sp_rready o i)) t.
Definition sp_accepted {A P} (t : list (sp_obs A P)) : list (beat A) :=
  flat_map (fun o => xfer (sp_sink o) (sp_sready o)) t.
Definition sp_stable_sink {A P} (t : list (sp_obs A P)) : Prop :=
  forall t1 o o' t2, t = t1 ++ o :: o' :: t2 ->
    cvalid (sp_sink o) = true -> sp_sready o = false -> sp_sink o' = sp_sink o.
Definition map_beat {A P} (f : A -> P) (b : beat A) : beat P := Beat (bfirst b) (blast b) (f (bdata b)).

(** Merger: a row is one beat per sink. *)
Definition mg_accepted {A} (i : nat) (t : list (mg_obs A)) : list (beat A) :=
  flat_map (fun o => xfer (mg_sink o i) (mg_sready o i)) t.
Definition mg_emitted {A} (t : list (mg_obs A)) : list (beat (list A)) :=
  flat_map (fun o => xfer (mg_src o) (mg_rready o)) t.
Definition merged_row {A} (n : nat) (row : nat -> beat A) : beat (list A) :=
  Beat (existsb (fun i => bfirst (row i)) (seq 0 n))
       (existsb (fun i => blast (row i)) (seq 0 n))
       (map (fun i => bdata (row i)) (seq 0 n)).

(** Arbiter: transfers tagged with the sink they come from. *)
Definition arb_accepted {A} (i : nat) (t : list (arb_obs A)) : list (beat A) :=
  flat_map (fun o => xfer (ao_sink o i) (ao_sready o i)) t.
Definition arb_emitted {A} (t : list (arb_obs A)) : list (beat A) :=
  flat_map (fun o => xfer (ao_src o) (ao_rready o)) t.

(** Cyclic distance from [g] forward to [k] among [n] indices. *)
Definition cdist (n g k : nat) : nat := ((k + n - g) mod n)%nat.

Definition arb_stable_sinks {A} (n : nat) (t : list (arb_obs A)) : Prop :=
  forall i t1 o o' t2, (i < n)%nat -> t = t1 ++ o :: o' :: t2 ->
    cvalid (ao_sink o i) = true -> ao_sready o i = false -> ao_sink o' i = ao_sink o i.

(** Number of changes along a list. *)
Fixpoint changes (l : list nat) : nat :=
  match l with
  | [] => 0%nat
  | g :: r => match r with
              | [] => 0%nat
              | g' :: _ => ((if Nat.eqb g g' then 0 else 1) + changes r)%nat
              end
  end.
