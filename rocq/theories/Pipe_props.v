(** Properties C01, C02, C03. *)
From Verif Require Import Stream Pipe_model Pipe_proofs.

(** C01: in every execution, the accepted beats are the delivered beats, in
    order, followed by at most one beat: the one offered next on source. *)
Theorem C01_pipe_valid_lossless : forall (A : Type) (d : A) ins,
  exists held,
    accepted (strace (pipe_valid d) ins) = emitted (strace (pipe_valid d) ins) ++ held /\
    (length held <= 1)%nat.
Proof.
  intros A d ins. exists (chan_list (state (scirc (pipe_valid d)) ins)).
  split; [apply pv_lossless|]. unfold chan_list. destruct (cvalid _); simpl; lia.
Qed.

(** C02 (stability). *)
Theorem C02_pipe_valid_stable : forall (A : Type) (d : A) ins,
  stable_src (strace (pipe_valid d) ins).
Proof. intros; apply pv_stable. Qed.

(** C02 (throughput and latency): in any cycle where source.ready is high the
    sink is ready; and in any cycle whose predecessor accepted a beat, that very
    beat is offered on source. *)
Theorem C02_pipe_valid_throughput : forall (A : Type) (d : A) ins t1 o t2,
  strace (pipe_valid d) ins = t1 ++ o :: t2 ->
  o_rready o = true -> o_sready o = true.
Proof.
  intros A d ins t1 o t2 H Hr. apply trace_one in H. destruct H as (a & [c r] & b & -> & _ & ->).
  cbn in *. subst. unfold pv_en. now rewrite orb_true_r.
Qed.

Theorem C02_pipe_valid_latency : forall (A : Type) (d : A) ins t1 o o' t2,
  strace (pipe_valid d) ins = t1 ++ o :: o' :: t2 ->
  o_sready o = true -> o_src o' = o_sink o.
Proof.
  intros A d ins t1 o o' t2 H Hr. apply trace_two in H.
  destruct H as (a & [c r] & [c' r'] & b & -> & _ & -> & ->).
  cbn in *. now rewrite Hr.
Qed.

(** C03: lossless, in order, at most one stored beat. *)
Theorem C03_pipe_ready_lossless : forall (A : Type) (d : A) ins,
  exists held,
    accepted (strace (pipe_ready d) ins) = emitted (strace (pipe_ready d) ins) ++ held /\
    (length held <= 1)%nat.
Proof.
  intros A d ins. exists (pr_list (state (scirc (pipe_ready d)) ins)).
  split; [apply pr_lossless|]. unfold pr_list. destruct (pr_valid _); simpl; lia.
Qed.

(** C03: sink.ready in a cycle is the same whatever source.ready is in that
    cycle (no combinational ready path): two executions that differ only in the
    last source.ready show the same last sink.ready. *)
Theorem C03_pipe_ready_cuts_ready_path : forall (A : Type) (d : A) ins c r r',
  map o_sready (strace (pipe_ready d) (ins ++ [(c, r)])) =
  map o_sready (strace (pipe_ready d) (ins ++ [(c, r')])).
Proof. intros. rewrite !trace_app, !map_app. reflexivity. Qed.

(** C03: when everything accepted has been delivered (empty), the beat on sink
    is offered on source in the same cycle. *)
Theorem C03_pipe_ready_zero_latency : forall (A : Type) (d : A) ins c r,
  accepted (strace (pipe_ready d) ins) = emitted (strace (pipe_ready d) ins) ->
  forall o, trace_from (scirc (pipe_ready d)) (state (scirc (pipe_ready d)) ins) [(c, r)] = [o] ->
  o_src o = c /\ o_sready o = true.
Proof.
  intros A d ins c r H o Ho. rewrite pr_lossless in H.
  assert (Hn : pr_list (state (scirc (pipe_ready d)) ins) = []).
  { rewrite <- (app_nil_r (emitted _)) in H at 2. now apply app_inv_head in H. }
  cbn in Ho. injection Ho as <-. cbn. unfold pr_list in Hn.
  destruct (pr_valid _); [discriminate|]. auto.
Qed.

(** C03 (stability, whatever the sink does). *)
Theorem C03_pipe_ready_stable : forall (A : Type) (d : A) ins,
  stable_src (strace (pipe_ready d) ins).
Proof. intros; now apply pr_stable. Qed.

(** Non-vacuity: a schedule with stalls on both sides in which beats do move
    and one is held at the end. *)
Definition ex_b (n : nat) := Beat (Nat.eqb n 0) (Nat.eqb n 2) n.
Definition ex_ins : list (chan nat * bool) :=
  [(Chan true (ex_b 0), false); (Chan true (ex_b 1), false); (Chan true (ex_b 1), true);
   (Chan false (ex_b 7), false); (Chan true (ex_b 2), true)].
Example C01_nonvacuous :
  emitted (strace (pipe_valid 0%nat) ex_ins) = [ex_b 0; ex_b 1] /\
  accepted (strace (pipe_valid 0%nat) ex_ins) = [ex_b 0; ex_b 1; ex_b 2].
Proof. split; reflexivity. Qed.
Example C03_nonvacuous :
  emitted (strace (pipe_ready 0%nat) ex_ins) = [ex_b 0; ex_b 2] /\
  accepted (strace (pipe_ready 0%nat) ex_ins) = [ex_b 0; ex_b 2].
Proof. split; reflexivity. Qed.

(** Cases for the other theorems: the first beat waits two cycles, is taken with the second one
    behind it, and the third is taken in the cycle it comes in. *)
Example C02_nonvacuous :
  (exists t1 o o' t2, strace (pipe_valid 0%nat) ex_ins = t1 ++ o :: o' :: t2 /\ o_rready o = true /\ o_sready o = true /\
     o_src o' = Chan true (ex_b 1) /\ o_sink o = Chan true (ex_b 1)) /\
  (exists t1 o t2, strace (pipe_ready 0%nat) ex_ins = t1 ++ o :: t2 /\ cvalid (o_src o) = true /\ o_rready o = false) /\
  (exists ins, accepted (strace (pipe_ready 0%nat) ins) = [ex_b 0; ex_b 1] /\ emitted (strace (pipe_ready 0%nat) ins) = [ex_b 0; ex_b 1]).
Proof.
  split; [eexists [_; _], _, _, _; split; [reflexivity|repeat split]|]. split; [eexists [], _, _; split; [reflexivity|repeat split]|].
  exists [(Chan true (ex_b 0), false); (Chan true (ex_b 1), true); (Chan true (ex_b 1), true)]. split; reflexivity.
Qed.

Print Assumptions C01_pipe_valid_lossless.
Print Assumptions C02_pipe_valid_stable.
Print Assumptions C02_pipe_valid_throughput.
Print Assumptions C02_pipe_valid_latency.
Print Assumptions C03_pipe_ready_lossless.
Print Assumptions C03_pipe_ready_cuts_ready_path.
Print Assumptions C03_pipe_ready_zero_latency.
Print Assumptions C03_pipe_ready_stable.
