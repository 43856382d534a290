(** First marks (C107). *)
From Verif Require Import Stream Utils_model Math_model.

(** Every beat delivered carries the first mark of the beat it came from. *)
Definition first_kept {A B} (m : smod A B) : Prop := forall ins,
  let t := strace m ins in
  map bfirst (emitted t) = firstn (length (emitted t)) (map bfirst (accepted t)).

Definition fb (x : Z) : chan Z * bool := (Chan true (Beat true true x), true).

(** Neither the timeout stage nor the integer-to-float converter keeps them. *)
Theorem C107_last_on_timeout_refuted : ~ first_kept (last_on_timeout 0 4).
Proof. intros H. specialize (H [fb 1; fb 2; fb 3]). vm_compute in H. discriminate. Qed.
Theorem C107_int2float_refuted : ~ first_kept int2float.
Proof. intros H. specialize (H [fb 1; fb 2; fb 3; fb 4]). vm_compute in H. discriminate. Qed.

(** What holds: no beat they deliver is marked first, so a consumer that needs
    the mark never sees one. *)
Theorem C107_last_on_timeout_partial : forall A (d : A) timeout ins,
  Forall (fun b => bfirst b = false) (emitted (strace (last_on_timeout d timeout) ins)).
Proof.
  intros A d timeout ins. apply (run_inv (scirc (last_on_timeout d timeout)) (fun t _ => Forall (fun b => bfirst b = false) (emitted t))); [constructor|].
  intros t s [k r] H. rewrite emitted_app. apply Forall_app. split; [exact H|]. rewrite emitted_1. unfold xfer. destruct (_ && _); constructor; [reflexivity|constructor].
Qed.
Theorem C107_int2float_partial : forall ins, Forall (fun b => bfirst b = false) (emitted (strace int2float ins)).
Proof.
  intros ins. apply (run_inv (scirc int2float) (fun t _ => Forall (fun b => bfirst b = false) (emitted t))); [constructor|].
  intros t s [k r] H. rewrite emitted_app. apply Forall_app. split; [exact H|]. rewrite emitted_1. unfold xfer. destruct (_ && _); constructor; [reflexivity|constructor].
Qed.

Example C107_nonvacuous :
  map bfirst (accepted (strace int2float [fb 1; fb 2; fb 3; fb 4])) = [true; true; true; true] /\
  map bdata (emitted (strace int2float [fb 1; fb 2; fb 3; fb 4])) = [0x3F800000; 0x40000000] /\
  map bdata (emitted (strace (last_on_timeout 0 4) [fb 1; fb 2; fb 3])) = [1; 2].
Proof. vm_compute. repeat split; reflexivity. Qed.

Print Assumptions C107_last_on_timeout_refuted.
Print Assumptions C107_int2float_refuted.
Print Assumptions C107_last_on_timeout_partial.
Print Assumptions C107_int2float_partial.
