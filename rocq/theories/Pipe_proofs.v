From Verif Require Import Stream Pipe_model.

Section PipeProofs.
  Context {A : Type} (d : A).

  Definition chan_list (c : chan A) : list (beat A) := if cvalid c then [cbeat c] else [].

  Lemma pv_lossless ins :
    accepted (strace (pipe_valid d) ins) =
    emitted (strace (pipe_valid d) ins) ++ chan_list (state (scirc (pipe_valid d)) ins).
  Proof.
    apply (run_inv (scirc (pipe_valid d)) (fun t s => accepted t = emitted t ++ chan_list s)).
    - reflexivity.
    - intros t s [c r] IH. rewrite accepted_app, emitted_app, IH, accepted_1, emitted_1.
      cbn. unfold chan_list, xfer, pv_en.
      destruct s as [[] b], c as [[] b'], r; cbn; rewrite ?app_nil_r, <- ?app_assoc; reflexivity.
  Qed.

  Lemma pv_stable ins : stable_src (strace (pipe_valid d) ins).
  Proof.
    apply (stable_src_intro (pipe_valid d) (fun _ => True)); auto.
    intros [v b] c c' _; cbn. intros ->. reflexivity.
  Qed.

  Definition pr_inv (s : @pr_state A) := pr_valid s = true -> cvalid (pr_sink_d s) = true.

  Lemma pr_inv_ok ins : pr_inv (state (scirc (pipe_ready d)) ins).
  Proof.
    apply state_inv.
    - discriminate.
    - intros [v k] [c r] H. unfold pr_inv in *. cbn in *.
      destruct r, v, (cvalid c) eqn:E; cbn; auto; discriminate.
  Qed.

  Definition pr_list (s : @pr_state A) := if pr_valid s then [cbeat (pr_sink_d s)] else [].

  Lemma pr_lossless ins :
    accepted (strace (pipe_ready d) ins) =
    emitted (strace (pipe_ready d) ins) ++ pr_list (state (scirc (pipe_ready d)) ins).
  Proof.
    enough (H : pr_inv (state (scirc (pipe_ready d)) ins) /\
      accepted (strace (pipe_ready d) ins) =
      emitted (strace (pipe_ready d) ins) ++ pr_list (state (scirc (pipe_ready d)) ins)) by apply H.
    apply (run_inv (scirc (pipe_ready d))
             (fun t s => pr_inv s /\ accepted t = emitted t ++ pr_list s)).
    - split; [discriminate|reflexivity].
    - intros t [v [kv kb]] [c r] [Hi IH].
      rewrite accepted_app, emitted_app, IH, accepted_1, emitted_1.
      unfold pr_inv, pr_list, xfer in *. cbn in *.
      destruct v; [rewrite Hi by reflexivity|];
        destruct r, c as [[] b]; cbn; rewrite ?app_nil_r, <- ?app_assoc; split; auto; discriminate.
  Qed.

  Lemma pr_stable ins : stable_src (strace (pipe_ready d) ins).
  Proof.
    apply (stable_src_intro (pipe_ready d) pr_inv); [apply pr_inv_ok|].
    intros [v [kv kb]] [cv cb] c' Hi; unfold pr_inv in *; cbn in *.
    destruct v; cbn; intros; subst; cbn; try reflexivity.
    destruct cv; reflexivity.
  Qed.
End PipeProofs.
