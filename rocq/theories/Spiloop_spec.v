(** Vocabulary for C167: a slave that sends back what it receives. *)
From Verif Require Import Stream Spislave_model Spislave_props.

(** After a sampling edge, the clock keeps its level and the slave stays selected for
    [k] more cycles. *)
Definition held (k : nat) (cpol cpha : bool) (l : list pins) : Prop :=
  forall a p q b, l = a ++ p :: q :: b -> sample_edge cpol cpha p q = true ->
    Forall (fun r => p_clk r = p_clk q /\ p_cs_n r = false) (firstn k b).
(** Whenever the slave is not selected, what the master sent before is a number of whole
    words, of [n] groups each. *)
Definition whole_words (cpol cpha : bool) (n : nat) (l : list pins) : Prop :=
  forall a p b, l = a ++ p :: b -> p_cs_n p = true -> Nat.divide n (length (sampled cpol cpha low a)).
