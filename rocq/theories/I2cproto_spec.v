(** The protocol of I2CProto as its documentation (proto.py:20-49) gives it, from the
    host's side and on the I2C bus. *)
From Verif Require Import Stream I2c_model I2cstream_model I2cstream_spec I2cproto_model.

(** ** The host's view: which requests have been sent and what came back. *)
Inductive exchange :=
  | Wrote (header : Z) (data : list Z) (answer : list (beat Z))
  | Asked (header : Z) (len : Z) (answer : list (beat Z)).

Inductive host :=
  | HIdle                                            (* nothing outstanding *)
  | HHeader (h : Z)                                  (* header sent *)
  | HData (h : Z) (sent : list Z) (left : Z)         (* write: bytes sent, bytes to send *)
  | HStatusW (h : Z) (sent : list Z)                 (* write: waiting for the status *)
  | HStatusR (h : Z) (n : Z)                         (* read: waiting for the status *)
  | HBytes (h : Z) (n : Z) (got : list (beat Z)) (left : Z)  (* read: status 0, bytes expected *)
  | HLost.                                           (* the answer makes no sense *)

Definition is_read (h : Z) : bool := Z.odd h.

(** The host sends a byte. *)
Definition host_sent (st : host * list exchange) (b : Z) : host * list exchange :=
  let '(s, log) := st in
  (match s with
   | HIdle => HHeader b
   | HHeader h => if is_read h then HStatusR h b else if b =? 0 then HStatusW h [] else HData h [] b
   | HData h ds n => if n =? 1 then HStatusW h (ds ++ [b]) else HData h (ds ++ [b]) (n - 1)
   | _ => HLost
   end, log).
(** The host receives a byte. *)
Definition host_got (st : host * list exchange) (a : beat Z) : host * list exchange :=
  let '(s, log) := st in
  match s with
  | HStatusW h ds => (HIdle, log ++ [Wrote h ds [a]])
  | HStatusR h n => if bdata a =? 0 then (HBytes h n [a] n, log) else (HIdle, log ++ [Asked h n [a]])
  | HBytes h n got l =>
      if l =? 1 then (HIdle, log ++ [Asked h n (got ++ [a])]) else (HBytes h n (got ++ [a]) (l - 1), log)
  | _ => (HLost, log)
  end.
Definition host_step (st : host * list exchange) (o : obs Z Z) : host * list exchange :=
  match xfer (o_sink o) (o_sready o), xfer (o_src o) (o_rready o) with
  | [], [] => st
  | [b], [] => host_sent st (bdata b)
  | [], [a] => host_got st a
  | _, _ => (HLost, snd st)
  end.
Definition host_view (t : list (obs Z Z)) : host * list exchange := fold_left host_step t (HIdle, []).

(** Whether the address byte of the request under way has been answered on the I2C bus:
    a byte has been served since the host had last nothing outstanding. *)
Definition addressed_step (st : (host * list exchange) * bool) (o : pr_obs) : (host * list exchange) * bool :=
  (host_step (fst st) (po_io o),
   match fst (fst st) with
   | HIdle => false
   | _ => snd st || match served [po_i2c o] with [] => false | _ => true end
   end).
Definition addressed (t : list pr_obs) : bool := snd (fold_left addressed_step t ((HIdle, []), false)).

(** What is asked of the host: bytes are bytes; from the moment the address byte of a
    write has been answered its data bytes are offered without gaps (before, gaps are
    allowed); nothing is offered between a read request and its status; no read of 0
    bytes. *)
Definition good_host (t : list pr_obs) : Prop :=
  forall t1 o t2, t = t1 ++ o :: t2 ->
    0 <= bdata (cbeat (o_sink (po_io o))) < 256 /\
    match fst (host_view (map po_io t1)) with
    | HData _ _ _ => addressed t1 = true -> cvalid (o_sink (po_io o)) = true
    | HStatusR _ n => cvalid (o_sink (po_io o)) = false /\ n <> 0
    | _ => True
    end.

(** ** The bus side.  A list of writes (reads) with last on the final one. *)
Fixpoint write_beats (l : list Z) : list (beat (bool * Z)) :=
  match l with
  | [] => []
  | x :: r => Beat false (match r with [] => true | _ => false end) (false, x) :: write_beats r
  end.
Fixpoint read_beats (n : nat) : list (beat (bool * Z)) :=
  match n with
  | O => []
  | S m => Beat false (match m with O => true | _ => false end) (true, 0) :: read_beats m
  end.
Definition taken {A} (l : list A) : list (A * bool) := map (fun b => (b, false)) l.

(** [executed e beats data]: the exchange [e] is the right answer if the beats served on
    the I2C bus, with their error flags, are [beats] and the bytes read are [data]. *)
Definition status_beat (x : Z) : beat Z := Beat false true x.
Inductive executed : exchange -> list (beat (bool * Z) * bool) -> list (beat Z) -> Prop :=
  | ex_write h ds :
      executed (Wrote h ds [status_beat 0]) (taken (write_beats (h :: ds))) []
  | ex_write_refused h ds b good rest :
      write_beats (h :: ds) = good ++ b :: rest ->
      executed (Wrote h ds [status_beat 1]) (taken good ++ [(b, true)]) []
  | ex_read h n data :
      map blast data = map blast (read_beats (Z.to_nat n)) ->
      executed (Asked h n (status_beat 0 :: data))
        ((Beat false false (false, h), false) :: taken (read_beats (Z.to_nat n))) data
  | ex_read_refused h n :
      executed (Asked h n [status_beat 1]) [(Beat false false (false, h), true)] [].
