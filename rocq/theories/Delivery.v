(** Between a table and the callers of Samplers: the Samplers of Sampler.v with the
    streams in between.  [A] is the type of the samples that a table hands out. *)
From Verif Require Import Base Queue Sampler.

Section Delivery.
Context {A : Type} (len : A -> nat).

(** A Sampler.  [r_pipes]: for every worker the samples that the server has taken
    from the table for its stream and the worker has not read.  Ghost fields:
    [r_given], what the table handed out for this Sampler, in order; [r_lost], what no
    caller can get any more although no call has got it, apart from what is in the
    queue when it is closed. *)
Record rclient := mkRc { r_p : sampler A; r_pipes : list (list A); r_given : list A; r_lost : list A }.

Inductive rev :=
| RGive (i : nat) (l : list A) (late : bool)
| RRead (i : nat)
| RRun (e : nev A).

(** The samples that a worker of kind KLocal has taken and not pushed. *)
Definition in_hand (w : sworker A) : list A := match w_pos w with PPush _ _ items => items | _ => [] end.
(** What the stream of a worker still has to bring. *)
Definition outstanding (w : sworker A) : Z := match w_pos w with PRead _ _ req sampled => req - sampled | _ => 0 end.
Definition fetched_out (w : sworker A) : bool := match w_pos w with PRet _ _ _ => true | _ => false end.

(** After a step of worker [i]: FetchSamples has returned, then the stream is gone
    and with it what was on its way (sampler.cc:195-284: [stream] is local). *)
Definition after_step (c : rclient) (i : nat) (w : sworker A) (p : sampler A) (pipe : list A) (rest : list A) : option rclient :=
  w' ← p_workers p !! i;
  Some (if fetched_out w' then mkRc p (<[i := []]> (r_pipes c)) (r_given c) (r_lost c ++ in_hand w ++ pipe)
        else mkRc p (<[i := rest]> (r_pipes c)) (r_given c) (r_lost c)).

(** The stream ended because the rate limiter timed out while nobody waited
    (sampler.cc:229-236).  The server sends this status after the samples that it
    has written, so none of them is unread. *)
Definition ends_ok (e : wev A) : bool := match e with VEof st => bool_decide (st = Ok) | _ => false end.
Definition is_nil (l : list A) : bool := match l with [] => true | _ => false end.

Definition r_step (c : rclient) (e : rev) : option rclient :=
  match e with
  | RGive i l late =>
    (* The server answers a request of worker [i], with no more samples than it was
       asked for (C54).  [late]: the stream is gone by then, or breaks before the
       samples have been written (reverb_service_impl.cc:SampleStreamInternal,
       reverb_service_async_impl.cc:SampleStream); nobody reads them.  For a worker in
       the process of the server: SampleFlexibleBatch returns (sampler.cc:349). *)
    w ← p_workers (r_p c) !! i; pipe ← r_pipes c !! i;
    match w_kind w with
    | KGrpc _ =>
      if late : bool then Some (mkRc (r_p c) (r_pipes c) (r_given c ++ l) (r_lost c ++ l))
      else if Z.of_nat (length pipe + length l) <=? outstanding w then Some (mkRc (r_p c) (<[i := pipe ++ l]> (r_pipes c)) (r_given c ++ l) (r_lost c))
      else None
    | KLocal _ => if late then None else p ← p_step len (r_p c) (NWorker i (VTable l)); Some (mkRc p (r_pipes c) (r_given c ++ l) (r_lost c))
    end
  | RRead i =>
    (* sampler.cc:227-267: the next sample on the stream *)
    w ← p_workers (r_p c) !! i; pipe ← r_pipes c !! i;
    match pipe with
    | x :: rest => p ← p_step len (r_p c) (NWorker i (VSample x)); after_step c i w p pipe rest
    | [] => None
    end
  | RRun (NWorker i (VSample _)) | RRun (NWorker i (VTable _)) => None
  | RRun (NWorker i e) =>
    w ← p_workers (r_p c) !! i; pipe ← r_pipes c !! i;
    if ends_ok e && negb (is_nil pipe) then None
    else p ← p_step len (r_p c) (NWorker i e); after_step c i w p pipe pipe
  | RRun e => p ← p_step len (r_p c) e; Some (mkRc p (r_pipes c) (r_given c) (r_lost c))
  end.

Definition r_new (maxs per_stream num_workers : Z) (kinds : list wkind) : rclient :=
  mkRc (p_new maxs per_stream num_workers kinds) (replicate (length kinds) []) [] [].
Fixpoint r_run (c : rclient) (es : list rev) : option rclient :=
  match es with [] => Some c | e :: es => c ← r_step c e; r_run c es end.

(** Several Samplers with one table.  [y_given]: what the table handed out for
    them, in order. *)
Record dsys := mkDsys { y_clients : list rclient; y_given : list A }.
Definition handed (e : rev) : list A := match e with RGive _ l _ => l | _ => [] end.
Definition y_step (y : dsys) (j : nat) (e : rev) : option dsys :=
  c ← y_clients y !! j; c ← r_step c e; Some (mkDsys (<[j := c]> (y_clients y)) (y_given y ++ handed e)).
Fixpoint y_run (y : dsys) (es : list (nat * rev)) : option dsys :=
  match es with [] => Some y | (j, e) :: es => y ← y_step y j e; y_run y es end.

End Delivery.
Arguments rclient : clear implicits.
Arguments rev : clear implicits.
Arguments dsys : clear implicits.
