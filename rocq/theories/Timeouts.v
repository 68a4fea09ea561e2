(** Model of how the two services read the rate limiter timeout of the sample
    requests of one stream.  A request is its timeout field: [None] when not set,
    milliseconds otherwise.  Result: [None] stands for absl::InfiniteDuration. *)
From Verif Require Import Base.

(** reverb_service_impl.cc:284-288. *)
Definition sync_timeout (t : option Z) : option Z :=
  let ms := default (-1) t in if ms <? 0 then None else Some ms.
(** Lines 276-345: the timeout is read from the first request, before the loop
    over the requests. *)
Definition sync_stream (reqs : list (option Z)) : list (option Z) :=
  match reqs with [] => [] | t :: _ => (fun _ => sync_timeout t) <$> reqs end.

(** reverb_service_async_impl.cc:551-557. *)
Definition async_timeout (t : option Z) : option Z :=
  match t with Some ms => if 0 <? ms then Some ms else None | None => None end.
(** ProcessIncomingRequest, lines 536-572, is called for every request. *)
Definition async_stream (reqs : list (option Z)) : list (option Z) := async_timeout <$> reqs.
