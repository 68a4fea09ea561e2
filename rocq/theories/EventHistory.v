(** Model of RateLimiter::StatsManager, reverb/cc/rate_limiter.{h,cc}: counters
    and ring buffer of the events of one kind (insert or sample).  All functions
    run while the mutex of the table is held.  Times are integers. *)
From Verif Require Import Base.

(** rate_limiter.h:41-52. *)
Record event := mkEvent { e_id : nat; e_start : Z; e_blocked : Z }.

(** rate_limiter.h:238-270.  [s_active] is a hash set; here it is a list. *)
Record stats := mkStats {
  s_events : list event; s_next : nat; s_active : list nat;
  s_completed : Z; s_limited : Z; s_wait : Z }.

(** Lines 244-250; [n] stands for kEventHistoryBufferSize. *)
Definition stats_new (n : nat) : stats := mkStats (repeat (mkEvent 0 0 0) n) 0 [] 0 0 0.

Definition s_cap (s : stats) : nat := length (s_events s).

(** Lines 252-263.  The caller gets a pointer to the slot [id mod n]. *)
Definition create_event (s : stats) (now : Z) : nat * stats :=
  let id := s_next s in
  let slot := (id mod s_cap s)%nat in
  (slot, mkStats (<[slot := mkEvent id now 0]> (s_events s)) (S id) (id :: s_active s)
           (s_completed s) (s_limited s) (s_wait s)).

(** Lines 265-270. *)
Definition complete_event (s : stats) (e : event) : stats :=
  mkStats (s_events s) (s_next s) (filter (fun j => j <> e_id e) (s_active s))
    (s_completed s + 1) (s_limited s + if 0 <? e_blocked e then 1 else 0) (s_wait s + e_blocked e).

(** Lines 325-330: the destructor of the event with a pointer to [slot]. *)
Definition end_event (s : stats) (slot : nat) (was_blocked : bool) (now : Z) : stats :=
  match s_events s !! slot with
  | None => s
  | Some e =>
    let e := if was_blocked then mkEvent (e_id e) (e_start e) (now - e_start e) else e in
    complete_event (mkStats (<[slot := e]> (s_events s)) (s_next s) (s_active s) (s_completed s) (s_limited s) (s_wait s)) e
  end.

(** Lines 272-286. *)
Record call_stats := mkCallStats { c_pending : Z; c_completed : Z; c_limited : Z; c_wait : Z; c_pending_wait : Z }.
Definition to_proto (s : stats) (now : Z) : call_stats :=
  mkCallStats (Z.of_nat (length (s_active s))) (s_completed s) (s_limited s) (s_wait s)
    (foldr Z.add 0 ((fun id => now - e_start (default (mkEvent 0 0 0) (s_events s !! (id mod s_cap s)%nat))) <$> s_active s)).

(** Lines 288-315. [None]: the CHECK in line 290 fails. *)
Definition get_event_history (s : stats) (min_id : nat) : option (list event) :=
  if (s_next s <? min_id)%nat then None
  else
    let min_id := if (s_cap s <=? s_next s - min_id)%nat then (s_next s - s_cap s)%nat else min_id in
    let max_id := match s_active s with [] => s_next s | i :: l => foldr Nat.min i l end in
    if (max_id <? min_id + 1)%nat then Some []
    else Some ((fun i => default (mkEvent 0 0 0) (s_events s !! ((min_id + i) mod s_cap s)%nat)) <$>
                 seq 0 (max_id - min_id - 1)).

(** Events begin and end.  [EvEnd id]: the event that was created as number [id]
    ends; it has a pointer to the slot [id mod n]. *)
Inductive evop := EvBegin (now : Z) | EvEnd (id : nat) (was_blocked : bool) (now : Z).
Definition ev_step (s : stats) (o : evop) : stats :=
  match o with
  | EvBegin now => (create_event s now).2
  | EvEnd id b now => end_event s (id mod s_cap s)%nat b now
  end.
Definition ev_run (n : nat) (os : list evop) : stats := foldl ev_step (stats_new n) os.
