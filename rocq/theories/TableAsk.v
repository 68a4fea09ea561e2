(** Model of the two questions a user can ask a table: Table::CanSample and
    Table::CanInsert, behind Table.can_sample and Table.can_insert of server.py. *)
From Verif Require Import Base RateLimiter Selector Trajectory Table.

Section WithFP.
Context {fp : FP}.

(** table.cc:1055-1058 with rate_limiter.cc:150-157, server.py:227-229.  [None]:
    REVERB_CHECK_GT(num_samples, 0) ends the process.  The argument is an int,
    here any integer. *)
Definition table_can_sample (t : table) (n : Z) : option bool :=
  if n <=? 0 then None else Some (can_sample (t_limiter t) n).

(** table.cc:1060-1063 with rate_limiter.cc:171-180, server.py:231-233. *)
Definition table_can_insert (t : table) (n : Z) : option bool :=
  if n <=? 0 then None else Some (can_insert (t_limiter t) n).

End WithFP.
