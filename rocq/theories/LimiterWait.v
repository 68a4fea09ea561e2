(** Threads that wait in the rate limiter of a table without a worker
    (reverb/cc/rate_limiter.cc, reverb/cc/table.cc).

    A call that the limiter holds back waits on can_insert_cv_ or can_sample_cv_ and
    releases [mu_].  A signal makes one waiting thread runnable; it goes on when it
    gets [mu_] again, after an unbounded number of other calls.  What a call does
    under [mu_] is one action, with all the signals it gives.  Which thread a signal
    wakes is left open, and threads may wake up without a signal. *)
From Verif Require Import Base RateLimiter Selector Trajectory Table.

(** The calls of the limiter that end in MaybeSignalCondVars, rate_limiter.cc:112-127,
    145-146, 166-167; [LPoke] is MaybeSignalCondVars itself, called by table.cc:508. *)
Inductive lact := LInsert | LDelete | LReset | LSample | LPoke.
Definition lact_do (l : limiter) (a : lact) : limiter :=
  match a with LInsert => lim_insert l | LDelete => lim_delete l | LReset => lim_reset l | LSample => lim_sample l | LPoke => l end.

Section WithFP.
Context {fp : FP}.

(** The limiter calls that the functions of Table.v make, in order. *)
(** table.cc:831-854 *)
Definition delete_acts (t : table) (k : Z) : list lact := match t_data t !! k with None => [] | Some _ => [LDelete] end.
(** table.cc:513-541 *)
Definition insert_new_acts (t : table) (now : Z * Z) (d : draw) (it : item) : list lact :=
  let k := it_key it in
  let p := it_prio it in
  let it := item_set_inserted_at it now in
  let t := with_data t (<[k := it]> (t_data t)) in
  let '(st, s) := sel_insert (t_sampler t) k p in
  let t := with_sampler t s in
  if negb (bool_decide (st = Ok)) then [] else
  let '(st, s) := sel_insert (t_remover t) k p in
  let t := with_remover t s in
  if negb (bool_decide (st = Ok)) then [] else
  let t := ext_op t (EvInsert it) in
  let t := with_eps t (inc_eps (t_eps t) (it_chunks it)) (t_del_eps t) in
  if t_max_size t <? t_size t then
    match sel_sample (t_remover t) d with
    | None => []
    | Some (victim, _) =>
      match delete_item t victim with
      | None => []
      | Some (st, _) => delete_acts t victim ++ if negb (bool_decide (st = Ok)) then [] else [LInsert]
      end
    end
  else [LInsert].
(** table.cc:500-541 *)
Definition insert_resume_acts (t : table) (now : Z * Z) (d : draw) (it : item) : list lact :=
  match await_can_insert (t_limiter t) with
  | AwBlocked | AwCancelled => []
  | AwProceed => match t_data t !! it_key it with Some _ => [LPoke] | None => insert_new_acts t now d it end
  end.
(** table.cc:460-500 *)
Definition insert_acts (t : table) (now : Z * Z) (d : draw) (it : item) : list lact :=
  if negb (bool_decide (check_item_validity it = Ok)) then [] else
  match t_data t !! it_key it with Some _ => [] | None => insert_resume_acts t now d it end.
(** table.cc:700-748, one turn *)
Definition sample_one_acts (t : table) (d : draw) : list lact :=
  match sel_sample (t_sampler t) d with
  | None => []
  | Some (k, _) => match t_data t !! k with None => [] | Some it => if it_times it + 1 =? t_max_times t then delete_acts t (it_key it) else [] end
  end.
Fixpoint sample_loop_acts (more : nat) (ds : nat -> draw) (limited : bool) (t : table) : list lact :=
  sample_one_acts t (ds 0%nat) ++
  match sample_one t (ds 0%nat) limited, more with
  | Some (st, _, t), S more =>
    if negb (bool_decide (st = Ok)) then [] else
    match maybe_commit_sample (t_limiter t) with
    | None => []
    | Some l => LSample :: sample_loop_acts more (fun i => ds (S i)) limited (with_limiter t l)
    end
  | _, _ => []
  end.
(** table.cc:695-748 *)
Definition sample_resume_acts (t : table) (batch : Z) (ds : nat -> draw) : list lact :=
  match await_sample (t_limiter t) with
  | AwBlocked | AwCancelled => []
  | AwProceed => LSample :: sample_loop_acts (Z.to_nat (batch - 1)) ds true (with_limiter t (lim_sample (t_limiter t)))
  end.
(** table.cc:671-754 *)
Definition sample_acts (t : table) (batch : Z) (ds : nat -> draw) : list lact :=
  match maybe_commit_sample (t_limiter t) with
  | Some l => LSample :: sample_loop_acts (Z.to_nat (batch - 1)) ds false (with_limiter t l)
  | None => sample_resume_acts t batch ds
  end.
(** table.cc:616-618 *)
Fixpoint delete_items_acts (t : table) (ks : list Z) : list lact :=
  match ks with
  | [] => []
  | k :: ks =>
    delete_acts t k ++
    match delete_item t k with
    | None => []
    | Some (st, t) => if bool_decide (st = Ok) then delete_items_acts t ks else []
    end
  end.

Definition acts (t : table) (o : op) : list lact :=
  match o with
  | OInsert now d it => insert_acts t now d it
  | OInsertWake now d it => insert_resume_acts t now d it
  | OSample b ds => sample_acts t b ds
  | OSampleWake b ds => sample_resume_acts t b ds
  | OMutate us ks => delete_items_acts t ks
  | OReset => [LReset]
  | OClose => []
  end.

(** Threads that wait.  [wt_sig]: signalled and not yet running. *)
Inductive wcall := WInsert (it : item) | WSample (batch : Z).
Record waiter := mkWaiter { wt_id : nat; wt_call : wcall; wt_sig : bool }.
Definition inserting (x : waiter) : bool := match wt_call x with WInsert _ => true | WSample _ => false end.

(** absl::CondVar::Signal: makes one of the threads that wait and have not been
    signalled runnable, if there is one. *)
Definition candidate (ins : bool) (x : waiter) : bool := Bool.eqb (inserting x) ins && negb (wt_sig x).
Definition signalled (x : waiter) : waiter := mkWaiter (wt_id x) (wt_call x) true.
Fixpoint mark (ins : bool) (n : nat) (ws : list waiter) : list waiter :=
  match ws with
  | [] => []
  | x :: ws =>
    if candidate ins x then match n with O => signalled x :: ws | S n => x :: mark ins n ws end
    else x :: mark ins n ws
  end.
Definition signal (ins : bool) (pick : nat) (ws : list waiter) : list waiter :=
  mark ins (pick mod length (List.filter (candidate ins) ws)) ws.
(** rate_limiter.cc:210-213 *)
Definition maybe_signal (l : limiter) (pick : nat -> nat) (ws : list waiter) : list waiter :=
  let ws := if can_insert l 1 then signal true (pick 0%nat) ws else ws in
  if can_sample l 1 then signal false (pick 1%nat) ws else ws.
Fixpoint deliver (l : limiter) (al : list lact) (pick : nat -> nat) (ws : list waiter) : list waiter :=
  match al with
  | [] => ws
  | a :: al => let l := lact_do l a in deliver l al (fun i => pick (2 + i)%nat) (maybe_signal l pick ws)
  end.

(** The table and the threads that wait. *)
Record lw := mkLw { lw_t : table; lw_ws : list waiter; lw_next : nat }.
Definition lw_new (t : table) : lw := mkLw t [] 0.

(** A call that does not wait yet; a waiting thread gets [mu_] again (with the
    time and the draws it finds then); the deadline of a waiting thread has passed:
    WaitWithDeadline may report that even if the thread was signalled, by the
    documentation of absl::CondVar. *)
Inductive lev :=
| VCall (o : op) (pick : nat -> nat)
| VWake (i : nat) (now : Z * Z) (ds : nat -> draw) (pick : nat -> nat)
| VTimeout (i : nat).

Inductive lres := LNext (w : lw) (o : option op) (r : result) | LCrash | LNo.

Definition of_id (i : nat) (x : waiter) : bool := (wt_id x =? i)%nat.
Definition others (i : nat) (ws : list waiter) : list waiter := List.filter (fun x => negb (of_id i x)) ws.
(** The thread [i] waits again, not signalled.  Its place in the list is kept: the
    order does not matter, since any thread may be picked. *)
Definition wait_again (i : nat) (ws : list waiter) : list waiter :=
  (fun x => if of_id i x then mkWaiter (wt_id x) (wt_call x) false else x) <$> ws.

Definition wake_op (c : wcall) (now : Z * Z) (ds : nat -> draw) : op :=
  match c with WInsert it => OInsertWake now (ds 0%nat) it | WSample b => OSampleWake b ds end.

(** The call as it waits, if [o] can wait. *)
Definition waits_as (o : op) : option wcall :=
  match o with OInsert _ _ it => Some (WInsert it) | OSample b _ => Some (WSample b) | _ => None end.
(** Calls of clients. *)
Definition is_call (o : op) : bool := match o with OInsertWake _ _ _ | OSampleWake _ _ => false | _ => true end.

Definition lw_step (w : lw) (e : lev) : lres :=
  match e with
  | VCall o pick =>
    if negb (is_call o) then LNo else
    match step (lw_t w) o with
    | None => LCrash
    | Some (RBlocked, t) =>
      match waits_as o with
      | Some c => LNext (mkLw t (lw_ws w ++ [mkWaiter (lw_next w) c false]) (S (lw_next w))) (Some o) RBlocked
      | None => LNo
      end
    | Some (r, t) =>
      (* rate_limiter.cc:186-190: Cancel signals all *)
      let ws := match o with OClose => signalled <$> lw_ws w | _ => deliver (t_limiter (lw_t w)) (acts (lw_t w) o) pick (lw_ws w) end in
      LNext (mkLw t ws (lw_next w)) (Some o) r
    end
  | VWake i now ds pick =>
    match List.find (of_id i) (lw_ws w) with
    | None => LNo
    | Some x =>
      let o := wake_op (wt_call x) now ds in
      match step (lw_t w) o with
      | None => LCrash
      | Some (RBlocked, t) => LNext (mkLw t (wait_again i (lw_ws w)) (lw_next w)) (Some o) RBlocked
      | Some (r, t) => LNext (mkLw t (deliver (t_limiter (lw_t w)) (acts (lw_t w) o) pick (others i (lw_ws w))) (lw_next w)) (Some o) r
      end
    end
  | VTimeout i =>
    match List.find (of_id i) (lw_ws w) with
    | None => LNo
    | Some _ => LNext (mkLw (lw_t w) (others i (lw_ws w)) (lw_next w)) None (RStatus DeadlineExceeded)
    end
  end.

(** Draws are in range. *)
Definition lev_can (e : lev) : Prop :=
  match e with
  | VCall (OInsert _ d _) _ => draw_ok d
  | VCall (OSample _ ds) _ => forall i, draw_ok (ds i)
  | VWake _ _ ds _ => forall i, draw_ok (ds i)
  | _ => True
  end.

Inductive lw_trace (A : lw -> lev -> Prop) (w0 : lw) : list (lev * result) -> lw -> Prop :=
| lt_nil : lw_trace A w0 [] w0
| lt_snoc tr w e w' o r : lw_trace A w0 tr w -> lev_can e -> A w e -> lw_step w e = LNext w' o r -> lw_trace A w0 (tr ++ [(e, r)]) w'.

End WithFP.
