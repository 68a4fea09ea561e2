(** Model of the synchronous part of reverb/cc/table.cc.

    Every public call is executed atomically: the code holds [mu_] for its whole
    duration except while it waits in the rate limiter, and a call that has to
    wait re-reads the state when it wakes up.  A call that cannot proceed is the
    outcome [RBlocked] and leaves the table alone.  It may be given up by its
    caller because of the timeout, or continue later from the point where it
    waits: that is the separate call [insert_resume] or [sample_resume]. *)
From Verif Require Import Base RateLimiter Selector Trajectory.

(** Calls received by a synchronous extension (table_extensions/interface.h).
    The item is the snapshot the extension is given. *)
Inductive event :=
| EvInsert (it : item) | EvSample (it : item) | EvUpdate (it : item)
| EvDelete (it : item) | EvReset.

(** table.h:385-470, the members guarded by [mu_].  [t_log] records the calls
    made to the extensions, oldest first; it is not a member of the class. *)
Record table := mkTable {
  t_max_size : Z; t_max_times : Z;
  t_sampler : selector; t_remover : selector;
  t_limiter : limiter;
  t_data : gmap Z item;
  t_eps : gmap Z Z; t_del_eps : Z; t_unique : Z;
  t_log : list event }.

(** What the user passes to the constructor. *)
Record tcfg := mkCfg {
  c_max_size : Z; c_max_times : Z; c_sampler : sel_kind; c_remover : sel_kind;
  c_spi : Q; c_min_size : Z; c_min_diff : Q; c_max_diff : Q }.

(** table.cc:131-156.  The name, the signature and the worker queues are left
    out. *)
Definition new_table (c : tcfg) : table :=
  mkTable (c_max_size c) (c_max_times c) (sel_new (c_sampler c)) (sel_new (c_remover c))
    (new_limiter (c_spi c) (c_min_size c) (c_min_diff c) (c_max_diff c))
    ∅ ∅ 0 0 [].

(** Python requires max_size > 0 (server.py:135); the limiter CHECKs
    min_size_to_sample > 0 (rate_limiter.cc:62); the exponent of a prioritized
    selector is CHECKed to be non-negative (prioritized.cc:53-57). *)
Definition cfg_ok (c : tcfg) : Prop :=
  0 < c_max_size c /\ 0 < c_min_size c /\ kind_ok (c_sampler c) /\ kind_ok (c_remover c).

Definition t_size (t : table) : Z := Z.of_nat (size (t_data t)).

Definition with_sampler t s := mkTable (t_max_size t) (t_max_times t) s (t_remover t)
  (t_limiter t) (t_data t) (t_eps t) (t_del_eps t) (t_unique t) (t_log t).
Definition with_remover t s := mkTable (t_max_size t) (t_max_times t) (t_sampler t) s
  (t_limiter t) (t_data t) (t_eps t) (t_del_eps t) (t_unique t) (t_log t).
Definition with_limiter t l := mkTable (t_max_size t) (t_max_times t) (t_sampler t) (t_remover t)
  l (t_data t) (t_eps t) (t_del_eps t) (t_unique t) (t_log t).
Definition with_data t d := mkTable (t_max_size t) (t_max_times t) (t_sampler t) (t_remover t)
  (t_limiter t) d (t_eps t) (t_del_eps t) (t_unique t) (t_log t).
Definition with_eps t e n := mkTable (t_max_size t) (t_max_times t) (t_sampler t) (t_remover t)
  (t_limiter t) (t_data t) e n (t_unique t) (t_log t).
Definition with_unique t n := mkTable (t_max_size t) (t_max_times t) (t_sampler t) (t_remover t)
  (t_limiter t) (t_data t) (t_eps t) (t_del_eps t) n (t_log t).
(** table.cc:856-906 for synchronous extensions. *)
Definition ext_op t e := mkTable (t_max_size t) (t_max_times t) (t_sampler t) (t_remover t)
  (t_limiter t) (t_data t) (t_eps t) (t_del_eps t) (t_unique t) (t_log t ++ [e]).

(** table.cc:525-530 and 1016-1018: [++episode_refs_[chunk->episode_id()]]. *)
Definition inc_eps (e : gmap Z Z) (cs : list chunk) : gmap Z Z :=
  fold_left (fun e c => <[ck_ep c := default 0 (e !! ck_ep c) + 1]> e) cs e.

(** table.cc:837-844.  [None]: the CHECK fails. *)
Fixpoint dec_eps (e : gmap Z Z) (n : Z) (cs : list chunk) : option (gmap Z Z * Z) :=
  match cs with
  | [] => Some (e, n)
  | c :: cs =>
    match e !! ck_ep c with
    | None => None
    | Some r => if r - 1 =? 0 then dec_eps (delete (ck_ep c) e) (n + 1) cs
                else dec_eps (<[ck_ep c := r - 1]> e) n cs
    end
  end.

Section WithFP.
Context {fp : FP}.

(** table.cc:831-854.  [None]: a CHECK fails. *)
Definition delete_item (t : table) (k : Z) : option (status * table) :=
  match t_data t !! k with
  | None => Some (Ok, t)
  | Some it =>
    match dec_eps (t_eps t) (t_del_eps t) (it_chunks it) with
    | None => None
    | Some (e, n) =>
      let t := with_eps t e n in
      let t := ext_op t (EvDelete it) in
      let t := with_data t (delete k (t_data t)) in
      let t := with_limiter t (lim_delete (t_limiter t)) in
      let '(st, s) := sel_delete (t_sampler t) k in
      let t := with_sampler t s in
      if decide (st = Ok) then
        let '(st, s) := sel_delete (t_remover t) k in
        Some (st, with_remover t s)
      else Some (st, t)
    end
  end.

(** What a table does to a stored item.  table.cc:913. *)
Definition item_set_priority (it : item) (p : dbl) : item :=
  mkItem (it_key it) p (it_times it) (it_at it) (it_chunks it) (it_traj it).
(** table.cc:515 and 585. *)
Definition item_set_inserted_at (it : item) (now : Z * Z) : item :=
  mkItem (it_key it) (it_prio it) (it_times it) now (it_chunks it) (it_traj it).
(** table.cc:725 and 765. *)
Definition item_set_times (it : item) (n : Z) : item :=
  mkItem (it_key it) (it_prio it) n (it_at it) (it_chunks it) (it_traj it).

(** table.cc:908-919. *)
Definition update_item (t : table) (k : Z) (p : dbl) : status * table :=
  match t_data t !! k with
  | None => (Ok, t)
  | Some it =>
    let it := item_set_priority it p in
    let t := with_data t (<[k := it]> (t_data t)) in
    let '(st, s) := sel_update (t_sampler t) k p in
    let t := with_sampler t s in
    if decide (st = Ok) then
      let '(st, s) := sel_update (t_remover t) k p in
      let t := with_remover t s in
      if decide (st = Ok) then (Ok, ext_op t (EvUpdate it)) else (st, t)
    else (st, t)
  end.

(** table.cc:513-541 and 584-609: the part of an insertion after the limiter has
    let it through.  [now] is absl::Now(), [d] the draw of the remover. *)
Definition insert_new (t : table) (now : Z * Z) (d : draw) (it : item) : option (status * table) :=
  let k := it_key it in
  let p := it_prio it in
  let it := item_set_inserted_at it now in
  let t := with_data t (<[k := it]> (t_data t)) in
  let '(st, s) := sel_insert (t_sampler t) k p in
  let t := with_sampler t s in
  if negb (bool_decide (st = Ok)) then Some (st, t) else
  let '(st, s) := sel_insert (t_remover t) k p in
  let t := with_remover t s in
  if negb (bool_decide (st = Ok)) then Some (st, t) else
  let t := ext_op t (EvInsert it) in
  let t := with_eps t (inc_eps (t_eps t) (it_chunks it)) (t_del_eps t) in
  if t_max_size t <? t_size t then
    match sel_sample (t_remover t) d with
    | None => None
    | Some (victim, _) =>
      match delete_item t victim with
      | None => None
      | Some (st, t) =>
        if negb (bool_decide (st = Ok)) then Some (st, t)
        else Some (Ok, with_limiter t (lim_insert (t_limiter t)))
      end
    end
  else Some (Ok, with_limiter t (lim_insert (t_limiter t))).

(** One sampled item, table.h:SampledItem.  [sm_item] is the item as it is when
    the sample is taken. *)
Record sampled := mkSampled {
  sm_item : item; sm_prob : Q; sm_size : Z; sm_prio : dbl; sm_times : Z; sm_limited : bool }.

(** Results of public calls. *)
Inductive result :=
| RStatus (st : status)
| RSamples (st : status) (l : list sampled)
| RBlocked.

(** table.cc:503-541: an insertion from the point where it asks the limiter.
    After a wait the key may have been inserted by somebody else. *)
Definition insert_resume (t : table) (now : Z * Z) (d : draw) (it : item)
  : option (result * table) :=
  match await_can_insert (t_limiter t) with
  | AwBlocked => Some (RBlocked, t)
  | AwCancelled => Some (RStatus Cancelled, t)
  | AwProceed =>
    match t_data t !! it_key it with
    | Some _ => let '(st, t) := update_item t (it_key it) (it_prio it) in Some (RStatus st, t)
    | None =>
      match insert_new t now d it with
      | None => None
      | Some (st, t) => Some (RStatus st, t)
      end
    end
  end.

(** table.cc:460-542 without the branch for tables with a worker.  [None]: a
    CHECK fails. *)
Definition insert_or_assign (t : table) (now : Z * Z) (d : draw) (it : item)
  : option (result * table) :=
  if negb (bool_decide (check_item_validity it = Ok)) then
    Some (RStatus (check_item_validity it), t)
  else
  match t_data t !! it_key it with
  | Some _ => let '(st, t) := update_item t (it_key it) (it_prio it) in Some (RStatus st, t)
  | None => insert_resume t now d it
  end.

(** One turn of the loop of table.cc:700-748, also SampleInternal
    (table.cc:756-787).  [data_[key]] of a missing key gives a null pointer that
    is dereferenced at once: [None], as is a failed CHECK. *)
Definition sample_one (t : table) (d : draw) (limited : bool)
  : option (status * sampled * table) :=
  match sel_sample (t_sampler t) d with
  | None => None
  | Some (k, prob) =>
    match t_data t !! k with
    | None => None
    | Some it =>
      let t := if it_times it =? 0 then with_unique t (t_unique t + 1) else t in
      let it := item_set_times it (it_times it + 1) in
      let t := with_data t (<[k := it]> (t_data t)) in
      let sm := mkSampled it prob (t_size t) (it_prio it) (it_times it) limited in
      let t := ext_op t (EvSample it) in
      if it_times it =? t_max_times t then
        match delete_item t (it_key it) with
        | None => None
        | Some (st, t) => Some (st, sm, t)
        end
      else Some (Ok, sm, t)
    end
  end.

(** The do-while loop of table.cc:700-748.  [more] is how many further samples
    the batch size allows, [ds] the random draws.  The result lists the samples
    in order. *)
Fixpoint sample_loop (more : nat) (ds : nat -> draw) (limited : bool) (t : table)
  : option (status * list sampled * table) :=
  match sample_one t (ds 0%nat) limited with
  | None => None
  | Some (st, sm, t) =>
    if negb (bool_decide (st = Ok)) then Some (st, [sm], t) else
    match more with
    | O => Some (Ok, [sm], t)
    | S more =>
      match maybe_commit_sample (t_limiter t) with
      | None => Some (Ok, [sm], t)
      | Some l =>
        match sample_loop more (fun i => ds (S i)) limited (with_limiter t l) with
        | None => None
        | Some (st, sms, t) => Some (st, sm :: sms, t)
        end
      end
    end
  end.

Definition sample_run (t : table) (batch : Z) (ds : nat -> draw) (limited : bool)
  : option (result * table) :=
  match sample_loop (Z.to_nat (batch - 1)) ds limited t with
  | None => None
  | Some (st, sms, t) => Some (RSamples st sms, t)
  end.

(** table.cc:695-748: a sample call from the point where it waits. *)
Definition sample_resume (t : table) (batch : Z) (ds : nat -> draw)
  : option (result * table) :=
  match await_sample (t_limiter t) with
  | AwBlocked => Some (RBlocked, t)
  | AwCancelled => Some (RSamples Cancelled [], t)
  | AwProceed => sample_run (with_limiter t (lim_sample (t_limiter t))) batch ds true
  end.

(** table.cc:671-754 without the branch for tables with a worker.  The
    do-while samples once even if [batch <= 0]. *)
Definition sample_batch (t : table) (batch : Z) (ds : nat -> draw)
  : option (result * table) :=
  match maybe_commit_sample (t_limiter t) with
  | Some l => sample_run (with_limiter t l) batch ds false
  | None => sample_resume t batch ds
  end.

Fixpoint delete_items (t : table) (ks : list Z) : option (status * table) :=
  match ks with
  | [] => Some (Ok, t)
  | k :: ks =>
    match delete_item t k with
    | None => None
    | Some (st, t) => if bool_decide (st = Ok) then delete_items t ks else Some (st, t)
    end
  end.

Fixpoint update_items (t : table) (us : list (Z * dbl)) : status * table :=
  match us with
  | [] => (Ok, t)
  | (k, p) :: us =>
    let '(st, t) := update_item t k p in
    if bool_decide (st = Ok) then update_items t us else (st, t)
  end.

(** table.cc:612-633. *)
Definition mutate_items (t : table) (us : list (Z * dbl)) (ks : list Z)
  : option (result * table) :=
  match delete_items t ks with
  | None => None
  | Some (st, t) =>
    if bool_decide (st = Ok) then
      let '(st, t) := update_items t us in Some (RStatus st, t)
    else Some (RStatus st, t)
  end.

(** table.cc:921-960 without worker threads. *)
Definition reset_table (t : table) : table :=
  let t := ext_op t EvReset in
  mkTable (t_max_size t) (t_max_times t) (sel_clear (t_sampler t)) (sel_clear (t_remover t))
    (lim_reset (t_limiter t)) ∅ ∅ 0 0 (t_log t).

(** table.cc:819-829. *)
Definition close_table (t : table) : table :=
  with_limiter t (lim_cancel (t_limiter t)).

(** The public calls.  [OInsertWake] and [OSampleWake] are calls that returned
    [RBlocked] earlier and wake up now; they are allowed at any time. *)
Inductive op :=
| OInsert (now : Z * Z) (d : draw) (it : item)
| OInsertWake (now : Z * Z) (d : draw) (it : item)
| OSample (batch : Z) (ds : nat -> draw)
| OSampleWake (batch : Z) (ds : nat -> draw)
| OMutate (updates : list (Z * dbl)) (deletes : list Z)
| OReset
| OClose.

Definition step (t : table) (o : op) : option (result * table) :=
  match o with
  | OInsert now d it => insert_or_assign t now d it
  | OInsertWake now d it => insert_resume t now d it
  | OSample b ds => sample_batch t b ds
  | OSampleWake b ds => sample_resume t b ds
  | OMutate us ks => mutate_items t us ks
  | OReset => Some (RStatus Ok, reset_table t)
  | OClose => Some (RStatus Ok, close_table t)
  end.

(** A history of calls; [None] as soon as the process dies. *)
Fixpoint run (t : table) (os : list op) : option (list result * table) :=
  match os with
  | [] => Some ([], t)
  | o :: os =>
    match step t o with
    | None => None
    | Some (r, t) =>
      match run t os with
      | None => None
      | Some (rs, t) => Some (r :: rs, t)
      end
    end
  end.

(** TableInfo, table.cc:796-817, the fields that change. *)
Record tinfo := mkInfo {
  i_size : Z; i_episodes : Z; i_deleted_episodes : Z; i_unique : Z;
  i_inserts : Z; i_samples : Z; i_deletes : Z }.
Definition info (t : table) : tinfo :=
  mkInfo (t_size t) (Z.of_nat (size (t_eps t))) (t_del_eps t) (t_unique t)
    (l_inserts (t_limiter t)) (l_samples (t_limiter t)) (l_deletes (t_limiter t)).

(** Assumptions on a call used by most theorems: the random draws are in range
    and every priority is accepted by both selectors. *)
Definition prio_ok (c : tcfg) (p : dbl) : Prop :=
  accepts (c_sampler c) p = true /\ accepts (c_remover c) p = true.
Definition op_ok (c : tcfg) (o : op) : Prop :=
  match o with
  | OInsert _ d it | OInsertWake _ d it => draw_ok d /\ prio_ok c (it_prio it)
  | OSample _ ds | OSampleWake _ ds => forall i, draw_ok (ds i)
  | OMutate us _ => Forall (fun u => prio_ok c u.2) us
  | _ => True
  end.

End WithFP.
