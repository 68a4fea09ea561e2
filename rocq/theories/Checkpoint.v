(** Model of Table::Checkpoint and InsertCheckpointItem (table.cc) and of
    Save and Load in reverb/cc/platform/tfrecord_checkpointer.cc. *)
From Verif Require Import Base RateLimiter Selector Trajectory Table.

(** PrioritizedItem (schema.proto): an item without the pointers to its chunks.
    Items in the deprecated format are left out: a table never holds one. *)
Record pitem := mkPItem {
  pi_key : Z; pi_prio : dbl; pi_times : Z; pi_at : Z * Z; pi_traj : list (list slice) }.
Definition to_proto (it : item) : pitem :=
  mkPItem (it_key it) (it_prio it) (it_times it) (it_at it) (it_traj it).
Definition of_proto (p : pitem) (cs : list chunk) : item :=
  mkItem (pi_key p) (pi_prio p) (pi_times p) (pi_at p) cs (pi_traj p).

(** PriorityTableCheckpoint (checkpoint.proto) without the signature.  The
    limiter has the fields of RateLimiterCheckpoint. *)
Record tckpt := mkCkpt {
  k_name : Z; k_max_size : Z; k_max_times : Z; k_del_eps : Z; k_unique : Z;
  k_sampler : sel_kind; k_remover : sel_kind;
  k_spi : Q; k_min_diff : Q; k_max_diff : Q; k_min_size : Z;
  k_samples : Z; k_inserts : Z; k_deletes : Z;
  k_items : list pitem }.

(** table.cc:54-59. *)
Definition inserted_before (a b : pitem) : bool :=
  ((pi_at a).1 <? (pi_at b).1) || (((pi_at a).1 =? (pi_at b).1) && ((pi_at a).2 <? (pi_at b).2)).

(** table.cc:981-994: the items in hash map order, sorted with std::sort, which
    may put items with equal timestamps in any order.  Hence a relation: [l] is
    one of the possible outcomes. *)
Definition sorted_items (m : gmap Z item) (l : list pitem) : Prop :=
  l ≡ₚ (fun kv => to_proto kv.2) <$> map_to_list m /\
  StronglySorted (fun a b => inserted_before b a = false) l.

(** table.cc:962-997 and rate_limiter.cc:192-203. *)
Definition checkpoint (name : Z) (t : table) (k : tckpt) : Prop :=
  exists l, sorted_items (t_data t) l /\
  k = mkCkpt name (t_max_size t) (t_max_times t) (t_del_eps t) (t_unique t)
        (sel_kind_of (t_sampler t)) (sel_kind_of (t_remover t))
        (spi (t_limiter t)) (min_diff (t_limiter t)) (max_diff (t_limiter t)) (min_size (t_limiter t))
        (l_samples (t_limiter t)) (l_inserts (t_limiter t)) (l_deletes (t_limiter t)) l.

(** What one checkpoint directory holds (tfrecord_checkpointer.cc:61-63). *)
Record files := mkFiles { f_done : bool; f_chunks : list chunk; f_tables : list tckpt }.

(** tfrecord_checkpointer.cc:169-199: the tables one after the other (each is
    locked only while its own checkpoint is taken) and the chunks of all their
    items in some order. *)
Definition saved (ts : list (Z * table)) (f : files) : Prop :=
  f_done f = true /\
  Forall2 (fun nt k => checkpoint nt.1 nt.2 k) ts (f_tables f) /\
  forall ch, ch ∈ f_chunks f <->
    exists n t i it, (n, t) ∈ ts /\ t_data t !! i = Some it /\ ch ∈ it_chunks it.

(** rate_limiter.cc:65-75.  [None]: CHECK_GT(min_size_to_sample, 0). *)
Definition limiter_of (k : tckpt) : option limiter :=
  if 0 <? k_min_size k then
    Some (mkLimiter (k_spi k) (k_min_diff k) (k_max_diff k) (k_min_size k)
            (k_inserts k) (k_samples k) (k_deletes k) false)
  else None.

(** tfrecord_checkpointer.cc:268: [chunk_by_key[key] = chunk_store->Insert(...)].
    ChunkStore::Insert (chunk_store.cc:82-94) returns the chunk it already has if
    there is one with that key, so the first one stays. *)
Definition chunk_map (cs : list chunk) : gmap Z chunk :=
  fold_left (fun m c => match m !! ck_key c with Some _ => m | None => <[ck_key c := c]> m end) cs ∅.

(** tfrecord_checkpointer.cc:342-346. *)
Fixpoint find_chunks (m : gmap Z chunk) (ks : list Z) : option (list chunk) :=
  match ks with
  | [] => Some []
  | k :: ks => match m !! k, find_chunks m ks with
               | Some c, Some cs => Some (c :: cs)
               | _, _ => None
               end
  end.

Section WithFP.
Context {fp : FP}.

(** table.cc:999-1021. *)
Definition insert_ckpt_item (t : table) (it : item) : option (status * table) :=
  if t_max_size t <? t_size t + 1 then None else
  match t_data t !! it_key it with
  | Some _ => None
  | None =>
    let '(st, s) := sel_insert (t_sampler t) (it_key it) (it_prio it) in
    let t := with_sampler t s in
    if negb (bool_decide (st = Ok)) then Some (st, t) else
    let '(st, s) := sel_insert (t_remover t) (it_key it) (it_prio it) in
    let t := with_remover t s in
    if negb (bool_decide (st = Ok)) then Some (st, t) else
    let t := with_data t (<[it_key it := it]> (t_data t)) in
    let t := ext_op t (EvInsert it) in
    Some (Ok, with_eps t (inc_eps (t_eps t) (it_chunks it)) (t_del_eps t))
  end.

(** tfrecord_checkpointer.cc:312-351. *)
Fixpoint restore_items (m : gmap Z chunk) (t : table) (l : list pitem) : option table :=
  match l with
  | [] => Some t
  | p :: l =>
    match find_chunks m (get_chunk_keys (pi_traj p)) with
    | None => None
    | Some cs =>
      match insert_ckpt_item t (of_proto p cs) with
      | Some (Ok, t) => restore_items m t l
      | _ => None
      end
    end
  end.

(** tfrecord_checkpointer.cc:288-310.  The constructor of the prioritized
    selector CHECKs its exponent. *)
Definition kind_okb (k : sel_kind) : bool :=
  match k with KPrio e => Qle_bool 0 e | _ => true end.
Definition restore (m : gmap Z chunk) (k : tckpt) : option table :=
  match limiter_of k with
  | Some l =>
    if kind_okb (k_sampler k) && kind_okb (k_remover k) then
      restore_items m
        (mkTable (k_max_size k) (k_max_times k) (sel_new (k_sampler k)) (sel_new (k_remover k)) l
           ∅ ∅ (k_del_eps k) (k_unique k) []) (k_items k)
    else None
  | None => None
  end.

Fixpoint find_table (n : Z) (ts : list (Z * table)) : option nat :=
  match ts with
  | [] => None
  | (n', _) :: ts => if decide (n = n') then Some 0%nat else S <$> find_table n ts
  end.

(** tfrecord_checkpointer.cc:264-358.  UnsafeClearExtensions (table.cc:1082-1094)
    CHECKs that the table to be replaced is empty. *)
Fixpoint load_tables (m : gmap Z chunk) (ts : list (Z * table)) (ks : list tckpt)
  : option (status * list (Z * table)) :=
  match ks with
  | [] => Some (Ok, ts)
  | k :: ks =>
    match find_table (k_name k) ts with
    | None => Some (InvalidArgument, ts)
    | Some i =>
      match ts !! i with
      | None => None
      | Some (_, old) =>
        if t_size old =? 0 then
          match restore m k with
          | None => None
          | Some t => load_tables m (<[i := (k_name k, t)]> ts) ks
          end
        else None
      end
    end
  end.

(** tfrecord_checkpointer.cc:226-376. *)
Definition load (f : files) (ts : list (Z * table)) : option (status * list (Z * table)) :=
  if f_done f then load_tables (chunk_map (f_chunks f)) ts (f_tables f)
  else Some (InvalidArgument, ts).

End WithFP.
