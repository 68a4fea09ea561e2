(** Items, trajectories and the validity check of an inserted item. *)
From Verif Require Import Base.

(** schema.proto, FlatTrajectory.ChunkSlice: which part of a chunk is used.
    [index] is the tensor of the chunk. *)
Record slice := mkSlice { sl_key : Z; sl_off : Z; sl_len : Z; sl_idx : Z }.

(** ChunkStore::Chunk as the table sees it: its key and its episode id
    (chunk_store.h, SequenceRange.episode_id).  The payload is modelled where it
    matters (Chunker.v, Delta.v). *)
Record chunk := mkChunk { ck_key : Z; ck_ep : Z }.

(** Table::Item (table_item.h) with the fields of PrioritizedItem
    (schema.proto).  The timestamp is the pair (seconds, nanos).  [it_traj] is
    FlatTrajectory.columns; the [squeeze] flag of a column is left out, the
    table never looks at it. *)
Record item := mkItem {
  it_key : Z; it_prio : dbl; it_times : Z; it_at : Z * Z;
  it_chunks : list chunk; it_traj : list (list slice) }.

(** Items that differ in one field; used in specifications. *)
Definition it_with_prio (it : item) (p : dbl) : item :=
  mkItem (it_key it) p (it_times it) (it_at it) (it_chunks it) (it_traj it).
Definition it_with_times (it : item) (n : Z) : item :=
  mkItem (it_key it) (it_prio it) n (it_at it) (it_chunks it) (it_traj it).
Definition it_with_at (it : item) (w : Z * Z) : item :=
  mkItem (it_key it) (it_prio it) (it_times it) w (it_chunks it) (it_traj it).

(** trajectory_util.cc:37-48 with the hash set [seen] being the list of keys
    already pushed. *)
Fixpoint chunk_keys_aux (seen : list Z) (l : list Z) : list Z :=
  match l with
  | [] => []
  | k :: l => if decide (k ∈ seen) then chunk_keys_aux seen l
              else k :: chunk_keys_aux (k :: seen) l
  end.
Definition traj_keys (tr : list (list slice)) : list Z :=
  sl_key <$> concat tr.
Definition get_chunk_keys (tr : list (list slice)) : list Z :=
  chunk_keys_aux [] (traj_keys tr).

(** table.cc:68-91. *)
Definition check_item_validity (it : item) : status :=
  match it_traj it with
  | [] => InvalidArgument
  | [] :: _ => InvalidArgument
  | _ =>
    let tk := get_chunk_keys (it_traj it) in
    if decide (length tk = length (it_chunks it)) then
      if decide (ck_key <$> it_chunks it = tk) then Ok else InvalidArgument
    else InvalidArgument
  end.
