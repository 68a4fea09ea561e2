(** Model of TFRecordCheckpointer::Load
    (reverb/cc/platform/tfrecord_checkpointer.cc:226-376) on any pair of record
    files: files that are damaged or cut off, and files in the format of older
    versions.  Checkpoint.v has the case of readable files in the present
    format, with chunks without their data. *)
From Verif Require Import Base RateLimiter Selector Trajectory Tensor TrajUtil Table Checkpoint.
Local Open Scope Z_scope.

(** One record as tensorflow::io::RecordReader returns it: the bytes are a
    message or they are not (ParseFromArray, lines 253, 288). *)
Inductive record (A : Type) := RGood (a : A) | RUnparsable.
Global Arguments RGood {A}. Global Arguments RUnparsable {A}.
(** How the sequence of records stops: at the end of the file (OutOfRange) or with
    another error, which is DataLoss if a checksum is wrong or the file ends
    within a record.  RecordReader itself is part of TensorFlow. *)
Inductive file_end := EndOfFile | ReadError (st : status).
Record rfile (A : Type) := mkRFile { rf_recs : list (record A); rf_end : file_end }.
Global Arguments mkRFile {A}. Global Arguments rf_recs {A}. Global Arguments rf_end {A}.

(** ChunkData (schema.proto): key, episode, start and end of the sequence range,
    data_tensors_len, data.tensors, deprecated_data. *)
Record chunk_rec := mkChunkRec {
  cr_key : Z; cr_ep : Z; cr_start : Z; cr_end : Z; cr_len : Z; cr_data : list tensor; cr_old : list tensor }.
(** PrioritizedItem: flat_trajectory, deprecated_sequence_range (offset and
    length) and deprecated_chunk_keys beside the fields of [pitem]. *)
Record item_rec := mkItemRec {
  ir_key : Z; ir_prio : dbl; ir_times : Z; ir_at : Z * Z;
  ir_traj : option (list (list slice)); ir_range : option (Z * Z); ir_keys : list Z }.
(** PriorityTableCheckpoint: [tr_head] without its items, which are [tr_items]. *)
Record table_rec := mkTableRec { tr_head : tckpt; tr_items : list item_rec }.

(** A checkpoint directory; a file may be missing. *)
Record fdir := mkFDir { fd_chunks : option (rfile chunk_rec); fd_tables : option (rfile table_rec); fd_done : bool }.

(** Lines 259-267.  [None]: InternalError. *)
Definition chunk_current (r : chunk_rec) : option chunk_rec :=
  match cr_old r, cr_data r with
  | [], _ => Some r
  | _ :: _, _ :: _ => None
  | old, [] => Some (mkChunkRec (cr_key r) (cr_ep r) (cr_start r) (cr_end r) (cr_len r) old [])
  end.

(** Line 268 with ChunkStore::Insert (chunk_store.cc:82-94): the store of a
    service that starts is empty, so it holds the chunks of [chunk_by_key]. *)
Definition store_insert (m : gmap Z chunk_rec) (r : chunk_rec) : gmap Z chunk_rec :=
  match m !! cr_key r with Some _ => m | None => <[cr_key r := r]> m end.

(** Lines 249-272. *)
Fixpoint read_chunks (m : gmap Z chunk_rec) (l : list (record chunk_rec)) (e : file_end) : status * gmap Z chunk_rec :=
  match l with
  | [] => (match e with EndOfFile => Ok | ReadError st => st end, m)
  | RUnparsable :: _ => (DataLoss, m)
  | RGood r :: l =>
    match chunk_current r with
    | None => (Internal, m)
    | Some r => read_chunks (store_insert m r) l e
    end
  end.

(** chunk_store.cc:55-65 (int32 in the code). *)
Definition num_rows (r : chunk_rec) : Z := cr_end r - cr_start r + 1.
Definition num_columns (r : chunk_rec) : nat :=
  if decide (cr_len r = 0) then length (cr_data r) else Z.to_nat (cr_len r).
Definition as_chunk (r : chunk_rec) : chunk := mkChunk (cr_key r) (cr_ep r).

(** Lines 342-344 with ChunkStore::Get: [None], the REVERB_CHECK_OK fails. *)
Fixpoint get_all (m : gmap Z chunk_rec) (ks : list Z) : option (list chunk_rec) :=
  match ks with
  | [] => Some []
  | k :: ks => c ← m !! k; cs ← get_all m ks; Some (c :: cs)
  end.

(** Lines 340-354 and trajectory_util.cc:80-91.  [None]: a failed CHECK, or the
    first element of an empty vector. *)
Definition item_traj (m : gmap Z chunk_rec) (r : item_rec) : option (list (list slice)) :=
  match ir_range r with
  | None => Some (default [] (ir_traj r))
  | Some (offset, length) =>
    cs ← get_all m (ir_keys r);
    first ← head cs;
    flat_timestep_trajectory ((fun c => (cr_key c, num_rows c)) <$> cs) (num_columns first) offset length
  end.

Section WithFP.
Context {fp : FP}.

(** Lines 328-365.  The table is the one being built: it is dropped if the status
    is not Ok. *)
Fixpoint restore_recs (m : gmap Z chunk_rec) (t : table) (l : list item_rec) : option (status * table) :=
  match l with
  | [] => Some (Ok, t)
  | r :: l =>
    if bool_decide (is_Some (ir_range r) /\ is_Some (ir_traj r)) then Some (Internal, t) else
    match item_traj m r with
    | None => None
    | Some tr =>
      match find_chunks (as_chunk <$> m) (get_chunk_keys tr) with
      | None => None
      | Some cs =>
        match insert_ckpt_item t (mkItem (ir_key r) (ir_prio r) (ir_times r) (ir_at r) cs tr) with
        | Some (Ok, t) => restore_recs m t l
        | _ => None
        end
      end
    end
  end.

(** Lines 306-326: the table before its items are inserted. *)
Definition empty_table (k : tckpt) : option table :=
  match limiter_of k with
  | Some l =>
    if kind_okb (k_sampler k) && kind_okb (k_remover k) then
      Some (mkTable (k_max_size k) (k_max_times k) (sel_new (k_sampler k)) (sel_new (k_remover k)) l
              ∅ ∅ (k_del_eps k) (k_unique k) [])
    else None
  | None => None
  end.

(** Lines 284-375.  A table whose items are refused stays the configured one, but
    for its extensions, which line 310 has taken (left out here). *)
Fixpoint load_recs (m : gmap Z chunk_rec) (ts : list (Z * table)) (l : list (record table_rec)) (e : file_end)
  : option (status * list (Z * table)) :=
  match l with
  | [] => Some (match e with EndOfFile => Ok | ReadError st => st end, ts)
  | RUnparsable :: _ => Some (DataLoss, ts)
  | RGood k :: l =>
    match find_table (k_name (tr_head k)) ts with
    | None => Some (InvalidArgument, ts)
    | Some i =>
      match ts !! i with
      | None => None
      | Some (_, old) =>
        if t_size old =? 0 then
          match empty_table (tr_head k) with
          | None => None
          | Some t =>
            match restore_recs m t (tr_items k) with
            | None => None
            | Some (st, t) =>
              if decide (st = Ok) then load_recs m (<[i := (k_name (tr_head k), t)]> ts) l e
              else Some (st, ts)
            end
          end
        else None
      end
    end
  end.

(** Lines 226-376.  The result has the status, the tables and the chunks the
    store holds.  A missing file is NotFound. *)
Definition load_full (d : fdir) (ts : list (Z * table)) : option (status * list (Z * table) * gmap Z chunk_rec) :=
  if fd_done d then
    match fd_chunks d with
    | None => Some (NotFound, ts, ∅)
    | Some f =>
      let '(st, m) := read_chunks ∅ (rf_recs f) (rf_end f) in
      if decide (st = Ok) then
        match fd_tables d with
        | None => Some (NotFound, ts, m)
        | Some g =>
          match load_recs m ts (rf_recs g) (rf_end g) with
          | None => None
          | Some (st, ts) => Some (st, ts, m)
          end
        end
      else Some (st, ts, m)
    end
  else Some (InvalidArgument, ts, ∅).

(** reverb_service_async_impl.cc:97-138 for a service whose checkpointer finds the
    directory [d] (LoadLatest) and has no fallback: NotFound starts the server
    with the tables as configured. *)
Definition start_from (d : fdir) (ts : list (Z * table)) : option (status * list (Z * table) * gmap Z chunk_rec) :=
  match load_full d ts with
  | Some (st, ts, m) => if decide (st = NotFound) then Some (Ok, ts, m) else Some (st, ts, m)
  | None => None
  end.

End WithFP.
