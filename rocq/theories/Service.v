(** Model of how a server starts: ReverbServiceAsyncImpl::Initialize
    (reverb_service_async_impl.cc:97-138, the same in reverb_service_impl.cc:83-118)
    with LoadLatest and LoadFallbackCheckpoint
    (platform/tfrecord_checkpointer.cc:226-408). *)
From Verif Require Import Base RateLimiter Selector Trajectory Table Checkpoint CkptDir.

Section WithFP.
Context {fp : FP}.

(** tfrecord_checkpointer.cc:226-376.  The chunks are read before the tables; a
    file that does not exist is NotFound (lines 238, 269) and nothing has been
    changed yet.  Damaged records are in LoadFull.v. *)
Definition load_dir (d : dir) (ts : list (Z * table)) : option (status * list (Z * table)) :=
  if d_done d then
    match files_of d with
    | Some f => load f ts
    | None => Some (NotFound, ts)
    end
  else Some (InvalidArgument, ts).

(** tfrecord_checkpointer.cc:378-395. *)
Definition load_latest (fs : fsys) (ts : list (Z * table)) : option (status * list (Z * table)) :=
  match latest fs with
  | Some (_, d) => load_dir d ts
  | None => Some (NotFound, ts)
  end.

(** tfrecord_checkpointer.cc:397-408.  The outer option: whether a path is
    configured; the inner one: whether there is a directory. *)
Definition load_fallback (fb : option (option dir)) (ts : list (Z * table)) : option (status * list (Z * table)) :=
  match fb with
  | Some (Some d) => if d_done d then load_dir d ts else Some (NotFound, ts)
  | _ => Some (NotFound, ts)
  end.

(** reverb_service_async_impl.cc:97-138.  [ck]: whether there is a checkpointer.
    The table workers and the state id are left out; the names of the tables
    are distinct (server.py:273-277). *)
Definition initialize (ck : bool) (fs : fsys) (fb : option (option dir)) (ts : list (Z * table))
  : option (status * list (Z * table)) :=
  if ck then
    match load_latest fs ts with
    | None => None
    | Some (st, ts) =>
      match (if decide (st = NotFound) then load_fallback fb ts else Some (st, ts)) with
      | None => None
      | Some (st, ts) =>
        if decide (st = Ok) then Some (Ok, ts)
        else if decide (st = NotFound) then Some (Ok, ts) else Some (st, ts)
      end
    end
  else Some (Ok, ts).

End WithFP.
