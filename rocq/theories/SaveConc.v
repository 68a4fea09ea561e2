(** Model of several calls of TFRecordCheckpointer::Save at the same time
    (reverb/cc/platform/tfrecord_checkpointer.cc:159-223).  Nothing excludes them: the
    Checkpoint RPC calls Save without a lock (reverb_service_impl.cc:121-140,
    reverb_service_async_impl.cc:141-164), with keep_latest = 1.  CkptDir.v has one
    Save as a list of operations; here every Save is a thread. *)
From stdpp Require Import sorting.
From Verif Require Import Base RateLimiter Selector Trajectory Table Checkpoint CkptDir.

(** Where a Save is.  Line numbers of tfrecord_checkpointer.cc. *)
Inductive vpos :=
| VTables                                     (** line 176, before opening tables.tfrecord *)
| VTablesOpen                                 (** lines 180-187 *)
| VChunks                                     (** line 191, before opening chunks.tfrecord *)
| VChunksOpen                                 (** lines 194-198 *)
| VDone                                       (** line 203 *)
| VList                                       (** lines 206-210 *)
| VDelete (l : list Z)                        (** lines 212-220: the entries that are left to delete *)
| VFiles (m : Z) (bad : bool) (l : list Z)    (** in DeleteRecursively of [m]; [bad]: a file could not be deleted *)
| VReturned (st : status)
| VKilled.

(** A call of Save.  [v_name]: the formatted time; [v_ks] and [v_cs] are what the
    tables and their chunks are found to be during this Save. *)
Record saver := mkSaver { v_name : Z; v_keep : Z; v_ks : list tckpt; v_cs : list chunk; v_pos : vpos }.
Definition sv_at (v : saver) (p : vpos) : saver := mkSaver (v_name v) (v_keep v) (v_ks v) (v_cs v) p.

(** The root directory, the calls in the order of their beginning, the time of the
    last one. *)
Record cst := mkCst { sc_fs : fsys; sc_savers : list saver; sc_clock : Z }.
Definition sc_init : cst := mkCst ∅ [] 0.

Inductive cfile := KTables | KChunks | KDone.
Inductive cev :=
| CBegin (n keep : Z) (ks : list tckpt) (cs : list chunk) (io : option status)  (** up to line 174 *)
| CGo (i : nat) (io : option status)                           (** the next operation; [io]: its error *)
| CWrite (i : nat) (ks : list tckpt) (cs : list chunk)         (** a part of the file that is open is written *)
| CUnlink (i : nat) (f : cfile)                                (** DeleteRecursively goes on *)
| CCrash.                                                      (** the process dies *)

(** Writing to a file that is open: if it has been deleted, nothing is seen of it. *)
Definition write_tables (l : list tckpt) (d : dir) : dir :=
  mkDir (match d_tables d with Some _ => Some l | None => None end) (d_chunks d) (d_done d).
Definition write_chunks (l : list chunk) (d : dir) : dir :=
  mkDir (d_tables d) (match d_chunks d with Some _ => Some l | None => None end) (d_done d).
Definition has_file (d : dir) (f : cfile) : bool :=
  match f with KTables => if d_tables d then true else false | KChunks => if d_chunks d then true else false | KDone => d_done d end.
Definition unlink_op (f : cfile) (m : Z) : fsop :=
  match f with KTables => FUnlinkTables m | KChunks => FUnlinkChunks m | KDone => FUnlinkDone m end.

(** One operation of a Save without an error of its own.  Opening a file for writing
    fails if the directory is gone.  DeleteRecursively (TensorFlow) fails if the entry
    does not exist, deletes the files it has found there, then the directory; it goes on
    after an error but returns it.  Which files it has found is left open (CUnlink), so
    it may leave some; then the directory cannot be deleted. *)
Definition v_go (fs : fsys) (v : saver) : option (fsys * vpos) :=
  let n := v_name v in
  match v_pos v with
  | VTables => match fs !! n with
               | Some d => Some (<[n := mkDir (Some []) (d_chunks d) (d_done d)]> fs, VTablesOpen)
               | None => Some (fs, VReturned NotFound)
               end
  | VTablesOpen => Some (alter (write_tables (v_ks v)) n fs, VChunks)
  | VChunks => match fs !! n with
               | Some d => Some (<[n := mkDir (d_tables d) (Some []) (d_done d)]> fs, VChunksOpen)
               | None => Some (fs, VReturned NotFound)
               end
  | VChunksOpen => Some (alter (write_chunks (v_cs v)) n fs, VDone)
  | VDone => match fs !! n with
             | Some d => Some (fs_op fs (FDone n), VList)
             | None => Some (fs, VReturned NotFound)
             end
  | VList => Some (fs, VDelete (drop (Z.to_nat (v_keep v)) (names_desc fs)))
  | VDelete [] => Some (fs, VReturned Ok)
  | VDelete (m :: l) => match fs !! m with
                        | Some _ => Some (fs, VFiles m false l)
                        | None => Some (fs, VReturned NotFound)
                        end
  | VFiles m bad l =>
    match fs !! m with
    | Some d =>
      if has_file d KTables || has_file d KChunks || has_file d KDone then Some (fs, VReturned FailedPrecondition)
      else Some (fs_op fs (FRmdir m), if bad then VReturned NotFound else VDelete l)
    | None => Some (fs, VReturned NotFound)
    end
  | VReturned _ | VKilled => None
  end.

Definition running (v : saver) : bool := match v_pos v with VReturned _ | VKilled => false | _ => true end.

Definition sc_step (s : cst) (e : cev) : option cst :=
  let fs := sc_fs s in
  match e with
  | CBegin n keep ks cs io =>
    (* two calls do not get the same time *)
    if sc_clock s <? n then
      let v := mkSaver n keep ks cs in
      if keep <=? 0 then Some (mkCst fs (sc_savers s ++ [v (VReturned InvalidArgument)]) n)
      else match io with
           | Some st => Some (mkCst fs (sc_savers s ++ [v (VReturned st)]) n)
           | None => Some (mkCst (fs_op fs (FMkdir n)) (sc_savers s ++ [v VTables]) n)
           end
    else None
  | CGo i io =>
    v ← sc_savers s !! i;
    if running v then
      match io with
      | Some st => Some (mkCst fs (<[i := sv_at v (VReturned st)]> (sc_savers s)) (sc_clock s))
      | None => '(fs', p) ← v_go fs v; Some (mkCst fs' (<[i := sv_at v p]> (sc_savers s)) (sc_clock s))
      end
    else None
  | CWrite i ks cs =>
    v ← sc_savers s !! i;
    match v_pos v with
    | VTablesOpen => Some (mkCst (alter (write_tables ks) (v_name v) fs) (sc_savers s) (sc_clock s))
    | VChunksOpen => Some (mkCst (alter (write_chunks cs) (v_name v) fs) (sc_savers s) (sc_clock s))
    | _ => None
    end
  | CUnlink i f =>
    v ← sc_savers s !! i;
    match v_pos v with
    | VFiles m bad l =>
      match fs !! m with
      | Some d => if has_file d f then Some (mkCst (fs_op fs (unlink_op f m)) (sc_savers s) (sc_clock s))
                  else Some (mkCst fs (<[i := sv_at v (VFiles m true l)]> (sc_savers s)) (sc_clock s))
      | None => Some (mkCst fs (<[i := sv_at v (VFiles m true l)]> (sc_savers s)) (sc_clock s))
      end
    | _ => None
    end
  | CCrash => Some (mkCst fs ((fun v => if running v then sv_at v VKilled else v) <$> sc_savers s) (sc_clock s))
  end.

(** An error of the file system is an error. *)
Definition sc_can (e : cev) : Prop :=
  match e with CBegin _ _ _ _ (Some st) | CGo _ (Some st) => st <> Ok | _ => True end.

(** Runs; [A] restricts those that are considered. *)
Inductive sc_trace (A : cst -> cev -> Prop) (s0 : cst) : list cev -> cst -> Prop :=
| sc_nil : sc_trace A s0 [] s0
| sc_snoc tr s e s' : sc_trace A s0 tr s -> sc_can e -> A s e -> sc_step s e = Some s' -> sc_trace A s0 (tr ++ [e]) s'.

Fixpoint sc_run (s : cst) (es : list cev) : option cst :=
  match es with [] => Some s | e :: es => s' ← sc_step s e; sc_run s' es end.
