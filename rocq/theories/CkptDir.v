(** Model of the directory handling of Save and LoadLatest
    (reverb/cc/platform/tfrecord_checkpointer.cc). *)
From stdpp Require Import sorting.
From Verif Require Import Base RateLimiter Selector Trajectory Table Checkpoint.

(** One entry of the root directory.  The files a checkpoint consists of may be
    missing; a foreign file is an entry without them.  Paths are replaced by
    numbers in their lexicographic order, which is all the code uses. *)
Record dir := mkDir { d_tables : option (list tckpt); d_chunks : option (list chunk); d_done : bool }.
Notation fsys := (gmap Z dir).

Inductive fsop :=
| FMkdir (n : Z)                       (* RecursivelyCreateDir: keeps what is there *)
| FTables (n : Z) (l : list tckpt)     (* contents of tables.tfrecord so far *)
| FChunks (n : Z) (l : list chunk)     (* contents of chunks.tfrecord so far *)
| FDone (n : Z)                        (* an empty file DONE *)
| FUnlinkTables (n : Z) | FUnlinkChunks (n : Z) | FUnlinkDone (n : Z)
| FRmdir (n : Z).

Definition fs_op (fs : fsys) (o : fsop) : fsys :=
  match o with
  | FMkdir n => match fs !! n with Some _ => fs | None => <[n := mkDir None None false]> fs end
  | FTables n l => alter (fun d => mkDir (Some l) (d_chunks d) (d_done d)) n fs
  | FChunks n l => alter (fun d => mkDir (d_tables d) (Some l) (d_done d)) n fs
  | FDone n => alter (fun d => mkDir (d_tables d) (d_chunks d) true) n fs
  | FUnlinkTables n => alter (fun d => mkDir None (d_chunks d) (d_done d)) n fs
  | FUnlinkChunks n => alter (fun d => mkDir (d_tables d) None (d_done d)) n fs
  | FUnlinkDone n => alter (fun d => mkDir (d_tables d) (d_chunks d) false) n fs
  | FRmdir n => delete n fs
  end.
Definition fs_run (fs : fsys) (os : list fsop) : fsys := fold_left fs_op os fs.

(** GetMatchingPaths and std::sort, from the end (lines 203-209, 381-386). *)
Definition names_desc (fs : fsys) : list Z := reverse (merge_sort Z.le (map_to_list fs).*1).

(** Writes to a file that is not closed yet: any contents. *)
Definition table_write (n : Z) (o : fsop) : Prop := match o with FTables n' _ => n' = n | _ => False end.
Definition chunk_write (n : Z) (o : fsop) : Prop := match o with FChunks n' _ => n' = n | _ => False end.
(** DeleteRecursively: the files in any order, then the directory. *)
Definition unlink (n : Z) (o : fsop) : Prop :=
  match o with FUnlinkTables n' | FUnlinkChunks n' | FUnlinkDone n' => n' = n | _ => False end.
Definition removal (n : Z) (os : list fsop) : Prop := exists us, Forall (unlink n) us /\ os = us ++ [FRmdir n].

(** Lines 169-221: everything Save(keep_latest) does to the file system when
    nothing fails; [n] is the formatted time, [ks] and [cs] the tables and
    chunks.  The list of paths is read after DONE is written.  An error or a
    crash cuts the list off. *)
Definition save_ops (fs : fsys) (n keep : Z) (ks : list tckpt) (cs : list chunk) (os : list fsop) : Prop :=
  exists tw cw dels, Forall (table_write n) tw /\ Forall (chunk_write n) cw /\
    Forall2 removal (drop (Z.to_nat keep) (names_desc (fs_op fs (FMkdir n)))) dels /\
    os = FMkdir n :: tw ++ [FTables n ks] ++ cw ++ [FChunks n cs] ++ [FDone n] ++ concat dels.

(** LoadLatest, lines 378-395: the entry that is passed to Load. *)
Fixpoint first_done (fs : fsys) (ns : list Z) : option (Z * dir) :=
  match ns with
  | [] => None
  | n :: ns => match fs !! n with
               | Some d => if d_done d then Some (n, d) else first_done fs ns
               | None => first_done fs ns
               end
  end.
Definition latest (fs : fsys) : option (Z * dir) := first_done fs (names_desc fs).

(** The files Load reads; a missing file makes it fail with an error (lines
    234, 268). *)
Definition files_of (d : dir) : option files :=
  match d_tables d, d_chunks d with
  | Some ks, Some cs => Some (mkFiles (d_done d) cs ks)
  | _, _ => None
  end.
