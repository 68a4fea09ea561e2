(** Model of reverb/cc/chunk_store.{h,cc}: the map from keys to weak pointers,
    the chunks and their reference counts, the queue of keys to clean up and the
    cleaner thread.

    An action is what happens while a mutex is held, or one atomic change of a
    reference count; a run is any sequence of actions.  The content of a chunk is
    not modelled, two chunks made for the same key are told apart by their
    identity.  The queue [delete_keys_] is the list of its elements (see C32) and
    is never full: its capacity is 10000000 (line 68). *)
From Verif Require Import Base.

(** A chunk object: its key (line 41) and the number of shared pointers to it. *)
Record cobj := mkCobj { co_key : Z; co_refs : nat }.

Record cstore := mkCstore {
  cs_objs : gmap nat cobj;     (** chunks with a pointer to them, by identity *)
  cs_next : nat;               (** identity of the next chunk *)
  cs_map : gmap Z nat;         (** [data_], chunk_store.h:141: weak pointers *)
  cs_dying : gmap nat Z;       (** keys of the chunks whose last pointer is gone and whose
                                   deleter (lines 87-91) has not run yet *)
  cs_queue : list Z;           (** [delete_keys_], chunk_store.h:150 *)
  cs_popped : list (list Z)    (** [popped_keys] of the cleanups in progress, line 118 *)
}.

(** Lines 67-73. *)
Definition cs_new : cstore := mkCstore ∅ 0 ∅ ∅ [] [].

(** weak_ptr::lock: the object if it is still alive. *)
Definition cs_lock (s : cstore) (w : option nat) : option nat :=
  i ← w; _ ← cs_objs s !! i; Some i.

Definition cs_addref (s : cstore) (i : nat) : cstore :=
  mkCstore (alter (fun o => mkCobj (co_key o) (S (co_refs o))) i (cs_objs s)) (cs_next s) (cs_map s)
    (cs_dying s) (cs_queue s) (cs_popped s).

(** Lines 82-94. The caller holds one more pointer to the result. *)
Definition cs_insert (s : cstore) (k : Z) : nat * cstore :=
  match cs_lock s (cs_map s !! k) with
  | Some i => (i, cs_addref s i)
  | None =>
    let i := cs_next s in
    (i, mkCstore (<[i := mkCobj k 1]> (cs_objs s)) (S i) (<[k := i]> (cs_map s)) (cs_dying s) (cs_queue s) (cs_popped s))
  end.

(** Lines 112-115. *)
Definition cs_get_item (s : cstore) (k : Z) : option nat := cs_lock s (cs_map s !! k).

(** Lines 96-110.  Result: the status and the vector, which holds pointers to all
    the chunks found before the first missing one. *)
Fixpoint cs_get (s : cstore) (ks : list Z) : status * list nat * cstore :=
  match ks with
  | [] => (Ok, [], s)
  | k :: ks =>
    match cs_get_item s k with
    | Some i => let '(st, l, s) := cs_get (cs_addref s i) ks in (st, i :: l, s)
    | None => (NotFound, [], s)
    end
  end.

(** One pointer to the chunk is dropped.  When it is the last one the weak
    pointers expire at once and the deleter is called. *)
Definition cs_drop (s : cstore) (i : nat) : cstore :=
  match cs_objs s !! i with
  | Some (mkCobj k (S (S n))) =>
    mkCstore (<[i := mkCobj k (S n)]> (cs_objs s)) (cs_next s) (cs_map s) (cs_dying s) (cs_queue s) (cs_popped s)
  | Some (mkCobj k _) =>
    mkCstore (delete i (cs_objs s)) (cs_next s) (cs_map s) (<[i := k]> (cs_dying s)) (cs_queue s) (cs_popped s)
  | None => s
  end.

(** Lines 87-91: the deleter of a dying chunk runs. *)
Definition cs_deleter (s : cstore) (i : nat) : cstore :=
  match cs_dying s !! i with
  | Some k => mkCstore (cs_objs s) (cs_next s) (cs_map s) (delete i (cs_dying s)) (cs_queue s ++ [k]) (cs_popped s)
  | None => s
  end.

(** Lines 118-122: a call of CleanupInternal gets its keys (PopBatch waits until
    there are [n] of them). *)
Definition cs_pop (s : cstore) (n : nat) : cstore :=
  if (n <=? length (cs_queue s))%nat then
    mkCstore (cs_objs s) (cs_next s) (cs_map s) (cs_dying s) (drop n (cs_queue s)) (cs_popped s ++ [take n (cs_queue s)])
  else s.

(** Lines 124-127: the [j]-th of the calls that have their keys erases them. *)
Definition cs_erase (s : cstore) (j : nat) : cstore :=
  match cs_popped s !! j with
  | Some ks => mkCstore (cs_objs s) (cs_next s) (foldr delete (cs_map s) ks) (cs_dying s) (cs_queue s) (delete j (cs_popped s))
  | None => s
  end.

(** [CDrop i]: some owner of a pointer to the chunk [i] drops it. *)
Inductive csop := CInsert (k : Z) | CGet (ks : list Z) | CDrop (i : nat) | CDeleter (i : nat) | CPop (n : nat) | CErase (j : nat).
Inductive csres := CChunk (i : nat) | CChunks (st : status) (l : list nat) | CDone.

Definition cs_step (s : cstore) (o : csop) : csres * cstore :=
  match o with
  | CInsert k => let '(i, s) := cs_insert s k in (CChunk i, s)
  | CGet ks => let '(st, l, s) := cs_get s ks in (CChunks st l, s)
  | CDrop i => (CDone, cs_drop s i)
  | CDeleter i => (CDone, cs_deleter s i)
  | CPop n => (CDone, cs_pop s n)
  | CErase j => (CDone, cs_erase s j)
  end.
Fixpoint cs_run (s : cstore) (os : list csop) : list csres * cstore :=
  match os with
  | [] => ([], s)
  | o :: os => let '(r, s) := cs_step s o in let '(rs, s) := cs_run s os in (r :: rs, s)
  end.
