(** The tables that a server serves.  Model of Server.__init__ (reverb/server.py:253-287),
    Server.stop, of the start of a server (platform/default/server.cc:55-78 and 155-163,
    reverb_service_impl.cc:84-116; reverb_service_async_impl.cc:97-139 is the same but for the
    workers), of what TFRecordCheckpointer::Load does to the table objects
    (platform/tfrecord_checkpointer.cc:284-375, table.cc:1082-1100) and of the way
    in which requests find their table (reverb_service_impl.cc:388-392). *)
From Verif Require Import Base RateLimiter Selector Trajectory Table Checkpoint.

Section WithFP.
Context {fp : FP}.

(** A C++ table object: its name, its extensions, the rest.  Objects are numbered in the
    order in which they are made, and so are extensions.  An object is not
    removed when the last reference to it goes (its destruction has no effect on
    others, see Assembly.v). *)
Record sobj := mkSobj { so_name : Z; so_exts : list nat; so_tab : table }.
(** A server that has been started: tables_ (reverb_service_impl.h:113) and running_. *)
Record srv := mkSrv { sv_map : gmap Z nat; sv_up : bool }.
Record proc := mkProc { p_heap : list sobj; p_exts : nat; p_srvs : list srv }.
Definition new_proc : proc := mkProc [] 0 [].

(** tfrecord_checkpointer.cc:133-140: the first position with the name, and the
    object that is there. *)
Fixpoint find_obj (h : list sobj) (n : Z) (vec : list nat) : option (nat * nat) :=
  match vec with
  | [] => None
  | i :: vec =>
    match h !! i with
    | Some o => if decide (so_name o = n) then Some (0%nat, i)
                else match find_obj h n vec with Some (j, i) => Some (S j, i) | None => None end
    | None => None (* a null pointer *)
    end
  end.

(** tfrecord_checkpointer.cc:284-375 for readable records (LoadFull.v has the others).
    UnsafeClearExtensions (line 311, table.cc:1082-1100) takes the extensions from the object
    that is to be replaced, which has to be empty; a new object with these
    extensions is made from the record and put in the place of the old one in the vector.
    [None]: the process dies. *)
Fixpoint load_objs (m : gmap Z chunk) (h : list sobj) (vec : list nat) (ks : list tckpt)
  : option (status * list sobj * list nat) :=
  match ks with
  | [] => Some (Ok, h, vec)
  | k :: ks =>
    match find_obj h (k_name k) vec with
    | None => Some (InvalidArgument, h, vec)
    | Some (j, i) =>
      match h !! i with
      | None => None
      | Some o =>
        if t_size (so_tab o) =? 0 then
          match restore m k with
          | None => None
          | Some t =>
            load_objs m (<[i := mkSobj (so_name o) [] (so_tab o)]> h ++ [mkSobj (k_name k) (so_exts o) t])
              (<[j := length h]> vec) ks
          end
        else None
      end
    end
  end.

(** reverb_service_impl.cc:88-109: [None] is a checkpointer that finds no checkpoint in
    either place, or no checkpointer; which checkpoint it finds is in Restart.v. *)
Definition load_found (ck : option files) (h : list sobj) (vec : list nat)
  : option (status * list sobj * list nat) :=
  match ck with
  | None => Some (Ok, h, vec)
  | Some f =>
    if f_done f then load_objs (chunk_map (f_chunks f)) h vec (f_tables f)
    else Some (InvalidArgument, h, vec)
  end.

(** reverb_service_impl.cc:111-113. *)
Definition fill_map (h : list sobj) (vec : list nat) : gmap Z nat :=
  foldl (fun mp i => match h !! i with Some o => <[so_name o := i]> mp | None => mp end) ∅ vec.

(** The names of the tables in a vector. *)
Definition names_of (h : list sobj) (vec : list nat) : list Z := omap (fun i => so_name <$> h !! i) vec.

(** What Server(...) does: ValueError, an error from StartServer, or a server. *)
Inductive started := SValueError | SError (st : status) | SUp (s : nat).
Inductive reply := RNotFound | RDown | RDone (r : result).
Inductive out := OMade (i : nat) | OStarted (a : started) | OReply (a : reply) | ONone.

(** server.py:270-286 with server.cc:155-163.  [bind]: BuildAndStart gets the port.  If it
    does not, or if the checkpoint is refused, what Load has done to the table objects
    stays. *)
Definition start (w : proc) (objs : list nat) (ck : option files) (bind : bool) : option (started * proc) :=
  if decide (objs = []) then Some (SValueError, w) else
  if decide (NoDup (names_of (p_heap w) objs)) then
    match load_found ck (p_heap w) objs with
    | None => None
    | Some (st, h, vec) =>
      if decide (st = Ok) then
        if bind then
          Some (SUp (length (p_srvs w)), mkProc h (p_exts w) (p_srvs w ++ [mkSrv (fill_map h vec) true]))
        else Some (SError InvalidArgument, mkProc h (p_exts w) (p_srvs w))
      else Some (SError st, mkProc h (p_exts w) (p_srvs w))
    end
  else Some (SValueError, w).

(** A request for table [n]: TableByName, then the call on the table (reverb_service_impl.cc:201,
    245, 259, 302).  A server that is stopped takes no more requests. *)
Definition request (w : proc) (s : nat) (n : Z) (o : op) : option (reply * proc) :=
  match p_srvs w !! s with
  | Some (mkSrv mp true) =>
    match mp !! n with
    | None => Some (RNotFound, w)
    | Some i =>
      match p_heap w !! i with
      | None => None
      | Some ob =>
        match step (so_tab ob) o with
        | None => None
        | Some (r, t) =>
          Some (RDone r, mkProc (<[i := mkSobj (so_name ob) (so_exts ob) t]> (p_heap w)) (p_exts w) (p_srvs w))
        end
      end
    end
  | _ => Some (RDown, w)
  end.

(** server.cc:86-99 with reverb_service_impl.cc:394-398: Close of every table (the order is
    of no importance). *)
Definition close_objs (h : list sobj) (is : list nat) : list sobj :=
  foldr (fun i h => alter (fun o => mkSobj (so_name o) (so_exts o) (close_table (so_tab o))) i h) h is.
Definition stop (w : proc) (s : nat) : proc :=
  match p_srvs w !! s with
  | Some (mkSrv mp true) =>
    mkProc (close_objs (p_heap w) (map_to_list mp).*2) (p_exts w) (<[s := mkSrv mp false]> (p_srvs w))
  | _ => w
  end.

(** Table(...) with [x] extensions: build_internal_extensions makes new objects for every
    table (server.py:137-140).  The checks of the constructor are left out. *)
Definition make (w : proc) (n : Z) (c : tcfg) (x : nat) : proc :=
  mkProc (p_heap w ++ [mkSobj n (seq (p_exts w) x) (new_table c)]) (p_exts w + x) (p_srvs w).

(** What a Python program and the clients of its servers do.  A Server is made from
    Table objects that exist. *)
Inductive sev :=
| ETable (n : Z) (c : tcfg) (x : nat)
| EServer (objs : list nat) (ck : option files) (bind : bool)
| ERequest (s : nat) (n : Z) (o : op)
| EStop (s : nat).

Definition sstep (w : proc) (e : sev) : option (out * proc) :=
  match e with
  | ETable n c x => Some (OMade (length (p_heap w)), make w n c x)
  | EServer objs ck bind =>
    if decide (Forall (fun i => (i < length (p_heap w))%nat) objs) then
      match start w objs ck bind with Some (a, w) => Some (OStarted a, w) | None => None end
    else Some (ONone, w)
  | ERequest s n o => match request w s n o with Some (a, w) => Some (OReply a, w) | None => None end
  | EStop s => Some (ONone, stop w s)
  end.

Fixpoint srun (w : proc) (es : list sev) : option (list out * proc) :=
  match es with
  | [] => Some ([], w)
  | e :: es =>
    match sstep w e with
    | None => None
    | Some (a, w) =>
      match srun w es with
      | None => None
      | Some (l, w) => Some (a :: l, w)
      end
    end
  end.

(** Table.info of the Python object with number [i] (server.py:222-225, table.cc:796-817). *)
Definition py_info (w : proc) (i : nat) : option (Z * tinfo) :=
  match p_heap w !! i with Some o => Some (so_name o, info (so_tab o)) | None => None end.
(** The entry of server_info() with name [n] (reverb_service_impl.cc:413-422; the
    info of a table has its name). *)
Definition srv_info (w : proc) (s : nat) (n : Z) : option (Z * tinfo) :=
  match p_srvs w !! s with
  | Some sv => match sv_map sv !! n with Some i => py_info w i | None => None end
  | None => None
  end.

End WithFP.
