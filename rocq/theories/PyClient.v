(** The Python client: Client.insert and Client.sample of reverb/client.py, and the
    TensorFlow op ReverbClientInsert of reverb/cc/ops/client.cc. *)
From Verif Require Import Base Trajectory Tensor Sample Chunker TrajWriter Writer WriterTrace.
Local Open Scope Z_scope.

(** ** Client.insert and InsertOp *)

(** client.py:236 raises ValueError without looking further if there are no
    priorities; the op (client.cc:227-233) only asks for as many tables as
    priorities. *)
Definition insert_starts (priorities : list (Z * dbl)) : bool := match priorities with [] => false | _ => true end.

(** The writer: client.py:239 with 318-336, so chunk_length = min(10, 1) and 25 items
    in flight; client.cc:245-246 with cc/client.cc:129-134, so no limit and no
    confirmations. *)
Definition insert_conf (sigs : option (gmap Z (option (list tspec)))) (flight : option Z) : lconf := mkLconf 1 1 false sigs flight.
Definition py_flight : option Z := Some 25.
Definition op_flight : option Z := None.

(** client.py:239-243 and 52-53; client.cc:247-258 and writer.cc:77-79.  The next call
    of the writer, when the calls [rs] have returned: append, one create_item for
    every table, close.  A status that is not OK is raised (OP_REQUIRES_OK leaves the
    function): the context manager then closes the writer (in C++ its destructor does,
    with the default argument retry_on_unavailable=True too). *)
Inductive pcmd := DAppend | DCreate (table : Z) (prio : dbl) | DClose.
Definition failed_call (x : lev * status) : bool := negb (bool_decide (x.2 = Ok)).
Definition insert_next (priorities : list (Z * dbl)) (rs : list (lev * status)) : option pcmd :=
  match last rs with
  | Some (LClose _, _) => None
  | _ =>
    if existsb failed_call rs then Some DClose
    else match rs with
         | [] => Some DAppend
         | _ :: creates => match priorities !! length creates with Some (t, pr) => Some (DCreate t pr) | None => Some DClose end
         end
  end.

(** The call, as an event of Writer.v. *)
Definition performs (data : step) (c : pcmd) (e : lev) : Prop :=
  match c, e with
  | DAppend, LAppend d => d = data
  | DCreate t pr, LCreate t' n pr' _ => t' = t /\ n = 1 /\ pr' = pr
  | DClose, LClose retry => retry = true
  | _, _ => False
  end.

(** A run of the writer in which the calls are those of insert(data, priorities). *)
Definition insert_run (data : step) (priorities : list (Z * dbl)) (tr : list (lev * option status)) : Prop :=
  forall tr1 e ret tr2, tr = tr1 ++ (e, ret) :: tr2 -> is_call e = true ->
  exists c, insert_next priorities (returned tr1) = Some c /\ performs data c e.

(** insert has come to its end; it has returned without an exception. *)
Definition insert_done (priorities : list (Z * dbl)) (tr : list (lev * option status)) : Prop :=
  insert_next priorities (returned tr) = None /\ current tr = None.
Definition insert_ok (priorities : list (Z * dbl)) (tr : list (lev * option status)) : Prop :=
  insert_done priorities tr /\ Forall (fun x => x.2 = Ok) (returned tr).

(** ** Client.sample *)

(** len() of an array: a scalar has none, which is a TypeError. *)
Definition py_len (t : tensor) : option nat := head (t_shape t).

(** What the generator does with one sample: it yields it, or raises. *)
Inductive yielded := YTimesteps (l : list (meta * list tensor)) | YTrajectory (m : meta) (l : list tensor).
Inductive raised := RValueError | RTypeError | RStatus (st : status).

(** tree.unflatten_as: the number of leaves must be right (the structure itself is
    left out: a value is the list of its leaves). *)
Definition unflatten (leaves : option nat) (l : list tensor) : option (list tensor) :=
  match leaves with Some n => if (n =? length l)%nat then Some l else None | None => Some l end.

(** client.py:426-437, with sample[4].shape[0] rows; the columns have equal lengths,
    so that no index is out of range. *)
Definition split_timesteps (leaves : option nat) (m : meta) (cols : list tensor) : raised + list (meta * list tensor) :=
  match mapM py_len cols with
  | None => inl RTypeError
  | Some ls =>
    if negb (length (remove_dups ls) =? 1)%nat then inl RValueError
    else match mapM (fun i => row ← mapM (fun c => Sample.sub_slice c i) cols; row ← unflatten leaves row; Some (m, row)) (seq 0 (default 0%nat (head ls))) with
         | None => inl RValueError
         | Some l => inr l
         end
  end.

(** client.py:417-441: one round of the loop. *)
Definition sample_round (emit_timesteps : bool) (leaves : option nat) (popped : status + (meta * list tensor)) : raised + yielded :=
  match popped with
  | inl st => inl (RStatus st)
  | inr (m, cols) =>
    if emit_timesteps then match split_timesteps leaves m cols with inl r => inl r | inr l => inr (YTimesteps l) end
    else match unflatten leaves cols with None => inl RValueError | Some l => inr (YTrajectory m l) end
  end.
(** The generator: what it has yielded when it ends, and the exception if it ends with
    one.  [pops]: what GetNextTrajectory returns, call by call; [None] for the list: the
    call does not return. *)
Fixpoint sample_loop (emit_timesteps : bool) (leaves : option nat) (num_samples : nat) (pops : list (status + (meta * list tensor))) : list yielded * option (option raised) :=
  match num_samples with
  | O => ([], Some None)
  | S n =>
    match pops with
    | [] => ([], None)
    | p :: pops =>
      match sample_round emit_timesteps leaves p with
      | inl r => ([], Some (Some r))
      | inr y => let '(l, e) := sample_loop emit_timesteps leaves n pops in (y :: l, e)
      end
    end
  end.

(** client.py:572-581 and 512-518: the cache is filled by the first successful
    ServerInfo that names a table, and never changes after that.  [None] in the
    result: ValueError; the inner option: whether the table has a signature.  [info]:
    the answer of the server, if it is asked. *)
Definition get_signature (cache : gmap Z (option nat)) (info : gmap Z (option nat)) (table : Z) : option (option nat) * gmap Z (option nat) :=
  let cache := if decide (cache = ∅) then info else cache in (cache !! table, cache).
