(** How the outcome of a call gets from the C++ code, or from the server, to the Python
    caller: statuses with their messages, gRPC, exceptions, and the timeouts of
    TrajectoryWriter.flush, TrajectoryWriter.end_episode and Client.server_info.
    Texts matter here: Python recognises a timeout by the text of the exception. *)
From Verif Require Import Base.
From Coq Require Import Strings.String Strings.Ascii.
From stdpp Require Import pretty.
Open Scope string_scope.
Open Scope Z_scope.

(** absl::Status: the code is the number of absl::StatusCode, 0 is OK. *)
Record xstatus := mkX { x_code : Z; x_msg : string }.
(** grpc::Status. *)
Record gstatus := mkG { g_code : Z; g_msg : string }.
Definition x_ok : xstatus := mkX 0 "".

(** absl::StrContains, and [sub in s] of Python. *)
Fixpoint contains (sub s : string) : bool :=
  String.prefix sub s || match s with EmptyString => false | String _ s => contains sub s end.

(** support/grpc_util.h:44-49. *)
Definition to_grpc (s : xstatus) : gstatus :=
  if x_code s =? 0 then mkG 0 "" else mkG (x_code s) (x_msg s).
(** support/grpc_util.h:39-42; 2 is UNKNOWN. *)
Definition stream_removed (s : gstatus) : bool :=
  (g_code s =? 2) && bool_decide (g_msg s = "Stream removed").
(** support/grpc_util.h:51-61; 14 is UNAVAILABLE. *)
Definition from_grpc (s : gstatus) : xstatus :=
  if g_code s =? 0 then x_ok
  else if stream_removed s then mkX 14 (g_msg s)
  else mkX (g_code s) (g_msg s).

(** errors.cc:25-37; 4 is DEADLINE_EXCEEDED. *)
Definition rate_text : string := "Rate Limiter: Timeout exceeded before the right to insert was acquired.".
Definition rate_limiter_timeout : xstatus := mkX 4 rate_text.
Definition is_rate_limiter_timeout (s : xstatus) : bool := (x_code s =? 4) && contains rate_text (x_msg s).

(** The exceptions that occur, with their text. *)
Inductive pyexc :=
| ValueError (t : string) | IndexError (t : string) | NotImplementedError (t : string)
| RuntimeError (t : string) | DeadlineExceededError.
(** pybind.cc:59-84: 3 is INVALID_ARGUMENT, 8 RESOURCE_EXHAUSTED, 12 UNIMPLEMENTED. *)
Definition maybe_raise (s : xstatus) : option pyexc :=
  if x_code s =? 0 then None
  else Some
    (if x_code s =? 3 then ValueError (x_msg s)
     else if x_code s =? 8 then IndexError (x_msg s)
     else if x_code s =? 12 then NotImplementedError (x_msg s)
     else RuntimeError (x_msg s)).
(** [except RuntimeError as e] catches these, with [str(e)]: in Python
    NotImplementedError is a subclass of RuntimeError. *)
Definition caught (e : pyexc) : option string :=
  match e with RuntimeError t | NotImplementedError t => Some t | _ => None end.

(** How a call ends.  [Hangs]: it never does. *)
Inductive outcome := Returns | Raises (e : pyexc) | Hangs.

(** TrajectoryWriter::FlushLocked, trajectory_writer.cc:564-619.  [timeout]: [None] for
    InfiniteDuration, otherwise milliseconds.  The arguments after it are what happens:
    [forced] the status of the first Flush of a chunker that fails (lines 571-580), [ready]
    the time (from the call, >= 0) after which the condition holds, [None] if never; [u] the
    value of unrecoverable_status_ then; [nq] and [nf] the sizes of the queues. *)
Definition timeout_status (nq nf : N) : xstatus :=
  mkX 4 ("Timeout exceeded with " ++ pretty nq ++ " items waiting to be written and " ++
         pretty nf ++ " items awaiting confirmation.").
Definition flush_locked (timeout : option Z) (forced : xstatus) (ready : option Z) (u : xstatus)
    (nq nf : N) : option xstatus :=
  if negb (x_code forced =? 0) then Some forced else
  match timeout, ready with
  | None, None => None
  | None, Some _ => Some u
  | Some t, Some r => if r <=? Z.max 0 t then Some u else Some (timeout_status nq nf)
  | Some _, None => Some (timeout_status nq nf)
  end.

(** The handler of trajectory_writer.py:400-407 and 427-434 and of client.py:495-502,
    with [given] for [timeout is not None]. *)
Definition handle (text : string) (given : bool) (s : xstatus) : outcome :=
  match maybe_raise s with
  | None => Returns
  | Some e =>
    match caught e with
    | Some t => if contains text t && given then Raises DeadlineExceededError else Raises e
    | None => Raises e
    end
  end.

(** TrajectoryWriter.flush, trajectory_writer.py:393-407, with pybind.cc:950-961. *)
Definition py_flush (block : Z) (timeout_ms : option Z) (forced : xstatus) (ready : option Z)
    (u : xstatus) (nq nf : N) : outcome :=
  if block <? 0 then Raises (ValueError ("block_until_num_items must be >= 0, got " ++ pretty block)) else
  let t := default (-1) timeout_ms in
  match flush_locked (if 0 <? t then Some t else None) forced ready u nq nf with
  | None => Hangs
  | Some s => handle "Timeout exceeded" true s (* timeout_ms is -1, not None *)
  end.

(** TrajectoryWriter.end_episode, trajectory_writer.py:427-438, with pybind.cc:962-974 and
    trajectory_writer.cc:621-642.  [u0]: unrecoverable_status_ at the beginning; [ends]: the
    status of the Flush of the chunkers when clear_buffers is false (OK otherwise). *)
Definition py_end_episode (timeout_ms : option Z) (u0 forced : xstatus) (ready : option Z)
    (u : xstatus) (nq nf : N) (ends : xstatus) : outcome :=
  let given := bool_decide (is_Some timeout_ms) in
  if negb (x_code u0 =? 0) then handle "Timeout exceeded" given u0 else
  match flush_locked timeout_ms forced ready u nq nf with
  | None => Hangs
  | Some s => handle "Timeout exceeded" given (if x_code s =? 0 then ends else s)
  end.

(** Client.server_info up to line 502, client.py, with pybind.cc:702-720 and client.cc:310-344.
    The call waits for the server (wait_for_ready).  [answer]: when and with what the server
    answers, seconds; [cache]: the status of LockedUpdateServerInfoCache.  That gRPC reports
    a missed deadline with the text below is not visible in the code; client.py relies on it. *)
Definition py_server_info (timeout : option Z) (answer : option (Z * gstatus)) (cache : xstatus) : outcome :=
  let t := default 0 timeout in
  let late := mkG 4 "Deadline Exceeded" in
  let reply :=
    match (if 0 <? t then Some t else None), answer with
    | None, None => None
    | None, Some (_, s) => Some s
    | Some t, Some (r, s) => if r <=? t then Some s else Some late
    | Some _, None => Some late
    end in
  match reply with
  | None => Hangs
  | Some g =>
    let s := from_grpc g in
    handle "Deadline Exceeded" (bool_decide (is_Some timeout)) (if x_code s =? 0 then cache else s)
  end.

(** What an iterator over a table does with the status of its sampler
    (ops/trajectory_dataset.cc:295-306, the same in dataset.cc and timestep_dataset.cc); [limited]:
    rate_limiter_timeout is finite. *)
Inductive next_result := NElement | NEnd | NError (s : xstatus).
Definition next_of (limited : bool) (s : xstatus) : next_result :=
  if x_code s =? 0 then NElement
  else if limited && is_rate_limiter_timeout s then NEnd else NError s.
