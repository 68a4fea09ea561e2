(** How a client gets a table of a server in the same process: client.cc:381-416
    (GetLocalTablePtr), reverb_service_impl.cc:429-482 and
    reverb_service_async_impl.cc:310-397 (InitializeConnection). *)
From Verif Require Import Base.
Local Open Scope Z_scope.

Section Handshake.
Context {T : Type}. (* a table, that is, a shared pointer to one *)

(** What is fixed for one connection: the server implementation, the tables, whether
    IsLocalhostOrInProcess (grpc_util.h:67-70) accepts the peer, the
    name that the client asks for, the processes and their ids. *)
Inductive impl := Sync | Async.
Record conf := mkConf { f_impl : impl; f_tables : gmap Z T; f_local : bool; f_name : Z; f_server : Z; f_client : Z; f_pid : Z -> Z }.

(** InitializeConnectionRequest, and the address of a response (0 is [None]). *)
Record req := mkReq { r_pid : Z; r_name : Z; r_transferred : bool }.
Definition resp := option unit.

(** The pointer that the server allocates: not yet, on the heap, deleted. *)
Inductive cell := Unallocated | Allocated (t : T) | Deleted.

(** Where the server is: before a read, before the outcome of a write, after Finish (for Sync: the
    function has returned its status), after OnDone (Sync: the cleanup).  [VCrash]: Finish was called twice. *)
Inductive vpos := VRead | VWrite | VFinish (st : status) | VGone (st : status) | VCrash.

(** Where GetLocalTablePtr is: before the first Write, before Read, before the copy of the pointer, before
    the second Write, before Finish, [CFail]: before the Finish of lines 391 and 398; done; [CUse]: it has read
    memory that does not hold a pointer to a table. *)
Inductive cpos := CWrite1 | CRead | CCopy | CWrite2 | CFinish | CFail | CDone (st : status) | CUse.

Record net := mkNet {
  n_srv : vpos; n_resp : resp; n_cell : cell;
  n_cli : cpos; n_out : option T;
  n_up : list req; n_down : list resp; (* messages under way *)
  n_broken : bool (* the call was cancelled, the connection lost or the server shut down *) }.

(** The peer is looked at before the first read (impl 433-435, async 320-323). *)
Definition n_new (f : conf) : net := mkNet (if f_local f then VRead else VFinish Ok) None Unallocated CWrite1 None [] [] false.

Definition set_srv (n : net) (v : vpos) : net := mkNet v (n_resp n) (n_cell n) (n_cli n) (n_out n) (n_up n) (n_down n) (n_broken n).
Definition set_cli (n : net) (c : cpos) : net := mkNet (n_srv n) (n_resp n) (n_cell n) c (n_out n) (n_up n) (n_down n) (n_broken n).
Definition set_up (n : net) (u : list req) : net := mkNet (n_srv n) (n_resp n) (n_cell n) (n_cli n) (n_out n) u (n_down n) (n_broken n).
Definition set_down (n : net) (d : list resp) : net := mkNet (n_srv n) (n_resp n) (n_cell n) (n_cli n) (n_out n) (n_up n) d (n_broken n).

(** The server has got a request: impl 437-460, 471-479; async 328-367 (OnReadDone).  The two
    differ in one place: after an unexpected second request the reactor calls Finish twice
    (lines 362-366). *)
Definition on_request (f : conf) (n : net) (r : req) : net :=
  match f_impl f, n_cell n with
  | Sync, Allocated _ => set_srv n (VFinish (if r_transferred r then Ok else Internal)) (* the second read *)
  | _, _ =>
    if negb (r_pid r =? f_pid f (f_server f)) then mkNet VWrite None (n_cell n) (n_cli n) (n_out n) (n_up n) (n_down n) (n_broken n)
    else match n_cell n with
         | Unallocated =>
           match f_tables f !! r_name r with
           | None => set_srv n (VFinish NotFound)
           | Some t => mkNet VWrite (Some tt) (Allocated t) (n_cli n) (n_out n) (n_up n) (n_down n) (n_broken n)
           end
         | _ => set_srv n (if r_transferred r then VFinish Ok else VCrash)
         end
  end.

(** Outcome of the write: impl 446-447, 463-468; async 369-386 (OnWriteDone). *)
Definition on_written (n : net) (ok : bool) : net :=
  let n := if ok then set_down n (n_down n ++ [n_resp n]) else n in
  match n_resp n with
  | None => set_srv n (VFinish Ok) (* Sync does not look at the outcome; Async reports Internal if it failed, which nobody sees *)
  | Some _ => set_srv n (if ok then VRead else VFinish Internal)
  end.

(** The steps.  A read that fails needs a reason: the call is broken, or the other side is
    done and nothing is under way.  While the call is broken messages may also arrive still.
    - [HServerRead], [HServerReadFail], [HServerWrite ok], [HServerDone] (OnDone, async
      388-393; the cleanup, impl 461);
    - [HClientWrite ok], [HClientRead], [HClientReadFail], [HCopy], [HClientWrite2 ok], [HClientFinish st];
    - [HBreak]; [HLoseUp], [HLoseDown]: messages of a broken call may get lost;
    - [HForeign r]: another client program sends [r]. *)
Inductive hev := HServerRead | HServerReadFail | HServerWrite (ok : bool) | HServerDone
  | HClientWrite (ok : bool) | HClientRead | HClientReadFail | HCopy | HClientWrite2 (ok : bool) | HClientFinish | HBreak | HLoseUp | HLoseDown | HForeign (r : req).

Definition server_over (n : net) : option status := match n_srv n with VFinish st | VGone st => Some st | _ => None end.
Definition client_over (n : net) : bool := match n_cli n with CDone _ => true | _ => false end.

Definition h_step (f : conf) (n : net) (e : hev) : option net :=
  match e with
  | HServerRead =>
    match n_srv n, n_up n with
    | VRead, r :: up => Some (on_request f (set_up n up) r)
    | _, _ => None
    end
  | HServerReadFail => (* impl 438-440, 471-473; async 329-332; a client that is done has cancelled the call *)
    match n_srv n with
    | VRead => if n_broken n || client_over n then Some (set_srv n (VFinish Internal)) else None
    | _ => None
    end
  | HServerWrite ok =>
    match n_srv n with
    | VWrite => if ok || n_broken n || client_over n then Some (on_written n ok) else None
    | _ => None
    end
  | HServerDone => (* the pointer is deleted; OnDone comes after the status has been sent or the call is broken *)
    match n_srv n with
    | VFinish st => Some (mkNet (VGone st) (n_resp n) (match n_cell n with Allocated _ => Deleted | c => c end) (n_cli n) (n_out n) (n_up n) (n_down n) (n_broken n))
    | _ => None
    end
  | HClientWrite ok => (* lines 387-394 *)
    match n_cli n with
    | CWrite1 => if ok then Some (set_cli (set_up n (n_up n ++ [mkReq (f_pid f (f_client f)) (f_name f) false])) CRead)
                 else if n_broken n || bool_decide (server_over n <> None) then Some (set_cli n CFail) else None
    | _ => None
    end
  | HClientRead => (* lines 396-406 *)
    match n_cli n, n_down n with
    | CRead, a :: down => Some (set_cli (set_down n down) (match a with None => CDone FailedPrecondition | Some _ => CCopy end))
    | _, _ => None
    end
  | HClientReadFail => (* line 397 *)
    match n_cli n, n_down n with
    | CRead, [] => if n_broken n || bool_decide (server_over n <> None) then Some (set_cli n CFail) else None
    | CRead, _ :: _ => if n_broken n then Some (set_cli n CFail) else None
    | _, _ => None
    end
  | HCopy => (* line 408: an address means something only in the process of the server *)
    match n_cli n with
    | CCopy => Some (match n_cell n with
                     | Allocated t => if f_server f =? f_client f then mkNet (n_srv n) (n_resp n) (n_cell n) CWrite2 (Some t) (n_up n) (n_down n) (n_broken n) else set_cli n CUse
                     | _ => set_cli n CUse
                     end)
    | _ => None
    end
  | HClientWrite2 ok => (* lines 409-410, the outcome is ignored *)
    match n_cli n with
    | CWrite2 => if ok then Some (set_cli (set_up n (n_up n ++ [mkReq (f_pid f (f_client f)) (f_name f) true])) CFinish)
                 else if n_broken n || bool_decide (server_over n <> None) then Some (set_cli n CFinish) else None
    | _ => None
    end
  | HClientFinish => (* lines 391-393, 398-400, 412: Finish waits for the status; a call that is broken has failed *)
    match n_cli n with
    | CFinish => match server_over n with
                 | Some st => Some (set_cli n (CDone (if n_broken n then Unavailable else st)))
                 | None => if n_broken n then Some (set_cli n (CDone Unavailable)) else None
                 end
    | CFail => match server_over n with
               | Some st => Some (set_cli n (CDone (if n_broken n then Unavailable else if bool_decide (st = Ok) then Internal else st)))
               | None => if n_broken n then Some (set_cli n (CDone Unavailable)) else None
               end
    | _ => None
    end
  | HBreak => Some (mkNet (n_srv n) (n_resp n) (n_cell n) (n_cli n) (n_out n) (n_up n) (n_down n) true)
  | HLoseUp => if n_broken n then match n_up n with _ :: up => Some (set_up n up) | [] => None end else None
  | HLoseDown => if n_broken n then match n_down n with _ :: down => Some (set_down n down) | [] => None end else None
  | HForeign r => Some (set_up n (n_up n ++ [r]))
  end.

Definition h_run (f : conf) (es : list hev) : option net := foldl (fun o e => n ← o; h_step f n e) (Some (n_new f)) es.
End Handshake.
Arguments conf : clear implicits.
Arguments net : clear implicits.
Arguments cell : clear implicits.
