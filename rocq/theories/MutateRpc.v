(** Model of a priority update as a remote call: Client::MutatePriorities
    (client.cc:136-152), the loop of UpdatePrioritiesOp around it (ops/client.cc:175-222,
    behind TFClient.update_priorities, tf_client.py:116-138) and the handlers of the server
    (reverb_service_async_impl.cc:405-422, reverb_service_impl.cc:242-254).

    The network is modelled by events: a request that was sent is handled at most
    once, at any later time or never, and also after the client has given up on
    it; an answer may be replaced by Unavailable or DeadlineExceeded. *)
From Verif Require Import Base RateLimiter Selector Trajectory Table.

Section WithFP.
Context {fp : FP}.

(** MutatePrioritiesRequest: table, updates, delete_keys. *)
Record mreq := mkMreq { rq_table : Z; rq_updates : list (Z * dbl); rq_deletes : list Z }.

(** ops/client.cc:189-208: [ks], [ps] are the shapes of the tensors, [keys] and
    [prios] the flat values; [None] is the InvalidArgument of lines 192-199. *)
Definition op_request (tbl : Z) (ks ps : list Z) (keys : list Z) (prios : list dbl) : option mreq :=
  if decide (length ks = 1%nat) then
    if decide (ks = ps) then Some (mkMreq tbl (zip keys prios) []) else None
  else None.

(** A call that has not returned.  [ca_retry]: the loop of the op (ops/client.cc:216-218)
    runs around it; [ca_cur]: the number of the current attempt; [ca_reply]: the
    answer to the current attempt that is on its way back. *)
Record mcall := mkMcall { ca_req : mreq; ca_retry : bool; ca_cur : nat; ca_reply : option status }.

Inductive mlog :=
| LSend (c a : nat) (rq : mreq)                    (* attempt a of call c leaves the client *)
| LHandle (c a : nat) (rq : mreq) (st : status)    (* the server handles it with this result *)
| LReturn (c : nat) (rq : mreq) (retry : bool) (st : status).  (* the call returns this to the user *)

Record mst := mkMst {
  m_tables : gmap Z table;
  m_flight : gmap nat (nat * mreq);     (* attempt -> call and request *)
  m_calls : gmap nat mcall;
  m_next : nat;
  m_log : list mlog }.
Definition m_init (ts : gmap Z table) : mst := mkMst ts ∅ ∅ 0 [].

(** absl::IsUnavailable || absl::IsDeadlineExceeded, ops/client.cc:218. *)
Definition transient (st : status) : bool :=
  match st with Unavailable | DeadlineExceeded => true | _ => false end.

(** client.cc:136-152 up to the stub: a new attempt for call [c]. *)
Definition send (s : mst) (c : nat) (rq : mreq) (retry : bool) : mst :=
  let a := m_next s in
  mkMst (m_tables s) (<[a := (c, rq)]> (m_flight s)) (<[c := mkMcall rq retry a None]> (m_calls s))
    (S a) (m_log s ++ [LSend c a rq]).

(** The stub returns [st] (client.cc:151): again (ops/client.cc:216-218) or back to the user. *)
Definition stub_returns (s : mst) (c : nat) (ca : mcall) (st : status) : mst :=
  if ca_retry ca && transient st then send s c (ca_req ca) true
  else mkMst (m_tables s) (m_flight s) (delete c (m_calls s)) (m_next s)
         (m_log s ++ [LReturn c (ca_req ca) (ca_retry ca) st]).

(** reverb_service_async_impl.cc:405-422: the handler. *)
Definition handle (ts : gmap Z table) (rq : mreq) : option (status * gmap Z table) :=
  match ts !! rq_table rq with
  | None => Some (NotFound, ts)
  | Some t =>
    match step t (OMutate (rq_updates rq) (rq_deletes rq)) with
    | Some (RStatus st, t') => Some (st, <[rq_table rq := t']> ts)
    | _ => None
    end
  end.

Inductive mev :=
| MCall (rq : mreq) (retry : bool)     (* a user calls; the number of the call is that of its first attempt *)
| MHandle (a : nat)                    (* the request of attempt a is handled *)
| MDrop (a : nat)                      (* it is lost *)
| MReply (c : nat)                     (* the answer to the current attempt of call c arrives *)
| MFail (c : nat) (st : status)        (* the current attempt of c ends with a transient status *)
| MOther (tbl : Z) (o : op)            (* anything else done to a table *)
| MRestart (ts : gmap Z table).        (* the server comes back with these tables *)

(** [None]: the event is not possible, or the server dies of it. *)
Definition m_step (s : mst) (e : mev) : option mst :=
  match e with
  | MCall rq retry => Some (send s (m_next s) rq retry)
  | MHandle a =>
    match m_flight s !! a with
    | None => None
    | Some (c, rq) =>
      match handle (m_tables s) rq with
      | None => None
      | Some (st, ts) =>
        let calls :=
          match m_calls s !! c with
          | Some ca => if decide (ca_cur ca = a)
                       then <[c := mkMcall (ca_req ca) (ca_retry ca) a (Some st)]> (m_calls s) else m_calls s
          | None => m_calls s
          end in
        Some (mkMst ts (delete a (m_flight s)) calls (m_next s) (m_log s ++ [LHandle c a rq st]))
      end
    end
  | MDrop a =>
    match m_flight s !! a with
    | None => None
    | Some _ => Some (mkMst (m_tables s) (delete a (m_flight s)) (m_calls s) (m_next s) (m_log s))
    end
  | MReply c =>
    match m_calls s !! c with
    | Some ca => match ca_reply ca with Some st => Some (stub_returns s c ca st) | None => None end
    | None => None
    end
  | MFail c st =>
    match m_calls s !! c with
    | Some ca => if transient st then Some (stub_returns s c ca st) else None
    | None => None
    end
  | MOther tbl o =>
    match m_tables s !! tbl with
    | None => None
    | Some t =>
      match step t o with
      | None => None
      | Some (_, t') => Some (mkMst (<[tbl := t']> (m_tables s)) (m_flight s) (m_calls s) (m_next s) (m_log s))
      end
    end
  | MRestart ts => Some (mkMst ts (m_flight s) (m_calls s) (m_next s) (m_log s))
  end.

Fixpoint m_run (s : mst) (es : list mev) : option mst :=
  match es with
  | [] => Some s
  | e :: es => match m_step s e with Some s => m_run s es | None => None end
  end.

End WithFP.
