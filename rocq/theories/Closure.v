(** Model of reverb/cc/support/periodic_closure.{h,cc} (with
    platform/default/thread.cc) and of the life of a server,
    reverb/cc/platform/default/server.cc. *)
From Verif Require Import Base.
Local Open Scope Z_scope.

(** ** PeriodicClosure *)

(** Where the worker is (periodic_closure.cc:51-62).  [WNone]: worker_ is null.
    [WBegin]: the thread has been created.  [WWait n]: it waits in
    LockWhenWithDeadline until next_run = n.  [WWoken]: the deadline has passed
    and mu_ has been released, line 57.  [WReady n]: next_run has been computed,
    line 58.  [WRun n]: in fn_.  [WExit]: the function has returned. *)
Inductive wstate := WNone | WBegin | WWait (next_run : Z) | WWoken | WReady (next_run : Z) | WRun (next_run : Z) | WExit.

(** periodic_closure.h:92-109.  [c_joining]: a call to Stop has set stopped_ and
    waits for the thread.  [c_now] is absl::Now(). *)
Record closure := mkClosure { c_stopped : bool; c_worker : wstate; c_joining : bool; c_now : Z }.
Definition new_closure (now : Z) : closure := mkClosure false WNone false now.

(** Calls and steps of the worker.  [CStop] is the first section of Stop,
    [CJoin] the rest; [CStopInside] is a call of Stop made by fn_. *)
Inductive cevent :=
| CStart | CStop | CJoin | CStopInside | CDestroy
| CTick (d : Z) | CBegin | CWake | CNext | CCall | CReturn.

(** [CNot]: the step is not possible now (the thread waits, or is elsewhere).
    [CCrash]: the process ends.  [CDone c r]: [r] is what a call returned. *)
Inductive cres := CNot | CCrash | CDone (c : closure) (r : option status).

Definition set_worker (c : closure) (w : wstate) : closure := mkClosure (c_stopped c) w (c_joining c) (c_now c).

Definition c_step (period : Z) (c : closure) (e : cevent) : cres :=
  match e with
  | CStart => (* lines 41-64 *)
    if c_stopped c then CDone c (Some InvalidArgument)
    else match c_worker c with
         | WNone => CDone (set_worker c WBegin) (Some Ok)
         | _ => CDone c (Some InvalidArgument)
         end
  | CStop => (* lines 66-74 *)
    if c_stopped c then CDone c (Some InvalidArgument)
    else CDone (mkClosure true (c_worker c) true (c_now c)) None
  | CJoin => (* line 75; joining needs a thread that has ended *)
    if c_joining c then
      match c_worker c with
      | WNone | WExit => CDone (mkClosure (c_stopped c) WNone false (c_now c)) (Some Ok)
      | _ => CNot
      end
    else CNot
  | CStopInside => (* the same; a thread that joins itself: std::thread throws in a destructor *)
    match c_worker c with
    | WRun _ => if c_stopped c then CDone c (Some InvalidArgument) else CCrash
    | _ => CNot
    end
  | CDestroy => (* lines 29-31 *)
    match c_worker c with WNone => CDone c None | _ => CCrash end
  | CTick d => if 0 <=? d then CDone (mkClosure (c_stopped c) (c_worker c) (c_joining c) (c_now c + d)) None else CNot
  | CBegin => match c_worker c with WBegin => CDone (set_worker c (WWait (c_now c + period))) None | _ => CNot end
  | CWake => (* lines 53-57: true if stopped_ holds, also after the deadline *)
    match c_worker c with
    | WWait n => if c_stopped c then CDone (set_worker c WExit) None
                 else if n <=? c_now c then CDone (set_worker c WWoken) None
                 else CNot
    | _ => CNot
    end
  | CNext => match c_worker c with WWoken => CDone (set_worker c (WReady (c_now c + period))) None | _ => CNot end
  | CCall => match c_worker c with WReady n => CDone (set_worker c (WRun n)) None | _ => CNot end
  | CReturn => match c_worker c with WRun n => CDone (set_worker c (WWait n)) None | _ => CNot end
  end.

(** What happened, oldest first: the event, what it returned and the time. *)
Record clog := mkClog { l_event : cevent; l_ret : option status; l_time : Z }.
Inductive c_run (period : Z) : closure -> list clog -> closure -> Prop :=
| cr_nil c : c_run period c [] c
| cr_snoc c l c1 e c2 r : c_run period c l c1 -> c_step period c1 e = CDone c2 r ->
    c_run period c (l ++ [mkClog e r (c_now c2)]) c2.

(** ** Server *)

(** Who is in Stop, with mu_ held. *)
Inductive who := Ext (thread : nat) | Worker | Dtor.
Global Instance who_eq_dec : EqDecision who.
Proof. solve_decision. Defined.

(** The closure of the signal worker, server.cc:46-52: before the test, wants
    mu_ for Stop, in Stop, at its end. *)
Inductive fphase := FIdle | FWant | FStop | FDone.

(** A thread in Wait, server.cc:95-111: after the test of running_; with the
    handler registered. *)
Inductive wphase := PChecked | PRegistered.

(** The destructor, lines 76-79. *)
Inductive dphase := DNone | DJoin | DWant | DStop | DGone.

(** server.cc:133-147.  [sv_closed] and [sv_shut] count the calls of
    ReverbServiceImpl::Close and grpc::Server::Shutdown. *)
Record server := mkServer {
  sv_clo : closure; sv_running : bool; sv_signalled : bool; sv_holder : option who;
  sv_closed : nat; sv_shut : nat; sv_fn : fphase; sv_waiters : gmap nat wphase; sv_dtor : dphase }.

(** The handler of SIGINT of the process: as it was before, or [signal_handler]
    with the current [stop_server_fn] (line 35). *)
Inductive handler := HOther | HFn (server : option nat).

Record world := mkWorld { w_servers : gmap nat server; w_handler : handler }.

Inductive gevent :=
| GNew (i : nat) (now : Z)
| GStop (i : nat) (w : who) | GShut (i : nat)
| GWait (i t : nat) | GRegister (i t : nat) | GWaitReturn (i t : nat)
| GSigint
| GTick (i : nat) (d : Z) | GBegin (i : nat) | GWake (i : nat) | GNext (i : nat)
| GCall (i : nat) | GReturn (i : nat)
| GDestroy (i : nat) | GJoined (i : nat).

(** What a caller sees. *)
Inductive gobs := OStopped (i : nat) (w : who) | OWait (i t : nat) (r : bool) | OSignal (i : option nat) | OCalled (i : nat) | OFnDone (i : nat).

Definition sig_period : Z := 250.

Definition upd (g : world) (i : nat) (s : server) : world := mkWorld (<[i := s]> (w_servers g)) (w_handler g).
Definition set_clo (s : server) (c : closure) : server :=
  mkServer c (sv_running s) (sv_signalled s) (sv_holder s) (sv_closed s) (sv_shut s) (sv_fn s) (sv_waiters s) (sv_dtor s).
Definition set_fn (s : server) (f : fphase) : server :=
  mkServer (sv_clo s) (sv_running s) (sv_signalled s) (sv_holder s) (sv_closed s) (sv_shut s) f (sv_waiters s) (sv_dtor s).
Definition set_dtor (s : server) (d : dphase) : server :=
  mkServer (sv_clo s) (sv_running s) (sv_signalled s) (sv_holder s) (sv_closed s) (sv_shut s) (sv_fn s) (sv_waiters s) d.
Definition set_waiters (s : server) (m : gmap nat wphase) : server :=
  mkServer (sv_clo s) (sv_running s) (sv_signalled s) (sv_holder s) (sv_closed s) (sv_shut s) (sv_fn s) m (sv_dtor s).
Definition set_signalled (s : server) : server :=
  mkServer (sv_clo s) (sv_running s) true (sv_holder s) (sv_closed s) (sv_shut s) (sv_fn s) (sv_waiters s) (sv_dtor s).

(** Lines 54-74, a successful Initialize (a failed one leaves no server). *)
Definition new_server (now : Z) : server :=
  mkServer (mkClosure false WBegin false now) true false None 0 0 FIdle ∅ DNone.

(** May [w] call Stop now: a user, while the object lives; the signal worker and
    the destructor at their places. *)
Definition may_stop (s : server) (w : who) : bool :=
  match w, sv_fn s, sv_dtor s with
  | Ext _, _, DNone => true
  | Worker, FWant, _ => true
  | Dtor, _, DWant => true
  | _, _, _ => false
  end.
(** Where the caller is while it holds mu_ and after Stop. *)
Definition in_stop (s : server) (w : who) : server :=
  match w with Ext _ => s | Worker => set_fn s FStop | Dtor => set_dtor s DStop end.
Definition after_stop (s : server) (w : who) : server :=
  match w with Ext _ => s | Worker => set_fn s FDone | Dtor => set_dtor s DGone end.

(** [None]: the step is not possible. *)
Definition g_step (g : world) (e : gevent) : option (world * list gobs) :=
  match e with
  | GNew i now => match w_servers g !! i with None => Some (upd g i (new_server now), []) | Some _ => None end
  | GStop i w => (* lines 81-86; the test and Close *)
    s ← w_servers g !! i;
    if may_stop s w then
      match sv_holder s with
      | Some _ => None
      | None =>
        if sv_running s then
          let s := in_stop s w in
          Some (upd g i (mkServer (sv_clo s) (sv_running s) (sv_signalled s) (Some w) (S (sv_closed s)) (sv_shut s) (sv_fn s) (sv_waiters s) (sv_dtor s)), [])
        else Some (upd g i (after_stop s w), [OStopped i w])
      end
    else None
  | GShut i => (* lines 88-93 *)
    s ← w_servers g !! i;
    w ← sv_holder s;
    let s := after_stop s w in
    Some (upd g i (mkServer (sv_clo s) false (sv_signalled s) None (sv_closed s) (S (sv_shut s)) (sv_fn s) (sv_waiters s) (sv_dtor s)), [OStopped i w])
  | GWait i t => (* lines 96-99 *)
    s ← w_servers g !! i;
    match sv_holder s, sv_dtor s, sv_waiters s !! t with
    | None, DNone, None =>
      if sv_running s then Some (upd g i (set_waiters s (<[t := PChecked]> (sv_waiters s))), [])
      else Some (g, [OWait i t false])
    | _, _, _ => None
    end
  | GRegister i t => (* lines 102-103 *)
    s ← w_servers g !! i;
    match sv_waiters s !! t with
    | Some PChecked => Some (mkWorld (<[i := set_waiters s (<[t := PRegistered]> (sv_waiters s))]> (w_servers g)) (HFn (Some i)), [])
    | _ => None
    end
  | GWaitReturn i t => (* lines 105-110: grpc::Server::Wait returns after Shutdown *)
    s ← w_servers g !! i;
    match sv_waiters s !! t with
    | Some PRegistered =>
      if (0 <? sv_shut s)%nat
      then Some (mkWorld (<[i := set_waiters s (delete t (sv_waiters s))]> (w_servers g)) (HFn None), [OWait i t (sv_signalled s)])
      else None
    | _ => None
    end
  | GSigint => (* lines 37-40, 128 *)
    match w_handler g with
    | HFn (Some i) => match w_servers g !! i with
                      | Some s => Some (upd g i (set_signalled s), [OSignal (Some i)])
                      | None => None
                      end
    | _ => Some (g, [OSignal None])
    end
  | GTick i d => s ← w_servers g !! i;
    match c_step sig_period (sv_clo s) (CTick d) with CDone c _ => Some (upd g i (set_clo s c), []) | _ => None end
  | GBegin i => s ← w_servers g !! i;
    match c_step sig_period (sv_clo s) CBegin with CDone c _ => Some (upd g i (set_clo s c), []) | _ => None end
  | GWake i => s ← w_servers g !! i;
    match c_step sig_period (sv_clo s) CWake with CDone c _ => Some (upd g i (set_clo s c), []) | _ => None end
  | GNext i => s ← w_servers g !! i;
    match c_step sig_period (sv_clo s) CNext with CDone c _ => Some (upd g i (set_clo s c), []) | _ => None end
  | GCall i => (* lines 47-50 *)
    s ← w_servers g !! i;
    match c_step sig_period (sv_clo s) CCall with
    | CDone c _ => Some (upd g i (set_fn (set_clo s c) (if sv_signalled s then FWant else FDone)), [OCalled i])
    | _ => None
    end
  | GReturn i =>
    s ← w_servers g !! i;
    match sv_fn s with
    | FDone => match c_step sig_period (sv_clo s) CReturn with
               | CDone c _ => Some (upd g i (set_fn (set_clo s c) FIdle), [OFnDone i])
               | _ => None
               end
    | _ => None
    end
  | GDestroy i => (* line 77: the first half of PeriodicClosure::Stop *)
    s ← w_servers g !! i;
    match sv_dtor s, c_step sig_period (sv_clo s) CStop with
    | DNone, CDone c _ => Some (upd g i (set_dtor (set_clo s c) DJoin), [])
    | _, _ => None
    end
  | GJoined i => (* the second half *)
    s ← w_servers g !! i;
    match sv_dtor s, c_step sig_period (sv_clo s) CJoin with
    | DJoin, CDone c _ => Some (upd g i (set_dtor (set_clo s c) DWant), [])
    | _, _ => None
    end
  end.

Definition world0 : world := mkWorld ∅ HOther.
Inductive g_run : world -> list gobs -> world -> Prop :=
| gr_nil g : g_run g [] g
| gr_snoc g l g1 e g2 o : g_run g l g1 -> g_step g1 e = Some (g2, o) -> g_run g (l ++ o) g2.
Fixpoint g_script (g : world) (es : list gevent) : option (world * list gobs) :=
  match es with
  | [] => Some (g, [])
  | e :: es => '(g, o) ← g_step g e; '(g, o') ← g_script g es; Some (g, o ++ o')
  end.
Fixpoint c_script (period : Z) (c : closure) (es : list cevent) : option (closure * list clog) :=
  match es with
  | [] => Some (c, [])
  | e :: es => match c_step period c e with
               | CDone c r => '(c', l) ← c_script period c es; Some (c', mkClog e r (c_now c) :: l)
               | _ => None
               end
  end.
