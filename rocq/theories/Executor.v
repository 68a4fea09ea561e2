(** Model of reverb/cc/support/task_executor.cc and of the queue it uses,
    reverb/cc/support/unbounded_queue.h.  The threads take turns: a step is one
    call of a queue method (which holds the mutex of the queue) or the end of a
    callback.  A thread whose Pop has to wait, and a join of threads that have not
    finished, do not move. *)
From Verif Require Import Base.

(** unbounded_queue.h:101-116.  [size_] is the length of [buffer_]. *)
Record uqueue (A : Type) := mkUq { u_buf : list A; u_closed : bool; u_last : bool }.
Arguments mkUq {A}. Arguments u_buf {A}. Arguments u_closed {A}. Arguments u_last {A}.
(** Lines 41-45. *)
Definition uq_new {A} : uqueue A := mkUq [] false false.
(** Lines 50-53. *)
Definition uq_close {A} (q : uqueue A) : uqueue A := mkUq (u_buf q) true (u_last q).
(** Lines 57-63. *)
Definition uq_push {A} (q : uqueue A) (x : A) : bool * uqueue A :=
  if u_closed q || u_last q then (false, q) else (true, mkUq (u_buf q ++ [x]) (u_closed q) (u_last q)).
(** Lines 66-72. *)
Definition uq_set_last {A} (q : uqueue A) : uqueue A :=
  mkUq (u_buf q) (match u_buf q with [] => true | _ => u_closed q end) true.
(** Lines 80-91.  [None]: waiting. *)
Definition uq_pop {A} (q : uqueue A) : option (option A * uqueue A) :=
  if u_closed q then Some (None, q)
  else match u_buf q with
       | [] => None
       | x :: l => Some (Some x, mkUq l (match l with [] => u_last q | _ => u_closed q end) (u_last q))
       end.

(** RunWorker, task_executor.cc:48-53: the thread is at Pop, runs a callback, or
    has finished. *)
Inductive wstate := WPop | WRun (t : Z) | WExit.
(** Close, task_executor.cc:38-46. *)
Inductive cstate := CIdle | CPop | CRun (t : Z) | CJoin | CDone.

Record exec := mkExec { x_queue : uqueue Z; x_workers : list wstate; x_close : cstate }.

(** Lines 20-28. *)
Definition ex_new (threads : nat) : exec := mkExec uq_new (repeat WPop threads) CIdle.

Inductive xact := XSchedule (t : Z) | XWorker (i : nat) | XClose.
(** What can be seen: a task was accepted or refused, a callback starts, Close
    starts and returns. *)
Inductive xev := XAccept (t : Z) | XRefuse (t : Z) | XStart (t : Z) | XCloseStart | XCloseEnd | XNothing.

Definition ex_step (s : exec) (a : xact) : option (xev * exec) :=
  match a with
  | XSchedule t => (* lines 34-36 *)
    let '(b, q) := uq_push (x_queue s) t in Some (if b then XAccept t else XRefuse t, mkExec q (x_workers s) (x_close s))
  | XWorker i =>
    match x_workers s !! i with
    | Some WPop =>
      '(r, q) ← uq_pop (x_queue s);
      Some (match r with Some t => XStart t | None => XNothing end,
            mkExec q (<[i := match r with Some t => WRun t | None => WExit end]> (x_workers s)) (x_close s))
    | Some (WRun t) => Some (XNothing, mkExec (x_queue s) (<[i := WPop]> (x_workers s)) (x_close s))
    | _ => None
    end
  | XClose =>
    match x_close s with
    | CIdle => Some (XCloseStart, mkExec (uq_set_last (x_queue s)) (x_workers s) CPop)
    | CPop =>
      '(r, q) ← uq_pop (x_queue s);
      Some (match r with Some t => XStart t | None => XNothing end,
            mkExec q (x_workers s) (match r with Some t => CRun t | None => CJoin end))
    | CRun t => Some (XNothing, mkExec (x_queue s) (x_workers s) CPop)
    | CJoin => if forallb (fun w => match w with WExit => true | _ => false end) (x_workers s)
               then Some (XCloseEnd, mkExec (x_queue s) (x_workers s) CDone) else None
    | CDone => None
    end
  end.

(** A run: the acting threads in their order; [None] if one could not move. *)
Fixpoint ex_run (s : exec) (l : list xact) : option (list xev * exec) :=
  match l with
  | [] => Some ([], s)
  | a :: l => '(e, s) ← ex_step s a; '(es, s) ← ex_run s l; Some (e :: es, s)
  end.
