(** Model of Writer::AppendSequence, reverb/cc/writer.cc:120-151, on top of Writer.v. *)
From Verif Require Import Base Trajectory Tensor TrajUtil ChunkerOptions Sample Stream Reactor Chunker TrajWriter Writer.
Local Open Scope Z_scope.

(** The writer, and the sequence and the index [i] of the loop in line 137 if
    AppendSequence is running. *)
Record qs := mkQs { q_w : lw; q_seq : option (list tensor * nat) }.

(** The calls and actions of Writer.v; [QSeq]: the user calls AppendSequence;
    [QNext]: the loop of a running AppendSequence goes on.  The actions of the worker
    happen in between. *)
Inductive qev := QBase (e : lev) | QSeq (sequence : list tensor) | QNext.
Inductive qres := QBlocked | QCrash | QRes (q : qs) (ret : option status).

(** Lines 121-135: whether the arguments are accepted.  The loop compares with the
    first tensor; its first round finds a scalar there. *)
Definition seq_accepted (sequence : list tensor) : bool :=
  match sequence with
  | [] => false
  | t0 :: _ => forallb (fun t => negb (length (t_shape t) =? 0)%nat && (dim0 t =? dim0 t0)%nat) sequence
  end.

(** Line 148 and the return of the Append that it called. *)
Definition seq_after (w : lw) (sequence : list tensor) (i : nat) (ret : option status) : qres :=
  match ret with
  | None | Some Ok => QRes (mkQs w (Some (sequence, i))) None
  | Some st => QRes (mkQs w None) (Some st)
  end.

(** Lines 137-150, from the check of the loop condition to the call of Append.
    DeepCopy (line 144) makes a tensor with the same elements; alignment is not
    modelled. *)
Definition seq_next (p : lconf) (w : lw) (sequence : list tensor) (i : nat) : qres :=
  if (i <? match sequence with [] => 0 | t0 :: _ => dim0 t0 end)%nat then
    match mapM (fun t => Sample.sub_slice t i) sequence with
    | None => QCrash
    | Some data =>
      match append p w data with
      | LNext w ret => seq_after w sequence (S i) ret
      | LCrash => QCrash
      | LBlocked => QBlocked
      end
    end
  else QRes (mkQs w None) (Some Ok).

(** The calls of the user; no method is thread safe (writer.h:46), so none is called
    while AppendSequence runs. *)
Definition user_call (e : lev) : bool := match e with LAppend _ | LCreate _ _ _ _ | LFlush | LClose _ => true | _ => false end.
Definition q_step (p : lconf) (q : qs) (e : qev) : qres :=
  match e with
  | QBase e =>
    match q_seq q with
    | None => match lw_step p (q_w q) e with LNext w ret => QRes (mkQs w None) ret | LCrash => QCrash | LBlocked => QBlocked end
    | Some (sequence, i) =>
      if user_call e then QBlocked
      else match lw_step p (q_w q) e with LNext w ret => seq_after w sequence i ret | LCrash => QCrash | LBlocked => QBlocked end
    end
  | QSeq sequence =>
    match q_seq q, l_pos (q_w q) with
    | None, LIdle => if seq_accepted sequence then QRes (mkQs (q_w q) (Some (sequence, 0%nat))) None else QRes q (Some InvalidArgument)
    | _, _ => QBlocked
    end
  | QNext =>
    match q_seq q, l_pos (q_w q) with
    | Some (sequence, i), LIdle => seq_next p (q_w q) sequence i
    | _, _ => QBlocked
    end
  end.

(** Tensors are well formed; otherwise as in Writer.v. *)
Definition q_enabled (q : qs) (e : qev) : Prop :=
  match e with QBase e => lw_enabled (q_w q) e | QSeq sequence => Forall tensor_ok sequence | QNext => True end.

(** A run, with what every action returns to the user. *)
Inductive q_trace (p : lconf) (q0 : qs) : list (qev * option status) -> qs -> Prop :=
| qt_nil : q_trace p q0 [] q0
| qt_snoc tr q e q' ret : q_trace p q0 tr q -> q_enabled q e -> q_step p q e = QRes q' ret -> q_trace p q0 (tr ++ [(e, ret)]) q'.
Definition q_new (p : lconf) (key : Z) : qs := mkQs (lw_new p key) None.
