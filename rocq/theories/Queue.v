(** Model of the bounded queue in reverb/cc/support/queue.h.  Each call holds
    the mutex from its check of the condition to its end, so a call is one
    atomic action that can happen when its condition holds; a call whose
    condition does not hold is waiting and has no effect.  Numbers do not
    overflow. *)
From Verif Require Import Base.

Section Queue.
Context {A : Type}.

(** Lines 206-225.  A slot is [None] before its first use and after its value
    was moved out. *)
Record queue := mkQueue {
  q_buf : list (option A); q_pushes : nat; q_pops : nat; q_closed : bool; q_last : bool }.

(** Lines 49-54. *)
Definition q_new (cap : nat) : queue := mkQueue (repeat None cap) 0 0 false false.
Definition q_cap (q : queue) : nat := length (q_buf q).
(** Line 179. *)
Definition q_size (q : queue) : nat := q_pushes q - q_pops q.

(** Lines 59-62. *)
Definition q_close (q : queue) : queue := mkQueue (q_buf q) (q_pushes q) (q_pops q) true (q_last q).

(** Lines 66-81. [None]: waiting. *)
Definition q_push (q : queue) (x : A) : option (bool * queue) :=
  if q_closed q || q_last q || (q_size q <? q_cap q)%nat then
    if q_closed q || q_last q then Some (false, q)
    else Some (true, mkQueue (<[(q_pushes q mod q_cap q)%nat := Some x]> (q_buf q)) (S (q_pushes q)) (q_pops q)
                       (q_closed q) (q_last q))
  else None.

(** The element at the front is moved out. *)
Definition q_take (q : queue) : option A * queue :=
  let i := (q_pops q mod q_cap q)%nat in
  (mjoin (q_buf q !! i), mkQueue (<[i := None]> (q_buf q)) (q_pushes q) (S (q_pops q)) (q_closed q) (q_last q)).
Definition q_close_if_drained (q : queue) : queue :=
  if (q_pushes q =? q_pops q)%nat && q_last q then q_close q else q.

(** Lines 162-175.  The value is [None] for the result false, [Some None] for a
    moved-from value. *)
Definition q_pop (q : queue) : option (option (option A) * queue) :=
  if q_closed q || (q_pops q <? q_pushes q)%nat then
    if q_closed q then Some (None, q)
    else let '(x, q) := q_take q in Some (Some x, q_close_if_drained q)
  else None.

Fixpoint q_take_n (n : nat) (q : queue) : list (option A) * queue :=
  match n with
  | O => ([], q)
  | S n => let '(x, q) := q_take q in let '(l, q) := q_take_n n q in (x :: l, q)
  end.

Inductive pop_status := PopOk | PopInvalid | PopDeadline | PopCancelled | PopExhausted.

(** Lines 93-136.  [timeout]: the deadline has passed.  The comparison in line 95
    is between an int and a size_t: a negative number is a large one. *)
Definition q_pop_batch (q : queue) (b : Z) (timeout : bool) : option (pop_status * list (option A) * queue) :=
  if (b <? 0) || (Z.of_nat (q_cap q) <? b) then Some (PopInvalid, [], q)
  else
    let n := Z.to_nat b in
    let trigger := q_closed q || (n <=? q_size q)%nat || q_last q in
    if negb trigger then (if timeout then Some (PopDeadline, [], q) else None)
    else if q_closed q then Some (PopCancelled, [], q)
    else if q_last q then Some (PopExhausted, [], q)
    else let '(l, q) := q_take_n n q in Some (PopOk, l, q_close_if_drained q).

(** Lines 143-149. *)
Definition q_set_last (q : queue) : queue :=
  let q := mkQueue (q_buf q) (q_pushes q) (q_pops q) (q_closed q) true in
  if (q_pushes q =? q_pops q)%nat then q_close q else q.

Inductive qop := QPush (x : A) | QPop | QPopBatch (b : Z) (timeout : bool) | QSetLast | QClose.
Inductive qres := QBool (b : bool) | QItem (x : option A) | QNone | QBatch (s : pop_status) (l : list (option A)) | QVoid | QWait.

Definition q_step (q : queue) (o : qop) : qres * queue :=
  match o with
  | QPush x => match q_push q x with Some (b, q') => (QBool b, q') | None => (QWait, q) end
  | QPop => match q_pop q with
            | Some (Some x, q') => (QItem x, q') | Some (None, q') => (QNone, q') | None => (QWait, q)
            end
  | QPopBatch b to => match q_pop_batch q b to with Some (s, l, q') => (QBatch s l, q') | None => (QWait, q) end
  | QSetLast => (QVoid, q_set_last q)
  | QClose => (QVoid, q_close q)
  end.
Fixpoint q_run (q : queue) (os : list qop) : list qres * queue :=
  match os with
  | [] => ([], q)
  | o :: os => let '(r, q) := q_step q o in let '(rs, q) := q_run q os in (r :: rs, q)
  end.

End Queue.
Arguments queue : clear implicits.
Arguments qop : clear implicits.
Arguments qres : clear implicits.
