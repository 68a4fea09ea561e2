(** Model of the (legacy) Writer, reverb/cc/writer.cc.

    Two threads act on it: the user (no method is thread safe, writer.h:46, so there
    is one call at a time) and, if max_in_flight_items is set, the worker that reads
    the confirmations.  A call is cut into actions at every operation on the stream
    and at every wait for the worker; the worker's actions happen in between. *)
From Verif Require Import Base Trajectory Tensor TrajUtil ChunkerOptions Sample Stream Reactor Chunker TrajWriter.
Local Open Scope Z_scope.

(** The tensors of one timestep. *)
Notation step := (list tensor).

(** The parameters of the constructor, writer.h:52-55.  A table without entry in the
    map has no known signature; [None] in it: the table has no signature. *)
Record lconf := mkLconf {
  p_len : nat; p_max : nat; p_delta : bool; p_sigs : option (gmap Z (option (list tspec))); p_flight : option Z }.
(** What reverb/client.py:321-336 checks; the constructor checks nothing. *)
Definition conf_ok (p : lconf) : Prop :=
  (1 <= p_len p)%nat /\ (p_len p <= p_max p)%nat /\ match p_flight p with Some n => 1 <= n | None => True end.

(** ChunkData with its sequence range.  Ghost: [lc_rows], the steps in it. *)
Record lchunk := mkLchunk { lc_key : Z; lc_data : chunk_data; lc_start : Z; lc_end : Z; lc_rows : list step }.
Definition lc_wire (c : lchunk) : kchunk := mkKchunk (lc_key c) (lc_data c).
(** PrioritizedItem. *)
Record litem := mkLitem { li_key : Z; li_table : Z; li_prio : dbl; li_traj : list (list slice) }.
(** Ghost: an item that CreateItem has built, the argument num_timesteps, the steps
    appended before, and the number of steps in chunks_ and buffer_. *)
Record lmade := mkLmade { lm_item : litem; lm_n : Z; lm_hist : list step; lm_held : nat }.

(** Where the user is.  The calls: [CAppend old], with the entry of the ring buffer
    that was overwritten; [CCreate key]; [CFlush]; [CClose retry].
    [PScan rest req keep]: line 493, with the chunks of the request and
    keep_chunk_keys; [PItem]: line 512; [PWrite]: line 517; [PDone]: line 454;
    [PStop]: line 455; [PFinish]: line 456; [PWait]: line 285; [PCloseWait]: line 374;
    [PCloseStop]: line 376; [PCloseFinish]: line 380. *)
Inductive lcall := CAppend (old : option (list (dty * list nat))) | CCreate (key : Z) | CFlush | CClose (retry : bool).
Inductive lphase :=
| PScan (rest : list lchunk) (req : list kchunk) (keep : list Z)
| PItem (req : list kchunk) (keep : list Z)
| PWrite (req : list kchunk) (keep : list Z)
| PDone | PStop | PFinish | PWait | PCloseWait | PCloseStop | PCloseFinish.
Inductive lpos := LIdle | LRun (c : lcall) (p : lphase).

(** The members of Writer.  [l_stream]: stream_ is not null; [l_half]: WritesDone has
    been called on it.  Ghost fields: [l_wire], the messages that reached the server
    over the current stream; [l_sent], all chunks that ever reached it; [l_now], the
    number of items written to the current stream; [l_acks], the number of
    confirmations read from it; [l_written], [l_confirmed], the keys of all items
    written and confirmed; [l_rejected], the keys of the items whose CreateItem
    returned an error; [l_hist], the steps whose Append has returned OK or is
    running; [l_made]; [l_place], for the key of a chunk the number of its first step
    and of its steps; [l_keys], the generated chunk keys; [l_failed], whether Append,
    Flush or Close has failed in writing a new chunk or its items. *)
Record lw := mkLw {
  l_chunks : list lchunk; l_buffer : list step; l_pending : list litem; l_streamed : gset Z; l_next : Z; l_index : Z;
  l_closed : bool; l_ring : list (option (list (dty * list nat))); l_loc : nat; l_stream : bool; l_half : bool;
  l_flight : Z; l_running : bool; l_pos : lpos; l_wire : list ireq; l_sent : list kchunk; l_now : nat; l_acks : nat;
  l_written : list Z; l_confirmed : gset Z; l_rejected : list Z; l_hist : list step; l_made : list lmade;
  l_place : gmap Z (nat * nat); l_keys : list Z; l_failed : bool }.
Definition ls_running (w : lw) (x : bool) : lw :=
  mkLw (l_chunks w) (l_buffer w) (l_pending w) (l_streamed w) (l_next w) (l_index w) (l_closed w) (l_ring w) (l_loc w) (l_stream w) (l_half w) (l_flight w) x (l_pos w) (l_wire w) (l_sent w) (l_now w) (l_acks w) (l_written w) (l_confirmed w) (l_rejected w) (l_hist w) (l_made w) (l_place w) (l_keys w) (l_failed w).
Definition ls_pos (w : lw) (x : lpos) : lw :=
  mkLw (l_chunks w) (l_buffer w) (l_pending w) (l_streamed w) (l_next w) (l_index w) (l_closed w) (l_ring w) (l_loc w) (l_stream w) (l_half w) (l_flight w) (l_running w) x (l_wire w) (l_sent w) (l_now w) (l_acks w) (l_written w) (l_confirmed w) (l_rejected w) (l_hist w) (l_made w) (l_place w) (l_keys w) (l_failed w).
Definition ls_open (w : lw) (x_streamed : gset Z) (x_stream : bool) (x_half : bool) (x_running : bool) (x_wire : list ireq) (x_now : nat) (x_acks : nat) (x_pos : lpos) : lw :=
  mkLw (l_chunks w) (l_buffer w) (l_pending w) x_streamed (l_next w) (l_index w) (l_closed w) (l_ring w) (l_loc w) x_stream x_half (l_flight w) x_running x_pos x_wire (l_sent w) x_now x_acks (l_written w) (l_confirmed w) (l_rejected w) (l_hist w) (l_made w) (l_place w) (l_keys w) (l_failed w).
Definition ls_shut (w : lw) (x_stream : bool) (x_half : bool) (x_wire : list ireq) (x_now : nat) (x_acks : nat) : lw :=
  mkLw (l_chunks w) (l_buffer w) (l_pending w) (l_streamed w) (l_next w) (l_index w) (l_closed w) (l_ring w) (l_loc w) x_stream x_half (l_flight w) (l_running w) (l_pos w) x_wire (l_sent w) x_now x_acks (l_written w) (l_confirmed w) (l_rejected w) (l_hist w) (l_made w) (l_place w) (l_keys w) (l_failed w).
Definition ls_deliver (w : lw) (x_wire : list ireq) (x_sent : list kchunk) : lw :=
  mkLw (l_chunks w) (l_buffer w) (l_pending w) (l_streamed w) (l_next w) (l_index w) (l_closed w) (l_ring w) (l_loc w) (l_stream w) (l_half w) (l_flight w) (l_running w) (l_pos w) x_wire x_sent (l_now w) (l_acks w) (l_written w) (l_confirmed w) (l_rejected w) (l_hist w) (l_made w) (l_place w) (l_keys w) (l_failed w).
Definition ls_undo (w : lw) (x_buffer : list step) (x_ring : list (option (list (dty * list nat)))) (x_loc : nat) (x_hist : list step) (x_pos : lpos) : lw :=
  mkLw (l_chunks w) x_buffer (l_pending w) (l_streamed w) (l_next w) (l_index w) (l_closed w) x_ring x_loc (l_stream w) (l_half w) (l_flight w) (l_running w) x_pos (l_wire w) (l_sent w) (l_now w) (l_acks w) (l_written w) (l_confirmed w) (l_rejected w) x_hist (l_made w) (l_place w) (l_keys w) (l_failed w).
Definition ls_reject (w : lw) (x_pending : list litem) (x_rejected : list Z) (x_pos : lpos) : lw :=
  mkLw (l_chunks w) (l_buffer w) x_pending (l_streamed w) (l_next w) (l_index w) (l_closed w) (l_ring w) (l_loc w) (l_stream w) (l_half w) (l_flight w) (l_running w) x_pos (l_wire w) (l_sent w) (l_now w) (l_acks w) (l_written w) (l_confirmed w) x_rejected (l_hist w) (l_made w) (l_place w) (l_keys w) (l_failed w).
Definition ls_advance (w : lw) (x_index : Z) (x_buffer : list step) (x_next : Z) (x_streamed : gset Z) (x_chunks : list lchunk) (x_keys : list Z) : lw :=
  mkLw x_chunks x_buffer (l_pending w) x_streamed x_next x_index (l_closed w) (l_ring w) (l_loc w) (l_stream w) (l_half w) (l_flight w) (l_running w) (l_pos w) (l_wire w) (l_sent w) (l_now w) (l_acks w) (l_written w) (l_confirmed w) (l_rejected w) (l_hist w) (l_made w) (l_place w) x_keys (l_failed w).
Definition ls_fail (w : lw) (x_chunks : list lchunk) (x_failed : bool) : lw :=
  mkLw x_chunks (l_buffer w) (l_pending w) (l_streamed w) (l_next w) (l_index w) (l_closed w) (l_ring w) (l_loc w) (l_stream w) (l_half w) (l_flight w) (l_running w) (l_pos w) (l_wire w) (l_sent w) (l_now w) (l_acks w) (l_written w) (l_confirmed w) (l_rejected w) (l_hist w) (l_made w) (l_place w) (l_keys w) x_failed.
Definition ls_item (w : lw) (x_pending : list litem) (x_streamed : gset Z) (x_written : list Z) (x_now : nat) (x_flight : Z) (x_pos : lpos) : lw :=
  mkLw (l_chunks w) (l_buffer w) x_pending x_streamed (l_next w) (l_index w) (l_closed w) (l_ring w) (l_loc w) (l_stream w) (l_half w) x_flight (l_running w) x_pos (l_wire w) (l_sent w) x_now (l_acks w) x_written (l_confirmed w) (l_rejected w) (l_hist w) (l_made w) (l_place w) (l_keys w) (l_failed w).
Definition ls_mark (w : lw) (x_streamed : gset Z) (x_pos : lpos) : lw :=
  mkLw (l_chunks w) (l_buffer w) (l_pending w) x_streamed (l_next w) (l_index w) (l_closed w) (l_ring w) (l_loc w) (l_stream w) (l_half w) (l_flight w) (l_running w) x_pos (l_wire w) (l_sent w) (l_now w) (l_acks w) (l_written w) (l_confirmed w) (l_rejected w) (l_hist w) (l_made w) (l_place w) (l_keys w) (l_failed w).
Definition ls_stop (w : lw) (x_running : bool) (x_flight : Z) : lw :=
  mkLw (l_chunks w) (l_buffer w) (l_pending w) (l_streamed w) (l_next w) (l_index w) (l_closed w) (l_ring w) (l_loc w) (l_stream w) (l_half w) x_flight x_running (l_pos w) (l_wire w) (l_sent w) (l_now w) (l_acks w) (l_written w) (l_confirmed w) (l_rejected w) (l_hist w) (l_made w) (l_place w) (l_keys w) (l_failed w).
Definition ls_chunk (w : lw) (x_chunks : list lchunk) (x_place : gmap Z (nat * nat)) : lw :=
  mkLw x_chunks (l_buffer w) (l_pending w) (l_streamed w) (l_next w) (l_index w) (l_closed w) (l_ring w) (l_loc w) (l_stream w) (l_half w) (l_flight w) (l_running w) (l_pos w) (l_wire w) (l_sent w) (l_now w) (l_acks w) (l_written w) (l_confirmed w) (l_rejected w) (l_hist w) (l_made w) x_place (l_keys w) (l_failed w).
Definition ls_append (w : lw) (x_buffer : list step) (x_ring : list (option (list (dty * list nat)))) (x_loc : nat) (x_hist : list step) : lw :=
  mkLw (l_chunks w) x_buffer (l_pending w) (l_streamed w) (l_next w) (l_index w) (l_closed w) x_ring x_loc (l_stream w) (l_half w) (l_flight w) (l_running w) (l_pos w) (l_wire w) (l_sent w) (l_now w) (l_acks w) (l_written w) (l_confirmed w) (l_rejected w) x_hist (l_made w) (l_place w) (l_keys w) (l_failed w).
Definition ls_create (w : lw) (x_pending : list litem) (x_made : list lmade) : lw :=
  mkLw (l_chunks w) (l_buffer w) x_pending (l_streamed w) (l_next w) (l_index w) (l_closed w) (l_ring w) (l_loc w) (l_stream w) (l_half w) (l_flight w) (l_running w) (l_pos w) (l_wire w) (l_sent w) (l_now w) (l_acks w) (l_written w) (l_confirmed w) (l_rejected w) (l_hist w) x_made (l_place w) (l_keys w) (l_failed w).
Definition ls_conf (w : lw) (x_flight : Z) (x_acks : nat) (x_confirmed : gset Z) : lw :=
  mkLw (l_chunks w) (l_buffer w) (l_pending w) (l_streamed w) (l_next w) (l_index w) (l_closed w) (l_ring w) (l_loc w) (l_stream w) (l_half w) x_flight (l_running w) (l_pos w) (l_wire w) (l_sent w) (l_now w) x_acks (l_written w) x_confirmed (l_rejected w) (l_hist w) (l_made w) (l_place w) (l_keys w) (l_failed w).
Definition ls_end (w : lw) (x_chunks : list lchunk) (x_closed : bool) (x_pos : lpos) : lw :=
  mkLw x_chunks (l_buffer w) (l_pending w) (l_streamed w) (l_next w) (l_index w) x_closed (l_ring w) (l_loc w) (l_stream w) (l_half w) (l_flight w) (l_running w) x_pos (l_wire w) (l_sent w) (l_now w) (l_acks w) (l_written w) (l_confirmed w) (l_rejected w) (l_hist w) (l_made w) (l_place w) (l_keys w) (l_failed w).
Definition ls_halt (w : lw) (x_half : bool) (x_pos : lpos) : lw :=
  mkLw (l_chunks w) (l_buffer w) (l_pending w) (l_streamed w) (l_next w) (l_index w) (l_closed w) (l_ring w) (l_loc w) (l_stream w) x_half (l_flight w) (l_running w) x_pos (l_wire w) (l_sent w) (l_now w) (l_acks w) (l_written w) (l_confirmed w) (l_rejected w) (l_hist w) (l_made w) (l_place w) (l_keys w) (l_failed w).

Inductive lres := LBlocked | LCrash | LNext (w : lw) (ret : option status).

(** Lines 60-76. *)
Definition lw_new (p : lconf) (key : Z) : lw :=
  mkLw [] [] [] ∅ key 0 false (replicate (p_max p) None) 0 false false 0 false LIdle
       [] [] 0 0 [] ∅ [] [] [] ∅ [key] false.

(** ** Writing: lines 451-534 *)

(** Lines 482-486, on the trajectories of the pending items. *)
Definition item_keys (w : lw) : list Z := concat ((fun it => get_chunk_keys (li_traj it)) <$> l_pending w).

(** Lines 477-481 with 334-353, and the beginning of the loop at line 493.  A check
    fails if items are in flight or the worker is running. *)
Definition write_begin (p : lconf) (w : lw) (c : lcall) : lres :=
  if l_stream w then LNext (ls_pos w (LRun c (PScan (l_chunks w) [] []))) None
  else match p_flight p with
       | Some _ =>
         if negb (l_flight w =? 0) || l_running w then LCrash
         else LNext (ls_open w ∅ true false true [] 0 0 (LRun c (PScan (l_chunks w) [] []))) None
       | None => LNext (ls_open w ∅ true false (l_running w) [] 0 0 (LRun c (PScan (l_chunks w) [] []))) None
       end.

(** A write to the stream (see TrajWriter.v). *)
Definition lsend (w : lw) (m : ireq) (o : wout) : lw :=
  if delivered o then ls_deliver w (l_wire w ++ [m]) (l_sent w ++ ir_chunks m) else w.

(** Lines 435-444: the chunks that are too old. *)
Fixpoint trim_front (n m : nat) (cs : list lchunk) : list lchunk :=
  match cs with
  | [] => []
  | c :: cs' => if decide (m <= length cs' * n)%nat then trim_front n m cs' else c :: cs'
  end.
Definition dropped (cs cs' : list lchunk) : list Z := lc_key <$> take (length cs - length cs') cs.

(** PositiveModulo, lines 50-54. *)
Definition ring_back (p : lconf) (loc t : nat) : nat := Z.to_nat ((Z.of_nat loc - 1 - Z.of_nat t) mod Z.of_nat (p_max p)).

(** What the callers of WriteWithRetries and of Finish do with an error that is not
    followed by a new attempt: lines 111-116, 270, 283, 360-369.  The chunk, if it
    was added to chunks_, has been removed.  Line 357: only Close goes on, when the
    server is unavailable and it does not retry. *)
Definition close_begin (w : lw) (retry : bool) : lres :=
  if l_stream w then
    if l_half w then LCrash
    else LNext (ls_halt w true (LRun (CClose retry) PCloseWait)) None
  else LNext (ls_end w [] true LIdle) (Some Ok).
Definition call_failed (p : lconf) (w : lw) (c : lcall) (st : status) : lres :=
  match c with
  | CAppend old =>
    let loc := ring_back p (l_loc w) 0 in
    LNext (ls_undo w (removelast (l_buffer w)) (<[loc := old]> (l_ring w)) loc (removelast (l_hist w)) LIdle) (Some st)
  | CCreate key => LNext (ls_reject w (removelast (l_pending w)) (l_rejected w ++ [key]) LIdle) (Some st)
  | CFlush => LNext (ls_pos w LIdle) (Some st)
  | CClose retry =>
    if negb (bool_decide (st = Unavailable)) || retry then LNext (ls_pos w LIdle) (Some st)
    else close_begin w retry
  end.

(** The end of WriteWithRetries: line 453 or 459; then 436-447.  [nk]: the key that
    NewID makes. *)
Definition write_end (p : lconf) (w : lw) (c : lcall) (st : status) (nk : Z) : lres :=
  match c with
  | CCreate _ =>
    if bool_decide (st = Ok) then LNext (ls_pos w LIdle) (Some Ok) else call_failed p w c st
  | _ =>
    if bool_decide (st = Ok) then
      let cs := trim_front (p_len p) (p_max p) (l_chunks w) in
      let w := ls_advance w (l_index w + Z.of_nat (length (l_buffer w))) [] nk
                 (l_streamed w ∖ list_to_set (dropped (l_chunks w) cs)) cs (nk :: l_keys w) in
      match c with
      | CClose retry => close_begin w retry
      | _ => LNext (ls_pos w LIdle) (Some Ok)
      end
    else call_failed p (ls_fail w (removelast (l_chunks w)) true) c st
  end.

(** Lines 540-547: [None] while ConfirmItems waits. *)
Definition confirm_items (w : lw) (limit : Z) : option bool :=
  if (l_flight w <=? limit) || negb (l_running w) then Some (l_flight w <=? limit) else None.

(** A method of a stream is called after WritesDone: misuse of gRPC, like a failed
    check. *)
Definition chunk_scan (w : lw) (c : lcall) (ch : lchunk) (rest : list lchunk) (req : list kchunk) (keep : list Z) (big : bool) (o : wout) : lres :=
  if bool_decide (lc_key ch ∈ item_keys w) && negb (bool_decide (lc_key ch ∈ l_streamed w)) then
    let req := req ++ [lc_wire ch] in
    let keep := keep ++ [lc_key ch] in
    if big then
      if l_half w then LCrash else
      let w := lsend w (mkIreq req None) o in
      if write_ok o then LNext (ls_mark w (l_streamed w ∪ list_to_set (kc_key <$> req)) (LRun c (PScan rest [] keep))) None
      else LNext (ls_pos w (LRun c PDone)) None
    else LNext (ls_pos w (LRun c (PScan rest req keep))) None
  else LNext (ls_pos w (LRun c (PScan rest req (if bool_decide (lc_key ch ∈ l_streamed w) then keep ++ [lc_key ch] else keep)))) None.

Definition litem_message (p : lconf) (it : litem) (req : list kchunk) (keep : list Z) : ireq :=
  mkIreq req (Some (mkIitem (li_key it) (li_table it) (li_traj it) keep (match p_flight p with Some _ => true | None => false end))).

(** Lines 517-531, as one action: whether the worker reads the confirmation before or
    after line 530 makes no difference to anybody. *)
Definition item_write (p : lconf) (w : lw) (c : lcall) (req : list kchunk) (keep : list Z) (o : wout) : lres :=
  match l_pending w with
  | [] => LCrash
  | it :: rest =>
    if l_half w then LCrash else
    let w := lsend w (litem_message p it req keep) o in
    if write_ok o then
      LNext (ls_item w rest (l_streamed w ∪ list_to_set (kc_key <$> req)) (l_written w ++ [li_key it]) (S (l_now w))
               (match p_flight p with Some _ => l_flight w + 1 | None => l_flight w end) (LRun c (PItem req keep))) None
    else LNext (ls_pos w (LRun c PDone)) None
  end.

(** Lines 311-331: the worker has stopped.  (Confirmations that it still reads while
    it is being stopped count as read before.) *)
Definition stop_worker (p : lconf) (w : lw) : status * lw :=
  match p_flight p with
  | None => (Ok, w)
  | Some _ => if 0 <? l_flight w then (DataLoss, ls_stop w false (l_flight w)) else (Ok, ls_stop w false 0)
  end.

(** One action of a call that is running.  [big]: the message has reached the cutoff;
    [o]: the outcome of a write; [nk]: a new key. *)
Definition call_step (p : lconf) (w : lw) (c : lcall) (ph : lphase) (big : bool) (o : wout) (nk : Z) : lres :=
  match ph with
  | PScan [] req keep => LNext (ls_pos w (LRun c (PItem req keep))) None
  | PScan (ch :: rest) req keep => chunk_scan w c ch rest req keep big o
  | PItem req keep =>
    match l_pending w with
    | [] => write_end p w c Ok nk
    | _ =>
      match p_flight p with
      | None => LNext (ls_pos w (LRun c (PWrite req keep))) None
      | Some n =>
        match confirm_items w (n - 1) with
        | None => LBlocked
        | Some true => LNext (ls_pos w (LRun c (PWrite req keep))) None
        | Some false => LNext (ls_pos w (LRun c PDone)) None
        end
      end
    end
  | PWrite req keep => item_write p w c req keep o
  | PDone => if l_half w then LCrash else LNext (ls_halt w true (LRun c PStop)) None
  | PStop =>
    let '(st, w) := stop_worker p w in
    if bool_decide (st = Ok) then LNext (ls_pos w (LRun c PFinish)) None
    else write_end p w c st nk
  | PWait =>
    match confirm_items w 0 with
    | None => LBlocked
    | Some b => LNext (ls_pos w LIdle) (Some (if b then Ok else Internal))
    end
  | PCloseWait => match confirm_items w 0 with None => LBlocked | Some _ => LNext (ls_pos w (LRun c PCloseStop)) None end
  | PCloseStop => let '(_, w) := stop_worker p w in LNext (ls_pos w (LRun c PCloseFinish)) None
  | PFinish | PCloseFinish => LBlocked
  end.

(** stream_->Finish() returns [st]: lines 456-460 and 380-388. *)
Definition retries (c : lcall) : bool := match c with CClose retry => retry | _ => true end.
Definition stream_finish (p : lconf) (w : lw) (st : status) (nk : Z) : lres :=
  match l_pos w with
  | LRun c PFinish =>
    let w := ls_shut w false false [] 0 0 in
    if bool_decide (st = Unavailable) && retries c then write_begin p w c else write_end p w c st nk
  | LRun _ PCloseFinish =>
    let w := ls_shut w false false [] 0 0 in
    LNext (ls_end w [] true LIdle) (Some Ok)
  | _ => LBlocked
  end.

(** ** Finish up to line 433 *)

(** Lines 394-415, column [i]: [None]: access outside of a vector; [Some None]:
    InvalidArgument. *)
Definition batch_column (rows : list step) (i : nat) : option (option tensor) :=
  ts ← mapM (fun s : step => s !! i) rows;
  Some (match ts with
        | [] => None
        | t :: _ => if forallb (fun u => bool_decide (t_shape u = t_shape t)) ts then tf_concat (batched <$> ts) else None
        end).
Fixpoint batch_columns (rows : list step) (i n : nat) : option (option (list tensor)) :=
  match n with
  | O => Some (Some [])
  | S n =>
    t ← batch_column rows i;
    match t with
    | None => Some None
    | Some t => ts ← batch_columns rows (S i) n; Some (option_map (cons t) ts)
    end
  end.
(** With lines 424-432. *)
Definition build_chunk (delta : bool) (rows : list step) : option (option chunk_data) :=
  match rows with
  | [] => None
  | r :: _ =>
    ts ← batch_columns rows 0 (length r);
    match ts with
    | None => Some None
    | Some ts => ts ← (if delta then delta_encode_list ts true else Some ts); Some (Some (mkChunkData ts delta))
    end
  end.
Definition finish_begin (p : lconf) (w : lw) (c : lcall) : lres :=
  match build_chunk (p_delta p) (l_buffer w) with
  | None => LCrash
  | Some None => call_failed p w c InvalidArgument
  | Some (Some d) =>
    let n := length (l_buffer w) in
    let ch := mkLchunk (l_next w) d (l_index w) (l_index w + Z.of_nat n - 1) (l_buffer w) in
    write_begin p (ls_chunk w (l_chunks w ++ [ch]) (<[l_next w := (length (l_hist w) - n, n)%nat]> (l_place w))) c
  end.

(** ** The calls *)

(** Lines 81-118. *)
Definition step_sig (s : step) : list (dty * list nat) := (fun t => (t_ty t, t_shape t)) <$> s.
Definition append (p : lconf) (w : lw) (data : step) : lres :=
  if l_closed w then LNext w (Some FailedPrecondition)
  else if match l_buffer w with [] => false | s :: _ => negb (length s =? length data)%nat end then LNext w (Some InvalidArgument)
  else
    match l_ring w !! l_loc w with
    | None => LCrash
    | Some old =>
      let w := ls_append w (l_buffer w ++ [data]) (<[l_loc w := Some (step_sig data)]> (l_ring w)) ((l_loc w + 1) mod p_max p)%nat (l_hist w ++ [data]) in
      if (length (l_buffer w) <? p_len p)%nat then LNext w (Some Ok) else finish_begin p w (CAppend old)
    end.

(** Lines 168-221: the signature [sig] against the last [n] steps.  [None]: an access
    outside of the ring buffer. *)
Definition sig_fits (sig : list tspec) (got : list (dty * list nat)) : bool :=
  (length got =? length sig)%nat &&
  forallb (fun x => bool_decide (x.2.1 = sp_ty x.1) && shape_compatible (sp_shape x.1) x.2.2) (combine sig got).
Fixpoint check_steps (p : lconf) (w : lw) (sig : list tspec) (t n : nat) : option status :=
  match n with
  | O => Some Ok
  | S n =>
    e ← l_ring w !! ring_back p (l_loc w) t;
    match e with
    | None => Some Internal
    | Some got => if sig_fits sig got then check_steps p w sig (S t) n else Some InvalidArgument
    end
  end.
(** With GetFlatSignature, lines 549-573. *)
Definition check_signature (p : lconf) (w : lw) (table : Z) (n : nat) : option status :=
  match p_sigs p with
  | None => Some Ok
  | Some m =>
    match m !! table with
    | None => Some InvalidArgument
    | Some None => Some Ok
    | Some (Some sig) => check_steps p w sig 0 n
    end
  end.

(** Lines 237-251: keys and lengths, in the order of the code before they are
    reversed, and what remains. *)
Fixpoint gather (cs : list lchunk) (remaining : Z) : list (Z * Z) * Z :=
  match cs with
  | [] => ([], remaining)
  | c :: cs =>
    if 0 <? remaining then
      let len := lc_end c - lc_start c + 1 in
      let '(l, r) := gather cs (remaining - len) in ((lc_key c, len) :: l, r)
    else ([], remaining)
  end.
Definition item_chunks (w : lw) (n : Z) : list (Z * Z) * Z :=
  let '(l, r) :=
    match l_buffer w with
    | [] => gather (reverse (l_chunks w)) n
    | b => let '(l, r) := gather (reverse (l_chunks w)) (n - Z.of_nat (length b)) in ((l_next w, Z.of_nat (length b)) :: l, r)
    end in (reverse l, r).
Definition num_columns (w : lw) : option nat :=
  match l_buffer w with
  | [] => c ← head (l_chunks w); Some (length (cd_tensors (lc_data c)))
  | s :: _ => Some (length s)
  end.

(** The number of steps in chunks_ and buffer_ (ghost). *)
Definition steps_held (w : lw) : nat := (length (concat (lc_rows <$> l_chunks w)) + length (l_buffer w))%nat.

(** Lines 153-274.  Line 159 compares unsigned numbers, so a negative argument is
    rejected. *)
Definition lw_create (p : lconf) (w : lw) (table : Z) (n : Z) (prio : dbl) (key : Z) : lres :=
  if l_closed w then LNext w (Some FailedPrecondition)
  else if (n <? 0) || (Z.of_nat (length (l_chunks w) * p_len p + length (l_buffer w)) <? n) then LNext w (Some InvalidArgument)
  else if Z.of_nat (p_max p) <? n then LNext w (Some InvalidArgument)
  else match check_signature p w table (Z.to_nat n) with
       | None => LCrash
       | Some st =>
         if negb (bool_decide (st = Ok)) then LNext w (Some st)
         else match (cols ← num_columns w;
                     let '(cs, remaining) := item_chunks w n in
                     flat_timestep_trajectory cs cols (- remaining) n) with
              | None => LCrash
              | Some tr =>
                let it := mkLitem key table prio tr in
                let w := ls_create w (l_pending w ++ [it]) (l_made w ++ [mkLmade it n (l_hist w) (steps_held w)]) in
                match l_buffer w with
                | [] => write_begin p w (CCreate key)
                | _ => LNext w (Some Ok)
                end
              end
       end.

(** Lines 276-290. *)
Definition lw_flush (p : lconf) (w : lw) : lres :=
  if l_closed w then LNext w (Some FailedPrecondition)
  else match l_pending w with
       | [] => LNext (ls_pos w (LRun CFlush PWait)) None
       | _ => finish_begin p w CFlush
       end.

(** Lines 355-390. *)
Definition lw_close (p : lconf) (w : lw) (retry : bool) : lres :=
  if l_closed w then LNext w (Some FailedPrecondition)
  else match l_pending w with
       | [] => close_begin w retry
       | _ => finish_begin p w (CClose retry)
       end.

(** ** The actions *)

(** [LAppend] ... [LClose]: the user calls a method (AppendSequence,
    a loop of Append, is in AppendSeq.v); [LStep]: the call that is running goes on; [LFinish]: the same, for
    stream_->Finish(); [LConf n]: the worker reads a response with [n] keys, lines
    575-604; the server confirms the items in the order in which it got them, as both
    services do (C45).  [LDead]: the worker's Read fails. *)
Inductive lev :=
| LAppend (data : step)
| LCreate (table n : Z) (prio : dbl) (key : Z)
| LFlush
| LClose (retry : bool)
| LStep (big : bool) (o : wout) (nk : Z)
| LFinish (st : status) (nk : Z)
| LConf (n : nat)
| LDead.

Definition idle (w : lw) (r : lres) : lres := match l_pos w with LIdle => r | _ => LBlocked end.
Definition lw_step (p : lconf) (w : lw) (e : lev) : lres :=
  match e with
  | LAppend data => idle w (append p w data)
  | LCreate table n prio key => idle w (lw_create p w table n prio key)
  | LFlush => idle w (lw_flush p w)
  | LClose retry => idle w (lw_close p w retry)
  | LStep big o nk => match l_pos w with LRun c ph => call_step p w c ph big o nk | LIdle => LBlocked end
  | LFinish st nk => stream_finish p w st nk
  | LConf n =>
    if l_running w && (0 <? l_flight w) && (0 <? n)%nat && (l_acks w + n <=? length (confirmable (l_wire w)))%nat then
      LNext (ls_conf w (l_flight w - Z.of_nat n) (l_acks w + n)%nat
               (l_confirmed w ∪ list_to_set (take n (drop (l_acks w) (confirmable (l_wire w)))))) None
    else LBlocked
  | LDead => if l_running w && (0 <? l_flight w) then LNext (ls_running w false) None else LBlocked
  end.

(** Generated keys are fresh; tensors are well formed; after a failed write the
    status of the stream is not OK (a service ends a stream with OK only after
    reading all messages, and a write fails only when the stream has ended or the
    connection is broken). *)
Definition lw_enabled (w : lw) (e : lev) : Prop :=
  match e with
  | LAppend data => Forall tensor_ok data
  | LCreate _ _ _ key => key ∉ ((fun m => li_key (lm_item m)) <$> l_made w)
  | LStep _ _ nk => nk ∉ l_keys w
  | LFinish st nk => nk ∉ l_keys w /\ (forall c, l_pos w = LRun c PFinish -> st <> Ok)
  | _ => True
  end.

Inductive lw_reach (p : lconf) (w0 : lw) : lw -> Prop :=
| lr_init : lw_reach p w0 w0
| lr_step w e w' ret : lw_reach p w0 w -> lw_enabled w e -> lw_step p w e = LNext w' ret -> lw_reach p w0 w'.

Fixpoint lw_run (p : lconf) (w : lw) (es : list lev) : option (lw * list (option status)) :=
  match es with
  | [] => Some (w, [])
  | e :: es => match lw_step p w e with LNext w r => '(w, l) ← lw_run p w es; Some (w, r :: l) | _ => None end
  end.
