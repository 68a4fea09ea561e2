(** The stream reactors of the asynchronous service:
    reverb_server_table_reactor.h and reverb_service_async_impl.cc:166-305 and
    430-659.

    Every callback runs its critical sections (mutex mu_) one after the other, and
    critical sections of different callbacks interleave freely.  gRPC is modelled
    by what it has been asked to do: at most one read, at most one write, one
    Finish; asking for a second read or write while one is outstanding, or for
    anything after Finish, is a misuse of the API and modelled as a crash
    ([None]), like a failed REVERB_CHECK. *)
From Verif Require Import Base Trajectory Tensor TrajUtil Sample Stream.
Local Open Scope Z_scope.

(** ** ReverbServerTableReactor *)

(** Lines 85-116: the fields.  The fields [g_...] record the calls made to gRPC:
    is a read outstanding, the message of the outstanding write as it was when
    StartWrite was called, all messages passed to StartWrite, the status passed to
    Finish ([true] is OK). *)
Record rbase (A : Type) := mkBase {
  b_queue : list A; b_still_reading : bool; b_finished : bool; b_cancelled : bool;
  g_read : bool; g_write : option A; g_sent : list A; g_status : option bool }.
Arguments mkBase {A} _ _ _ _ _ _ _ _.
Arguments b_queue {A} _. Arguments b_still_reading {A} _. Arguments b_finished {A} _. Arguments b_cancelled {A} _.
Arguments g_read {A} _. Arguments g_write {A} _. Arguments g_sent {A} _. Arguments g_status {A} _.

Definition with_queue {A} (b : rbase A) (q : list A) : rbase A :=
  mkBase q (b_still_reading b) (b_finished b) (b_cancelled b) (g_read b) (g_write b) (g_sent b) (g_status b).

Definition start_read {A} (b : rbase A) : option (rbase A) :=
  if g_read b || b_finished b then None
  else Some (mkBase (b_queue b) (b_still_reading b) (b_finished b) (b_cancelled b) true (g_write b) (g_sent b) (g_status b)).
Definition start_write {A} (b : rbase A) (m : A) : option (rbase A) :=
  match g_write b with
  | Some _ => None
  | None =>
    if b_finished b then None
    else Some (mkBase (b_queue b) (b_still_reading b) (b_finished b) (b_cancelled b) (g_read b) (Some m) (g_sent b ++ [m]) (g_status b))
  end.

(** Lines 122-132. *)
Definition maybe_send {A} (b : rbase A) : option (rbase A) :=
  match b_queue b with
  | [] => Some b
  | m :: _ => if b_finished b then Some b else start_write b m
  end.

(** Lines 207-214. *)
Definition maybe_start_read {A} (b : rbase A) : option (rbase A) :=
  if b_still_reading b && negb (b_cancelled b) && negb (b_finished b) then start_read b else Some b.

(** Lines 216-231. *)
Definition set_finished {A} (b : rbase A) (ok : bool) : option (rbase A) :=
  if b_finished b then None
  else if negb (match b_queue b with [] => true | _ => false end) && ok then None
  else Some (mkBase [] (b_still_reading b) true (b_cancelled b) (g_read b) (g_write b) (g_sent b) (Some ok)).

(** Lines 233-237. *)
Definition should_finish {A} (b : rbase A) : bool :=
  (match b_queue b with [] => true | _ => false end) && negb (b_still_reading b) && negb (b_finished b).

(** Lines 134-158 up to the call of ProcessIncomingRequest.  The second component
    tells whether it is called. *)
Definition on_read_done {A} (b : rbase A) (ok : bool) : option (rbase A * bool) :=
  let b := mkBase (b_queue b) (b_still_reading b) (b_finished b) (b_cancelled b) false (g_write b) (g_sent b) (g_status b) in
  if negb ok || b_finished b then
    let b := mkBase (b_queue b) false (b_finished b) (b_cancelled b) (g_read b) (g_write b) (g_sent b) (g_status b) in
    if should_finish b then b ← set_finished b true; Some (b, false) else Some (b, false)
  else Some (b, true).

(** Lines 160-188. *)
Definition on_write_done {A} (b : rbase A) (ok : bool) : option (rbase A) :=
  let b := mkBase (b_queue b) (b_still_reading b) (b_finished b) (b_cancelled b) (g_read b) None (g_sent b) (g_status b) in
  if b_finished b then Some b
  else if negb ok then set_finished b false
  else let b := with_queue b (tail (b_queue b)) in
       if negb (b_still_reading b) && (match b_queue b with [] => true | _ => false end) then set_finished b true
       else maybe_send b.

(** Lines 200-205. *)
Definition on_cancel {A} (b : rbase A) : rbase A :=
  mkBase (b_queue b) false (b_finished b) true (g_read b) (g_write b) (g_sent b) (g_status b).

(** The reactor before its constructor. *)
Definition base_init {A} : rbase A := mkBase [] true false false false None [] None.

(** ** The sample reactor *)

(** reverb_service_async_impl.cc:479-655: the fields of WorkerlessSampleReactor
    and task_info_ (task_worker.h:44-60; before the first request the fields of
    task_info_ are not initialised, and not read).  Ghost fields: [s_ask] the size
    of the sampling request enqueued last, [s_tails] the number of OnWriteDone
    calls that have not yet run their second critical section (lines 529-533),
    [s_mreads] the number of sampling callbacks that have left their critical
    section but not yet called MaybeStartRead (line 516), [s_delivered] all
    samples received from the table, [s_total] the number of samples asked for by
    the accepted requests. *)
Record srx := mkSrx {
  s_base : rbase response; s_cur : Z; s_flex : Z; s_fetched : Z; s_requested : Z; s_waiting : bool;
  s_ask : Z; s_tails : nat; s_mreads : nat; s_delivered : list sampled_item; s_total : Z }.

Definition s_with_base (s : srx) (b : rbase response) : srx :=
  mkSrx b (s_cur s) (s_flex s) (s_fetched s) (s_requested s) (s_waiting s) (s_ask s) (s_tails s) (s_mreads s) (s_delivered s) (s_total s).

(** task_worker.h:56-59. *)
Definition next_sample_size (s : srx) : Z := Z.min (s_flex s) (s_requested s - s_fetched s).

(** Lines 574-591, with kMaxQueuedResponses = 3 (line 477). *)
Definition maybe_start_sampling (s : srx) : srx :=
  if next_sample_size s =? 0 then s
  else if s_waiting s then s
  else if (3 <=? length (b_queue (s_base s)))%nat then s
  else mkSrx (s_base s) (s_cur s) (s_flex s) (s_fetched s) (s_requested s) true (next_sample_size s)
         (s_tails s) (s_mreads s) (s_delivered s) (s_total s).

(** The fields of SampleStreamRequest that matter here. *)
Record sreq := mkSreq { sr_table : Z; sr_num : Z; sr_flex : Z }.

(** Lines 535-571.  [tables] maps the names of the tables to their
    DefaultFlexibleBatchSize(); kAutoSelectValue is -1.  The timeout is left out.
    [None] is an error status. *)
Definition process_sample_request (tables : Z -> option Z) (s : srx) (r : sreq) : option srx :=
  if sr_num r <=? 0 then None
  else if (sr_flex r <=? 0) && negb (sr_flex r =? -1) then None
  else match tables (sr_table r) with
       | None => None
       | Some d =>
         Some (maybe_start_sampling
           (mkSrx (s_base s) (s_cur s) (if sr_flex r =? -1 then d else sr_flex r) 0 (sr_num r) (s_waiting s) (s_ask s)
              (s_tails s) (s_mreads s) (s_delivered s) (s_total s + sr_num r)))
       end.

(** Lines 501-503. *)
Definition process_samples (csize : kchunk -> Z) (limit : Z) (q : list response) (cur : Z) (wif : bool) (l : list sampled_item) : list response * Z :=
  foldl (fun qc x => process_sample csize limit (fst qc) (snd qc) wif x) (q, cur) l.

(** What can happen to the reactor: the outstanding read finishes with a request or
    fails; the outstanding write finishes or fails; the second critical section of
    an OnWriteDone; the table answers the sampling request with an error or with
    samples; the MaybeStartRead after that; the client cancels. *)
Inductive sevent :=
  | SRead (r : option sreq)
  | SWrite (ok : bool)
  | STail
  | SSampled (r : option (list sampled_item))
  | SMaybeRead
  | SCancel.

Definition s_step (tables : Z -> option Z) (csize : kchunk -> Z) (limit : Z) (s : srx) (e : sevent) : option srx :=
  match e with
  | SRead r =>
    '(b, process) ← on_read_done (s_base s) (match r with Some _ => true | None => false end);
    let s := s_with_base s b in
    if (process : bool) then
      match r with
      | None => Some s
      | Some r => match process_sample_request tables s r with
                  | Some s => Some s
                  | None => b ← set_finished b false; Some (s_with_base s b)
                  end
      end
    else Some s
  | SWrite ok =>
    (* lines 529-530 *)
    b ← on_write_done (s_base s) ok;
    Some (mkSrx b (s_cur s) (s_flex s) (s_fetched s) (s_requested s) (s_waiting s) (s_ask s) (S (s_tails s)) (s_mreads s) (s_delivered s) (s_total s))
  | STail =>
    (* lines 531-532 *)
    Some (maybe_start_sampling
      (mkSrx (s_base s) (s_cur s) (s_flex s) (s_fetched s) (s_requested s) (s_waiting s) (s_ask s) (pred (s_tails s)) (s_mreads s) (s_delivered s) (s_total s)))
  | SSampled r =>
    (* lines 488-514 *)
    match r with
    | None =>
      b ← (if b_finished (s_base s) then Some (s_base s) else set_finished (s_base s) false);
      Some (mkSrx b (s_cur s) (s_flex s) (s_fetched s) (s_requested s) false (s_ask s) (s_tails s) (s_mreads s) (s_delivered s) (s_total s))
    | Some l =>
      let already_writing := negb (match b_queue (s_base s) with [] => true | _ => false end) in
      let '(q, cur) := process_samples csize limit (b_queue (s_base s)) (s_cur s) already_writing l in
      let b := with_queue (s_base s) q in
      b ← (if already_writing then Some b else maybe_send b);
      let s := mkSrx b cur (s_flex s) (s_fetched s + Z.of_nat (length l)) (s_requested s) false (s_ask s) (s_tails s) (s_mreads s)
                 (s_delivered s ++ l) (s_total s) in
      if negb (next_sample_size s =? 0) then Some (maybe_start_sampling s)
      else Some (mkSrx (s_base s) (s_cur s) (s_flex s) (s_fetched s) (s_requested s) (s_waiting s) (s_ask s) (s_tails s) (S (s_mreads s))
                   (s_delivered s) (s_total s))
    end
  | SMaybeRead =>
    (* line 516 *)
    b ← maybe_start_read (s_base s);
    Some (mkSrx b (s_cur s) (s_flex s) (s_fetched s) (s_requested s) (s_waiting s) (s_ask s) (s_tails s) (pred (s_mreads s)) (s_delivered s) (s_total s))
  | SCancel => Some (s_with_base s (on_cancel (s_base s)))
  end.

(** Lines 484-520: the constructor. *)
Definition s_init : option srx :=
  b ← maybe_start_read base_init;
  Some (mkSrx b 0 0 0 0 false 0 0 0 [] 0).

(** ** The insert streams *)

(** InsertStreamRequest; [ii_keep] is keep_chunk_keys. *)
Record iitem := mkIitem { ii_key : Z; ii_table : Z; ii_traj : list (list slice); ii_keep : list Z; ii_confirm : bool }.
Record ireq := mkIreq { ir_chunks : list kchunk; ir_item : option iitem }.

(** Lines 249-262 and the same loop at reverb_service_impl.cc:182-197: the chunks
    of the item, [None] if one is missing. *)
Fixpoint find_chunks (chunks : gmap Z chunk_data) (keys : list Z) : option (list kchunk) :=
  match keys with
  | [] => Some []
  | k :: keys => d ← chunks !! k; l ← find_chunks chunks keys; Some (mkKchunk k d :: l)
  end.

(** Lines 266-272. *)
Definition keep_only (chunks : gmap Z chunk_data) (keep : list Z) : gmap Z chunk_data :=
  filter (fun kv => kv.1 ∈ keep) chunks.

(** What a message does before the table gets involved. *)
Inductive ireq_result :=
  | IContinue (chunks : gmap Z chunk_data)
  | IInsert (chunks : gmap Z chunk_data) (it : iitem) (data : list kchunk)
  | IError.

(** Lines 197-216 (with 238-275), asynchronous service.  [None] is a failed
    REVERB_CHECK. *)
Definition async_insert_request (tables : Z -> bool) (chunks : gmap Z chunk_data) (r : ireq) : option ireq_result :=
  match ir_chunks r, ir_item r with
  | [], None => None
  | _, _ =>
    let chunks := foldl (fun m c => match m !! kc_key c with Some _ => m | None => <[kc_key c := kc_data c]> m end) chunks (ir_chunks r) in
    match ir_item r with
    | None => Some (IContinue chunks)
    | Some it =>
      match find_chunks chunks (get_chunk_keys (ii_traj it)) with
      | None => Some IError
      | Some data =>
        let kept := keep_only chunks (ii_keep it) in
        if (size kept =? length (ii_keep it))%nat then
          if tables (ii_table it) then Some (IInsert kept it data) else Some IError
        else None
      end
    end
  end.

(** The insert reactor: chunks_, and ghost fields: [i_conts] the number of
    continue_inserts_ callbacks registered with the table and not yet called,
    [i_inserted] the items handed to the table, [i_confirmed] the keys of those for
    which a confirmation was requested. *)
Record irx := mkIrx {
  i_base : rbase (list Z); i_chunks : gmap Z chunk_data;
  i_conts : nat; i_inserted : list (iitem * list kchunk); i_confirmed : list Z }.

(** Lines 227-237: the queue after the confirmation of [key] has been added. *)
Fixpoint add_key_back (q : list (list Z)) (key : Z) : list (list Z) :=
  match q with
  | [] => []
  | [m] => [m ++ [key]]
  | m :: q => m :: add_key_back q key
  end.
Definition add_confirmation (q : list (list Z)) (key : Z) : list (list Z) :=
  add_key_back (if (length q <? 2)%nat then q ++ [[]] else q) key.

(** [IRead r ins]: the read finishes; [ins] is what InsertOrAssignAsync returns, in
    case it is called: an error, or OK with the value of can_insert.
    [IContinueCb ok]: the table calls continue_inserts_. *)
Inductive ievent :=
  | IRead (r : option ireq) (ins : option bool)
  | IWrite (ok : bool)
  | IContinueCb (ok : bool)
  | ICancel.

Definition i_with_base (s : irx) (b : rbase (list Z)) : irx := mkIrx b (i_chunks s) (i_conts s) (i_inserted s) (i_confirmed s).

Definition i_step (tables : Z -> bool) (s : irx) (e : ievent) : option irx :=
  match e with
  | IRead r ins =>
    '(b, process) ← on_read_done (i_base s) (match r with Some _ => true | None => false end);
    let s := i_with_base s b in
    if (process : bool) then
      match r with
      | None => Some s
      | Some r =>
        (* lines 195-237 *)
        res ← async_insert_request tables (i_chunks s) r;
        match res with
        | IError => b ← set_finished b false; Some (i_with_base s b)
        | IContinue chunks => b ← start_read b; Some (mkIrx b chunks (i_conts s) (i_inserted s) (i_confirmed s))
        | IInsert chunks it data =>
          match ins with
          | None => b ← set_finished b false; Some (mkIrx b chunks (i_conts s) (i_inserted s) (i_confirmed s))
          | Some can_insert =>
            b ← (if can_insert : bool then start_read b else Some b);
            let conts := if can_insert then i_conts s else S (i_conts s) in
            let inserted := i_inserted s ++ [(it, data)] in
            if ii_confirm it then
              let q := add_confirmation (b_queue b) (ii_key it) in
              let b := with_queue b q in
              b ← (if (length q =? 1)%nat then maybe_send b else Some b);
              Some (mkIrx b chunks conts inserted (i_confirmed s ++ [ii_key it]))
            else Some (mkIrx b chunks conts inserted (i_confirmed s))
          end
        end
      end
    else Some s
  | IWrite ok => b ← on_write_done (i_base s) ok; Some (i_with_base s b)
  | IContinueCb ok =>
    (* lines 180-190 *)
    let s := mkIrx (i_base s) (i_chunks s) (pred (i_conts s)) (i_inserted s) (i_confirmed s) in
    if ok : bool then b ← maybe_start_read (i_base s); Some (i_with_base s b)
    else b ← (if b_finished (i_base s) then Some (i_base s) else set_finished (i_base s) false); Some (i_with_base s b)
  | ICancel => Some (i_with_base s (on_cancel (i_base s)))
  end.

(** Lines 175-193: the constructor. *)
Definition i_init : option irx :=
  b ← maybe_start_read base_init; Some (mkIrx b ∅ 0 [] []).

(** reverb_service_impl.cc:168-236: the loop of InsertStreamInternal over the
    messages; the reading thread and its queue of capacity one deliver the messages
    in order (C32).  [ins] is the status of InsertOrAssign for the item,
    [written] tells whether writing the confirmation succeeds; the chunk store is
    open.  A chunk that is already in the store under its key is not replaced
    there (C35); here only the keys matter.  The result: the final status and the
    confirmations written; [None] is the failed REVERB_CHECK_EQ. *)
Fixpoint sync_insert (tables : Z -> bool) (ins : iitem -> bool) (written : iitem -> bool)
    (chunks : gmap Z chunk_data) (rs : list ireq) : option (bool * list Z) :=
  match rs with
  | [] => Some (true, [])
  | r :: rs =>
    let chunks := foldl (fun m c => <[kc_key c := kc_data c]> m) chunks (ir_chunks r) in
    match ir_item r with
    | None => sync_insert tables ins written chunks rs
    | Some it =>
      match find_chunks chunks (get_chunk_keys (ii_traj it)) with
      | None => Some (false, [])
      | Some data =>
        if negb (tables (ii_table it)) then Some (false, [])
        else if negb (ins it) then Some (false, [])
        else if ii_confirm it && negb (written it) then Some (false, [])
        else
          let kept := keep_only chunks (ii_keep it) in
          if (size kept =? size (list_to_set (ii_keep it) : gset Z))%nat then
            '(st, l) ← sync_insert tables ins written kept rs;
            Some (st, (if ii_confirm it then [ii_key it] else []) ++ l)
          else None
      end
    end
  end.
