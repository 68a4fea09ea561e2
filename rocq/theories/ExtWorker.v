(** Model of a table with asynchronous extensions: Table::ExtensionOperation and
    Table::ExtensionsWorkerLoop (reverb/cc/table.cc).

    With an extension worker, ExtensionOperation puts a request into a buffer.  If the
    buffer is full it waits and releases [mu_] in the middle of DeleteItem, UpdateItem,
    InsertOrAssignInternal or SampleInternal.  These functions are therefore modelled as
    programs with resumption points.  The threads that call them are any number of
    clients (MutateItems, Reset) and the table worker, whose loop is modelled in
    TableWorker.v; here its insertions and samples are calls that may come at any
    time the rate limiter permits.

    Left out: the collection of deleted items for the clients (deleted_items_), the end
    of the worker, Close.  Insertions may move the elements of the hash map data_, after
    which the iterators that a waiting thread holds are invalid; the model only counts
    the use of an iterator or reference to an erased element as a crash. *)
From Verif Require Import Base RateLimiter Selector Trajectory Table.

(** table.h:270-300: ExtensionRequest.  The item is the snapshot in ExtensionItem
    (table.h:55-63). *)
Inductive ereq := QEvent (e : event) | QRelease (it : item).

(** A program that runs under [mu_].  [XNeed mk t k]: it has left the table in the
    state [t] and is about to enqueue the request that [mk] reads off the table at
    that moment ([None]: the item is gone, its reference dangles); it goes on with [k]
    in the state that it finds then. *)
Inductive pres :=
| XDone (r : result) (t : table)
| XFail
| XNeed (mk : table -> option ereq) (t : table) (k : table -> pres).

(** The reference to the item of a key is read. *)
Definition item_req (ev : item -> event) (key : Z) (t : table) : option ereq := (fun it => QEvent (ev it)) <$> t_data t !! key.

Section WithFP.
Context {fp : FP}.

(** Lines 856-906.  [has]: has_async_extensions_.  Deletions are always enqueued.
    [it] is the item of [key]. *)
Definition ext_x (has always : bool) (ev : item -> event) (key : Z) (it : item) (t : table) (k : table -> pres) : pres :=
  let t := ext_op t (ev it) in
  if has || always then XNeed (item_req ev key) t k else k t.

(** Lines 831-854. *)
Definition delete_x (has : bool) (t : table) (key : Z) (kont : status -> table -> pres) : pres :=
  match t_data t !! key with
  | None => kont Ok t
  | Some it =>
    match dec_eps (t_eps t) (t_del_eps t) (it_chunks it) with
    | None => XFail
    | Some (e, n) =>
      ext_x has true EvDelete key it (with_eps t e n) (fun t =>
        match t_data t !! key with
        | None => XFail
        | Some _ =>
          let t := with_data t (delete key (t_data t)) in
          let t := with_limiter t (lim_delete (t_limiter t)) in
          let '(st, s) := sel_delete (t_sampler t) key in
          let t := with_sampler t s in
          if decide (st = Ok) then
            let '(st, s) := sel_delete (t_remover t) key in
            kont st (with_remover t s)
          else kont st t
        end)
    end
  end.

(** Lines 908-919. *)
Definition update_x (has : bool) (t : table) (key : Z) (p : dbl) (kont : status -> table -> pres) : pres :=
  match t_data t !! key with
  | None => kont Ok t
  | Some it =>
    let it := item_set_priority it p in
    let t := with_data t (<[key := it]> (t_data t)) in
    let '(st, s) := sel_update (t_sampler t) key p in
    let t := with_sampler t s in
    if decide (st = Ok) then
      let '(st, s) := sel_update (t_remover t) key p in
      let t := with_remover t s in
      if decide (st = Ok) then ext_x has false EvUpdate key it t (kont Ok) else kont st t
    else kont st t
  end.

(** Lines 574-610. *)
Definition insert_x (has : bool) (t : table) (now : Z * Z) (d : draw) (it : item) (kont : status -> table -> pres) : pres :=
  let k := it_key it in
  let p := it_prio it in
  match t_data t !! k with
  | Some _ =>
    update_x has t k p (fun st t =>
      if bool_decide (st = Ok) then XNeed (fun _ => Some (QRelease it)) t (kont Ok) else kont st t)
  | None =>
    let it := item_set_inserted_at it now in
    let t := with_data t (<[k := it]> (t_data t)) in
    let '(st, s) := sel_insert (t_sampler t) k p in
    let t := with_sampler t s in
    if negb (bool_decide (st = Ok)) then kont st t else
    let '(st, s) := sel_insert (t_remover t) k p in
    let t := with_remover t s in
    if negb (bool_decide (st = Ok)) then kont st t else
    ext_x has false EvInsert k it t (fun t =>
      match t_data t !! k with
      | None => XFail
      | Some it' =>
        let t := with_eps t (inc_eps (t_eps t) (it_chunks it')) (t_del_eps t) in
        if t_max_size t <? t_size t then
          match sel_sample (t_remover t) d with
          | None => XFail
          | Some (victim, _) =>
            delete_x has t victim (fun st t =>
              if negb (bool_decide (st = Ok)) then kont st t
              else kont Ok (with_limiter t (lim_insert (t_limiter t))))
          end
        else kont Ok (with_limiter t (lim_insert (t_limiter t)))
      end)
  end.

(** Lines 756-787, after MaybeCommitSample (line 252). *)
Definition sample_x (has : bool) (t : table) (d : draw) (limited : bool) (kont : status -> sampled -> table -> pres) : pres :=
  match sel_sample (t_sampler t) d with
  | None => XFail
  | Some (k, prob) =>
    match t_data t !! k with
    | None => XFail
    | Some it =>
      let t := if it_times it =? 0 then with_unique t (t_unique t + 1) else t in
      let it := item_set_times it (it_times it + 1) in
      let t := with_data t (<[k := it]> (t_data t)) in
      let sm := mkSampled it prob (t_size t) (it_prio it) (it_times it) limited in
      ext_x has false EvSample k it t (fun t =>
        match t_data t !! k with
        | None => XFail
        | Some it =>
          if it_times it =? t_max_times t then delete_x has t (it_key it) (fun st t => kont st sm t)
          else kont Ok sm t
        end)
    end
  end.

(** Lines 612-623. *)
Fixpoint update_all_x (has : bool) (t : table) (us : list (Z * dbl)) : pres :=
  match us with
  | [] => XDone (RStatus Ok) t
  | (k, p) :: us => update_x has t k p (fun st t => if bool_decide (st = Ok) then update_all_x has t us else XDone (RStatus st) t)
  end.
Fixpoint mutate_x (has : bool) (t : table) (us : list (Z * dbl)) (ks : list Z) : pres :=
  match ks with
  | [] => update_all_x has t us
  | k :: ks => delete_x has t k (fun st t => if bool_decide (st = Ok) then mutate_x has t us ks else XDone (RStatus st) t)
  end.

(** Lines 896-905: enqueue as long as there is room.  [cap] is
    max_enqueued_extension_ops_. *)
Inductive outcome := DDone (r : result) (t : table) | DCrash | DWait (mk : table -> option ereq) (t : table) (k : table -> pres).
Fixpoint drive (cap : nat) (buf : list ereq) (p : pres) : list ereq * outcome :=
  match p with
  | XDone r t => (buf, DDone r t)
  | XFail => (buf, DCrash)
  | XNeed mk t k =>
    if (length buf <? cap)%nat then
      match mk t with
      | None => (buf, DCrash)
      | Some q => drive cap (buf ++ [q]) (k t)
      end
    else (buf, DWait mk t k)
  end.

(** Threads that wait for room in the buffer.  [xt_sig]: signalled. *)
Record xthread := mkXt { xt_id : nat; xt_mk : table -> option ereq; xt_k : table -> pres; xt_sig : bool }.

(** Where the extension worker is: before it takes [mu_] (line 367), waiting for work
    (line 373), about to call the extensions (line 384). *)
Inductive xpos := XIdle | XSleep (signalled : bool) | XProc.

(** The table, extension_requests_, the requests that the worker has taken, what the
    asynchronous extensions have been told so far (not a member), the worker, the
    threads that wait, the number of calls so far. *)
Record xw := mkXw { x_t : table; x_buf : list ereq; x_cur : list ereq; x_seen : list ereq; x_pos : xpos; x_ws : list xthread; x_next : nat }.
Definition x_new (t : table) : xw := mkXw t [] [] [] XIdle [] 0.

Inductive xev :=
| XMutate (us : list (Z * dbl)) (ks : list Z)   (** MutateItems *)
| XInsert (at_ : Z * Z) (d : draw) (it : item)  (** the table worker inserts *)
| XSample (d : draw) (limited : bool)           (** the table worker samples *)
| XReset                                        (** Reset *)
| XResume (i : nat)                             (** a waiting thread gets [mu_] again *)
| XExt (pick : nat).                            (** the extension worker goes on *)

Inductive xres := XNext (w : xw) (outs : list (nat * result)) | XCrash | XNo.

(** Lines 902-905: the first request in an empty buffer signals the worker. *)
Definition notify (before after : list ereq) (p : xpos) : xpos :=
  match before, after, p with [], _ :: _, XSleep _ => XSleep true | _, _, p => p end.

Definition go (cap : nat) (w : xw) (id : nat) (ws : list xthread) (next : nat) (p : pres) : xres :=
  match drive cap (x_buf w) p with
  | (buf, DDone r t) => XNext (mkXw t buf (x_cur w) (x_seen w) (notify (x_buf w) buf (x_pos w)) ws next) [(id, r)]
  | (_, DCrash) => XCrash
  | (buf, DWait mk t k) => XNext (mkXw t buf (x_cur w) (x_seen w) (notify (x_buf w) buf (x_pos w)) (ws ++ [mkXt id mk k false]) next) []
  end.

(** extension_buffer_available_cv_.Signal() *)
Fixpoint rouse (n : nat) (ws : list xthread) : list xthread :=
  match ws with
  | [] => []
  | x :: ws => if xt_sig x then x :: rouse n ws else match n with O => mkXt (xt_id x) (xt_mk x) (xt_k x) true :: ws | S n => x :: rouse n ws end
  end.
Definition signal_room (pick : nat) (ws : list xthread) : list xthread := rouse (pick mod length (List.filter (fun x => negb (xt_sig x)) ws)) ws.

(** Lines 376-382. *)
Definition take_batch (cap : nat) (w : xw) (pick : nat) : xw :=
  mkXw (x_t w) [] (x_buf w) (x_seen w) XProc (if (cap <=? length (x_buf w))%nat then signal_room pick (x_ws w) else x_ws w) (x_next w).

Definition x_step (has : bool) (cap : nat) (w : xw) (e : xev) : xres :=
  match e with
  | XMutate us ks => go cap w (x_next w) (x_ws w) (S (x_next w)) (mutate_x has (x_t w) us ks)
  | XInsert at_ d it =>
    if can_insert (t_limiter (x_t w)) 1 then
      go cap w (x_next w) (x_ws w) (S (x_next w)) (insert_x has (x_t w) at_ d it (fun st t => XDone (RStatus st) t))
    else XNo
  | XSample d limited =>
    match maybe_commit_sample (t_limiter (x_t w)) with
    | None => XNo
    | Some l => go cap w (x_next w) (x_ws w) (S (x_next w)) (sample_x has (with_limiter (x_t w) l) d limited (fun st sm t => XDone (RSamples st [sm]) t))
    end
  | XReset =>
    (* lines 921-952: waits until the extension worker sleeps and the buffer is empty *)
    match x_pos w, x_buf w with
    | XSleep _, [] => XNext (mkXw (reset_table (x_t w)) [] (x_cur w) (x_seen w ++ [QEvent EvReset]) (x_pos w) (x_ws w) (S (x_next w))) [(x_next w, RStatus Ok)]
    | _, _ => XNo
    end
  | XResume i =>
    match List.find (fun x => (xt_id x =? i)%nat) (x_ws w) with
    | None => XNo
    | Some x => go cap w i (List.filter (fun x => negb (xt_id x =? i)%nat) (x_ws w)) (x_next w) (XNeed (xt_mk x) (x_t w) (xt_k x))
    end
  | XExt pick =>
    match x_pos w with
    | XIdle => match x_buf w with [] => XNext (mkXw (x_t w) [] (x_cur w) (x_seen w) (XSleep false) (x_ws w) (x_next w)) [] | _ => XNext (take_batch cap w pick) [] end
    | XSleep _ => XNext (take_batch cap w pick) []   (* also without a signal *)
    | XProc => XNext (mkXw (x_t w) (x_buf w) [] (x_seen w ++ x_cur w) XIdle (x_ws w) (x_next w)) []   (* lines 383-413 *)
    end
  end.

(** Draws are in range, items pass CheckItemValidity (InsertOrAssignAsync, line 548). *)
Definition x_can (e : xev) : Prop :=
  match e with XInsert _ d it => draw_ok d /\ check_item_validity it = Ok | XSample d _ => draw_ok d | _ => True end.
(** The selectors accept the priorities. *)
Definition x_prio (cf : tcfg) (e : xev) : Prop :=
  match e with XInsert _ _ it => prio_ok cf (it_prio it) | XMutate us _ => Forall (fun u => prio_ok cf u.2) us | _ => True end.

(** A run; [A] relates the state before, the action and the state after. *)
Inductive x_trace (A : xw -> xev -> xw -> Prop) (has : bool) (cap : nat) (w0 : xw) : list (xev * list (nat * result)) -> xw -> Prop :=
| xt_nil : x_trace A has cap w0 [] w0
| xt_snoc tr w e w' outs : x_trace A has cap w0 tr w -> x_can e -> x_step has cap w e = XNext w' outs -> A w e w' -> x_trace A has cap w0 (tr ++ [(e, outs)]) w'.

End WithFP.
