(** Model of the TrajectoryWriter, reverb/cc/trajectory_writer.cc.

    Three threads act on it: the user (the methods except Close are not thread safe,
    trajectory_writer.h:65, so there is one call at a time), the stream worker, and
    the reader of the responses.  Close may be called at any time.  Every section
    that holds mu_ is one action; so is every call of a method of a Chunker.  The
    writes to the stream and the responses of the server are given by the event. *)
From Verif Require Import Base Trajectory Tensor TrajUtil ChunkerOptions Sample Stream Reactor Chunker.

Notation hist := (list (tensor * Z * Z)).

(** A CellRef: the column of its Chunker and its number there. *)
Definition ref := (nat * nat)%type.

(** ItemAndRefs, trajectory_writer.h:195-202.  [wi_refs] are the references column
    after column. *)
Record witem := mkWitem {
  wi_key : Z; wi_table : Z; wi_prio : dbl; wi_traj : list (list slice); wi_squeeze : list bool; wi_refs : list ref }.

(** Where the stream worker is.  [streamed]: streamed_chunk_keys; [req]: the chunks
    in [request]; [it]: item_and_refs.
    [WStart]: the top of the loop at line 152; [WTop]: line 493; [WChunks]: in
    SendNotAlreadySentChunks, [rest] are the references still to look at; [WCheck]:
    line 507; [WWait]: in data_cv_.Wait, [sig] tells whether it was signalled;
    [WSend]: line 530; [WPop]: line 546; [WFinish]: stream->Finish(); [WDone]: the
    thread has ended. *)
Inductive wpos :=
| WStart
| WTop (streamed : gset Z) (req : list kchunk)
| WChunks (it : witem) (rest : list ref) (streamed : gset Z) (req : list kchunk)
| WCheck (it : witem) (streamed : gset Z) (req : list kchunk)
| WWait (it : witem) (streamed : gset Z) (req : list kchunk) (sig : bool)
| WSend (it : witem) (streamed : gset Z) (req : list kchunk)
| WPop (it : witem) (streamed : gset Z)
| WFinish
| WDone.

(** The call of the user that is running.  [UAppend i rest inc ep step]: line 230
    with column [i]; [UWait n fin]: line 610, [fin] tells what follows. *)
Inductive ufin := FinFlush | FinEpisode (clear : bool).
Inductive ucall := UIdle | UAppend (i : nat) (rest : list (option tensor)) (inc : bool) (ep step : Z) | UWait (n : Z) (fin : ufin).

(** The members of TrajectoryWriter.  Every Chunker comes with its history (see
    Chunker.v).  Ghost fields: [w_wire], the messages that reached the server over
    the current stream; [w_acked], the keys in the responses that the reader has
    read; [w_created], the items that CreateItem accepted, with the columns passed; [w_failed], whether some
    Append has failed in the middle. *)
Record tw := mkTw {
  w_cols : gmap nat (chunker * hist); w_over : gmap nat copts; w_defo : copts;
  w_sigs : option (gmap Z (option (list tspec))); w_ep : Z; w_stp : Z;
  w_queue : list witem; w_flight : gset Z; w_closed : bool;
  w_unrec : status; w_pos : wpos; w_user : ucall;
  w_wire : list ireq; w_acked : gset Z; w_created : list (witem * list (list ref * bool));
  w_failed : bool }.
Definition set_cols (w : tw) (x : gmap nat (chunker * hist)) : tw :=
  mkTw x (w_over w) (w_defo w) (w_sigs w) (w_ep w) (w_stp w) (w_queue w) (w_flight w) (w_closed w) (w_unrec w) (w_pos w) (w_user w) (w_wire w) (w_acked w) (w_created w) (w_failed w).
Definition set_over (w : tw) (x : gmap nat copts) : tw :=
  mkTw (w_cols w) x (w_defo w) (w_sigs w) (w_ep w) (w_stp w) (w_queue w) (w_flight w) (w_closed w) (w_unrec w) (w_pos w) (w_user w) (w_wire w) (w_acked w) (w_created w) (w_failed w).
Definition set_ep (w : tw) (x : Z) : tw :=
  mkTw (w_cols w) (w_over w) (w_defo w) (w_sigs w) x (w_stp w) (w_queue w) (w_flight w) (w_closed w) (w_unrec w) (w_pos w) (w_user w) (w_wire w) (w_acked w) (w_created w) (w_failed w).
Definition set_stp (w : tw) (x : Z) : tw :=
  mkTw (w_cols w) (w_over w) (w_defo w) (w_sigs w) (w_ep w) x (w_queue w) (w_flight w) (w_closed w) (w_unrec w) (w_pos w) (w_user w) (w_wire w) (w_acked w) (w_created w) (w_failed w).
Definition set_queue (w : tw) (x : list witem) : tw :=
  mkTw (w_cols w) (w_over w) (w_defo w) (w_sigs w) (w_ep w) (w_stp w) x (w_flight w) (w_closed w) (w_unrec w) (w_pos w) (w_user w) (w_wire w) (w_acked w) (w_created w) (w_failed w).
Definition set_flight (w : tw) (x : gset Z) : tw :=
  mkTw (w_cols w) (w_over w) (w_defo w) (w_sigs w) (w_ep w) (w_stp w) (w_queue w) x (w_closed w) (w_unrec w) (w_pos w) (w_user w) (w_wire w) (w_acked w) (w_created w) (w_failed w).
Definition set_closed (w : tw) (x : bool) : tw :=
  mkTw (w_cols w) (w_over w) (w_defo w) (w_sigs w) (w_ep w) (w_stp w) (w_queue w) (w_flight w) x (w_unrec w) (w_pos w) (w_user w) (w_wire w) (w_acked w) (w_created w) (w_failed w).
Definition set_unrec (w : tw) (x : status) : tw :=
  mkTw (w_cols w) (w_over w) (w_defo w) (w_sigs w) (w_ep w) (w_stp w) (w_queue w) (w_flight w) (w_closed w) x (w_pos w) (w_user w) (w_wire w) (w_acked w) (w_created w) (w_failed w).
Definition set_pos (w : tw) (x : wpos) : tw :=
  mkTw (w_cols w) (w_over w) (w_defo w) (w_sigs w) (w_ep w) (w_stp w) (w_queue w) (w_flight w) (w_closed w) (w_unrec w) x (w_user w) (w_wire w) (w_acked w) (w_created w) (w_failed w).
Definition set_user (w : tw) (x : ucall) : tw :=
  mkTw (w_cols w) (w_over w) (w_defo w) (w_sigs w) (w_ep w) (w_stp w) (w_queue w) (w_flight w) (w_closed w) (w_unrec w) (w_pos w) x (w_wire w) (w_acked w) (w_created w) (w_failed w).
Definition set_wire (w : tw) (x : list ireq) : tw :=
  mkTw (w_cols w) (w_over w) (w_defo w) (w_sigs w) (w_ep w) (w_stp w) (w_queue w) (w_flight w) (w_closed w) (w_unrec w) (w_pos w) (w_user w) x (w_acked w) (w_created w) (w_failed w).
Definition set_acked (w : tw) (x : gset Z) : tw :=
  mkTw (w_cols w) (w_over w) (w_defo w) (w_sigs w) (w_ep w) (w_stp w) (w_queue w) (w_flight w) (w_closed w) (w_unrec w) (w_pos w) (w_user w) (w_wire w) x (w_created w) (w_failed w).
Definition set_created (w : tw) (x : list (witem * list (list ref * bool))) : tw :=
  mkTw (w_cols w) (w_over w) (w_defo w) (w_sigs w) (w_ep w) (w_stp w) (w_queue w) (w_flight w) (w_closed w) (w_unrec w) (w_pos w) (w_user w) (w_wire w) (w_acked w) x (w_failed w).
Definition set_failed (w : tw) (x : bool) : tw :=
  mkTw (w_cols w) (w_over w) (w_defo w) (w_sigs w) (w_ep w) (w_stp w) (w_queue w) (w_flight w) (w_closed w) (w_unrec w) (w_pos w) (w_user w) (w_wire w) (w_acked w) (w_created w) x.

Definition w_cell (w : tw) (r : ref) : option cell := '(k, _) ← w_cols w !! r.1; k_cells k !! r.2.
(** CellRef::IsReady and chunk_key(). *)
Definition is_ready (w : tw) (r : ref) : bool := match w_cell w r with Some c => match ce_chunk c with Some _ => true | None => false end | None => false end.
Definition key_of (w : tw) (r : ref) : option Z := ce_key <$> w_cell w r.

(** A weak_ptr to the reference can be locked: active_refs_ of its Chunker or an
    item in the queue has a shared_ptr.  (The copy that the worker holds is at the
    front of the queue.) *)
Definition alive (w : tw) (r : ref) : bool :=
  match w_cols w !! r.1 with
  | Some (k, _) => bool_decide (r.2 ∈ k_active k) || (bool_decide (r ∈ concat (wi_refs <$> w_queue w)) && (r.2 <? length (k_cells k))%nat)
  | None => false
  end.

(** A call of a method of a Chunker. *)
Definition col_step (w : tw) (c : nat) (e : kev) : option tw :=
  '(k, h) ← w_cols w !! c; '(k', h') ← k_step k h e; Some (set_cols w (<[c := (k', h')]> (w_cols w))).

(** data_cv_.Signal(). *)
Definition signal (w : tw) : tw := match w_pos w with WWait it s r _ => set_pos w (WWait it s r true) | _ => w end.

(** What an action does: it cannot happen now, the process crashes, or a new state,
    with the status that the call of the user returns if it ends. *)
Inductive tres := TBlocked | TCrash | TNext (w : tw) (ret : option status).

(** ** Append, AppendPartial: lines 200-264 *)

(** Lines 213-227. [nk]: the keys that the new Chunkers generate.  [None]: the check
    in the constructor of Chunker fails. *)
Fixpoint add_chunkers (w : tw) (i : nat) (data : list (option tensor)) (nk : nat -> Z) : option tw :=
  match data with
  | [] => Some w
  | None :: data => add_chunkers w (S i) data nk
  | Some t :: data =>
    match w_cols w !! i with
    | Some _ => add_chunkers w (S i) data nk
    | None =>
      k ← k_new (mkTspec (t_ty t) (Some (Some <$> t_shape t))) (clone (default (w_defo w) (w_over w !! i))) (nk i);
      add_chunkers (set_cols w (<[i := (k, [])]> (w_cols w))) (S i) data nk
    end
  end.
Definition append_begin (w : tw) (data : list (option tensor)) (inc : bool) (nk : nat -> Z) : tres :=
  match w_user w with
  | UIdle =>
    if bool_decide (w_unrec w = Ok) then
      match add_chunkers w 0 data nk with
      | None => TCrash
      | Some w => TNext (set_user w (UAppend 0 data inc (w_ep w) (w_stp w))) None
      end
    else TNext w (Some (w_unrec w))
  | _ => TBlocked
  end.
(** Lines 230-246, one column; the status of the Chunker is returned as it is (the
    text changes, the code does not).  With no column left: lines 248-263. *)
Definition append_col (w : tw) (nk : Z) : tres :=
  match w_user w with
  | UAppend i (None :: rest) inc ep step => TNext (set_user w (UAppend (S i) rest inc ep step)) None
  | UAppend i (Some t :: rest) inc ep step =>
    match '(k, _) ← w_cols w !! i; '(st, _, _) ← k_append k t ep step nk; w ← col_step w i (KAppend t ep step nk); Some (st, w) with
    | None => TCrash
    | Some (st, w) =>
      if bool_decide (st = Ok) then TNext (set_user w (UAppend (S i) rest inc ep step)) None
      else TNext (set_user (set_failed w true) UIdle) (Some st)
    end
  | UAppend _ [] inc ep step =>
    if (ep =? w_ep w) && (step =? w_stp w) then
      TNext (set_user (signal (set_stp w (if inc then w_stp w + 1 else w_stp w))) UIdle) (Some Ok)
    else TCrash
  | _ => TBlocked
  end.

(** ** CreateItem: lines 266-311 *)

(** Lines 46-66, on the cells of the references.  [cur] is slices.back(). *)
Definition new_slice (c : cell) : slice := mkSlice (ce_key c) (ce_off c) 1 0.
Fixpoint merge_from (cur : slice) (cs : list cell) : list slice :=
  match cs with
  | [] => [cur]
  | c :: cs =>
    if ce_key c =? sl_key cur then merge_from (mkSlice (sl_key cur) (sl_off cur) (sl_len cur + 1) (sl_idx cur)) cs
    else cur :: merge_from (new_slice c) cs
  end.
Definition merge_adjacent (cs : list cell) : list slice := match cs with [] => [] | c :: cs => merge_from (new_slice c) cs end.

(** PartialTensorShape::IsCompatibleWith, for two partial shapes. *)
Fixpoint pdims_compatible (p q : list (option nat)) : bool :=
  match p, q with
  | [], [] => true
  | a :: p, b :: q => match a, b with Some a, Some b => Nat.eqb a b | _, _ => true end && pdims_compatible p q
  | _, _ => false
  end.
Definition pshape_compatible (p q : pshape) : bool := match p, q with Some p, Some q => pdims_compatible p q | _, _ => true end.

Definition ref_spec (w : tw) (r : ref) : option tspec := '(k, _) ← w_cols w !! r.1; Some (k_spec k).

(** Lines 667-700. [None]: element 0 of an empty vector is accessed. *)
Definition column_validate (w : tw) (refs : list ref) (squeeze : bool) : option status :=
  if negb (forallb (alive w) refs) then Some InvalidArgument
  else if squeeze && negb (length refs =? 1)%nat then Some InvalidArgument
  else match refs with
       | [] => None
       | r :: refs =>
         s ← ref_spec w r;
         Some (if forallb (fun r => match ref_spec w r with
                                    | Some s' => bool_decide (sp_ty s' = sp_ty s) && pshape_compatible (sp_shape s') (sp_shape s)
                                    | None => false end) refs then Ok else InvalidArgument)
       end.
Fixpoint columns_validate (w : tw) (cols : list (list ref * bool)) : option status :=
  match cols with
  | [] => Some Ok
  | (refs, sq) :: cols => st ← column_validate w refs sq; if bool_decide (st = Ok) then columns_validate w cols else Some st
  end.

(** Lines 114-137.  The specification of a column is the one of the first reference
    with the key of its first slice.  [None]: no slice, or no such reference. *)
Definition find_spec (w : tw) (refs : list ref) (key : Z) : option tspec :=
  '(_, r) ← list_find (fun r => key_of w r = Some key) refs; ref_spec w r.
Definition col_signature (w : tw) (refs : list ref) (col : list slice) (squeeze : bool) : option tspec :=
  s ← head col; sp ← find_spec w refs (sl_key s);
  Some (if squeeze then sp else mkTspec (sp_ty sp) (cons (Some (Z.to_nat (foldl Z.add 0 (sl_len <$> col)))) <$> sp_shape sp)).
Fixpoint flat_signature (w : tw) (refs : list ref) (traj : list (list slice)) (squeeze : list bool) : option (list tspec) :=
  match traj, squeeze with
  | col :: traj, sq :: squeeze => s ← col_signature w refs col sq; ss ← flat_signature w refs traj squeeze; Some (s :: ss)
  | _, _ => Some []
  end.
(** Lines 313-370. *)
Definition spec_fits (want got : tspec) : bool := bool_decide (sp_ty want = sp_ty got) && pshape_compatible (sp_shape want) (sp_shape got).
Definition item_validate (w : tw) (it : witem) : option status :=
  match w_sigs w with
  | None => Some Ok
  | Some m =>
    match m !! wi_table it with
    | None => Some InvalidArgument
    | Some None => Some Ok
    | Some (Some sig) =>
      got ← flat_signature w (wi_refs it) (wi_traj it) (wi_squeeze it);
      Some (if (length sig =? length got)%nat && forallb (fun p => spec_fits p.1 p.2) (combine sig got) then Ok else InvalidArgument)
    end
  end.

(** Lines 295-301. *)
Definition make_item (w : tw) (key table : Z) (prio : dbl) (cols : list (list ref * bool)) : witem :=
  mkWitem key table prio (merge_adjacent <$> (omap (w_cell w) <$> (fst <$> cols))) (snd <$> cols) (concat (fst <$> cols)).

(** Lines 266-311 as one action: what happens between its sections of mu_ does not
    touch what they use. *)
Definition create_item (w : tw) (table : Z) (prio : dbl) (cols : list (list ref * bool)) (key : Z) : tres :=
  match w_user w with
  | UIdle =>
    if forallb (fun c => match c.1 with [] => true | _ => false end) cols then TNext w (Some InvalidArgument)
    else if negb (bool_decide (w_unrec w = Ok)) then TNext w (Some (w_unrec w))
    else match columns_validate w cols with
         | None => TCrash
         | Some st =>
           if negb (bool_decide (st = Ok)) then TNext w (Some st)
           else let it := make_item w key table prio cols in
                match item_validate w it with
                | None => TCrash
                | Some st =>
                  if negb (bool_decide (st = Ok)) then TNext w (Some st)
                  else TNext (set_created (set_queue w (w_queue w ++ [it])) (w_created w ++ [(it, cols)])) (Some Ok)
                end
         end
  | _ => TBlocked
  end.

(** ** Flush, EndEpisode: lines 558-642 *)

(** Lines 571-580 for the references [rs].  [nk]: the key that the Chunker of a
    column generates.  [None]: a crash. *)
Fixpoint force_flush (w : tw) (rs : list ref) (nk : nat -> Z) : option (status * tw) :=
  match rs with
  | [] => Some (Ok, w)
  | r :: rs =>
    if is_ready w r then force_flush w rs nk
    else
      '(k, _) ← w_cols w !! r.1; '(st, _) ← k_flush k (nk r.1); w ← col_step w r.1 (KFlush (nk r.1));
      if bool_decide (st = Ok) then force_flush w rs nk else Some (st, w)
  end.
Definition to_force (w : tw) (n : Z) : list ref := concat (wi_refs <$> take (Z.to_nat (Z.of_nat (length (w_queue w)) - n)) (w_queue w)).
(** Lines 564-584, up to the wait. *)
Definition flush_begin (w : tw) (n : Z) (fin : ufin) (nk : nat -> Z) : tres :=
  match force_flush w (to_force w n) nk with
  | None => TCrash
  | Some (st, w) => if bool_decide (st = Ok) then TNext (set_user (signal w) (UWait n fin)) None else TNext w (Some st)
  end.
(** Lines 589-608: the condition. *)
Definition num_pending (w : tw) : Z :=
  Z.of_nat (length (w_queue w)) + Z.of_nat (size (w_flight w)) -
  match w_queue w with it :: _ => if bool_decide (wi_key it ∈ w_flight w) then 1 else 0 | [] => 0 end.
Definition flush_cond (w : tw) (n : Z) : bool := negb (bool_decide (w_unrec w = Ok)) || (num_pending w <=? n).

(** Lines 628-637: the Chunkers, in some order.  An error of a flush stays in
    unrecoverable_status_. *)
Fixpoint end_chunkers (w : tw) (clear : bool) (cs : list nat) (nk : nat -> Z) : option (status * tw) :=
  match cs with
  | [] => Some (Ok, w)
  | c :: cs =>
    if clear then w ← col_step w c (KReset (nk c)); end_chunkers w clear cs nk
    else
      '(k, _) ← w_cols w !! c; '(st, _) ← k_flush k (nk c); w ← col_step w c (KFlush (nk c));
      if bool_decide (st = Ok) then end_chunkers w clear cs nk else Some (st, set_unrec w st)
  end.
Definition columns (w : tw) : list nat := (map_to_list (w_cols w)).*1.
(** Lines 610-618 and 628-641. [timeout]: the time is over.  [newep]: the next
    episode. *)
Definition flush_done (w : tw) (timeout : bool) (nk : nat -> Z) (newep : Z) : tres :=
  match w_user w with
  | UWait n fin =>
    if flush_cond w n then
      let w := set_user w UIdle in
      if negb (bool_decide (w_unrec w = Ok)) then TNext w (Some (w_unrec w))
      else match fin with
           | FinFlush => TNext w (Some Ok)
           | FinEpisode clear =>
             match end_chunkers w clear (columns w) nk with
             | None => TCrash
             | Some (st, w) => if bool_decide (st = Ok) then TNext (set_stp (set_ep w newep) 0) (Some Ok) else TNext w (Some st)
             end
           end
    else if timeout then TNext (set_user w UIdle) (Some DeadlineExceeded) else TBlocked
  | _ => TBlocked
  end.

(** Lines 644-654. *)
Definition configure (w : tw) (c : nat) (o : copts) : tres :=
  match w_user w with
  | UIdle =>
    if negb (bool_decide (validate_options o = Ok)) then TNext w (Some InvalidArgument)
    else match w_cols w !! c with
         | Some (k, _) => match col_step w c (KConfig (clone o)) with Some w' => TNext w' (Some (k_apply_config k (clone o)).1) | None => TCrash end
         | None => TNext (set_over w (<[c := clone o]> (w_over w))) (Some Ok)
         end
  | _ => TBlocked
  end.

(** Lines 381-400; joining the thread is not modelled. *)
Definition close (w : tw) : tw := if w_closed w then w else signal (set_closed w true).

(** ** The stream worker: lines 150-168, 405-556 *)

(** The end of RunStreamWorker with the given status: lines 155-166. *)
Definition worker_return (w : tw) (st : status) : tw :=
  if w_closed w then set_pos (set_unrec w Cancelled) WDone
  else if bool_decide (st = Ok \/ st = Unavailable) then set_pos w WStart
  else set_pos (set_unrec w st) WDone.

(** A write to the stream: it succeeds, it fails and the server does not get the
    message, or it fails although the server gets it. *)
Inductive wout := OutOk | OutLost | OutSent.
Definition delivered (o : wout) : bool := match o with OutLost => false | _ => true end.
Definition write_ok (o : wout) : bool := match o with OutOk => true | _ => false end.
Definition send (w : tw) (m : ireq) (o : wout) : tw := if delivered o then set_wire w (w_wire w ++ [m]) else w.

(** Lines 449-474. *)
Definition keep_keys (w : tw) (streamed : gset Z) : gset Z :=
  let ks := concat ((fun p => k_keep_keys p.2.1) <$> map_to_list (w_cols w)) ++ omap (key_of w) (concat (wi_refs <$> tail (w_queue w))) in
  filter (fun k => k ∈ ks) streamed.

Inductive tev :=
| EStart
| ENext
| EChunk (big : bool) (o : wout)
| ECheck
| EWake
| ESend (o : wout)
| EPop
| EFinish (st : status)
| EConfirm (keys : list Z)
| ETune (c : nat) (a : auto)
| EAppend (data : list (option tensor)) (inc : bool) (nk : nat -> Z)
| EColumn (nk : Z)
| ECreate (table : Z) (prio : dbl) (cols : list (list ref * bool)) (key : Z)
| EFlush (n : Z) (nk : nat -> Z)
| EEpisode (clear : bool) (nk : nat -> Z)
| EDone (timeout : bool) (nk : nat -> Z) (newep : Z)
| EConfigure (c : nat) (o : copts)
| EClose.

Definition item_message (it : witem) (req : list kchunk) (keep : gset Z) : ireq :=
  mkIreq req (Some (mkIitem (wi_key it) (wi_table it) (wi_traj it) (base.elements keep) true)).
Definition confirmable (rs : list ireq) : list Z :=
  omap (fun r => it ← ir_item r; if ii_confirm it then Some (ii_key it) else None) rs.

Definition tw_step (w : tw) (e : tev) : tres :=
  match e with
  | EStart =>
    (* lines 405-416; the loop starts with an empty set and an empty request *)
    match w_pos w with
    | WStart =>
      if negb (bool_decide (w_unrec w = Ok)) then TNext (worker_return w (w_unrec w)) None
      else if w_closed w then TNext (worker_return w Cancelled) None
      else TNext (set_wire (set_pos w (WTop ∅ [])) []) None
    | _ => TBlocked
    end
  | ENext =>
    (* lines 418-432, 496-498 *)
    match w_pos w with
    | WTop streamed req =>
      if w_closed w then TNext (set_pos w WFinish) None
      else match w_queue w with
           | [] => TBlocked
           | it :: _ => TNext (set_pos w (WChunks it (wi_refs it) streamed req)) None
           end
    | _ => TBlocked
    end
  | EChunk big o =>
    (* lines 75-98, one reference; [big]: the message has reached the cutoff *)
    match w_pos w with
    | WChunks it [] streamed req => TNext (set_pos w (WCheck it streamed req)) None
    | WChunks it (r :: rest) streamed req =>
      match w_cell w r with
      | None => TCrash
      | Some c =>
        match ce_chunk c with
        | None => TNext (set_pos w (WChunks it rest streamed req)) None
        | Some ch =>
          if bool_decide (ce_key c ∈ streamed) then TNext (set_pos w (WChunks it rest streamed req)) None
          else
            let req := req ++ [mkKchunk (ck_key ch) (ck_data ch)] in
            let streamed := {[ce_key c]} ∪ streamed in
            if big then
              let w := send w (mkIreq req None) o in
              TNext (set_pos w (if write_ok o then WChunks it rest streamed [] else WFinish)) None
            else TNext (set_pos w (WChunks it rest streamed req)) None
        end
      end
    | _ => TBlocked
    end
  | ECheck =>
    (* lines 507-528 *)
    match w_pos w with
    | WCheck it streamed req =>
      if forallb (fun r => match key_of w r with Some k => bool_decide (k ∈ streamed) | None => false end) (wi_refs it) then
        let w := set_flight w ({[wi_key it]} ∪ w_flight w) in
        TNext (set_pos w (WSend it (keep_keys w streamed) req)) None
      else if forallb (is_ready w) (wi_refs it) then TNext (set_pos w (WTop streamed req)) None
      else TNext (set_pos w (WWait it streamed req false)) None
    | _ => TBlocked
    end
  | EWake => match w_pos w with WWait _ streamed req _ => TNext (set_pos w (WTop streamed req)) None | _ => TBlocked end
  | ESend o =>
    (* lines 434-447, 536-544 *)
    match w_pos w with
    | WSend it streamed req =>
      let w := send w (item_message it req streamed) o in
      if write_ok o then TNext (set_pos w (WPop it streamed)) None
      else TNext (set_pos (set_flight w (w_flight w ∖ {[wi_key it]})) WFinish) None
    | _ => TBlocked
    end
  | EPop =>
    (* lines 549-554 *)
    match w_pos w with WPop _ streamed => TNext (set_pos (set_queue w (tail (w_queue w))) (WTop streamed [])) None | _ => TBlocked end
  | EFinish st => match w_pos w with WFinish => TNext (worker_return w st) None | _ => TBlocked end
  | EConfirm keys =>
    (* lines 483-488: only what the server got over this stream is confirmed *)
    match w_pos w with
    | WStart | WDone => TBlocked
    | _ =>
      if forallb (fun k => bool_decide (k ∈ confirmable (w_wire w))) keys then
        TNext (set_acked (set_flight w (w_flight w ∖ list_to_set keys)) (list_to_set keys ∪ w_acked w)) None
      else TBlocked
    end
  | ETune c a =>
    (* lines 530-532, and chunker.cc:329-342 *)
    match w_pos w with
    | WSend _ _ _ => match col_step w c (KTune a) with Some w => TNext w None | None => TBlocked end
    | _ => TBlocked
    end
  | EAppend data inc nk => append_begin w data inc nk
  | EColumn nk => append_col w nk
  | ECreate table prio cols key => create_item w table prio cols key
  | EFlush n nk => match w_user w with UIdle => flush_begin w n FinFlush nk | _ => TBlocked end
  | EEpisode clear nk =>
    match w_user w with
    | UIdle => if bool_decide (w_unrec w = Ok) then flush_begin w 0 (FinEpisode clear) nk else TNext w (Some (w_unrec w))
    | _ => TBlocked
    end
  | EDone timeout nk newep => flush_done w timeout nk newep
  | EConfigure c o => configure w c o
  | EClose => TNext (close w) None
  end.

(** The keys of chunks in use. *)
Definition chunk_keys_of (k : chunker) : list Z := k_next k :: (ce_key <$> k_cells k).
Definition fresh (w : tw) (nk : Z) : Prop := forall c k h, w_cols w !! c = Some (k, h) -> nk ∉ chunk_keys_of k.
Definition fresh_keys (w : tw) (nk : nat -> Z) : Prop := (forall c, fresh w (nk c)) /\ forall c d, nk c = nk d -> c = d.

(** Generated keys are fresh, tensors are well formed, tuning is as in C47. *)
Definition tw_enabled (w : tw) (e : tev) : Prop :=
  match e with
  | EAppend data _ nk => fresh_keys w nk /\ Forall (fun o => match o with Some t => tensor_ok t | None => True end) data
  | EColumn nk => fresh w nk
  | ECreate _ _ _ key => key ∉ ((fun p => wi_key p.1) <$> w_created w)
  | EFlush _ nk | EEpisode _ nk | EDone _ nk _ => fresh_keys w nk
  | ETune c a => forall k h, w_cols w !! c = Some (k, h) -> k_enabled k (KTune a)
  | _ => True
  end.

(** Lines 141-170; the options are validated. *)
Definition tw_new (o : copts) (sigs : option (gmap Z (option (list tspec)))) (ep : Z) : tw :=
  mkTw ∅ ∅ o sigs ep 0 [] ∅ false Ok WStart UIdle [] ∅ [] false.

Inductive tw_reach (w0 : tw) : tw -> Prop :=
| tr_init : tw_reach w0 w0
| tr_step w e w' ret : tw_reach w0 w -> tw_enabled w e -> tw_step w e = TNext w' ret -> tw_reach w0 w'.

Fixpoint tw_run (w : tw) (es : list tev) : option tw :=
  match es with [] => Some w | e :: es => match tw_step w e with TNext w _ => tw_run w es | _ => None end end.
