(** Splitting of samples into messages and reassembly in the client:
    reverb_service_impl.cc:322-379, reverb_service_async_impl.cc:593-641,
    sampler.cc:72-166 and 226-273. *)
From Verif Require Import Base Trajectory Tensor TrajUtil Sample.
Local Open Scope Z_scope.

(** ChunkData with its key. *)
Record kchunk := mkKchunk { kc_key : Z; kc_data : chunk_data }.

(** SampleInfo: metadata, trajectory and squeeze flags of the sampled item. *)
Record sinfo := mkSinfo { si_meta : meta; si_traj : list (list slice); si_squeeze : list bool }.

(** Table::SampledItem: the info and the chunks of the item. *)
Record sampled_item := mkSampled { sp_info : sinfo; sp_chunks : list kchunk }.

(** SampleStreamResponse::SampleEntry and SampleStreamResponse. *)
Record entry := mkEntry { e_info : option sinfo; e_data : list kchunk; e_eos : bool }.
Definition response := list entry.
Definition no_entry : entry := mkEntry None [] false.

(** ** Server, synchronous service *)

(** reverb_service_impl.cc:326-378: the loop over the chunks of a sample.  [size]
    is entry->ByteSizeLong(), any function here; [limit] is
    kMaxSampleResponseSizeBytes.  The result are the messages written; all writes
    succeed (otherwise the stream ends with an error). *)
Fixpoint sync_loop (size : entry -> Z) (limit : Z) (info : sinfo) (first : bool) (e : entry) (cs : list kchunk) : list response :=
  match cs with
  | [] => []
  | c :: cs =>
    let e := mkEntry (if first then Some info else e_info e) (e_data e ++ [c]) (match cs with [] => true | _ => false end) in
    if negb (match cs with [] => true | _ => false end) && (size e <? limit)
    then sync_loop size limit info false e cs
    else [e] :: sync_loop size limit info false no_entry cs
  end.
Definition sync_split (size : entry -> Z) (limit : Z) (s : sampled_item) : list response :=
  sync_loop size limit (sp_info s) true no_entry (sp_chunks s).

(** ** Server, asynchronous service *)

(** reverb_service_async_impl.cc:604-637: [done] is the queue before the last
    response, [r] the last response without the entry that is being filled, [e]
    that entry.  [csize] is chunk->ByteSizeLong(). *)
Fixpoint async_loop (csize : kchunk -> Z) (limit : Z) (info : sinfo) (first : bool)
    (done : list response) (r : response) (e : entry) (cur : Z) (cs : list kchunk) : list response * Z :=
  match cs with
  | [] => (done ++ [r ++ [e]], cur)
  | c :: cs =>
    let e := mkEntry (if first then Some info else e_info e) (e_data e ++ [c]) (match cs with [] => true | _ => false end) in
    let cur := cur + csize c in
    if negb (match cs with [] => true | _ => false end) && (limit <? cur)
    then async_loop csize limit info false (done ++ [r ++ [e]]) [] no_entry 0 cs
    else async_loop csize limit info false done r e cur cs
  end.

(** Lines 593-641, ProcessSample: the queue responses_to_send_ and
    current_response_size_bytes_ before and after. *)
Definition process_sample (csize : kchunk -> Z) (limit : Z) (q : list response) (cur : Z) (write_in_flight : bool) (s : sampled_item)
    : list response * Z :=
  let fresh := match q with [] => true | [_] => write_in_flight || (limit <? cur) | _ => limit <? cur end in
  if fresh then async_loop csize limit (sp_info s) true q [] no_entry 0 (sp_chunks s)
  else async_loop csize limit (sp_info s) true (removelast q) (List.last q []) no_entry cur (sp_chunks s).

(** ** Client *)

Inductive assembled := AOk (s : sample) | AError | ACrash.

(** sampler.cc:76-81: within an entry the chunks are taken from the back. *)
Definition collect_chunks (parts : list entry) : gmap Z chunk_data :=
  foldl (fun m e => foldl (fun m c => <[kc_key c := kc_data c]> m) m (rev (e_data e))) ∅ parts.

(** Lines 87-92. *)
Definition count_refs (tr : list (list slice)) : gmap Z Z :=
  foldl (fun m s => <[sl_key s := default 0 (m !! sl_key s) + 1]> m) ∅ (concat tr).

Inductive slices_result := SlOk (ts : list tensor) (chunks : gmap Z chunk_data) (refs : gmap Z Z) | SlError | SlCrash.

(** Lines 102-120, one column. *)
Fixpoint unpack_slices (sl : list slice) (chunks : gmap Z chunk_data) (refs : gmap Z Z) : slices_result :=
  match sl with
  | [] => SlOk [] chunks refs
  | s :: sl =>
    match chunks !! sl_key s with
    | None => SlError
    | Some c =>
      match unpack_chunk_column_and_slice c (sl_idx s) (sl_off s) (sl_len s) with
      | UInvalid => SlError
      | UCrash => SlCrash
      | UOk t =>
        let n := default 0 (refs !! sl_key s) - 1 in
        let refs := <[sl_key s := n]> refs in
        let chunks := if decide (n = 0) then delete (sl_key s) chunks else chunks in
        match unpack_slices sl chunks refs with
        | SlOk ts chunks refs => SlOk (t :: ts) chunks refs
        | r => r
        end
      end
    end
  end.

Inductive columns_result := ClOk (cols : list (list tensor)) | ClError | ClCrash.

(** Lines 100-121. *)
Fixpoint unpack_traj (tr : list (list slice)) (chunks : gmap Z chunk_data) (refs : gmap Z Z) : columns_result :=
  match tr with
  | [] => ClOk []
  | sl :: tr =>
    match unpack_slices sl chunks refs with
    | SlError => ClError
    | SlCrash => ClCrash
    | SlOk ts chunks refs =>
      match unpack_traj tr chunks refs with
      | ClOk cols => ClOk (ts :: cols)
      | r => r
      end
    end
  end.

(** Lines 72-129.  An entry without info has the default info of the message
    type: no columns. *)
Definition default_info : sinfo := mkSinfo (mkMeta 0 0 0 (Fin 0) false) [] [].
Definition finish_sample (i : sinfo) (c : columns_result) : assembled :=
  match c with
  | ClError => AError
  | ClCrash => ACrash
  | ClOk cols => match make_sample (si_meta i) cols (si_squeeze i) with Some s => AOk s | None => ACrash end
  end.
Definition as_sample (parts : list entry) : assembled :=
  match parts with
  | [] => ACrash
  | e :: _ =>
    let info := default default_info (e_info e) in
    finish_sample info (unpack_traj (si_traj info) (collect_chunks parts) (count_refs (si_traj info)))
  end.

(** Lines 131-166, used when client and server share the process.  A chunk that is
    missing is a null pointer. *)
Fixpoint local_slices (sl : list slice) (chunks : gmap Z chunk_data) : slices_result :=
  match sl with
  | [] => SlOk [] ∅ ∅
  | s :: sl =>
    match chunks !! sl_key s with
    | None => SlCrash
    | Some c =>
      match unpack_chunk_column_and_slice c (sl_idx s) (sl_off s) (sl_len s) with
      | UInvalid => SlError
      | UCrash => SlCrash
      | UOk t => match local_slices sl chunks with
                 | SlOk ts a b => SlOk (t :: ts) a b
                 | r => r
                 end
      end
    end
  end.
Fixpoint local_traj (tr : list (list slice)) (chunks : gmap Z chunk_data) : columns_result :=
  match tr with
  | [] => ClOk []
  | sl :: tr =>
    match local_slices sl chunks with
    | SlError => ClError
    | SlCrash => ClCrash
    | SlOk ts _ _ => match local_traj tr chunks with
                     | ClOk cols => ClOk (ts :: cols)
                     | r => r
                     end
    end
  end.
Definition as_sample_local (s : sampled_item) : assembled :=
  finish_sample (sp_info s) (local_traj (si_traj (sp_info s)) (foldl (fun m c => <[kc_key c := kc_data c]> m) ∅ (sp_chunks s))).

(** Lines 241-267: the entries of a response.  [parts] is parts_of_next_sample;
    the result are the complete samples and the parts left. The pushes to the
    queue succeed. *)
Fixpoint take_entries (parts : list entry) (es : list entry) : list (list entry) * list entry :=
  match es with
  | [] => ([], parts)
  | e :: es =>
    if e_eos e then let '(gs, p) := take_entries [] es in ((parts ++ [e]) :: gs, p)
    else take_entries (parts ++ [e]) es
  end.

(** Lines 226-273 for one request of [n] samples: the responses that the stream
    yields.  [FBlocked]: the client waits for a response; [FUnattributed]: the
    error of line 269. *)
Inductive fetched := FDone (samples : list assembled) (rest : list response) | FUnattributed | FBlocked (samples : list assembled).
Fixpoint fetch_request (n : nat) (parts : list entry) (acc : list assembled) (rs : list response) : fetched :=
  if (n <=? length acc)%nat then (match parts with [] => FDone acc rs | _ => FUnattributed end)
  else match rs with
       | [] => FBlocked acc
       | r :: rs => let '(gs, parts) := take_entries parts r in
                    fetch_request n parts (acc ++ (as_sample <$> gs)) rs
       end.
