(** Model of the chunker options, reverb/cc/chunker.{h,cc}: constant and auto
    tuned.  Doubles are rationals rounded by [rnd]; the lengths of chunks are
    positive, so no division by zero happens.  The mutex of the auto tuned options
    makes every method one action. *)
From Verif Require Import Base.

(** chunker.h:405-417. *)
Record stat := mkStat { st_key : Z; st_bps : Q; st_len : Q }.
(** chunker.h:398-402. *)
Record score := mkScore { sc_len : Q; sc_cost : Q }.

Record auto := mkAuto {
  au_keep : Z; au_delta : bool; au_weight : Q; au_max : Z; au_prev : score;
  au_items : list stat; au_chunks : list stat }.

Inductive copts := Constant (max keep : Z) (delta : bool) | Auto (a : auto).

(** Lines 389-396. *)
Definition auto_new (keep : Z) (weight : Q) (delta : bool) : auto :=
  mkAuto keep delta weight 1 (mkScore (-1) (-1)) [] [].

(** Lines 370-378, 398-407. *)
Definition get_max (o : copts) : Z := match o with Constant m _ _ => m | Auto a => au_max a end.
Definition get_keep (o : copts) : Z := match o with Constant _ k _ => k | Auto a => au_keep a end.
Definition get_delta (o : copts) : bool := match o with Constant _ _ d => d | Auto a => au_delta a end.

(** Lines 384-387 and 538-541: the last constructor argument has the default
    value false (chunker.h:283, 349). *)
Definition clone (o : copts) : copts :=
  match o with
  | Constant m k _ => Constant m k false
  | Auto a => Auto (auto_new (au_keep a) (au_weight a) false)
  end.

(** Lines 344-361. *)
Definition validate_options (o : copts) : status :=
  if get_max o <=? 0 then InvalidArgument
  else if get_keep o <=? 0 then InvalidArgument
  else if get_keep o <? get_max o then InvalidArgument
  else Ok.

(** What the statistics use of a reference: key, size in bytes and length of its
    chunk (which is ready). *)
Record cref := mkCref { cr_key : Z; cr_bytes : Z; cr_len : Z }.

Section Auto.
Context `{FP}.
Open Scope Q_scope.

Definition qdiv (a b : Q) : Q := rnd (a / b).
Definition qadd (a b : Q) : Q := rnd (a + b).

(** chunker.h:325-343. *)
Definition k_items : nat := 10.
Definition k_chunks : nat := 5.
Definition k_pos : Z := 2.
Definition k_neg : Z := -1.
Definition k_error : Q := 1 # 4.

(** Lines 412-420: bytes, lengths, chunks seen. *)
Fixpoint sum_chunks (refs : list cref) (seen : list Z) (bytes len : Q) : Q * Q * list Z :=
  match refs with
  | [] => (bytes, len, seen)
  | r :: refs =>
    if decide (cr_key r ∈ seen) then sum_chunks refs seen bytes len
    else sum_chunks refs (cr_key r :: seen) (qadd bytes (inject_Z (cr_bytes r))) (qadd len (inject_Z (cr_len r)))
  end.

(** Lines 409-430. *)
Definition push_item (items : list stat) (refs : list cref) : list stat :=
  let '(bytes, len, seen) := sum_chunks refs [] 0 0 in
  let items := items ++ [mkStat 0 (qdiv bytes (inject_Z (Z.of_nat (length refs)))) (qdiv len (inject_Z (Z.of_nat (length seen))))] in
  if (k_items <? length items)%nat then tail items else items.

(** Lines 517-536. *)
Definition push_chunk (chunks : list stat) (r : cref) : list stat :=
  if forallb (fun s => negb (st_key s =? cr_key r)%Z) chunks
  then chunks ++ [mkStat (cr_key r) (qdiv (inject_Z (cr_bytes r)) (inject_Z (cr_len r))) (inject_Z (cr_len r))]
  else chunks.
Definition push_chunks (chunks : list stat) (refs : list cref) : list stat :=
  let chunks := foldl push_chunk chunks refs in drop (length chunks - 5) chunks.

(** Lines 484-515; [None]: one of the CHECKs in lines 489-490 fails. *)
Definition reduce (a : auto) : option score :=
  if (length (au_items a) =? k_items)%nat && (length (au_chunks a) =? k_chunks)%nat then
    let n := inject_Z (Z.of_nat (length (au_items a))) in let m := inject_Z (Z.of_nat (length (au_chunks a))) in
    let item_bps := foldl (fun x s => qadd x (qdiv (st_bps s) n)) 0 (au_items a) in
    let chunk_bps := foldl (fun x s => qadd x (qdiv (st_bps s) m)) 0 (au_chunks a) in
    let len := foldl (fun x s => qadd x (st_len s)) 0 (au_items a ++ au_chunks a) in
    Some (mkScore (qdiv len (n + m)) (qadd chunk_bps (rnd (item_bps * au_weight a))))
  else None.

(** Lines 432-482; [None]: a CHECK fails. *)
Definition auto_finalized (a : auto) (refs : list cref) : option auto :=
  match refs with
  | [] => None
  | _ =>
    let a := mkAuto (au_keep a) (au_delta a) (au_weight a) (au_max a) (au_prev a) (push_item (au_items a) refs) (push_chunks (au_chunks a) refs) in
    if (length (au_items a) <? k_items)%nat || (length (au_chunks a) <? k_chunks)%nat then Some a
    else
      sc ← reduce a;
      let upd (max : Z) (prev : score) := mkAuto (au_keep a) (au_delta a) (au_weight a) max prev [] [] in
      if Qeq_bool (sc_len (au_prev a)) (-1) then Some (upd (Z.min (au_max a + k_pos) (au_keep a)) sc)
      else if negb (Qle_bool (Qabs (rnd (sc_len sc - inject_Z (au_max a)))) k_error) then Some (upd (au_max a) (au_prev a))
      else
        let cost_reduced := negb (Qle_bool (sc_cost (au_prev a)) (sc_cost sc)) in
        let length_grew := negb (Qle_bool (sc_len sc) (sc_len (au_prev a))) in
        let diff := if Bool.eqb cost_reduced length_grew then k_pos else k_neg in
        let new := Z.min (Z.max (au_max a + diff) 1) (au_keep a) in
        if (new =? au_max a)%Z then Some (upd (au_max a) (au_prev a)) else Some (upd new sc)
  end.

(** Lines 380-382 for the constant options. *)
Definition on_item_finalized (o : copts) (refs : list cref) : option copts :=
  match o with Constant _ _ _ => Some o | Auto a => Auto <$> auto_finalized a refs end.

Definition opts_run (o : copts) (items : list (list cref)) : option copts :=
  foldl (fun o refs => o ← o; on_item_finalized o refs) (Some o) items.

End Auto.

(** How a trajectory writer configures the chunker of a column: the constructor
    takes default options (trajectory_writer.cc:141-147), ConfigureChunker (lines
    644-654) sets the options of a column, before or after its chunker exists;
    the chunker is made with a clone of the options (lines 218-226). *)
Record wconf := mkWconf { wc_default : copts; wc_override : gmap Z copts; wc_chunkers : gmap Z copts }.
Inductive wcop := WConfigure (col : Z) (o : copts) | WFirstAppend (col : Z).
Definition wc_step (w : wconf) (a : wcop) : wconf :=
  match a with
  | WConfigure col o =>
    if decide (validate_options o = Ok) then
      match wc_chunkers w !! col with
      | Some _ => mkWconf (wc_default w) (wc_override w) (<[col := clone o]> (wc_chunkers w))
      | None => mkWconf (wc_default w) (<[col := clone o]> (wc_override w)) (wc_chunkers w)
      end
    else w
  | WFirstAppend col =>
    match wc_chunkers w !! col with
    | Some _ => w
    | None => mkWconf (wc_default w) (wc_override w) (<[col := clone (default (wc_default w) (wc_override w !! col))]> (wc_chunkers w))
    end
  end.
