(** Model of the Python TrajectoryWriter, reverb/trajectory_writer.py: how nested
    steps are mapped to the columns of the C++ writer and to [history]. *)
From stdpp Require Import strings gmap.
From Verif Require Import Base Signature.

(** ** Nested structures, as the tree library sees them *)

(** Element of a path: a key of a dictionary, a field or an index. *)
Inductive pkey := PStr (s : string) | PInt (i : nat).
Global Instance pkey_dec : EqDecision pkey.
Proof. solve_decision. Defined.
Global Instance pkey_countable : Countable pkey.
Proof.
  apply (inj_countable' (fun k => match k with PStr s => inl s | PInt i => inr i end)
    (fun k => match k with inl s => PStr s | inr i => PInt i end)). by intros [].
Defined.
Notation ppath := (list pkey).

(** Dictionaries, named tuples, lists and tuples (not told apart).  Keys of a
    dictionary are distinct ([wf_tree], PropPyWriter.v); their order is forgotten
    whenever it is not observable.  Keys that are no strings and other types of
    containers are not modelled. *)
Inductive ptree (A : Type) : Type :=
| PLeaf (a : A)
| PDict (l : list (string * ptree A))
| PNamed (l : list (string * ptree A))
| PSeq (l : list (ptree A)).
Arguments PLeaf {_}. Arguments PDict {_}. Arguments PNamed {_}. Arguments PSeq {_}.

Definition prefixed {A} (k : pkey) (l : list (ppath * A)) : list (ppath * A) := List.map (fun pa => (k :: fst pa, snd pa)) l.

(** tree.flatten_with_path: depth first, dictionaries in the order of their keys. *)
Fixpoint flat {A} (t : ptree A) : list (ppath * A) :=
  match t with
  | PLeaf a => [([], a)]
  | PDict l =>
    let fl := List.map (fun kt => (fst kt, flat (snd kt))) l in
    List.concat (List.map (fun kf => prefixed (PStr (fst kf)) (snd kf)) (sort_keys fl))
  | PNamed l =>
    let fl := List.map (fun kt => (fst kt, flat (snd kt))) l in
    List.concat (List.map (fun kf => prefixed (PStr (fst kf)) (snd kf)) fl)
  | PSeq l => List.concat (imap (fun i f => prefixed (PInt i) f) (List.map flat l))
  end.

(** tree.map_structure. *)
Fixpoint tmap {A B} (f : A -> B) (t : ptree A) : ptree B :=
  match t with
  | PLeaf a => PLeaf (f a)
  | PDict l => PDict (List.map (fun kt => (fst kt, tmap f (snd kt))) l)
  | PNamed l => PNamed (List.map (fun kt => (fst kt, tmap f (snd kt))) l)
  | PSeq l => PSeq (List.map (tmap f) l)
  end.

(** One subtree after the other takes its leaves from the front of the list. *)
Fixpoint fill_keyed {B} (l : list (string * (list B -> option (ptree B * list B)))) (xs : list B) : option (list (string * ptree B) * list B) :=
  match l with
  | [] => Some ([], xs)
  | (k, f) :: l => '(t, xs) ← f xs; '(ts, xs) ← fill_keyed l xs; Some ((k, t) :: ts, xs)
  end.
Fixpoint fill_seq {B} (l : list (list B -> option (ptree B * list B))) (xs : list B) : option (list (ptree B) * list B) :=
  match l with
  | [] => Some ([], xs)
  | f :: l => '(t, xs) ← f xs; '(ts, xs) ← fill_seq l xs; Some (t :: ts, xs)
  end.
Fixpoint fill {A B} (t : ptree A) : list B -> option (ptree B * list B) :=
  match t with
  | PLeaf _ => fun xs => match xs with [] => None | x :: xs => Some (PLeaf x, xs) end
  | PDict l =>
    let fl := sort_keys (List.map (fun kt => (fst kt, fill (snd kt))) l) in
    fun xs => '(ts, xs) ← fill_keyed fl xs; Some (PDict ts, xs)
  | PNamed l =>
    let fl := List.map (fun kt => (fst kt, fill (snd kt))) l in
    fun xs => '(ts, xs) ← fill_keyed fl xs; Some (PNamed ts, xs)
  | PSeq l =>
    let fl := List.map fill l in
    fun xs => '(ts, xs) ← fill_seq fl xs; Some (PSeq ts, xs)
  end.
(** tree.unflatten_as. [None]: ValueError, the number of leaves differs. *)
Definition unflatten_as {A B} (t : ptree A) (xs : list B) : option (ptree B) :=
  '(t, xs) ← fill t xs; match xs with [] => Some t | _ => None end.

(** The leaf None. *)
Notation PNone := (PLeaf tt).

Definition dict_get {A} (k : string) (l : list (string * A)) : option A := snd <$> find (fun kt => String.eqb (fst kt) k) l.

(** merged = dict of a, then the items of b (lines 679-686).  [f]: the union of a
    value of a with a value of b; [None]: an exception. *)
Fixpoint merge_a {A} (fl : list (string * (A -> option A))) (la : list (string * A)) (b : list (string * A)) : option (list (string * A)) :=
  match la, fl with
  | (k, v) :: la, (_, f) :: fl =>
    v' ← (match dict_get k b with Some w => f w | None => Some v end);
    r ← merge_a fl la b; Some ((k, v') :: r)
  | _, _ => Some []
  end.
Definition merge_dicts {A} (fl : list (string * (A -> option A))) (la b : list (string * A)) : option (list (string * A)) :=
  r ← merge_a fl la b;
  Some (r ++ List.filter (fun kv => negb (existsb (fun ka => String.eqb (fst ka) (fst kv)) la)) b).

(** itertools.zip_longest with the values None for what is missing. *)
Fixpoint zip_union (fl : list (ptree unit -> option (ptree unit))) (b : list (ptree unit)) : option (list (ptree unit)) :=
  match fl, b with
  | [], _ => Some (List.map (fun _ => PNone) b)
  | f :: fl, [] => t ← f PNone; r ← zip_union fl []; Some (t :: r)
  | f :: fl, x :: b => t ← f x; r ← zip_union fl b; Some (t :: r)
  end.

(** _tree_union, lines 668-688. [None]: an exception (AttributeError or TypeError).
    Simplified: a list against a dictionary would iterate over its keys; here it
    is an exception (in the code [append] raises too, a little later). *)
Fixpoint tree_union (a : ptree unit) : ptree unit -> option (ptree unit) :=
  match a with
  | PLeaf _ => fun _ => Some a
  | PNamed la =>
    let fl := List.map (fun kt => (fst kt, tree_union (snd kt))) la in
    fun b =>
      match b with
      | PNamed lb =>
        (* type(a)(...) accepts the fields of a only *)
        if forallb (fun kv => existsb (fun ka => String.eqb (fst ka) (fst kv)) la) lb
        then l ← merge_dicts fl la lb; Some (PNamed l) else None
      | _ => None
      end
  | PSeq la =>
    let fl := List.map tree_union la in
    fun b =>
      match b with
      | PSeq lb => l ← zip_union fl lb; Some (PSeq l)
      | PNamed lb => l ← zip_union fl (List.map snd lb); Some (PSeq l)
      | _ => None
      end
  | PDict la =>
    let fl := List.map (fun kt => (fst kt, tree_union (snd kt))) la in
    fun b =>
      match b with
      | PDict lb => l ← merge_dicts fl la lb; Some (PDict l)
      | _ => None
      end
  end.

(** ** The writer *)

Section Writer.
Context {V R O : Type}.

(** trajectory_writer.py:101-134.  The order of the columns of the C++ writer is
    that of [w_cols].  [w_struct] is the leaf None until it is set (line 107). *)
Record pw := mkPw {
  w_struct : ptree unit;
  w_cols : list (list (option R));
  w_paths : gmap ppath nat;      (* _path_to_column_index *)
  w_flat : list nat;             (* _column_index_to_flat_structure_index *)
  w_config : gmap ppath O;       (* _path_to_column_config *)
  w_open : bool;                 (* _last_step_is_open *)
  w_cxx : gmap nat O;            (* what the C++ writer was told by ConfigureChunker *)
}.
Definition w_init : pw := mkPw PNone [] ∅ [] ∅ false ∅.

(** Lines 485-494: new paths get the next column and their configuration is
    passed on. *)
Definition add_path (cfg : gmap ppath O) (s : gmap ppath nat * gmap nat O) (p : ppath) : gmap ppath nat * gmap nat O :=
  let '(m, cxx) := s in
  match m !! p with
  | Some _ => (m, cxx)
  | None =>
    let c := size m in
    (<[p := c]> m, match cfg !! p with Some o => <[c := o]> cxx | None => cxx end)
  end.

(** _update_structure, lines 460-513. *)
Definition update_structure (w : pw) (new : ptree unit) : pw :=
  let ps := List.map fst (flat new) in
  let '(m, cxx) := foldl (add_path (w_config w)) (w_paths w, w_cxx w) ps in
  let hl := match w_cols w with c :: _ => length c | [] => 0%nat end in
  mkPw new (w_cols w ++ replicate (length ps - length (w_cols w)) (replicate hl None))
    m (List.map (fun p => default 0%nat (m !! p)) ps) (w_config w) (w_open w) cxx.

(** _reorder_like_flat_structure, lines 443-447. [None]: KeyError. *)
Fixpoint reorder_into (m : gmap ppath nat) (l : list (ppath * option V)) (out : list (option V)) : option (list (option V)) :=
  match l with
  | [] => Some out
  | (p, v) :: l => c ← m !! p; reorder_into m l (<[c := v]> out)
  end.
Definition reorder (w : pw) (d : ptree (option V)) : option (list (option V)) :=
  reorder_into (w_paths w) (flat d) (replicate (size (w_paths w)) None).

(** can_set_last, lines 547-549 (an empty list counts as false). *)
Definition can_set_last (c : list (option R)) : bool :=
  match last c with Some None => true | _ => false end.

(** Lines 540-545. [None]: RuntimeError. *)
Definition set_last (c : list (option R)) (r : R) : option (list (option R)) :=
  match last c with Some None => Some (<[pred (length c) := Some r]> c) | _ => None end.

(** Lines 285-296: a column of an open step may be set once. *)
Definition step_free (w : pw) (fd : list (option V)) : bool :=
  negb (w_open w) || forallb (fun cd => match snd cd with None => true | Some _ => can_set_last (fst cd) end) (zip (w_cols w) fd).

(** Lines 307-315, zip stops at the shorter list. *)
Fixpoint add_refs (open : bool) (cols : list (list (option R))) (refs : list (option R)) : option (list (list (option R))) :=
  match cols, refs with
  | c :: cols, r :: refs =>
    c' ← (if open then match r with Some r => set_last c r | None => Some c end else Some (c ++ [r]));
    l ← add_refs open cols refs; Some (c' :: l)
  | cols, _ => Some cols
  end.

Inductive pres := PyOk | PyKeyError | PyValueError | PyRuntimeError | PyTypeError | PyCxxError.

(** The outcome of the call of the C++ writer: it raises, or returns one optional
    reference for every column it got. *)
Definition cxx := list (option V) -> option (list (option R)).

(** append, lines 237-321. *)
Definition append (w : pw) (d : ptree (option V)) (partial : bool) (call : cxx) : pres * pw :=
  (* 270-272 *)
  let w1 := match w_struct w with PLeaf _ => update_structure w (tmap (fun _ => tt) d) | _ => w end in
  (* 274-288 *)
  let '(err, w2, fd) :=
    match reorder w1 d with
    | Some fd => (PyOk, w1, fd)
    | None =>
      match tree_union (w_struct w1) (tmap (fun _ => tt) d) with
      | None => (PyTypeError, w1, [])
      | Some s =>
        let w2 := update_structure w1 s in
        match reorder w2 d with Some fd => (PyOk, w2, fd) | None => (PyKeyError, w2, []) end
      end
    end in
  match err with
  | PyOk =>
    if negb (step_free w2 fd) then (PyValueError, w2)
    else
      match call fd with
      | None => (PyCxxError, w2)
      | Some refs =>
        match add_refs (w_open w2) (w_cols w2) refs with
        | None => (PyRuntimeError, w2)
        | Some cols => (PyOk, mkPw (w_struct w2) cols (w_paths w2) (w_flat w2) (w_config w2) partial (w_cxx w2))
        end
      end
  | e => (e, w2)
  end.

(** end_episode, lines 409-438. [ok]: the C++ call returned without exception. *)
Definition end_episode (w : pw) (clear ok : bool) : pres * pw :=
  if negb ok then (PyCxxError, w)
  else (PyOk, if clear then mkPw (w_struct w) (List.map (fun _ => []) (w_cols w)) (w_paths w) (w_flat w) (w_config w) (w_open w) (w_cxx w) else w).

(** configure, lines 193-235, after the checks of its arguments. [ok]: the C++
    writer accepts new options for a column it already has. *)
Definition configure (w : pw) (p : ppath) (o : O) (ok : bool) : pres * pw :=
  match w_paths w !! p with
  | Some c =>
    if ok then (PyOk, mkPw (w_struct w) (w_cols w) (w_paths w) (w_flat w) (w_config w) (w_open w) (<[c := o]> (w_cxx w)))
    else (PyCxxError, w)
  | None => (PyOk, mkPw (w_struct w) (w_cols w) (w_paths w) (w_flat w) (<[p := o]> (w_config w)) (w_open w) (w_cxx w))
  end.

(** _unflatten and history, lines 147-179, 449-454. [None]: an exception. *)
Definition history (w : pw) : option (ptree (list (option R))) :=
  match w_cols w with
  | [] => None
  | _ => l ← mapM (fun i => c ← w_flat w !! i; w_cols w !! c) (seq 0 (length (w_cols w))); unflatten_as (w_struct w) l
  end.

(** episode_steps, lines 181-191. *)
Definition episode_steps (w : pw) : Z :=
  match w_cols w with
  | [] => 0
  | c :: _ => Z.of_nat (length c) - (if w_open w then 1 else 0)
  end.

(** _ColumnHistory.__getitem__ and TrajectoryColumn, lines 557-595: what is passed
    to CreateItem.  An index counts from the end if it is negative; bounds of a
    slice (without step) are cut to the list.  [None]: an exception (IndexError,
    or ValueError because of a None). *)
Definition all_refs (l : list (option R)) : option (list R) := mapM id l.
Definition col_index (c : list (option R)) (i : Z) : option (list R) :=
  let j := if i <? 0 then i + Z.of_nat (length c) else i in
  if j <? 0 then None else r ← c !! Z.to_nat j; all_refs [r].
Definition clip (n : nat) (i : Z) : nat :=
  Z.to_nat (Z.max 0 (Z.min (Z.of_nat n) (if i <? 0 then i + Z.of_nat n else i))).
Definition col_slice (c : list (option R)) (start stop : option Z) : option (list R) :=
  let n := length c in
  let a := match start with Some i => clip n i | None => 0%nat end in
  let b := match stop with Some i => clip n i | None => n end in
  all_refs (take (b - a) (drop a c)).
End Writer.
Arguments pw : clear implicits. Arguments cxx : clear implicits.
