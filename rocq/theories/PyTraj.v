(** The Python TrajectoryWriter (PyWriter.v) on top of the C++ TrajectoryWriter
    (TrajWriter.v): reverb/trajectory_writer.py with reverb/pybind.cc. *)
From stdpp Require Import strings gmap.
From Verif Require Import Base Signature PyWriter PyWriterProofs PropPyWriter Trajectory Tensor TrajUtil ChunkerOptions Sample Stream Reactor Chunker TrajWriter.

Global Instance tensor_eq_dec : EqDecision tensor.
Proof. solve_decision. Defined.

Notation py := (PyWriter.pw ref copts).
Notation pyevent := (PropPyWriter.pyev tensor ref copts).

(** ** Columns *)

(** What the user writes in brackets: an index, or a slice with a step. *)
Inductive sel := SIdx (i : Z) | SSlice (start stop : option Z) (step : nat).

(** Every [n]-th element, starting with the first; [skip] elements are left out
    first. *)
Fixpoint every {A} (n skip : nat) (l : list A) : list A :=
  match l with
  | [] => []
  | x :: l => match skip with O => x :: every n (pred n) l | S skip => every n skip l end
  end.

(** _ColumnHistory.__getitem__ and TrajectoryColumn, trajectory_writer.py:557-595.
    Only positive steps are modelled ([None]: an exception; a step of 0 raises
    ValueError). *)
Definition get_refs (c : list (option ref)) (s : sel) : option (list ref) :=
  match s with
  | SIdx i => col_index c i
  | SSlice a b n =>
    let len := length c in
    let from := match a with Some i => clip len i | None => 0%nat end in
    let to := match b with Some i => clip len i | None => len end in
    match n with O => None | _ => all_refs (every n 0 (take (to - from) (drop from c))) end
  end.
Definition squeezes (s : sel) : bool := match s with SIdx _ => true | SSlice _ _ _ => false end.

(** A TrajectoryColumn that the user has got from [history].  Ghost fields:
    [tc_want], the values that the user asked for; [tc_plain], whether no slice has
    had a step but 1. *)
Record tcol := mkTcol { tc_refs : list ref; tc_squeeze : bool; tc_want : list (option tensor); tc_plain : bool }.

(** ** The client *)

(** The call of a method that is running.  [CAppending]: [fd] was passed to the C++
    writer, [refs] has been put into the vector of references so far. *)
Inductive pcall :=
| CAppending (d : ptree (option tensor)) (partial : bool) (fd : list (option tensor)) (refs : list (option ref))
| CFlushing
| CEnding (clear : bool).

(** [c_log]: the calls that have returned, as in PropPyWriter.v.  [c_items]: the
    calls of create_item that returned without exception, with the key of the item. *)
Record client := mkClient {
  c_py : py; c_cxx : tw; c_call : option pcall; c_log : list (pyevent * pres);
  c_taken : list tcol; c_items : list (Z * list tcol) }.

Inductive cev :=
| CAppend (d : ptree (option tensor)) (partial : bool) (nk : nat -> Z)
| CTake (p : ppath) (s : sel)
| CSub (i : nat) (s : sel)
| CCreate (table : Z) (prio : dbl) (cols : list nat) (key : Z)
| CFlush (n : Z) (nk : nat -> Z)
| CEnd (clear : bool) (nk : nat -> Z)
| CConfigure (p : ppath) (o : copts) (ok : bool)
| CRun (e : tev).

(** What [append] passes to the C++ writer; [None]: it raises before the call.  (A
    call that raises shows whether there is one; the structure is that after the
    call.) *)
Definition passed (w : py) (d : ptree (option tensor)) : option (list (option tensor)) :=
  match append w d false (fun _ => None) with
  | (PyCxxError, w2) => reorder w2 d
  | _ => None
  end.
(** The call with [fd] has the result [refs]. *)
Definition call_with (fd : list (option tensor)) (refs : option (list (option ref))) : PyWriter.cxx tensor ref :=
  fun x => if bool_decide (x = fd) then refs else None.

(** What the user asks for with history[p][s]: the values of the steps, as
    PropPyWriter.v tells them from the calls. *)
Definition pick {A} (s : sel) (l : list A) : list A :=
  match s with
  | SIdx i => option_list (l !! Z.to_nat (if i <? 0 then i + Z.of_nat (length l) else i))
  | SSlice a b n =>
    let cut i := Z.to_nat (Z.max 0 (Z.min (Z.of_nat (length l)) (if i <? 0 then i + Z.of_nat (length l) else i))) in
    let from := from_option cut 0%nat a in
    every n 0 (take (from_option cut (length l) b - from) (drop from l))
  end.
Definition plain (s : sel) : bool := match s with SIdx _ => true | SSlice _ _ n => (n =? 1)%nat end.
Definition asked (log : list (pyevent * pres)) (p : ppath) (s : sel) : list (option tensor) :=
  pick s ((fun st => st p) <$> ep_steps (ep_of log)).

(** The reference that line 244 of trajectory_writer.cc adds for the column that
    [w] is about to append. *)
Definition next_ref (w : tw) (nk : Z) : option ref :=
  match w_user w with
  | UAppend i (Some t :: _) _ ep step => '(k, _) ← w_cols w !! i; '(_, id, _) ← k_append k t ep step nk; n ← id; Some (i, n)
  | _ => None
  end.

(** Which actions of the C++ writer run on their own: the stream worker, the reader
    of the responses, another thread that calls Close, and the rest of a call that
    has begun.  ConfigureChunker is called by [configure] and by [append], for new
    columns, between the other calls; here it may be called at any time, with any
    options, since what follows does not depend on them. *)
Definition runs (c : client) (e : tev) : bool :=
  match e with
  | EAppend _ _ _ | ECreate _ _ _ _ | EFlush _ _ | EEpisode _ _ => false
  | EConfigure _ _ => match c_call c with None => true | Some _ => false end
  | _ => true
  end.

Definition log_append (c : client) (w : tw) (d : ptree (option tensor)) (partial : bool) (call : PyWriter.cxx tensor ref) : client :=
  let '(r, p) := append (c_py c) d partial call in
  mkClient p w None (c_log c ++ [(PropPyWriter.EAppend d partial call, r)]) (c_taken c) (c_items c).
Definition log_end (c : client) (w : tw) (clear ok : bool) : client :=
  let '(r, p) := end_episode (c_py c) clear ok in
  mkClient p w None (c_log c ++ [(EEnd clear ok, r)]) (c_taken c) (c_items c).
Definition with_cxx (c : client) (w : tw) (call : option pcall) : client :=
  mkClient (c_py c) w call (c_log c) (c_taken c) (c_items c).

(** [None]: the event cannot happen now, or the process crashes (C56). *)
Definition c_step (c : client) (e : cev) : option client :=
  match e with
  | CRun e =>
    if runs c e then
      match tw_step (c_cxx c) e with
      | TNext w ret =>
        match c_call c, ret with
        | Some (CAppending d partial fd refs), None =>
          let refs := match e with EColumn nk => refs ++ [next_ref (c_cxx c) nk] | _ => refs end in
          Some (with_cxx c w (Some (CAppending d partial fd refs)))
        | Some (CAppending d partial fd refs), Some st =>
          (* Append returns; an error is raised as an exception *)
          Some (log_append c w d partial (call_with fd (if bool_decide (st = Ok) then Some refs else None)))
        | Some CFlushing, Some _ => Some (with_cxx c w None)
        | Some (CEnding clear), Some st => Some (log_end c w clear (bool_decide (st = Ok)))
        | call, _ => Some (with_cxx c w call)
        end
      | _ => None
      end
    else None
  | _ =>
    match c_call c with
    | Some _ => None
    | None =>
      match e with
      | CRun _ => None
      | CAppend d partial nk =>
        match passed (c_py c) d with
        | None => Some (log_append c (c_cxx c) d partial (fun _ => None))
        | Some fd =>
          match tw_step (c_cxx c) (EAppend fd (negb partial) nk) with
          | TNext w None => Some (with_cxx c w (Some (CAppending d partial fd [])))
          | TNext w (Some _) => Some (log_append c w d partial (fun _ => None))
          | _ => None
          end
        end
      | CTake p s =>
        h ← history (c_py c); col ← at_path h p; refs ← get_refs col s;
        Some (mkClient (c_py c) (c_cxx c) None (c_log c) (c_taken c ++ [mkTcol refs (squeezes s) (asked (c_log c) p s) (plain s)]) (c_items c))
      | CSub i s =>
        (* TrajectoryColumn.__getitem__, lines 605-613 *)
        tc ← c_taken c !! i; refs ← get_refs (Some <$> tc_refs tc) s;
        Some (mkClient (c_py c) (c_cxx c) None (c_log c)
          (c_taken c ++ [mkTcol refs (squeezes s) (pick s (tc_want tc)) (tc_plain tc && plain s)]) (c_items c))
      | CCreate table prio cols key =>
        (* create_item, lines 323-359, with the leaves of the trajectory *)
        tcs ← mapM (fun i => c_taken c !! i) cols;
        match tw_step (c_cxx c) (ECreate table prio ((fun tc => (tc_refs tc, tc_squeeze tc)) <$> tcs) key) with
        | TNext w (Some st) =>
          Some (mkClient (c_py c) w None (c_log c) (c_taken c) (if bool_decide (st = Ok) then c_items c ++ [(key, tcs)] else c_items c))
        | _ => None
        end
      | CFlush n nk =>
        (* lines 361-407; ValueError for a negative number *)
        if n <? 0 then Some c
        else match tw_step (c_cxx c) (EFlush n nk) with
             | TNext w None => Some (with_cxx c w (Some CFlushing))
             | TNext w (Some _) => Some (with_cxx c w None)
             | _ => None
             end
      | CEnd clear nk =>
        match tw_step (c_cxx c) (EEpisode clear nk) with
        | TNext w None => Some (with_cxx c w (Some (CEnding clear)))
        | TNext w (Some _) => Some (log_end c w clear false)
        | _ => None
        end
      | CConfigure p o ok =>
        let '(r, q) := PyWriter.configure (c_py c) p o ok in
        Some (mkClient q (c_cxx c) None (c_log c ++ [(PropPyWriter.EConfigure p o ok, r)]) (c_taken c) (c_items c))
      end
    end
  end.

(** The restrictions of TrajWriter.v (fresh keys, well formed tensors) and of C66:
    every step has a leaf, the steps are all containers or all bare values, and an
    episode is not ended while a step is open. *)
Definition c_enabled (top : bool) (c : client) (e : cev) : Prop :=
  match e with
  | CAppend d _ nk =>
    wf_tree d /\ is_leaf d = top /\ (exists p, is_Some (at_path d p)) /\ fresh_keys (c_cxx c) nk /\
    (forall p t, value_at d p = Some t -> tensor_ok t)
  | CCreate _ _ _ key => key ∉ ((fun p => wi_key p.1) <$> w_created (c_cxx c))
  | CFlush _ nk => fresh_keys (c_cxx c) nk
  | CEnd _ nk => ep_cur (ep_of (c_log c)) = None /\ fresh_keys (c_cxx c) nk
  | CRun e => tw_enabled (c_cxx c) e
  | CTake _ _ | CSub _ _ | CConfigure _ _ _ => True
  end.

Definition c_new (o : copts) (sigs : option (gmap Z (option (list tspec)))) (ep : Z) : client :=
  mkClient w_init (tw_new o sigs ep) None [] [] [].
Inductive c_reach (top : bool) (c0 : client) : client -> Prop :=
| cr_init : c_reach top c0 c0
| cr_step c e c' : c_reach top c0 c -> c_enabled top c e -> c_step c e = Some c' -> c_reach top c0 c'.

Fixpoint c_run (c : client) (es : list cev) : option client :=
  match es with [] => Some c | e :: es => c ← c_step c e; c_run c es end.
