(** Several tables in one process and the objects they are made of: selectors, rate
    limiters and extensions are objects of their own (shared_ptr) that Python code makes
    first and passes to the constructors of tables (pybind.cc:498-577).  Model of
    the construction and destruction of tables (table.cc:131-182), of RegisterTable and
    UnregisterTable (rate_limiter.cc:76-94, table_extensions/base.cc:25-42) and of calls
    on tables whose selectors and limiters may be the ones of other tables. *)
From Verif Require Import Base RateLimiter Selector Trajectory Table.

Section WithFP.
Context {fp : FP}.

(** A rate limiter with its member table_ (rate_limiter.h:304). *)
Record lobj := mkLobj { lo_lim : limiter; lo_reg : option nat }.
(** An extension with its member table_ (table_extensions/base.h:72) and the calls that
    it has received, with the table that made them (this is not a member). *)
Record xobj := mkXobj { xo_reg : option nat; xo_seen : list (nat * event) }.
(** A table: its members sampler_, remover_, rate_limiter_ and sync_extensions_ are
    references, the others are those of [o_tab].  The selectors and the limiter inside
    [o_tab] have no meaning. *)
Record tobj := mkTobj { o_s : nat; o_r : nat; o_l : nat; o_x : list nat; o_tab : table }.

(** All objects of the process, numbered in the order in which they are made.  A
    table that has been destroyed, or could not be made, is [None]. *)
Record world := mkWorld {
  w_sel : list selector; w_lim : list lobj; w_ext : list xobj; w_tab : list (option tobj) }.
Definition new_world : world := mkWorld [] [] [] [].

Record targs := mkTargs {
  a_max_size : Z; a_max_times : Z; a_s : nat; a_r : nat; a_l : nat; a_x : list nat }.
Inductive pev :=
| PSel (k : sel_kind)                                   (* pybind.cc:504-523 *)
| PLim (spi_ : Q) (min_size_ : Z) (min_diff_ max_diff_ : Q) (* pybind.cc:530-533 *)
| PExt
| PTable (a : targs)
| PCall (i : nat) (o : op)
| PDrop (i : nat).                                       (* the last reference to a table goes *)

(** base.cc:25-36, called in turn for the extensions of a table.  [None]: the
    REVERB_CHECK_OK of table.cc:154 fails. *)
Fixpoint register_exts (i : nat) (xs : list nat) (es : list xobj) : option (list xobj) :=
  match xs with
  | [] => Some es
  | x :: xs =>
    match es !! x with
    | Some e =>
      match xo_reg e with
      | Some _ => None
      | None => register_exts i xs (<[x := mkXobj (Some i) (xo_seen e)]> es)
      end
    | None => None (* a null pointer *)
    end
  end.

(** base.cc:38-42.  [None]: the REVERB_CHECK_EQ fails. *)
Fixpoint unregister_exts (i : nat) (xs : list nat) (es : list xobj) : option (list xobj) :=
  match xs with
  | [] => Some es
  | x :: xs =>
    match es !! x with
    | Some e =>
      if decide (xo_reg e = Some i) then unregister_exts i xs (<[x := mkXobj None (xo_seen e)]> es)
      else None
    | None => None
    end
  end.

(** The calls that the extensions get. *)
Fixpoint notify (i : nat) (evs : list event) (xs : list nat) (es : list xobj) : list xobj :=
  match xs with
  | [] => es
  | x :: xs => notify i evs xs (alter (fun e => mkXobj (xo_reg e) (xo_seen e ++ (pair i <$> evs))) x es)
  end.

(** The table as its functions see it. *)
Definition view (w : world) (o : tobj) : option table :=
  match w_sel w !! o_s o, w_sel w !! o_r o, w_lim w !! o_l o with
  | Some s, Some r, Some l =>
    Some (with_limiter (with_remover (with_sampler (o_tab o) s) r) (lo_lim l))
  | _, _, _ => None
  end.

(** What a call leaves behind. *)
Definition put (w : world) (i : nat) (o : tobj) (t : table) : world :=
  mkWorld (<[o_r o := t_remover t]> (<[o_s o := t_sampler t]> (w_sel w)))
    (alter (fun l => mkLobj (t_limiter t) (lo_reg l)) (o_l o) (w_lim w))
    (notify i (drop (length (t_log (o_tab o))) (t_log t)) (o_x o) (w_ext w))
    (<[i := Some (mkTobj (o_s o) (o_r o) (o_l o) (o_x o) t)]> (w_tab w)).

(** table.cc:131-156 without the worker queues, the name and the signature. *)
Definition make_table (w : world) (a : targs) : option world :=
  let i := length (w_tab w) in
  match w_sel w !! a_s a, w_sel w !! a_r a, w_lim w !! a_l a with
  | Some s, Some r, Some l =>
    match lo_reg l with
    | Some _ => None (* REVERB_CHECK_OK, table.cc:152 *)
    | None =>
      match register_exts i (a_x a) (w_ext w) with
      | None => None
      | Some es =>
        Some (mkWorld (w_sel w) (<[a_l a := mkLobj (lo_lim l) (Some i)]> (w_lim w)) es
          (w_tab w ++ [Some (mkTobj (a_s a) (a_r a) (a_l a) (a_x a)
             (mkTable (a_max_size a) (a_max_times a) s r (lo_lim l) ∅ ∅ 0 0 []))]))
      end
    end
  | _, _, _ => (* no such objects: not possible in a program *)
    Some (mkWorld (w_sel w) (w_lim w) (w_ext w) (w_tab w ++ [None]))
  end.

(** table.cc:158-182 without the threads: Close, then UnregisterTable of the
    limiter (rate_limiter.cc:88-94, which resets the counters) and of the extensions. *)
Definition drop_table (w : world) (i : nat) (o : tobj) : option world :=
  match w_lim w !! o_l o with
  | Some l =>
    if decide (lo_reg l = Some i) then
      match unregister_exts i (o_x o) (w_ext w) with
      | None => None
      | Some es =>
        Some (mkWorld (w_sel w) (<[o_l o := mkLobj (lim_reset (lim_cancel (lo_lim l))) None]> (w_lim w)) es
          (<[i := None]> (w_tab w)))
      end
    else None
  | None => None
  end.

(** One step of the program; [None]: the process dies.  Steps that no program can
    make (a call on a table that is not there) do nothing.  A table that was given the
    same object for sampler and remover is left out: its calls do nothing (for
    insertions see [insert_same]). *)
Definition pstep (w : world) (e : pev) : option (list (nat * result) * world) :=
  match e with
  | PSel k => Some ([], mkWorld (w_sel w ++ [sel_new k]) (w_lim w) (w_ext w) (w_tab w))
  | PLim s m lo hi =>
    Some ([], mkWorld (w_sel w) (w_lim w ++ [mkLobj (new_limiter s m lo hi) None]) (w_ext w) (w_tab w))
  | PExt => Some ([], mkWorld (w_sel w) (w_lim w) (w_ext w ++ [mkXobj None []]) (w_tab w))
  | PTable a => match make_table w a with Some w => Some ([], w) | None => None end
  | PCall i o =>
    match w_tab w !! i with
    | Some (Some ob) =>
      if decide (o_s ob = o_r ob) then Some ([], w) else
      match view w ob with
      | Some t =>
        match step t o with
        | Some (r, t) => Some ([(i, r)], put w i ob t)
        | None => None
        end
      | None => None
      end
    | _ => Some ([], w)
    end
  | PDrop i =>
    match w_tab w !! i with
    | Some (Some ob) => match drop_table w i ob with Some w => Some ([], w) | None => None end
    | _ => Some ([], w)
    end
  end.

Fixpoint prun (w : world) (es : list pev) : option (list (nat * result) * world) :=
  match es with
  | [] => Some ([], w)
  | e :: es =>
    match pstep w e with
    | None => None
    | Some (rs, w) =>
      match prun w es with
      | None => None
      | Some (rs', w) => Some (rs ++ rs', w)
      end
    end
  end.

(** table.cc:513-530, the beginning of the insertion of a new item, when sampler_ and
    remover_ are the same object [s]. *)
Definition insert_same (s : selector) (k : Z) (p : dbl) : status * selector :=
  let '(st, s) := sel_insert s k p in
  if negb (bool_decide (st = Ok)) then (st, s) else sel_insert s k p.

End WithFP.
