(** The Python class Writer (reverb/client.py:35-206) around the C++ one of Writer.v: what
    its flag _closed does. *)
From Verif Require Import Base Trajectory Tensor TrajUtil ChunkerOptions Sample Stream Reactor Chunker TrajWriter Writer.
Local Open Scope Z_scope.

Record pyv := mkPyv { v_w : lw; v_closed : bool }.
(** [VOut st]: the C++ method has returned [st], of which pybind makes an exception unless it
    is Ok.  [VValueError]: lines 173 and 204.  append_sequence, line 149, is a loop of appends
    (AppendSeq.v). *)
Inductive vres := VNone | VOut (st : status) | VValueError.
Inductive vev :=
| VCall (e : lev)       (* append, create_item, flush: lines 99, 172-174, 185 *)
| VClose (retry : bool) (* close *)
| VExit                 (* the end of a with block, however it ends *)
| VDel                  (* __del__ *)
| VDestroy              (* the C++ object is destroyed *)
| VGo (e : lev).        (* the call that is running, the worker and the server *)

Definition lift (b : bool) (e : lev) (r : lres) : option (pyv * list (lev * option status) * vres) :=
  match r with
  | LNext w ret => Some (mkPyv w b, [(e, ret)], match ret with Some st => VOut st | None => VNone end)
  | _ => None
  end.
(** Lines 203-206: the flag is set before the call. *)
Definition py_close (p : lconf) (v : pyv) (retry : bool) : option (pyv * list (lev * option status) * vres) :=
  if v_closed v then Some (v, [], VValueError) else lift true (LClose retry) (lw_step p (v_w v) (LClose retry)).
Definition user_call (e : lev) : bool := match e with LAppend _ | LCreate _ _ _ _ | LFlush => true | _ => false end.
(** Lines 172-173. *)
Definition py_refuses (e : lev) : bool := match e with LCreate _ n _ _ => n <? 1 | _ => false end.
Definition vstep (p : lconf) (v : pyv) (e : vev) : option (pyv * list (lev * option status) * vres) :=
  match e with
  | VCall e =>
    if user_call e then
      if py_refuses e then Some (v, [], VValueError) else lift (v_closed v) e (lw_step p (v_w v) e)
    else None
  | VClose retry => py_close p v retry
  | VExit => py_close p v true                                           (* lines 51-52 *)
  | VDel => if v_closed v then Some (v, [], VNone) else py_close p v true (* lines 54-58 *)
  | VDestroy =>
    (* writer.cc:77-79, with the default of writer.h; nothing can be called any more, so
       that the flag says nothing *)
    if l_closed (v_w v) then Some (v, [], VNone) else lift (v_closed v) (LClose true) (lw_step p (v_w v) (LClose true))
  | VGo e => match e with LStep _ _ _ | LFinish _ _ | LConf _ | LDead => lift (v_closed v) e (lw_step p (v_w v) e) | _ => None end
  end.
Definition venabled (v : pyv) (e : vev) : Prop :=
  match e with VCall e | VGo e => lw_enabled (v_w v) e | _ => True end.
Definition pyv_new (p : lconf) (key : Z) : pyv := mkPyv (lw_new p key) false.
Inductive vtrace (p : lconf) (v0 : pyv) : list (lev * option status) -> pyv -> Prop :=
| vt_nil : vtrace p v0 [] v0
| vt_snoc tr v e v' l r : vtrace p v0 tr v -> venabled v e -> vstep p v e = Some (v', l, r) -> vtrace p v0 (tr ++ l) v'.
