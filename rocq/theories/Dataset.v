(** The TensorFlow datasets: reverb/cc/ops/dataset.cc, timestep_dataset.cc,
    trajectory_dataset.cc. *)
From Verif Require Import Base Trajectory Tensor Sample Chunker TrajWriter SigCheck.
Local Open Scope Z_scope.

(** The three datasets.  ReverbDataset (dataset.cc:36-47) has the attributes
    sequence_length and emit_timesteps. *)
Inductive dkind := DTrajectory | DTimestep | DReverb (sequence_length : Z) (emit_timesteps : bool).

(** dataset.cc:138-156: the check of ReverbDatasetOp; [dims() != 0] holds for an unknown
    rank too (-1), and dim_size(0) of such a shape is -1.  An unknown dimension is -1. *)
Definition dim_size0 (sh : pshape) : Z :=
  match sh with None | Some [] => -1 | Some (d :: _) => match d with Some n => Z.of_nat n | None => -1 end end.
Definition dataset_op (k : dkind) (shapes : list pshape) : status :=
  match k with
  | DReverb n false => if forallb (fun sh => negb (bool_decide (sh = Some [])) && (dim_size0 sh =? n)) shapes then Ok else InvalidArgument
  | _ => Ok
  end.

(** Iterator::Initialize, dataset.cc:302-335, timestep_dataset.cc:253-275,
    trajectory_dataset.cc:251-273.  [r] is the answer of the server within 30 seconds
    (a deadline that passes is [RFail DeadlineExceeded]), the second argument of
    the result is the specification that the Sampler checks.  RemoveDim(0) of an
    unknown rank is left out (it is a CHECK failure). *)
Definition remove_dim0 (sh : pshape) : pshape := match sh with Some (_ :: ds) => Some ds | _ => sh end.
Definition validation_shapes (k : dkind) (shapes : list pshape) : list pshape :=
  match k with DReverb _ false => remove_dim0 <$> shapes | _ => shapes end.
Definition initialize (k : dkind) (c : ccache) (table : Z) (dtypes : list dty) (shapes : list pshape) (r : rpc) : (status + outspec) * ccache :=
  match new_sampler_user c table dtypes (validation_shapes k shapes) false r with
  | (inl DeadlineExceeded, c) => let '(spec, c) := new_sampler_timeout c table true r in (inr spec, c)
  | x => x
  end.

(** What PopNextSample gives to a call that needs a new sample. *)
Inductive popped := PSample (s : sample) | PTimeout | PFail (st : status).
(** When the context of the call is cancelled: not before the call returns, before the
    callback is registered, or while it is. *)
Inductive cancelled := CNot | CBefore | CDuring.
Record call := mkCall { k_pop : popped; k_cancel : cancelled }.

(** The data of an element, per kind of dataset. *)
Inductive elem := EStep (d : meta * list tensor) | EBatch (d : list meta * list tensor) | ETraj (d : meta * list tensor).
Inductive out := OElem (e : elem) | OEnd | OErr (st : status) | OCrash.

(** The iterator: the sample that the Sampler is handing out (sampler.h active_sample_), the
    steps counted so far (int, no overflow) and the callbacks that are registered
    although their call has returned. *)
Record iter := mkIter { i_active : option sample; i_step : Z; i_leaked : nat }.
Definition i_new : iter := mkIter None 0 0.

(** Outcome of the call of the Sampler. *)
Inductive called := LOk (e : elem) (last : bool) | LTimeout | LFail (st : status) | LCrash.
Definition popped_fail (p : popped) : called := match p with PTimeout => LTimeout | PFail st => LFail st | PSample _ => LCrash end.

(** Sampler::GetNextTimestep with MaybeSampleNext, sampler.cc:507-534, 644-650. *)
Definition sampler_step (spec : outspec) (active : option sample) (p : popped) : called * option sample :=
  let cur := match active with Some s => if is_end_of_sample s then None else Some s | None => None end in
  match cur, p with
  | Some s, _ | None, PSample s =>
    match get_next_step spec s with
    | GStep d last s => (LOk (EStep d) last, Some s)
    | GStepError s => (LFail InvalidArgument, Some s)
    | GStepInvalid => (LFail InvalidArgument, Some s)
    | GStepCrash => (LCrash, Some s)
    end
  | None, _ => (popped_fail p, active)
  end.

(** Lines 383-393 of dataset.cc, the same in the other two files. *)
Definition finish (finite : bool) (r : called) : out :=
  match r with
  | LOk e _ => OElem e
  | LTimeout => if finite then OEnd else OErr DeadlineExceeded
  | LFail st => OErr st
  | LCrash => OCrash
  end.
Definition deregister (finite : bool) (c : cancelled) (r : called) : out :=
  match r, c with
  | LCrash, _ => OCrash
  | _, CDuring => OErr Cancelled (* DeregisterCallback returns false *)
  | _, _ => finish finite r
  end.
(** A return without DeregisterCallback. *)
Definition leak (c : cancelled) : nat := match c with CNot => 1 | _ => 0 end.

(** Iterator::GetNextInternal, dataset.cc:337-393, timestep_dataset.cc:277-312,
    trajectory_dataset.cc:275-307.  [finite]: a rate limiter timeout has been set. *)
Definition get_next (k : dkind) (spec : outspec) (finite : bool) (it : iter) (c : call) : out * iter :=
  match k with
  | DTrajectory =>
    let r := match k_pop c with
             | PSample s => match get_next_trajectory spec s with GOk d => LOk (ETraj d) true | GError => LFail InvalidArgument end
             | p => popped_fail p
             end in
    (deregister finite (k_cancel c) r, it)
  | DReverb _ false =>
    let r := match k_pop c with
             | PSample s => match get_next_sample spec s with GOk d => LOk (EBatch d) true | GError => LFail InvalidArgument end
             | p => popped_fail p
             end in
    (deregister finite (k_cancel c) r, it)
  | DTimestep =>
    let '(r, a) := sampler_step spec (i_active it) (k_pop c) in
    (deregister finite (k_cancel c) r, mkIter a (i_step it) (i_leaked it))
  | DReverb n true =>
    let '(r, a) := sampler_step spec (i_active it) (k_pop c) in
    let last := match r with LOk _ l => l | _ => false end in
    let step := i_step it + 1 in (* line 356 *)
    match r with
    | LCrash => (OCrash, mkIter a step (i_leaked it))
    | _ =>
      if last && (0 <? n) && negb (step =? n) then (OErr InvalidArgument, mkIter a step (i_leaked it + leak (k_cancel c))) (* lines 358-363 *)
      else if (step =? n) && negb last then (OErr InvalidArgument, mkIter a step (i_leaked it + leak (k_cancel c))) (* lines 364-369 *)
      else (deregister finite (k_cancel c) r, mkIter a (if last then 0 else step) (i_leaked it)) (* lines 370-393 *)
    end
  end.

Fixpoint it_run (k : dkind) (spec : outspec) (finite : bool) (it : iter) (cs : list call) : list out * iter :=
  match cs with
  | [] => ([], it)
  | c :: cs => let '(o, it) := get_next k spec finite it c in let '(os, it) := it_run k spec finite it cs in (o :: os, it)
  end.
