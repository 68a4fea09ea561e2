(** The Python side of the datasets: reverb/dataset.py, timestep_dataset.py and
    trajectory_dataset.py. *)
From stdpp Require Import strings pretty.
From Verif Require Import Base Signature PyTree Trajectory Tensor Sample Chunker TrajWriter SigCheck Dataset.
Local Open Scope Z_scope.

(** ** Arguments *)

(** max_in_flight_samples_per_worker, num_workers_per_iterator,
    max_samples_per_stream, rate_limiter_timeout_ms, flexible_batch_size. *)
Record dopts := mkDopts { do_in_flight : Z; do_workers : Z; do_per_stream : Z; do_timeout : Z; do_flexible : Z }.

(** dataset.py:123-147, timestep_dataset.py:117-134, trajectory_dataset.py:96-115;
    [false]: ValueError.  sequence_length is an argument of ReplayDataset only. *)
Definition py_args_ok (o : dopts) (sequence_length : option Z) : bool :=
  if do_in_flight o <? 1 then false
  else if (do_workers o <? 1) && negb (do_workers o =? -1) then false
  else if (do_per_stream o <? 1) && negb (do_per_stream o =? -1) then false
  else if match sequence_length with Some n => n <? 1 | None => false end then false
  else if do_timeout o <? -1 then false
  else if (do_flexible o <? 1) && negb (do_flexible o =? -1) then false else true.

(** sampler.h:48-51 and the attributes of the ops (dataset.cc:118-136): the options of
    the Sampler, with [None] for an infinite duration. *)
Record sopts := mkSopts { so_max : Z; so_in_flight : Z; so_workers : Z; so_per_stream : Z; so_timeout : option Z; so_flexible : Z }.
Definition op_options (o : dopts) : sopts :=
  mkSopts (-1) (do_in_flight o) (do_workers o) (do_per_stream o) (if do_timeout o <? 0 then None else Some (do_timeout o)) (do_flexible o).
(** sampler.cc:882-915, Sampler::Options::Validate. *)
Definition validate_sopts (s : sopts) : status :=
  if (so_max s <? 1) && negb (so_max s =? -1) then InvalidArgument
  else if so_in_flight s <? 1 then InvalidArgument
  else if (so_workers s <? 1) && negb (so_workers s =? -1) then InvalidArgument
  else if (so_per_stream s <? 1) && negb (so_per_stream s =? -1) then InvalidArgument
  else if match so_timeout s with Some t => t <? 0 | None => false end then InvalidArgument
  else if (so_flexible s <? 1) && negb (so_flexible s =? -1) then InvalidArgument else Ok.

(** ** Structures *)

(** tree.map_structure. *)
Definition map_structure {A B} (f : A -> B) (s : nest A) : option (nest B) := nunflatten s (List.map f (nflatten s)).

(** dataset.py:294-297, _convert_lists_to_tuples. *)
Fixpoint lists_to_tuples {A} (d : nest A) : nest A :=
  match d with
  | NLeaf a => NLeaf a
  | NList l | NTuple l => NTuple (List.map lists_to_tuples l)
  | NDict fs => NDict (List.map (fun kv => (fst kv, lists_to_tuples (snd kv))) fs)
  | NNamed n fs => NNamed n (List.map (fun kv => (fst kv, lists_to_tuples (snd kv))) fs)
  end.

(** replay_sample.py: ReplaySample(SampleInfo(key, probability, table_size, priority),
    data). *)
Definition replay_sample {A} (key probability table_size priority : A) (data : nest A) : nest A :=
  NNamed "ReplaySample" [("info"%string, NNamed "SampleInfo" [("key"%string, NLeaf key); ("probability"%string, NLeaf probability); ("table_size"%string, NLeaf table_size); ("priority"%string, NLeaf priority)]);
                         ("data"%string, data)].
Definition tf_dtypes (data : nest dty) : nest dty := replay_sample DT_UINT64 DT_DOUBLE DT_INT64 DT_DOUBLE data.

(** The three classes.  ReplayDataset: dataset.py. *)
Inductive pkind := PTrajectory | PTimestep | PReplay (sequence_length : option Z) (emit_timesteps : bool).
Definition pk_length (k : pkind) : option Z := match k with PReplay n _ => n | _ => None end.
(** [Some n] with n positive as a dimension. *)
Definition dim_of (sequence_length : option Z) : option nat := Z.to_nat <$> sequence_length.
Definition info_shape (k : pkind) : pshape := match k with PReplay n false => Some [dim_of n] | _ => Some [] end.
(** dataset.py:281, sequence_length or -1. *)
Definition op_kind (k : pkind) : dkind :=
  match k with PTrajectory => DTrajectory | PTimestep => DTimestep | PReplay n e => DReverb (match n with Some 0 | None => -1 | Some n => n end) e end.

(** dataset.py:167-177, _validate_batch_dim: [not shape.ndims] holds for scalars and for
    an unknown rank. *)
Definition batch_dim_ok (n : option Z) (sh : pshape) : bool :=
  match sh with None | Some [] => false | Some (d :: _) => bool_decide (d = dim_of n) end.

(** What _as_variant_tensor gives to the op, dataset.py:273-287, and element_spec. *)
Record pdataset := mkPds { pd_kind : dkind; pd_dtypes : list dty; pd_shapes : list pshape; pd_spec : nest tspec }.

(** __init__, dataset.py:123-210 and the same in the other files.  [None]: ValueError.
    The arguments have the same structure (tree.assert_same_structure). *)
Definition py_init (k : pkind) (o : dopts) (dtypes : nest dty) (shapes : nest pshape) : option pdataset :=
  if negb (py_args_ok o (pk_length k)) then None
  else let dtypes' := tf_dtypes dtypes in
       let shapes' := let sh := info_shape k in replay_sample sh sh sh sh shapes in
       if match k with PReplay n false => negb (forallb (batch_dim_ok n) (nflatten shapes)) | _ => false end then None
       else let dtypes' := lists_to_tuples dtypes' in
            let shapes' := lists_to_tuples shapes' in
            spec ← nunflatten shapes' (zip_with mkTspec (nflatten dtypes') (nflatten shapes'));
            Some (mkPds (op_kind k) (nflatten dtypes') (nflatten shapes') spec).

(** The type and shape of a leaf of a signature, with [dt] and [sh] from the numbers of
    Signature.v to types and shapes. *)
Section FromSignature.
Context (dt : Z -> dty) (sh : list Z -> pshape).
Definition leaf_dtype (s : sleaf) : dty := match s with LSpec _ t _ | LBounded _ t _ => dt t | LOther => TOther 0 end.
Definition leaf_shape (s : sleaf) : pshape := match s with LSpec _ _ l | LBounded _ _ l => sh l | LOther => None end.
(** tf.TensorShape([n]).concatenate: an unknown rank stays unknown. *)
Definition concatenate (n : option Z) (s : pshape) : pshape := match s with Some ds => Some (dim_of n :: ds) | None => None end.

(** from_table_signature, dataset.py:245-271.  [info]: what server_info tells about
    the table, [None] if it does not name it; tables without signature have
    [Some None]. *)
Definition from_table_signature (k : pkind) (o : dopts) (info : option (option (nest sleaf))) : option pdataset :=
  match info with
  | None | Some None => None
  | Some (Some s) =>
    if negb (truthy s) then None
    else shapes ← map_structure leaf_shape s;
         dtypes ← map_structure leaf_dtype s;
         shapes ← match k with PReplay n false => map_structure (concatenate n) shapes | _ => Some shapes end;
         py_init k o dtypes shapes
  end.
(** The same signature as the client in the op gets it (FlatSignatureFromTableInfo). *)
Definition flat_spec (e : Signature.tspec) : tspec := mkTspec (dt (ts_dtype e)) (sh (ts_shape e)).
End FromSignature.

(** An element as the user gets it: the data of the tensors that the op emits, in the
    structure of element_spec.  (The four tensors of the information are the fields of
    [meta].) *)
Definition data_of {A} (d : nest A) : option (nest A) :=
  match d with NNamed _ [(_, _); (_, data)] => Some data | _ => None end.
Definition element (d : pdataset) (cols : list tensor) : option (nest tensor) := s ← data_of (pd_spec d); nunflatten s cols.
