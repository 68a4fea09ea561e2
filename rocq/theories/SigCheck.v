(** Signatures on the side of the client: the cache of reverb/cc/client.cc, what the
    ways to make a Sampler expect of the data, and the check of the Sampler,
    reverb/cc/sampler.cc:570-622. *)
From Verif Require Import Base Trajectory Tensor Sample Chunker TrajWriter.

(** internal::FlatSignatureMap: tables are numbers, [None] is a table without
    signature. *)
Notation sigmap := (gmap Z (option (list tspec))).

(** Client::ServerInfo, client.h:49-52, as far as signatures go.  The signature of a
    table comes flattened (FlatSignatureFromTableInfo is the function of
    Signature.v); [None]: flattening it is an error. *)
Record server_info := mkInfo { si_id : Z; si_tables : list (Z * option (option (list tspec))) }.

(** tables_state_id_ and cached_flat_signatures_, client.h:178-181. *)
Record ccache := mkCache { cc_sigs : option sigmap; cc_id : Z }.

(** client.cc:349-353.  A later table of the same name wins. *)
Fixpoint info_sigs (tables : list (Z * option (option (list tspec)))) (m : sigmap) : option sigmap :=
  match tables with
  | [] => Some m
  | (name, None) :: _ => None
  | (name, Some sig) :: tables => info_sigs tables (<[name := sig]> m)
  end.

(** client.cc:346-359, LockedUpdateServerInfoCache. *)
Definition locked_update (c : ccache) (info : server_info) : status * ccache :=
  if bool_decide (cc_sigs c = None) || negb (cc_id c =? si_id info) then
    match info_sigs (si_tables info) ∅ with
    | None => (InvalidArgument, c)
    | Some m => (Ok, mkCache (Some m) (si_id info))
    end
  else (Ok, c).

(** What the RPC ServerInfo gives: a status or an answer. *)
Inductive rpc := RFail (st : status) | RInfo (info : server_info).

(** client.cc:60-107, MaybeUpdateServerInfoCache.  [now]: the timeout is -infinity.
    Calls of one client do not overlap in the model (see the comment at client.cc:84
    for what can go wrong if they do). *)
Definition maybe_update (c : ccache) (now : bool) (r : rpc) : (status + sigmap) * ccache :=
  match cc_sigs c with
  | Some m => (inr m, c)
  | None =>
    if now then (inr ∅, c)
    else match r with
         | RFail st => (inl st, c)
         | RInfo info =>
           let (st, c) := locked_update c info in
           match st, cc_sigs c with
           | Ok, Some m => (inr m, c)
           | _, _ => (inl st, c)
           end
         end
  end.

(** client.cc:330-344, Client::ServerInfo: always asks the server. *)
Definition client_server_info (c : ccache) (r : rpc) : status * ccache :=
  match r with RFail st => (st, c) | RInfo info => locked_update c info end.

(** The four tensors that come before the data: client.cc:214-226. *)
Definition DT_UINT64 : dty := TInt 64 false.
Definition DT_INT64 : dty := TInt 64 true.
Definition DT_DOUBLE : dty := TOther 2.
Definition scalar_spec (ty : dty) : tspec := mkTspec ty (Some []).
Definition info_specs : list tspec := [scalar_spec DT_UINT64; scalar_spec DT_DOUBLE; scalar_spec DT_INT64; scalar_spec DT_DOUBLE].

(** DtypesAndShapes of a Sampler: [None] for no check. *)
Notation outspec := (option (list tspec)).

(** client.cc:186-233, GetDtypesAndShapesForSampler. *)
Definition get_dtypes_and_shapes (c : ccache) (table : Z) (now : bool) (r : rpc) : (status + outspec) * ccache :=
  match maybe_update c now r with
  | (inl st, c) => (inl st, c)
  | (inr m, c) => (inr (match m !! table with
                        | None | Some None => None
                        | Some (Some sig) => Some (info_specs ++ sig)
                        end), c)
  end.

(** client.cc:163-184: the signature of the table if it can be had.  Whatever the
    error is, the sampler goes without a check. *)
Definition new_sampler_timeout (c : ccache) (table : Z) (now : bool) (r : rpc) : outspec * ccache :=
  match get_dtypes_and_shapes c table now r with
  | (inl _, c) => (None, c)
  | (inr o, c) => (o, c)
  end.

(** client.cc:235-289: types and shapes given by the caller.  IsCompatibleWith of two
    partial shapes is in TrajWriter.v. *)
Definition new_sampler_user (c : ccache) (table : Z) (dtypes : list dty) (shapes : list pshape) (now : bool) (r : rpc) :
    (status + outspec) * ccache :=
  if negb (length dtypes =? length shapes)%nat then (inl InvalidArgument, c)
  else let user := zip_with mkTspec dtypes shapes in
       match get_dtypes_and_shapes c table now r with
       | (inl st, c) => (inl st, c)
       | (inr None, c) => (inr (Some user), c)
       | (inr (Some spec), c) =>
         if (length spec =? length shapes)%nat && forallb (fun p => spec_fits p.1 p.2) (combine spec user)
         then (inr (Some spec), c) else (inl InvalidArgument, c)
       end.

(** client.cc:291-296. *)
Definition new_sampler_unchecked : outspec := None.

(** client.cc:412-432: what the option flat_signature_map of a TrajectoryWriter
    becomes. *)
Definition new_trajectory_writer_sigs (c : ccache) (now : bool) (r : rpc) : (status + option sigmap) * ccache :=
  match maybe_update c now r with
  | (inl st, c) => (inl st, c)
  | (inr m, c) => (inr (Some m), c)
  end.

(** ** The Sampler *)

Inductive vmode := VTimestep | VBatched | VTrajectory.

(** sampler.cc:587-620, the iteration for one tensor. *)
Definition check_tensor (mode : vmode) (sp : tspec) (t : tensor) : bool :=
  match mode, t_shape t with
  | VBatched, [] => false
  | VBatched, _ :: sh => bool_decide (t_ty t = sp_ty sp) && shape_compatible (sp_shape sp) sh
  | _, sh => bool_decide (t_ty t = sp_ty sp) && shape_compatible (sp_shape sp) sh
  end.

(** sampler.cc:570-622.  [cols]: the tensors after the four of the sample's
    information, which are not checked. *)
Definition validate_output (spec : outspec) (mode : vmode) (cols : list tensor) : status :=
  match spec with
  | None => Ok
  | Some spec =>
    if negb (4 + length cols =? length spec)%nat then InvalidArgument
    else if forallb (fun p => check_tensor mode p.1 p.2) (combine (drop 4 spec) cols) then Ok else InvalidArgument
  end.

(** What a call of the Sampler that has got the sample gives: the data, or an error.
    The statuses of AsBatchedTimesteps and AsTrajectory are one error in Sample.v. *)
Inductive got (D : Type) := GOk (d : D) | GError.
Arguments GOk {D} _.
Arguments GError {D}.

(** sampler.cc:552-567, Sampler::GetNextTrajectory. *)
Definition get_next_trajectory (spec : outspec) (s : sample) : got (meta * list tensor) :=
  match as_trajectory s with
  | SRError => GError
  | SROk (m, cols) => if bool_decide (validate_output spec VTrajectory cols = Ok) then GOk (m, cols) else GError
  end.

(** sampler.cc:535-550, Sampler::GetNextSample. *)
Definition get_next_sample (spec : outspec) (s : sample) : got (list meta * list tensor) :=
  match as_batched_timesteps s with
  | SRError => GError
  | SROk (ms, cols) => if bool_decide (validate_output spec VBatched cols = Ok) then GOk (ms, cols) else GError
  end.

(** sampler.cc:507-533, Sampler::GetNextTimestep; the check comes after the timestep
    has been taken out of the active sample. *)
Inductive got_timestep := GStep (d : meta * list tensor) (last : bool) (s : sample) | GStepError (s : sample) | GStepInvalid | GStepCrash.
Definition get_next_step (spec : outspec) (s : sample) : got_timestep :=
  match sampler_next_timestep s with
  | TSInvalid => GStepInvalid
  | TSCrash => GStepCrash
  | TSOk d last s => if bool_decide (validate_output spec VTimestep (snd d) = Ok) then GStep d last s else GStepError s
  end.
