(** The TensorFlow op ReverbClientSample behind TFClient.sample: reverb/cc/ops/client.cc,
    reverb/tf_client.py. *)
From Verif Require Import Base Trajectory Tensor Sample Chunker TrajWriter SigCheck Dataset.
Local Open Scope Z_scope.

(** What the op gives: the four scalars (metadata) and the outputs of Toutput_list. *)
Inductive op_result := OpOk (m : meta) (outputs : list tensor) | OpErr (st : status) | OpCrash.

(** SampleOp::Compute from the call of GetNextTimestep on, client.cc:157-170.  [spec] is
    what the Sampler checks, [p] what it gets from its queue, [types] the attribute
    Toutput_list (tf_client.py:70-71: the flattened data_dtypes).  The first call of a
    new Sampler: there is no active sample.  num_outputs is 4 more than the length of
    [types], as the first four tensors of a timestep are the metadata.  The output
    takes over the tensor whatever its type is (line 168); TensorFlow's executor
    compares it with the declared type and fails with INTERNAL.  A failed lookup of the
    resource is left out. *)
Definition sample_op (spec : outspec) (p : popped) (types : list dty) : op_result :=
  match (sampler_step spec None p).1 with
  | LOk (EStep (m, l)) _ =>
    if negb (4 + length l =? 4 + length types)%nat then OpErr InvalidArgument
    else if negb (bool_decide (t_ty <$> l = types)) then OpErr Internal
    else OpOk m l
  | LOk _ _ => OpCrash (* not reached *)
  | LTimeout => OpErr DeadlineExceeded
  | LFail st => OpErr st
  | LCrash => OpCrash
  end.

(** The whole of it, client.cc:152-170: NewSampler with a timeout of 30 seconds. *)
Definition tf_sample (c : ccache) (table : Z) (r : rpc) (p : popped) (types : list dty) : op_result * ccache :=
  let '(spec, c) := new_sampler_timeout c table false r in (sample_op spec p types, c).
(** client.cc:148-150. *)
Definition op_max_samples : Z := 1.
Definition op_in_flight : Z := 1.
