(** Model of the class Sample and of AsSample, reverb/cc/sampler.cc. *)
From Verif Require Import Base Trajectory Tensor TrajUtil.
Local Open Scope Z_scope.

(** Tensor::SubSlice(i): element [i] along the first dimension.  [None]: a check
    in TensorFlow fails. *)
Definition sub_slice (t : tensor) (i : nat) : option tensor :=
  match t_shape t with
  | [] => None
  | d :: sh => if decide (i < d)%nat
               then Some (mkTensor (t_ty t) sh (take (elements sh) (drop (i * elements sh) (t_data t))))
               else None
  end.

(** dim_size(0).  The tensors of a sample have a first dimension: they come out of
    UnpackChunkColumnAndSlice (see TrajUtil.v), so the case of none is not reached
    and is given the value 0. *)
Definition dim0 (t : tensor) : nat := match t_shape t with [] => 0%nat | d :: _ => d end.

(** tensorflow::tensor::Concat: along the first dimension; an error if there is
    nothing to concatenate or if types or the other dimensions differ. *)
Definition tensor_concat (ts : list tensor) : option tensor :=
  match ts with
  | [] => None
  | t :: _ =>
    if forallb (fun u => bool_decide (t_ty u = t_ty t) && bool_decide (tail (t_shape u) = tail (t_shape t)) &&
                         negb (Nat.eqb (length (t_shape u)) 0)) ts
    then Some (mkTensor (t_ty t) (list_sum (dim0 <$> ts) :: tail (t_shape t)) (concat (t_data <$> ts)))
    else None
  end.

(** What is known of a sample besides the data: key, probability, table size,
    priority, rate limited. *)
Record meta := mkMeta { m_key : Z; m_prob : Q; m_size : Z; m_prio : dbl; m_limited : bool }.

(** The class Sample, sampler.h.  Every column is a deque of tensors with the
    number of rows already handed out. *)
Record sample := mkSample {
  s_meta : meta; s_num : Z; s_cols : list (list (tensor * nat)); s_squeeze : list bool; s_called : bool }.

(** sampler.cc:774-791. *)
Definition col_length (col : list (tensor * nat)) : Z := foldl Z.add 0 ((fun p => Z.of_nat (dim0 (fst p))) <$> col).
Fixpoint composed_from (prev : Z) (cols : list (list (tensor * nat))) : bool :=
  match cols with
  | [] => true
  | col :: cols => if negb (prev =? -1) && negb (prev =? col_length col) then false else composed_from (col_length col) cols
  end.
Definition is_composed_of_timesteps (s : sample) : bool := composed_from (-1) (s_cols s).

(** sampler.cc:769-772. *)
Definition is_end_of_sample (s : sample) : bool :=
  forallb (fun c => match c with [] => true | _ => false end) (s_cols s).

Definition fresh_col (ts : list tensor) : list (tensor * nat) := (fun t => (t, 0%nat)) <$> ts.

(** sampler.cc:704-738. [None]: a REVERB_CHECK fails. *)
Definition make_sample (m : meta) (column_chunks : list (list tensor)) (squeeze : list bool) : option sample :=
  match column_chunks with
  | [] => None
  | [] :: _ => None
  | _ =>
    let s := mkSample m (-1) (fresh_col <$> column_chunks) squeeze false in
    Some (if is_composed_of_timesteps s
          then mkSample m (match s_cols s with c :: _ => col_length c | [] => 0 end) (s_cols s) squeeze false
          else s)
  end.

(** sampler.cc:754-764, one column.  [None]: the deque is empty, or a failed
    check. *)
Definition step_col (col : list (tensor * nat)) : option (tensor * list (tensor * nat)) :=
  match col with
  | [] => None
  | (t, off) :: rest =>
    r ← sub_slice t off;
    Some (r, if (S off =? dim0 t)%nat then rest else (t, S off) :: rest)
  end.
Fixpoint step_cols (cols : list (list (tensor * nat))) : option (list tensor * list (list (tensor * nat))) :=
  match cols with
  | [] => Some ([], [])
  | c :: cs => p ← step_col c; q ← step_cols cs; Some (fst p :: fst q, snd p :: snd q)
  end.

(** sampler.cc:740-767, Sample::GetNextTimestep.  The four scalars are the
    metadata. [None]: a REVERB_CHECK fails. *)
Definition get_next_timestep (s : sample) : option ((meta * list tensor) * sample) :=
  if is_end_of_sample s then None
  else if negb (is_composed_of_timesteps s) then None
  else p ← step_cols (s_cols s);
       Some ((s_meta s, fst p), mkSample (s_meta s) (s_num s) (snd p) (s_squeeze s) true).

(** sampler.cc:858-880. [None]: Concat returned an error. *)
Definition unpack_column (col : list (tensor * nat)) : option tensor :=
  match col with
  | [(t, _)] => Some t
  | _ => tensor_concat (fst <$> col)
  end.
Fixpoint unpack_columns (cols : list (list (tensor * nat))) : option (list tensor) :=
  match cols with
  | [] => Some []
  | c :: cs => t ← unpack_column c; ts ← unpack_columns cs; Some (t :: ts)
  end.

Inductive sample_result (A : Type) := SROk (a : A) | SRError.
Arguments SROk {A} _.
Arguments SRError {A}.

(** sampler.cc:795-820: the metadata is repeated for every timestep. *)
Definition as_batched_timesteps (s : sample) : sample_result (list meta * list tensor) :=
  if s_called s then SRError
  else if negb (is_composed_of_timesteps s) then SRError
  else match unpack_columns (s_cols s) with
       | Some ts => SROk (replicate (Z.to_nat (s_num s)) (s_meta s), ts)
       | None => SRError
       end.

(** sampler.cc:840-851. *)
Fixpoint squeeze_columns (sq : list bool) (ts : list tensor) : option (list tensor) :=
  match sq, ts with
  | b :: sq, t :: ts =>
    t ← (if b then if (dim0 t =? 1)%nat then sub_slice t 0 else None else Some t);
    ts ← squeeze_columns sq ts; Some (t :: ts)
  | _, _ => Some ts
  end.

(** sampler.cc:822-856. *)
Definition as_trajectory (s : sample) : sample_result (meta * list tensor) :=
  if s_called s then SRError
  else match unpack_columns (s_cols s) with
       | Some ts => match squeeze_columns (s_squeeze s) ts with
                    | Some ts => SROk (s_meta s, ts)
                    | None => SRError
                    end
       | None => SRError
       end.

(** Sampler::GetNextTimestep, sampler.cc:507-534, on the active sample: the check
    of lines 511-514, the call, and the flag end_of_sequence.  The validation
    against a signature is left out. *)
Inductive timestep_result :=
| TSOk (data : meta * list tensor) (end_of_sequence : bool) (s : sample)
| TSInvalid
| TSCrash.
Definition sampler_next_timestep (s : sample) : timestep_result :=
  if negb (is_composed_of_timesteps s) then TSInvalid
  else match get_next_timestep s with
       | Some (d, s) => TSOk d (is_end_of_sample s) s
       | None => TSCrash
       end.
