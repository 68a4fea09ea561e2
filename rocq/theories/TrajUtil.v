(** Model of reverb/cc/support/trajectory_util.cc (GetChunkKeys is in
    Trajectory.v). *)
From Verif Require Import Base Trajectory Tensor.
Local Open Scope Z_scope.

(** FlatTimestepTrajectory, the inner loop of lines 61-74 for one column
    [index].  [None]: a REVERB_CHECK fails.  The numbers are int32 in the code. *)
Fixpoint timestep_column (index : Z) (chunks : list (Z * Z)) (col_offset col_remaining : Z) : option (list slice) :=
  match chunks with
  | [] => if decide (col_remaining = 0) then Some [] else None
  | (key, len) :: chunks =>
    if decide (0 < col_remaining) then
      let l := Z.min (len - col_offset) col_remaining in
      rest ← timestep_column index chunks 0 (col_remaining - l);
      Some (mkSlice key col_offset l index :: rest)
    else None
  end.

(** Lines 50-78: [num_columns] columns, starting with number [first].  [chunks]
    are pairs of key and length (two spans in the code, whose sizes are checked
    to be equal). *)
Fixpoint timestep_columns (num_columns : nat) (first : Z) (chunks : list (Z * Z)) (offset length : Z) : option (list (list slice)) :=
  match num_columns with
  | O => Some []
  | S n => c ← timestep_column first chunks offset length;
           cs ← timestep_columns n (first + 1) chunks offset length;
           Some (c :: cs)
  end.
Definition flat_timestep_trajectory (chunks : list (Z * Z)) (num_columns : nat) (offset length : Z) : option (list (list slice)) :=
  timestep_columns num_columns 0 chunks offset length.

(** Lines 93-100. *)
Definition column_length (tr : list (list slice)) (column : nat) : option Z :=
  col ← tr !! column; Some (foldl Z.add 0 (sl_len <$> col)).

(** Lines 102-105. *)
Definition timestep_trajectory_length (tr : list (list slice)) : option Z := column_length tr 0.

(** Lines 129-139. *)
Definition same_slice (column_index : nat) (s f : slice) : bool :=
  Z.eqb (sl_key s) (sl_key f) && Z.eqb (sl_off s) (sl_off f) && Z.eqb (sl_len s) (sl_len f) && Z.eqb (sl_idx s) (Z.of_nat column_index).

(** Lines 107-143. *)
Definition is_timestep_trajectory (tr : list (list slice)) : bool :=
  match tr with
  | [] => false
  | first_col :: _ =>
    forallb (fun s => negb (0 <? sl_off s)) (tail first_col) &&
    forallb (fun b => b) (imap (fun column_index col =>
      Nat.eqb (length col) (length first_col) &&
      forallb (fun p => same_slice column_index (fst p) (snd p)) (combine col first_col)) tr)
  end.

(** Lines 187-189. [None]: access to a missing element. *)
Definition timestep_trajectory_offset (tr : list (list slice)) : option Z :=
  col ← tr !! 0%nat; s ← col !! 0%nat; Some (sl_off s).

(** ChunkData, schema.proto, the fields that unpacking looks at.  Compression is
    the identity (snappy is trusted). *)
Record chunk_data := mkChunkData { cd_tensors : list tensor; cd_delta : bool }.

Inductive unpacked := UOk (t : tensor) | UInvalid | UCrash.

(** Lines 145-159. *)
Definition unpack_chunk_column (c : chunk_data) (column : Z) : unpacked :=
  if decide (Z.of_nat (length (cd_tensors c)) <= column \/ column < 0) then UInvalid
  else match cd_tensors c !! Z.to_nat column with
       | None => UCrash
       | Some t => if cd_delta c then match delta_encode t false with Some t => UOk t | None => UCrash end
                   else UOk t
       end.

(** Tensor::Slice(start, limit): rows [start, limit) of the first dimension.
    TensorFlow checks 0 <= start <= limit <= dim_size(0), and that there is a
    dimension. *)
Definition tensor_slice (t : tensor) (start limit : Z) : unpacked :=
  match t_shape t with
  | [] => UCrash
  | d :: sh =>
    if decide (0 <= start <= limit /\ limit <= Z.of_nat d) then
      UOk (mkTensor (t_ty t) (Z.to_nat (limit - start) :: sh)
             (take (Z.to_nat (limit - start) * elements sh) (drop (Z.to_nat start * elements sh) (t_data t))))
    else UCrash
  end.

(** Lines 161-178 and 180-185.  dim_size(0) of a tensor without dimensions is a
    failed check in TensorFlow. *)
Definition unpack_chunk_column_and_slice (c : chunk_data) (column offset length : Z) : unpacked :=
  match unpack_chunk_column c column with
  | UOk t =>
    match t_shape t with
    | [] => UCrash
    | d :: _ => if decide (offset < 0 \/ Z.of_nat d < offset + length) then UInvalid
                else tensor_slice t offset (offset + length)
    end
  | u => u
  end.
