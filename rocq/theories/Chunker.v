(** Model of the Chunker and of CellRef, reverb/cc/chunker.cc:48-342.  Every method
    holds the mutex of the Chunker from its first access to its data to its end,
    so a call is one action. *)
From Verif Require Import Base Tensor TrajUtil ChunkerOptions.

(** internal::TensorSpec without the name; the shape is a PartialTensorShape:
    [None] for an unknown rank, [None] in the list for an unknown size. *)
Definition pshape := option (list (option nat)).
Record tspec := mkTspec { sp_ty : dty; sp_shape : pshape }.

(** PartialTensorShape::IsCompatibleWith, for a tensor of the given sizes. *)
Fixpoint dims_compatible (p : list (option nat)) (s : list nat) : bool :=
  match p, s with
  | [], [] => true
  | d :: p, n :: s => match d with None => true | Some d => Nat.eqb d n end && dims_compatible p s
  | _, _ => false
  end.
Definition shape_compatible (p : pshape) (s : list nat) : bool :=
  match p with None => true | Some p => dims_compatible p s end.

(** SequenceRange and ChunkData of schema.proto. *)
Record seq_range := mkRange { rg_ep : Z; rg_start : Z; rg_end : Z; rg_sparse : bool }.
Record chunk := mkChunk { ck_key : Z; ck_data : chunk_data; ck_range : option seq_range }.

(** A CellRef (chunker.h:79-146) without its pointer to the Chunker. *)
Record cell := mkCell { ce_key : Z; ce_off : Z; ce_ep : Z; ce_step : Z; ce_chunk : option chunk }.

(** The members of Chunker.  [k_cells]: every CellRef that was created, in order; a
    CellRef is named by its position.  [k_active]: active_refs_.  CellRefs are
    shared between active_refs_ and the items of the writer; one that nobody holds
    any more is still in [k_cells], where nobody looks at it. *)
Record chunker := mkChunker {
  k_spec : tspec; k_opts : copts; k_buffer : list tensor; k_offset : Z; k_next : Z;
  k_cells : list cell; k_active : list nat }.

(** Lines 145-153: a tensor with a first dimension of size 1. *)
Definition batched (t : tensor) : tensor := mkTensor (t_ty t) (1%nat :: t_shape t) (t_data t).

(** tensorflow::tensor::Concat: the sizes except the first one and the types have
    to be equal. *)
Definition concat_ok (a b : tensor) : bool :=
  bool_decide (t_ty a = t_ty b) &&
  match t_shape a, t_shape b with _ :: s, _ :: s' => bool_decide (s = s') | _, _ => false end.
Definition tf_concat (ts : list tensor) : option tensor :=
  match ts with
  | [] => None
  | t :: _ =>
    if forallb (concat_ok t) ts then
      Some (mkTensor (t_ty t) (foldr Nat.add 0%nat ((fun u => default 0%nat (head (t_shape u))) <$> ts) :: tail (t_shape t))
              (concat (t_data <$> ts)))
    else None
  end.

(** Lines 206-241: the range of the new chunk, from the active references with its
    key.  The outer [None]: the check in line 225 fails. *)
Definition extend_range (r : option seq_range) (c : cell) : option (option seq_range) :=
  match r with
  | None => Some (Some (mkRange (ce_ep c) (ce_step c) (ce_step c) false))
  | Some r =>
    if (rg_ep r =? ce_ep c) && (rg_end r <? ce_step c) then
      Some (Some (mkRange (rg_ep r) (rg_start r) (ce_step c) (rg_sparse r || negb (ce_step c =? rg_end r + 1))))
    else None
  end.
Fixpoint range_of (key : Z) (cs : list cell) (r : option seq_range) : option (option seq_range) :=
  match cs with
  | [] => Some r
  | c :: cs => if ce_key c =? key then r ← extend_range r c; range_of key cs r else range_of key cs r
  end.

(** Lines 65-68, and 245-249 for the references [ids]. *)
Definition set_chunk (ch : chunk) (c : cell) : cell := mkCell (ce_key c) (ce_off c) (ce_ep c) (ce_step c) (Some ch).
Fixpoint set_chunks (ch : chunk) (ids : list nat) (cs : list cell) : list cell :=
  match ids with
  | [] => cs
  | i :: ids => set_chunks ch ids (alter (fun c => if ce_key c =? ck_key ch then set_chunk ch c else c) i cs)
  end.
Definition active_cells (k : chunker) : list cell := omap (fun i => k_cells k !! i) (k_active k).

(** Lines 187-256.  [newkey]: the key that the generator makes.  [None]: a check
    fails or memory outside of a tensor is read. *)
Definition flush_locked (k : chunker) (newkey : Z) : option (status * chunker) :=
  match k_buffer k with
  | [] => Some (Ok, k)
  | _ =>
    match tf_concat (k_buffer k) with
    | None => Some (InvalidArgument, k)
    | Some b =>
      b ← (if get_delta (k_opts k) then delta_encode b true else Some b);
      r ← range_of (k_next k) (active_cells k) None;
      let ch := mkChunk (k_next k) (mkChunkData [b] (get_delta (k_opts k))) r in
      Some (Ok, mkChunker (k_spec k) (k_opts k) [] 0 newkey (set_chunks ch (k_active k) (k_cells k)) (k_active k))
    end
  end.

(** Lines 162-164, 280-282. *)
Definition trim (k : chunker) : chunker :=
  mkChunker (k_spec k) (k_opts k) (k_buffer k) (k_offset k) (k_next k) (k_cells k)
    (drop (length (k_active k) - Z.to_nat (get_keep (k_opts k))) (k_active k)).

(** Lines 110-169.  The result OK comes with the reference. *)
Definition k_append (k : chunker) (t : tensor) (ep step newkey : Z) : option (status * option nat * chunker) :=
  if negb (bool_decide (t_ty t = sp_ty (k_spec k))) then Some (InvalidArgument, None, k)
  else if negb (shape_compatible (sp_shape (k_spec k)) (t_shape t)) then Some (InvalidArgument, None, k)
  else
    let go :=
      let id := length (k_cells k) in
      let k := mkChunker (k_spec k) (k_opts k) (k_buffer k ++ [batched t]) (k_offset k + 1) (k_next k)
                 (k_cells k ++ [mkCell (k_next k) (k_offset k) ep step None]) (k_active k ++ [id]) in
      if get_max (k_opts k) <=? Z.of_nat (length (k_buffer k)) then
        '(st, k) ← flush_locked k newkey;
        if bool_decide (st = Ok) then let k := trim k in Some (Ok, last (k_active k), k) else Some (st, None, k)
      else let k := trim k in Some (Ok, last (k_active k), k) in
    match k_buffer k with
    | [] => go
    | _ =>
      c ← (last (k_active k) ≫= fun i => k_cells k !! i);
      if negb (ce_ep c =? ep) then Some (FailedPrecondition, None, k)
      else if step <=? ce_step c then Some (FailedPrecondition, None, k)
      else go
    end.

(** Lines 182-185. *)
Definition k_flush (k : chunker) (newkey : Z) : option (status * chunker) := flush_locked k newkey.

(** Lines 258-265. *)
Definition k_reset (k : chunker) (newkey : Z) : chunker :=
  mkChunker (k_spec k) (k_opts k) [] 0 newkey (k_cells k) [].

(** Lines 100-108. [None]: the check fails. *)
Definition k_new (spec : tspec) (o : copts) (newkey : Z) : option chunker :=
  if get_max o <=? get_keep o then Some (mkChunker spec o [] 0 newkey [] []) else None.

(** Lines 269-285. *)
Definition k_apply_config (k : chunker) (o : copts) : status * chunker :=
  match k_buffer k with
  | [] =>
    if bool_decide (validate_options o = Ok) then
      (Ok, trim (mkChunker (k_spec k) o (k_buffer k) (k_offset k) (k_next k) (k_cells k) (k_active k)))
    else (InvalidArgument, k)
  | _ => (FailedPrecondition, k)
  end.

(** Lines 171-180. *)
Fixpoint keep_keys_aux (keys : list Z) (cs : list cell) : list Z :=
  match cs with
  | [] => keys
  | c :: cs => keep_keys_aux (if bool_decide (last keys = Some (ce_key c)) then keys else keys ++ [ce_key c]) cs
  end.
Definition k_keep_keys (k : chunker) : list Z := keep_keys_aux [] (active_cells k).

(** Tensor::SubSlice: the row [i] without the first dimension. *)
Definition sub_slice (t : tensor) (i : Z) : unpacked :=
  match t_shape t with
  | [] => UCrash
  | d :: sh =>
    if decide (0 <= i < Z.of_nat d) then
      UOk (mkTensor (t_ty t) sh (take (elements sh) (drop (Z.to_nat i * elements sh) (t_data t))))
    else UCrash
  end.

(** Lines 287-327.  [None]: a check of TensorFlow fails or there is no such
    CellRef. *)
Definition copy_data (k : chunker) (id : nat) : option (status * option tensor) :=
  c ← k_cells k !! id;
  match ce_chunk c with
  | Some ch =>
    match unpack_chunk_column (ck_data ch) 0 with
    | UOk col => match sub_slice col (ce_off c) with UOk t => Some (Ok, Some t) | _ => None end
    | UInvalid => Some (InvalidArgument, None)
    | UCrash => None
    end
  | None =>
    (* the number of references behind [id], all of them if it is not there *)
    let behind := default (length (k_active k)) (fst <$> list_find (fun i => i = id) (reverse (k_active k))) in
    let index := Z.of_nat (length (k_buffer k)) - Z.of_nat behind - 1 in
    if index <? 0 then Some (Internal, None)
    else t ← k_buffer k !! Z.to_nat index; Some (Ok, Some (mkTensor (t_ty t) (tail (t_shape t)) (t_data t)))
  end.

(** A history of calls.  [KTune]: the auto tuned options change their state
    (ChunkerOptions.v; C47). *)
Inductive kev := KAppend (t : tensor) (ep step newkey : Z) | KFlush (newkey : Z) | KReset (newkey : Z)
  | KConfig (o : copts) | KTune (a : auto).

(** [h]: the tensors whose append made a CellRef, with their episode and step. *)
Definition k_step (k : chunker) (h : list (tensor * Z * Z)) (e : kev) : option (chunker * list (tensor * Z * Z)) :=
  match e with
  | KAppend t ep step nk =>
    '(_, _, k') ← k_append k t ep step nk;
    Some (k', if (length (k_cells k) <? length (k_cells k'))%nat then h ++ [(t, ep, step)] else h)
  | KFlush nk => '(_, k') ← k_flush k nk; Some (k', h)
  | KReset nk => Some (k_reset k nk, h)
  | KConfig o => Some ((k_apply_config k o).2, h)
  | KTune a => Some (mkChunker (k_spec k) (Auto a) (k_buffer k) (k_offset k) (k_next k) (k_cells k) (k_active k), h)
  end.

(** Keys are fresh: they come from a generator of random 64 bit numbers, and
    collisions are not modelled.  Tensors are well formed.  The auto tuning keeps
    the number of references and stays in its bounds (C47). *)
Definition k_enabled (k : chunker) (e : kev) : Prop :=
  match e with
  | KAppend t _ _ nk => tensor_ok t /\ nk <> k_next k /\ nk ∉ (ce_key <$> k_cells k)
  | KFlush nk | KReset nk => nk <> k_next k /\ nk ∉ (ce_key <$> k_cells k)
  | KConfig _ => True
  | KTune a => exists a0, k_opts k = Auto a0 /\ au_keep a = au_keep a0 /\ 1 <= au_max a <= au_keep a
  end.

Inductive k_reach (k0 : chunker) : chunker -> list (tensor * Z * Z) -> Prop :=
| kr_init : k_reach k0 k0 []
| kr_step k h e k' h' : k_reach k0 k h -> k_enabled k e -> k_step k h e = Some (k', h') -> k_reach k0 k' h'.
