(** Conversion of NumPy arrays to tensors and back: reverb/pybind.cc:127-388, and
    the type caster of lines 437-470.

    NumPy itself is not part of the repository.  Of it the model has: an array is a
    view of memory (the address of its first element, a shape, a stride in bytes
    per dimension); PyArray_FromAny with NPY_ARRAY_CARRAY_RO gives an array with the
    same type, byte order, shape and elements whose elements lie one after the
    other; iterators go through an array in row-major order. *)
From Verif Require Import Base Snappy.

(** PyArray_TYPE.  On the platforms of Reverb NPY_INT64 is NPY_LONG and
    NPY_LONGLONG is another type of the same size. *)
Inductive npt :=
| NBool | NInt8 | NInt16 | NInt32 | NInt64 | NLongLong | NUInt8 | NUInt16 | NUInt32 | NUInt64 | NULongLong
| NFloat16 | NFloat32 | NFloat64 | NComplex64 | NComplex128 | NObject | NString (width : nat) | NUnicode (width : nat)
| NVoid (width : nat) | NOther (id : Z) (width : nat).
(** tensorflow::DataType. *)
Inductive tft :=
| DHalf | DFloat | DDouble | DInt8 | DInt16 | DInt32 | DInt64 | DUInt8 | DUInt16 | DUInt32 | DUInt64 | DBool
| DComplex64 | DComplex128 | DString | DResource | DVariant | DElse (id : Z) (width : nat).
Global Instance npt_eq_dec : EqDecision npt.
Proof. solve_decision. Defined.
Global Instance tft_eq_dec : EqDecision tft.
Proof. solve_decision. Defined.

(** Bytes of an element, and of the parts whose bytes are swapped in an array of
    the other byte order. *)
Definition np_width (t : npt) : nat :=
  match t with
  | NBool | NInt8 | NUInt8 => 1
  | NInt16 | NUInt16 | NFloat16 => 2
  | NInt32 | NUInt32 | NFloat32 => 4
  | NInt64 | NLongLong | NUInt64 | NULongLong | NFloat64 | NComplex64 | NObject => 8
  | NComplex128 => 16
  | NString w => w
  | NUnicode w => 4 * w
  | NVoid w | NOther _ w => w
  end.
Definition np_part (t : npt) : nat := match t with NComplex64 => 4 | NComplex128 => 8 | _ => np_width t end.
Definition tf_width (t : tft) : nat :=
  match t with
  | DInt8 | DUInt8 | DBool => 1
  | DHalf | DInt16 | DUInt16 => 2
  | DFloat | DInt32 | DUInt32 => 4
  | DDouble | DInt64 | DUInt64 | DComplex64 => 8
  | DComplex128 => 16
  | DString | DResource | DVariant => 0
  | DElse _ w => w
  end.
(** tensorflow::DataTypeCanUseMemcpy. *)
Definition can_memcpy (t : tft) : bool := match t with DString | DResource | DVariant => false | _ => true end.

(** What PyArray_GETITEM returns for the types of strings: bytes, a str (its code
    points), or another object. *)
Inductive pyobj := OBytes (bs : list Z) | OStr (cps : list Z) | OAny (id : Z).

(** An array.  [n_obj]: the object at an address, for the types of strings.
    [n_swapped]: the byte order of the type is not that of the machine. *)
Record nda := mkNda {
  n_ty : npt; n_swapped : bool; n_shape : list nat; n_strides : list Z; n_data : Z; n_mem : mem; n_obj : Z -> pyobj }.

(** The addresses of the elements in row-major order. *)
Fixpoint addrs (sh : list nat) (st : list Z) (a : Z) : list Z :=
  match sh, st with
  | d :: sh, s :: st => concat (map (fun i => addrs sh st (a + Z.of_nat i * s)) (seq 0 d))
  | _, _ => [a]
  end.
Definition n_addrs (x : nda) : list Z := addrs (n_shape x) (n_strides x) (n_data x).
Definition nelems (sh : list nat) : nat := foldr Nat.mul 1%nat sh.

(** The strides of an array whose elements lie one after the other. *)
Fixpoint c_strides (w : nat) (sh : list nat) : list Z :=
  match sh with [] => [] | _ :: sh => Z.of_nat (w * nelems sh) :: c_strides w sh end.

(** PyArray_FromAny(..., NPY_ARRAY_CARRAY_RO): the array itself, or a copy. The
    address of the copy is 0. *)
Definition from_any (x : nda) : nda :=
  let w := np_width (n_ty x) in
  if decide (n_strides x = c_strides w (n_shape x)) then x
  else mkNda (n_ty x) (n_swapped x) (n_shape x) (c_strides w (n_shape x)) 0
         (store (fun _ => 0) 0 (concat (map (fun a => read (n_mem x) a (Z.of_nat w)) (n_addrs x))))
         (fun a => nth (Z.to_nat (a / Z.of_nat w)) (map (n_obj x) (n_addrs x)) (OAny 0)).

(** GetTensorDtypeFromPyArray, lines 241-293. *)
Definition tf_of_np (t : npt) : option tft :=
  match t with
  | NFloat16 => Some DHalf | NFloat32 => Some DFloat | NFloat64 => Some DDouble
  | NInt8 => Some DInt8 | NInt16 => Some DInt16 | NInt32 => Some DInt32 | NLongLong => Some DInt64 | NInt64 => Some DInt64
  | NUInt8 => Some DUInt8 | NUInt16 => Some DUInt16 | NUInt32 => Some DUInt32 | NULongLong => Some DUInt64 | NUInt64 => Some DUInt64
  | NBool => Some DBool | NComplex64 => Some DComplex64 | NComplex128 => Some DComplex128
  | NObject => Some DString | NString _ => Some DString | NUnicode _ => Some DString
  | NVoid _ => None | NOther _ _ => None
  end.

(** GetPyDescrFromDataType, lines 202-234. *)
Definition np_of_tf (t : tft) : option npt :=
  match t with
  | DHalf => Some NFloat16 | DFloat => Some NFloat32 | DDouble => Some NFloat64
  | DInt32 => Some NInt32 | DUInt8 => Some NUInt8 | DUInt16 => Some NUInt16 | DUInt32 => Some NUInt32
  | DInt8 => Some NInt8 | DInt16 => Some NInt16 | DBool => Some NBool
  | DComplex64 => Some NComplex64 | DComplex128 => Some NComplex128 | DString => Some NObject
  | DUInt64 => Some NUInt64 | DInt64 => Some NInt64
  | DResource | DVariant | DElse _ _ => None
  end.

(** VerifyDtypeIsSupported, lines 295-304. *)
Definition dtype_supported (t : tft) : bool := can_memcpy t || bool_decide (t = DString).

(** UTF-8 (PyUnicode_AsUTF8AndSize); [None] for surrogates. *)
Definition utf8_char (c : Z) : option (list Z) :=
  if c <? 128 then Some [c]
  else if c <? 2048 then Some [192 + c / 64; 128 + c mod 64]
  else if (55296 <=? c) && (c <? 57344) then None
  else if c <? 65536 then Some [224 + c / 4096; 128 + c / 64 mod 64; 128 + c mod 64]
  else Some [240 + c / 262144; 128 + c / 4096 mod 64; 128 + c / 64 mod 64; 128 + c mod 64].
Fixpoint utf8 (cps : list Z) : option (list Z) :=
  match cps with [] => Some [] | c :: cps => b ← utf8_char c; bs ← utf8 cps; Some (b ++ bs) end.

(** PyObjectToString, lines 127-148. *)
Definition object_to_string (o : pyobj) : option (list Z) :=
  match o with OBytes bs => Some bs | OStr cps => utf8 cps | OAny _ => None end.
(** PyBytesArrayMap, lines 151-171: the strings in the order of the iterator. *)
Definition bytes_array_map (x : nda) : option (list (list Z)) := mapM (fun a => object_to_string (n_obj x a)) (n_addrs x).

(** A tensor: its bytes, or its strings for DT_STRING. *)
Record ten := mkTen { tn_ty : tft; tn_shape : list nat; tn_bytes : list Z; tn_strs : list (list Z) }.

(** Outcome: a value, an error (TypeError or ValueError in Python), or an access
    outside of a buffer. *)
Inductive conv (A : Type) := COk (a : A) | CError | CCrash.
Arguments COk {A} _. Arguments CError {A}. Arguments CCrash {A}.

(** memcpy of [n] bytes into a new buffer of [cap] bytes, which holds zeros. *)
Definition fill (cap : nat) (bs : list Z) : conv (list Z) :=
  if (cap <? length bs)%nat then CCrash else COk (bs ++ replicate (cap - length bs) 0).

(** NdArrayToTensor, lines 306-352. *)
Definition to_tensor (x : nda) : conv ten :=
  let x := from_any x in
  match tf_of_np (n_ty x) with
  | None => CError
  | Some d =>
    if negb (dtype_supported d) then CError
    else if can_memcpy d then
      let nbytes := (np_width (n_ty x) * nelems (n_shape x))%nat in
      match fill (tf_width d * nelems (n_shape x)) (read (n_mem x) (n_data x) (Z.of_nat nbytes)) with
      | COk bs => COk (mkTen d (n_shape x) bs [])
      | CError => CError
      | CCrash => CCrash
      end
    else match bytes_array_map x with
         | None => CError
         | Some ss => if (length ss =? nelems (n_shape x))%nat then COk (mkTen d (n_shape x) [] ss) else CCrash
         end
  end.

(** TensorToNdArray, lines 354-388, with StringTensorToPyArray, lines 173-200: the
    new array is at address 0. *)
Definition to_ndarray (t : ten) : conv nda :=
  if negb (dtype_supported (tn_ty t)) then CError
  else match np_of_tf (tn_ty t) with
  | None => CError
  | Some d =>
    let w := np_width d in
    let nbytes := (w * nelems (tn_shape t))%nat in
    if can_memcpy (tn_ty t) then
      if (length (tn_bytes t) <? nbytes)%nat then CCrash
      else COk (mkNda d false (tn_shape t) (c_strides w (tn_shape t)) 0 (store (fun _ => 0) 0 (take nbytes (tn_bytes t))) (fun _ => OAny 0))
    else COk (mkNda d false (tn_shape t) (c_strides w (tn_shape t)) 0 (fun _ => 0)
                (fun a => nth (Z.to_nat (a / Z.of_nat w)) (map OBytes (tn_strs t)) (OAny 0)))
  end.
