(** Model of FlatSignatureFromStructuredValue, reverb/cc/support/signature.cc. *)
From stdpp Require Import strings pretty.
From Verif Require Import Base.

(** tensorflow::StructuredValue (struct.proto), as far as the function looks at
    it.  The fields of a dictionary are a proto map: keys are distinct, the order
    in which they are listed is arbitrary.  Data types and sizes are numbers. *)
Inductive sv :=
| SSpec (name : string) (dtype : Z) (shape : list Z)
| SBounded (name : string) (dtype : Z) (shape : list Z)
| SList (l : list sv) | STuple (l : list sv)
| SDict (fs : list (string * sv)) | SNamed (fs : list (string * sv))
| SOther.

(** internal::TensorSpec, support/signature.h. *)
Record tspec := mkTspec { ts_name : string; ts_dtype : Z; ts_shape : list Z }.

(** std::string's operator<: bytes, then length. *)
Fixpoint str_leb (a b : string) : bool :=
  match a, b with
  | EmptyString, _ => true
  | String _ _, EmptyString => false
  | String x a, String y b =>
    if (Ascii.N_of_ascii x <? Ascii.N_of_ascii y)%N then true
    else if (Ascii.N_of_ascii y <? Ascii.N_of_ascii x)%N then false else str_leb a b
  end.

(** std::sort (any sorting function would do: the keys are distinct). *)
Fixpoint insert_key {A} (x : string * A) (l : list (string * A)) : list (string * A) :=
  match l with
  | [] => [x]
  | y :: l => if str_leb (fst x) (fst y) then x :: y :: l else y :: insert_key x l
  end.
Definition sort_keys {A} (l : list (string * A)) : list (string * A) := foldr insert_key [] l.

(** Lines 56-62. *)
Definition extend_context (ctx val : string) : string :=
  (ctx +:+ (if negb (String.eqb ctx "") && negb (String.eqb val "") then "/" else "") +:+ val)%string.

(** REVERB_RETURN_IF_ERROR of the calls in a row. *)
Fixpoint concat_opt {A} (l : list (option (list A))) : option (list A) :=
  match l with
  | [] => Some []
  | x :: l => x ← x; l ← concat_opt l; Some (x ++ l)
  end.

(** Lines 64-125. [None]: InvalidArgument.  What is in the output when an error is
    returned is not modelled. *)
Fixpoint flat_signature (v : sv) : string -> option (list tspec) :=
  match v with
  | SSpec name dtype shape | SBounded name dtype shape =>
    fun ctx => Some [mkTspec (extend_context ctx name) dtype shape]
  | SList l | STuple l =>
    let fl := List.map flat_signature l in
    fun ctx => concat_opt (imap (fun i f => f (extend_context ctx (pretty i))) fl)
  | SDict fs =>
    let fl := List.map (fun kv => (fst kv, flat_signature (snd kv))) fs in
    fun ctx => concat_opt (List.map (fun kf => snd kf (extend_context ctx (fst kf))) (sort_keys fl))
  | SNamed fs =>
    let fl := List.map (fun kv => (fst kv, flat_signature (snd kv))) fs in
    fun ctx => concat_opt (List.map (fun kf => snd kf (extend_context ctx (fst kf))) fl)
  | SOther => fun _ => None
  end.

(** Lines 129-133. *)
Definition flat_signature_top (v : sv) : option (list tspec) := flat_signature v "".
