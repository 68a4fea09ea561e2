(** Tensors and delta encoding, reverb/cc/tensor_compression.cc. *)
From Verif Require Import Base.

(** Data types: the integral ones, with their width in bits and sign, and all
    others.  tensor_compression.cc:64 enumerates the integral types with a
    TensorFlow macro; the model has a type for every width. *)
Inductive dty := TInt (width : positive) (signed : bool) | TOther (id : Z).
Global Instance dty_eq_dec : EqDecision dty.
Proof. solve_decision. Defined.

(** tensorflow::Tensor: type, sizes, elements in row-major order.  Elements of
    integral types are bit patterns, that is numbers from 0 to 2^width - 1 (what
    BitcastFrom to the unsigned type shows); other elements are opaque. *)
Record tensor := mkTensor { t_ty : dty; t_shape : list nat; t_data : list Z }.

Definition elements (sh : list nat) : nat := foldr Nat.mul 1%nat sh.
Definition elem_ok (t : dty) (x : Z) : Prop :=
  match t with TInt w _ => (0 <= x < 2 ^ Zpos w)%Z | TOther _ => True end.
Definition tensor_ok (t : tensor) : Prop :=
  length (t_data t) = elements (t_shape t) /\ Forall (elem_ok (t_ty t)) (t_data t).

(** The element written by tensor_compression.cc:45 (n below the row size) and
    :49, with [n = i * c + j] the position of (i, j) in a matrix with rows of
    length [c].  [None]: an element outside of the buffer is read.  Arithmetic on
    the unsigned type wraps around; for the types narrower than int the sum is
    computed in int, where it does not overflow, and converted back, which is the
    same. *)
Definition delta_at (w : positive) (encode : bool) (c : nat) (src dst : list Z) (n : nat) : option Z :=
  if (n <? c)%nat then src !! n
  else x ← src !! n;
       p ← (if encode then src else dst) !! (n - c)%nat;
       Some ((if encode then x - p else x + p) mod 2 ^ Zpos w)%Z.

(** The loops of lines 44-51, which write the elements of [dst] in order. *)
Fixpoint delta_loop (w : positive) (encode : bool) (c : nat) (src : list Z) (todo : nat) (dst : list Z) : option (list Z) :=
  match todo with
  | O => Some dst
  | S todo => v ← delta_at w encode c src dst (length dst);
              delta_loop w encode c src todo (dst ++ [v])
  end.

(** Lines 30-53.  flat_outer_dims keeps the first dimension and collapses the
    others into one.  The first loop runs even when there are no rows.  The loop
    counters are ints in the code, numbers of any size here. *)
Definition delta_rows (w : positive) (encode : bool) (rows c : nat) (src : list Z) : option (list Z) :=
  delta_loop w encode c src (c + (rows - 1) * c) [].

(** Lines 57-69. [None]: access outside of the buffer. *)
Definition delta_encode (t : tensor) (encode : bool) : option tensor :=
  match t_ty t, t_shape t with
  | TInt w _, r :: d :: sh =>
    data ← delta_rows w encode r (elements (d :: sh)) (t_data t);
    Some (mkTensor (t_ty t) (t_shape t) data)
  | _, _ => Some t
  end.

(** Lines 71-79. *)
Fixpoint delta_encode_list (ts : list tensor) (encode : bool) : option (list tensor) :=
  match ts with
  | [] => Some []
  | t :: ts => t ← delta_encode t encode; ts ← delta_encode_list ts encode; Some (t :: ts)
  end.
