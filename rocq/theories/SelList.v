(** Model of reverb/cc/selectors/fifo.cc and lifo.cc.

    Simplification: the std::list [keys_] is a Coq list; [key_to_iterator_]
    is not stored separately, finding the iterator of a key is finding the key
    in the list (both containers always hold the same keys). *)
From Verif Require Import Base.

Definition remove_key (k : Z) (l : list Z) : list Z := filter (fun x => x <> k) l.

(** fifo.cc:26-33, lifo.cc:25-32. *)
Definition ls_delete (l : list Z) (k : Z) : status * list Z :=
  if decide (k ∈ l) then (Ok, remove_key k l) else (InvalidArgument, l).

(** fifo.cc:35-42: emplaced at the end. *)
Definition fifo_insert (l : list Z) (k : Z) (p : dbl) : status * list Z :=
  if decide (k ∈ l) then (InvalidArgument, l) else (Ok, l ++ [k]).

(** lifo.cc:34-41: emplaced at the beginning. *)
Definition lifo_insert (l : list Z) (k : Z) (p : dbl) : status * list Z :=
  if decide (k ∈ l) then (InvalidArgument, l) else (Ok, k :: l).

(** fifo.cc:44-49, lifo.cc:43-48. *)
Definition ls_update (l : list Z) (k : Z) (p : dbl) : status * list Z :=
  if decide (k ∈ l) then (Ok, l) else (InvalidArgument, l).

(** fifo.cc:51-54, lifo.cc:50-53; [None] is the CHECK failure. *)
Definition ls_sample (l : list Z) : option (Z * Q) :=
  match l with [] => None | k :: _ => Some (k, 1%Q) end.
