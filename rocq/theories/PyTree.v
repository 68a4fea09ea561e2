(** Nested structures in Python: signatures of tables (reverb/server.py:141-152,
    reverb/reverb_types.py:78-86) and Client.sample with unpack_as_table_signature
    (reverb/client.py:409-445).  dm-tree and TensorFlow's StructureCoder are modelled by
    what they do with lists, tuples, named tuples and dictionaries with strings as
    keys; other containers are not modelled. *)
From stdpp Require Import strings pretty.
From Verif Require Import Base Trajectory Tensor TrajUtil ChunkerOptions Sample Stream Chunker TrajWriter Writer Signature PyClient.

Inductive nest (A : Type) :=
| NLeaf (a : A) | NList (l : list (nest A)) | NTuple (l : list (nest A))
| NDict (fs : list (string * nest A)) | NNamed (name : string) (fs : list (string * nest A)).
Arguments NLeaf {A}. Arguments NList {A}. Arguments NTuple {A}. Arguments NDict {A}. Arguments NNamed {A}.

(** tree.flatten: dictionaries in the order of their keys. *)
Fixpoint nflatten {A} (d : nest A) : list A :=
  match d with
  | NLeaf a => [a]
  | NList l | NTuple l => concat (List.map nflatten l)
  | NDict fs => concat (List.map snd (sort_keys (List.map (fun kv => (fst kv, nflatten (snd kv))) fs)))
  | NNamed _ fs => concat (List.map (fun kv => nflatten (snd kv)) fs)
  end.

(** The parts of a container are built one after the other from a list of leaves. *)
Fixpoint thread {A B} (fs : list (list A -> option (B * list A))) (xs : list A) : option (list B * list A) :=
  match fs with
  | [] => Some ([], xs)
  | f :: fs => '(b, xs) ← f xs; '(bs, xs) ← thread fs xs; Some (b :: bs, xs)
  end.
Fixpoint assoc {B} (k : string) (l : list (string * B)) : option B :=
  match l with [] => None | (k', b) :: l => if String.eqb k k' then Some b else assoc k l end.

(** tree.unflatten_as: a dictionary takes the leaves in the order of its sorted keys
    and lists the keys in the order of the given structure.  The error if the number
    of leaves is wrong is a ValueError. *)
Fixpoint nbuild {A B} (s : nest B) : list A -> option (nest A * list A) :=
  match s with
  | NLeaf _ => fun xs => match xs with x :: xs => Some (NLeaf x, xs) | [] => None end
  | NList l => let bs := List.map nbuild l in fun xs => '(ds, xs) ← thread bs xs; Some (NList ds, xs)
  | NTuple l => let bs := List.map nbuild l in fun xs => '(ds, xs) ← thread bs xs; Some (NTuple ds, xs)
  | NDict fs =>
    let bs := sort_keys (List.map (fun kv => (fst kv, nbuild (snd kv))) fs) in
    let ks := List.map fst fs in
    fun xs => '(ds, xs) ← thread (List.map snd bs) xs;
              fs' ← mapM (fun k => d ← assoc k (zip (List.map fst bs) ds); Some (k, d)) ks;
              Some (NDict fs', xs)
  | NNamed n fs =>
    let bs := List.map (fun kv => nbuild (snd kv)) fs in
    let ks := List.map fst fs in
    fun xs => '(ds, xs) ← thread bs xs; Some (NNamed n (zip ks ds), xs)
  end.
Definition nunflatten {A B} (s : nest B) (xs : list A) : option (nest A) :=
  if (length (nflatten s) =? length xs)%nat then '(d, _) ← nbuild s xs; Some d else None.

(** bool() of a structure: empty containers are false. *)
Definition truthy {A} (d : nest A) : bool :=
  match d with NLeaf _ => true | NList l | NTuple l => negb (length l =? 0)%nat | NDict fs | NNamed _ fs => negb (length fs =? 0)%nat end.

(** Leaves of a signature: tf.TensorSpec, tf.BoundedTensorSpec (bounds left out),
    anything else. *)
Inductive sleaf := LSpec (name : string) (dtype : Z) (shape : list Z) | LBounded (name : string) (dtype : Z) (shape : list Z) | LOther.
Definition is_spec (s : sleaf) : bool := match s with LOther => false | _ => true end.

(** Leaf by leaf related by [R]: containers of the same kinds with parts at the same
    places; the fields of a dictionary may be listed in another order. *)
Inductive nrel {A B} (R : A -> B -> Prop) : nest A -> nest B -> Prop :=
| nr_leaf a b : R a b -> nrel R (NLeaf a) (NLeaf b)
| nr_list l l' : Forall2 (nrel R) l l' -> nrel R (NList l) (NList l')
| nr_tuple l l' : Forall2 (nrel R) l l' -> nrel R (NTuple l) (NTuple l')
| nr_dict fs fs' fs'' : fs'' ≡ₚ fs' -> Forall2 (fun a b => fst a = fst b /\ nrel R (snd a) (snd b)) fs fs'' -> nrel R (NDict fs) (NDict fs')
| nr_named n fs fs' : Forall2 (fun a b => fst a = fst b /\ nrel R (snd a) (snd b)) fs fs' -> nrel R (NNamed n fs) (NNamed n fs').

(** server.py:141-152: [None] is the ValueError; the inner option is the proto, if one
    is sent: StructureCoder.encode_structure, of which the fields of dictionaries are a
    proto map.  [order] is the order in which the map lists them. *)
Definition table_signature (order : nest sleaf -> nest sleaf) (signature : option (nest sleaf)) : option (option (nest sleaf)) :=
  match signature with
  | Some s => if truthy s then if forallb is_spec (nflatten s) then Some (Some (order s)) else None else Some None
  | None => Some None
  end.
(** What FlatSignatureFromStructuredValue (Signature.v) looks at. *)
Fixpoint sv_of (p : nest sleaf) : sv :=
  match p with
  | NLeaf (LSpec n t s) => SSpec n t s
  | NLeaf (LBounded n t s) => SBounded n t s
  | NLeaf LOther => SOther
  | NList l => SList (List.map sv_of l)
  | NTuple l => STuple (List.map sv_of l)
  | NDict fs => SDict (List.map (fun kv => (fst kv, sv_of (snd kv))) fs)
  | NNamed _ fs => SNamed (List.map (fun kv => (fst kv, sv_of (snd kv))) fs)
  end.

(** client.py:409-415 (the signature is the decoded proto, reverb_types.py:81-85, so
    the proto itself here); data that is not unpacked is the list of its leaves. *)
Definition unpack_as (signature : option (nest sleaf)) (row : list tensor) : option (nest tensor) :=
  match signature with
  | Some s => if truthy s then nunflatten s row else Some (NList (List.map NLeaf row))
  | None => Some (NList (List.map NLeaf row))
  end.
(** client.py:417-445, one round of the loop, as in PyClient.v but with the structure of
    the data. *)
Inductive nyielded := NYTimesteps (l : list (meta * nest tensor)) | NYTrajectory (m : meta) (d : nest tensor).
Definition nsplit_timesteps (signature : option (nest sleaf)) (m : meta) (cols : list tensor) : raised + list (meta * nest tensor) :=
  match mapM py_len cols with
  | None => inl RTypeError
  | Some ls =>
    if negb (length (remove_dups ls) =? 1)%nat then inl RValueError
    else match mapM (fun i => row ← mapM (fun c => Sample.sub_slice c i) cols; d ← unpack_as signature row; Some (m, d)) (seq 0 (default 0%nat (head ls))) with
         | None => inl RValueError
         | Some l => inr l
         end
  end.
Definition nsample_round (emit_timesteps : bool) (signature : option (nest sleaf)) (popped : status + (meta * list tensor)) : raised + nyielded :=
  match popped with
  | inl st => inl (RStatus st)
  | inr (m, cols) =>
    if emit_timesteps then match nsplit_timesteps signature m cols with inl r => inl r | inr l => inr (NYTimesteps l) end
    else match unpack_as signature cols with None => inl RValueError | Some d => inr (NYTrajectory m d) end
  end.
