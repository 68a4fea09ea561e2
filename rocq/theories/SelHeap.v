(** Model of reverb/cc/selectors/heap.{h,cc} and
    reverb/cc/support/intrusive_heap.h. *)
From Verif Require Import Base.

(** heap.h:55-63 HeapNode; [h_pos] is the IntrusiveHeapLink. *)
Record hnode := mkHnode { h_prio : dbl; h_upd : Z; h_pos : nat }.

(** heap.h:75-89.  [hp_neg] is [sign_ == -1]; [hp_arr] is IntrusiveHeap's
    vector, with keys in place of node pointers; [hp_nodes] is [nodes_];
    [hp_count] is [update_count_] (unbounded here, uint64 in C++). *)
Record heap := mkHeap {
  hp_neg : bool; hp_arr : list Z; hp_nodes : gmap Z hnode; hp_count : Z }.

Definition heap_empty (min_heap : bool) : heap := mkHeap (negb min_heap) [] ∅ 0.

(** heap.h:65-72 HeapNodeCompare. *)
Definition node_lt (x y : hnode) : bool :=
  dlt (h_prio x) (h_prio y) || (deq (h_prio x) (h_prio y) && (h_upd x <? h_upd y)).

Definition hless (nodes : gmap Z hnode) (a b : Z) : bool :=
  match nodes !! a, nodes !! b with
  | Some x, Some y => node_lt x y
  | _, _ => false
  end.

(** intrusive_heap.h:222-224 SetPositionOf. *)
Definition set_pos (nodes : gmap Z hnode) (k : Z) (i : nat) : gmap Z hnode :=
  alter (fun n => mkHnode (h_prio n) (h_upd n) i) k nodes.

(** heap()[i]; the default is never used within bounds. *)
Definition at_ (arr : list Z) (i : nat) : Z := default 0 (arr !! i).

(** The last two statements of FixHeapUp and FixHeapDown. *)
Definition place (arr : list Z) (nodes : gmap Z hnode) (t : Z) (h : nat) :=
  (<[h := t]> arr, set_pos nodes t h).

(** intrusive_heap.h:226-239 FixHeapUp.  [fuel] bounds the loop; the value
    returned without fuel is never reached when [h < fuel]. *)
Fixpoint fix_up (fuel : nat) (arr : list Z) (nodes : gmap Z hnode) (t : Z) (h : nat)
  : list Z * gmap Z hnode :=
  match fuel with
  | O => (arr, nodes)
  | S f =>
      if decide (h = 0%nat) then place arr nodes t h
      else
        let p := ((h - 1) / 2)%nat in
        let pk := at_ arr p in
        if hless nodes pk t then place arr nodes t h
        else fix_up f (<[h := pk]> arr) (set_pos nodes pk h) t p
  end.

(** intrusive_heap.h:241-263 FixHeapDown. *)
Fixpoint fix_down (fuel : nat) (arr : list Z) (nodes : gmap Z hnode) (t : Z) (h : nat)
  : list Z * gmap Z hnode :=
  match fuel with
  | O => (arr, nodes)
  | S f =>
      let kid0 := (2 * h + 1)%nat in
      if decide (length arr <= kid0)%nat then place arr nodes t h
      else
        let kid := if decide (kid0 + 1 < length arr)%nat then
                     if hless nodes (at_ arr (kid0 + 1)) (at_ arr kid0)
                     then (kid0 + 1)%nat else kid0
                   else kid0 in
        let kk := at_ arr kid in
        if hless nodes t kk then place arr nodes t h
        else fix_down f (<[h := kk]> arr) (set_pos nodes kk h) t kid
  end.

(** GetPositionOf. *)
Definition pos_of (nodes : gmap Z hnode) (t : Z) : nat :=
  match nodes !! t with Some n => h_pos n | None => 0%nat end.

(** intrusive_heap.h:190-195 Contains (kNotMember never occurs for a node held
    in [nodes_], see [heap_contains]). *)
Definition contains_ (arr : list Z) (nodes : gmap Z hnode) (t : Z) : Prop :=
  arr !! pos_of nodes t = Some t.

(** intrusive_heap.h:156-165 Adjust; the CHECK(Contains(t)) is the lemma
    [heap_contains]. *)
Definition adjust (arr : list Z) (nodes : gmap Z hnode) (t : Z) : list Z * gmap Z hnode :=
  let h := pos_of nodes t in
  if decide (h <> 0%nat /\ hless nodes t (at_ arr ((h - 1) / 2)%nat) = true)
  then fix_up (S (length arr)) arr nodes t h
  else fix_down (S (length arr)) arr nodes t h.

(** intrusive_heap.h:149-153 Push. *)
Definition push (arr : list Z) (nodes : gmap Z hnode) (t : Z) : list Z * gmap Z hnode :=
  let nodes := set_pos nodes t (length arr) in
  fix_up (S (S (length arr))) (arr ++ [t]) nodes t (length arr).

(** intrusive_heap.h:168-184 Remove.  Simplification: the link of the removed
    node is not set to kNotMember, the node itself is erased by the caller. *)
Definition remove_ (arr : list Z) (nodes : gmap Z hnode) (t : Z) : list Z * gmap Z hnode :=
  let h := pos_of nodes t in
  let n1 := (length arr - 1)%nat in
  if decide (h = n1) then (take n1 arr, nodes)
  else
    let elem := at_ arr n1 in
    adjust (take n1 (<[h := elem]> arr)) (set_pos nodes elem h) elem.

(** heap.cc:28-36. *)
Definition heap_delete (s : heap) (k : Z) : status * heap :=
  match hp_nodes s !! k with
  | None => (InvalidArgument, s)
  | Some _ =>
      let '(arr, nodes) := remove_ (hp_arr s) (hp_nodes s) k in
      (Ok, mkHeap (hp_neg s) arr (delete k nodes) (hp_count s))
  end.

(** heap.cc:38-47. *)
Definition heap_insert (s : heap) (k : Z) (p : dbl) : status * heap :=
  match hp_nodes s !! k with
  | Some _ => (InvalidArgument, s)
  | None =>
      let nodes := <[k := mkHnode (dsign (hp_neg s) p) (hp_count s) 0]> (hp_nodes s) in
      let '(arr, nodes) := push (hp_arr s) nodes k in
      (Ok, mkHeap (hp_neg s) arr nodes (hp_count s + 1))
  end.

(** heap.cc:49-57. *)
Definition heap_update (s : heap) (k : Z) (p : dbl) : status * heap :=
  match hp_nodes s !! k with
  | None => (InvalidArgument, s)
  | Some n =>
      let nodes := <[k := mkHnode (dsign (hp_neg s) p) (hp_count s) (h_pos n)]> (hp_nodes s) in
      let '(arr, nodes) := adjust (hp_arr s) nodes k in
      (Ok, mkHeap (hp_neg s) arr nodes (hp_count s + 1))
  end.

(** heap.cc:59-62. *)
Definition heap_sample (s : heap) : option (Z * Q) :=
  match hp_arr s with [] => None | k :: _ => Some (k, 1%Q) end.

(** heap.cc:64-67: [update_count_] is not cleared. *)
Definition heap_clear (s : heap) : heap := mkHeap (hp_neg s) [] ∅ (hp_count s).
