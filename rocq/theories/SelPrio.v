(** Model of reverb/cc/selectors/prioritized.cc.  Every floating point result
    is passed through [rnd]; std::pow is [pw]. *)
From Verif Require Import Base.

(** prioritized.h: Node. *)
Record pnode := mkPnode { p_key : Z; p_value : Q; p_sum : Q }.
Definition pzero : pnode := mkPnode 0 0 0.

(** prioritized.h members.  [sum_tree_] is a finite map from indices to nodes
    whose absent entries are value-initialised nodes; [p_cap] is [capacity_]. *)
Record prio := mkPrio {
  p_exp : Q; p_cap : N; p_tree : gmap nat pnode; p_index : gmap Z nat }.

(** prioritized.cc:53-57.  CHECK_GE(exponent, 0) is a side condition. *)
Definition prio_empty (e : Q) : prio := mkPrio e (2 ^ 17)%N ∅ ∅.

Definition pnode_at (t : gmap nat pnode) (i : nat) : pnode := default pzero (t !! i).
(** prioritized.cc:173-175 NodeValue. *)
Definition pval (t : gmap nat pnode) (i : nat) : Q := p_value (pnode_at t i).
(** prioritized.cc:177-179 NodeSum; [sz] is key_to_index_.size(). *)
Definition psum (sz : nat) (t : gmap nat pnode) (i : nat) : Q :=
  if decide (i < sz)%nat then p_sum (pnode_at t i) else 0%Q.

Definition set_value (t : gmap nat pnode) (i : nat) (v : Q) : gmap nat pnode :=
  <[i := mkPnode (p_key (pnode_at t i)) v (p_sum (pnode_at t i))]> t.
Definition set_sum (t : gmap nat pnode) (i : nat) (v : Q) : gmap nat pnode :=
  <[i := mkPnode (p_key (pnode_at t i)) (p_value (pnode_at t i)) v]> t.
Definition set_key (t : gmap nat pnode) (i : nat) (k : Z) : gmap nat pnode :=
  <[i := mkPnode k (p_value (pnode_at t i)) (p_sum (pnode_at t i))]> t.

(** kMaxApproximationError, prioritized.cc:33. *)
Definition max_error : Q := (1 # 10000)%Q.

Section WithFP.
Context {fp : FP}.

(** prioritized.cc:38-40 power. *)
Definition power (b e : Q) : Q := if Qeq_bool b 0 then 0%Q else pw b e.

(** prioritized.cc:42-49. *)
Definition check_valid_priority (p : dbl) : option Q :=
  match p with
  | NaN => None
  | Fin q => if Qle_bool 0 q then Some q else None
  end.

(** The macro UPDATE_SUM(i), prioritized.cc:189-193: new tree and error. *)
Definition update_sum (sz : nat) (t : gmap nat pnode) (i : nat) (diff : Q) : gmap nat pnode * Q :=
  let s1 := rnd (p_sum (pnode_at t i) + diff) in
  let s2 := if Qle_bool 0 s1 then s1 else 0%Q in
  let t := set_sum t i s2 in
  (t, Qabs.Qabs (rnd (rnd (rnd (s2 - psum sz t (2 * i + 1)) - psum sz t (2 * i + 2)) - pval t i))).

(** prioritized.cc:206-209: the loop over the parents. *)
Fixpoint update_parents (fuel : nat) (sz : nat) (t : gmap nat pnode) (i : nat) (diff err : Q)
  : gmap nat pnode * Q :=
  match fuel with
  | O => (t, err)
  | S f =>
      if decide (i = 0%nat) then (t, err)
      else if Qle_bool err max_error then
        let i := ((i - 1) / 2)%nat in
        let '(t, err) := update_sum sz t i diff in
        update_parents f sz t i diff err
      else (t, err)
  end.

(** prioritized.cc:223-228 ReinitializeSumTree, from index n-1 down to 0. *)
Fixpoint reinit (n : nat) (sz : nat) (t : gmap nat pnode) : gmap nat pnode :=
  match n with
  | O => t
  | S i =>
      reinit i sz (set_sum t i (rnd (rnd (pval t i + psum sz t (2 * i + 1)) + psum sz t (2 * i + 2))))
  end.

(** prioritized.cc:195-219 SetNode. *)
Definition set_node (cap : N) (sz : nat) (t : gmap nat pnode) (i : nat) (v : Q) : gmap nat pnode :=
  let diff := rnd (v - pval t i) in
  let t := set_value t i v in
  let '(t, err) := update_sum sz t i diff in
  let '(t, err) := update_parents (S i) sz t i diff err in
  if Qle_bool err max_error then t else reinit (N.to_nat cap) sz t.

Definition psize (s : prio) : nat := size (p_index s).

(** prioritized.cc:59-78. *)
Definition prio_delete (s : prio) (k : Z) : status * prio :=
  let n := psize s in
  let last_index := (n - 1)%nat in
  match p_index s !! k with
  | None => (InvalidArgument, s)
  | Some i =>
      let '(t, idx) :=
        if decide (i = last_index) then (p_tree s, p_index s)
        else
          let t := set_node (p_cap s) n (p_tree s) i (pval (p_tree s) last_index) in
          let last_key := p_key (pnode_at t last_index) in
          (set_key t i last_key, <[last_key := i]> (p_index s)) in
      let t := set_node (p_cap s) n t last_index 0 in
      (Ok, mkPrio (p_exp s) (p_cap s) t (delete k idx))
  end.

(** prioritized.cc:80-95. *)
Definition prio_insert (s : prio) (k : Z) (p : dbl) : status * prio :=
  match check_valid_priority p with
  | None => (InvalidArgument, s)
  | Some q =>
      let n := psize s in
      let cap := if decide (N.of_nat n = p_cap s) then (p_cap s * 2)%N else p_cap s in
      match p_index s !! k with
      | Some _ => (InvalidArgument, mkPrio (p_exp s) cap (p_tree s) (p_index s))
      | None =>
          let idx := <[k := n]> (p_index s) in
          let t := set_key (p_tree s) n k in
          (Ok, mkPrio (p_exp s) cap (set_node cap (S n) t n (power q (p_exp s))) idx)
      end
  end.

(** prioritized.cc:97-105. *)
Definition prio_update (s : prio) (k : Z) (p : dbl) : status * prio :=
  match check_valid_priority p with
  | None => (InvalidArgument, s)
  | Some q =>
      match p_index s !! k with
      | None => (InvalidArgument, s)
      | Some i =>
          (Ok, mkPrio (p_exp s) (p_cap s)
                 (set_node (p_cap s) (psize s) (p_tree s) i (power q (p_exp s))) (p_index s))
      end
  end.

(** prioritized.cc:124-143: the descent; [None] when the fuel runs out. *)
Fixpoint descend (fuel : nat) (sz : nat) (t : gmap nat pnode) (i : nat) (tw : Q) : option nat :=
  match fuel with
  | O => None
  | S f =>
      let l := (2 * i + 1)%nat in
      let ls := psum sz t l in
      if negb (Qle_bool ls tw) then descend f sz t l tw
      else
        let tw := rnd (tw - ls) in
        let r := (2 * i + 2)%nat in
        let rs := psum sz t r in
        if negb (Qle_bool rs tw) then descend f sz t r tw
        else Some i
  end.

(** prioritized.cc:107-151.  [None] is a CHECK failure (empty selector or
    index out of range).  When all weights are zero the position is
    target * size truncated; a position >= size would be an out of range read
    and is also [None]. *)
Definition prio_sample (s : prio) (d : draw) : option (Z * Q) :=
  let n := psize s in
  if decide (n = 0%nat) then None
  else
    let total := p_sum (pnode_at (p_tree s) 0) in
    if Qeq_bool total 0 then
      let pos := Z.to_nat (Qround.Qfloor (rnd (d_unit d * inject_Z (Z.of_nat n)))) in
      if decide (pos < n)%nat then
        Some (p_key (pnode_at (p_tree s) pos), rnd (1 / inject_Z (Z.of_nat n)))%Q
      else None
    else
      match descend (S n) n (p_tree s) 0 (rnd (d_unit d * total)) with
      | Some i =>
          if decide (i < n)%nat then
            Some (p_key (pnode_at (p_tree s) i), rnd (pval (p_tree s) i / total))%Q
          else None
      | None => None
      end.

Fixpoint clear_nodes (n : nat) (t : gmap nat pnode) : gmap nat pnode :=
  match n with
  | O => t
  | S i => clear_nodes i (<[i := mkPnode (p_key (pnode_at t i)) 0 0]> t)
  end.

(** prioritized.cc:153-159 (the loop order does not matter). *)
Definition prio_clear (s : prio) : prio :=
  mkPrio (p_exp s) (p_cap s) (clear_nodes (psize s) (p_tree s)) ∅.

End WithFP.
