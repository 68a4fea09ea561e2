(** Model of reverb/cc/selectors/uniform.cc. *)
From Verif Require Import Base.

(** uniform.h: [keys_] and [key_to_index_]. *)
Record uniform := mkUniform { u_keys : list Z; u_index : gmap Z nat }.

Definition uniform_empty : uniform := mkUniform [] ∅.

(** uniform.cc:26-43. *)
Definition uniform_delete (s : uniform) (k : Z) : status * uniform :=
  match u_index s !! k with
  | None => (InvalidArgument, s)
  | Some i =>
      let idx := delete k (u_index s) in
      let last_index := (length (u_keys s) - 1)%nat in
      let last_key := default 0 (last (u_keys s)) in
      if decide (i = last_index) then
        (Ok, mkUniform (take last_index (u_keys s)) idx)
      else
        (Ok, mkUniform (take last_index (<[i := last_key]> (u_keys s)))
               (<[last_key := i]> idx))
  end.

(** uniform.cc:45-52. *)
Definition uniform_insert (s : uniform) (k : Z) (p : dbl) : status * uniform :=
  match u_index s !! k with
  | Some _ => (InvalidArgument, s)
  | None => (Ok, mkUniform (u_keys s ++ [k]) (<[k := length (u_keys s)]> (u_index s)))
  end.

(** uniform.cc:54-58. *)
Definition uniform_update (s : uniform) (k : Z) (p : dbl) : status * uniform :=
  match u_index s !! k with
  | None => (InvalidArgument, s)
  | Some _ => (Ok, s)
  end.

(** uniform.cc:60-67.  absl::Uniform(gen, 0, n) is the draw modulo n, so that
    every index in [0,n) is a possible result. *)
Definition uniform_sample {fp : FP} (s : uniform) (d : draw) : option (Z * Q) :=
  match u_keys s with
  | [] => None
  | _ =>
      let n := length (u_keys s) in
      match u_keys s !! (d_int d mod n)%nat with
      | Some k => Some (k, rnd (1 / inject_Z (Z.of_nat n))%Q)
      | None => None
      end
  end.

(** uniform.cc:69-72. *)
Definition uniform_clear (s : uniform) : uniform := uniform_empty.

(** Representation invariant: array and index are mutually inverse. *)
Definition uniform_wf (s : uniform) : Prop :=
  forall k i, u_index s !! k = Some i <-> u_keys s !! i = Some k.

Lemma uniform_wf_nodup s : uniform_wf s -> NoDup (u_keys s).
Proof.
  intros H. apply NoDup_alt. intros i j x Hi Hj.
  apply H in Hi, Hj. congruence.
Qed.

Lemma uniform_empty_wf : uniform_wf uniform_empty.
Proof. intros k i. unfold uniform_empty; simpl. rewrite lookup_empty, lookup_nil. done. Qed.

Lemma uniform_insert_wf s k p : uniform_wf s -> uniform_wf (uniform_insert s k p).2.
Proof.
  intros H. unfold uniform_insert. destruct (u_index s !! k) eqn:E; [done|].
  simpl. intros k' i; simpl.
  assert (Hn : forall j, u_keys s !! j <> Some k).
  { intros j Hj. apply H in Hj. congruence. }
  destruct (decide (k' = k)) as [->|Hk].
  - rewrite lookup_insert. split.
    + intros [= <-]. rewrite lookup_app_r, Nat.sub_diag by lia. done.
    + intros Hl. apply lookup_app_Some in Hl as [Hl|[Hge Hl]].
      * by apply Hn in Hl.
      * apply list_lookup_singleton_Some in Hl as [? _]. f_equal; lia.
  - rewrite lookup_insert_ne by done. rewrite (H k' i). split.
    + intros Hl. rewrite lookup_app_l; [done|]. by apply lookup_lt_Some in Hl.
    + intros Hl. apply lookup_app_Some in Hl as [Hl|[Hge Hl]]; [done|].
      apply list_lookup_singleton_Some in Hl as [? ?]. congruence.
Qed.

Lemma uniform_delete_wf s k : uniform_wf s -> uniform_wf (uniform_delete s k).2.
Proof.
  intros H. unfold uniform_delete. destruct (u_index s !! k) as [i|] eqn:E; [|done].
  pose proof (proj1 (H k i) E) as Hi.
  pose proof (lookup_lt_Some _ _ _ Hi) as Hlt.
  set (n := length (u_keys s)) in *.
  assert (Hlast : exists lk, u_keys s !! (n - 1)%nat = Some lk).
  { apply lookup_lt_is_Some. fold n. lia. }
  destruct Hlast as [lk Hlk].
  assert (Hd : default 0 (last (u_keys s)) = lk).
  { rewrite last_lookup. fold n. replace (pred n) with (n - 1)%nat by lia. by rewrite Hlk. }
  rewrite Hd.
  destruct (decide (i = n - 1)%nat) as [->|Hne]; simpl; intros k' j; simpl.
  - destruct (decide (k' = k)) as [->|Hk].
    + rewrite lookup_delete. split; [done|]. intros Hl.
      apply lookup_take_Some in Hl as [Hl Hj].
      apply H in Hl. rewrite E in Hl. injection Hl. lia.
    + rewrite lookup_delete_ne by done. rewrite (H k' j). split.
      * intros Hl. rewrite lookup_take; [done|].
        pose proof (lookup_lt_Some _ _ _ Hl). fold n in H0.
        destruct (decide (j = n - 1)%nat) as [->|]; [congruence|lia].
      * intros Hl. by apply lookup_take_Some in Hl as [Hl _].
  - assert (Hlkk : lk <> k).
    { intros ->. apply H in Hlk. rewrite E in Hlk. congruence. }
    destruct (decide (k' = lk)) as [->|Hk'].
    + rewrite lookup_insert. split.
      * intros [= <-]. rewrite lookup_take by lia. by rewrite list_lookup_insert.
      * intros Hl. apply lookup_take_Some in Hl as [Hl Hj].
        destruct (decide (j = i)) as [->|Hji]; [done|].
        rewrite list_lookup_insert_ne in Hl by done.
        apply H in Hl. apply H in Hlk. rewrite Hl in Hlk. injection Hlk. lia.
    + rewrite lookup_insert_ne by done.
      destruct (decide (k' = k)) as [->|Hk].
      * rewrite lookup_delete. split; [done|]. intros Hl.
        apply lookup_take_Some in Hl as [Hl Hj].
        destruct (decide (j = i)) as [->|Hji].
        { rewrite list_lookup_insert in Hl by done. congruence. }
        rewrite list_lookup_insert_ne in Hl by done.
        apply H in Hl. rewrite E in Hl. injection Hl. lia.
      * rewrite lookup_delete_ne by done. rewrite (H k' j). split.
        -- intros Hl.
           assert (j <> i) by (intros ->; congruence).
           assert (j <> n - 1)%nat by (intros ->; congruence).
           pose proof (lookup_lt_Some _ _ _ Hl). fold n in H2.
           rewrite lookup_take by lia. rewrite list_lookup_insert_ne by done. done.
        -- intros Hl. apply lookup_take_Some in Hl as [Hl Hj].
           destruct (decide (j = i)) as [->|Hji].
           { rewrite list_lookup_insert in Hl by done. congruence. }
           by rewrite list_lookup_insert_ne in Hl.
Qed.

Lemma uniform_keys_insert s k p :
  uniform_wf s -> forall x, x ∈ u_keys (uniform_insert s k p).2 <-> x ∈ u_keys s \/ x = k.
Proof.
  intros H x. unfold uniform_insert. destruct (u_index s !! k) as [i|] eqn:E; simpl.
  - split; [auto|]. intros [Hx| ->]; [done|]. apply H in E. by eapply elem_of_list_lookup_2.
  - rewrite elem_of_app, elem_of_list_singleton. done.
Qed.

Lemma uniform_index_keys s : uniform_wf s -> forall k, is_Some (u_index s !! k) <-> k ∈ u_keys s.
Proof.
  intros H k. rewrite elem_of_list_lookup. split; intros [i Hi]; exists i; by apply H.
Qed.

Lemma uniform_keys_delete s k :
  uniform_wf s -> forall x, x ∈ u_keys (uniform_delete s k).2 <-> x ∈ u_keys s /\ x <> k.
Proof.
  intros H x. pose proof (uniform_delete_wf s k H) as H'.
  rewrite <- (uniform_index_keys _ H'), <- (uniform_index_keys _ H).
  unfold uniform_delete. destruct (u_index s !! k) as [i|] eqn:E; simpl.
  - pose proof (proj1 (H k i) E) as Hi.
    pose proof (lookup_lt_Some _ _ _ Hi) as Hlt.
    case_decide as Hc; simpl.
    + destruct (decide (x = k)) as [->|]; [rewrite lookup_delete|rewrite lookup_delete_ne by done]; [|tauto].
      split; [intros [? ?]; done|]. tauto.
    + set (lk := default 0 (last (u_keys s))).
      assert (Hlk : u_keys s !! (length (u_keys s) - 1)%nat = Some lk).
      { unfold lk. rewrite last_lookup. replace (pred (length (u_keys s))) with (length (u_keys s) - 1)%nat by lia.
        destruct (lookup_lt_is_Some_2 (u_keys s) (length (u_keys s) - 1)%nat) as [y Hy]; [lia|].
        by rewrite Hy. }
      assert (lk <> k). { intros Heq. rewrite Heq in Hlk. apply H in Hlk. congruence. }
      apply H in Hlk.
      destruct (decide (x = lk)) as [->|].
      * rewrite lookup_insert, Hlk. split; intros; [split; [eauto|done]|eauto].
      * rewrite lookup_insert_ne by done.
        destruct (decide (x = k)) as [->|]; [rewrite lookup_delete|rewrite lookup_delete_ne by done]; [|tauto].
        split; [intros [? ?]; done|]. tauto.
  - split; [|tauto]. intros Hx. split; [done|]. intros ->. rewrite E in Hx. by destruct Hx.
Qed.
