(** The five item selectors behind one interface
    (reverb/cc/selectors/interface.h). *)
From Verif Require Import Base SelList SelUniform SelHeap SelHeapProofs SelPrio SelPrioProofs.

(** KeyDistributionOptions, i.e. how a selector is configured. *)
Inductive sel_kind := KFifo | KLifo | KHeap (min_heap : bool) | KUniform | KPrio (e : Q).

Inductive selector :=
| SFifo (l : list Z) | SLifo (l : list Z) | SHeap (h : heap) | SUniform (u : uniform)
| SPrio (p : prio).

(** MakeDistribution, reverb/cc/platform/tfrecord_checkpointer.cc:112-131, and
    the constructors. *)
Definition sel_new (k : sel_kind) : selector :=
  match k with
  | KFifo => SFifo [] | KLifo => SLifo [] | KHeap m => SHeap (heap_empty m)
  | KUniform => SUniform uniform_empty | KPrio e => SPrio (prio_empty e)
  end.

(** ItemSelector::options(). *)
Definition sel_kind_of (s : selector) : sel_kind :=
  match s with
  | SFifo _ => KFifo | SLifo _ => KLifo | SHeap h => KHeap (negb (hp_neg h))
  | SUniform _ => KUniform | SPrio p => KPrio (p_exp p)
  end.

Definition kind_ok (k : sel_kind) : Prop :=
  match k with KPrio e => (0 <= e)%Q | _ => True end.

Section WithFP.
Context {fp : FP}.

Definition sel_insert (s : selector) (k : Z) (p : dbl) : status * selector :=
  match s with
  | SFifo l => let '(st, l) := fifo_insert l k p in (st, SFifo l)
  | SLifo l => let '(st, l) := lifo_insert l k p in (st, SLifo l)
  | SHeap h => let '(st, h) := heap_insert h k p in (st, SHeap h)
  | SUniform u => let '(st, u) := uniform_insert u k p in (st, SUniform u)
  | SPrio q => let '(st, q) := prio_insert q k p in (st, SPrio q)
  end.

Definition sel_update (s : selector) (k : Z) (p : dbl) : status * selector :=
  match s with
  | SFifo l => let '(st, l) := ls_update l k p in (st, SFifo l)
  | SLifo l => let '(st, l) := ls_update l k p in (st, SLifo l)
  | SHeap h => let '(st, h) := heap_update h k p in (st, SHeap h)
  | SUniform u => let '(st, u) := uniform_update u k p in (st, SUniform u)
  | SPrio q => let '(st, q) := prio_update q k p in (st, SPrio q)
  end.

Definition sel_delete (s : selector) (k : Z) : status * selector :=
  match s with
  | SFifo l => let '(st, l) := ls_delete l k in (st, SFifo l)
  | SLifo l => let '(st, l) := ls_delete l k in (st, SLifo l)
  | SHeap h => let '(st, h) := heap_delete h k in (st, SHeap h)
  | SUniform u => let '(st, u) := uniform_delete u k in (st, SUniform u)
  | SPrio q => let '(st, q) := prio_delete q k in (st, SPrio q)
  end.

(** [None] is a CHECK failure. *)
Definition sel_sample (s : selector) (d : draw) : option (Z * Q) :=
  match s with
  | SFifo l => ls_sample l
  | SLifo l => ls_sample l
  | SHeap h => heap_sample h
  | SUniform u => uniform_sample u d
  | SPrio q => prio_sample q d
  end.

(** fifo.cc:56-59, lifo.cc:55-58 and the others. *)
Definition sel_clear (s : selector) : selector :=
  match s with
  | SFifo _ => SFifo [] | SLifo _ => SLifo [] | SHeap h => SHeap (heap_clear h)
  | SUniform u => SUniform (uniform_clear u) | SPrio q => SPrio (prio_clear q)
  end.

(** Does the selector accept this priority (prioritized.cc:42-49)? *)
Definition accepts (k : sel_kind) (p : dbl) : bool :=
  match k with
  | KPrio _ => match p with NaN => false | Fin q => Qle_bool 0 q end
  | _ => true
  end.

(** The keys held. *)
Definition sel_dom (s : selector) : gset Z :=
  match s with
  | SFifo l => list_to_set l
  | SLifo l => list_to_set l
  | SHeap h => dom (hp_nodes h)
  | SUniform u => list_to_set (u_keys u)
  | SPrio q => dom (p_index q)
  end.

Definition sel_wf (s : selector) : Prop :=
  match s with
  | SFifo l => NoDup l
  | SLifo l => NoDup l
  | SHeap h => heap_wf h
  | SUniform u => uniform_wf u
  | SPrio q => prio_wf q
  end.

Context {laws : FPLaws fp}.

Lemma remove_key_elem k l x : x ∈ remove_key k l <-> x ∈ l /\ x <> k.
Proof. unfold remove_key. rewrite elem_of_list_filter. tauto. Qed.

Lemma remove_key_nodup k l : NoDup l -> NoDup (remove_key k l).
Proof. apply NoDup_filter. Qed.

Lemma sel_new_spec k : kind_ok k ->
  sel_wf (sel_new k) /\ sel_dom (sel_new k) = ∅ /\ sel_kind_of (sel_new k) = k.
Proof.
  destruct k as [| |m| |e]; cbn [kind_ok sel_new sel_wf sel_dom sel_kind_of]; intros Hk.
  - split; [constructor|done].
  - split; [constructor|done].
  - split; [|cbn; split; [set_solver|by destruct m]]. split; cbn.
    + intros k i. rewrite lookup_empty, lookup_nil. done.
    + intros k n. by rewrite lookup_empty.
    + intros k1 k2 n1 n2. by rewrite lookup_empty.
  - split; [apply uniform_empty_wf|done].
  - split; [by apply prio_empty_wf|]. cbn. split; [set_solver|done].
Qed.

Lemma heap_elem h k : heap_wf h -> k ∈ hp_arr h <-> k ∈ dom (hp_nodes h).
Proof. intros [L _ _]. rewrite (hwf_elem _ _ k L). by rewrite elem_of_dom. Qed.

Lemma rank_dom n k : is_Some (rank n k) <-> k ∈ dom n.
Proof. rewrite elem_of_dom. unfold rank. by rewrite fmap_is_Some. Qed.

Lemma weight_dom q k : is_Some (weight q k) <-> k ∈ dom (p_index q).
Proof. rewrite elem_of_dom. unfold weight. by rewrite fmap_is_Some. Qed.

Lemma accepts_check e p : accepts (KPrio e) p = true <-> is_Some (check_valid_priority p).
Proof.
  destruct p as [q|]; simpl; [|split; [done|by intros [? ?]]].
  destruct (Qle_bool 0 q); split; intros H; eauto; try done. by destruct H.
Qed.

Lemma sel_insert_spec s k p : sel_wf s ->
  let r := sel_insert s k p in
  sel_wf r.2 /\ sel_kind_of r.2 = sel_kind_of s /\
  (accepts (sel_kind_of s) p = false -> r = (InvalidArgument, s)) /\
  (accepts (sel_kind_of s) p = true -> k ∈ sel_dom s -> r.1 = InvalidArgument /\ sel_dom r.2 = sel_dom s) /\
  (accepts (sel_kind_of s) p = true -> k ∉ sel_dom s -> r.1 = Ok /\ sel_dom r.2 = {[k]} ∪ sel_dom s).
Proof.
  destruct s as [l|l|h|u|q]; cbn [sel_wf sel_insert sel_kind_of sel_dom]; intros Hw.
  - unfold fifo_insert. case_decide as Hk; cbn; rewrite ?elem_of_list_to_set.
    + repeat split; done.
    + split; [|repeat split; try done].
      * apply NoDup_app. split; [done|]. split; [|apply NoDup_singleton]. set_solver.
      * set_solver.
  - unfold lifo_insert. case_decide as Hk; cbn; rewrite ?elem_of_list_to_set.
    + repeat split; done.
    + split; [by constructor|repeat split; done].
  - destruct (heap_insert_spec h k p Hw) as (W & N & D & A & _).
    destruct (heap_insert h k p) as [st h'] eqn:E. cbn in *.
    split; [done|]. split; [by cbn; rewrite N|]. split; [done|].
    rewrite <- (heap_elem h k Hw). split.
    + intros _ Hk. specialize (D Hk). injection D as -> ->. done.
    + intros _ Hk. destruct (A Hk) as (-> & R & _). split; [done|].
      apply set_eq. intros x. rewrite elem_of_union, elem_of_singleton, <- !rank_dom, R.
      case_decide; [subst; split; [auto|eauto]|]. tauto.
  - pose proof (uniform_insert_wf u k p Hw) as W. pose proof (uniform_keys_insert u k p Hw) as K.
    destruct (uniform_insert u k p) as [st u'] eqn:E. cbn in *.
    split; [done|]. split; [done|]. split; [done|].
    rewrite elem_of_list_to_set, <- (uniform_index_keys u Hw).
    unfold uniform_insert in E. split; intros _ Hk.
    + destruct Hk as [i Hk]. rewrite Hk in E. by injection E as <- <-.
    + destruct (u_index u !! k) eqn:Ei; [by destruct Hk|].
      split; [by injection E|]. apply set_eq. intros x. rewrite elem_of_union, elem_of_singleton, !elem_of_list_to_set, K. tauto.
  - destruct (prio_insert_spec q k p Hw) as (W & N & R).
    destruct (prio_insert q k p) as [st q'] eqn:E. cbn [fst snd] in *.
    split; [done|]. split; [by cbn; rewrite N|].
    pose proof (accepts_check (p_exp q) p) as Ha.
    destruct (check_valid_priority p) as [x|] eqn:Ec.
    + assert (Ht : accepts (KPrio (p_exp q)) p = true) by (apply Ha; eauto). rewrite Ht.
      split; [done|]. destruct R as [R1 R2]. split; intros _ Hk.
      * apply elem_of_dom in Hk. destruct (R1 Hk) as (-> & R1' & _). cbn. by rewrite R1'.
      * apply not_elem_of_dom in Hk. destruct (R2 Hk) as (-> & _ & R). split; [done|]. cbn.
        apply set_eq. intros y. rewrite elem_of_union, elem_of_singleton, <- !weight_dom, R.
        case_decide; [subst; split; [auto|eauto]|]. tauto.
    + assert (Hf : accepts (KPrio (p_exp q)) p = false).
      { destruct (accepts (KPrio (p_exp q)) p) eqn:Hf; [|done]. destruct (proj1 Ha eq_refl). done. }
      rewrite Hf. injection R as -> ->. done.
Qed.

Lemma sel_update_spec s k p : sel_wf s ->
  let r := sel_update s k p in
  sel_wf r.2 /\ sel_kind_of r.2 = sel_kind_of s /\ sel_dom r.2 = sel_dom s /\
  (accepts (sel_kind_of s) p = false -> r = (InvalidArgument, s)) /\
  (accepts (sel_kind_of s) p = true -> k ∉ sel_dom s -> r = (InvalidArgument, s)) /\
  (accepts (sel_kind_of s) p = true -> k ∈ sel_dom s -> r.1 = Ok).
Proof.
  destruct s as [l|l|h|u|q]; cbn [sel_wf sel_update sel_kind_of sel_dom]; intros Hw.
  - unfold ls_update. case_decide as Hk; cbn; rewrite ?elem_of_list_to_set; repeat split; done.
  - unfold ls_update. case_decide as Hk; cbn; rewrite ?elem_of_list_to_set; repeat split; done.
  - destruct (heap_update_spec h k p Hw) as (W & N & D & A & _).
    destruct (heap_update h k p) as [st h'] eqn:E. cbn in *.
    rewrite <- (heap_elem h k Hw).
    split; [done|]. split; [by cbn; rewrite N|]. split; [|split; [done|split]].
    + destruct (decide (k ∈ hp_arr h)) as [Hk|Hk].
      * destruct (A Hk) as (_ & R & _). apply set_eq. intros x. rewrite <- !rank_dom, R.
        case_decide; [subst|done]. rewrite rank_dom, <- heap_elem by done. split; [done|eauto].
      * specialize (D Hk). by injection D as -> ->.
    + intros _ Hk. specialize (D Hk). by injection D as -> ->.
    + intros _ Hk. by destruct (A Hk) as (-> & _).
  - unfold uniform_update. rewrite elem_of_list_to_set, <- (uniform_index_keys u Hw).
    destruct (u_index u !! k) eqn:Ei; cbn.
    + split; [done|]. split; [done|]. split; [done|]. split; [done|]. split; [|done].
      intros _ Hk. exfalso. eauto.
    + split; [done|]. split; [done|]. split; [done|]. split; [done|]. split; [done|].
      by intros _ [? ?].
  - destruct (prio_update_spec q k p Hw) as (W & N & I & R).
    destruct (prio_update q k p) as [st q'] eqn:E. cbn [fst snd] in *.
    split; [done|]. split; [by cbn; rewrite N|]. split; [by cbn; rewrite I|].
    pose proof (accepts_check (p_exp q) p) as Ha.
    destruct (check_valid_priority p) as [x|] eqn:Ec.
    + assert (Ht : accepts (KPrio (p_exp q)) p = true) by (apply Ha; eauto). rewrite Ht.
      split; [done|]. destruct R as [R1 R2]. split; intros _ Hk.
      * apply not_elem_of_dom in Hk. specialize (R1 Hk). by injection R1 as -> ->.
      * apply elem_of_dom in Hk. by destruct (R2 Hk) as (-> & _).
    + assert (Hf : accepts (KPrio (p_exp q)) p = false).
      { destruct (accepts (KPrio (p_exp q)) p) eqn:Hf; [|done]. destruct (proj1 Ha eq_refl). done. }
      rewrite Hf. injection R as -> ->. done.
Qed.

Lemma sel_delete_spec s k : sel_wf s ->
  let r := sel_delete s k in
  sel_wf r.2 /\ sel_kind_of r.2 = sel_kind_of s /\ sel_dom r.2 = sel_dom s ∖ {[k]} /\
  (k ∉ sel_dom s -> r = (InvalidArgument, s)) /\
  (k ∈ sel_dom s -> r.1 = Ok).
Proof.
  destruct s as [l|l|h|u|q]; cbn [sel_wf sel_delete sel_kind_of sel_dom]; intros Hw.
  - unfold ls_delete. rewrite elem_of_list_to_set. case_decide as Hk; cbn.
    + split; [by apply remove_key_nodup|]. split; [done|]. split; [|done].
      apply set_eq. intros x. rewrite elem_of_difference, elem_of_singleton, !elem_of_list_to_set, remove_key_elem. done.
    + split; [done|]. split; [done|]. split; [|done]. set_solver.
  - unfold ls_delete. rewrite elem_of_list_to_set. case_decide as Hk; cbn.
    + split; [by apply remove_key_nodup|]. split; [done|]. split; [|done].
      apply set_eq. intros x. rewrite elem_of_difference, elem_of_singleton, !elem_of_list_to_set, remove_key_elem. done.
    + split; [done|]. split; [done|]. split; [|done]. set_solver.
  - destruct (heap_delete_spec h k Hw) as (W & N & D & A & _).
    destruct (heap_delete h k) as [st h'] eqn:E. cbn in *.
    rewrite <- (heap_elem h k Hw).
    split; [done|]. split; [by cbn; rewrite N|]. split; [|split].
    + destruct (decide (k ∈ hp_arr h)) as [Hk|Hk].
      * destruct (A Hk) as (_ & R & _). apply set_eq. intros x.
        rewrite elem_of_difference, elem_of_singleton, <- !rank_dom, R.
        case_decide; [subst; split; [by intros [? ?]|tauto]|]. tauto.
      * specialize (D Hk). injection D as -> ->. rewrite heap_elem in Hk by done. set_solver.
    + intros Hk. specialize (D Hk). by injection D as -> ->.
    + intros Hk. by destruct (A Hk) as (-> & _).
  - pose proof (uniform_delete_wf u k Hw) as W. pose proof (uniform_keys_delete u k Hw) as K.
    destruct (uniform_delete u k) as [st u'] eqn:E. cbn in *.
    split; [done|]. split; [done|]. split.
    { apply set_eq. intros x. rewrite elem_of_difference, elem_of_singleton, !elem_of_list_to_set, K. done. }
    rewrite elem_of_list_to_set, <- (uniform_index_keys u Hw).
    unfold uniform_delete in E. split; intros Hk.
    + destruct (u_index u !! k) eqn:Ei; [exfalso; eauto|]. by injection E as <- <-.
    + destruct Hk as [i Hk]. rewrite Hk in E. case_decide; by injection E.
  - destruct (prio_delete_spec q k Hw) as (W & N & R1 & R2).
    destruct (prio_delete q k) as [st q'] eqn:E. cbn [fst snd] in *.
    split; [done|]. split; [by cbn; rewrite N|]. cbn.
    destruct (p_index q !! k) as [i|] eqn:Ei.
    + destruct (R2 ltac:(eauto)) as (-> & _ & R). split.
      { apply set_eq. intros y. rewrite elem_of_difference, elem_of_singleton, <- !weight_dom, R.
        case_decide; [subst; split; [by intros [? ?]|tauto]|]. tauto. }
      split; [|done]. intros Hk. apply not_elem_of_dom in Hk. congruence.
    + specialize (R1 eq_refl). injection R1 as -> ->.
      assert (k ∉ dom (p_index q)) by (by apply not_elem_of_dom).
      split; [set_solver|]. split; [done|]. done.
Qed.

Lemma sel_clear_spec s : sel_wf s ->
  sel_wf (sel_clear s) /\ sel_dom (sel_clear s) = ∅ /\ sel_kind_of (sel_clear s) = sel_kind_of s.
Proof.
  destruct s as [l|l|h|u|q]; cbn [sel_wf sel_clear sel_kind_of sel_dom]; intros Hw.
  - split; [constructor|done].
  - split; [constructor|done].
  - split; [|cbn; split; [set_solver|done]]. split; cbn.
    + intros k i. rewrite lookup_empty, lookup_nil. done.
    + intros k n. by rewrite lookup_empty.
    + intros k1 k2 n1 n2. by rewrite lookup_empty.
  - split; [apply uniform_empty_wf|done].
  - split; [by apply prio_clear_wf|]. cbn. split; [set_solver|done].
Qed.

Lemma sel_sample_spec s d : sel_wf s -> draw_ok d -> sel_dom s <> ∅ ->
  exists k q, sel_sample s d = Some (k, q) /\ k ∈ sel_dom s.
Proof.
  destruct s as [l|l|h|u|q]; cbn [sel_wf sel_sample sel_dom]; intros Hw Hd Hne.
  - destruct l as [|k l]; [done|]. exists k, 1%Q. split; [done|set_solver].
  - destruct l as [|k l]; [done|]. exists k, 1%Q. split; [done|set_solver].
  - unfold heap_sample. destruct (hp_arr h) as [|k l] eqn:E.
    + exfalso. apply Hne. apply set_eq. intros x. rewrite <- heap_elem by done. rewrite E. set_solver.
    + exists k, 1%Q. split; [done|]. apply heap_elem; [done|]. rewrite E. left.
  - unfold uniform_sample. destruct (u_keys u) as [|k0 l] eqn:E; [done|].
    destruct (lookup_lt_is_Some_2 (k0 :: l) (d_int d mod length (k0 :: l))) as [k Hk].
    { apply Nat.mod_upper_bound. done. }
    rewrite Hk. eexists _, _. split; [done|]. apply elem_of_list_to_set. by eapply elem_of_list_lookup_2.
  - destruct (prio_sample_safe q d Hw) as (k & x & -> & Hk); [|done|].
    + unfold psize. intros H0. apply Hne. apply map_size_empty_iff in H0. rewrite H0. set_solver.
    + eexists _, _. split; [done|]. by apply elem_of_dom.
Qed.

Lemma sel_sample_empty s d : sel_wf s -> sel_dom s = ∅ -> sel_sample s d = None.
Proof.
  destruct s as [l|l|h|u|q]; cbn [sel_wf sel_sample sel_dom]; intros Hw He.
  - destruct l; [done|]. set_solver.
  - destruct l; [done|]. set_solver.
  - unfold heap_sample. destruct (hp_arr h) as [|k l] eqn:E; [done|].
    assert (k ∈ dom (hp_nodes h)) by (apply heap_elem; [done|rewrite E; left]). set_solver.
  - unfold uniform_sample. destruct (u_keys u); [done|]. set_solver.
  - unfold prio_sample. rewrite decide_True; [done|]. unfold psize. apply map_size_empty_iff.
    apply dom_empty_iff_L. done.
Qed.

Lemma sel_sample_in s d k q : sel_wf s -> draw_ok d -> sel_sample s d = Some (k, q) -> k ∈ sel_dom s.
Proof.
  intros Hw Hd Hs. destruct (decide (sel_dom s = ∅)) as [He|He].
  - by rewrite sel_sample_empty in Hs.
  - destruct (sel_sample_spec s d Hw Hd He) as (k' & q' & E & Hin). congruence.
Qed.

End WithFP.
