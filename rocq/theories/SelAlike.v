(** Selectors whose calls were different but whose reference contents agree in
    everything that determines their choices. *)
From Verif Require Import Base SelList SelUniform SelHeap SelHeapProofs SelPrio SelPrioProofs Selector
  SelSpec PropSelectors Trajectory Table TableSim.

(** The selectors whose choices are not random. *)
Definition det_kind (k : sel_kind) : Prop :=
  match k with KFifo | KLifo | KHeap _ => True | _ => False end.

Definition heap_kind (k : sel_kind) : Prop := match k with KHeap _ => True | _ => False end.

Definition same_prio (a b : dbl) : Prop :=
  match a, b with Fin x, Fin y => (x == y)%Q | _, _ => False end.

(** The same keys and priorities; insertions in the same order; for a heap, items
    with equal priority touched in the same order. *)
Record same_order (kind : sel_kind) (m m' : gmap Z entry) : Prop := {
  so_prio : forall k, en_prio <$> m !! k = en_prio <$> m' !! k;
  so_ins : kind = KFifo \/ kind = KLifo -> forall k1 k2 a1 a2 b1 b2,
    m !! k1 = Some a1 -> m !! k2 = Some a2 -> m' !! k1 = Some b1 -> m' !! k2 = Some b2 ->
    (en_ins a1 < en_ins a2)%nat -> (en_ins b1 < en_ins b2)%nat;
  so_touch : (exists mh, kind = KHeap mh) -> forall k1 k2 a1 a2 b1 b2,
    m !! k1 = Some a1 -> m !! k2 = Some a2 -> m' !! k1 = Some b1 -> m' !! k2 = Some b2 ->
    same_prio (en_prio a1) (en_prio a2) ->
    (en_touch a1 < en_touch a2)%nat -> (en_touch b1 < en_touch b2)%nat }.

Lemma so_is kind m m' k : same_order kind m m' -> is_Some (m !! k) <-> is_Some (m' !! k).
Proof. intros H. rewrite <- !(fmap_is_Some en_prio), (so_prio _ _ _ H). done. Qed.
Lemma so_none kind m m' k : same_order kind m m' -> m !! k = None <-> m' !! k = None.
Proof. intros H. rewrite !eq_None_not_Some. by rewrite (so_is _ _ _ _ H). Qed.

Lemma same_order_op kind m m' n n' o : stamps n m -> stamps n' m' -> same_order kind m m' ->
  same_order kind (ref_op kind (S n) m o) (ref_op kind (S n') m' o).
Proof.
  intros St St' H. destruct o as [k p|k p|k| |]; cbn [ref_op]; try done.
  - pose proof (so_none _ _ _ k H) as Hn. destruct (m !! k) as [e|] eqn:Hk.
    { destruct (m' !! k) eqn:Hk'; [done|]. discriminate (proj2 Hn eq_refl). }
    rewrite (proj1 Hn eq_refl). destruct (accepts kind p); [|done]. split.
    + intros x. destruct (decide (k = x)) as [->|Hne]; [by rewrite !lookup_insert|].
      rewrite !lookup_insert_ne by done. apply H.
    + intros Hkd k1 k2 a1 a2 b1 b2. rewrite !lookup_insert_Some.
      intros [[E1 <-]|[N1 A1]] [[E2 <-]|[N2 A2]] [[E3 <-]|[N3 B1]] [[E4 <-]|[N4 B2]]; try congruence; cbn; try lia.
      * apply (sp_ins _ _ St) in A2. lia.
      * apply (sp_ins _ _ St') in B1. lia.
      * by eapply (so_ins _ _ _ H).
    + intros Hkd k1 k2 a1 a2 b1 b2. rewrite !lookup_insert_Some.
      intros [[E1 <-]|[N1 A1]] [[E2 <-]|[N2 A2]] [[E3 <-]|[N3 B1]] [[E4 <-]|[N4 B2]]; try congruence; cbn; try lia; intros Hp.
      * apply (sp_touch _ _ St) in A2. lia.
      * apply (sp_touch _ _ St') in B1. lia.
      * by eapply (so_touch _ _ _ H).
  - pose proof (so_none _ _ _ k H) as Hn. destruct (m !! k) as [e|] eqn:Hk; destruct (m' !! k) as [e'|] eqn:Hk'.
    2: { discriminate (proj2 Hn eq_refl). } 2: { discriminate (proj1 Hn eq_refl). } 2: done.
    destruct (accepts kind p); [|done]. split.
    + intros x. destruct (decide (k = x)) as [->|Hne]; [by rewrite !lookup_insert|].
      rewrite !lookup_insert_ne by done. apply H.
    + intros Hkd k1 k2 a1 a2 b1 b2. rewrite !lookup_insert_Some.
      intros [[E1 <-]|[N1 A1]] [[E2 <-]|[N2 A2]] [[E3 <-]|[N3 B1]] [[E4 <-]|[N4 B2]]; try congruence; cbn;
        subst; try lia; by eapply (so_ins _ _ _ H).
    + intros Hkd k1 k2 a1 a2 b1 b2. rewrite !lookup_insert_Some.
      intros [[E1 <-]|[N1 A1]] [[E2 <-]|[N2 A2]] [[E3 <-]|[N3 B1]] [[E4 <-]|[N4 B2]]; try congruence; cbn; try lia; intros Hp.
      * apply (sp_touch _ _ St) in A2. lia.
      * apply (sp_touch _ _ St') in B1. lia.
      * by eapply (so_touch _ _ _ H).
  - split.
    + intros x. destruct (decide (k = x)) as [->|Hne]; [by rewrite !lookup_delete|].
      rewrite !lookup_delete_ne by done. apply H.
    + intros Hkd k1 k2 a1 a2 b1 b2. rewrite !lookup_delete_Some. intros [_ ?] [_ ?] [_ ?] [_ ?]. by eapply (so_ins _ _ _ H).
    + intros Hkd k1 k2 a1 a2 b1 b2. rewrite !lookup_delete_Some. intros [_ ?] [_ ?] [_ ?] [_ ?]. by eapply (so_touch _ _ _ H).
Qed.

Section WithFP.
Context {fp : FP} {laws : FPLaws fp}.

Definition heap_good (s : selector) : Prop :=
  match s with SHeap h => heap_finite h /\ heap_ordered h | _ => True end.

Lemma heap_good_op kind s n m o : sel_rel kind s n m -> heap_good s -> (heap_kind kind -> sop_finite o) -> heap_good (sel_op s o).2.
Proof.
  intros R. pose proof (sr_wf _ _ _ _ R) as W. destruct s as [l|l|h|u|q]; intros Hg Ho.
  1, 2, 4, 5: by destruct o as [k p|k p|k| |]; cbn [sel_op sel_insert sel_update sel_delete sel_clear]; try done;
    match goal with |- context [let '(_, _) := ?x in _] => destruct x end.
  destruct Hg as [Hf Hor]. cbn in W. pose proof (sr_kind _ _ _ _ R) as K. cbn in K. rewrite <- K in Ho. specialize (Ho I).
  destruct o as [k p|k p|k| |]; cbn [sel_op sel_insert sel_update sel_delete sel_clear] in *.
  - destruct (heap_insert_spec h k p W) as (_ & _ & _ & _ & H). destruct (heap_insert h k p) as [st h']. by apply H.
  - destruct (heap_update_spec h k p W) as (_ & _ & _ & _ & H). destruct (heap_update h k p) as [st h']. by apply H.
  - destruct (heap_delete_spec h k W) as (_ & _ & _ & _ & H). destruct (heap_delete h k) as [st h']. by apply H.
  - split; [intros k n0; cbn; by rewrite lookup_empty|]. intros i x g. cbn. rewrite lookup_nil. done.
  - done.
Qed.

Definition alike (kind : sel_kind) (a b : selector) : Prop :=
  exists n m n' m', sel_rel kind a n m /\ sel_rel kind b n' m' /\ same_order kind m m' /\
    heap_good a /\ heap_good b.

Lemma alike_op kind a b o : alike kind a b -> (heap_kind kind -> sop_finite o) ->
  (sel_op a o).1 = (sel_op b o).1 /\ alike kind (sel_op a o).2 (sel_op b o).2.
Proof.
  intros (n & m & n' & m' & Ra & Rb & So & Ga & Gb) Ho.
  destruct (sel_op_rel kind a n m o Ra) as [Ra' Ea]. destruct (sel_op_rel kind b n' m' o Rb) as [Rb' Eb].
  split.
  - rewrite Ea, Eb. destruct o as [k p|k p|k| |]; cbn; try done;
      pose proof (so_none _ _ _ k So) as Hn; destruct (m !! k), (m' !! k); try done;
      first [discriminate (proj1 Hn eq_refl)|discriminate (proj2 Hn eq_refl)].
  - eexists _, _, _, _. split; [exact Ra'|]. split; [exact Rb'|]. split.
    + apply same_order_op; [apply Ra|apply Rb|done].
    + split; by eapply heap_good_op.
Qed.

(** What the choice depends on. *)
Lemma heap_top mh h n m k : sel_rel (KHeap mh) (SHeap h) n m -> heap_good (SHeap h) ->
  (exists l, hp_arr h = k :: l) <-> heap_first mh m k.
Proof.
  intros R [Hfin Hord]. pose proof (sr_wf _ _ _ _ R) as W. pose proof (sr_dom _ _ _ _ R) as D. cbn in W, D.
  assert (Hl : forall x, x ∈ hp_arr h <-> is_Some (m !! x)).
  { intros x. rewrite heap_elem by done. rewrite D. apply elem_of_dom. }
  destruct (hp_arr h) as [|r l] eqn:Ea.
  - split; [by intros [? ?]|]. intros (e & He & _).
    assert (H : k ∈ @nil Z) by (apply Hl; eauto). by apply elem_of_nil in H.
  - assert (Ho : heap_first mh m r).
    { destruct (proj1 (Hl r)) as [e He]; [left|]. exists e. split; [done|].
      intros k' e' Hk' Hne. assert (Hin : k' ∈ r :: l) by (apply Hl; eauto).
      apply elem_of_list_lookup in Hin as [i Hi]. rewrite <- Ea in Hi.
      destruct (ho_root (hless (hp_nodes h)) (hp_arr h) Hord) with (i := i) (x := k') (r := r) as [->|Hlt]; try done.
      - apply hless_sto.
        + intros x Hx. apply elem_of_dom. by apply heap_elem.
        + intros x nd Hx. by eapply Hfin.
        + apply W.
      - by rewrite Ea.
      - eapply hless_first; [exact R|done|done|done|congruence|done]. }
    split.
    + intros [l' [= <- <-]]. done.
    + intros (e & He & Hmin). destruct Ho as (e0 & He0 & Hmin0).
      destruct (decide (r = k)) as [->|Hne]; [eauto|].
      exfalso. eapply comes_first_asym; [exact (Hmin r e0 He0 Hne)|]. apply (Hmin0 k e He). done.
Qed.

Lemma heap_first_same mh m m' k : same_order (KHeap mh) m m' ->
  heap_first mh m k -> heap_first mh m' k.
Proof.
  intros So (e & He & Hmin). pose proof (so_prio _ _ _ So k) as Hp. rewrite He in Hp. cbn in Hp.
  destruct (m' !! k) as [e'|] eqn:He'; [|done]. cbn in Hp. injection Hp as Hp.
  exists e'. split; [done|]. intros k2 b2 Hb2 Hne.
  pose proof (so_prio _ _ _ So k2) as Hp2. rewrite Hb2 in Hp2. cbn in Hp2.
  destruct (m !! k2) as [a2|] eqn:Ha2; [|done]. cbn in Hp2. injection Hp2 as Hp2.
  pose proof (Hmin k2 a2 Ha2 Hne) as Hc. unfold comes_first in *. rewrite <- Hp, <- Hp2.
  destruct (en_prio e) as [x|] eqn:Ex; [|done]. destruct (en_prio a2) as [y|] eqn:Ey; [|done].
  destruct Hc as [Hc|[Hq Ht]]; [by left|]. right. split; [done|].
  apply (so_touch _ _ _ So (ex_intro _ mh eq_refl) k k2 e a2 e' b2); try done. unfold same_prio. by rewrite Ex, Ey.
Qed.

Lemma alike_sym_order kind m m' n n' : stamps n m -> stamps n' m' -> same_order kind m m' -> same_order kind m' m.
Proof.
  intros St St' So. split.
  - intros k. symmetry. apply So.
  - intros Hk k1 k2 a1 a2 b1 b2 A1 A2 B1 B2 Hlt.
    destruct (Nat.lt_trichotomy (en_ins b1) (en_ins b2)) as [H|[H|H]]; [done| |].
    + pose proof (sp_ins_inj _ _ St _ _ _ _ B1 B2 H) as ->. rewrite A1 in A2. injection A2 as ->. lia.
    + pose proof (so_ins _ _ _ So Hk k2 k1 b2 b1 a2 a1 B2 B1 A2 A1 H). lia.
  - intros Hk k1 k2 a1 a2 b1 b2 A1 A2 B1 B2 Hp Hlt.
    destruct (Nat.lt_trichotomy (en_touch b1) (en_touch b2)) as [H|[H|H]]; [done| |].
    + pose proof (sp_touch_inj _ _ St _ _ _ _ B1 B2 H) as ->. rewrite A1 in A2. injection A2 as ->. lia.
    + assert (Hp' : same_prio (en_prio b2) (en_prio b1)).
      { pose proof (so_prio _ _ _ So k1) as E1. pose proof (so_prio _ _ _ So k2) as E2.
        rewrite A1, B1 in E1. rewrite A2, B2 in E2. cbn in E1, E2. injection E1 as E1. injection E2 as E2.
        rewrite E1, E2. unfold same_prio in *. destruct (en_prio a1), (en_prio a2); done. }
      pose proof (so_touch _ _ _ So Hk k2 k1 b2 b1 a2 a1 B2 B1 A2 A1 Hp' H). lia.
Qed.

(** Lists sorted by insertion with the same order are equal. *)
Lemma sorted_same (l l' : list Z) (R R' : Z -> Z -> Prop) :
  (forall x, x ∈ l <-> x ∈ l') -> NoDup l -> NoDup l' ->
  StronglySorted R l -> StronglySorted R' l' -> (forall a b, R' a b -> R' b a -> False) ->
  (forall a b, a ∈ l -> b ∈ l -> R a b -> R' a b) -> l = l'.
Proof.
  intros Hel Hn Hn' Hs Hs' Has Hfg. revert l' Hel Hn Hn' Hs Hs' Hfg.
  induction l as [|x l IH]; intros l' Hel Hn Hn' Hs Hs' Hfg.
  - destruct l' as [|y l']; [done|]. assert (H : y ∈ @nil Z) by (apply Hel; left). by apply elem_of_nil in H.
  - destruct l' as [|y l']. { assert (H : x ∈ @nil Z) by (apply Hel; left). by apply elem_of_nil in H. }
    apply StronglySorted_inv in Hs as [Hs Hx]. apply StronglySorted_inv in Hs' as [Hs' Hy].
    rewrite Forall_forall in Hx, Hy. apply NoDup_cons in Hn as [Hxl Hn]. apply NoDup_cons in Hn' as [Hyl Hn'].
    assert (x = y) as <-.
    { assert (H1 : x ∈ y :: l') by (apply Hel; left). assert (H2 : y ∈ x :: l) by (apply Hel; left).
      apply elem_of_cons in H1 as [->|H1]; [done|]. apply elem_of_cons in H2 as [->|H2]; [done|].
      apply Hy in H1. exfalso. apply (Has y x); [done|]. apply Hfg; [left|by right|]. by apply Hx. }
    f_equal. apply IH; try done.
    + intros z. specialize (Hel z). rewrite !elem_of_cons in Hel. split; intros Hz.
      * destruct (proj1 Hel) as [->|?]; auto. done.
      * destruct (proj2 Hel) as [->|?]; auto. done.
    + intros a b Ha Hb. apply Hfg; by right.
Qed.

Lemma ins_of_some m k e : m !! k = Some e -> ins_of m k = en_ins e.
Proof. intros H. unfold ins_of. by rewrite H. Qed.

Lemma alike_sample kind a b d : det_kind kind -> alike kind a b -> sel_sample a d = sel_sample b d.
Proof.
  intros Hk (n & m & n' & m' & Ra & Rb & So & Ga & Gb).
  pose proof (sr_kind _ _ _ _ Ra) as Ka. pose proof (sr_kind _ _ _ _ Rb) as Kb.
  pose proof (sr_dom _ _ _ _ Ra) as Da. pose proof (sr_dom _ _ _ _ Rb) as Db.
  assert (Hdom : forall x, x ∈ dom m <-> x ∈ dom m').
  { intros x. rewrite !elem_of_dom. by apply (so_is kind). }
  pose proof (sr_wf _ _ _ _ Ra) as Wa. pose proof (sr_wf _ _ _ _ Rb) as Wb.
  destruct kind as [| |mh| |e]; try done;
    destruct a as [l|l|h|u|q]; try done; destruct b as [l'|l'|h'|u'|q']; try done; cbn [sel_sample sel_dom sel_wf] in *.
  - assert (l = l') as ->; [|done].
    assert (Hel : forall x, x ∈ l <-> is_Some (m !! x)).
    { intros x. rewrite <- elem_of_dom, <- Da. by rewrite elem_of_list_to_set. }
    eapply sorted_same; [|done|done|apply (sr_rel _ _ _ _ Ra)|apply (sr_rel _ _ _ _ Rb)| |].
    + intros x. rewrite <- (elem_of_list_to_set (C := gset Z)), Da, Hdom, <- Db. apply elem_of_list_to_set.
    + cbn. lia.
    + cbn. intros x y Hx Hy. apply Hel in Hx as [ex Hx]. apply Hel in Hy as [ey Hy].
      destruct (proj1 (so_is _ _ _ x So)) as [ex' Hx']; [eauto|]. destruct (proj1 (so_is _ _ _ y So)) as [ey' Hy']; [eauto|].
      rewrite (ins_of_some m x ex), (ins_of_some m y ey), (ins_of_some m' x ex'), (ins_of_some m' y ey') by done.
      eapply (so_ins _ _ _ So); eauto.
  - assert (l = l') as ->; [|done].
    assert (Hel : forall x, x ∈ l <-> is_Some (m !! x)).
    { intros x. rewrite <- elem_of_dom, <- Da. by rewrite elem_of_list_to_set. }
    eapply sorted_same; [|done|done|apply (sr_rel _ _ _ _ Ra)|apply (sr_rel _ _ _ _ Rb)| |].
    + intros x. rewrite <- (elem_of_list_to_set (C := gset Z)), Da, Hdom, <- Db. apply elem_of_list_to_set.
    + cbn. lia.
    + cbn. intros x y Hx Hy. apply Hel in Hx as [ex Hx]. apply Hel in Hy as [ey Hy].
      destruct (proj1 (so_is _ _ _ x So)) as [ex' Hx']; [eauto|]. destruct (proj1 (so_is _ _ _ y So)) as [ey' Hy']; [eauto|].
      rewrite (ins_of_some m x ex), (ins_of_some m y ey), (ins_of_some m' x ex'), (ins_of_some m' y ey') by done.
      eapply (so_ins _ _ _ So); eauto.
  - unfold heap_sample. destruct (hp_arr h) as [|r l] eqn:Ea, (hp_arr h') as [|r' l'] eqn:Ea'.
    + done.
    + exfalso. assert (H : heap_first mh m' r') by (apply (heap_top mh h' n' m' r' Rb Gb); eauto).
      apply (heap_first_same mh m' m) in H; [|eapply alike_sym_order; [apply Ra|apply Rb|done]].
      apply (heap_top mh h n m r' Ra Ga) in H as [? H]. congruence.
    + exfalso. assert (H : heap_first mh m r) by (apply (heap_top mh h n m r Ra Ga); eauto).
      apply (heap_first_same mh m m') in H; [|done].
      apply (heap_top mh h' n' m' r Rb Gb) in H as [? H]. congruence.
    + assert (H : heap_first mh m r) by (apply (heap_top mh h n m r Ra Ga); eauto).
      apply (heap_first_same mh m m') in H; [|done].
      apply (heap_top mh h' n' m' r Rb Gb) in H as [? H]. congruence.
Qed.

Lemma alike_simrel kind (okp : dbl -> Prop) : det_kind kind ->
  (forall p, okp p -> heap_kind kind -> p <> NaN) -> simrel okp (alike kind).
Proof.
  intros Hk Hp. split.
  - intros a b k p H Hok. exact (alike_op kind a b (SIns k p) H (Hp p Hok)).
  - intros a b k p H Hok. exact (alike_op kind a b (SUpd k p) H (Hp p Hok)).
  - intros a b k H. exact (alike_op kind a b (SDel k) H (fun _ => I)).
  - intros a b d H _. rewrite (alike_sample kind a b d Hk H). apply same_pick_refl.
  - intros a b H. exact (proj2 (alike_op kind a b SClr H (fun _ => I))).
Qed.

End WithFP.
