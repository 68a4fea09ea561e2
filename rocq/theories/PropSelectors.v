(** Properties C09 - C14: what the item selectors return, for every history of
    calls (accepted or rejected) on a selector. *)
From Verif Require Import Base SelList SelUniform SelHeap SelHeapProofs SelPrio SelPrioProofs SelPrioExact Selector SelSpec.

Section WithFP.
Context {fp : FP} {laws : FPLaws fp}.

(** ** All kinds: the selector holds exactly the keys it should *)

(** The status of every call and the set of keys held. *)
Theorem C08_selector_keys kind os : kind_ok kind ->
  sel_dom (sel_hist kind os) = dom (ref_hist kind os) /\
  forall o, (sel_op (sel_hist kind os) o).1 = ref_status kind (ref_hist kind os) o.
Proof.
  intros H. pose proof (hist_rel kind os H) as R. split; [apply R|].
  intros o. by eapply sel_op_rel.
Qed.

(** Sampling is possible exactly when something is there, and returns something
    that is there. *)
Theorem C08_selector_sample_present kind os d : kind_ok kind -> draw_ok d ->
  match sel_sample (sel_hist kind os) d with
  | Some (k, _) => is_Some (ref_hist kind os !! k)
  | None => ref_hist kind os = ∅
  end.
Proof.
  intros H Hd. pose proof (hist_rel kind os H) as R.
  destruct (sel_sample (sel_hist kind os) d) as [[k q]|] eqn:E.
  - apply elem_of_dom. rewrite <- (sr_dom _ _ _ _ R). eapply sel_sample_in; [apply R|done|done].
  - destruct (decide (sel_dom (sel_hist kind os) = ∅)) as [He|He].
    + apply dom_empty_iff_L. by rewrite <- (sr_dom _ _ _ _ R).
    + destruct (sel_sample_spec _ d (sr_wf _ _ _ _ R) Hd He) as (k & q & E' & _). congruence.
Qed.

(** ** C09, C10: Fifo and Lifo *)

Definition oldest (m : gmap Z entry) (k : Z) : Prop :=
  exists e, m !! k = Some e /\
    forall k' e', m !! k' = Some e' -> k' <> k -> (en_ins e < en_ins e')%nat.
Definition newest (m : gmap Z entry) (k : Z) : Prop :=
  exists e, m !! k = Some e /\
    forall k' e', m !! k' = Some e' -> k' <> k -> (en_ins e' < en_ins e)%nat.

Lemma hist_shape kind os : kind_ok kind -> sel_kind_of (sel_hist kind os) = kind.
Proof. intros H. apply (hist_rel kind os H). Qed.

Lemma ins_of_some m k e : m !! k = Some e -> ins_of m k = en_ins e.
Proof. intros H. unfold ins_of. by rewrite H. Qed.

Theorem C09_fifo os d k q :
  sel_sample (sel_hist KFifo os) d = Some (k, q) <-> oldest (ref_hist KFifo os) k /\ q = 1%Q.
Proof.
  pose proof (hist_rel KFifo os I) as R. pose proof (hist_shape KFifo os I) as K.
  set (m := ref_hist KFifo os) in *.
  destruct (sel_hist KFifo os) as [l|l|h|u|s]; try done. clear K.
  destruct R as [W _ D St R]. cbn in *.
  assert (Hl : forall x, x ∈ l <-> is_Some (m !! x)).
  { intros x. rewrite <- elem_of_dom, <- D. by rewrite elem_of_list_to_set. }
  destruct l as [|h l]; cbn [ls_sample].
  - split; [done|]. intros [(e & He & _) _].
    assert (H : k ∈ @nil Z) by (apply Hl; eauto). by apply elem_of_nil in H.
  - inversion R as [|? ? _ F]; subst.
    assert (Ho : oldest m h).
    { destruct (proj1 (Hl h)) as [e He]; [left|]. exists e. split; [done|].
      intros k' e' Hk' Hne. assert (k' ∈ h :: l) as Hin by (apply Hl; eauto).
      apply elem_of_cons in Hin as [->|Hin]; [done|].
      rewrite Forall_forall in F. specialize (F k' Hin). cbn in F.
      by rewrite (ins_of_some m h e He), (ins_of_some m k' e' Hk') in F. }
    split.
    + intros [= <- <-]. done.
    + intros [(e & He & Hmin) ->]. destruct Ho as (e0 & He0 & Hmin0).
      destruct (decide (h = k)) as [->|Hne]; [done|].
      pose proof (Hmin h e0 He0 Hne). assert (k <> h) as Hne' by done.
      pose proof (Hmin0 k e He Hne'). lia.
Qed.

Theorem C10_lifo os d k q :
  sel_sample (sel_hist KLifo os) d = Some (k, q) <-> newest (ref_hist KLifo os) k /\ q = 1%Q.
Proof.
  pose proof (hist_rel KLifo os I) as R. pose proof (hist_shape KLifo os I) as K.
  set (m := ref_hist KLifo os) in *.
  destruct (sel_hist KLifo os) as [l|l|h|u|s]; try done. clear K.
  destruct R as [W _ D St R]. cbn in *.
  assert (Hl : forall x, x ∈ l <-> is_Some (m !! x)).
  { intros x. rewrite <- elem_of_dom, <- D. by rewrite elem_of_list_to_set. }
  destruct l as [|h l]; cbn [ls_sample].
  - split; [done|]. intros [(e & He & _) _].
    assert (H : k ∈ @nil Z) by (apply Hl; eauto). by apply elem_of_nil in H.
  - inversion R as [|? ? _ F]; subst.
    assert (Ho : newest m h).
    { destruct (proj1 (Hl h)) as [e He]; [left|]. exists e. split; [done|].
      intros k' e' Hk' Hne. assert (k' ∈ h :: l) as Hin by (apply Hl; eauto).
      apply elem_of_cons in Hin as [->|Hin]; [done|].
      rewrite Forall_forall in F. specialize (F k' Hin). cbn in F.
      by rewrite (ins_of_some m h e He), (ins_of_some m k' e' Hk') in F. }
    split.
    + intros [= <- <-]. done.
    + intros [(e & He & Hmin) ->]. destruct Ho as (e0 & He0 & Hmin0).
      destruct (decide (h = k)) as [->|Hne]; [done|].
      pose proof (Hmin h e0 He0 Hne). assert (k <> h) as Hne' by done.
      pose proof (Hmin0 k e He Hne'). lia.
Qed.

(** ** C11: heaps *)

(** [a] comes out before [b]: smaller (larger) priority, or the same priority
    and touched earlier. *)
Definition comes_first (min_heap : bool) (a b : entry) : Prop :=
  match en_prio a, en_prio b with
  | Fin x, Fin y =>
    (if min_heap then x < y else y < x)%Q \/ (x == y)%Q /\ (en_touch a < en_touch b)%nat
  | _, _ => False
  end.
Definition heap_first (min_heap : bool) (m : gmap Z entry) (k : Z) : Prop :=
  exists e, m !! k = Some e /\
    forall k' e', m !! k' = Some e' -> k' <> k -> comes_first min_heap e e'.

Lemma comes_first_asym mh a b : comes_first mh a b -> comes_first mh b a -> False.
Proof.
  unfold comes_first. destruct (en_prio a) as [x|], (en_prio b) as [y|]; try done.
  intros [H|[H1 H2]] [H'|[H1' H2']]; try lia; destruct mh; lra.
Qed.

Lemma hless_first mh h n m k1 k2 e1 e2 :
  sel_rel (KHeap mh) (SHeap h) n m -> heap_finite h -> m !! k1 = Some e1 -> m !! k2 = Some e2 ->
  k1 <> k2 -> hless (hp_nodes h) k1 k2 = true -> comes_first mh e1 e2.
Proof.
  intros [W K D St [R1 R2]] Hf H1 H2 Hne Hl.
  destruct (R1 k1 e1 H1) as [u1 E1]. destruct (R1 k2 e2 H2) as [u2 E2].
  unfold hless, rank in *. cbn in K. injection K as <-.
  destruct (hp_nodes h !! k1) as [n1|] eqn:N1; [|done]. destruct (hp_nodes h !! k2) as [n2|] eqn:N2; [|done].
  cbn in E1, E2. injection E1 as P1 U1. injection E2 as P2 U2.
  pose proof (Hf _ _ N1) as F1. pose proof (Hf _ _ N2) as F2.
  unfold node_lt in Hl. rewrite P1, P2, U1, U2 in *. unfold comes_first.
  destruct (en_prio e1) as [x|]; [|by destruct (hp_neg h)]. destruct (en_prio e2) as [y|]; [|by destruct (hp_neg h)].
  assert (Htouch : u1 < u2 -> (en_touch e1 < en_touch e2)%nat).
  { intros Hu. destruct (Nat.lt_trichotomy (en_touch e1) (en_touch e2)) as [Ht|[Ht|Ht]]; [done| |].
    - exfalso. apply Hne. by eapply (sp_touch_inj _ _ St).
    - pose proof (R2 k2 k1 e2 e1 (h_prio n2) (h_prio n1) u2 u1 H2 H1) as Hlt.
      rewrite N1, N2 in Hlt. cbn in Hlt. rewrite P1, P2, U1, U2 in Hlt. specialize (Hlt eq_refl eq_refl Ht). lia. }
  cbn [dsign dlt deq] in Hl.
  apply orb_true_iff in Hl.
  destruct (hp_neg h); cbn [negb] in *;
    (destruct Hl as [Hl|Hl];
     [left; apply negb_true_iff, Qle_bool_false in Hl; lra
     |right; apply andb_true_iff in Hl as [Q Hu]; apply Qeq_bool_iff in Q; split; [lra|];
      apply Htouch; by apply Z.ltb_lt]).
Qed.

Theorem C11_heap min_heap os d k q : Forall sop_finite os ->
  sel_sample (sel_hist (KHeap min_heap) os) d = Some (k, q) <->
  heap_first min_heap (ref_hist (KHeap min_heap) os) k /\ q = 1%Q.
Proof.
  intros HF. destruct (hist_heap_ordered min_heap os HF) as (h & E & Hfin & Hord).
  pose proof (hist_rel (KHeap min_heap) os I) as R. rewrite E in *.
  set (m := ref_hist (KHeap min_heap) os) in *.
  pose proof (sr_wf _ _ _ _ R) as W. pose proof (sr_dom _ _ _ _ R) as D. cbn in W, D.
  assert (Hl : forall x, x ∈ hp_arr h <-> is_Some (m !! x)).
  { intros x. rewrite heap_elem by done. rewrite D. apply elem_of_dom. }
  cbn [sel_sample]. unfold heap_sample.
  destruct (hp_arr h) as [|r l] eqn:Ea.
  - split; [done|]. intros [(e & He & _) _].
    assert (H : k ∈ @nil Z) by (apply Hl; eauto). by apply elem_of_nil in H.
  - assert (Ho : heap_first min_heap m r).
    { destruct (proj1 (Hl r)) as [e He]; [left|]. exists e. split; [done|].
      intros k' e' Hk' Hne. assert (Hin : k' ∈ r :: l) by (apply Hl; eauto).
      apply elem_of_list_lookup in Hin as [i Hi]. rewrite <- Ea in Hi.
      destruct (ho_root (hless (hp_nodes h)) (hp_arr h) Hord) with (i := i) (x := k') (r := r) as [->|Hlt]; try done.
      - apply hless_sto.
        + intros x Hx. apply elem_of_dom. by apply heap_elem.
        + intros x nd Hx. by eapply Hfin.
        + apply W.
      - by rewrite Ea.
      - eapply hless_first; [exact R|done|done|done|congruence|done]. }
    split.
    + intros [= <- <-]. done.
    + intros [(e & He & Hmin) ->]. destruct Ho as (e0 & He0 & Hmin0).
      destruct (decide (r = k)) as [->|Hne]; [done|].
      exfalso. eapply comes_first_asym; [exact (Hmin r e0 He0 Hne)|]. apply (Hmin0 k e He). done.
Qed.

(** ** C12: uniform *)

(** Index [i] of the drawn integer belongs to one key and every key has exactly
    one index; the probability is 1/size up to rounding. *)
Theorem C12_uniform os :
  let m := ref_hist KUniform os in
  exists key_of : nat -> Z,
    (forall i, (i < size m)%nat -> is_Some (m !! key_of i)) /\
    (forall k, is_Some (m !! k) -> exists i, (i < size m)%nat /\ key_of i = k) /\
    (forall i j, (i < size m)%nat -> (j < size m)%nat -> key_of i = key_of j -> i = j) /\
    forall d, m <> ∅ ->
      sel_sample (sel_hist KUniform os) d =
        Some (key_of (d_int d mod size m)%nat, rnd (1 / inject_Z (Z.of_nat (size m)))).
Proof.
  cbv zeta. pose proof (hist_rel KUniform os I) as R. pose proof (hist_shape KUniform os I) as K.
  set (m := ref_hist KUniform os) in *.
  destruct (sel_hist KUniform os) as [l|l|h|u|s]; try done. clear K.
  destruct R as [W _ D St _]. cbn in *.
  assert (Hl : forall x, x ∈ u_keys u <-> is_Some (m !! x)).
  { intros x. rewrite <- elem_of_dom, <- D. by rewrite elem_of_list_to_set. }
  pose proof (uniform_wf_nodup u W) as Hnd.
  assert (Hsz : size m = length (u_keys u)).
  { rewrite <- (size_dom (D := gset Z)), <- D. by apply size_list_to_set. }
  exists (fun i => nth i (u_keys u) 0). rewrite Hsz. split; [|split; [|split]].
  - intros i Hi. apply Hl. apply elem_of_list_In, nth_In. done.
  - intros k Hk. apply Hl, elem_of_list_lookup in Hk as [i Hi]. exists i.
    split; [by eapply lookup_lt_Some|]. by apply nth_lookup_Some.
  - intros i j Hi Hj. apply NoDup_nth; [by apply NoDup_ListNoDup|done|done].
  - intros d Hne. unfold uniform_sample. destruct (u_keys u) as [|a l] eqn:E.
    + exfalso. apply Hne. apply map_size_empty_iff. by rewrite Hsz.
    + destruct (lookup_lt_is_Some_2 (a :: l) (d_int d mod length (a :: l))) as [x Hx].
      { apply Nat.mod_upper_bound. done. }
      rewrite Hx. by rewrite (nth_lookup_Some _ _ 0 _ Hx).
Qed.

(** ** C14: prioritized, any rounding *)

(** With any monotone rounding that keeps 0, sampling a non-empty selector
    returns a key that is present. *)
Theorem C14_prio_any_rounding e os d : (0 <= e)%Q -> draw_ok d -> ref_hist (KPrio e) os <> ∅ ->
  exists k q, sel_sample (sel_hist (KPrio e) os) d = Some (k, q) /\ is_Some (ref_hist (KPrio e) os !! k).
Proof.
  intros He Hd Hne. pose proof (C08_selector_sample_present (KPrio e) os d He Hd) as H.
  destruct (sel_sample _ d) as [[k q]|]; [eauto|done].
Qed.

(** ** C13: prioritized, exact arithmetic *)

(** priority^exponent, where 0^exponent is 0. *)
Definition entry_weight (e : Q) (x : entry) : Q :=
  match en_prio x with
  | Fin p => if Qeq_bool p 0 then 0%Q else pw p e
  | NaN => 0%Q
  end.
Definition total_weight (e : Q) (m : gmap Z entry) : Q :=
  qsum (fun kv => entry_weight e kv.2) (map_to_list m).

Fixpoint before (k : Z) (l : list Z) : list Z :=
  match l with
  | [] => []
  | x :: l => if decide (x = k) then [] else x :: before k l
  end.

Lemma before_split k l1 l2 : k ∉ l1 -> before k (l1 ++ k :: l2) = l1.
Proof.
  induction l1 as [|x l1 IH]; simpl; intros H.
  - by rewrite decide_True.
  - rewrite decide_False by (intros ->; apply H; left). rewrite IH; [done|]. intros H'. apply H. by right.
Qed.
Lemma qsum_nonneg {A} (f : A -> Q) l : (forall x, 0 <= f x)%Q -> (0 <= qsum f l)%Q.
Proof. intros H. induction l as [|x l IH]; simpl; [lra|]. specialize (H x). lra. Qed.
Lemma before_sum (f : Z -> Q) k l : (forall x, 0 <= f x)%Q -> k ∈ l ->
  (qsum f (before k l) + f k <= qsum f l)%Q.
Proof.
  intros Hf. induction l as [|x l IH]; simpl; intros H; [by apply elem_of_nil in H|].
  pose proof (qsum_nonneg f l Hf). case_decide; [subst; simpl; lra|].
  apply elem_of_cons in H as [->|H]; [done|]. simpl. specialize (IH H). lra.
Qed.
Lemma before_disjoint (f : Z -> Q) k k' l : (forall x, 0 <= f x)%Q -> k ∈ l -> k' ∈ l -> k <> k' ->
  (qsum f (before k l) + f k <= qsum f (before k' l))%Q \/
  (qsum f (before k' l) + f k' <= qsum f (before k l))%Q.
Proof.
  intros Hf. induction l as [|x l IH]; simpl; intros H H' Hne; [by apply elem_of_nil in H|].
  pose proof (qsum_nonneg f (before k l) Hf). pose proof (qsum_nonneg f (before k' l) Hf).
  repeat case_decide; subst; simpl; try done; try (left; lra); try (right; lra).
  apply elem_of_cons in H as [->|H]; [done|]. apply elem_of_cons in H' as [->|H']; [done|].
  destruct (IH H H' Hne); [left|right]; lra.
Qed.

Lemma prio_rel_weights e q n m : sel_rel (KPrio e) (SPrio q) n m ->
  (forall k x, m !! k = Some x -> wt q k = entry_weight e x) /\
  (forall k, 0 <= wt q k)%Q /\
  (qsum (wt q) (prio_order q) == total_weight e m)%Q /\
  (forall k, k ∈ prio_order q <-> is_Some (m !! k)) /\ psize q = size m.
Proof.
  intros [W K D St R]. cbn in *. injection K as K.
  assert (H1 : forall k x, m !! k = Some x -> wt q k = entry_weight e x).
  { intros k x Hk. destruct (R k x Hk) as (p & E & Hp & Hw). unfold wt, entry_weight. rewrite Hw, E, K. done. }
  assert (Hin : forall k, k ∈ prio_order q <-> is_Some (m !! k)).
  { intros k. rewrite prio_order_elem by done. rewrite <- !elem_of_dom, D. done. }
  split; [done|]. split.
  { intros k. unfold wt. destruct (weight q k) as [w|] eqn:E; simpl; [|lra].
    assert (Hk : is_Some (m !! k)).
    { apply elem_of_dom. rewrite <- D. apply weight_dom. eauto. }
    destruct Hk as [x Hx]. destruct (R k x Hx) as (p & _ & Hp & Hw). rewrite E in Hw. injection Hw as ->.
    apply power_nonneg; [done|]. apply W. }
  split; [|split; [done|]].
  - assert (P : prio_order q ≡ₚ (map_to_list m).*1).
    { apply NoDup_Permutation; [by apply prio_order_nodup|apply NoDup_fst_map_to_list|].
      intros k. rewrite Hin. rewrite elem_of_list_fmap. split.
      - intros [x Hx]. exists (k, x). split; [done|]. by apply elem_of_map_to_list.
      - intros [[k' x] [-> Hx]]. apply elem_of_map_to_list in Hx. eauto. }
    rewrite (qsum_perm _ _ _ P), qsum_fmap. apply qsum_ext.
    intros [k x] Hx. apply elem_of_map_to_list in Hx. cbn. by rewrite (H1 k x Hx).
  - unfold psize. rewrite <- (size_dom (D := gset Z)), D. apply size_dom.
Qed.

Context {exact : FPExact fp}.

(** Every key owns a half-open interval of length weight/total of the real draw,
    and the reported probability is that length. *)
Theorem C13_prio_distribution e os : (0 <= e)%Q ->
  let m := ref_hist (KPrio e) os in
  let W := total_weight e m in
  (0 < W)%Q ->
  exists start : Z -> Q, forall k x, m !! k = Some x ->
    (0 <= start k)%Q /\ (start k + entry_weight e x / W <= 1)%Q /\
    forall d, draw_ok d ->
      ((exists q, sel_sample (sel_hist (KPrio e) os) d = Some (k, q)) <->
         (start k <= d_unit d)%Q /\ (d_unit d < start k + entry_weight e x / W)%Q) /\
      (forall q, sel_sample (sel_hist (KPrio e) os) d = Some (k, q) -> (q == entry_weight e x / W)%Q).
Proof.
  intros He m W HW. destruct (hist_prio_exact e os He) as (q & E & Hx).
  pose proof (hist_rel (KPrio e) os He) as R. rewrite E in *. fold m in R.
  pose proof (sr_wf _ _ _ _ R) as Wf. cbn in Wf.
  destruct (prio_rel_weights e q _ m R) as (Hw & Hnn & Htot & Hin & Hsz). fold W in Htot.
  set (W' := qsum (wt q) (prio_order q)) in *.
  assert (HW' : (0 < W')%Q) by lra.
  exists (fun k => qsum (wt q) (before k (prio_order q)) / W)%Q.
  assert (Hdiv : forall a, (a / W == a / W')%Q) by (intros a; by rewrite Htot).
  intros k x Hk. rewrite <- (Hw k x Hk).
  assert (Hkin : k ∈ prio_order q) by (apply Hin; eauto).
  pose proof (prio_order_nodup q Wf) as Hnd.
  split; [|split].
  - apply Qle_shift_div_l; [done|]. rewrite Qmult_0_l. by apply qsum_nonneg.
  - rewrite !Hdiv. pose proof (before_sum (wt q) k _ Hnn Hkin) as Hs. fold W' in Hs.
    assert (Eq : (qsum (wt q) (before k (prio_order q)) / W' + wt q k / W' ==
            (qsum (wt q) (before k (prio_order q)) + wt q k) / W')%Q) by (field; lra).
    rewrite Eq. apply Qle_shift_div_r; [done|]. lra.
  - intros d Hd.
    destruct (prio_sample_distribution q d Wf Hx Hd) as (k' & pr & l1 & l2 & Es & Eo & Hpr & Hlo & Hhi).
    { done. }
    fold W' in Hpr, Hlo, Hhi. cbn [sel_sample].
    assert (Hb : before k' (prio_order q) = l1).
    { rewrite Eo. apply before_split. rewrite Eo in Hnd. apply NoDup_app in Hnd as (_ & Hd' & _).
      intros Hin'. apply (Hd' k' Hin'). left. }
    split; [split|].
    + intros [pr' E']. rewrite Es in E'. injection E' as <- <-. rewrite Hb, !Hdiv. split.
      * apply Qle_shift_div_r; done.
      * assert (Eq : (qsum (wt q) l1 / W' + wt q k' / W' == (qsum (wt q) l1 + wt q k') / W')%Q) by (field; lra).
        rewrite Eq. apply Qlt_shift_div_l; done.
    + rewrite !Hdiv. intros [Hl Hr]. destruct (decide (k' = k)) as [->|Hne]; [eauto|exfalso].
      assert (Hkin' : k' ∈ prio_order q) by (rewrite Eo; apply elem_of_app; right; left).
      assert (Eq : (qsum (wt q) (before k (prio_order q)) / W' + wt q k / W' ==
            (qsum (wt q) (before k (prio_order q)) + wt q k) / W')%Q) by (field; lra).
      rewrite Eq in Hr.
      assert (Hl' : (qsum (wt q) (before k (prio_order q)) <= d_unit d * W')%Q).
      { apply (Qmult_le_compat_r _ _ W') in Hl; [|lra].
        assert (Q1 : (qsum (wt q) (before k (prio_order q)) / W' * W' == qsum (wt q) (before k (prio_order q)))%Q) by (field; lra).
        lra. }
      assert (Hr' : (d_unit d * W' < qsum (wt q) (before k (prio_order q)) + wt q k)%Q).
      { apply (Qmult_lt_compat_r _ _ W') in Hr; [|done].
        assert (Q1 : ((qsum (wt q) (before k (prio_order q)) + wt q k) / W' * W' == qsum (wt q) (before k (prio_order q)) + wt q k)%Q) by (field; lra).
        lra. }
      rewrite <- Hb in Hlo, Hhi.
      destruct (before_disjoint (wt q) k k' (prio_order q)) as [H|H]; try done; lra.
    + intros pr' E'. rewrite Es in E'. injection E' as <- <-. rewrite Hdiv. done.
Qed.

(** Keys of weight 0 are never drawn while some weight is positive. *)
Theorem C13_prio_zero_weight e os d k x q : (0 <= e)%Q -> draw_ok d ->
  let m := ref_hist (KPrio e) os in
  (0 < total_weight e m)%Q -> m !! k = Some x -> (entry_weight e x == 0)%Q ->
  sel_sample (sel_hist (KPrio e) os) d <> Some (k, q).
Proof.
  intros He Hd m HW Hk Hx Hs. destruct (C13_prio_distribution e os He HW) as [start H].
  destruct (H k x Hk) as (_ & _ & H3). destruct (H3 d Hd) as [Hi _].
  destruct (proj1 Hi) as [H1 H2]; [eauto|].
  assert (Eq : (entry_weight e x / total_weight e (ref_hist (KPrio e) os) == 0)%Q).
  { fold m. rewrite Hx. unfold Qdiv. lra. }
  rewrite Eq in H2. lra.
Qed.

(** When all weights are 0 every key owns an interval of length 1/size. *)
Theorem C13_prio_all_zero e os : (0 <= e)%Q ->
  let m := ref_hist (KPrio e) os in
  let n := inject_Z (Z.of_nat (size m)) in
  (total_weight e m == 0)%Q ->
  exists idx : Z -> nat, forall k, is_Some (m !! k) ->
    (idx k < size m)%nat /\
    forall d, draw_ok d ->
      ((exists q, sel_sample (sel_hist (KPrio e) os) d = Some (k, q)) <->
         (inject_Z (Z.of_nat (idx k)) / n <= d_unit d)%Q /\
         (d_unit d < (inject_Z (Z.of_nat (idx k)) + 1) / n)%Q) /\
      (forall q, sel_sample (sel_hist (KPrio e) os) d = Some (k, q) -> (q == 1 / n)%Q).
Proof.
  intros He m n HW. destruct (hist_prio_exact e os He) as (q & E & Hx).
  pose proof (hist_rel (KPrio e) os He) as R. rewrite E in *. fold m in R.
  pose proof (sr_wf _ _ _ _ R) as Wf. cbn in Wf.
  destruct (prio_rel_weights e q _ m R) as (Hw & Hnn & Htot & Hin & Hsz).
  exists (fun k => default 0%nat (p_index q !! k)). intros k Hk.
  pose proof (sr_dom _ _ _ _ R) as D. cbn in D.
  assert (Hki : is_Some (p_index q !! k)) by (apply elem_of_dom; rewrite D; by apply elem_of_dom).
  destruct Hki as [i Hi]. rewrite Hi. cbn [default from_option id].
  destruct (proj1 (pw_index _ Wf k i) Hi) as [Hlt Hkey].
  rewrite <- Hsz. split; [done|]. intros d Hd.
  destruct (prio_sample_zero q d Wf Hx Hd) as (Hpos & k' & pr & Es & Ei & Hpr); [lia|by rewrite Htot|].
  set (pos := Z.to_nat (Qfloor (d_unit d * inject_Z (Z.of_nat (psize q))))) in *.
  rewrite Hsz in Hpr. fold n in Hpr.
  assert (Hn : (0 < n)%Q) by (unfold n, Qlt; cbn; lia).
  assert (Hfl : (inject_Z (Z.of_nat pos) <= d_unit d * n)%Q /\ (d_unit d * n < inject_Z (Z.of_nat pos) + 1)%Q).
  { unfold pos. rewrite Hsz. fold n.
    assert (H0 : 0 <= Qfloor (d_unit d * n)).
    { assert (H0' : Qfloor 0 <= Qfloor (d_unit d * n)).
      { apply Qfloor_resp_le. destruct Hd as [Hd0 _]. apply Qmult_le_0_compat; [done|lra]. }
      done. }
    rewrite Z2Nat.id by done. split; [apply Qfloor_le|]. pose proof (Qlt_floor (d_unit d * n)) as Hf.
    rewrite inject_Z_plus in Hf. exact Hf. }
  assert (Hiff : (inject_Z (Z.of_nat i) / n <= d_unit d)%Q /\ (d_unit d < (inject_Z (Z.of_nat i) + 1) / n)%Q
                 <-> i = pos).
  { split.
    - intros [Ha Hb].
      assert (Ha' : (inject_Z (Z.of_nat i) <= d_unit d * n)%Q).
      { apply (Qmult_le_compat_r _ _ n) in Ha; [|lra].
        assert (Q1 : (inject_Z (Z.of_nat i) / n * n == inject_Z (Z.of_nat i))%Q) by (field; lra). lra. }
      assert (Hb' : (d_unit d * n < inject_Z (Z.of_nat i) + 1)%Q).
      { apply (Qmult_lt_compat_r _ _ n) in Hb; [|done].
        assert (Q1 : ((inject_Z (Z.of_nat i) + 1) / n * n == inject_Z (Z.of_nat i) + 1)%Q) by (field; lra). lra. }
      assert (A1 : (inject_Z (Z.of_nat i) < inject_Z (Z.of_nat pos + 1))%Q) by (rewrite inject_Z_plus; change (inject_Z 1) with 1%Q; lra).
      assert (A2 : (inject_Z (Z.of_nat pos) < inject_Z (Z.of_nat i + 1))%Q) by (rewrite inject_Z_plus; change (inject_Z 1) with 1%Q; lra).
      rewrite <- Zlt_Qlt in A1, A2. lia.
    - intros ->. split.
      + apply Qle_shift_div_r; lra.
      + apply Qlt_shift_div_l; lra. }
  split.
  - rewrite Hiff. cbn [sel_sample]. rewrite Es. split.
    + intros [q' [= -> _]]. congruence.
    + intros ->. exists pr. f_equal. f_equal.
      destruct (proj1 (pw_index _ Wf k' pos) Ei) as [_ Hk']. congruence.
  - cbn [sel_sample]. rewrite Es. intros q' [= -> <-]. done.
Qed.

End WithFP.

(** ** The hypotheses are met by concrete histories *)

Local Existing Instance fp_exact.
Local Existing Instance fp_exact_laws.
Local Existing Instance fp_exact_exact.

Definition ex_ops : list sop :=
  [SIns 1 (Fin 3); SIns 2 (Fin 1); SIns 3 (Fin 1); SUpd 2 (Fin 1); SIns 2 (Fin 9); SDel 1; SIns 1 (Fin 4);
   SUpd 7 (Fin 1); SIns 4 NaN; SDel 4].

Example C09_example : sel_sample (sel_hist KFifo ex_ops) (mkDraw 0 0) = Some (2, 1%Q).
Proof. vm_compute. reflexivity. Qed.
Example C10_example : sel_sample (sel_hist KLifo ex_ops) (mkDraw 0 0) = Some (1, 1%Q).
Proof. vm_compute. reflexivity. Qed.
Definition ex_ops_fin : list sop :=
  [SIns 1 (Fin 3); SIns 2 (Fin 1); SIns 3 (Fin 1); SUpd 2 (Fin 1); SIns 2 (Fin 9); SDel 1; SIns 1 (Fin 4)].
Example C11_example :
  Forall sop_finite ex_ops_fin /\
  sel_sample (sel_hist (KHeap true) ex_ops_fin) (mkDraw 0 0) = Some (3, 1%Q) /\
  sel_sample (sel_hist (KHeap false) ex_ops_fin) (mkDraw 0 0) = Some (1, 1%Q).
Proof. split; [by repeat constructor|]. vm_compute. done. Qed.
Example C12_example :
  sel_sample (sel_hist KUniform ex_ops) (mkDraw 6 0) <> sel_sample (sel_hist KUniform ex_ops) (mkDraw 4 0) /\
  size (ref_hist KUniform ex_ops) = 3%nat.
Proof. vm_compute. done. Qed.
Example C13_example :
  (total_weight 1 (ref_hist (KPrio 1) ex_ops) == 6)%Q /\
  sel_sample (sel_hist (KPrio 1) ex_ops) (mkDraw 0 (1 # 2)) = Some (1, (2 # 3)%Q) /\
  draw_ok (mkDraw 0 (1 # 2)).
Proof. split; [by vm_compute|]. split; [by vm_compute|]. by apply draw_ok_exact. Qed.
Definition ex_zero : list sop := [SIns 1 (Fin 0); SIns 2 (Fin 0); SIns 3 (Fin 5); SUpd 3 (Fin 0)].
Example C13_zero_example :
  (total_weight 1 (ref_hist (KPrio 1) ex_zero) == 0)%Q /\
  sel_sample (sel_hist (KPrio 1) ex_zero) (mkDraw 0 (1 # 2)) = Some (2, (1 # 3)%Q).
Proof. split; by vm_compute. Qed.
(** A rounding that is not exact: everything is rounded down to a multiple of
    1/4. *)
Definition fp_coarse : FP :=
  {| rnd := fun x => (inject_Z (Qfloor (x * 4)) / 4)%Q; pw := fun b e => b |}.
Lemma fp_coarse_laws : FPLaws fp_coarse.
Proof.
  split; cbn [fp_coarse rnd pw].
  - intros x y H. apply Qmult_le_compat_r; [|done]. rewrite <- Zle_Qle. apply Qfloor_resp_le.
    apply Qmult_le_compat_r; done.
  - reflexivity.
  - done.
Qed.
Example C14_example :
  @sel_sample fp_coarse (@sel_hist fp_coarse (KPrio 1) ex_ops) (mkDraw 0 (1 # 3)) = Some (1, (2 # 4)%Q).
Proof. vm_compute. reflexivity. Qed.

Print Assumptions C08_selector_keys.
Print Assumptions C08_selector_sample_present.
Print Assumptions C09_fifo.
Print Assumptions C10_lifo.
Print Assumptions C11_heap.
Print Assumptions C12_uniform.
Print Assumptions C13_prio_distribution.
Print Assumptions C13_prio_zero_weight.
Print Assumptions C13_prio_all_zero.
Print Assumptions C14_prio_any_rounding.
