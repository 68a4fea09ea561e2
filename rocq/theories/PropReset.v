(** Property C22: a table after Reset behaves like a new table. *)
From Verif Require Import Base RateLimiter SelList SelUniform SelHeap SelPrio SelPrioProofs SelPrioExact
  Selector Trajectory Table EventLog TableProofs TableLog SelSpec PropSelectors TableSpec LogFacts PropTable TableSim.

(** ** Heaps that differ in the update counter only *)

Definition shift_node (d : Z) (n : hnode) : hnode := mkHnode (h_prio n) (h_upd n + d) (h_pos n).
Definition shift_heap (d : Z) (h : heap) : heap :=
  mkHeap (hp_neg h) (hp_arr h) (shift_node d <$> hp_nodes h) (hp_count h + d).

Lemma node_lt_shift d x y : node_lt (shift_node d x) (shift_node d y) = node_lt x y.
Proof.
  unfold node_lt, shift_node; cbn. do 2 f_equal.
  destruct (Z.ltb_spec (h_upd x) (h_upd y)), (Z.ltb_spec (h_upd x + d) (h_upd y + d)); lia.
Qed.
Lemma hless_shift d nodes a b : hless (shift_node d <$> nodes) a b = hless nodes a b.
Proof.
  unfold hless. rewrite !lookup_fmap. destruct (nodes !! a), (nodes !! b); cbn; try done. apply node_lt_shift.
Qed.
Lemma set_pos_shift d nodes k i : set_pos (shift_node d <$> nodes) k i = shift_node d <$> set_pos nodes k i.
Proof.
  unfold set_pos. apply map_eq. intros x. rewrite lookup_fmap. destruct (decide (k = x)) as [->|Hne].
  - rewrite !lookup_alter, lookup_fmap. by destruct (nodes !! x).
  - by rewrite !lookup_alter_ne, lookup_fmap.
Qed.
Lemma pos_of_shift d nodes k : pos_of (shift_node d <$> nodes) k = pos_of nodes k.
Proof. unfold pos_of. rewrite lookup_fmap. by destruct (nodes !! k). Qed.

Definition shift2 (d : Z) (p : list Z * gmap Z hnode) : list Z * gmap Z hnode := (p.1, shift_node d <$> p.2).

Lemma place_shift d arr nodes t h : place arr (shift_node d <$> nodes) t h = shift2 d (place arr nodes t h).
Proof. unfold place, shift2. cbn. by rewrite set_pos_shift. Qed.
Lemma fix_up_shift d f : forall arr nodes t h,
  fix_up f arr (shift_node d <$> nodes) t h = shift2 d (fix_up f arr nodes t h).
Proof.
  induction f as [|f IH]; intros arr nodes t h; [done|]. cbn [fix_up].
  case_decide; [apply place_shift|]. rewrite hless_shift. destruct (hless nodes _ t); [apply place_shift|].
  by rewrite set_pos_shift, IH.
Qed.
Lemma fix_down_shift d f : forall arr nodes t h,
  fix_down f arr (shift_node d <$> nodes) t h = shift2 d (fix_down f arr nodes t h).
Proof.
  induction f as [|f IH]; intros arr nodes t h; [done|]. cbn [fix_down].
  case_decide; [apply place_shift|]. rewrite !hless_shift. case_match; [apply place_shift|].
  by rewrite set_pos_shift, IH.
Qed.
Lemma adjust_shift d arr nodes t : adjust arr (shift_node d <$> nodes) t = shift2 d (adjust arr nodes t).
Proof.
  unfold adjust. rewrite pos_of_shift, hless_shift. case_decide; [apply fix_up_shift|apply fix_down_shift].
Qed.
Lemma push_shift d arr nodes t : push arr (shift_node d <$> nodes) t = shift2 d (push arr nodes t).
Proof. unfold push. by rewrite set_pos_shift, fix_up_shift. Qed.
Lemma remove_shift d arr nodes t : remove_ arr (shift_node d <$> nodes) t = shift2 d (remove_ arr nodes t).
Proof.
  unfold remove_. rewrite pos_of_shift. case_decide; [done|]. by rewrite set_pos_shift, adjust_shift.
Qed.

Lemma heap_insert_shift d h k p :
  heap_insert (shift_heap d h) k p = ((heap_insert h k p).1, shift_heap d (heap_insert h k p).2).
Proof.
  unfold heap_insert, shift_heap. cbn [hp_neg hp_arr hp_nodes hp_count].
  destruct (hp_nodes h !! k) eqn:Hk; [by rewrite lookup_fmap, Hk|].
  assert (E : (shift_node d <$> hp_nodes h) !! k = None) by (by rewrite lookup_fmap, Hk). rewrite E.
  change (mkHnode (dsign (hp_neg h) p) (hp_count h + d) 0)
    with (shift_node d (mkHnode (dsign (hp_neg h) p) (hp_count h) 0)).
  rewrite <- fmap_insert, push_shift. destruct (push _ _ _) as [arr nodes]. cbn [shift2 fst snd hp_neg hp_arr hp_nodes hp_count]. f_equal. f_equal. lia.
Qed.
Lemma heap_update_shift d h k p :
  heap_update (shift_heap d h) k p = ((heap_update h k p).1, shift_heap d (heap_update h k p).2).
Proof.
  unfold heap_update, shift_heap. cbn [hp_neg hp_arr hp_nodes hp_count].
  destruct (hp_nodes h !! k) as [n|] eqn:Hk; [|by rewrite lookup_fmap, Hk].
  assert (E : (shift_node d <$> hp_nodes h) !! k = Some (shift_node d n)) by (by rewrite lookup_fmap, Hk). rewrite E.
  change (mkHnode (dsign (hp_neg h) p) (hp_count h + d) (h_pos (shift_node d n)))
    with (shift_node d (mkHnode (dsign (hp_neg h) p) (hp_count h) (h_pos n))).
  rewrite <- fmap_insert, adjust_shift. destruct (adjust _ _ _) as [arr nodes]. cbn [shift2 fst snd hp_neg hp_arr hp_nodes hp_count]. f_equal. f_equal. lia.
Qed.
Lemma heap_delete_shift d h k :
  heap_delete (shift_heap d h) k = ((heap_delete h k).1, shift_heap d (heap_delete h k).2).
Proof.
  unfold heap_delete, shift_heap. cbn [hp_neg hp_arr hp_nodes hp_count].
  destruct (hp_nodes h !! k) as [n|] eqn:Hk; [|by rewrite lookup_fmap, Hk].
  assert (E : (shift_node d <$> hp_nodes h) !! k = Some (shift_node d n)) by (by rewrite lookup_fmap, Hk). rewrite E.
  rewrite remove_shift. destruct (remove_ _ _ _) as [arr nodes]. cbn [shift2 fst snd hp_neg hp_arr hp_nodes hp_count]. by rewrite fmap_delete.
Qed.
Lemma heap_clear_shift d h : heap_clear (shift_heap d h) = shift_heap d (heap_clear h).
Proof. unfold heap_clear, shift_heap. cbn [hp_neg hp_arr hp_nodes hp_count]. by rewrite fmap_empty. Qed.

Section WithFP.
Context {fp : FP} {laws : FPLaws fp}.

(** ** Prioritized selectors with the same keys at the same places *)

Record prio_sim (a b : prio) : Prop := {
  ps_wfa : prio_wf a; ps_wfb : prio_wf b; ps_exa : prio_exact a; ps_exb : prio_exact b;
  ps_exp : p_exp a = p_exp b; ps_index : p_index a = p_index b;
  ps_weight : forall k, weight a k = weight b k }.

Definition no_prio (k : sel_kind) : Prop := match k with KPrio _ => False | _ => True end.

Lemma sim_key a b i : prio_sim a b -> (i < psize a)%nat ->
  p_key (pnode_at (p_tree a) i) = p_key (pnode_at (p_tree b) i).
Proof.
  intros S Hi. pose proof S as []. 
  assert (H : p_index a !! p_key (pnode_at (p_tree a) i) = Some i) by (by apply ps_wfa0).
  rewrite ps_index0 in H. apply ps_wfb0 in H as [_ H]. done.
Qed.
Lemma sim_size a b : prio_sim a b -> psize a = psize b.
Proof. intros []. unfold psize. congruence. Qed.

Lemma sim_order a b : prio_sim a b -> prio_order a = prio_order b.
Proof.
  intros S. unfold prio_order. rewrite <- (sim_size a b S). apply list_fmap_ext. intros j i Hj.
  apply elem_of_list_lookup_2 in Hj. apply post_elem in Hj as [Hj _]; [|lia]. by apply sim_key.
Qed.

(** Two prioritized selectors that are the same in exact arithmetic return the
    same key and the same probability. *)
Lemma sim_sample (exact : FPExact fp) a b d : prio_sim a b -> draw_ok d ->
  match prio_sample a d, prio_sample b d with
  | Some (k, q), Some (k', q') => k = k' /\ (q == q')%Q
  | None, None => True
  | _, _ => False
  end.
Proof.
  intros S Hd. pose proof (sim_size _ _ S) as Hsz. pose proof (sim_order _ _ S) as Hord.
  pose proof S as [Wa Wb Xa Xb _ Hi Hw].
  assert (Hwt : forall k, wt a k = wt b k) by (intros k; unfold wt; by rewrite Hw).
  assert (HW : (qsum (wt a) (prio_order a) == qsum (wt b) (prio_order b))%Q).
  { rewrite Hord. apply qsum_ext. intros x _. by rewrite Hwt. }
  destruct (decide (psize a = 0%nat)) as [Hz|Hz].
  { unfold prio_sample. rewrite !decide_True by congruence. done. }
  assert (Hnn : forall k, (0 <= wt a k)%Q).
  { intros k. unfold wt. destruct (weight a k) as [w|] eqn:E; cbn; [|lra].
    unfold weight in E. destruct (p_index a !! k) as [i|]; [|done]. injection E as <-. apply (pw_nn _ Wa). }
  destruct (Qlt_le_dec 0 (qsum (wt a) (prio_order a))) as [Hp|Hp].
  - destruct (prio_sample_distribution a d Wa Xa Hd Hp) as (k & q & l1 & l2 & -> & O1 & Q1 & A1 & A2).
    destruct (prio_sample_distribution b d Wb Xb Hd ltac:(lra)) as (k' & q' & l1' & l2' & -> & O2 & Q2 & B1 & B2).
    assert (k = k') as <-.
    { destruct (decide (k = k')) as [|Hne]; [done|]. exfalso.
      pose proof (prio_order_nodup a Wa) as Hnd.
      assert (L1 : before k (prio_order a) = l1).
      { rewrite O1. apply before_split. rewrite O1 in Hnd. apply NoDup_app in Hnd as (_ & H & _). intros Hin. apply (H k Hin). left. }
      assert (L2 : before k' (prio_order a) = l1').
      { rewrite Hord, O2. apply before_split. rewrite Hord, O2 in Hnd. apply NoDup_app in Hnd as (_ & H & _). intros Hin. apply (H k' Hin). left. }
      assert (E1 : forall l, (qsum (wt a) l == qsum (wt b) l)%Q) by (intros l; apply qsum_ext; intros x _; by rewrite Hwt).
      assert (HD : (d_unit d * qsum (wt a) (prio_order a) == d_unit d * qsum (wt b) (prio_order b))%Q) by (by rewrite HW).
      destruct (before_disjoint (wt a) k k' (prio_order a) Hnn) as [H|H].
      - rewrite O1. apply elem_of_app. right. left.
      - rewrite Hord, O2. apply elem_of_app. right. left.
      - done.
      - rewrite L1, L2 in H. pose proof (E1 l1'). lra.
      - rewrite L1, L2, (Hwt k') in H. pose proof (E1 l1'). lra. }
    split; [done|]. rewrite Q1, Q2, HW, Hwt. reflexivity.
  - assert (H0 : (qsum (wt a) (prio_order a) == 0)%Q) by (pose proof (qsum_nonneg (wt a) (prio_order a) Hnn); lra).
    destruct (prio_sample_zero a d Wa Xa Hd Hz H0) as (_ & k & q & -> & P1 & Q1).
    destruct (prio_sample_zero b d Wb Xb Hd ltac:(congruence) ltac:(lra)) as (_ & k' & q' & -> & P2 & Q2).
    split; [|by rewrite Q1, Q2, Hsz].
    rewrite Hsz, Hi in P1. apply Wb in P1 as [_ P1]. apply Wb in P2 as [_ P2]. congruence.
Qed.

Lemma sim_insert (exact : FPExact fp) a b k p : prio_sim a b ->
  (prio_insert a k p).1 = (prio_insert b k p).1 /\ prio_sim (prio_insert a k p).2 (prio_insert b k p).2.
Proof.
  intros S. pose proof (sim_size _ _ S) as Hsz. pose proof S as [Wa Wb Xa Xb He Hi Hw].
  pose proof (prio_insert_spec a k p Wa) as (Wa' & Ea & Ha). pose proof (prio_insert_spec b k p Wb) as (Wb' & Eb & Hb).
  pose proof (prio_insert_exact a k p Wa Xa) as Xa'. pose proof (prio_insert_exact b k p Wb Xb) as Xb'.
  destruct (check_valid_priority p) as [q|] eqn:Ep; [|by rewrite Ha, Hb].
  destruct Ha as [Ha1 Ha2]. destruct Hb as [Hb1 Hb2].
  destruct (p_index a !! k) as [i|] eqn:Hk.
  - destruct Ha1 as (Sa & Ia & Ta); [eauto|]. destruct Hb1 as (Sb & Ib & Tb); [rewrite <- Hi; eauto|].
    split; [congruence|]. split; try done; try congruence. intros x. unfold weight. rewrite Ia, Ib, Ta, Tb. apply Hw.
  - destruct Ha2 as (Sa & _ & Wta); [done|]. destruct Hb2 as (Sb & _ & Wtb); [congruence|].
    split; [congruence|]. split; try done; try congruence.
    + unfold prio_insert. rewrite Ep, <- Hi, Hk. cbn. by rewrite Hsz.
    + intros x. rewrite Wta, Wtb, He, Hw. done.
Qed.

Lemma sim_update (exact : FPExact fp) a b k p : prio_sim a b ->
  (prio_update a k p).1 = (prio_update b k p).1 /\ prio_sim (prio_update a k p).2 (prio_update b k p).2.
Proof.
  intros S. pose proof (sim_size _ _ S) as Hsz. pose proof S as [Wa Wb Xa Xb He Hi Hw].
  pose proof (prio_update_spec a k p Wa) as (Wa' & Ea & Ia & Ha). pose proof (prio_update_spec b k p Wb) as (Wb' & Eb & Ib & Hb).
  pose proof (prio_update_exact a k p Wa Xa) as Xa'. pose proof (prio_update_exact b k p Wb Xb) as Xb'.
  destruct (check_valid_priority p) as [q|] eqn:Ep; [|by rewrite Ha, Hb].
  destruct Ha as [Ha1 Ha2]. destruct Hb as [Hb1 Hb2].
  destruct (p_index a !! k) as [i|] eqn:Hk.
  - destruct Ha2 as (Sa & Wta); [eauto|]. destruct Hb2 as (Sb & Wtb); [rewrite <- Hi; eauto|].
    split; [congruence|]. split; try done; try congruence. intros x. by rewrite Wta, Wtb, He, Hw.
  - rewrite Ha1, Hb1 by congruence. done.
Qed.

Lemma sim_delete (exact : FPExact fp) a b k : prio_sim a b ->
  (prio_delete a k).1 = (prio_delete b k).1 /\ prio_sim (prio_delete a k).2 (prio_delete b k).2.
Proof.
  intros S. pose proof (sim_size _ _ S) as Hsz. pose proof S as [Wa Wb Xa Xb He Hi Hw].
  pose proof (prio_delete_spec a k Wa) as (Wa' & Ea & Ha1 & Ha2).
  pose proof (prio_delete_spec b k Wb) as (Wb' & Eb & Hb1 & Hb2).
  pose proof (prio_delete_exact a k Wa Xa) as Xa'. pose proof (prio_delete_exact b k Wb Xb) as Xb'.
  destruct (p_index a !! k) as [i|] eqn:Hk.
  - destruct Ha2 as (Sa & _ & Wta); [eauto|]. destruct Hb2 as (Sb & _ & Wtb); [rewrite <- Hi; eauto|].
    split; [congruence|]. split; try done; try congruence.
    + assert (Hpos : (psize a - 1 < psize a)%nat) by (apply Wa in Hk as [? _]; lia).
      pose proof (sim_key a b _ S Hpos) as Hkey.
      unfold prio_delete. rewrite <- Hi, Hk, <- Hsz.
      case_decide; cbn [p_index snd]; [done|].
      destruct (set_node_kv (p_cap a) (psize a) (p_tree a) i (pval (p_tree a) (psize a - 1))) as (K1 & _).
      destruct (set_node_kv (p_cap b) (psize a) (p_tree b) i (pval (p_tree b) (psize a - 1))) as (K2 & _).
      by rewrite K1, K2, Hkey.
    + intros x. by rewrite Wta, Wtb, Hw.
  - rewrite Ha1, Hb1 by congruence. done.
Qed.

(** ** All selectors *)

Definition sel_sim (a b : selector) : Prop :=
  match a, b with
  | SFifo l, SFifo l' => l = l'
  | SLifo l, SLifo l' => l = l'
  | SUniform u, SUniform u' => u = u'
  | SHeap h, SHeap h' => exists d, h = shift_heap d h'
  | SPrio p, SPrio p' => exists _ : FPExact fp, prio_sim p p'
  | _, _ => False
  end.

Lemma sel_sim_insert a b k p : sel_sim a b ->
  (sel_insert a k p).1 = (sel_insert b k p).1 /\ sel_sim (sel_insert a k p).2 (sel_insert b k p).2.
Proof.
  destruct a, b; try done; cbn.
  - intros ->. by destruct (fifo_insert _ _ _).
  - intros ->. by destruct (lifo_insert _ _ _).
  - intros [d ->]. rewrite heap_insert_shift. destruct (heap_insert _ _ _). cbn. eauto.
  - intros ->. by destruct (uniform_insert _ _ _).
  - intros [x S]. apply (sim_insert x _ _ k p) in S as [A B].
    destruct (prio_insert p0 k p), (prio_insert p1 k p). cbn in *. eauto.
Qed.
Lemma sel_sim_update a b k p : sel_sim a b ->
  (sel_update a k p).1 = (sel_update b k p).1 /\ sel_sim (sel_update a k p).2 (sel_update b k p).2.
Proof.
  destruct a, b; try done; cbn.
  - intros ->. by destruct (ls_update _ _ _).
  - intros ->. by destruct (ls_update _ _ _).
  - intros [d ->]. rewrite heap_update_shift. destruct (heap_update _ _ _). cbn. eauto.
  - intros ->. by destruct (uniform_update _ _ _).
  - intros [x S]. apply (sim_update x _ _ k p) in S as [A B].
    destruct (prio_update p0 k p), (prio_update p1 k p). cbn in *. eauto.
Qed.
Lemma sel_sim_delete a b k : sel_sim a b ->
  (sel_delete a k).1 = (sel_delete b k).1 /\ sel_sim (sel_delete a k).2 (sel_delete b k).2.
Proof.
  destruct a, b; try done; cbn.
  - intros ->. by destruct (ls_delete _ _).
  - intros ->. by destruct (ls_delete _ _).
  - intros [d ->]. rewrite heap_delete_shift. destruct (heap_delete _ _). cbn. eauto.
  - intros ->. by destruct (uniform_delete _ _).
  - intros [x S]. apply (sim_delete x _ _ k) in S as [A B].
    destruct (prio_delete p k), (prio_delete p0 k). cbn in *. eauto.
Qed.
Lemma sel_sim_sample a b d : sel_sim a b -> draw_ok d -> same_pick (sel_sample a d) (sel_sample b d).
Proof.
  destruct a, b; try done; cbn.
  - intros -> _. apply same_pick_refl.
  - intros -> _. apply same_pick_refl.
  - intros [x ->] _. apply same_pick_refl.
  - intros -> _. apply same_pick_refl.
  - intros [x S] Hd. by apply sim_sample.
Qed.

Lemma prio_fresh_sim (exact : FPExact fp) a b : prio_wf a -> prio_wf b -> prio_exact a -> prio_exact b ->
  p_exp a = p_exp b -> p_index a = ∅ -> p_index b = ∅ -> prio_sim a b.
Proof. intros. split; try done; try congruence. intros k. unfold weight. by rewrite H4, H5. Qed.

Lemma sel_sim_clear a b : sel_sim a b -> sel_sim (sel_clear a) (sel_clear b).
Proof.
  destruct a, b; try done; cbn.
  - intros [d ->]. exists d. apply heap_clear_shift.
  - intros [x S]. exists x. destruct S.
    apply prio_fresh_sim; try done; try (by apply prio_clear_wf); by apply prio_clear_exact.
Qed.

(** A cleared selector is like a new one. *)
Lemma sel_clear_fresh kind os : kind_ok kind -> no_prio kind \/ FPExact fp ->
  sel_sim (sel_clear (sel_hist kind os)) (sel_new kind).
Proof.
  intros Hk Hx. pose proof (hist_rel kind os Hk) as R. pose proof (hist_shape kind os Hk) as K.
  destruct (sel_hist kind os) as [l|l|h|u|s] eqn:E; destruct kind as [| |mh| |e]; try done.
  - cbn in *. injection K as <-. exists (hp_count h). unfold heap_clear, shift_heap, heap_empty. cbn [hp_neg hp_arr hp_nodes hp_count].
    rewrite fmap_empty. f_equal. by destruct (hp_neg h).
  - destruct Hx as [[]|x]. exists x. cbn in K. injection K as <-.
    destruct (hist_prio_exact _ os Hk) as (q & E' & Hq). rewrite E in E'. injection E' as <-.
    pose proof (sr_wf _ _ _ _ R) as W. cbn in W.
    apply prio_fresh_sim; try done.
    + by apply prio_clear_wf.
    + by apply prio_empty_wf.
    + by apply prio_clear_exact.
Qed.

Lemma sel_simrel : simrel (fun _ => True) sel_sim.
Proof.
  split.
  - intros. by apply sel_sim_insert.
  - intros. by apply sel_sim_update.
  - intros. by apply sel_sim_delete.
  - intros. by apply sel_sim_sample.
  - intros. by apply sel_sim_clear.
Qed.

(** ** C22 *)

(** After Reset, any further calls have the same results as on a new table, the
    same counters and contents, and the listener sees the same further events.
    With a prioritized selector this is for exact arithmetic, and probabilities
    are compared as numbers.  A closed table stays closed. *)
Theorem C22_reset_fresh c os rs t os' : reached c os rs t -> l_cancelled (t_limiter t) = false ->
  (no_prio (c_sampler c) /\ no_prio (c_remover c)) \/ FPExact fp -> Forall (op_ok c) os' ->
  exists t1 rs1 t2 rs2 t3,
    step t OReset = Some (RStatus Ok, t1) /\
    run t1 os' = Some (rs1, t2) /\ run (new_table c) os' = Some (rs2, t3) /\
    Forall2 same_result rs1 rs2 /\ info t2 = info t3 /\ t_data t2 = t_data t3 /\
    t_log t2 = t_log t1 ++ t_log t3.
Proof.
  intros H Hcl Hx Ho. pose proof (reached_linv _ _ _ _ H) as [I L _]. pose proof (re_cfg _ _ _ _ H) as Hc.
  exists (reset_table t).
  assert (S : tsim (R1 := sel_sim) (R2 := sel_sim) (t_log (reset_table t)) (reset_table t) (new_table c)).
  { destruct I as [C _ _]. destruct L. pose proof Hc as (_ & _ & Hk1 & Hk2).
    assert (F1 : sel_sim (sel_clear (t_sampler t)) (sel_new (c_sampler c))).
    { rewrite <- la_sampler, sel_replay_hist. apply sel_clear_fresh; [done|]. destruct Hx as [[? _]|?]; auto. }
    assert (F2 : sel_sim (sel_clear (t_remover t)) (sel_new (c_remover c))).
    { rewrite <- la_remover, sel_replay_hist. apply sel_clear_fresh; [done|]. destruct Hx as [[_ ?]|?]; auto. }
    destruct C. split; cbn [reset_table new_table ext_op t_max_size t_max_times t_sampler t_remover t_limiter t_data t_eps t_del_eps t_unique t_log];
      try done; try (by rewrite app_nil_r).
    unfold lim_reset, new_limiter. rewrite Hcl. congruence. }
  destruct (linv_run c os' _ Hc (new_table_linv c Hc) Ho) as (rs2 & t3 & E2 & _).
  pose proof (run_sim sel_simrel sel_simrel c _ os' _ _ S Ho) as P.
  feed pose proof P as P'; [apply Forall_forall; intros [] _; cbn; try done; by apply Forall_true|]. clear P. rename P' into P. rewrite E2 in P.
  destruct (run (reset_table t) os') as [[rs1 t2]|] eqn:E1; [|done]. destruct P as [P1 P2]. cbn in P1, P2.
  exists rs1, t2, rs2, t3. split; [done|]. split; [done|]. split; [done|]. split; [done|].
  destruct P2. split; [|done]. unfold info, t_size. congruence.
Qed.

End WithFP.

Local Existing Instance fp_exact.
Local Existing Instance fp_exact_laws.
Local Existing Instance fp_exact_exact.

Definition ex_prio_cfg : tcfg := mkCfg 2 0 (KPrio 1) (KHeap true) 3 1 (-20) 20.
Definition ex_before : list op :=
  [OInsert (1, 0) d0 (mk_item 1 5 7 0); OInsert (2, 0) d0 (mk_item 2 5 7 0); OInsert (3, 0) d0 (mk_item 3 5 7 0);
   OSample 4 ds0; OMutate [(3, Fin 1)] []].
Definition ex_after : list op :=
  [OInsert (4, 0) d0 (mk_item 3 5 7 0); OInsert (5, 0) d0 (mk_item 4 1 8 0); OSample 2 ds0;
   OInsert (6, 0) d0 (mk_item 5 1 8 0); OSample 1 ds0].
Example C22_example :
  let r := final ex_prio_cfg ex_before in
  reached ex_prio_cfg ex_before r.1 r.2 /\ l_cancelled (t_limiter r.2) = false /\
  Forall (op_ok ex_prio_cfg) ex_after /\ length (t_log r.2) = 9%nat /\
  length (all_samples (final ex_prio_cfg ex_after).1) = 3%nat.
Proof.
  split. { split; [by repeat constructor|ops_ok|by vm_compute]. }
  split; [by vm_compute|]. split; [ops_ok|]. split; by vm_compute.
Qed.

Print Assumptions C22_reset_fresh.
