(** Invariants of the table model. *)
From Verif Require Import Base RateLimiter Selector Trajectory Table EventLog.

(** * Episode references *)

(** How many chunks of the item belong to episode [e]. *)
Definition occ (e : Z) (cs : list chunk) : Z :=
  Z.of_nat (length (filter (fun c => ck_ep c = e) cs)).
(** The same summed over the items of a table. *)
Definition refs (m : gmap Z item) (e : Z) : Z :=
  map_fold (fun _ it n => occ e (it_chunks it) + n) 0 m.

Lemma occ_cons e c cs : occ e (c :: cs) = (if decide (ck_ep c = e) then 1 else 0) + occ e cs.
Proof. unfold occ. rewrite filter_cons. destruct (decide (ck_ep c = e)); simpl; lia. Qed.
Lemma occ_nonneg e cs : 0 <= occ e cs.
Proof. unfold occ. lia. Qed.
Lemma occ_pos e cs : 0 < occ e cs <-> e ∈ ck_ep <$> cs.
Proof.
  induction cs as [|c cs IH]; [unfold occ; simpl; split; [lia|intros H; inversion H]|].
  rewrite occ_cons, fmap_cons, elem_of_cons, <- IH.
  pose proof (occ_nonneg e cs). destruct (decide (ck_ep c = e)); split; intros Hx; lia.
Qed.

Lemma refs_empty e : refs ∅ e = 0.
Proof. done. Qed.
Lemma refs_insert m k it e : m !! k = None ->
  refs (<[k := it]> m) e = occ e (it_chunks it) + refs m e.
Proof. intros H. unfold refs. rewrite map_fold_insert_L; [done| |done]. intros. lia. Qed.
Lemma refs_delete m k it e : m !! k = Some it ->
  refs m e = occ e (it_chunks it) + refs (delete k m) e.
Proof.
  intros H. rewrite <- (insert_delete m k it H) at 1. apply refs_insert. apply lookup_delete.
Qed.
Lemma refs_update m k it it' e : m !! k = Some it -> it_chunks it' = it_chunks it ->
  refs (<[k := it']> m) e = refs m e.
Proof.
  intros H Hc. rewrite (refs_delete (<[k := it']> m) k it'), delete_insert_delete by apply lookup_insert.
  rewrite (refs_delete m k it) by done. by rewrite Hc.
Qed.
Lemma refs_nonneg m e : 0 <= refs m e.
Proof.
  induction m as [|k it m H IH] using map_ind; [by rewrite refs_empty|].
  rewrite refs_insert by done. pose proof (occ_nonneg e (it_chunks it)). lia.
Qed.
Lemma refs_ge m k it e : m !! k = Some it -> occ e (it_chunks it) <= refs m e.
Proof. intros H. rewrite (refs_delete m k it e H). pose proof (refs_nonneg (delete k m) e). lia. Qed.

Lemma eps_of_elem m e : e ∈ eps_of m <-> exists k it, m !! k = Some it /\ e ∈ ck_ep <$> it_chunks it.
Proof.
  unfold eps_of. rewrite elem_of_union_list. split.
  - intros (X & HX & He). apply elem_of_list_fmap in HX as (it & -> & Hit).
    apply elem_of_list_fmap in Hit as ([k it'] & -> & Hk). apply elem_of_map_to_list in Hk.
    exists k, it'. split; [done|]. by apply elem_of_list_to_set in He.
  - intros (k & it & Hk & He). exists (item_eps it). split; [|by apply elem_of_list_to_set].
    apply elem_of_list_fmap. exists it. split; [done|]. apply elem_of_list_fmap.
    exists (k, it). split; [done|]. by apply elem_of_map_to_list.
Qed.

Lemma eps_of_refs m e : e ∈ eps_of m <-> 0 < refs m e.
Proof.
  rewrite eps_of_elem. split.
  - intros (k & it & Hk & He). apply occ_pos in He. pose proof (refs_ge m k it e Hk). lia.
  - induction m as [|k it m H IH] using map_ind; [rewrite refs_empty; lia|].
    rewrite refs_insert by done. intros Hp.
    destruct (decide (0 < occ e (it_chunks it))) as [Ho|Ho].
    + exists k, it. split; [apply lookup_insert|by apply occ_pos].
    + destruct IH as (k' & it' & Hk' & He); [lia|]. exists k', it'. split; [|done].
      rewrite lookup_insert_ne; [done|]. intros ->. congruence.
Qed.

(** The stored counters are the reference counts. *)
Definition eps_exact (e : gmap Z Z) (m : gmap Z item) : Prop :=
  forall x, e !! x = if decide (refs m x = 0) then None else Some (refs m x).

Lemma eps_exact_dom e m : eps_exact e m -> dom e = eps_of m.
Proof.
  intros H. apply set_eq. intros x. rewrite elem_of_dom, eps_of_refs, H.
  pose proof (refs_nonneg m x). case_decide as Hx; split.
  - by intros [? ?].
  - lia.
  - intros _. lia.
  - eauto.
Qed.

Lemma inc_eps_lookup cs : forall e x,
  inc_eps e cs !! x = if decide (occ x cs = 0) then e !! x else Some (default 0 (e !! x) + occ x cs).
Proof.
  induction cs as [|c cs IH]; intros e x; [done|]. cbn [inc_eps fold_left].
  change (fold_left _ cs ?e') with (inc_eps e' cs). rewrite IH, occ_cons.
  pose proof (occ_nonneg x cs). destruct (decide (ck_ep c = x)) as [<-|Hn].
  - rewrite lookup_insert. cbn. rewrite (decide_False (P := 1 + _ = 0)) by lia.
    case_decide; f_equal; lia.
  - rewrite lookup_insert_ne by done. repeat case_decide; try lia; try done; f_equal; lia.
Qed.

Lemma inc_eps_exact e m k it : eps_exact e m -> m !! k = None ->
  eps_exact (inc_eps e (it_chunks it)) (<[k := it]> m).
Proof.
  intros H Hk x. rewrite inc_eps_lookup, refs_insert, H by done.
  pose proof (refs_nonneg m x). pose proof (occ_nonneg x (it_chunks it)).
  repeat case_decide; try lia; try done; simpl; f_equal; lia.
Qed.

(** Counters are positive. *)
Definition eps_pos (e : gmap Z Z) : Prop := forall x r, e !! x = Some r -> 0 < r.

Lemma dec_eps_spec cs : forall e n, eps_pos e ->
  (forall x, occ x cs <= default 0 (e !! x)) ->
  exists e', dec_eps e n cs = Some (e', n + Z.of_nat (size (dom e ∖ dom e'))) /\ eps_pos e' /\
    dom e' ⊆ dom e /\
    (forall x, default 0 (e' !! x) = default 0 (e !! x) - occ x cs).
Proof.
  induction cs as [|c cs IH]; intros e n Hp Ho; cbn [dec_eps].
  - exists e. split; [|split; [done|split; [done|intros; unfold occ; simpl; lia]]].
    do 2 f_equal. rewrite difference_diag_L, size_empty. lia.
  - pose proof (Ho (ck_ep c)) as Hc. rewrite occ_cons, decide_True in Hc by done.
    pose proof (occ_nonneg (ck_ep c) cs). destruct (e !! ck_ep c) as [r|] eqn:Er; simpl in Hc; [|lia].
    pose proof (Hp _ _ Er) as Hr. destruct (Z.eqb_spec (r - 1) 0) as [H1|H1].
    + destruct (IH (delete (ck_ep c) e) (n + 1)) as (e' & E & P & D & V).
      { intros x q. rewrite lookup_delete_Some. intros [_ ?]. by eapply Hp. }
      { intros x. specialize (Ho x). rewrite occ_cons in Ho. destruct (decide (ck_ep c = x)) as [<-|Hn].
        - rewrite lookup_delete. rewrite Er in Ho. simpl in *. lia.
        - rewrite lookup_delete_ne by done. lia. }
      rewrite dom_delete_L in D, E. exists e'. split; [|split; [done|split; [set_solver|]]].
      * rewrite E. do 2 f_equal.
        assert (Hs : dom e ∖ dom e' = {[ck_ep c]} ∪ ((dom e ∖ {[ck_ep c]}) ∖ dom e')).
        { assert (ck_ep c ∈ dom e) by (apply elem_of_dom; eauto).
          apply set_eq. intros x. destruct (decide (x = ck_ep c)); set_solver. }
        assert (Hu : size ({[ck_ep c]} ∪ ((dom e ∖ {[ck_ep c]}) ∖ dom e') : gset Z) =
          (size ({[ck_ep c]} : gset Z) + size ((dom e ∖ {[ck_ep c]}) ∖ dom e' : gset Z))%nat)
          by (apply size_union; set_solver).
        assert (Hone : size ({[ck_ep c]} : gset Z) = 1%nat) by apply size_singleton.
        rewrite Hs, Hu, Hone. lia.
      * intros x. rewrite V, occ_cons. destruct (decide (ck_ep c = x)) as [<-|Hn].
        -- rewrite lookup_delete, Er. simpl. lia.
        -- rewrite lookup_delete_ne by done. lia.
    + destruct (IH (<[ck_ep c := r - 1]> e) n) as (e' & E & P & D & V).
      { intros x q. rewrite lookup_insert_Some. intros [[_ <-]|[_ ?]]; [lia|by eapply Hp]. }
      { intros x. specialize (Ho x). rewrite occ_cons in Ho. destruct (decide (ck_ep c = x)) as [<-|Hn].
        - rewrite lookup_insert. rewrite Er in Ho. simpl in *. lia.
        - rewrite lookup_insert_ne by done. lia. }
      assert (Hd : dom (<[ck_ep c := r - 1]> e) = dom e).
      { rewrite dom_insert_L. assert (ck_ep c ∈ dom e) by (apply elem_of_dom; eauto). set_solver. }
      rewrite Hd in D, E. exists e'. split; [done|]. split; [done|]. split; [done|].
      intros x. rewrite V, occ_cons. destruct (decide (ck_ep c = x)) as [<-|Hn].
      -- rewrite lookup_insert, Er. simpl. lia.
      -- rewrite lookup_insert_ne by done. lia.
Qed.

Lemma eps_exact_pos e m : eps_exact e m -> eps_pos e.
Proof. intros H x r. rewrite H. pose proof (refs_nonneg m x). case_decide; [done|]. intros [= <-]. lia. Qed.

Lemma eps_exact_val e m x : eps_exact e m -> default 0 (e !! x) = refs m x.
Proof. intros H. rewrite H. case_decide; simpl; lia. Qed.

Lemma dec_eps_exact e m n k it : eps_exact e m -> m !! k = Some it ->
  exists e', dec_eps e n (it_chunks it) =
      Some (e', n + Z.of_nat (size (eps_of m ∖ eps_of (delete k m)))) /\
    eps_exact e' (delete k m).
Proof.
  intros H Hk. destruct (dec_eps_spec (it_chunks it) e n) as (e' & E & P & D & V).
  - by eapply eps_exact_pos.
  - intros x. rewrite (eps_exact_val e m x H). by eapply refs_ge.
  - assert (He' : eps_exact e' (delete k m)).
    { intros x. specialize (V x). rewrite (eps_exact_val e m x H), (refs_delete m k it x Hk) in V.
      destruct (e' !! x) as [r|] eqn:Er; simpl in V.
      - pose proof (P _ _ Er). rewrite decide_False by lia. f_equal. lia.
      - rewrite decide_True by lia. done. }
    exists e'. split; [|done]. by rewrite E, (eps_exact_dom e m H), (eps_exact_dom e' _ He').
Qed.

Section WithFP.
Context {fp : FP} {laws : FPLaws fp}.

(** * The invariant *)

(** What holds also in the middle of a call. *)
Record tcore (c : tcfg) (t : table) : Prop := {
  tc_max : t_max_size t = c_max_size c;
  tc_times : t_max_times t = c_max_times c;
  tc_kinds : sel_kind_of (t_sampler t) = c_sampler c;
  tc_kindr : sel_kind_of (t_remover t) = c_remover c;
  tc_spi : spi (t_limiter t) = c_spi c;
  tc_mind : min_diff (t_limiter t) = c_min_diff c;
  tc_maxd : max_diff (t_limiter t) = c_max_diff c;
  tc_mins : min_size (t_limiter t) = c_min_size c;
  tc_wfs : sel_wf (t_sampler t);
  tc_wfr : sel_wf (t_remover t);
  tc_doms : sel_dom (t_sampler t) = dom (t_data t);
  tc_domr : sel_dom (t_remover t) = dom (t_data t);
  tc_key : forall k it, t_data t !! k = Some it -> it_key it = k;
  tc_eps : eps_exact (t_eps t) (t_data t) }.

(** What holds between calls. *)
Record tinv (c : tcfg) (t : table) : Prop := {
  ti_core : tcore c t;
  ti_size : t_size t <= c_max_size c;
  ti_lim : l_inserts (t_limiter t) - l_deletes (t_limiter t) = t_size t }.

Lemma new_table_inv c : cfg_ok c -> tinv c (new_table c).
Proof.
  intros (H1 & H2 & Hs & Hr). destruct (sel_new_spec _ Hs) as (S1 & S2 & S3).
  destruct (sel_new_spec _ Hr) as (R1 & R2 & R3).
  split; [split; cbn; try done| |].
  - rewrite S2. by rewrite dom_empty_L.
  - rewrite R2. by rewrite dom_empty_L.
  - unfold t_size. cbn. rewrite map_size_empty. lia.
  - done.
Qed.

Lemma delete_item_spec c t k it : tcore c t -> t_data t !! k = Some it ->
  exists t', delete_item t k = Some (Ok, t') /\ tcore c t' /\
    t_data t' = delete k (t_data t) /\
    t_limiter t' = lim_delete (t_limiter t) /\
    t_unique t' = t_unique t /\
    t_log t' = t_log t ++ [EvDelete it] /\
    t_del_eps t' = t_del_eps t + Z.of_nat (size (eps_of (t_data t) ∖ eps_of (t_data t'))) /\
    t_sampler t' = (sel_delete (t_sampler t) k).2 /\
    t_remover t' = (sel_delete (t_remover t) k).2.
Proof.
  intros C Hk. unfold delete_item. rewrite Hk.
  destruct (dec_eps_exact (t_eps t) (t_data t) (t_del_eps t) k it (tc_eps _ _ C) Hk) as (e' & -> & He').
  assert (Hd : k ∈ dom (t_data t)) by (apply elem_of_dom; eauto).
  destruct (sel_delete_spec (t_sampler t) k (tc_wfs _ _ C)) as (W & K & D & _ & Sok).
  destruct (sel_delete_spec (t_remover t) k (tc_wfr _ _ C)) as (W' & K' & D' & _ & Sok').
  rewrite (tc_doms _ _ C) in *. rewrite (tc_domr _ _ C) in *.
  specialize (Sok Hd). specialize (Sok' Hd). cbn.
  destruct (sel_delete (t_sampler t) k) as [st s] eqn:E. cbn in *. subst st. cbn.
  destruct (sel_delete (t_remover t) k) as [st s'] eqn:E'. cbn in *. subst st.
  eexists. split; [done|]. cbn. destruct C. split; [split; cbn; try congruence; try done|done].
  - by rewrite dom_delete_L.
  - by rewrite dom_delete_L.
  - intros k' it'. rewrite lookup_delete_Some. naive_solver.
Qed.

Lemma delete_item_missing t k : t_data t !! k = None -> delete_item t k = Some (Ok, t).
Proof. intros H. unfold delete_item. by rewrite H. Qed.

Lemma update_item_spec c t k p it : tcore c t -> prio_ok c p -> t_data t !! k = Some it ->
  exists t', update_item t k p = (Ok, t') /\ tcore c t' /\
    t_data t' = <[k := it_with_prio it p]> (t_data t) /\
    t_limiter t' = t_limiter t /\ t_unique t' = t_unique t /\
    t_eps t' = t_eps t /\ t_del_eps t' = t_del_eps t /\
    t_log t' = t_log t ++ [EvUpdate (it_with_prio it p)] /\
    t_sampler t' = (sel_update (t_sampler t) k p).2 /\
    t_remover t' = (sel_update (t_remover t) k p).2.
Proof.
  intros C [P1 P2] Hk. unfold update_item. rewrite Hk. change (item_set_priority it p) with (it_with_prio it p).
  assert (Hd : k ∈ dom (t_data t)) by (apply elem_of_dom; eauto).
  destruct (sel_update_spec (t_sampler t) k p (tc_wfs _ _ C)) as (W & K & D & _ & _ & Sok).
  destruct (sel_update_spec (t_remover t) k p (tc_wfr _ _ C)) as (W' & K' & D' & _ & _ & Sok').
  rewrite (tc_kinds _ _ C), (tc_doms _ _ C) in *. rewrite (tc_kindr _ _ C), (tc_domr _ _ C) in *.
  specialize (Sok P1 Hd). specialize (Sok' P2 Hd). cbn.
  destruct (sel_update (t_sampler t) k p) as [st s] eqn:E. cbn in *. subst st. cbn.
  destruct (sel_update (t_remover t) k p) as [st s'] eqn:E'. cbn in *. subst st. cbn.
  assert (Hdom : dom (<[k := it_with_prio it p]> (t_data t)) = dom (t_data t)).
  { rewrite dom_insert_L. set_solver. }
  eexists. split; [done|]. cbn. destruct C. split; [split; cbn; try congruence; try done|done].
  - intros k' it'. rewrite lookup_insert_Some. intros [[<- <-]|[_ ?]]; [cbn; eauto|eauto].
  - intros x. by rewrite (refs_update _ k it).
Qed.

Lemma update_item_missing t k p : t_data t !! k = None -> update_item t k p = (Ok, t).
Proof. intros H. unfold update_item. by rewrite H. Qed.

(** The table just after the new item has been added, before any eviction. *)
Definition added (t : table) (now : Z * Z) (it : item) : table :=
  let it' := it_with_at it now in
  mkTable (t_max_size t) (t_max_times t)
    (sel_insert (t_sampler t) (it_key it) (it_prio it)).2
    (sel_insert (t_remover t) (it_key it) (it_prio it)).2
    (t_limiter t) (<[it_key it := it']> (t_data t)) (inc_eps (t_eps t) (it_chunks it))
    (t_del_eps t) (t_unique t) (t_log t ++ [EvInsert it']).

Lemma added_core c t now it : tcore c t -> prio_ok c (it_prio it) ->
  t_data t !! it_key it = None -> tcore c (added t now it).
Proof.
  intros C [P1 P2] Hk.
  assert (Hd : it_key it ∉ dom (t_data t)) by (by apply not_elem_of_dom).
  destruct (sel_insert_spec (t_sampler t) (it_key it) (it_prio it) (tc_wfs _ _ C)) as (W & K & _ & _ & Sok).
  destruct (sel_insert_spec (t_remover t) (it_key it) (it_prio it) (tc_wfr _ _ C)) as (W' & K' & _ & _ & Sok').
  rewrite (tc_kinds _ _ C), (tc_doms _ _ C) in *. rewrite (tc_kindr _ _ C), (tc_domr _ _ C) in *.
  destruct (Sok P1 Hd) as [_ D]. destruct (Sok' P2 Hd) as [_ D'].
  destruct C. split; cbn; try congruence; try done.
  - by rewrite dom_insert_L.
  - by rewrite dom_insert_L.
  - intros k' it'. rewrite lookup_insert_Some. intros [[<- <-]|[_ ?]]; [done|eauto].
  - apply (inc_eps_exact _ _ _ (it_with_at it now)); done.
Qed.

Lemma insert_new_unfold c t now d it : tcore c t -> prio_ok c (it_prio it) ->
  t_data t !! it_key it = None ->
  insert_new t now d it =
    let t1 := added t now it in
    if t_max_size t <? t_size t + 1 then
      match sel_sample (t_remover t1) d with
      | None => None
      | Some (victim, _) =>
        match delete_item t1 victim with
        | None => None
        | Some (st, t) =>
          if negb (bool_decide (st = Ok)) then Some (st, t)
          else Some (Ok, with_limiter t (lim_insert (t_limiter t)))
        end
      end
    else Some (Ok, with_limiter t1 (lim_insert (t_limiter t1))).
Proof.
  intros C [P1 P2] Hk.
  assert (Hd : it_key it ∉ dom (t_data t)) by (by apply not_elem_of_dom).
  destruct (sel_insert_spec (t_sampler t) (it_key it) (it_prio it) (tc_wfs _ _ C)) as (_ & _ & _ & _ & Sok).
  destruct (sel_insert_spec (t_remover t) (it_key it) (it_prio it) (tc_wfr _ _ C)) as (_ & _ & _ & _ & Sok').
  rewrite (tc_kinds _ _ C), (tc_doms _ _ C) in *. rewrite (tc_kindr _ _ C), (tc_domr _ _ C) in *.
  destruct (Sok P1 Hd) as [E _]. destruct (Sok' P2 Hd) as [E' _].
  unfold insert_new, added. change (item_set_inserted_at it now) with (it_with_at it now). cbn [t_sampler with_data t_remover].
  destruct (sel_insert (t_sampler t) (it_key it) (it_prio it)) as [st s] eqn:Es. cbn in E. subst st.
  rewrite bool_decide_true by done. cbn [negb with_sampler with_data t_remover].
  destruct (sel_insert (t_remover t) (it_key it) (it_prio it)) as [st s'] eqn:Es'. cbn in E'. subst st.
  rewrite bool_decide_true by done. cbn.
  assert (Hs : Z.of_nat (size (<[it_key it:=it_with_at it now]> (t_data t))) = t_size t + 1).
  { unfold t_size. rewrite map_size_insert_None by done. lia. }
  unfold with_eps, ext_op, with_remover, with_sampler, with_data, t_size at 1. cbn. rewrite Hs. done.
Qed.

(** Inserting a new item: what happens and that it preserves the invariant. *)
Lemma insert_new_spec c t now d it : tinv c t -> prio_ok c (it_prio it) -> draw_ok d ->
  t_data t !! it_key it = None ->
  let t1 := added t now it in
  exists t', insert_new t now d it = Some (Ok, t') /\ tinv c t' /\
    ((t_size t < c_max_size c /\ t' = with_limiter t1 (lim_insert (t_limiter t))) \/
     (t_size t = c_max_size c /\ exists victim pr old t2,
        sel_sample (t_remover t1) d = Some (victim, pr) /\
        t_data t1 !! victim = Some old /\
        delete_item t1 victim = Some (Ok, t2) /\
        t_data t2 = delete victim (t_data t1) /\
        t' = with_limiter t2 (lim_insert (t_limiter t2)) /\
        t_limiter t2 = lim_delete (t_limiter t))).
Proof.
  intros [C Hsz Hlim] Hp Hd Hk t1. rewrite (insert_new_unfold c) by done. cbv zeta.
  pose proof (added_core c t now it C Hp Hk) as C1. fold t1 in C1. fold t1.
  assert (Hs1 : t_size t1 = t_size t + 1).
  { unfold t_size. cbn. rewrite map_size_insert_None by done. lia. }
  destruct (Z.ltb_spec (t_max_size t) (t_size t + 1)) as [Hfull|Hroom]; rewrite (tc_max _ _ C) in *.
  - destruct (sel_sample_spec (t_remover t1) d) as (victim & pr & Hv & Hin).
    { apply (tc_wfr _ _ C1). } { done. }
    { rewrite (tc_domr _ _ C1). unfold t1. cbn. rewrite dom_insert_L. set_solver. }
    rewrite (tc_domr _ _ C1) in Hin. apply elem_of_dom in Hin as [old Hold].
    destruct (delete_item_spec c t1 victim old C1 Hold)
      as (t2 & E & C2 & D2 & L2 & _). rewrite Hv, E, bool_decide_true by done.
    cbn [negb]. eexists. split; [done|]. split.
    + split; [destruct C2; split; done| |]; unfold t_size, with_limiter; cbn [t_data t_limiter];
        rewrite ?D2, ?L2, map_size_delete, Hold;
        unfold t_size in *; cbn [l_inserts l_deletes lim_insert lim_delete].
      * lia.
      * change (t_limiter t1) with (t_limiter t). lia.
    + right. split; [lia|]. exists victim, pr, old, t2. repeat split; try done.
  - eexists. split; [done|]. split; [|left; split; [lia|done]].
    split; [destruct C1; split; done| |].
    + change (t_size t1 <= c_max_size c). lia.
    + change (l_inserts (t_limiter t) + 1 - l_deletes (t_limiter t) = t_size t1). lia.
Qed.

(** The table just after one sample, before a possible removal. *)
Definition marked (t : table) (k : Z) (it : item) : table :=
  let it' := it_with_times it (it_times it + 1) in
  mkTable (t_max_size t) (t_max_times t) (t_sampler t) (t_remover t) (t_limiter t)
    (<[k := it']> (t_data t)) (t_eps t) (t_del_eps t)
    (if it_times it =? 0 then t_unique t + 1 else t_unique t)
    (t_log t ++ [EvSample it']).

Lemma marked_core c t k it : tcore c t -> t_data t !! k = Some it -> tcore c (marked t k it).
Proof.
  intros C Hk. assert (Hd : k ∈ dom (t_data t)) by (apply elem_of_dom; eauto).
  destruct C. split; cbn; try congruence; try done.
  - rewrite dom_insert_L. set_solver.
  - rewrite dom_insert_L. set_solver.
  - intros k' it'. rewrite lookup_insert_Some. intros [[<- <-]|[_ ?]]; [cbn; eauto|eauto].
  - intros x. by rewrite (refs_update _ k it).
Qed.

Lemma marked_size t k it : t_data t !! k = Some it -> t_size (marked t k it) = t_size t.
Proof. intros Hk. unfold t_size. cbn. rewrite map_size_insert_Some by eauto. done. Qed.

(** One sample. *)
Lemma sample_one_spec c t d limited : tcore c t -> draw_ok d -> t_data t <> ∅ ->
  exists k q it t', sel_sample (t_sampler t) d = Some (k, q) /\ t_data t !! k = Some it /\
    sample_one t d limited =
      Some (Ok, mkSampled (it_with_times it (it_times it + 1)) q (t_size t) (it_prio it)
                 (it_times it + 1) limited, t') /\
    tcore c t' /\
    ((it_times it + 1 <> c_max_times c /\ t' = marked t k it) \/
     (it_times it + 1 = c_max_times c /\ delete_item (marked t k it) k = Some (Ok, t') /\
      t_data t' = delete k (t_data t) /\ t_limiter t' = lim_delete (t_limiter t))).
Proof.
  intros C Hd Hne.
  destruct (sel_sample_spec (t_sampler t) d) as (k & q & Hs & Hin); [apply (tc_wfs _ _ C)|done| |].
  { rewrite (tc_doms _ _ C). intros H. apply Hne. by apply dom_empty_iff_L in H. }
  rewrite (tc_doms _ _ C) in Hin. apply elem_of_dom in Hin as [it Hit].
  pose proof (marked_core c t k it C Hit) as C1.
  assert (Hu : sample_one t d limited =
     let t1 := marked t k it in
     let sm := mkSampled (it_with_times it (it_times it + 1)) q (t_size t) (it_prio it)
                 (it_times it + 1) limited in
     if it_times it + 1 =? t_max_times t then
        match delete_item t1 (it_key it) with
        | None => None
        | Some (st, t) => Some (st, sm, t)
        end
      else Some (Ok, sm, t1)).
  { unfold sample_one. rewrite Hs, Hit. change (item_set_times it (it_times it + 1)) with (it_with_times it (it_times it + 1)). cbn [it_with_times it_times it_prio it_key].
    rewrite <- (marked_size t k it Hit). unfold marked, ext_op, with_data, with_unique.
    destruct (it_times it =? 0); done. }
  rewrite (tc_times _ _ C), (tc_key _ _ C _ _ Hit) in Hu. cbv zeta in Hu.
  destruct (Z.eqb_spec (it_times it + 1) (c_max_times c)) as [Hm|Hm].
  - destruct (delete_item_spec c (marked t k it) k (it_with_times it (it_times it + 1)) C1)
      as (t' & E & C' & D & L & _). { cbn. apply lookup_insert. }
    exists k, q, it, t'. rewrite Hu, E. split; [done|]. split; [done|]. split; [done|]. split; [done|].
    right. split; [done|]. split; [done|]. split; [|done]. rewrite D. cbn.
    by rewrite delete_insert_delete.
  - exists k, q, it, (marked t k it). rewrite Hu. split; [done|]. split; [done|]. split; [done|].
    split; [done|]. left. done.
Qed.

(** Between the commit of a sample in the limiter and the sample itself. *)
Lemma can_sample_nonempty c t n : cfg_ok c -> tinv c t -> can_sample (t_limiter t) n = true ->
  t_data t <> ∅ /\ c_min_size c <= t_size t.
Proof.
  intros (_ & Hm & _) [C Hs Hl]. unfold can_sample. rewrite (tc_mins _ _ C), Hl.
  destruct (Z.ltb_spec (t_size t) (c_min_size c)); [done|]. intros _. split; [|lia].
  intros He. unfold t_size in *. rewrite He, map_size_empty in H. lia.
Qed.

Lemma lim_sample_inv c t : tinv c t -> tinv c (with_limiter t (lim_sample (t_limiter t))).
Proof. intros [[] ? ?]. split; [split; done| |]; done. Qed.

Lemma tinv_size_nonempty t : t_data t <> ∅ -> 0 < t_size t.
Proof.
  intros H. unfold t_size. assert (size (t_data t) <> 0%nat); [|lia].
  intros E. by apply map_size_empty_iff in E.
Qed.

Lemma sample_one_inv c t d limited : tinv c t -> draw_ok d -> t_data t <> ∅ ->
  exists sm t', sample_one t d limited = Some (Ok, sm, t') /\ tinv c t'.
Proof.
  intros [C Hs Hl] Hd Hne.
  destruct (sample_one_spec c t d limited C Hd Hne) as (k & q & it & t' & _ & Hit & E & C' & Ht').
  eexists _, t'. split; [exact E|]. destruct Ht' as [[_ ->]|(_ & _ & D & L)].
  - split; [done| |]; rewrite marked_size by done; done.
  - assert (Hsz : t_size t' = t_size t - 1).
    { unfold t_size. rewrite D, map_size_delete, Hit.
      apply tinv_size_nonempty in Hne. unfold t_size in Hne. lia. }
    split; [done|lia|]. rewrite L. cbn. lia.
Qed.

Lemma sample_loop_inv c more : forall t ds limited, cfg_ok c -> tinv c t ->
  (forall i, draw_ok (ds i)) -> t_data t <> ∅ ->
  exists sms t', sample_loop more ds limited t = Some (Ok, sms, t') /\ tinv c t' /\
    (0 < length sms <= S more)%nat.
Proof.
  induction more as [|more IH]; intros t ds limited Hc I Hd Hne; cbn [sample_loop];
    destruct (sample_one_inv c t (ds 0%nat) limited I (Hd _) Hne) as (sm & t1 & -> & I1);
    rewrite bool_decide_true by done; cbn [negb].
  - exists [sm], t1. simpl. split; [done|]. split; [done|lia].
  - unfold maybe_commit_sample. destruct (can_sample (t_limiter t1) 1) eqn:Ec.
    + destruct (can_sample_nonempty c t1 1 Hc I1 Ec) as [Hne1 _].
      destruct (IH (with_limiter t1 (lim_sample (t_limiter t1))) (fun i => ds (S i)) limited)
        as (sms & t2 & -> & I2 & Hl); [done|by apply lim_sample_inv|intros; apply Hd|done|].
      exists (sm :: sms), t2. simpl. split; [done|]. split; [done|lia].
    + exists [sm], t1. simpl. split; [done|]. split; [done|lia].
Qed.

Lemma delete_items_inv c ks : forall t, tinv c t ->
  exists t', delete_items t ks = Some (Ok, t') /\ tinv c t'.
Proof.
  induction ks as [|k ks IH]; intros t I; cbn [delete_items]; [eauto|].
  destruct (t_data t !! k) as [it|] eqn:Hk.
  - destruct I as [C Hs Hl].
    destruct (delete_item_spec c t k it C Hk) as (t1 & -> & C1 & D & L & _).
    rewrite bool_decide_true by done. apply IH.
    assert (Hsz : t_size t1 = t_size t - 1).
    { unfold t_size. rewrite D, map_size_delete, Hk.
      assert (0 < t_size t) by (apply tinv_size_nonempty; intros E; rewrite E, lookup_empty in Hk; done).
      unfold t_size in *. lia. }
    split; [done|lia|]. rewrite L. cbn. lia.
  - rewrite delete_item_missing, bool_decide_true by done. by apply IH.
Qed.

Lemma update_item_inv c t k p : tinv c t -> prio_ok c p ->
  exists t', update_item t k p = (Ok, t') /\ tinv c t'.
Proof.
  intros [C Hs Hl] Hp. destruct (t_data t !! k) as [it|] eqn:Hk.
  - destruct (update_item_spec c t k p it C Hp Hk) as (t1 & -> & C1 & D & L & _).
    exists t1. split; [done|].
    assert (Hsz : t_size t1 = t_size t) by (unfold t_size; rewrite D, map_size_insert_Some by eauto; done).
    split; [done|lia|]. rewrite L. lia.
  - rewrite update_item_missing by done. eauto using Build_tinv.
Qed.

Lemma update_items_inv c us : forall t, tinv c t -> Forall (fun u => prio_ok c u.2) us ->
  exists t', update_items t us = (Ok, t') /\ tinv c t'.
Proof.
  induction us as [|[k p] us IH]; intros t I H; cbn [update_items]; [eauto|].
  apply Forall_cons in H as [Hp H].
  destruct (update_item_inv c t k p I Hp) as (t1 & -> & I1). rewrite bool_decide_true by done.
  by apply IH.
Qed.

Lemma reset_inv c t : cfg_ok c -> tinv c t -> tinv c (reset_table t).
Proof.
  intros (Hm & _) [C _ _]. destruct (sel_clear_spec _ (tc_wfs _ _ C)) as (W & D & K).
  destruct (sel_clear_spec _ (tc_wfr _ _ C)) as (W' & D' & K'). destruct C.
  split; [split; cbn; try congruence; try done| |].
  - by rewrite D, dom_empty_L.
  - by rewrite D', dom_empty_L.
  - unfold t_size. cbn. rewrite map_size_empty. lia.
  - done.
Qed.

Lemma insert_resume_inv c t now d it : tinv c t -> draw_ok d -> prio_ok c (it_prio it) ->
  exists r t', insert_resume t now d it = Some (r, t') /\ tinv c t'.
Proof.
  intros I Hd Hp. unfold insert_resume.
  destruct (await_can_insert (t_limiter t)); [|eauto|eauto].
  destruct (t_data t !! it_key it) as [old|] eqn:Hk.
  - destruct (update_item_inv c t (it_key it) (it_prio it) I Hp) as (t' & -> & ?). eauto.
  - destruct (insert_new_spec c t now d it I Hp Hd Hk) as (t' & -> & I' & _). eauto.
Qed.

Lemma sample_run_inv c t b ds limited : cfg_ok c -> tinv c t -> (forall i, draw_ok (ds i)) ->
  can_sample (t_limiter t) 1 = true ->
  exists sms t', sample_run (with_limiter t (lim_sample (t_limiter t))) b ds limited
    = Some (RSamples Ok sms, t') /\ tinv c t' /\ (0 < length sms <= S (Z.to_nat (b - 1)))%nat.
Proof.
  intros Hc I Hd Ec. destruct (can_sample_nonempty c t 1 Hc I Ec) as [Hne _]. unfold sample_run.
  destruct (sample_loop_inv c (Z.to_nat (b - 1)) (with_limiter t (lim_sample (t_limiter t))) ds limited)
    as (sms & t' & -> & I' & ?); [done|by apply lim_sample_inv|done|done|]. eauto 6.
Qed.

Lemma sample_resume_inv c t b ds : cfg_ok c -> tinv c t -> (forall i, draw_ok (ds i)) ->
  exists r t', sample_resume t b ds = Some (r, t') /\ tinv c t'.
Proof.
  intros Hc I Hd. unfold sample_resume, await_sample.
  destruct (l_cancelled (t_limiter t)); [eauto|]. destruct (can_sample (t_limiter t) 1) eqn:Ec; [|eauto].
  destruct (sample_run_inv c t b ds true) as (sms & t' & -> & I' & _); eauto.
Qed.

(** One call: no crash, invariant preserved. *)
Lemma step_inv c t o : cfg_ok c -> tinv c t -> op_ok c o ->
  exists r t', step t o = Some (r, t') /\ tinv c t'.
Proof.
  intros Hc I Ho. destruct o as [now d it|now d it|b ds|b ds|us ks| |]; cbn [step op_ok] in *.
  - destruct Ho as [Hd Hp]. unfold insert_or_assign.
    case_bool_decide; cbn [negb]; [|eauto].
    destruct (t_data t !! it_key it) as [old|] eqn:Hk.
    + destruct (update_item_inv c t (it_key it) (it_prio it) I Hp) as (t' & -> & ?). eauto.
    + by apply insert_resume_inv.
  - destruct Ho as [Hd Hp]. by apply insert_resume_inv.
  - unfold sample_batch, maybe_commit_sample.
    destruct (can_sample (t_limiter t) 1) eqn:Ec; [|by apply sample_resume_inv].
    destruct (sample_run_inv c t b ds false) as (sms & t' & -> & I' & _); eauto.
  - by apply sample_resume_inv.
  - unfold mutate_items. destruct (delete_items_inv c ks t I) as (t1 & -> & I1).
    rewrite bool_decide_true by done.
    destruct (update_items_inv c us t1 I1 Ho) as (t2 & -> & I2). eauto.
  - eexists _, _. split; [done|]. by apply reset_inv.
  - eexists _, _. split; [done|]. destruct I as [[] ? ?]. split; [split; done| |]; done.
Qed.

Lemma run_inv c os : forall t, cfg_ok c -> tinv c t -> Forall (op_ok c) os ->
  exists rs t', run t os = Some (rs, t') /\ tinv c t'.
Proof.
  induction os as [|o os IH]; intros t Hc I H; cbn [run]; [eauto|].
  apply Forall_cons in H as [Ho H].
  destruct (step_inv c t o Hc I Ho) as (r & t1 & -> & I1).
  destruct (IH t1 Hc I1 H) as (rs & t2 & -> & I2). eauto.
Qed.

Lemma run_app t os1 os2 : run t (os1 ++ os2) =
  match run t os1 with
  | None => None
  | Some (rs, t) => match run t os2 with None => None | Some (rs', t) => Some (rs ++ rs', t) end
  end.
Proof.
  revert t. induction os1 as [|o os1 IH]; intros t; simpl.
  - by destruct (run t os2) as [[??]|].
  - destruct (step t o) as [[r t1]|]; [|done]. rewrite IH.
    destruct (run t1 os1) as [[rs t2]|]; [|done]. by destruct (run t2 os2) as [[??]|].
Qed.

End WithFP.
