(** What restoring a checkpoint does. *)
From Verif Require Import Base RateLimiter Selector Trajectory Table EventLog TableProofs TableLog
  SelSpec PropSelectors TableSpec LogFacts PropTable Checkpoint.

(** ** Chunks *)

Lemma chunk_map_snoc cs c : chunk_map (cs ++ [c]) =
  match chunk_map cs !! ck_key c with Some _ => chunk_map cs | None => <[ck_key c := c]> (chunk_map cs) end.
Proof. unfold chunk_map. by rewrite fold_left_app. Qed.
Lemma chunk_map_in cs k c : chunk_map cs !! k = Some c -> c ∈ cs /\ ck_key c = k.
Proof.
  induction cs as [|x cs IH] using rev_ind; [done|]. rewrite chunk_map_snoc, elem_of_app, elem_of_list_singleton.
  destruct (chunk_map cs !! ck_key x) eqn:E; [intros H; apply IH in H as [? ?]; auto|].
  rewrite lookup_insert_Some. intros [[<- <-]|[_ H]]; [auto|]. apply IH in H as [? ?]. auto.
Qed.
Lemma chunk_map_is cs c : c ∈ cs -> is_Some (chunk_map cs !! ck_key c).
Proof.
  induction cs as [|x cs IH] using rev_ind; [intros H; by apply elem_of_nil in H|].
  rewrite chunk_map_snoc, elem_of_app, elem_of_list_singleton.
  destruct (chunk_map cs !! ck_key x) eqn:E; [intros [H| ->]; [auto|by rewrite E]|].
  rewrite lookup_insert_is_Some. intros [H| ->]; [|auto]. destruct (decide (ck_key x = ck_key c)); auto.
Qed.

Lemma find_chunks_some m ks : (forall k, k ∈ ks -> is_Some (m !! k)) -> is_Some (find_chunks m ks).
Proof.
  induction ks as [|k ks IH]; intros H; cbn; [eauto|].
  destruct (H k) as [c ->]; [left|]. destruct IH as [cs ->]; [intros; apply H; by right|]. eauto.
Qed.
Lemma find_chunks_exact m cs : (forall c, c ∈ cs -> m !! ck_key c = Some c) ->
  find_chunks m (ck_key <$> cs) = Some cs.
Proof.
  induction cs as [|c cs IH]; intros H; cbn; [done|].
  rewrite H by left. rewrite IH; [done|]. intros; apply H; by right.
Qed.

Lemma valid_keys it : check_item_validity it = Ok -> ck_key <$> it_chunks it = get_chunk_keys (it_traj it).
Proof. unfold check_item_validity. repeat case_match; done. Qed.

(** The item built for a saved item. *)
Definition rebuild (m : gmap Z chunk) (p : pitem) : item :=
  of_proto p (default [] (find_chunks m (get_chunk_keys (pi_traj p)))).

Section WithFP.
Context {fp : FP} {laws : FPLaws fp}.

Definition re_add (t : table) (it : item) : table := added t (it_at it) it.

Lemma insert_ckpt_item_ok c t it : tcore c t -> prio_ok c (it_prio it) ->
  t_data t !! it_key it = None -> t_size t < c_max_size c ->
  insert_ckpt_item t it = Some (Ok, re_add t it) /\ tcore c (re_add t it).
Proof.
  intros C [P1 P2] Hk Hsz. split; [|by apply added_core].
  assert (Hd : it_key it ∉ dom (t_data t)) by (by apply not_elem_of_dom).
  destruct (sel_insert_spec (t_sampler t) (it_key it) (it_prio it) (tc_wfs _ _ C)) as (_ & _ & _ & _ & Sok).
  destruct (sel_insert_spec (t_remover t) (it_key it) (it_prio it) (tc_wfr _ _ C)) as (_ & _ & _ & _ & Sok').
  rewrite (tc_kinds _ _ C), (tc_doms _ _ C) in *. rewrite (tc_kindr _ _ C), (tc_domr _ _ C) in *.
  destruct (Sok P1 Hd) as [E _]. destruct (Sok' P2 Hd) as [E' _].
  unfold insert_ckpt_item. rewrite (tc_max _ _ C).
  destruct (Z.ltb_spec (c_max_size c) (t_size t + 1)) as [?|_]; [lia|]. rewrite Hk.
  unfold re_add, added. replace (it_with_at it (it_at it)) with it by (by destruct it).
  destruct (sel_insert (t_sampler t) (it_key it) (it_prio it)) as [st s]. cbn in E. subst st.
  rewrite bool_decide_true by done. cbn [negb with_sampler t_remover].
  destruct (sel_insert (t_remover t) (it_key it) (it_prio it)) as [st s']. cbn in E'. subst st.
  rewrite bool_decide_true by done. done.
Qed.

Lemma restore_items_ok c m l : forall t, tcore c t ->
  NoDup (pi_key <$> l) -> (forall p, p ∈ l -> t_data t !! pi_key p = None) ->
  t_size t + Z.of_nat (length l) <= c_max_size c ->
  Forall (fun p => prio_ok c (pi_prio p)) l ->
  Forall (fun p => is_Some (find_chunks m (get_chunk_keys (pi_traj p)))) l ->
  restore_items m t l = Some (fold_left re_add (rebuild m <$> l) t) /\
  tcore c (fold_left re_add (rebuild m <$> l) t).
Proof.
  induction l as [|p l IH]; intros t C Hnd Hnew Hsz Hp Hc; [done|].
  rewrite fmap_cons, NoDup_cons in Hnd. destruct Hnd as [Hn Hnd].
  apply Forall_cons in Hp as [Hp1 Hp]. apply Forall_cons in Hc as [[cs Hc1] Hc].
  cbn [restore_items fmap list_fmap fold_left]. cbn [length] in Hsz.
  assert (Er : rebuild m p = of_proto p cs) by (unfold rebuild; by rewrite Hc1).
  rewrite Hc1, Er.
  destruct (insert_ckpt_item_ok c t (of_proto p cs) C Hp1) as [-> C1].
  - apply Hnew. left.
  - lia.
  - apply IH; try done.
    + intros q Hq. cbn. rewrite lookup_insert_ne; [apply Hnew; by right|].
      intros E. apply Hn. rewrite E. by apply elem_of_list_fmap_1.
    + unfold t_size, re_add, added in *. cbn [t_data]. rewrite map_size_insert_None by (apply Hnew; left). lia.
Qed.

(** Fields of the table after the items have been put back. *)
Lemma re_adds_fields its : forall t,
  let t' := fold_left re_add its t in
  t_max_size t' = t_max_size t /\ t_max_times t' = t_max_times t /\
  t_limiter t' = t_limiter t /\ t_del_eps t' = t_del_eps t /\ t_unique t' = t_unique t /\
  t_sampler t' = fold_left (fun s it => (sel_insert s (it_key it) (it_prio it)).2) its (t_sampler t) /\
  t_remover t' = fold_left (fun s it => (sel_insert s (it_key it) (it_prio it)).2) its (t_remover t) /\
  t_log t' = t_log t ++ (EvInsert <$> its).
Proof.
  induction its as [|it its IH]; intros t; [cbn; by rewrite app_nil_r|].
  cbn [fold_left]. destruct (IH (re_add t it)) as (-> & -> & -> & -> & -> & -> & -> & ->).
  cbn. replace (it_with_at it (it_at it)) with it by (by destruct it). by rewrite <- app_assoc.
Qed.

Lemma re_adds_data its : forall t, NoDup (it_key <$> its) ->
  (forall it, it ∈ its -> t_data t !! it_key it = None) ->
  forall k x, t_data (fold_left re_add its t) !! k = Some x <->
    t_data t !! k = Some x \/ (x ∈ its /\ it_key x = k).
Proof.
  induction its as [|it its IH]; intros t Hnd Hnew k x; cbn [fold_left].
  - split; [auto|]. intros [H|[H _]]; [done|by apply elem_of_nil in H].
  - rewrite fmap_cons, NoDup_cons in Hnd. destruct Hnd as [Hn Hnd].
    rewrite IH; [|done|].
    + cbn. replace (it_with_at it (it_at it)) with it by (by destruct it).
      rewrite lookup_insert_Some, elem_of_cons. split.
      * intros [[[<- <-]|[_ H]]|[H E]]; auto.
      * intros [H|[[->|H] <-]]; auto. left. right. split; [|done].
        intros E. rewrite <- E, Hnew in H by left. done.
    + intros y Hy. cbn. rewrite lookup_insert_ne; [apply Hnew; by right|].
      intros E. apply Hn. rewrite E. by apply elem_of_list_fmap_1.
Qed.

(** ** A checkpoint of a table *)

Lemma sorted_items_elem m l p : sorted_items m l ->
  p ∈ l <-> exists k it, m !! k = Some it /\ p = to_proto it.
Proof.
  intros [HP _]. rewrite HP, elem_of_list_fmap. split.
  - intros ([k it] & -> & H). apply elem_of_map_to_list in H. eauto.
  - intros (k & it & H & ->). exists (k, it). split; [done|]. by apply elem_of_map_to_list.
Qed.
Lemma sorted_items_keys m l : (forall k it, m !! k = Some it -> it_key it = k) ->
  sorted_items m l -> pi_key <$> l ≡ₚ (map_to_list m).*1.
Proof.
  intros Hk [HP _]. rewrite HP, <- list_fmap_compose.
  rewrite (list_fmap_ext (pi_key ∘ _) fst (map_to_list m)); [done|].
  intros i [k it] Hx. apply elem_of_list_lookup_2, elem_of_map_to_list in Hx. cbn. by apply Hk.
Qed.
Lemma sorted_items_length m l : sorted_items m l -> Z.of_nat (length l) = Z.of_nat (size m).
Proof. intros [HP _]. by rewrite HP, fmap_length. Qed.

(** Priorities of the items of a table are accepted by its selectors. *)
Lemma linv_prio c t : linv c t -> forall k it, t_data t !! k = Some it -> prio_ok c (it_prio it).
Proof.
  intros [_ L _]. rewrite <- (la_data _ _ _ _ L). pose proof (la_ok _ _ _ _ L) as H. clear L. revert H.
  generalize (t_log t). intros log. induction log as [|e log IH] using rev_ind; intros H k it.
  - cbn. by rewrite lookup_empty.
  - apply log_all_last in H as [H He]. specialize (IH H). rewrite replay_snoc.
    destruct e as [x|x|x|x|]; cbn in *.
    + rewrite lookup_insert_Some. intros [[<- <-]|[_ E]]; [apply He|eauto].
    + destruct He as (old & Ho & -> & _). rewrite lookup_insert_Some. intros [[<- <-]|[_ E]]; [|eauto].
      cbn. eauto.
    + destruct He as (old & p & Ho & -> & Hp). rewrite lookup_insert_Some. intros [[<- <-]|[_ E]]; [done|eauto].
    + rewrite lookup_delete_Some. intros [_ E]. eauto.
    + by rewrite lookup_empty.
Qed.

(** The chunks of an item are the ones its trajectory refers to: the validity
    check is made before a call waits, so a call that wakes up has a valid item. *)
Definition wake_valid (o : op) : Prop :=
  match o with OInsertWake _ _ it => check_item_validity it = Ok | _ => True end.

Lemma insert_origin_valid c log closed o r evs it : call_spec c log closed o r evs -> wake_valid o ->
  EvInsert it ∈ evs -> check_item_validity it = Ok.
Proof.
  intros H Hw Hin. pose proof (insert_origin _ _ _ _ _ _ _ H Hin) as Ho.
  destruct o as [now d x|now d x|b ds|b ds|us ks| |]; cbn in Ho; try done; injection Ho as <-.
  - cbn in H. destruct H as [(_ & _ & ->)|[(Hv & _)|(Hv & _)]]; [by apply elem_of_nil in Hin|done|done].
  - done.
Qed.
Lemma insert_hist_valid c os rs log closed it : hist_spec c os rs log closed -> Forall wake_valid os ->
  EvInsert it ∈ log -> check_item_validity it = Ok.
Proof.
  induction 1 as [|os rs log closed o r evs _ IH H]; intros Hw Hin; [by apply elem_of_nil in Hin|].
  apply Forall_app in Hw as [Hw Ho]. apply Forall_cons in Ho as [Ho _].
  apply elem_of_app in Hin as [Hin|Hin]; [by apply IH|by eapply insert_origin_valid].
Qed.
Lemma replay_valid c log : log_all (ev_ok c) log ->
  (forall it, EvInsert it ∈ log -> check_item_validity it = Ok) ->
  forall k it, replay log !! k = Some it -> check_item_validity it = Ok.
Proof.
  induction log as [|e log IH] using rev_ind; intros H Hv k it.
  - cbn. by rewrite lookup_empty.
  - apply log_all_last in H as [H He].
    assert (IH' := IH H (fun it Hi => Hv it (proj2 (elem_of_app _ _ _) (or_introl Hi)))). rewrite replay_snoc.
    destruct e as [x|x|x|x|]; cbn in *.
    + rewrite lookup_insert_Some. intros [[<- <-]|[_ E]]; [|eauto]. apply Hv, elem_of_app. right. left.
    + destruct He as (old & Ho & -> & _). rewrite lookup_insert_Some. intros [[<- <-]|[_ E]]; [|eauto].
      apply IH' in Ho. done.
    + destruct He as (old & p & Ho & -> & Hp). rewrite lookup_insert_Some. intros [[<- <-]|[_ E]]; [|eauto].
      apply IH' in Ho. done.
    + rewrite lookup_delete_Some. intros [_ E]. eauto.
    + by rewrite lookup_empty.
Qed.
Lemma reached_valid c os rs t : reached c os rs t -> Forall wake_valid os ->
  forall k it, t_data t !! k = Some it -> check_item_validity it = Ok.
Proof.
  intros H Hw k it. pose proof (reached_spec _ _ _ _ H) as [S [_ L _]]. rewrite <- (la_data _ _ _ _ L).
  eapply replay_valid; [apply L|]. intros x Hx. by eapply insert_hist_valid.
Qed.

(** The configuration a checkpoint stands for. *)
Lemma kind_okb_ok k : kind_ok k -> kind_okb k = true.
Proof. destruct k; try done. cbn. by rewrite Qle_bool_iff. Qed.

(** Restoring the checkpoint of a table that has valid items, given the chunks
    of the items. *)
Lemma restore_ok c t n k m : cfg_ok c -> tinv c t ->
  (forall i it, t_data t !! i = Some it -> prio_ok c (it_prio it)) -> checkpoint n t k ->
  (forall i it ch, t_data t !! i = Some it -> ch ∈ it_chunks it -> is_Some (m !! ck_key ch)) ->
  (forall i it, t_data t !! i = Some it -> check_item_validity it = Ok) ->
  exists t0, t0 = mkTable (c_max_size c) (c_max_times c) (sel_new (c_sampler c)) (sel_new (c_remover c))
                   (mkLimiter (c_spi c) (c_min_diff c) (c_max_diff c) (c_min_size c)
                      (l_inserts (t_limiter t)) (l_samples (t_limiter t)) (l_deletes (t_limiter t)) false)
                   ∅ ∅ (t_del_eps t) (t_unique t) [] /\
    sorted_items (t_data t) (k_items k) /\
    restore m k = Some (fold_left re_add (rebuild m <$> k_items k) t0) /\
    tcore c (fold_left re_add (rebuild m <$> k_items k) t0).
Proof.
  intros Hc LI LP (l & HS & ->) Hm Hv. pose proof LI as [C Hsz _].
  pose proof Hc as (H1 & H2 & Hs & Hr).
  eexists. split; [done|]. split; [done|]. unfold restore, limiter_of. cbn [k_min_size k_sampler k_remover k_items k_max_size k_max_times k_del_eps k_unique k_inserts k_samples k_deletes k_spi k_min_diff k_max_diff].
  rewrite (tc_kinds _ _ C), (tc_kindr _ _ C), (tc_mins _ _ C), (tc_spi _ _ C), (tc_mind _ _ C), (tc_maxd _ _ C), (tc_max _ _ C), (tc_times _ _ C).
  rewrite (proj2 (Z.ltb_lt _ _) H2), !kind_okb_ok by done. cbn [andb].
  apply restore_items_ok.
  - destruct (new_table_inv c Hc) as [C0 _ _]. destruct C0. split; done.
  - rewrite sorted_items_keys; [|apply C|done]. apply NoDup_fst_map_to_list.
  - intros p _. cbn. by rewrite lookup_empty.
  - unfold t_size at 1. cbn [t_data]. rewrite map_size_empty, (sorted_items_length _ _ HS). unfold t_size in Hsz. lia.
  - apply Forall_forall. intros p Hp. rewrite sorted_items_elem in Hp by done.
    destruct Hp as (i & it & Hi & ->). by eapply LP.
  - apply Forall_forall. intros p Hp. rewrite sorted_items_elem in Hp by done.
    destruct Hp as (i & it & Hi & ->). cbn [to_proto pi_traj]. rewrite <- (valid_keys it) by eauto.
    apply find_chunks_some. intros x Hx. apply elem_of_list_fmap in Hx as (ch & -> & Hx). eauto.
Qed.

(** With the right chunks the items are restored exactly. *)
Lemma rebuild_exact it m : check_item_validity it = Ok ->
  (forall ch, ch ∈ it_chunks it -> m !! ck_key ch = Some ch) -> rebuild m (to_proto it) = it.
Proof.
  intros Hv Hm. unfold rebuild. cbn [pi_traj to_proto]. rewrite <- (valid_keys it Hv), find_chunks_exact by done.
  by destruct it.
Qed.

Lemma eps_exact_unique e e' m : eps_exact e m -> eps_exact e' m -> e = e'.
Proof. intros H H'. apply map_eq. intros x. by rewrite H, H'. Qed.

(** Everything that is restored. *)
Record same_table (t t' : table) : Prop := {
  st_data : t_data t' = t_data t;
  st_eps : t_eps t' = t_eps t;
  st_info : info t' = info t;
  st_cfg : t_max_size t' = t_max_size t /\ t_max_times t' = t_max_times t /\
    spi (t_limiter t') = spi (t_limiter t) /\ min_diff (t_limiter t') = min_diff (t_limiter t) /\
    max_diff (t_limiter t') = max_diff (t_limiter t) /\ min_size (t_limiter t') = min_size (t_limiter t) /\
    sel_kind_of (t_sampler t') = sel_kind_of (t_sampler t) /\
    sel_kind_of (t_remover t') = sel_kind_of (t_remover t) }.

Definition ckpt_ops (l : list pitem) : list sop := (fun p => SIns (pi_key p) (pi_prio p)) <$> l.

Lemma restore_same c t n k m : cfg_ok c -> tinv c t ->
  (forall i it, t_data t !! i = Some it -> prio_ok c (it_prio it)) -> checkpoint n t k ->
  (forall i it ch, t_data t !! i = Some it -> ch ∈ it_chunks it -> m !! ck_key ch = Some ch) ->
  (forall i it, t_data t !! i = Some it -> check_item_validity it = Ok) ->
  exists t', restore m k = Some t' /\ same_table t t' /\ tinv c t' /\
    l_cancelled (t_limiter t') = false /\
    t_sampler t' = sel_hist (c_sampler c) (ckpt_ops (k_items k)) /\
    t_remover t' = sel_hist (c_remover c) (ckpt_ops (k_items k)).
Proof.
  intros Hc LI LP Hk Hm Hv.
  destruct (restore_ok c t n k m Hc LI LP Hk) as (t0 & E0 & HS & E & C'); [|done|].
  { intros i it ch Hi Hch. rewrite (Hm i it ch Hi Hch). eauto. }
  set (its := rebuild m <$> k_items k) in *. set (t' := fold_left re_add its t0) in *.
  pose proof LI as [C Hsz Hl].
  destruct (re_adds_fields its t0) as (F1 & F2 & F3 & F4 & F5 & F6 & F7 & F8). fold t' in F1, F2, F3, F4, F5, F6, F7, F8.
  assert (Hits : forall x, x ∈ its <-> exists i, t_data t !! i = Some x).
  { intros x. unfold its. rewrite elem_of_list_fmap. split.
    - intros (p & -> & Hp). rewrite sorted_items_elem in Hp by done. destruct Hp as (i & it & Hi & ->).
      exists i. rewrite rebuild_exact; eauto.
    - intros [i Hi]. exists (to_proto x). split; [symmetry; apply rebuild_exact; eauto|].
      rewrite sorted_items_elem by done. eauto. }
  assert (Hkeys : it_key <$> its = pi_key <$> k_items k).
  { unfold its. rewrite <- list_fmap_compose. by apply list_fmap_ext. }
  assert (Hdata : t_data t' = t_data t).
  { apply map_eq. intros x. apply option_eq. intros it. unfold t'. rewrite re_adds_data.
    - rewrite E0. cbn [t_data]. rewrite lookup_empty, Hits. split.
      + intros [?|[[i Hi] <-]]; [done|]. by rewrite (tc_key _ _ C _ _ Hi).
      + intros Hx. right. split; [eauto|]. by apply C.
    - rewrite Hkeys, sorted_items_keys; [|apply C|done]. apply NoDup_fst_map_to_list.
    - intros it' _. rewrite E0. cbn. by rewrite lookup_empty. }
  assert (Heps : t_eps t' = t_eps t).
  { apply (eps_exact_unique _ _ (t_data t)); [|apply C]. rewrite <- Hdata. apply C'. }
  exists t'. split; [done|].
  assert (Hsel : forall kind, fold_left (fun s it => (sel_insert s (it_key it) (it_prio it)).2) its (sel_new kind) =
            sel_hist kind (ckpt_ops (k_items k))).
  { intros kind. unfold sel_hist, ckpt_ops, its. generalize (sel_new kind), (k_items k). intros s0 l. revert s0.
    induction l as [|p l IHl]; intros s0; [done|]. cbn. by rewrite IHl. }
  split; [|split; [|split; [|split]]].
  - split; [done|done| |].
    + unfold info, t_size. rewrite Hdata, Heps, F3, F4, F5, E0. done.
    + rewrite F1, F2, F3, E0. cbn. destruct C, C'. repeat split; congruence.
  - split; [done| |].
    + unfold t_size. rewrite Hdata. done.
    + rewrite F3, E0. cbn. unfold t_size. rewrite Hdata. done.
  - rewrite F3, E0. done.
  - rewrite F6, E0. cbn [t_sampler]. apply Hsel.
  - rewrite F7, E0. cbn [t_remover]. apply Hsel.
Qed.

End WithFP.
