(** C26: what a rejected priority does to a table. *)
From Verif Require Import Base RateLimiter Selector SelPrio Trajectory Table EventLog TableProofs TableLog
  SelSpec PropSelectors TableSpec LogFacts PropTable.

Section WithFP.
Context {fp : FP} {laws : FPLaws fp}.

(** ** The part that holds *)

Definition not_prioritized (k : sel_kind) : Prop := match k with KPrio _ => False | _ => True end.
(** The random draws of a call are in range; nothing is said of priorities. *)
Definition draws_ok (o : op) : Prop :=
  match o with
  | OInsert _ d _ | OInsertWake _ d _ => draw_ok d
  | OSample _ ds | OSampleWake _ ds => forall i, draw_ok (ds i)
  | _ => True
  end.

Lemma not_prioritized_ok c o : not_prioritized (c_sampler c) -> not_prioritized (c_remover c) ->
  draws_ok o -> op_ok c o.
Proof.
  intros Hs Hr Hd.
  assert (H : forall p, prio_ok c p) by (intros p; split; [by destruct (c_sampler c)|by destruct (c_remover c)]).
  destruct o; cbn in *; try done. apply Forall_forall. auto.
Qed.

Lemma invalid_unchanged c os rs t o r t' : reached c os rs t -> op_ok c o ->
  step t o = Some (r, t') -> call_status r = Some InvalidArgument -> t' = t.
Proof.
  intros H Hok E Hst. destruct (C02_no_internal_error _ _ _ _ _ _ _ _ H Hok E Hst)
    as [?|[?|(_ & now & d & it & -> & Hv)]]; [done|done|].
  cbn [step] in E. unfold insert_or_assign in E. rewrite bool_decide_false in E by done. cbn [negb] in E.
  by injection E as _ <-.
Qed.

(** Without a Prioritized selector every history, with whatever priorities, is
    one where InvalidArgument means that nothing happened.  Missing from the full
    statement: Prioritized selectors, where it is false (below). *)
Theorem C26_rejected_unchanged_partial c os rs t o r t' :
  not_prioritized (c_sampler c) -> not_prioritized (c_remover c) ->
  cfg_ok c -> Forall draws_ok os -> run (new_table c) os = Some (rs, t) ->
  draws_ok o -> step t o = Some (r, t') -> call_status r = Some InvalidArgument -> t' = t.
Proof.
  intros Hs Hr Hc Ho Hrun Hd. apply (invalid_unchanged c os rs); [|by apply not_prioritized_ok].
  split; [done| |done]. apply (Forall_impl _ _ _ Ho). intros x. by apply not_prioritized_ok.
Qed.

(** With any selectors, InvalidArgument means that nothing happened if it was not
    the priority that was at fault. *)
Theorem C26_invalid_item_unchanged c os rs t o r t' : reached c os rs t -> op_ok c o ->
  step t o = Some (r, t') -> call_status r = Some InvalidArgument -> t' = t.
Proof. apply invalid_unchanged. Qed.

(** C01 without a Prioritized selector: for every history, whatever the
    priorities. *)
Theorem C01_size_bound_not_prioritized c os rs t :
  not_prioritized (c_sampler c) -> not_prioritized (c_remover c) ->
  cfg_ok c -> Forall draws_ok os -> run (new_table c) os = Some (rs, t) -> i_size (info t) <= c_max_size c.
Proof.
  intros Hs Hr Hc Ho Hrun. apply (C01_size_bound_partial c os rs). split; [done| |done].
  apply (Forall_impl _ _ _ Ho). intros x. by apply not_prioritized_ok.
Qed.

(** ** The part that does not hold *)

(** The exact effect of an insertion that the sampler rejects, in every state:
    the item is in the table although the call failed, and neither the limiter
    nor the extensions nor the episode counters know. *)
Theorem C26_rejected_insert_kept c os rs t now d it : reached c os rs t -> l_cancelled (t_limiter t) = false ->
  can_insert (t_limiter t) 1 = true -> check_item_validity it = Ok -> t_data t !! it_key it = None ->
  accepts (c_sampler c) (it_prio it) = false ->
  exists t', step t (OInsert now d it) = Some (RStatus InvalidArgument, t') /\
    t_data t' = <[it_key it := it_with_at it now]> (t_data t) /\
    i_size (info t') = i_size (info t) + 1 /\ t_limiter t' = t_limiter t /\ t_log t' = t_log t /\
    t_eps t' = t_eps t /\ t_sampler t' = t_sampler t /\ t_remover t' = t_remover t.
Proof.
  intros H Hcl Hi Hv Hn Ha. pose proof (reached_linv _ _ _ _ H) as [[C _ _] _ _].
  pose proof (sel_insert_spec (t_sampler t) (it_key it) (it_prio it) (tc_wfs _ _ C)) as (_ & _ & Hrej & _).
  rewrite (tc_kinds _ _ C) in Hrej. specialize (Hrej Ha).
  cbn [step]. unfold insert_or_assign, insert_resume, await_can_insert, insert_new.
  rewrite bool_decide_true, Hn, Hcl, Hi by done. cbn [negb with_data t_sampler].
  rewrite Hrej. rewrite bool_decide_false by done. cbn [negb]. eexists. split; [done|].
  cbn. split; [done|]. split; [|done]. unfold t_size. cbn. rewrite map_size_insert_None by done. lia.
Qed.

(** If moreover the item refers to an episode no other item refers to, deleting
    it takes the server down. *)
Theorem C26_rejected_insert_then_delete_crashes c os rs t now d it ch cs t' :
  reached c os rs t -> l_cancelled (t_limiter t) = false ->
  can_insert (t_limiter t) 1 = true -> check_item_validity it = Ok -> t_data t !! it_key it = None ->
  accepts (c_sampler c) (it_prio it) = false -> it_chunks it = ch :: cs -> ck_ep ch ∉ eps_of (t_data t) ->
  step t (OInsert now d it) = Some (RStatus InvalidArgument, t') ->
  step t' (OMutate [] [it_key it]) = None.
Proof.
  intros H Hcl Hi Hv Hn Ha Hch Hep E. pose proof (reached_linv _ _ _ _ H) as [[C _ _] _ _].
  destruct (C26_rejected_insert_kept c os rs t now d it H Hcl Hi Hv Hn Ha) as (t2 & E2 & D & _ & _ & _ & Ep & _).
  rewrite E in E2. injection E2 as <-. cbn [step]. unfold mutate_items. cbn [delete_items]. unfold delete_item.
  rewrite D, lookup_insert. cbn [it_with_at it_chunks]. rewrite Hch. cbn [dec_eps]. rewrite Ep.
  assert (Hnone : t_eps t !! ck_ep ch = None).
  { apply not_elem_of_dom. rewrite (eps_exact_dom _ _ (tc_eps _ _ C)). done. }
  by rewrite Hnone.
Qed.

(** The exact effect of an update that the sampler rejects: the stored priority
    is changed, the one used for sampling is not. *)
Theorem C26_rejected_update_kept c os rs t k p old : reached c os rs t ->
  t_data t !! k = Some old -> accepts (c_sampler c) p = false ->
  exists t', step t (OMutate [(k, p)] []) = Some (RStatus InvalidArgument, t') /\
    t_data t' = <[k := it_with_prio old p]> (t_data t) /\
    t_sampler t' = t_sampler t /\ t_remover t' = t_remover t /\ t_log t' = t_log t.
Proof.
  intros H Hk Ha. pose proof (reached_linv _ _ _ _ H) as [[C _ _] _ _].
  pose proof (sel_update_spec (t_sampler t) k p (tc_wfs _ _ C)) as (_ & _ & _ & Hrej & _).
  rewrite (tc_kinds _ _ C) in Hrej. specialize (Hrej Ha).
  cbn [step]. unfold mutate_items. cbn [delete_items]. rewrite bool_decide_true by done. cbn [update_items].
  unfold update_item. rewrite Hk. cbn [with_data t_sampler]. rewrite Hrej.
  rewrite decide_False by done. rewrite bool_decide_false by done. eexists. split; [done|]. by cbn.
Qed.

End WithFP.

(** ** Concrete cases *)

Local Existing Instance fp_exact.
Local Existing Instance fp_exact_laws.
Local Existing Instance fp_exact_exact.

Definition ex_prio_cfg : tcfg := mkCfg 1 0 (KPrio 1) KFifo 1 1 (-20) 20.
Definition ex_before : list op := [OInsert (1, 0) d0 (mk_item 1 5 7 0)].
Definition bad_insert : op := OInsert (2, 0) d0 (mk_item 2 (-1) 8 0).

(** A table with max_size 1 holds two items after a rejected insertion, and the
    deletion of the rejected item kills the server. *)
Theorem C26_rejected_unchanged_refuted :
  let r := final ex_prio_cfg ex_before in
  reached ex_prio_cfg ex_before r.1 r.2 /\
  exists t', step r.2 bad_insert = Some (RStatus InvalidArgument, t') /\
    t' <> r.2 /\ c_max_size ex_prio_cfg < i_size (info t') /\
    run t' [OMutate [] [2]] = None.
Proof.
  split. { split; [by repeat constructor|ops_ok|by vm_compute]. }
  eexists. split; [vm_compute; reflexivity|]. split.
  - intros E. apply (f_equal (fun t => i_size (info t))) in E. vm_compute in E. done.
  - split; by vm_compute.
Qed.

(** C01 is false after a rejected priority. *)
Theorem C01_size_bound_refuted :
  exists rs t, cfg_ok ex_prio_cfg /\ Forall draws_ok (ex_before ++ [bad_insert]) /\
    run (new_table ex_prio_cfg) (ex_before ++ [bad_insert]) = Some (rs, t) /\ c_max_size ex_prio_cfg < i_size (info t).
Proof.
  eexists _, _. split; [by repeat constructor|]. split; [ops_ok|]. split; [vm_compute; reflexivity|]. by vm_compute.
Qed.

(** A rejected update of the item 1: the table reports priority -1 for a sample
    that was drawn with priority 5. *)
Theorem C26_rejected_update_refuted :
  let r := final ex_prio_cfg ex_before in
  exists t', step r.2 (OMutate [(1, Fin (-1))] []) = Some (RStatus InvalidArgument, t') /\
    exists sm t2, step t' (OSample 1 ds0) = Some (RSamples Ok [sm], t2) /\ sm_prio sm = Fin (-1).
Proof.
  eexists. split; [vm_compute; reflexivity|]. eexists _, _. split; by vm_compute.
Qed.

(** The hypotheses of the positive theorem: a Fifo table that is given NaN and
    negative priorities, and an invalid item. *)
Definition ex_nan_hist : list op :=
  [OInsert (1, 0) d0 (mk_item 1 (-5) 7 0); OMutate [(1, NaN)] []].
Definition ex_invalid : op := OInsert (2, 0) d0 (mkItem 2 (Fin 1) 0 (0, 0) [mkChunk 5 5] [[]]).
Example C26_example :
  let c := mkCfg 2 0 KFifo KUniform 1 1 (-20) 20 in
  let r := final c ex_nan_hist in
  cfg_ok c /\ Forall draws_ok ex_nan_hist /\ run (new_table c) ex_nan_hist = Some r /\
  draws_ok ex_invalid /\ exists t', step r.2 ex_invalid = Some (RStatus InvalidArgument, t').
Proof.
  split; [by repeat constructor|]. split; [ops_ok|]. split; [by vm_compute|]. split; [exact d0_ok|].
  eexists. by vm_compute.
Qed.

Print Assumptions C01_size_bound_not_prioritized.
Print Assumptions C01_size_bound_refuted.
Print Assumptions C26_rejected_unchanged_partial.
Print Assumptions C26_invalid_item_unchanged.
Print Assumptions C26_rejected_insert_kept.
Print Assumptions C26_rejected_insert_then_delete_crashes.
Print Assumptions C26_rejected_update_kept.
Print Assumptions C26_rejected_unchanged_refuted.
Print Assumptions C26_rejected_update_refuted.
