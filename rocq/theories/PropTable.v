(** Properties C01 - C03, C05 - C08, C15, C16, C20, C23, C24 of a table, for
    every history of calls. *)
From Verif Require Import Base RateLimiter Selector Trajectory Table EventLog TableProofs TableLog
  SelSpec PropSelectors TableSpec LogFacts.

Section WithFP.
Context {fp : FP} {laws : FPLaws fp}.

(** [t] is reached from a new table by the calls [os] with results [rs].  All
    draws are in range and all priorities are accepted by the selectors. *)
Record reached (c : tcfg) (os : list op) (rs : list result) (t : table) : Prop := {
  re_cfg : cfg_ok c;
  re_ops : Forall (op_ok c) os;
  re_run : run (new_table c) os = Some (rs, t) }.

Lemma reached_spec c os rs t : reached c os rs t ->
  hist_spec c os rs (t_log t) (l_cancelled (t_limiter t)) /\ linv c t.
Proof. intros []. by apply table_meets_spec. Qed.
Lemma reached_linv c os rs t : reached c os rs t -> linv c t.
Proof. intros H. by apply reached_spec in H as [_ ?]. Qed.

(** ** C01 *)

(** Missing from the full statement: histories with priorities that a Prioritized
    selector rejects.  It is false for those (PropReject.v); for tables without a
    Prioritized selector there are none ([C01_size_bound_not_prioritized]). *)
Theorem C01_size_bound_partial c os rs t : reached c os rs t -> i_size (info t) <= c_max_size c.
Proof. intros H. apply reached_linv in H as [[] _ _]. done. Qed.

(** ** C02 *)

(** No history makes a CHECK fail. *)
Theorem C02_no_crash c os : cfg_ok c -> Forall (op_ok c) os ->
  exists rs t, run (new_table c) os = Some (rs, t).
Proof.
  intros Hc Ho. destruct (linv_run c os _ Hc (new_table_linv c Hc) Ho) as (rs & t & H & _). eauto.
Qed.

Theorem C02_accounting c os rs t : reached c os rs t ->
  i_inserts (info t) - i_deletes (info t) = i_size (info t).
Proof. intros H. apply reached_linv in H as [[] _ _]. done. Qed.

(** No call is answered with an error other than the ones of the API: an invalid
    item and a closed table. *)
Definition call_status (r : result) : option status :=
  match r with RStatus st | RSamples st _ => Some st | RBlocked => None end.

Theorem C02_no_internal_error c os rs t o r st t' : reached c os rs t -> op_ok c o ->
  step t o = Some (r, t') -> call_status r = Some st ->
  st = Ok \/ st = Cancelled \/
  (st = InvalidArgument /\ exists now d it, o = OInsert now d it /\ check_item_validity it <> Ok).
Proof.
  intros H Ho E Hst. pose proof (reached_linv _ _ _ _ H) as LI.
  destruct (spec_step c t o (re_cfg _ _ _ _ H) LI Ho) as (r2 & t2 & evs & E2 & _ & _ & Hcall & _).
  rewrite E in E2. injection E2 as <- <-. revert Hcall. generalize (t_log t), (l_cancelled (t_limiter t)).
  clear - Hst. intros log closed Hcall.
  assert (Hiw : forall now d it, insert_wait_spec c log closed now d it r evs -> st = Ok \/ st = Cancelled).
  { intros now d it [(_ & -> & _)|[(_ & _ & -> & _)|(_ & _ & -> & _)]]; simpl in Hst; try done; injection Hst; auto. }
  assert (Hsw : forall b, sample_wait_spec c log closed b r evs -> st = Ok \/ st = Cancelled).
  { intros b [(_ & -> & _)|[(_ & _ & -> & _)|(_ & sms & -> & _)]]; simpl in Hst; try done; injection Hst; auto. }
  destruct o as [now d it|now d it|b ds|b ds|us ks| |]; simpl in Hcall.
  - destruct Hcall as [(Hne & -> & _)|[(_ & _ & ->)|(_ & _ & Hw)]].
    + simpl in Hst. injection Hst as <-. right. right. split; [|eauto].
      clear Hiw Hsw. unfold check_item_validity in *. repeat case_match; done.
    + simpl in Hst. injection Hst as <-. by left.
    + apply Hiw in Hw. tauto.
  - apply Hiw in Hcall. tauto.
  - destruct Hcall as [(sms & -> & _)|[_ Hw]]; [simpl in Hst; injection Hst as <-; by left|].
    apply Hsw in Hw. tauto.
  - apply Hsw in Hcall. tauto.
  - destruct Hcall as [-> _]. injection Hst as <-. by left.
  - destruct Hcall as [-> _]. injection Hst as <-. by left.
  - destruct Hcall as [-> _]. injection Hst as <-. by left.
Qed.

(** ** C03 *)

(** Inside the log: the state of affairs when a sample or an insertion happens. *)
Theorem C03_sample_window c os rs t pre it post : reached c os rs t ->
  t_log t = pre ++ EvSample it :: post ->
  c_min_size c <= Z.of_nat (size (replay pre)) /\
  (c_min_diff c <= inject_Z (n_ins pre) * c_spi c - inject_Z (n_samp (pre ++ [EvSample it])))%Q.
Proof.
  intros H E. apply reached_linv in H as [_ L _]. pose proof (la_ok _ _ _ _ L _ _ _ E) as (old & _ & _ & [H1 H2] & _).
  split; [done|]. rewrite n_samp_snoc. exact H2.
Qed.

Theorem C03_insert_window c os rs t pre it post : reached c os rs t ->
  t_log t = pre ++ EvInsert it :: post ->
  Z.of_nat (size (replay (pre ++ [EvInsert it]))) <= c_min_size c \/
  (inject_Z (n_ins (pre ++ [EvInsert it])) * c_spi c - inject_Z (n_samp pre) <= c_max_diff c)%Q.
Proof.
  intros H E. apply reached_linv in H as [_ L _]. pose proof (la_ok _ _ _ _ L _ _ _ E) as (Hn & [H1|H1] & _).
  - left. rewrite replay_snoc. cbn [replay_ev]. rewrite map_size_insert_None by done. lia.
  - right. rewrite n_ins_snoc. exact H1.
Qed.

(** The counters are those of the calls: samples handed out, and new items
    inserted, since the last reset.  [known] lists what has been inserted with
    success under a key that was not in the table. *)
Fixpoint samples_since_reset (n : Z) (os : list op) (rs : list result) : Z :=
  match os, rs with
  | OReset :: os, _ :: rs => samples_since_reset 0 os rs
  | _ :: os, r :: rs => samples_since_reset (n + Z.of_nat (length (result_samples r))) os rs
  | _, _ => n
  end.

Lemma samples_since_reset_snoc os : forall rs n o r, length os = length rs ->
  samples_since_reset n (os ++ [o]) (rs ++ [r]) =
  match o with
  | OReset => 0
  | _ => samples_since_reset n os rs + Z.of_nat (length (result_samples r))
  end.
Proof.
  induction os as [|o' os IH]; intros rs n o r Hl; destruct rs as [|r' rs]; [by destruct o|done|done|].
  - injection Hl as Hl. simpl. destruct o'; simpl; by rewrite IH.
Qed.

Lemma n_samp_app l1 l2 : Forall (fun e => e <> EvReset) l2 ->
  n_samp (l1 ++ l2) = n_samp l1 + n_samp l2.
Proof.
  induction l2 as [|e l2 IH] using rev_ind; intros H.
  - rewrite app_nil_r. change (n_samp []) with 0. lia.
  - apply Forall_app in H as [H He]. apply Forall_cons in He as [He _]. rewrite app_assoc, !n_samp_snoc, IH by done.
    destruct e; simpl; try lia. done.
Qed.

Lemma one_sample_count c limited log sm evs : one_sample c limited log sm evs ->
  n_samp evs = 1 /\ Forall (fun e => e <> EvReset) evs.
Proof.
  intros (_ & _ & _ & _ & _ & _ & ->). destruct (_ =? _); cbn; split; try done; by repeat constructor.
Qed.
Lemma batch_count c limited log more sms evs : batch_spec c limited log more sms evs ->
  n_samp evs = Z.of_nat (length sms) /\ Forall (fun e => e <> EvReset) evs.
Proof.
  induction 1 as [log more sm evs H1 _|log more sm evs sms evs' H1 _ [IH1 IH2]].
  - by apply one_sample_count in H1.
  - apply one_sample_count in H1 as [A B]. rewrite n_samp_app, A, IH1 by done. split; [cbn [length]; lia|].
    by apply Forall_app.
Qed.

Lemma call_samples c log closed o r evs : call_spec c log closed o r evs -> o <> OReset ->
  n_samp evs = Z.of_nat (length (result_samples r)) /\ Forall (fun e => e <> EvReset) evs.
Proof.
  intros H Ho.
  assert (Hassign : forall k p, assign_spec log k p evs -> n_samp evs = 0 /\ Forall (fun e => e <> EvReset) evs).
  { intros k p (old & _ & ->). split; [done|]. by repeat constructor. }
  assert (Hiw : forall now d it, insert_wait_spec c log closed now d it r evs ->
    n_samp evs = Z.of_nat (length (result_samples r)) /\ Forall (fun e => e <> EvReset) evs).
  { intros now d it [(_ & -> & ->)|[(_ & _ & -> & ->)|(_ & _ & -> & [H'|[_ H']])]]; try done.
    - by apply Hassign in H'.
    - destruct H' as [[_ ->]|(_ & v & q & _ & _ & ->)]; split; try done; by repeat constructor. }
  assert (Hsw : forall b, sample_wait_spec c log closed b r evs ->
    n_samp evs = Z.of_nat (length (result_samples r)) /\ Forall (fun e => e <> EvReset) evs).
  { intros b [(_ & -> & ->)|[(_ & _ & -> & ->)|(_ & sms & -> & Hb)]]; try done. by eapply batch_count. }
  destruct o as [now d it|now d it|b ds|b ds|us ks| |]; simpl in H.
  - destruct H as [(_ & -> & ->)|[(_ & H & ->)|(_ & _ & H)]]; [done|by apply Hassign in H|by eapply Hiw].
  - by eapply Hiw.
  - destruct H as [(sms & -> & Hb)|[_ Hw]]; [by eapply batch_count|by eapply Hsw].
  - by eapply Hsw.
  - destruct H as [-> ->]. cbn [result_samples length]. 
    assert (Hall : forall evs', (forall e, e ∈ evs' -> (exists it, e = EvDelete it) \/ exists it, e = EvUpdate it) ->
      n_samp evs' = 0 /\ Forall (fun e => e <> EvReset) evs').
    { clear. induction evs' as [|e evs' IH] using rev_ind; intros H; [done|].
      destruct IH as [A B]. { intros e' He'. apply H, elem_of_app. by left. }
      assert (He : (exists it, e = EvDelete it) \/ exists it, e = EvUpdate it).
      { apply H, elem_of_app. right. left. }
      rewrite n_samp_snoc, A. destruct He as [[it ->]|[it ->]]; split; try done; apply Forall_app; split; try done; by repeat constructor. }
    apply Hall. intros e He. apply elem_of_app in He as [He|He].
    + left. by apply delete_events_only in He.
    + right. by apply update_events_only in He.
  - done.
  - by destruct H as [-> ->].
Qed.

Lemma hist_length c os rs log closed : hist_spec c os rs log closed -> length os = length rs.
Proof. induction 1; [done|]. rewrite !app_length, IHhist_spec. done. Qed.

Lemma hist_samples c os rs log closed : hist_spec c os rs log closed ->
  n_samp log = samples_since_reset 0 os rs.
Proof.
  induction 1 as [|os rs log closed o r evs Hh IH H]; [done|].
  rewrite samples_since_reset_snoc by (by eapply hist_length).
  assert (Hd : o = OReset \/ o <> OReset) by (destruct o; (by left) || (by right)).
  destruct Hd as [->|Hne].
  - destruct H as [_ ->]. by rewrite n_samp_snoc.
  - destruct (call_samples _ _ _ _ _ _ H Hne) as [A B]. rewrite n_samp_app, IH, A by done. by destruct o.
Qed.

Theorem C03_counts c os rs t : reached c os rs t ->
  i_samples (info t) = samples_since_reset 0 os rs /\
  n_samp (t_log t) = samples_since_reset 0 os rs /\
  i_inserts (info t) = n_ins (t_log t).
Proof.
  intros H. apply reached_spec in H as [H [_ L _]]. rewrite (hist_samples _ _ _ _ _ H).
  pose proof (hist_samples _ _ _ _ _ H). destruct L. cbn in *. split; [lia|]. split; [done|lia].
Qed.

(** ** C05 *)

Theorem C05_max_times c os rs t : reached c os rs t -> Forall fresh_op os -> 0 < c_max_times c ->
  (forall pre it post, t_log t = pre ++ EvSample it :: post ->
     it_times it = times_since_insert (it_key it) pre + 1 /\
     it_times it <= c_max_times c /\
     (it_times it = c_max_times c -> exists post', post = EvDelete it :: post')) /\
  (forall k it, t_data t !! k = Some it -> it_times it = times_since_insert k (t_log t) /\
     0 <= it_times it < c_max_times c).
Proof.
  intros H Hf Hm. apply reached_spec in H as [H [I L R]].
  pose proof (hist_fresh _ _ _ _ _ H Hf) as Hfr. pose proof (la_ok _ _ _ _ L) as Hok.
  pose proof (removed_at_soon _ _ R) as Hs. split.
  - intros pre it post E. pose proof (Hok _ _ _ E) as (old & Ho & Eit & _).
    rewrite E in Hok, Hfr, Hs. apply log_all_pre in Hok. apply Forall_app in Hfr as [Hfr _].
    assert (it_times old = times_since_insert (it_key it) pre) as Et by (by eapply times_exact).
    split; [rewrite Eit at 1; cbn; lia|]. split; [|intros Em; by eapply R].
    pose proof (removed_soon_pre _ _ _ Hs) as Hs'.
    destruct (times_bound c _ pre Hok Hfr Hm Hs' _ _ Ho) as [Hb Hq].
    rewrite Eit. cbn. destruct (decide (it_times old = c_max_times c)) as [Em|]; [|lia].
    destruct (Hq Em) as [pre' ->]. rewrite <- app_assoc in Hs.
    destruct (Hs pre' old (EvSample it :: post)) as [E'|[post' E']]; done.
  - intros k it Hk. rewrite <- (la_data _ _ _ _ L) in Hk. split; [by eapply times_exact|].
    destruct (times_bound c _ _ Hok Hfr Hm Hs _ _ Hk) as [Hb Hq]. split; [lia|].
    destruct (decide (it_times it = c_max_times c)) as [Em|]; [|lia].
    destruct (Hq Em) as [pre E]. destruct (R pre it []) as [? ?]; done.
Qed.

(** The samples handed out are the sample events of the log. *)
Definition ev_sampled (e : event) : list item := match e with EvSample it => [it] | _ => [] end.
Definition all_samples (rs : list result) : list sampled := concat (result_samples <$> rs).

Lemma sample_points_items log : forall pre, (sample_points_from pre log).*2 = concat (ev_sampled <$> log).
Proof. induction log as [|e log IH]; intros pre; [done|]. destruct e; cbn [sample_points_from ev_sampled fmap list_fmap concat snd app]; rewrite ?fmap_cons, IH; done. Qed.

Theorem C05_samples_logged c os rs t : reached c os rs t ->
  sm_item <$> all_samples rs = concat (ev_sampled <$> t_log t) /\
  Forall (fun sm => sm_times sm = it_times (sm_item sm)) (all_samples rs).
Proof.
  intros [Hc Ho Hr]. destruct (linv_history c os rs t Hc Ho Hr) as [_ F].
  rewrite <- (sample_points_items _ []). fold (all_samples rs) in F. unfold sample_points in F.
  revert F. generalize (all_samples rs), (sample_points_from [] (t_log t)). intros sms0 pts0 F.
  clear - F. induction F as [|sm [pre it] sms pts (A1 & _ & _ & A2 & _) F [IH1 IH2]]; [done|].
  split; [cbn; by rewrite A1, IH1|]. constructor; [congruence|done].
Qed.

(** ** C06, C07 *)

Theorem C06_insert_effect c os rs t now d it t' : reached c os rs t -> draw_ok d -> prio_ok c (it_prio it) ->
  t_data t !! it_key it = None -> step t (OInsert now d it) = Some (RStatus Ok, t') ->
  let added := <[it_key it := it_with_at it now]> (t_data t) in
  if i_size (info t) <? c_max_size c then t_data t' = added
  else exists victim q,
    sel_sample (sel_hist (c_remover c) (ev_sop <$> t_log t ++ [EvInsert (it_with_at it now)])) d
      = Some (victim, q) /\
    is_Some (added !! victim) /\ t_data t' = delete victim added.
Proof.
  intros H Hd Hp Hn E added.
  pose proof (reached_linv _ _ _ _ H) as LI.
  destruct (spec_step c t (OInsert now d it) (re_cfg _ _ _ _ H) LI) as (r2 & t2 & evs & E2 & LI' & Hlog & Hcall & _); [done|].
  rewrite E in E2. injection E2 as <- <-. destruct LI as [_ L _]. destruct LI' as [_ L' _].
  pose proof (la_data _ _ _ _ L) as D. pose proof (la_data _ _ _ _ L') as D'.
  assert (Hnew : new_item_spec c (t_log t) d (it_with_at it now) evs).
  { cbn in Hcall. destruct Hcall as [(Hne & Hst & _)|[(_ & (old & Ho & _) & _)|(_ & _ & Hw)]].
    - congruence.
    - rewrite D in Ho. congruence.
    - destruct Hw as [(_ & Hst & _)|[(_ & _ & Hst & _)|(_ & _ & _ & [(old & Ho & _)|[_ Hnew]])]]; try done.
      rewrite D in Ho. congruence. }
  rewrite Hlog in D'. rewrite <- D', <- sel_replay_hist.
  cbn [info i_size]. unfold t_size. rewrite <- D.
  destruct Hnew as [[Hs ->]|(Hs & v & q & Hv & Hin & ->)].
  - rewrite (proj2 (Z.ltb_lt _ _)) by done. rewrite replay_snoc. cbn. unfold added. by rewrite D.
  - rewrite (proj2 (Z.ltb_ge _ _)) by lia. exists (it_key v), q. split; [done|].
    rewrite replay_snoc in Hin. cbn in Hin. rewrite D in Hin. fold added in Hin. split; [eauto|].
    change [EvInsert (it_with_at it now); EvDelete v] with ([EvInsert (it_with_at it now)] ++ [EvDelete v]).
    rewrite app_assoc, !replay_snoc. cbn. unfold added. by rewrite D.
Qed.

Theorem C07_assign_existing c os rs t now d it old : reached c os rs t -> prio_ok c (it_prio it) ->
  check_item_validity it = Ok -> t_data t !! it_key it = Some old ->
  exists t', step t (OInsert now d it) = Some (RStatus Ok, t') /\
    t_data t' = <[it_key it := it_with_prio old (it_prio it)]> (t_data t) /\
    info t' = info t /\ t_limiter t' = t_limiter t /\ t_eps t' = t_eps t.
Proof.
  intros H Hp Hv Hk. apply reached_linv in H as [[C _ _] _ _].
  destruct (update_item_spec c t _ _ _ C Hp Hk) as (t' & E & _ & D & Lm & U & Ep & De & _).
  exists t'. cbn [step]. unfold insert_or_assign. rewrite Hv, bool_decide_true, Hk by done. cbn [negb]. rewrite E.
  split; [done|]. split; [done|]. split; [|done]. unfold info, t_size.
  rewrite D, Lm, U, Ep, De, map_size_insert_Some by eauto. done.
Qed.

(** ** C08 *)

Theorem C08_same_keys c os rs t : reached c os rs t ->
  sel_dom (t_sampler t) = dom (t_data t) /\ sel_dom (t_remover t) = dom (t_data t).
Proof. intros H. apply reached_linv in H as [[C _ _] _ _]. split; [apply C|apply C]. Qed.

(** Every sample handed out, in order, next to what had happened before it was
    taken: it is the current item with its count increased, chosen by the
    sampler. *)
Definition current_sample (c : tcfg) (sm : sampled) (p : list event * item) : Prop :=
  exists old d, draw_ok d /\ replay p.1 !! it_key old = Some old /\
    sm_item sm = it_with_times old (it_times old + 1) /\
    sel_sample (sel_hist (c_sampler c) (ev_sop <$> p.1)) d = Some (it_key old, sm_prob sm).

Lemma Forall2_strengthen {A B} (P Q : A -> B -> Prop) l k : Forall2 P l k ->
  (forall x y, y ∈ k -> P x y -> Q x y) -> Forall2 Q l k.
Proof.
  induction 1 as [|x y l k Hxy _ IH]; intros H; constructor.
  - apply H; [left|done].
  - apply IH. intros x' y' Hin. apply H. by right.
Qed.

Theorem C08_samples_current c os rs t : reached c os rs t ->
  Forall2 (current_sample c) (all_samples rs) (sample_points (t_log t)).
Proof.
  intros [Hc Ho Hr]. destruct (linv_history c os rs t Hc Ho Hr) as [[_ L _] F].
  eapply Forall2_strengthen; [exact F|]. intros sm [pre it] Hin (A1 & A2 & A3 & A4 & d & Hd & Hs).
  apply sample_points_elem in Hin as [post E]. destruct (la_ok _ _ _ _ L _ _ _ E) as (old & Hold & Eit & _).
  pose proof (f_equal it_key Eit) as Ek. cbn in Ek. rewrite Ek in *.
  exists old, d. cbn [fst]. rewrite <- sel_replay_hist. split; [done|]. split; [done|]. split; [congruence|done].
Qed.

(** An item that has left the table is not returned before it is inserted
    again. *)
Theorem C08_not_again c os rs t pre it mid it' post : reached c os rs t ->
  t_log t = pre ++ EvDelete it :: mid ++ EvSample it' :: post -> it_key it' = it_key it ->
  exists it0, EvInsert it0 ∈ mid /\ it_key it0 = it_key it.
Proof.
  intros H E Ek. apply reached_linv in H as [_ L _]. pose proof (la_ok _ _ _ _ L) as Hok.
  assert (E1 : t_log t = ((pre ++ [EvDelete it]) ++ mid) ++ EvSample it' :: post) by (rewrite E, <- !app_assoc; done).
  destruct (Hok _ _ _ E1) as (old & Ho & _). rewrite E1 in Hok. apply log_all_pre in Hok.
  eapply back_needs_insert; [exact Hok| |].
  - rewrite replay_snoc. cbn. apply lookup_delete.
  - rewrite <- Ek. eauto.
Qed.
(** The same after a reset. *)
Theorem C08_not_after_reset c os rs t pre mid it post : reached c os rs t ->
  t_log t = pre ++ EvReset :: mid ++ EvSample it :: post ->
  exists it0, EvInsert it0 ∈ mid /\ it_key it0 = it_key it.
Proof.
  intros H E. apply reached_linv in H as [_ L _]. pose proof (la_ok _ _ _ _ L) as Hok.
  assert (E1 : t_log t = ((pre ++ [EvReset]) ++ mid) ++ EvSample it :: post) by (rewrite E, <- !app_assoc; done).
  destruct (Hok _ _ _ E1) as (old & Ho & _). rewrite E1 in Hok. apply log_all_pre in Hok.
  eapply back_needs_insert; [exact Hok| |eauto].
  rewrite replay_snoc. done.
Qed.

(** ** C09 - C14 for tables *)

(** Samples and evictions in the log, with the reference contents of the
    selectors just before. *)
Lemma log_sample_chosen c os rs t pre it post : reached c os rs t ->
  t_log t = pre ++ EvSample it :: post -> exists d q, draw_ok d /\
    sel_sample (sel_hist (c_sampler c) (ev_sop <$> pre)) d = Some (it_key it, q) /\
    ref_hist (c_sampler c) (ev_sop <$> pre) = log_entries pre.
Proof.
  intros H E. apply reached_linv in H as [_ L _]. pose proof (la_ok _ _ _ _ L) as Hok.
  destruct (Hok _ _ _ E) as (old & _ & _ & _ & d & q & Hd & Hs). exists d, q. rewrite <- sel_replay_hist.
  split; [done|]. split; [done|]. rewrite E in Hok. apply log_all_pre in Hok. apply (ref_hist_log c); auto.
Qed.

(** An eviction is what happens while the table is over-full. *)
Lemma log_evict_chosen c os rs t pre e post : reached c os rs t ->
  t_log t = pre ++ e :: post -> c_max_size c < Z.of_nat (size (replay pre)) ->
  exists it d q, e = EvDelete it /\ draw_ok d /\
    sel_sample (sel_hist (c_remover c) (ev_sop <$> pre)) d = Some (it_key it, q) /\
    ref_hist (c_remover c) (ev_sop <$> pre) = log_entries pre.
Proof.
  intros H E Hs. apply reached_linv in H as [_ L _]. pose proof (la_ok _ _ _ _ L) as Hok.
  destruct (la_evict _ _ _ _ L _ _ _ E Hs) as (it & d & q & -> & Hd & Hq). exists it, d, q.
  rewrite <- sel_replay_hist. split; [done|]. split; [done|]. split; [done|].
  rewrite E in Hok. apply log_all_pre in Hok. apply (ref_hist_log c); auto.
Qed.

(** [log_entries pre] gives for every item present its current priority, the
    position of its insertion and of the last setting of its priority. *)
Theorem C09_table_fifo c os rs t : reached c os rs t ->
  (c_sampler c = KFifo -> forall pre it post, t_log t = pre ++ EvSample it :: post ->
     oldest (log_entries pre) (it_key it)) /\
  (c_remover c = KFifo -> forall pre e post, t_log t = pre ++ e :: post ->
     c_max_size c < Z.of_nat (size (replay pre)) ->
     exists it, e = EvDelete it /\ oldest (log_entries pre) (it_key it)).
Proof.
  intros H. split; intros Hk.
  - intros pre it post E. destruct (log_sample_chosen c os rs t _ _ _ H E) as (d & q & _ & Hs & Er).
    rewrite Hk in *. apply C09_fifo in Hs as [Hs _]. by rewrite Er in Hs.
  - intros pre e post E Hf. destruct (log_evict_chosen c os rs t _ _ _ H E Hf) as (it & d & q & -> & _ & Hs & Er).
    rewrite Hk in *. apply C09_fifo in Hs as [Hs _]. rewrite Er in Hs. eauto.
Qed.

Theorem C10_table_lifo c os rs t : reached c os rs t ->
  (c_sampler c = KLifo -> forall pre it post, t_log t = pre ++ EvSample it :: post ->
     newest (log_entries pre) (it_key it)) /\
  (c_remover c = KLifo -> forall pre e post, t_log t = pre ++ e :: post ->
     c_max_size c < Z.of_nat (size (replay pre)) ->
     exists it, e = EvDelete it /\ newest (log_entries pre) (it_key it)).
Proof.
  intros H. split; intros Hk.
  - intros pre it post E. destruct (log_sample_chosen c os rs t _ _ _ H E) as (d & q & _ & Hs & Er).
    rewrite Hk in *. apply C10_lifo in Hs as [Hs _]. by rewrite Er in Hs.
  - intros pre e post E Hf. destruct (log_evict_chosen c os rs t _ _ _ H E Hf) as (it & d & q & -> & _ & Hs & Er).
    rewrite Hk in *. apply C10_lifo in Hs as [Hs _]. rewrite Er in Hs. eauto.
Qed.

(** Calls without NaN priorities. *)
Definition op_finite (o : op) : Prop :=
  match o with
  | OInsert _ _ it | OInsertWake _ _ it => it_prio it <> NaN
  | OMutate us _ => Forall (fun u => u.2 <> NaN) us
  | _ => True
  end.

Lemma update_events_finite m us e : Forall (fun u => u.2 <> NaN) us -> e ∈ update_events m us -> sop_finite (ev_sop e).
Proof.
  revert m. induction us as [|[k p] us IH]; intros m H He; simpl in He; [by apply elem_of_nil in He|].
  apply Forall_cons in H as [Hp H]. destruct (m !! k) as [it|]; [|by eapply IH].
  apply elem_of_cons in He as [->|He]; [done|by eapply IH].
Qed.

Lemma hist_finite c os rs log closed : hist_spec c os rs log closed -> Forall op_finite os ->
  Forall (fun e => sop_finite (ev_sop e)) log.
Proof.
  induction 1 as [|os rs log closed o r evs _ IH H]; intros Hf; [constructor|].
  apply Forall_app in Hf as [Hf Ho]. apply Forall_cons in Ho as [Ho _]. apply Forall_app. split; [by apply IH|].
  clear IH. apply Forall_forall. intros e He.
  assert (Hassign : forall k p, p <> NaN -> assign_spec log k p evs -> sop_finite (ev_sop e)).
  { intros k p Hp (old & _ & ->). apply elem_of_list_singleton in He as ->. done. }
  assert (Hbatch : forall limited more sms, batch_spec c limited log more sms evs -> sop_finite (ev_sop e)).
  { intros limited more sms Hb. destruct (batch_events _ _ _ _ _ _ Hb _ He) as (sm & _ & [->| ->]); done. }
  assert (Hiw : forall now d it, it_prio it <> NaN -> insert_wait_spec c log closed now d it r evs -> sop_finite (ev_sop e)).
  { intros now d it Hp [(_ & _ & ->)|[(_ & _ & _ & ->)|(_ & _ & _ & [H'|[_ H']])]];
      try (by apply elem_of_nil in He).
    - by eapply Hassign.
    - destruct H' as [[_ ->]|(_ & v & q & _ & _ & ->)].
      + apply elem_of_list_singleton in He as ->. done.
      + apply elem_of_cons in He as [->|He]; [done|]. apply elem_of_list_singleton in He as ->. done. }
  assert (Hsw : forall b, sample_wait_spec c log closed b r evs -> sop_finite (ev_sop e)).
  { intros b [(_ & _ & ->)|[(_ & _ & _ & ->)|(_ & sms & _ & Hb)]]; try (by apply elem_of_nil in He). by eapply Hbatch. }
  destruct o as [now d it|now d it|b ds|b ds|us ks| |]; simpl in H, Ho.
  - destruct H as [(_ & _ & ->)|[(_ & H & _)|(_ & _ & H)]]; [by apply elem_of_nil in He|by eapply Hassign|by eapply Hiw].
  - by eapply Hiw.
  - destruct H as [(sms & _ & Hb)|[_ Hw]]; [by eapply Hbatch|by eapply Hsw].
  - by eapply Hsw.
  - destruct H as [_ ->]. apply elem_of_app in He as [He|He].
    + by apply delete_events_only in He as [? ->].
    + by eapply update_events_finite.
  - destruct H as [_ ->]. by apply elem_of_list_singleton in He as ->.
  - destruct H as [_ ->]. by apply elem_of_nil in He.
Qed.

Theorem C11_table_heap c os rs t min_heap : reached c os rs t -> Forall op_finite os ->
  (c_sampler c = KHeap min_heap -> forall pre it post, t_log t = pre ++ EvSample it :: post ->
     heap_first min_heap (log_entries pre) (it_key it)) /\
  (c_remover c = KHeap min_heap -> forall pre e post, t_log t = pre ++ e :: post ->
     c_max_size c < Z.of_nat (size (replay pre)) ->
     exists it, e = EvDelete it /\ heap_first min_heap (log_entries pre) (it_key it)).
Proof.
  intros H Hf. pose proof (reached_spec _ _ _ _ H) as [Hh _].
  pose proof (hist_finite _ _ _ _ _ Hh Hf) as Hfin.
  assert (Hpre : forall pre post, t_log t = pre ++ post -> Forall sop_finite (ev_sop <$> pre)).
  { intros pre post E. rewrite E in Hfin. apply Forall_app in Hfin as [Hfin _]. by apply Forall_fmap. }
  split; intros Hk.
  - intros pre it post E. destruct (log_sample_chosen c os rs t _ _ _ H E) as (d & q & _ & Hs & Er).
    rewrite Hk in *. apply C11_heap in Hs as [Hs _]; [by rewrite Er in Hs|by eapply Hpre].
  - intros pre e post E Hl. destruct (log_evict_chosen c os rs t _ _ _ H E Hl) as (it & d & q & -> & _ & Hs & Er).
    rewrite Hk in *. apply C11_heap in Hs as [Hs _]; [rewrite Er in Hs; eauto|by eapply Hpre].
Qed.

(** ** C15, C16 *)

Theorem C15_episodes c os rs t : reached c os rs t ->
  i_episodes (info t) = Z.of_nat (size (eps_of (t_data t))) /\
  i_deleted_episodes (info t) = lost_episodes (t_log t).
Proof.
  intros H. apply reached_linv in H as [[C _ _] L _]. split; [|by rewrite (la_lost _ _ _ _ L)].
  cbn. f_equal. rewrite <- (size_dom (D := gset Z)). f_equal. apply eps_exact_dom, C.
Qed.

Theorem C16_unique c os rs t : reached c os rs t -> Forall fresh_op os ->
  i_unique (info t) = (uniq (t_log t)).2.
Proof.
  intros H Hf. apply reached_spec in H as [H [I L R]].
  pose proof (hist_fresh _ _ _ _ _ H Hf) as Hfr.
  destruct (uniq_exact c _ (la_ok _ _ _ _ L) Hfr) as [<- _]. cbn. by rewrite (la_first _ _ _ _ L).
Qed.

(** ** C20 *)

Theorem C20_replay c os rs t : reached c os rs t -> replay (t_log t) = t_data t.
Proof. intros H. apply reached_linv in H as [_ [] _]. done. Qed.

(** Every deletion reports the item as it was and had a matching insertion;
    every update or sample is of an item present. *)
Theorem C20_events_matched c os rs t pre e post : reached c os rs t -> t_log t = pre ++ e :: post ->
  match e with
  | EvInsert it => replay pre !! it_key it = None
  | EvDelete it => replay pre !! it_key it = Some it /\
      exists it0, EvInsert it0 ∈ pre /\ it_key it0 = it_key it
  | EvUpdate it => exists old p, replay pre !! it_key it = Some old /\ it = it_with_prio old p
  | EvSample it => exists old, replay pre !! it_key it = Some old /\ it = it_with_times old (it_times old + 1)
  | EvReset => True
  end.
Proof.
  intros H E. apply reached_linv in H as [_ L _]. pose proof (la_ok _ _ _ _ L) as Hok.
  pose proof (Hok _ _ _ E) as He. rewrite E in Hok. apply log_all_pre in Hok.
  destruct e as [it|it|it|it|]; cbn in He.
  - by destruct He.
  - destruct He as (old & ? & ? & _). eauto.
  - destruct He as (old & p & ? & ? & _). eauto.
  - split; [done|]. apply (back_needs_insert c [] pre (it_key it)); [done|done|]. cbn [app]. eauto.
  - done.
Qed.

(** The events and the answer of every single call. *)
Theorem C20_call c os rs t o : reached c os rs t -> op_ok c o ->
  exists r t' evs, step t o = Some (r, t') /\ t_log t' = t_log t ++ evs /\
    call_spec c (t_log t) (l_cancelled (t_limiter t)) o r evs.
Proof.
  intros H Ho. pose proof (reached_linv _ _ _ _ H) as LI.
  destruct (spec_step c t o (re_cfg _ _ _ _ H) LI Ho) as (r & t' & evs & E & _ & Hl & Hs & _). eauto 8.
Qed.

(** ** C21 *)

Definition last_prio (k : Z) (us : list (Z * dbl)) : option dbl :=
  last ((filter (fun u => u.1 = k) us).*2).
Definition mutated (us : list (Z * dbl)) (ks : list Z) (m : gmap Z item) : gmap Z item :=
  map_imap (fun k it => if decide (k ∈ ks) then None
                        else Some (match last_prio k us with Some p => it_with_prio it p | None => it end)) m.

Definition keyed (m : gmap Z item) : Prop := forall k it, m !! k = Some it -> it_key it = k.
Lemma keyed_delete k m : keyed m -> keyed (delete k m).
Proof. intros H x it. rewrite lookup_delete_Some. intros [_ Hx]. by apply H. Qed.
Lemma keyed_insert k m it p : keyed m -> m !! k = Some it -> keyed (<[k := it_with_prio it p]> m).
Proof.
  intros H Hk x it'. rewrite lookup_insert_Some. intros [[<- <-]|[_ Hx]]; [cbn; by apply H|by apply H].
Qed.

Lemma replay_deletes ks : forall m, keyed m ->
  fold_left replay_ev (delete_events m ks) m = filter (fun kv => kv.1 ∉ ks) m.
Proof.
  induction ks as [|k ks IH]; intros m Hm; simpl.
  - symmetry. apply map_filter_id. intros. apply not_elem_of_nil.
  - destruct (m !! k) as [it|] eqn:Hk; simpl.
    + rewrite (Hm _ _ Hk), IH by (by apply keyed_delete). apply map_eq. intros x. apply option_eq. intros y.
      rewrite !map_filter_lookup_Some, lookup_delete_Some. simpl. rewrite not_elem_of_cons. naive_solver.
    + rewrite IH by done. apply map_eq. intros x. apply option_eq. intros y.
      rewrite !map_filter_lookup_Some. simpl. rewrite not_elem_of_cons. split; [|naive_solver].
      intros [H1 H2]. split; [done|]. split; [|done]. intros ->. congruence.
Qed.

Lemma last_prio_cons k k' p us : last_prio k ((k', p) :: us) =
  match last_prio k us with Some p' => Some p' | None => if decide (k' = k) then Some p else None end.
Proof.
  unfold last_prio. rewrite filter_cons. cbn [fst]. case_decide; cbn [fmap list_fmap].
  - rewrite last_cons. cbn. by destruct (last _).
  - by destruct (last _).
Qed.

Lemma replay_updates us : forall m, keyed m ->
  fold_left replay_ev (update_events m us) m =
  map_imap (fun k it => Some (match last_prio k us with Some p => it_with_prio it p | None => it end)) m.
Proof.
  induction us as [|[k p] us IH]; intros m Hm; simpl.
  - apply map_eq. intros x. rewrite map_lookup_imap. by destruct (m !! x).
  - destruct (m !! k) as [it|] eqn:Hk; simpl.
    + rewrite (Hm _ _ Hk), IH by (by apply keyed_insert). apply map_eq. intros x. rewrite !map_lookup_imap.
      destruct (decide (x = k)) as [->|Hne].
      * rewrite lookup_insert, Hk. cbn. rewrite last_prio_cons, decide_True by done.
        by destruct (last_prio k us).
      * rewrite lookup_insert_ne by done. destruct (m !! x); [|done]. cbn. rewrite last_prio_cons, (decide_False) by done.
        by destruct (last_prio x us).
    + rewrite IH by done. apply map_eq. intros x. rewrite !map_lookup_imap.
      destruct (m !! x) eqn:Hx; [|done]. cbn. rewrite last_prio_cons, decide_False by congruence.
      by destruct (last_prio x us).
Qed.

Lemma replay_keyed c os rs t : reached c os rs t -> keyed (t_data t).
Proof. intros H k it. apply reached_linv in H as [[C _ _] _ _]. apply C. Qed.

Theorem C21_mutate c os rs t us ks : reached c os rs t -> Forall (fun u => prio_ok c u.2) us ->
  exists t', step t (OMutate us ks) = Some (RStatus Ok, t') /\
    t_data t' = mutated us ks (t_data t) /\
    i_inserts (info t') = i_inserts (info t) /\ i_samples (info t') = i_samples (info t) /\
    i_unique (info t') = i_unique (info t).
Proof.
  intros H Hu. pose proof (reached_linv _ _ _ _ H) as LI. pose proof (replay_keyed _ _ _ _ H) as Hky.
  destruct (spec_step c t (OMutate us ks) (re_cfg _ _ _ _ H) LI Hu) as (r & t' & evs & E & LI' & Hl & Hs & _).
  cbn in Hs. destruct Hs as [-> ->]. exists t'. split; [done|].
  destruct LI as [_ L _]. destruct LI' as [_ L' _].
  pose proof (la_data _ _ _ _ L) as D. pose proof (la_data _ _ _ _ L') as D'.
  set (m := t_data t) in *. rewrite D in Hl.
  assert (R1 : replay (t_log t ++ delete_events m ks) = filter (fun kv => kv.1 ∉ ks) m).
  { unfold replay. rewrite fold_left_app. fold (replay (t_log t)). rewrite D. by apply replay_deletes. }
  rewrite R1 in Hl. set (m' := filter (fun kv => kv.1 ∉ ks) m) in *.
  assert (Hm' : keyed m').
  { intros k it Hk. apply map_filter_lookup_Some in Hk as [Hk _]. by apply Hky. }
  split.
  - rewrite <- D', Hl, app_assoc. unfold replay. rewrite fold_left_app. fold (replay (t_log t ++ delete_events m ks)).
    rewrite R1, replay_updates by done. apply map_eq. intros k. unfold mutated. rewrite !map_lookup_imap.
    unfold m'. destruct (m !! k) as [it|] eqn:Hk.
    + destruct (decide (k ∈ ks)) as [Hin|Hin].
      * rewrite (proj2 (map_filter_lookup_None _ _ _)); [done|]. right. intros y _ Hy. by apply Hy.
      * rewrite (proj2 (map_filter_lookup_Some _ _ _ _) (conj Hk Hin)). done.
    + rewrite (proj2 (map_filter_lookup_None _ _ _)); [done|by left].
  - assert (Hk : forall l1 l2, (forall e, e ∈ l2 -> (exists it, e = EvDelete it) \/ exists it, e = EvUpdate it) ->
       n_ins (l1 ++ l2) = n_ins l1 /\ n_samp (l1 ++ l2) = n_samp l1 /\ n_first (l1 ++ l2) = n_first l1).
    { clear. intros l1 l2. induction l2 as [|e l2 IH] using rev_ind; intros He; [by rewrite app_nil_r|].
      destruct IH as (A & B & C). { intros e' He'. apply He, elem_of_app. by left. }
      rewrite app_assoc, n_ins_snoc, n_samp_snoc, n_first_snoc, A, B, C.
      destruct (He e) as [[it ->]|[it ->]]; [apply elem_of_app; right; left|done|done]. }
    destruct (Hk (t_log t) (delete_events m ks ++ update_events m' us)) as (A & B & C).
    { intros e He. apply elem_of_app in He as [He|He].
      + left. by apply delete_events_only in He.
      + right. by apply update_events_only in He. }
    rewrite <- Hl in A, B, C. destruct L, L'. cbn. lia.
Qed.

(** ** C23 *)

Definition single (d : draw) : op := OSample 1 (fun _ => d).
Definition singles (ds : nat -> draw) (n : nat) : list op := single <$> (ds <$> seq 0 n).

Lemma single_step t d sm t' : can_sample (t_limiter t) 1 = true ->
  sample_one (with_limiter t (lim_sample (t_limiter t))) d false = Some (Ok, sm, t') ->
  step t (single d) = Some (RSamples Ok [sm], t').
Proof.
  intros Hs E. unfold single, step, sample_batch, maybe_commit_sample. rewrite Hs. unfold sample_run.
  change (Z.to_nat (1 - 1)) with 0%nat. cbn [sample_loop]. rewrite E. by rewrite bool_decide_true.
Qed.

Lemma sample_loop_singles c more : forall t ds sms t', cfg_ok c -> tinv c t -> (forall i, draw_ok (ds i)) ->
  can_sample (t_limiter t) 1 = true ->
  sample_loop more ds false (with_limiter t (lim_sample (t_limiter t))) = Some (Ok, sms, t') ->
  run t (singles ds (length sms)) = Some ((fun sm => RSamples Ok [sm]) <$> sms, t') /\
  (0 < length sms <= S more)%nat /\
  ((length sms <= more)%nat -> can_sample (t_limiter t') 1 = false).
Proof.
  induction more as [|more IH]; intros t ds sms t' Hc I Hd Hs E; cbn [sample_loop] in E;
    destruct (can_sample_nonempty c t 1 Hc I Hs) as [Hne _];
    destruct (sample_one_inv c _ (ds 0%nat) false (lim_sample_inv c t I) (Hd 0%nat) Hne) as (sm & t1 & E1 & I1);
    rewrite E1 in E; rewrite bool_decide_true in E by done; cbn [negb] in E.
  - injection E as <- <-. cbn [length]. split; [|lia]. unfold singles. cbn [seq fmap list_fmap run].
    by rewrite (single_step _ _ _ _ Hs E1).
  - pose proof (single_step _ _ _ _ Hs E1) as Hfirst.
    unfold maybe_commit_sample in E. destruct (can_sample (t_limiter t1) 1) eqn:Hs1.
    + destruct (sample_loop more (fun i => ds (S i)) false (with_limiter t1 (lim_sample (t_limiter t1))))
        as [[[st sms'] t2]|] eqn:E2; [|done]. injection E as -> <- <-.
      destruct (IH t1 _ _ _ Hc I1 (fun i => Hd (S i)) Hs1 E2) as (A & B & C).
      cbn [length]. split; [|split; [lia|intros; apply C; lia]].
      unfold singles. cbn [seq fmap list_fmap run]. rewrite Hfirst.
      assert (Eq : singles (fun i => ds (S i)) (length sms') = single <$> (ds <$> seq 1 (length sms'))).
      { unfold singles. rewrite <- fmap_S_seq, <- !list_fmap_compose. done. }
      unfold singles in Eq, A. rewrite Eq in A. rewrite A. done.
    + injection E as <- <-. cbn [length]. split; [|split; [lia|done]].
      unfold singles. cbn [seq fmap list_fmap run]. by rewrite Hfirst.
Qed.

(** A batch that is not blocked is a row of single samples with the same results
    and the same table at the end; it is shorter than asked only when the
    limiter does not allow a further sample. *)
Theorem C23_batch c os rs t b ds sms t' : reached c os rs t -> (forall i, draw_ok (ds i)) ->
  can_sample (t_limiter t) 1 = true -> 1 <= b ->
  step t (OSample b ds) = Some (RSamples Ok sms, t') ->
  run t (singles ds (length sms)) = Some ((fun sm => RSamples Ok [sm]) <$> sms, t') /\
  1 <= Z.of_nat (length sms) <= b /\
  (Z.of_nat (length sms) < b ->
     exists r, step t' (OSample 1 ds) = Some (r, t') /\ (r = RBlocked \/ r = RSamples Cancelled [])).
Proof.
  intros H Hd Hs Hb E. pose proof (reached_linv _ _ _ _ H) as [I _ _]. cbn [step] in E.
  unfold sample_batch, maybe_commit_sample in E. rewrite Hs in E. unfold sample_run in E.
  destruct (sample_loop _ _ _ _) as [[[st sms'] t2]|] eqn:E2; [|done]. injection E as -> -> ->.
  destruct (sample_loop_singles c _ _ _ _ _ (re_cfg _ _ _ _ H) I Hd Hs E2) as (A & B & C).
  split; [done|]. split; [lia|]. intros Hl. specialize (C ltac:(lia)).
  cbn [step]. unfold sample_batch, maybe_commit_sample, sample_resume, await_sample. rewrite C.
  destruct (l_cancelled (t_limiter t')); eauto.
Qed.

(** ** C24 *)

Definition truthful (c : tcfg) (sm : sampled) (p : list event * item) : Prop :=
  exists old d, draw_ok d /\ replay p.1 !! it_key (sm_item sm) = Some old /\
    sm_size sm = Z.of_nat (size (replay p.1)) /\
    sm_times sm = it_times old + 1 /\ sm_prio sm = it_prio old /\
    sel_sample (sel_hist (c_sampler c) (ev_sop <$> p.1)) d = Some (it_key (sm_item sm), sm_prob sm).

Theorem C24_metadata c os rs t : reached c os rs t ->
  Forall2 (truthful c) (all_samples rs) (sample_points (t_log t)).
Proof.
  intros [Hc Ho Hr]. destruct (linv_history c os rs t Hc Ho Hr) as [[_ L _] F].
  eapply Forall2_strengthen; [exact F|]. intros sm [pre it] Hin (A1 & A2 & A3 & A4 & d & Hd & Hs).
  apply sample_points_elem in Hin as [post E]. destruct (la_ok _ _ _ _ L _ _ _ E) as (old & Hold & Eit & _).
  exists old, d. cbn [fst]. rewrite <- sel_replay_hist, A1. split; [done|]. split; [done|]. split; [done|].
  split; [rewrite A4, Eit; done|]. split; [rewrite A3, Eit; done|done].
Qed.

End WithFP.

(** ** Concrete histories that meet the hypotheses *)

Local Existing Instance fp_exact.
Local Existing Instance fp_exact_laws.
Local Existing Instance fp_exact_exact.

Definition mk_item (k : Z) (p : Q) (ep times : Z) : item :=
  mkItem k (Fin p) times (0, 0) [mkChunk (100 + k) ep] [[mkSlice (100 + k) 0 1 0]].
Definition d0 : draw := mkDraw 0 0.
Definition ds0 : nat -> draw := fun _ => d0.
Lemma d0_ok : draw_ok d0.
Proof. by apply draw_ok_exact. Qed.
Ltac ops_ok := repeat first [exact d0_ok | exact (fun _ => d0_ok) | done | constructor].

(** Room for 2 items, at most 2 samples each. *)
Definition ex_cfg : tcfg := mkCfg 2 2 KFifo (KHeap true) 3 1 (-20) 20.
Definition ex_hist : list op :=
  [OSample 1 ds0;                                   (* blocked: the table is empty *)
   OInsert (1, 0) d0 (mk_item 1 5 7 0);
   OInsert (2, 0) d0 (mk_item 2 6 7 0);
   OInsert (3, 0) d0 (mk_item 3 1 8 0);             (* the new item itself is evicted *)
   OInsert (4, 0) d0 (mk_item 2 9 8 0);             (* assigns a priority *)
   OSample 3 ds0;                                   (* 1, 1 and removed, 2 *)
   OMutate [(2, Fin 4); (5, Fin 1); (2, Fin 3)] [7];
   OInsert (5, 0) d0 (mk_item 1 2 9 0);             (* the removed key again *)
   OInsert (6, 0) d0 (mk_item 4 8 9 0)].            (* evicts 1, the least priority *)
Definition final (c : tcfg) (os : list op) : list result * table :=
  default ([], new_table c) (run (new_table c) os).
Definition ex_res := final ex_cfg ex_hist.

Example table_example : reached ex_cfg ex_hist ex_res.1 ex_res.2 /\ Forall fresh_op ex_hist /\
  Forall op_finite ex_hist /\
  sm_times <$> all_samples ex_res.1 = [1; 2; 1] /\
  (map_to_list (t_data ex_res.2)).*1 = [2; 4] /\
  info ex_res.2 = mkInfo 2 2 1 2 5 3 3 /\
  length (t_log ex_res.2) = 14%nat.
Proof.
  split. { split; [by repeat constructor|ops_ok|by vm_compute]. }
  split; [by repeat constructor|]. split; [by repeat constructor|].
  split; [by vm_compute|]. split; [by vm_compute|]. split; by vm_compute.
Qed.

(** C03: the limiter keeps this table between -20 and 20; a table where it really
    bites. *)
Definition ex_tight : tcfg := mkCfg 10 0 KUniform KFifo 2 1 1 3.
Definition ex_tight_hist : list op :=
  [OInsert (1, 0) d0 (mk_item 1 5 7 0); OInsert (2, 0) d0 (mk_item 2 5 7 0); OSample 5 ds0;
   OInsertWake (2, 0) d0 (mk_item 2 5 7 0); OSample 5 ds0; OReset; OInsert (3, 0) d0 (mk_item 1 1 1 0)].
Example C03_example :
  let r := final ex_tight ex_tight_hist in
  reached ex_tight ex_tight_hist r.1 r.2 /\
  (length ∘ result_samples <$> r.1) = [0; 0; 1; 0; 2; 0; 0]%nat /\
  samples_since_reset 0 (take 5 ex_tight_hist) (take 5 r.1) = 3 /\
  samples_since_reset 0 ex_tight_hist r.1 = 0.
Proof.
  split. { split; [by repeat constructor|ops_ok|by vm_compute]. }
  split; [by vm_compute|]. split; by vm_compute.
Qed.

(** C05 and C16 need the sample count of inserted items to be 0.  The count
    comes from the client (reverb_service_impl.cc:203-218 copies the item of the
    request) and is not reset: an item that arrives with the count 2 is returned
    as often as one likes although max_times_sampled is 2, and it does not
    count as a unique sample. *)
Definition ex_stale : list op :=
  [OInsert (1, 0) d0 (mk_item 1 5 7 2); OSample 1 ds0; OSample 1 ds0; OSample 1 ds0].
Theorem C05_client_count_refuted :
  let r := final ex_cfg ex_stale in
  reached ex_cfg ex_stale r.1 r.2 /\ length (all_samples r.1) = 3%nat /\ c_max_times ex_cfg = 2 /\
  is_Some (t_data r.2 !! 1) /\ i_unique (info r.2) = 0.
Proof.
  split. { split; [by repeat constructor|ops_ok|by vm_compute]. }
  split; [by vm_compute|]. split; [done|]. split; [by eexists|by vm_compute].
Qed.

Print Assumptions C01_size_bound_partial.
Print Assumptions C02_no_crash.
Print Assumptions C02_accounting.
Print Assumptions C02_no_internal_error.
Print Assumptions C03_sample_window.
Print Assumptions C03_insert_window.
Print Assumptions C03_counts.
Print Assumptions C05_max_times.
Print Assumptions C05_samples_logged.
Print Assumptions C05_client_count_refuted.
Print Assumptions C06_insert_effect.
Print Assumptions C07_assign_existing.
Print Assumptions C08_same_keys.
Print Assumptions C08_samples_current.
Print Assumptions C08_not_again.
Print Assumptions C08_not_after_reset.
Print Assumptions C09_table_fifo.
Print Assumptions C10_table_lifo.
Print Assumptions C11_table_heap.
Print Assumptions C15_episodes.
Print Assumptions C16_unique.
Print Assumptions C20_replay.
Print Assumptions C20_events_matched.
Print Assumptions C20_call.
Print Assumptions C21_mutate.
Print Assumptions C23_batch.
Print Assumptions C24_metadata.
