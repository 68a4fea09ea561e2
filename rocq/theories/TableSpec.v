(** A specification of a table in terms of what a listener has been told, and the
    proof that the model of table.cc meets it for every history of calls.

    The specification has no table: the state is the list of extension calls made
    so far ([log]) and whether Close was called. *)
From Verif Require Import Base RateLimiter Selector Trajectory Table EventLog TableProofs TableLog.

Section WithFP.
Context {fp : FP}.

(** ** Specification *)

(** One sample: allowed by the limiter, of an item that is present, reported
    truthfully; the item is removed when it has been sampled often enough. *)
Definition one_sample (c : tcfg) (limited : bool) (log : list event) (sm : sampled)
  (evs : list event) : Prop :=
  sample_allowed c log /\
  (exists old d,
     draw_ok d /\ sel_sample (sel_replay (c_sampler c) log) d = Some (it_key old, sm_prob sm) /\
     replay log !! it_key old = Some old /\
     sm_item sm = it_with_times old (it_times old + 1)) /\
  sm_size sm = Z.of_nat (size (replay log)) /\
  sm_prio sm = it_prio (sm_item sm) /\
  sm_times sm = it_times (sm_item sm) /\
  sm_limited sm = limited /\
  evs = EvSample (sm_item sm) ::
        (if it_times (sm_item sm) =? c_max_times c then [EvDelete (sm_item sm)] else []).

(** A batch: at least one sample, then as many as wanted ([more]) and allowed. *)
Inductive batch_spec (c : tcfg) (limited : bool)
  : list event -> nat -> list sampled -> list event -> Prop :=
| bs_last log more sm evs :
    one_sample c limited log sm evs ->
    more = 0%nat \/ ~ sample_allowed c (log ++ evs) ->
    batch_spec c limited log more [sm] evs
| bs_more log more sm evs sms evs' :
    one_sample c limited log sm evs ->
    batch_spec c limited (log ++ evs) more sms evs' ->
    batch_spec c limited log (S more) (sm :: sms) (evs ++ evs').

(** Adding an item whose key is absent. *)
Definition new_item_spec (c : tcfg) (log : list event) (d : draw) (it : item) (evs : list event) : Prop :=
  (Z.of_nat (size (replay log)) < c_max_size c /\ evs = [EvInsert it]) \/
  (Z.of_nat (size (replay log)) = c_max_size c /\ exists v q,
     sel_sample (sel_replay (c_remover c) (log ++ [EvInsert it])) d = Some (it_key v, q) /\
     replay (log ++ [EvInsert it]) !! it_key v = Some v /\
     evs = [EvInsert it; EvDelete v]).

Definition assign_spec (log : list event) (k : Z) (p : dbl) (evs : list event) : Prop :=
  exists old, replay log !! k = Some old /\ evs = [EvUpdate (it_with_prio old p)].

(** An insertion from the point where it asks the limiter. *)
Definition insert_wait_spec (c : tcfg) (log : list event) (closed : bool) (now : Z * Z) (d : draw)
  (it : item) (r : result) (evs : list event) : Prop :=
  (closed = true /\ r = RStatus Cancelled /\ evs = []) \/
  (closed = false /\ ~ insert_allowed c log /\ r = RBlocked /\ evs = []) \/
  (closed = false /\ insert_allowed c log /\ r = RStatus Ok /\
     (assign_spec log (it_key it) (it_prio it) evs \/
      replay log !! it_key it = None /\ new_item_spec c log d (it_with_at it now) evs)).

Definition sample_wait_spec (c : tcfg) (log : list event) (closed : bool) (batch : Z)
  (r : result) (evs : list event) : Prop :=
  (closed = true /\ r = RSamples Cancelled [] /\ evs = []) \/
  (closed = false /\ ~ sample_allowed c log /\ r = RBlocked /\ evs = []) \/
  (closed = false /\ exists sms, r = RSamples Ok sms /\
     batch_spec c true log (Z.to_nat (batch - 1)) sms evs).

(** Deletions and updates as seen by a listener that knows the items [m]. *)
Fixpoint delete_events (m : gmap Z item) (ks : list Z) : list event :=
  match ks with
  | [] => []
  | k :: ks => match m !! k with
               | None => delete_events m ks
               | Some it => EvDelete it :: delete_events (delete k m) ks
               end
  end.
Fixpoint update_events (m : gmap Z item) (us : list (Z * dbl)) : list event :=
  match us with
  | [] => []
  | (k, p) :: us => match m !! k with
                    | None => update_events m us
                    | Some it => EvUpdate (it_with_prio it p) :: update_events (<[k := it_with_prio it p]> m) us
                    end
  end.

(** A call [o] made after [log]: its result and the extension calls it causes. *)
Definition call_spec (c : tcfg) (log : list event) (closed : bool) (o : op) (r : result)
  (evs : list event) : Prop :=
  match o with
  | OInsert now d it =>
    (check_item_validity it <> Ok /\ r = RStatus (check_item_validity it) /\ evs = []) \/
    (check_item_validity it = Ok /\ assign_spec log (it_key it) (it_prio it) evs /\ r = RStatus Ok) \/
    (check_item_validity it = Ok /\ replay log !! it_key it = None /\
       insert_wait_spec c log closed now d it r evs)
  | OInsertWake now d it => insert_wait_spec c log closed now d it r evs
  | OSample b ds =>
    (exists sms, r = RSamples Ok sms /\ batch_spec c false log (Z.to_nat (b - 1)) sms evs) \/
    (~ sample_allowed c log /\ sample_wait_spec c log closed b r evs)
  | OSampleWake b ds => sample_wait_spec c log closed b r evs
  | OMutate us ks =>
    r = RStatus Ok /\
    evs = delete_events (replay log) ks ++
          update_events (replay (log ++ delete_events (replay log) ks)) us
  | OReset => r = RStatus Ok /\ evs = [EvReset]
  | OClose => r = RStatus Ok /\ evs = []
  end.

Definition is_close (o : op) : bool := match o with OClose => true | _ => false end.

(** Histories allowed by the specification. *)
Inductive hist_spec (c : tcfg) : list op -> list result -> list event -> bool -> Prop :=
| hs_nil : hist_spec c [] [] [] false
| hs_snoc os rs log closed o r evs :
    hist_spec c os rs log closed -> call_spec c log closed o r evs ->
    hist_spec c (os ++ [o]) (rs ++ [r]) (log ++ evs) (closed || is_close o).

(** ** The model meets the specification *)

Context {laws : FPLaws fp}.

Lemma can_sample_iff c t : linv c t -> can_sample (t_limiter t) 1 = true <-> sample_allowed c (t_log t).
Proof.
  intros [I L _]. split; [by apply can_sample_allowed|]. intros [H1 H2].
  unfold can_sample. destruct I as [C Hs Hl]. destruct L.
  rewrite (tc_mins _ _ C), Hl. rewrite la_data in H1.
  destruct (Z.ltb_spec (t_size t) (c_min_size c)) as [H|_]; [unfold t_size in H; lia|].
  rewrite (tc_mind _ _ C), (tc_spi _ _ C), Qle_bool_iff.
  rewrite la_ins, Z.add_0_r in H2. rewrite Z.add_0_r in la_samp. rewrite la_samp, inject_Z_plus in H2. lra.
Qed.

Lemma can_insert_iff c t : linv c t -> can_insert (t_limiter t) 1 = true <-> insert_allowed c (t_log t).
Proof.
  intros [I L _]. split; [by apply can_insert_allowed|]. intros H.
  unfold can_insert. destruct I as [C Hs Hl]. destruct L. rewrite (tc_mins _ _ C).
  destruct (Z.leb_spec (l_inserts (t_limiter t) + 1 - l_deletes (t_limiter t)) (c_min_size c)) as [Hm|Hm]; [done|].
  rewrite (tc_maxd _ _ C), (tc_spi _ _ C), Qle_bool_iff. destruct H as [H|H].
  - rewrite la_data in H. unfold t_size in Hl. lia.
  - rewrite la_ins, Z.add_0_r in H. rewrite Z.add_0_r in la_samp. rewrite la_samp in H.
    rewrite Z.add_comm. done.
Qed.

Lemma can_sample_no c t : linv c t -> can_sample (t_limiter t) 1 = false -> ~ sample_allowed c (t_log t).
Proof. intros I H Ha. apply (can_sample_iff c t I) in Ha. congruence. Qed.
Lemma can_insert_no c t : linv c t -> can_insert (t_limiter t) 1 = false -> ~ insert_allowed c (t_log t).
Proof. intros I H Ha. apply (can_insert_iff c t I) in Ha. congruence. Qed.

Lemma delete_item_cancel c t k it t' : tcore c t -> t_data t !! k = Some it ->
  delete_item t k = Some (Ok, t') -> l_cancelled (t_limiter t') = l_cancelled (t_limiter t).
Proof.
  intros C Hk E. destruct (delete_item_spec c t k it C Hk) as (t1 & E1 & _ & _ & L & _).
  assert (t1 = t') as -> by congruence. by rewrite L.
Qed.

Lemma spec_sample_one c t d limited : linv c t -> can_sample (t_limiter t) 1 = true ->
  cfg_ok c -> draw_ok d ->
  let t0 := with_limiter t (lim_sample (t_limiter t)) in
  exists sm t' evs, sample_one t0 d limited = Some (Ok, sm, t') /\ linv c t' /\
    t_log t' = t_log t ++ evs /\ one_sample c limited (t_log t) sm evs /\
    l_cancelled (t_limiter t') = l_cancelled (t_limiter t).
Proof.
  intros LI Hc Hcfg Hd t0.
  destruct (linv_sample_one c t d limited LI Hc Hcfg Hd) as (sm & t' & E & LI' & _ & _).
  fold t0 in E. exists sm, t'.
  destruct LI as [I L R]. pose proof (can_sample_allowed c t I L Hc) as Ha.
  destruct (can_sample_nonempty c t 1 Hcfg I Hc) as [Hne _].
  pose proof (lim_sample_inv c t I) as I0. fold t0 in I0.
  destruct (sample_one_spec c t0 d limited (ti_core _ _ I0) Hd Hne)
    as (k & q & it & t'' & Hs & Hit & E' & C' & Ht').
  rewrite E in E'. injection E' as -> <-.
  pose proof (tc_key _ _ (ti_core _ _ I0) _ _ Hit) as Hkey.
  set (it' := it_with_times it (it_times it + 1)) in *.
  assert (Hone : one_sample c limited (t_log t) (mkSampled it' q (t_size t0) (it_prio it) (it_times it + 1) limited)
    (EvSample it' :: (if it_times it' =? c_max_times c then [EvDelete it'] else []))).
  { split; [done|]. split.
    - exists it, d. rewrite (la_sampler _ _ _ _ L), (la_data _ _ _ _ L), Hkey. done.
    - cbn. rewrite (la_data _ _ _ _ L). done. }
  eexists. split; [exact E|]. split; [done|]. split; [|split; [exact Hone|]].
  - cbn [it_times it'] in *. destruct Ht' as [[Hm ->]|(Hm & Hdel & D & Ll)].
    + rewrite (proj2 (Z.eqb_neq _ _)) by done. done.
    + rewrite (proj2 (Z.eqb_eq _ _)) by done.
      pose proof (marked_core c t0 k it (ti_core _ _ I0) Hit) as Cm.
      destruct (delete_item_spec c (marked t0 k it) k it' Cm) as (t2 & E2 & _ & _ & _ & _ & Lg & _).
      { cbn. apply lookup_insert. }
      assert (t2 = t') as -> by congruence. rewrite Lg. cbn. by rewrite <- app_assoc.
  - destruct Ht' as [[Hm ->]|(Hm & Hdel & D & Ll)]; [done|]. by rewrite Ll.
Qed.

Lemma spec_sample_loop c more : forall t ds limited, cfg_ok c -> linv c t ->
  (forall i, draw_ok (ds i)) -> can_sample (t_limiter t) 1 = true ->
  exists sms t' evs, sample_loop more ds limited (with_limiter t (lim_sample (t_limiter t))) = Some (Ok, sms, t') /\
    linv c t' /\ t_log t' = t_log t ++ evs /\ batch_spec c limited (t_log t) more sms evs /\
    l_cancelled (t_limiter t') = l_cancelled (t_limiter t).
Proof.
  induction more as [|more IH]; intros t ds limited Hc I Hd Hcan; cbn [sample_loop];
    destruct (spec_sample_one c t (ds 0%nat) limited I Hcan Hc (Hd _)) as (sm & t1 & evs & -> & I1 & Lg & S1 & Hcl);
    rewrite bool_decide_true by done; cbn [negb].
  - exists [sm], t1, evs. split; [done|]. split; [done|]. split; [done|]. split; [|done].
    apply bs_last; [done|by left].
  - unfold maybe_commit_sample. destruct (can_sample (t_limiter t1) 1) eqn:Ec.
    + destruct (IH t1 (fun i => ds (S i)) limited Hc I1 (fun i => Hd (S i)) Ec) as (sms & t2 & evs' & -> & I2 & Lg2 & S2 & Hcl2).
      exists (sm :: sms), t2, (evs ++ evs'). split; [done|]. split; [done|].
      split; [by rewrite Lg2, Lg, app_assoc|]. split; [|congruence].
      apply bs_more; [done|]. by rewrite <- Lg.
    + exists [sm], t1, evs. split; [done|]. split; [done|]. split; [done|]. split; [|done].
      apply bs_last; [done|]. right. rewrite <- Lg. by apply can_sample_no.
Qed.

Lemma spec_delete_items c ks : forall t, linv c t ->
  exists t', delete_items t ks = Some (Ok, t') /\ linv c t' /\
    t_log t' = t_log t ++ delete_events (replay (t_log t)) ks /\
    l_cancelled (t_limiter t') = l_cancelled (t_limiter t).
Proof.
  induction ks as [|k ks IH]; intros t I; cbn [delete_items delete_events].
  { exists t. by rewrite app_nil_r. }
  rewrite (la_data _ _ _ _ (li_lag _ _ I)).
  destruct (t_data t !! k) as [it|] eqn:Hk.
  - destruct (delete_item_spec c t k it (ti_core _ _ (li_inv _ _ I)) Hk) as (t1 & E & _ & D & L & _).
    destruct (linv_delete c t k it t1 I Hk E) as (I1 & Lg & X). rewrite E, bool_decide_true by done.
    destruct (IH t1 I1) as (t2 & -> & I2 & Lg2 & Hcl). eexists. split; [done|]. split; [done|].
    rewrite (la_data _ _ _ _ (li_lag _ _ I1)), D in Lg2.
    split; [rewrite Lg2, Lg, <- app_assoc; done|]. by rewrite Hcl, L.
  - rewrite delete_item_missing, bool_decide_true by done.
    destruct (IH t I) as (t2 & -> & I2 & Lg2 & Hcl). eexists. split; [done|]. split; [done|].
    rewrite (la_data _ _ _ _ (li_lag _ _ I)) in Lg2. done.
Qed.

Lemma spec_update_item c t k p : linv c t -> prio_ok c p ->
  exists t', update_item t k p = (Ok, t') /\ linv c t' /\
    t_log t' = t_log t ++ match t_data t !! k with Some it => [EvUpdate (it_with_prio it p)] | None => [] end /\
    l_cancelled (t_limiter t') = l_cancelled (t_limiter t) /\
    t_data t' = match t_data t !! k with Some it => <[k := it_with_prio it p]> (t_data t) | None => t_data t end.
Proof.
  intros I Hp. destruct (t_data t !! k) as [it|] eqn:Hk.
  - destruct (update_item_spec c t k p it (ti_core _ _ (li_inv _ _ I)) Hp Hk) as (t1 & E & _ & D & L & _ & _ & _ & Lg & _).
    destruct (linv_update c t k it p t1 I Hp Hk E) as (I1 & _ & X). exists t1. rewrite L. done.
  - rewrite update_item_missing by done. exists t. by rewrite app_nil_r.
Qed.

Lemma spec_update_items c us : forall t, linv c t -> Forall (fun u => prio_ok c u.2) us ->
  exists t', update_items t us = (Ok, t') /\ linv c t' /\
    t_log t' = t_log t ++ update_events (replay (t_log t)) us /\
    l_cancelled (t_limiter t') = l_cancelled (t_limiter t).
Proof.
  induction us as [|[k p] us IH]; intros t I H; cbn [update_items update_events].
  { exists t. by rewrite app_nil_r. }
  apply Forall_cons in H as [Hp H].
  destruct (spec_update_item c t k p I Hp) as (t1 & -> & I1 & Lg & Hcl & D). rewrite bool_decide_true by done.
  destruct (IH t1 I1 H) as (t2 & -> & I2 & Lg2 & Hcl2). eexists. split; [done|]. split; [done|].
  rewrite (la_data _ _ _ _ (li_lag _ _ I)) in *. rewrite (la_data _ _ _ _ (li_lag _ _ I1)), D in Lg2.
  split; [|congruence]. rewrite Lg2, Lg. destruct (t_data t !! k); rewrite <- app_assoc; done.
Qed.

Lemma spec_insert_resume c t now d it : linv c t -> draw_ok d -> prio_ok c (it_prio it) ->
  exists r t' evs, insert_resume t now d it = Some (r, t') /\ linv c t' /\
    t_log t' = t_log t ++ evs /\
    insert_wait_spec c (t_log t) (l_cancelled (t_limiter t)) now d it r evs /\
    l_cancelled (t_limiter t') = l_cancelled (t_limiter t).
Proof.
  intros I Hd Hp. unfold insert_resume, await_can_insert, insert_wait_spec.
  destruct (l_cancelled (t_limiter t)) eqn:Hcl.
  { eexists _, t, []. rewrite app_nil_r. split; [done|]. split; [done|]. split; [done|].
    split; [|done]. by left. }
  destruct (can_insert (t_limiter t) 1) eqn:Ec.
  2:{ eexists _, t, []. rewrite app_nil_r. pose proof (can_insert_no c t I Ec).
      split; [done|]. split; [done|]. split; [done|]. split; [|done]. by right; left. }
  pose proof (proj1 (can_insert_iff c t I) Ec) as Ha.
  destruct (t_data t !! it_key it) as [old|] eqn:Hk.
  - destruct (spec_update_item c t (it_key it) (it_prio it) I Hp) as (t' & -> & I' & Lg & Hcl' & _).
    rewrite Hk in Lg. eexists _, t', _. split; [done|]. split; [done|]. split; [exact Lg|].
    split; [|congruence]. right; right. split; [done|]. split; [done|]. split; [done|]. left.
    exists old. by rewrite (la_data _ _ _ _ (li_lag _ _ I)).
  - destruct (linv_insert_new c t now d it I Hp Hd Hk Ec) as (t' & E & I' & _ & _).
    rewrite E. pose proof (la_data _ _ _ _ (li_lag _ _ I)) as Hlog.
    pose proof (la_remover _ _ _ _ (li_lag _ _ I)) as Hrem.
    destruct (insert_new_spec c t now d it (li_inv _ _ I) Hp Hd Hk) as (t'' & E' & _ & H).
    assert (t'' = t') as -> by congruence.
    pose proof (added_core c t now it (ti_core _ _ (li_inv _ _ I)) Hp Hk) as C1.
    assert (Hcore : exists evs, t_log t' = t_log t ++ evs /\ new_item_spec c (t_log t) d (it_with_at it now) evs /\
              l_cancelled (t_limiter t') = false).
    { destruct H as [[Hroom ->]|(Hfull & victim & pr & old & t2 & Hv & Hold & Hdel & D2 & -> & Lm)].
      - exists [EvInsert (it_with_at it now)]. split; [done|]. split; [|done]. left. by rewrite Hlog.
      - pose proof (tc_key _ _ C1 _ _ Hold) as Hkey.
        destruct (delete_item_spec c (added t now it) victim old C1 Hold) as (t3 & E3 & _ & _ & L3 & _ & Lg & _).
        assert (t3 = t2) as -> by congruence.
        exists [EvInsert (it_with_at it now); EvDelete old]. split; [cbn; rewrite Lg; cbn; by rewrite <- app_assoc|].
        split; [|cbn; rewrite L3; done]. right. rewrite Hlog. split; [done|]. exists old, pr.
        rewrite sel_replay_snoc, replay_snoc, Hlog, Hrem, Hkey. done. }
    destruct Hcore as (evs & Lg & Hnew & Hcl'). eexists _, t', evs. split; [done|]. split; [done|].
    split; [done|]. split; [|done]. right; right. split; [done|]. split; [done|]. split; [done|]. right.
    by rewrite Hlog.
Qed.

Lemma spec_sample_resume c t b ds : cfg_ok c -> linv c t -> (forall i, draw_ok (ds i)) ->
  exists r t' evs, sample_resume t b ds = Some (r, t') /\ linv c t' /\ t_log t' = t_log t ++ evs /\
    sample_wait_spec c (t_log t) (l_cancelled (t_limiter t)) b r evs /\
    l_cancelled (t_limiter t') = l_cancelled (t_limiter t).
Proof.
  intros Hc I Hd. unfold sample_resume, await_sample, sample_run, sample_wait_spec.
  destruct (l_cancelled (t_limiter t)) eqn:Hcl.
  { eexists _, t, []. rewrite app_nil_r. split; [done|]. split; [done|]. split; [done|].
    split; [|done]. by left. }
  destruct (can_sample (t_limiter t) 1) eqn:Ec.
  2:{ eexists _, t, []. rewrite app_nil_r. pose proof (can_sample_no c t I Ec).
      split; [done|]. split; [done|]. split; [done|]. split; [|done]. by right; left. }
  destruct (spec_sample_loop c (Z.to_nat (b - 1)) t ds true Hc I Hd Ec) as (sms & t' & evs & -> & I' & Lg & S & Hcl').
  eexists _, t', evs. split; [done|]. split; [done|]. split; [done|]. split; [|congruence]. right; right. split; [done|]. by exists sms.
Qed.

Lemma spec_step c t o : cfg_ok c -> linv c t -> op_ok c o ->
  exists r t' evs, step t o = Some (r, t') /\ linv c t' /\ t_log t' = t_log t ++ evs /\
    call_spec c (t_log t) (l_cancelled (t_limiter t)) o r evs /\
    l_cancelled (t_limiter t') = l_cancelled (t_limiter t) || is_close o.
Proof.
  intros Hc I Ho. pose proof (la_data _ _ _ _ (li_lag _ _ I)) as Hlog.
  destruct o as [now d it|now d it|b ds|b ds|us ks| |]; cbn [step op_ok call_spec is_close] in *;
    rewrite ?orb_false_r.
  - destruct Ho as [Hd Hp]. unfold insert_or_assign. rewrite Hlog.
    case_bool_decide as Hv; cbn [negb].
    2:{ eexists _, t, []. rewrite app_nil_r. split; [done|]. split; [done|]. split; [done|].
        split; [|done]. by left. }
    destruct (t_data t !! it_key it) as [old|] eqn:Hk.
    + destruct (spec_update_item c t (it_key it) (it_prio it) I Hp) as (t' & -> & I' & Lg & Hcl' & _).
      rewrite Hk in Lg. eexists _, t', _. split; [done|]. split; [done|]. split; [exact Lg|].
      split; [|done]. right; left. split; [done|]. split; [|done]. exists old. by rewrite Hlog.
    + destruct (spec_insert_resume c t now d it I Hd Hp) as (r & t' & evs & E & I' & Lg & S & Hcl).
      exists r, t', evs. split; [done|]. split; [done|]. split; [done|]. split; [|done]. by right; right.
  - destruct Ho as [Hd Hp].
    destruct (spec_insert_resume c t now d it I Hd Hp) as (r & t' & evs & E & I' & Lg & S & Hcl). by exists r, t', evs.
  - unfold sample_batch, maybe_commit_sample, sample_run.
    destruct (can_sample (t_limiter t) 1) eqn:Ec.
    + destruct (spec_sample_loop c (Z.to_nat (b - 1)) t ds false Hc I Ho Ec) as (sms & t' & evs & -> & I' & Lg & S & Hcl').
      eexists _, t', evs. split; [done|]. split; [done|]. split; [done|]. split; [|done]. left. by exists sms.
    + destruct (spec_sample_resume c t b ds Hc I Ho) as (r & t' & evs & E & I' & Lg & S & Hcl).
      pose proof (can_sample_no c t I Ec). exists r, t', evs. split; [done|]. split; [done|].
      split; [done|]. split; [|done]. by right.
  - destruct (spec_sample_resume c t b ds Hc I Ho) as (r & t' & evs & E & I' & Lg & S & Hcl). by exists r, t', evs.
  - unfold mutate_items. destruct (spec_delete_items c ks t I) as (t1 & -> & I1 & Lg1 & Hcl1).
    rewrite bool_decide_true by done.
    destruct (spec_update_items c us t1 I1 Ho) as (t2 & -> & I2 & Lg2 & Hcl2). eexists _, t2, _.
    split; [done|]. split; [done|]. split; [rewrite Lg2, Lg1, <- app_assoc; done|].
    split; [done|congruence].
  - destruct (linv_step c t OReset Hc I Ho) as (r & t' & E & I' & _). cbn in E. injection E as <- <-.
    eexists _, _, [EvReset]. done.
  - destruct (linv_step c t OClose Hc I Ho) as (r & t' & E & I' & _). cbn in E. injection E as <- <-.
    eexists _, _, []. rewrite app_nil_r, orb_true_r. done.
Qed.

Lemma spec_run_snoc c os : cfg_ok c -> Forall (op_ok c) os ->
  exists rs t, run (new_table c) os = Some (rs, t) /\ linv c t /\
    hist_spec c os rs (t_log t) (l_cancelled (t_limiter t)).
Proof.
  intros Hc. induction os as [|o os IH] using rev_ind; intros H.
  - eexists _, _. split; [done|]. split; [by apply new_table_linv|]. constructor.
  - apply Forall_app in H as [H Ho]. apply Forall_cons in Ho as [Ho _].
    destruct (IH H) as (rs & t & E & I & S). rewrite run_app, E. cbn [run].
    destruct (spec_step c t o Hc I Ho) as (r & t' & evs & -> & I' & Lg & Sc & Hcl).
    eexists _, t'. split; [done|]. split; [done|]. rewrite Lg, Hcl. by eapply hs_snoc.
Qed.

(** Every history of the model satisfies the specification. *)
Theorem table_meets_spec c os rs t : cfg_ok c -> Forall (op_ok c) os ->
  run (new_table c) os = Some (rs, t) ->
  hist_spec c os rs (t_log t) (l_cancelled (t_limiter t)) /\ linv c t.
Proof.
  intros Hc H E. destruct (spec_run_snoc c os Hc H) as (rs' & t' & E' & I & S).
  assert (rs' = rs /\ t' = t) as [-> ->] by (split; congruence). done.
Qed.

End WithFP.
Print Assumptions table_meets_spec.
