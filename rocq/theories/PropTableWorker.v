(** Properties of a table with a worker: C28 (sampling requests), C29 (inserts),
    C61 (the same as one call after the other), C62 (InsertOrAssign). *)
From Verif Require Import Base RateLimiter Selector SelPrio Trajectory Table EventLog TableProofs TableLog SelSpec PropSelectors TableSpec LogFacts PropTable TableWorker TableWorkerProofs TableWorkerSerial.
From Coq Require Import Sorting.Sorted.

(** The request [i] has been answered. *)
Definition answered (tr : list (wev * list wout)) (i : nat) : Prop := exists st l, (i, st, l) ∈ answers tr.

Section WithFP.
Context {fp : FP} {laws : FPLaws fp}.

(** ** C28 *)

(** Every run: an answer belongs to a request, and no request has two. *)
Theorem C28_answered_once A c t now0 tr w : wk_trace A c (wk_new t now0) tr w ->
  NoDup ((fun a => a.1.1) <$> answers tr) /\ forall i, answered tr i -> (i < length (requests now0 tr))%nat.
Proof.
  intros H. pose proof (rinv_trace _ _ _ _ _ _ H) as R. pose proof (ri_once _ _ _ R) as P. split.
  - pose proof (NoDup_seq 0 (wk_nreq w)) as N. rewrite <- P in N. by apply NoDup_app in N as [N _].
  - intros i (st & l & Hi). rewrite <- (ri_count _ _ _ R). assert (Hin : i ∈ answer_ids (answers tr)) by (apply elem_of_list_fmap; by exists (i, st, l)).
    assert (Hs : i ∈ seq 0 (wk_nreq w)) by (rewrite <- P; apply elem_of_app; by left). apply elem_of_seq in Hs. lia.
Qed.

(** Every run: what an answer says.  OK comes with as many samples as were asked for
    (one, if none were asked for), a timeout not before the deadline, Cancelled not
    before Close.  The samples are those that the worker took for this request, in
    the order in which it took them. *)
Theorem C28_answer A c t now0 tr w i st l : wk_trace A c (wk_new t now0) tr w -> (i, st, l) ∈ answers tr ->
  exists num deadline, requests now0 tr !! i = Some (num, deadline) /\ l = taken_for i tr /\
    (st = Ok /\ length l = Nat.max 1 num \/
     st = DeadlineExceeded /\ (exists d, deadline = Some d /\ d <= clock now0 tr) \/
     st = Cancelled /\ closed tr = true).
Proof.
  intros H Hin. pose proof (ri_fine _ _ _ (rinv_trace _ _ _ _ _ _ H)) as F. pose proof (ki_ans _ _ (kinv_trace _ _ _ _ _ _ H)) as K. rewrite Forall_forall in F, K.
  specialize (K _ Hin). destruct (F _ Hin) as (num & dl & H1 & H2). cbn [fst snd] in *. exists num, dl. split_and!; done.
Qed.

(** Every run: requests are served in the order of arrival. *)
Theorem C28_order A c t now0 tr w i j l k a1 a2 a3 : wk_trace A c (wk_new t now0) tr w -> answers tr = a1 ++ (i, Ok, l) :: a2 ++ (j, Ok, k) :: a3 -> (i < j)%nat.
Proof.
  intros H E. pose proof (ri_order _ _ _ (rinv_trace _ _ _ _ _ _ H)) as S. rewrite E in S. unfold ok_ids in S. rewrite omap_app in S. cbn [omap list_omap fst snd] in S.
  rewrite bool_decide_true in S by done. rewrite omap_app in S. cbn [omap list_omap fst snd] in S. rewrite bool_decide_true in S by done. rewrite <- app_assoc in S.
  revert S. generalize (omap (fun a : nat * status * list sampled => if bool_decide (a.1.2 = Ok) then Some a.1.1 else None) a1). clear. intros b1 S. induction b1 as [|x b1 IH]; cbn [app] in S.
  - apply StronglySorted_inv in S as [_ S]. rewrite Forall_forall in S. apply S. apply elem_of_app. left. apply elem_of_app. right. apply elem_of_cons. by left.
  - apply StronglySorted_inv in S as [S _]. by apply IH.
Qed.

(** A request that is not answered is still with the worker. *)
Lemma unanswered_live A c t now0 tr w i : wk_trace A c (wk_new t now0) tr w -> (i < length (requests now0 tr))%nat -> ~ answered tr i -> exists r, r ∈ live w /\ q_id r = i.
Proof.
  intros H Hi Hn. pose proof (rinv_trace _ _ _ _ _ _ H) as R. assert (Hs : i ∈ seq 0 (wk_nreq w)) by (apply elem_of_seq; rewrite (ri_count _ _ _ R); lia).
  rewrite <- (ri_once _ _ _ R) in Hs. apply elem_of_app in Hs as [Hs|Hs].
  - apply elem_of_list_fmap in Hs as ([[j st] l] & -> & Hs). destruct Hn. by exists st, l.
  - apply elem_of_list_fmap in Hs as (r & -> & Hs). by exists r.
Qed.

(** When everything has come to rest, a request that is not answered is one that the
    rate limiter holds back, whose deadline has not passed, and the table is open.
    Missing from the full statement: runs with priorities that a Prioritized selector
    rejects (C28_refuted). *)
Theorem C28_quiet_partial c cf now0 tr w i num deadline : cfg_ok cf -> wk_trace (accepted cf) c (wk_new (new_table cf) now0) tr w -> quiet w ->
  requests now0 tr !! i = Some (num, deadline) -> ~ answered tr i ->
  closed tr = false /\ (forall d, deadline = Some d -> clock now0 tr < d) /\ ~ sample_allowed cf (t_log (wk_t w)).
Proof.
  intros Hc H Q Hr Hn. pose proof (vinv_trace false c cf now0 tr w Hc H) as V. destruct (sinv_trace c cf now0 tr w Hc H) as [rs SI]. pose proof (rinv_trace _ _ _ _ _ _ H) as R.
  unfold quiet in Q. destruct (wk_pos w) as [| |made| |wu b| |st] eqn:Hp; try done. destruct Q as (Q1 & Q2 & Q3).
  destruct (v_wait _ _ V _ _ Hp) as [_ [?|[?|S]]]; [congruence|done|].
  destruct (unanswered_live _ _ _ _ _ _ i H (lookup_lt_Some _ _ _ Hr) Hn) as (r & Hl & <-).
  unfold live in Hl. rewrite (ri_where _ _ _ R) in Hl by (by rewrite Hp). rewrite app_nil_r in Hl.
  assert (HR : requests now0 tr !! q_id r = Some (q_num r, q_deadline r)).
  { pose proof (ri_live _ _ _ R) as L. rewrite Forall_forall in L. apply L. unfold live. apply elem_of_app. by left. }
  rewrite HR in Hr. injection Hr as <- <-. split_and!.
  - rewrite <- (ri_closed _ _ _ R). destruct (wk_cancel w) eqn:Hca; [|done]. destruct (st_cancel _ _ _ S Hca) as [Hq _]. rewrite Hq in Hl. by apply elem_of_nil in Hl.
  - intros d Hd. destruct (st_deadline _ _ _ S _ _ Hl Hd) as (k & -> & Hk). specialize (Q3 _ eq_refl). rewrite <- (ri_clock _ _ _ R). lia.
  - apply can_sample_no; [exact (reached_linv _ _ _ _ (si_reached _ _ _ _ SI))|]. destruct (st_sample _ _ _ S) as [Hcs|[Hcs _]]; [|done].
    exfalso. unfold queued in Hl. rewrite Hcs, (st_ps _ _ _ S Hcs) in Hl. by apply elem_of_nil in Hl.
Qed.

(** From every state the worker comes to rest (or returns, if it has been stopped)
    with no action but its own and the pending signals. *)
Theorem C28_comes_to_rest c cf now0 d tr w : cfg_ok cf -> draw_ok d -> wk_trace (accepted cf) c (wk_new (new_table cf) now0) tr w ->
  exists tr' w', wk_trace (accepted cf) c (wk_new (new_table cf) now0) (tr ++ tr') w' /\ Forall (fun x => inner x.1) tr' /\ (quiet w' \/ wk_pos w' = PReturned Ok).
Proof.
  intros Hc Hd H. destruct (comes_to_rest false c cf now0 d tr w Hc Hd H) as (tr' & w' & H1 & H2 & H3). exists tr', w'. split_and!; try done.
  destruct H3 as [H3|[st H3]]; [by left|right]. destruct (sinv_trace c cf now0 _ w' Hc H1) as [rs SI]. by rewrite <- (si_pos _ _ _ _ SI _ H3).
Qed.

(** It takes a bounded number of steps from one action of others to the next, whatever
    the draws. *)
Theorem C28_bounded c cf now0 tr w : cfg_ok cf -> wk_trace (accepted cf) c (wk_new (new_table cf) now0) tr w ->
  exists n, forall tr' w', wk_trace (accepted cf) c w tr' w' -> Forall (fun x => exists at_ d, x.1 = EWork at_ d) tr' -> (length tr' <= n)%nat.
Proof.
  intros Hc H. exists (mu w). intros tr' w' H' Ht. enough (length tr' + mu w' <= mu w)%nat by lia. revert Ht. induction H' as [|tr' w1 e w2 outs H1 IH Hca HA E]; intros Ht; [cbn; lia|].
  apply Forall_app in Ht as [Ht1 Ht2]. specialize (IH Ht1). apply Forall_cons in Ht2 as [(at_ & d & Hx) _]. cbn [fst] in Hx. subst e.
  pose proof (trace_app _ _ _ _ _ _ _ H H1) as H2. destruct (sinv_trace c cf now0 _ w1 Hc H2) as [rs SI]. pose proof (sinv_step c cf _ w1 rs (EWork at_ d) SI Hca HA) as S. rewrite E in S. destruct S as [rs' SI'].
  destruct (work_step c now0 _ w1 at_ d w2 outs (rinv_trace _ _ _ _ _ _ H2) (ninv_trace _ _ _ _ _ _ H2) E (si_pos _ _ _ _ SI')) as [M _]. rewrite app_length. cbn [length]. lia.
Qed.

(** After Close every request is answered without anybody else doing anything. *)
Theorem C28_close_partial c cf now0 d tr w : cfg_ok cf -> draw_ok d -> wk_trace (accepted cf) c (wk_new (new_table cf) now0) tr w -> closed tr = true ->
  exists tr' w', wk_trace (accepted cf) c (wk_new (new_table cf) now0) (tr ++ tr') w' /\ Forall (fun x => inner x.1) tr' /\
    forall i, (i < length (requests now0 tr))%nat -> answered (tr ++ tr') i.
Proof.
  intros Hc Hd H Hcl. destruct (C28_comes_to_rest c cf now0 d tr w Hc Hd H) as (tr' & w' & H1 & H2 & H3). exists tr', w'. split_and!; try done.
  assert (HR : requests now0 (tr ++ tr') = requests now0 tr).
  { clear -H2. induction tr' as [|[e outs] tr' IH] using rev_ind; [by rewrite app_nil_r|]. apply Forall_app in H2 as [H2 H3]. apply Forall_cons in H3 as [H3 _].
    rewrite app_assoc, requests_snoc, (IH H2). destruct e; try done; by rewrite app_nil_r. }
  intros i Hi. rewrite <- HR in Hi. pose proof (rinv_trace _ _ _ _ _ _ H1) as R.
  destruct (decide (i ∈ answer_ids (answers (tr ++ tr')))) as [Hin|Hin].
  { apply elem_of_list_fmap in Hin as ([[j st] l] & -> & Hin). by exists st, l. }
  exfalso. assert (Hn : ~ answered (tr ++ tr') i) by (intros (st & l & Ha); apply Hin; apply elem_of_list_fmap; by exists (i, st, l)).
  destruct H3 as [H3|H3].
  - destruct (lookup_lt_is_Some_2 _ _ Hi) as [[num dl] Hx]. destruct (C28_quiet_partial c cf now0 _ w' i num dl Hc H1 H3 Hx Hn) as [Hcl' _].
    unfold closed in *. rewrite existsb_app, Hcl in Hcl'. done.
  - destruct (unanswered_live _ _ _ _ _ _ i H1 Hi Hn) as (r & Hl & _). unfold live in Hl. rewrite (ri_where _ _ _ R) in Hl by (by rewrite H3). rewrite app_nil_r in Hl.
    destruct (v_return _ _ (vinv_trace false c cf now0 _ w' Hc H1) _ H3) as [_ Hq]. rewrite Hq in Hl. by apply elem_of_nil in Hl.
Qed.

(** ** C29 *)

(** Every run: each accepted item is applied to the table at most once, and items are
    applied in the order in which they arrived. *)
Theorem C29_order A c t now0 tr w : wk_trace A c (wk_new t now0) tr w -> sublist (applied tr) (imap pair (arrivals tr)).
Proof.
  intros H. destruct (nc_hand _ _ (proj1 (ninv_trace _ _ _ _ _ _ H))) as (hd & -> & Hs & _). by apply sublist_inserts_r.
Qed.

(** Until the table is closed none is skipped. *)
Theorem C29_prefix c cf now0 tr w : cfg_ok cf -> wk_trace (accepted cf) c (wk_new (new_table cf) now0) tr w -> closed tr = false ->
  applied tr `prefix_of` imap pair (arrivals tr).
Proof.
  intros Hc H Hcl. destruct (ninv_trace _ _ _ _ _ _ H) as [N _]. destruct (nc_hand _ _ N) as (hd & -> & _ & He).
  rewrite He; [by eexists|by rewrite (nc_closed _ _ N)|]. intros st Hp.
  pose proof (vinv_trace false c cf now0 _ w Hc H) as V. destruct (v_return _ _ V _ Hp) as [Hs _]. apply (v_stop _ _ V) in Hs. rewrite (nc_closed _ _ N) in Hs. congruence.
Qed.

(** Every run: clients that were told to wait are told to go on in the order in which
    they were told to wait, each at most once, with OK or, after Close, Cancelled. *)
Theorem C29_callbacks A c t now0 tr w : wk_trace A c (wk_new t now0) tr w ->
  let_go tr `prefix_of` held_back tr /\ forall i st, OMayInsert i st ∈ outputs tr -> st = Ok \/ st = Cancelled /\ closed tr = true.
Proof.
  intros H. destruct (ninv_trace _ _ _ _ _ _ H) as [N _]. split; [rewrite <- (nc_notif _ _ N); by eexists|].
  intros i st Hi. pose proof (nc_go _ _ N) as G. rewrite Forall_forall in G. apply (G _ Hi).
Qed.

(** In a calm run, when everything has come to rest: an item that has not been
    applied is one that the rate limiter holds back, or the table is closed; a client
    that still waits does so because of the rate limiter.
    Missing from the full statement: rejected priorities (C28_refuted), and MutateItems
    or Reset between the two critical sections of the worker (C29_wakeup_refuted). *)
Theorem C29_quiet_partial c cf now0 tr w : cfg_ok cf -> wk_trace (calm cf) c (wk_new (new_table cf) now0) tr w -> quiet w ->
  (forall i it, arrivals tr !! i = Some it -> (i, it) ∉ applied tr -> closed tr = true \/ ~ insert_allowed cf (t_log (wk_t w))) /\
  (forall i, i ∈ held_back tr -> i ∉ let_go tr -> closed tr = false /\ ~ insert_allowed cf (t_log (wk_t w))).
Proof.
  intros Hc H Q. pose proof (vinv_trace true c cf now0 tr w Hc H) as V. destruct (sinv_trace c cf now0 tr w Hc (trace_mono _ _ _ _ _ _ (calm_accepted cf) H)) as [rs SI].
  destruct (ninv_trace _ _ _ _ _ _ H) as [N Hnl]. unfold quiet in Q. destruct (wk_pos w) as [| |made| |wu b| |st] eqn:Hp; try done. destruct Q as (Q1 & Q2 & Q3).
  destruct (v_wait _ _ V _ _ Hp) as [_ [?|[?|S]]]; [congruence|done|]. specialize (Hnl ltac:(done) ltac:(done)).
  assert (HB : wk_cancel w = false -> wk_ci w ++ wk_pi w <> [] -> ~ insert_allowed cf (t_log (wk_t w))).
  { intros Hca Hne. apply can_insert_no; [exact (reached_linv _ _ _ _ (si_reached _ _ _ _ SI))|]. destruct (st_insert _ _ _ S eq_refl) as [Hci|Hci]; [|done].
    destruct Hne. by rewrite Hci, (st_pi _ _ _ S Hci Hca). }
  split.
  - intros i it Hi Hn. destruct (closed tr) eqn:Hcl; [by left|right]. rewrite <- (nc_closed _ _ N) in Hcl. apply (HB Hcl). intros He.
    destruct (nc_hand _ _ N) as (hd & H1 & _ & H3). rewrite (H3 Hcl ltac:(intros st; by rewrite Hp)) in Hn. rewrite He, app_nil_r in H1. apply Hn. rewrite <- H1.
    apply elem_of_list_lookup. exists i. by rewrite list_lookup_imap, Hi.
  - intros i Hi Hn. rewrite <- (nc_notif _ _ N), Hnl in Hi. cbn [app] in Hi. apply elem_of_app in Hi as [Hi|Hi]; [done|].
    destruct (wk_cancel w) eqn:Hca; [destruct (st_cancel _ _ _ S Hca) as (_ & Hns & _); rewrite Hns in Hi; by apply elem_of_nil in Hi|].
    split; [by rewrite <- (nc_closed _ _ N)|]. apply (HB eq_refl). pose proof (nc_ns _ _ N) as Hpi. rewrite Forall_forall in Hpi. specialize (Hpi _ Hi). intros He. apply app_eq_nil in He as [_ He].
    rewrite He in Hpi. by apply elem_of_nil in Hpi.
Qed.

(** ** C61 *)

(** The table is what the synchronous calls read off the run make of a new table; the
    results are the same, but for the flag "rate limited" of samples.  All theorems about
    histories of calls ([reached]) apply to a table with a worker. *)
Theorem C61_serial_partial c cf now0 tr w : cfg_ok cf -> wk_trace (accepted cf) c (wk_new (new_table cf) now0) tr w ->
  exists rs, reached cf (fst <$> effects tr) rs (wk_t w) /\ Forall2 same_result (snd <$> effects tr) rs.
Proof. intros Hc H. destruct (sinv_trace c cf now0 tr w Hc H) as [rs []]. by exists rs. Qed.

(** The process does not die and the worker does not give up. *)
Theorem C61_no_crash_partial c cf now0 tr w : cfg_ok cf -> wk_trace (accepted cf) c (wk_new (new_table cf) now0) tr w ->
  (forall e, wk_can w e -> accepted cf w e -> wk_step c w e <> WCrash) /\ forall st, wk_pos w = PReturned st -> st = Ok /\ closed tr = true.
Proof.
  intros Hc H. destruct (sinv_trace c cf now0 tr w Hc H) as [rs SI]. split.
  - intros e He Ha E. pose proof (sinv_step c cf tr w rs e SI He Ha) as S. by rewrite E in S.
  - intros st Hp. split; [by apply (si_pos _ _ _ _ SI)|]. pose proof (vinv_trace false c cf now0 _ w Hc H) as V. destruct (v_return _ _ V _ Hp) as [Hs _]. apply (v_stop _ _ V) in Hs.
    by rewrite <- (ri_closed _ _ _ (rinv_trace _ _ _ _ _ _ H)).
Qed.

(** ** C62 *)

(** table.cc:475-480: what the call waits for before it returns OK. *)
Definition insert_call_done (w : wk) : Prop := match wk_pos w with PWait _ blocked => blocked = false /\ wk_pi w = [] | _ => False end.

(** When the call returns OK, all items that arrived before, the caller's included,
    have been applied.  Missing from the full statement: closed tables and rejected
    priorities. *)
Theorem C62_ok_applied_partial c cf now0 tr w i it : cfg_ok cf -> wk_trace (accepted cf) c (wk_new (new_table cf) now0) tr w -> closed tr = false ->
  insert_call_done w -> arrivals tr !! i = Some it -> (i, it) ∈ applied tr.
Proof.
  intros Hc H Hcl Hd Hi. pose proof (vinv_trace false c cf now0 tr w Hc H) as V. destruct (ninv_trace _ _ _ _ _ _ H) as [N _].
  unfold insert_call_done in Hd. destruct (wk_pos w) as [| |made| |wu b| |st] eqn:Hp; try done. destruct Hd as [-> Hpi].
  destruct (v_wait _ _ V _ _ Hp) as [[Hb _] _]. destruct (Hb eq_refl) as [Hci _]. destruct (nc_hand _ _ N) as (hd & H1 & _ & H3). rewrite <- (nc_closed _ _ N) in Hcl.
  rewrite (H3 Hcl ltac:(intros st; by rewrite Hp)). rewrite Hci, Hpi, !app_nil_r in H1. rewrite <- H1. apply elem_of_list_lookup. exists i. by rewrite list_lookup_imap, Hi.
Qed.

(** The call does return if every item has been applied, no sampling request waits
    and the table is open.  Without the condition on the requests this is false
    (C62_returns_refuted). *)
Theorem C62_returns_partial c cf now0 tr w : cfg_ok cf -> wk_trace (accepted cf) c (wk_new (new_table cf) now0) tr w -> closed tr = false -> quiet w ->
  (forall i it, arrivals tr !! i = Some it -> (i, it) ∈ applied tr) -> (forall i, (i < length (requests now0 tr))%nat -> answered tr i) -> insert_call_done w.
Proof.
  intros Hc H Hcl Q HI HR. pose proof (vinv_trace false c cf now0 tr w Hc H) as V. destruct (ninv_trace _ _ _ _ _ _ H) as [N _]. pose proof (rinv_trace _ _ _ _ _ _ H) as R.
  unfold quiet in Q. unfold insert_call_done. destruct (wk_pos w) as [| |made| |wu b| |st] eqn:Hp; try done. destruct Q as (Q1 & Q2 & Q3).
  destruct (v_wait _ _ V _ _ Hp) as [Hb [?|[?|S]]]; [congruence|done|]. rewrite <- (nc_closed _ _ N) in Hcl.
  assert (Hq : queued w = []).
  { destruct (queued w) as [|r q] eqn:E; [done|exfalso]. assert (Hr : r ∈ live w) by (unfold live; rewrite E; apply elem_of_app; left; apply elem_of_cons; by left).
    pose proof (ri_once _ _ _ R) as P. pose proof (NoDup_seq 0 (wk_nreq w)) as Nd. rewrite <- P in Nd. apply NoDup_app in Nd as (_ & Nd & _).
    assert (Hid : q_id r ∈ q_id <$> live w) by (apply elem_of_list_fmap; by exists r).
    assert (Hs : q_id r ∈ seq 0 (wk_nreq w)) by (rewrite <- P; apply elem_of_app; by right). apply elem_of_seq in Hs. rewrite (ri_count _ _ _ R) in Hs.
    destruct (HR (q_id r) ltac:(lia)) as (st & l & Ha). apply (Nd (q_id r)); [|done]. apply elem_of_list_fmap. by exists (q_id r, st, l). }
  destruct (nc_hand _ _ N) as (hd & H1 & _ & H3). specialize (H3 Hcl ltac:(intros st; by rewrite Hp)). subst hd.
  assert (Hh : wk_ci w ++ wk_pi w = []).
  { destruct (wk_ci w ++ wk_pi w) as [|[i it] q] eqn:E; [done|exfalso].
    assert (Nd : NoDup (imap pair (arrivals tr)).*1).
    { assert (Hx : (imap pair (arrivals tr)).*1 = seq 0 (length (arrivals tr))); [|rewrite Hx; apply NoDup_seq].
      apply list_eq. intros j. rewrite list_lookup_fmap, list_lookup_imap. destruct (arrivals tr !! j) eqn:Ej; cbn.
      - apply lookup_lt_Some in Ej. by rewrite lookup_seq_lt.
      - apply lookup_ge_None in Ej. by rewrite lookup_seq_ge. }
    rewrite H1, fmap_app in Nd. apply NoDup_app in Nd as (_ & Nd & _).
    assert (Hin : (i, it) ∈ imap pair (arrivals tr)) by (rewrite H1; apply elem_of_app; right; apply elem_of_cons; by left).
    apply elem_of_lookup_imap in Hin as (j & it' & [= <- <-] & Hj). specialize (HI _ _ Hj). apply (Nd i); [by apply (elem_of_list_fmap_1 fst) in HI|]. cbn. apply elem_of_cons. by left. }
  apply app_eq_nil in Hh as [Hci Hpi]. split; [|done]. apply Hb. split; [done|]. destruct (st_sample _ _ _ S) as [?|(_ & r & rest & Hcs)]; [done|].
  unfold queued in Hq. rewrite Hcs in Hq. discriminate Hq.
Qed.

End WithFP.

(** ** Concrete cases *)

Local Existing Instance fp_exact.
Local Existing Instance fp_exact_laws.
Local Existing Instance fp_exact_exact.

Definition prio_okb (cf : tcfg) (p : dbl) : bool := accepts (c_sampler cf) p && accepts (c_remover cf) p.
(** Decides, for events with the draw [d0], what the traces below ask for. *)
Definition okb (accepting strict : bool) (cf : tcfg) (w : wk) (e : wev) : bool :=
  match e with
  | EWork _ _ | EOwed | EWake => true
  | EMutate us _ => negb (holds_mu w) && negb (wk_stop w) && (negb accepting || forallb (fun u => prio_okb cf u.2) us) && (negb strict || match wk_pos w with PSwap => false | _ => true end)
  | EReset => negb (holds_mu w) && negb (wk_stop w) && (negb strict || match wk_pos w with PSwap => false | _ => true end)
  | EClose => negb (holds_mu w)
  | EInsert it => negb (wk_stop w) && (negb accepting || prio_okb cf (it_prio it))
  | ERequest _ _ => negb (wk_stop w)
  | EStop => wk_cancel w
  | ETick now => wk_now w <=? now
  end.
Definition kind_of_run (accepting strict : bool) (cf : tcfg) : wk -> wev -> Prop :=
  if accepting then strictly strict cf else fun _ _ => True.

(** Plays the events; a step of the worker while it sleeps is left out. *)
Fixpoint play (a s : bool) (c : Z) (cf : tcfg) (evs : list wev) (tr : list (wev * list wout)) (w : wk) : option (list (wev * list wout) * wk) :=
  match evs with
  | [] => Some (tr, w)
  | e :: evs =>
    if okb a s cf w e then
      match wk_step c w (match e with EWork _ _ => EWork (1, 0) d0 | e => e end) with
      | WNext w' outs => play a s c cf evs (tr ++ [(match e with EWork _ _ => EWork (1, 0) d0 | e => e end, outs)]) w'
      | WBlocked => match e with EWork _ _ => play a s c cf evs tr w | _ => None end
      | WCrash => None
      end
    else None
  end.
Definition script (a s : bool) (c : Z) (cf : tcfg) (evs : list wev) : list (wev * list wout) * wk :=
  default ([], wk_new (new_table cf) 0) (play a s c cf evs [] (wk_new (new_table cf) 0)).
Definition works (n : nat) : list wev := replicate n (EWork (1, 0) d0).

Lemma prio_okb_ok cf p : prio_okb cf p = true -> prio_ok cf p.
Proof. unfold prio_okb, prio_ok. by intros [? ?]%andb_true_iff. Qed.

Lemma okb_ok a s cf w e : okb a s cf w e = true ->
  let e' := match e with EWork _ _ => EWork (1, 0) d0 | e => e end in wk_can w e' /\ kind_of_run a s cf w e'.
Proof.
  assert (Hs : forall w' : wk, negb s || match wk_pos w' with PSwap => false | _ => true end = true -> s = true -> wk_pos w' <> PSwap) by (intros w' H -> Hp; by rewrite Hp in H).
  intros H. destruct e; cbn [okb] in H; cbn [wk_can]; unfold kind_of_run, strictly, accepted, calm, wk_prio.
  - split; [exact d0_ok|]. by destruct a, s.
  - split; [done|]. by destruct a, s.
  - apply andb_true_iff in H as [H1 H2]. split; [by destruct (wk_stop w)|]. destruct a; [|done]. apply prio_okb_ok in H2. by destruct s.
  - split; [by destruct (wk_stop w)|]. by destruct a, s.
  - rewrite !andb_true_iff in H. destruct H as [[[H1 H2] H3] H4]. split; [split; [by destruct (holds_mu w)|by destruct (wk_stop w)]|]. destruct a; [|done]. cbn in H3.
    assert (HF : Forall (fun u : Z * dbl => prio_ok cf u.2) us).
    { apply Forall_forall. intros u Hu. apply prio_okb_ok. rewrite forallb_forall in H3. apply H3. by apply elem_of_list_In. }
    destruct s; [|done]. split; [done|]. by apply Hs.
  - rewrite !andb_true_iff in H. destruct H as [[H1 H2] H4]. split; [split; [by destruct (holds_mu w)|by destruct (wk_stop w)]|]. destruct a; [|done]. destruct s; [|done]. split; [done|]. by apply Hs.
  - split; [by destruct (holds_mu w)|]. by destruct a, s.
  - split; [done|]. by destruct a, s.
  - split; [done|]. by destruct a, s.
  - apply Z.leb_le in H. split; [done|]. by destruct a, s.
Qed.

Lemma play_trace a s c cf w0 evs : forall tr w tr' w', wk_trace (kind_of_run a s cf) c w0 tr w -> play a s c cf evs tr w = Some (tr', w') -> wk_trace (kind_of_run a s cf) c w0 tr' w'.
Proof.
  induction evs as [|e evs IH]; intros tr w tr' w' H E; cbn [play] in E; [injection E as <- <-; exact H|].
  destruct (okb a s cf w e) eqn:Ho; [|discriminate E]. destruct (okb_ok _ _ _ _ _ Ho) as [H1 H2].
  destruct (wk_step c w (match e with EWork _ _ => EWork (1, 0) d0 | e => e end)) as [w1 outs| |] eqn:Es; [|discriminate E|].
  - eapply IH; [|exact E]. econstructor; eauto.
  - destruct e; try discriminate E. eapply IH; eauto.
Qed.

Lemma script_trace a s c cf evs : is_Some (play a s c cf evs [] (wk_new (new_table cf) 0)) ->
  wk_trace (kind_of_run a s cf) c (wk_new (new_table cf) 0) (script a s c cf evs).1 (script a s c cf evs).2.
Proof.
  intros [[tr w] E]. unfold script. rewrite E. cbn [default fst snd]. eapply play_trace; [|exact E]. constructor.
Qed.

(** Two requests; the first for two samples, the second with a deadline.  Two items
    arrive, the first request is served (its samples are the two items) and the second
    runs into its deadline.  A third, asked for later, is left waiting, held back by the
    limiter.  Then the table is closed and it is answered Cancelled. *)
Definition wk_cfg : tcfg := mkCfg 10 1 KFifo KFifo 1 1 0 100.
Definition wk_evs : list wev :=
  works 3 ++ [ERequest 2 None] ++ works 9 ++ [EWake; ERequest 1 (Some 5)] ++ works 9 ++
  [EInsert (mk_item 1 1 7 0); EInsert (mk_item 2 1 7 0); EWake] ++ works 30 ++ [ETick 6; EWake] ++ works 30 ++ [ERequest 1 None; EWake] ++ works 30.
Definition wk_run := script true true 100 wk_cfg wk_evs.
Example C28_example :
  cfg_ok wk_cfg /\ wk_trace (calm wk_cfg) 100 (wk_new (new_table wk_cfg) 0) wk_run.1 wk_run.2 /\ quiet wk_run.2 /\
  requests 0 wk_run.1 = [(2%nat, None); (1%nat, Some 5); (1%nat, None)] /\
  (fun a : nat * status * list sampled => (a.1, (fun x => it_key (sm_item x)) <$> a.2)) <$> answers wk_run.1 = [(0%nat, Ok, [1; 2]); (1%nat, DeadlineExceeded, [])] /\
  wk_trace (calm wk_cfg) 100 (wk_new (new_table wk_cfg) 0) (script true true 100 wk_cfg (wk_evs ++ [EClose; EOwed; EWake] ++ works 9)).1 (script true true 100 wk_cfg (wk_evs ++ [EClose; EOwed; EWake] ++ works 9)).2 /\
  (fun a : nat * status * list sampled => a.1) <$> answers (script true true 100 wk_cfg (wk_evs ++ [EClose; EOwed; EWake] ++ works 9)).1 = [(0%nat, Ok); (1%nat, DeadlineExceeded); (2%nat, Cancelled)].
Proof.
  split; [by repeat constructor|]. split; [apply (script_trace true true); vm_compute; by eexists|]. split; [vm_compute; split_and!; done|].
  split; [by vm_compute|]. split; [by vm_compute|]. split; [apply (script_trace true true); vm_compute; by eexists|]. by vm_compute.
Qed.

(** A worker that has returned answers nothing any more. *)
Lemma returned_silent A c w0 tr w st : wk_pos w0 = PReturned st -> wk_trace A c w0 tr w -> wk_pos w = PReturned st /\ answers tr = [].
Proof.
  intros H0. induction 1 as [|tr w e w' outs H [IH1 IH2] Hc HA E]; [done|]. rewrite answers_snoc, IH2. cbn [app].
  assert (HW : forall x : wk, wk_pos (wake x) = wk_pos x) by (intros x; rewrite wake_eq; done).
  destruct e; cbn [wk_step] in E.
  - rewrite IH1 in E. discriminate E.
  - unfold waiting in E. rewrite IH1 in E. discriminate E.
  - destruct (negb _); injection E as <- <-; [done|]. destruct (_ <? _); [|cbn [wk_pos set_ns]]; rewrite HW; done.
  - injection E as <- <-. rewrite HW. done.
  - destruct (mutate_items _ _ _) as [[[st'| |] t]|]; try discriminate E. injection E as <- <-. by destruct (bool_decide _).
  - injection E as <- <-. done.
  - injection E as <- <-. done.
  - destruct (wk_owed w) as [|x rest]; [discriminate E|]. injection E as <- <-. destruct (x && _); [done|]. rewrite HW. done.
  - injection E as <- <-. rewrite HW. done.
  - injection E as <- <-. done.
Qed.

(** One rejected insertion ends the worker: a request made before is never answered,
    not even after Close. *)
Definition dead_cfg : tcfg := mkCfg 10 0 (KPrio 1) KFifo 1 1 (-100) 100.
Definition dead_evs : list wev := [EInsert (mk_item 1 (-1) 7 0)] ++ works 4 ++ [ERequest 1 (Some 5)] ++ works 9 ++ [ETick 10; EClose; EOwed].
Definition dead_run := script false false 100 dead_cfg dead_evs.
Theorem C28_refuted :
  cfg_ok dead_cfg /\ wk_trace (fun _ _ => True) 100 (wk_new (new_table dead_cfg) 0) dead_run.1 dead_run.2 /\
  requests 0 dead_run.1 = [(1%nat, Some 5)] /\ clock 0 dead_run.1 = 10 /\ closed dead_run.1 = true /\
  forall tr w, wk_trace (fun _ _ => True) 100 dead_run.2 tr w -> answers (dead_run.1 ++ tr) = [].
Proof.
  split; [by repeat constructor|]. split; [apply (script_trace false false); vm_compute; by eexists|]. split; [by vm_compute|]. split; [by vm_compute|]. split; [by vm_compute|].
  intros tr w H. assert (Hr : exists st, wk_pos dead_run.2 = PReturned st) by (vm_compute; by eexists). destruct Hr as [st Hr].
  destruct (returned_silent _ _ _ _ _ _ Hr H) as [_ Ha]. unfold answers in *. unfold outputs in *. rewrite bind_app, omap_app, Ha, app_nil_r. by vm_compute.
Qed.

(** The wake-up of the worker is lost: item 2 waits for the limiter, MutateItems
    deletes item 1 when the worker has released [mu_] and not yet taken [worker_mu_],
    and signals a worker that does not wait.  The worker goes to sleep although item 2
    can be inserted. *)
Definition lost_cfg : tcfg := mkCfg 10 0 KFifo KFifo 1 1 (-100) 1.
Definition lost_evs : list wev :=
  [EInsert (mk_item 1 1 7 0)] ++ works 20 ++ [EInsert (mk_item 2 1 7 0); EWake] ++ works 7 ++ [EMutate [] [1]; EOwed] ++ works 1.
Definition lost_run := script true false 100 lost_cfg lost_evs.
Theorem C29_wakeup_refuted :
  cfg_ok lost_cfg /\ wk_trace (accepted lost_cfg) 100 (wk_new (new_table lost_cfg) 0) lost_run.1 lost_run.2 /\ quiet lost_run.2 /\ closed lost_run.1 = false /\
  arrivals lost_run.1 = [mk_item 1 1 7 0; mk_item 2 1 7 0] /\ applied lost_run.1 = [(0%nat, mk_item 1 1 7 0)] /\
  insert_allowed lost_cfg (t_log (wk_t lost_run.2)).
Proof.
  assert (Hc : cfg_ok lost_cfg) by (by repeat constructor).
  assert (H : wk_trace (accepted lost_cfg) 100 (wk_new (new_table lost_cfg) 0) lost_run.1 lost_run.2) by (apply (script_trace true false); vm_compute; by eexists).
  split; [exact Hc|]. split; [exact H|]. split; [vm_compute; split_and!; done|]. split; [by vm_compute|]. split; [by vm_compute|]. split; [by vm_compute|].
  left. vm_compute. discriminate.
Qed.

(** The hypotheses of C29_quiet_partial and C62_ok_applied_partial: MutateItems at
    another time; all three items are applied in the end, the client that was told to
    wait goes on. *)
Definition calm_evs : list wev :=
  [EInsert (mk_item 1 1 7 0)] ++ works 20 ++ [EInsert (mk_item 2 1 7 0); EWake] ++ works 20 ++ [EInsert (mk_item 3 1 7 0)].
Definition calm_run := script true true 1 lost_cfg calm_evs.
Definition calm_evs' : list wev := calm_evs ++ [EWake] ++ works 20 ++ [EMutate [] [1]; EOwed; EWake] ++ works 20 ++ [EMutate [] [2]; EOwed; EWake] ++ works 40.
Definition calm_run' := script true true 1 lost_cfg calm_evs'.
Example C29_example :
  cfg_ok lost_cfg /\ wk_trace (calm lost_cfg) 1 (wk_new (new_table lost_cfg) 0) calm_run'.1 calm_run'.2 /\ quiet calm_run'.2 /\ insert_call_done calm_run'.2 /\
  held_back calm_run'.1 = [0%nat; 1%nat; 2%nat] /\ let_go calm_run'.1 = [0%nat; 1%nat; 2%nat] /\
  it_key <$> (applied calm_run'.1).*2 = [1; 2; 3] /\
  wk_trace (calm lost_cfg) 1 (wk_new (new_table lost_cfg) 0) calm_run.1 calm_run.2 /\ it_key <$> (applied calm_run.1).*2 = [1] /\
  held_back calm_run.1 = [0%nat; 1%nat; 2%nat] /\ let_go calm_run.1 = [0%nat; 1%nat].
Proof.
  split; [by repeat constructor|]. split; [apply (script_trace true true); vm_compute; by eexists|]. split; [vm_compute; split_and!; done|]. split; [vm_compute; split_and!; done|].
  split; [by vm_compute|]. split; [by vm_compute|]. split; [by vm_compute|]. split; [apply (script_trace true true); vm_compute; by eexists|]. split; [by vm_compute|].
  split; by vm_compute.
Qed.

(** InsertOrAssign says OK after Close for an item that was never applied. *)
Definition drop_evs : list wev :=
  [EInsert (mk_item 1 1 7 0)] ++ works 20 ++ [EInsert (mk_item 2 1 7 0); EWake] ++ works 20 ++ [EClose; EOwed; EWake] ++ works 20.
Definition drop_run := script true true 100 lost_cfg drop_evs.
Theorem C62_ok_applied_refuted :
  cfg_ok lost_cfg /\ wk_trace (calm lost_cfg) 100 (wk_new (new_table lost_cfg) 0) drop_run.1 drop_run.2 /\ insert_call_done drop_run.2 /\
  arrivals drop_run.1 = [mk_item 1 1 7 0; mk_item 2 1 7 0] /\ applied drop_run.1 = [(0%nat, mk_item 1 1 7 0)].
Proof.
  split; [by repeat constructor|]. split; [apply (script_trace true true); vm_compute; by eexists|]. split; [vm_compute; split_and!; done|]. split; by vm_compute.
Qed.

(** InsertOrAssign does not return although its item has been applied: a sampling
    request that waits for more items keeps the worker in the state kBlocked. *)
Definition hang_cfg : tcfg := mkCfg 10 0 KFifo KFifo 1 2 (-100) 100.
Definition hang_evs : list wev := [ERequest 1 None] ++ works 20 ++ [EInsert (mk_item 1 1 7 0); EWake] ++ works 20.
Definition hang_run := script true true 100 hang_cfg hang_evs.
Theorem C62_returns_refuted :
  cfg_ok hang_cfg /\ wk_trace (calm hang_cfg) 100 (wk_new (new_table hang_cfg) 0) hang_run.1 hang_run.2 /\ quiet hang_run.2 /\ closed hang_run.1 = false /\
  arrivals hang_run.1 = [mk_item 1 1 7 0] /\ applied hang_run.1 = [(0%nat, mk_item 1 1 7 0)] /\ ~ insert_call_done hang_run.2.
Proof.
  split; [by repeat constructor|]. split; [apply (script_trace true true); vm_compute; by eexists|]. split; [vm_compute; split_and!; done|]. split; [by vm_compute|]. split; [by vm_compute|]. split; [by vm_compute|].
  vm_compute. by intros [? _].
Qed.

Print Assumptions C28_answered_once.
Print Assumptions C28_answer.
Print Assumptions C28_order.
Print Assumptions C28_quiet_partial.
Print Assumptions C28_comes_to_rest.
Print Assumptions C28_bounded.
Print Assumptions C28_close_partial.
Print Assumptions C28_refuted.
Print Assumptions C29_order.
Print Assumptions C29_prefix.
Print Assumptions C29_callbacks.
Print Assumptions C29_quiet_partial.
Print Assumptions C29_wakeup_refuted.
Print Assumptions C61_serial_partial.
Print Assumptions C61_no_crash_partial.
Print Assumptions C62_ok_applied_partial.
Print Assumptions C62_returns_partial.
Print Assumptions C62_ok_applied_refuted.
Print Assumptions C62_returns_refuted.
