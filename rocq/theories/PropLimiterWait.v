(** C25: no lost wake-ups in the rate limiter; C63: timeouts. *)
From Verif Require Import Base RateLimiter Selector SelPrio Trajectory Table EventLog TableProofs TableLog SelSpec PropSelectors TableSpec LogFacts PropTable PropLimiter LimiterWait.

Section WithFP.
Context {fp : FP} {laws : FPLaws fp}.

(** ** The limiter calls read off the code are all there are *)
Definition lacts (l : limiter) (al : list lact) : limiter := fold_left lact_do al l.
Lemma lacts_app l a b : lacts l (a ++ b) = lacts (lacts l a) b.
Proof. apply fold_left_app. Qed.

Lemma delete_acts_limiter t k st t' : delete_item t k = Some (st, t') -> t_limiter t' = lacts (t_limiter t) (delete_acts t k).
Proof.
  unfold delete_item, delete_acts. destruct (t_data t !! k) as [it|]; [|by intros [= <- <-]]. destruct (dec_eps _ _ _) as [[e n]|]; [|done].
  cbn [with_eps ext_op with_data with_limiter t_sampler]. destruct (sel_delete _ k) as [st1 s1]. destruct (decide (st1 = Ok)).
  - cbn [with_sampler t_remover]. destruct (sel_delete _ k) as [st2 s2]. intros [= <- <-]. done.
  - intros [= <- <-]. done.
Qed.
Lemma update_item_limiter t k p st t' : update_item t k p = (st, t') -> t_limiter t' = t_limiter t.
Proof.
  unfold update_item. destruct (t_data t !! k); [|by intros [= <- <-]]. cbn [with_data t_sampler]. destruct (sel_update _ k p) as [st1 s1]. destruct (decide (st1 = Ok)); [|by intros [= <- <-]].
  cbn [with_sampler t_remover]. destruct (sel_update _ k p) as [st2 s2]. destruct (decide (st2 = Ok)); by intros [= <- <-].
Qed.
Lemma insert_new_limiter t now d it st t' : insert_new t now d it = Some (st, t') ->
  t_limiter t' = lacts (t_limiter t) (insert_new_acts t now d it) /\ (st = Ok -> insert_new_acts t now d it <> []).
Proof.
  unfold insert_new, insert_new_acts. destruct (sel_insert _ _ _) as [st1 s1]. destruct (negb (bool_decide (st1 = Ok))) eqn:H1.
  { intros [= <- <-]. split; [done|]. intros ->. by rewrite bool_decide_true in H1. }
  destruct (sel_insert (t_remover (with_sampler _ _)) _ _) as [st2 s2]. destruct (negb (bool_decide (st2 = Ok))) eqn:H2.
  { intros [= <- <-]. split; [done|]. intros ->. by rewrite bool_decide_true in H2. }
  set (u := with_eps _ _ _). assert (Hl : t_limiter u = t_limiter t) by done. clearbody u. destruct (t_max_size u <? t_size u).
  - destruct (sel_sample (t_remover u) d) as [[victim q]|]; [|done]. destruct (delete_item u victim) as [[st3 u3]|] eqn:E; [|done].
    pose proof (delete_acts_limiter _ _ _ _ E) as Hd. rewrite Hl in Hd. destruct (negb (bool_decide (st3 = Ok))) eqn:H3.
    + intros [= <- <-]. rewrite app_nil_r. split; [done|]. intros ->. by rewrite bool_decide_true in H3.
    + intros [= <- <-]. split; [cbn [with_limiter t_limiter]; by rewrite lacts_app, Hd|]. intros _ Hn. apply app_eq_nil in Hn as [_ Hn]. done.
  - intros [= <- <-]. split; [cbn [with_limiter t_limiter]; by rewrite Hl|done].
Qed.
Lemma insert_resume_limiter t now d it r t' : insert_resume t now d it = Some (r, t') ->
  t_limiter t' = lacts (t_limiter t) (insert_resume_acts t now d it) /\ (r = RStatus Ok -> insert_resume_acts t now d it <> []).
Proof.
  unfold insert_resume, insert_resume_acts. destruct (await_can_insert _); [|by intros [= <- <-]|by intros [= <- <-]].
  destruct (t_data t !! it_key it).
  - destruct (update_item _ _ _) as [st u] eqn:E. intros [= <- <-]. split; [by apply update_item_limiter in E|done].
  - destruct (insert_new t now d it) as [[st u]|] eqn:E; [|done]. intros [= <- <-]. destruct (insert_new_limiter _ _ _ _ _ _ E) as [H1 H2]. split; [done|]. intros [= ->]. auto.
Qed.
Lemma sample_one_limiter t d limited st sm t' : sample_one t d limited = Some (st, sm, t') -> t_limiter t' = lacts (t_limiter t) (sample_one_acts t d).
Proof.
  unfold sample_one, sample_one_acts. destruct (sel_sample _ d) as [[k q]|]; [|done]. destruct (t_data t !! k) as [it|] eqn:Hk; [|done].
  set (u := ext_op _ _). assert (Hl : t_limiter u = t_limiter t) by (unfold u; by destruct (it_times it =? 0)).
  assert (Hm : t_max_times u = t_max_times t) by (unfold u; by destruct (it_times it =? 0)).
  assert (Hd : delete_acts u (it_key it) = delete_acts t (it_key it)).
  { unfold delete_acts, u. destruct (it_times it =? 0); cbn [ext_op with_data with_unique t_data]; (destruct (decide (k = it_key it)) as [->|Hne]; [by rewrite lookup_insert, Hk|by rewrite lookup_insert_ne]). }
  cbn [item_set_times it_times it_key]. rewrite Hm. clearbody u. destruct (_ =? _).
  - destruct (delete_item u _) as [[st' u']|] eqn:E; [|done]. intros [= <- <- <-]. apply delete_acts_limiter in E. by rewrite E, Hl, Hd.
  - intros [= <- <- <-]. done.
Qed.
Lemma sample_loop_limiter more : forall ds limited t st l t', sample_loop more ds limited t = Some (st, l, t') -> t_limiter t' = lacts (t_limiter t) (sample_loop_acts more ds limited t).
Proof.
  induction more as [|more IH]; intros ds limited t st l t' E; cbn [sample_loop sample_loop_acts] in *.
  - destruct (sample_one t (ds 0%nat) limited) as [[[st1 sm] t1]|] eqn:E1; [|done]. apply sample_one_limiter in E1. rewrite app_nil_r. destruct (negb _); injection E as <- <- <-; exact E1.
  - destruct (sample_one t (ds 0%nat) limited) as [[[st1 sm] t1]|] eqn:E1; [|done]. apply sample_one_limiter in E1. destruct (negb _); [injection E as <- <- <-; by rewrite app_nil_r|].
    destruct (maybe_commit_sample (t_limiter t1)) as [l1|] eqn:E2; [|injection E as <- <- <-; by rewrite app_nil_r].
    destruct (sample_loop more _ limited _) as [[[st2 sms] t2]|] eqn:E3; [|done]. injection E as <- <- <-. apply IH in E3. rewrite lacts_app, <- E1, E3. cbn [with_limiter t_limiter].
    unfold maybe_commit_sample in E2. destruct (can_sample _ _); [|done]. by injection E2 as <-.
Qed.
Lemma sample_resume_limiter t b ds r t' : sample_resume t b ds = Some (r, t') ->
  t_limiter t' = lacts (t_limiter t) (sample_resume_acts t b ds) /\ (r = RBlocked \/ l_cancelled (t_limiter t) = true \/ sample_resume_acts t b ds <> []).
Proof.
  unfold sample_resume, sample_resume_acts, await_sample. destruct (l_cancelled (t_limiter t)); [intros [= <- <-]; auto|]. destruct (can_sample _ _); [|intros [= <- <-]; auto].
  unfold sample_run. destruct (sample_loop _ _ _ _) as [[[st l] u]|] eqn:E; [|done]. intros [= <- <-]. apply sample_loop_limiter in E. split; [done|auto].
Qed.
Lemma delete_items_limiter ks : forall t st t', delete_items t ks = Some (st, t') -> t_limiter t' = lacts (t_limiter t) (delete_items_acts t ks).
Proof.
  induction ks as [|k ks IH]; intros t st t' E; cbn [delete_items delete_items_acts] in *; [by injection E as <- <-|].
  destruct (delete_item t k) as [[st1 t1]|] eqn:E1; [|done]. apply delete_acts_limiter in E1. rewrite lacts_app, <- E1. destruct (bool_decide _); [by eapply IH|by injection E as <- <-].
Qed.
Lemma update_items_limiter us : forall t st t', update_items t us = (st, t') -> t_limiter t' = t_limiter t.
Proof.
  induction us as [|[k p] us IH]; intros t st t' E; cbn [update_items] in E; [by injection E as <- <-|]. destruct (update_item t k p) as [st1 t1] eqn:E1. apply update_item_limiter in E1.
  destruct (bool_decide _); [rewrite <- E1; by eapply IH|by injection E as <- <-].
Qed.

(** The counters after a call are what the limiter calls make of them. *)
Lemma step_limiter t o r t' : step t o = Some (r, t') -> o <> OClose -> t_limiter t' = lacts (t_limiter t) (acts t o).
Proof.
  intros E Hc. destruct o as [now d it|now d it|b ds|b ds|us ks| |]; cbn [step acts] in *; try done.
  - unfold insert_or_assign, insert_acts in *. destruct (negb _); [by injection E as <- <-|]. destruct (t_data t !! it_key it).
    + destruct (update_item _ _ _) as [st u] eqn:E1. injection E as <- <-. by apply update_item_limiter in E1.
    + by apply insert_resume_limiter in E as [].
  - by apply insert_resume_limiter in E as [].
  - unfold sample_batch, sample_acts in *. destruct (maybe_commit_sample _) as [l|] eqn:E1; [|by apply sample_resume_limiter in E as []].
    unfold maybe_commit_sample in E1. destruct (can_sample _ _); [|done]. injection E1 as <-. unfold sample_run in E. destruct (sample_loop _ _ _ _) as [[[st l'] u]|] eqn:E2; [|done]. injection E as <- <-.
    by apply sample_loop_limiter in E2.
  - by apply sample_resume_limiter in E as [].
  - unfold mutate_items in E. destruct (delete_items t ks) as [[st1 t1]|] eqn:E1; [|done]. apply delete_items_limiter in E1. destruct (bool_decide _); [|by injection E as <- <-].
    destruct (update_items t1 us) as [st2 t2] eqn:E2. injection E as <- <-. apply update_items_limiter in E2. by rewrite E2.
  - by injection E as <- <-.
Qed.

(** ** Signals *)
Definition awake (ins : bool) (ws : list waiter) : Prop := exists x, x ∈ ws /\ inserting x = ins /\ wt_sig x = true.
Definition asleep (ins : bool) (ws : list waiter) : Prop := exists x, x ∈ ws /\ inserting x = ins /\ wt_sig x = false.
(** Who could go on has somebody awake ahead of them. *)
Definition good (l : limiter) (ws : list waiter) : Prop :=
  (can_insert l 1 = true -> asleep true ws -> awake true ws) /\ (can_sample l 1 = true -> asleep false ws -> awake false ws).

Lemma candidate_iff ins x : candidate ins x = true <-> inserting x = ins /\ wt_sig x = false.
Proof. unfold candidate. rewrite andb_true_iff, Bool.eqb_true_iff, negb_true_iff. done. Qed.

Lemma mark_spec ins n ws : forall y, y ∈ mark ins n ws -> exists x, x ∈ ws /\ wt_id y = wt_id x /\ wt_call y = wt_call x /\ (wt_sig x = true -> wt_sig y = true).
Proof.
  revert n. induction ws as [|x ws IH]; intros n y Hy; cbn [mark] in Hy; [by apply elem_of_nil in Hy|].
  assert (Hs : forall z, z ∈ ws -> exists x0, x0 ∈ x :: ws /\ wt_id z = wt_id x0 /\ wt_call z = wt_call x0 /\ (wt_sig x0 = true -> wt_sig z = true)) by (intros z Hz; exists z; split_and!; try done; by right).
  destruct (candidate ins x); [destruct n|].
  - apply elem_of_cons in Hy as [->|Hy]; [|by apply Hs]. exists x. split_and!; try done. by left.
  - apply elem_of_cons in Hy as [->|Hy]; [exists x; split_and!; try done; by left|]. apply IH in Hy as (z & Hz & ?). exists z. split; [by right|done].
  - apply elem_of_cons in Hy as [->|Hy]; [exists x; split_and!; try done; by left|]. apply IH in Hy as (z & Hz & ?). exists z. split; [by right|done].
Qed.
Lemma mark_awake k ins n ws : awake k ws -> awake k (mark ins n ws).
Proof.
  intros (x & Hx & H1 & H2). revert n. induction ws as [|y ws IH]; intros n; [by apply elem_of_nil in Hx|]. cbn [mark].
  apply elem_of_cons in Hx as [->|Hx].
  - assert (Hc : candidate ins y = false) by (unfold candidate; rewrite H2; by destruct (Bool.eqb _ _)). rewrite Hc. exists y. split; [by left|done].
  - destruct (candidate ins y); [destruct n|].
    + exists x. split; [by right|done].
    + destruct (IH Hx n) as (z & Hz & ?). exists z. split; [by right|done].
    + destruct (IH Hx n) as (z & Hz & ?). exists z. split; [by right|done].
Qed.
Lemma mark_asleep k ins n ws : asleep k (mark ins n ws) -> asleep k ws.
Proof.
  intros (y & Hy & H1 & H2). destruct (mark_spec _ _ _ _ Hy) as (x & Hx & _ & Hc & Hs). exists x. split; [done|]. unfold inserting in *. rewrite Hc in H1. split; [done|].
  destruct (wt_sig x); [|done]. rewrite Hs in H2 by done. done.
Qed.
Lemma mark_hit ins ws : forall n, (n < length (List.filter (candidate ins) ws))%nat -> awake ins (mark ins n ws).
Proof.
  induction ws as [|x ws IH]; intros n Hn; cbn [List.filter mark] in *; [cbn in Hn; lia|]. destruct (candidate ins x) eqn:Hc.
  - destruct n; [|destruct (IH n ltac:(cbn in Hn; lia)) as (z & Hz & ?); exists z; split; [by right|done]].
    apply candidate_iff in Hc as [Hc _]. exists (signalled x). split; [by left|done].
  - destruct (IH n Hn) as (z & Hz & ?). exists z. split; [by right|done].
Qed.
Lemma signal_hit ins p ws : asleep ins ws -> awake ins (signal ins p ws).
Proof.
  intros (x & Hx & H1 & H2). apply mark_hit. apply Nat.mod_upper_bound. intros H0. apply length_zero_iff_nil in H0.
  assert (Hin : In x (List.filter (candidate ins) ws)) by (apply filter_In; split; [by apply elem_of_list_In|by apply candidate_iff]). by rewrite H0 in Hin.
Qed.
Lemma maybe_signal_good l p ws : good l (maybe_signal l p ws).
Proof.
  unfold good, maybe_signal, signal. destruct (can_insert l 1), (can_sample l 1); split; try done; intros _ H.
  - apply mark_awake. apply mark_asleep, mark_asleep in H. by apply signal_hit.
  - apply mark_asleep in H. by apply signal_hit.
  - apply mark_asleep in H. by apply signal_hit.
  - apply mark_asleep in H. by apply signal_hit.
Qed.
Lemma deliver_good al : al <> [] -> forall l p ws, good (lacts l al) (deliver l al p ws).
Proof.
  induction al as [|a al IH]; [done|]. intros _ l p ws. cbn [deliver]. destruct al as [|b al]; [apply maybe_signal_good|]. by apply IH.
Qed.
Lemma deliver_spec al : forall l p ws y, y ∈ deliver l al p ws -> exists x, x ∈ ws /\ wt_id y = wt_id x /\ wt_call y = wt_call x /\ (wt_sig x = true -> wt_sig y = true).
Proof.
  induction al as [|a al IH]; intros l p ws y Hy; cbn [deliver] in Hy; [by exists y|].
  apply IH in Hy as (x & Hx & H1 & H2 & H3). unfold maybe_signal, signal in Hx.
  assert (HS : forall ins n v x, x ∈ mark ins n v -> exists z, z ∈ v /\ wt_id x = wt_id z /\ wt_call x = wt_call z /\ (wt_sig z = true -> wt_sig x = true)) by (intros; by eapply mark_spec).
  destruct (can_insert _ 1), (can_sample _ 1).
  - apply HS in Hx as (z & Hz & E1 & E2 & E3). apply HS in Hz as (z' & Hz' & E1' & E2' & E3'). exists z'. split_and!; try done; try congruence. auto.
  - apply HS in Hx as (z & Hz & E1 & E2 & E3). exists z. split_and!; try done; try congruence. auto.
  - apply HS in Hx as (z & Hz & E1 & E2 & E3). exists z. split_and!; try done; try congruence. auto.
  - by exists x.
Qed.
Lemma mark_ids ins n ws : wt_id <$> mark ins n ws = wt_id <$> ws.
Proof. revert n. induction ws as [|x ws IH]; intros n; [done|]. cbn [mark]. destruct (candidate ins x); [destruct n|]; cbn; by rewrite ?IH. Qed.
Lemma deliver_ids al : forall l p ws, wt_id <$> deliver l al p ws = wt_id <$> ws.
Proof.
  induction al as [|a al IH]; intros l p ws; [done|]. cbn [deliver]. rewrite IH. unfold maybe_signal, signal. destruct (can_insert _ _), (can_sample _ _); by rewrite ?mark_ids.
Qed.

(** ** The invariant *)
Record winv (cf : tcfg) (w : lw) : Prop := {
  wi_reached : exists os rs, reached cf os rs (lw_t w);
  wi_ids : NoDup (wt_id <$> lw_ws w);
  wi_next : Forall (fun x => (wt_id x < lw_next w)%nat) (lw_ws w);
  wi_prio : Forall (fun x => match wt_call x with WInsert it => prio_ok cf (it_prio it) | WSample _ => True end) (lw_ws w);
  wi_good : l_cancelled (t_limiter (lw_t w)) = false -> good (t_limiter (lw_t w)) (lw_ws w);
  wi_closed : l_cancelled (t_limiter (lw_t w)) = true -> Forall (fun x => wt_sig x = true) (lw_ws w) }.

(** All priorities are accepted. *)
Definition accepted (cf : tcfg) (w : lw) (e : lev) : Prop :=
  match e with
  | VCall (OInsert _ _ it) _ => prio_ok cf (it_prio it)
  | VCall (OMutate us _) _ => Forall (fun u => prio_ok cf u.2) us
  | _ => True
  end.
(** Moreover, no thread that has been signalled reports a timeout. *)
Definition regular (cf : tcfg) (w : lw) (e : lev) : Prop :=
  accepted cf w e /\ match e with VTimeout i => forall x, x ∈ lw_ws w -> wt_id x = i -> wt_sig x = false | _ => True end.

Lemma find_spec i ws x : List.find (of_id i) ws = Some x -> x ∈ ws /\ wt_id x = i.
Proof. intros H. apply find_some in H as [H1 H2]. split; [by apply elem_of_list_In|]. by apply Nat.eqb_eq. Qed.
Lemma others_in i ws x : x ∈ others i ws <-> x ∈ ws /\ wt_id x <> i.
Proof.
  unfold others. rewrite elem_of_list_In, filter_In, <- elem_of_list_In. unfold of_id. rewrite negb_true_iff, Nat.eqb_neq. done.
Qed.
Lemma others_ids i ws : NoDup (wt_id <$> ws) -> NoDup (wt_id <$> others i ws).
Proof.
  unfold others. induction ws as [|x ws IH]; [done|]. cbn. intros [Hn Hd]%NoDup_cons. destruct (negb (of_id i x)); [|by apply IH]. cbn. apply NoDup_cons. split; [|by apply IH].
  intros Hin. apply Hn. apply elem_of_list_fmap in Hin as (y & -> & Hy). apply elem_of_list_fmap. exists y. split; [done|]. apply (others_in i) in Hy as [Hy _]. done.
Qed.
Lemma wait_again_ids i ws : wt_id <$> wait_again i ws = wt_id <$> ws.
Proof. unfold wait_again. rewrite <- list_fmap_compose. apply list_fmap_ext. intros ? x _. cbn. by destruct (of_id i x). Qed.

Lemma lact_cancelled al : forall l, l_cancelled (lacts l al) = l_cancelled l.
Proof. induction al as [|a al IH]; intros l; [done|]. change (lacts l (a :: al)) with (lacts (lact_do l a) al). rewrite IH. by destruct a. Qed.

(** Who waits is held back by the limiter at that moment. *)
Lemma blocked_why t o t' : step t o = Some (RBlocked, t') -> t' = t /\ l_cancelled (t_limiter t) = false /\
  match o with
  | OInsert _ _ _ | OInsertWake _ _ _ => can_insert (t_limiter t) 1 = false
  | OSample _ _ | OSampleWake _ _ => can_sample (t_limiter t) 1 = false
  | _ => False
  end.
Proof.
  assert (HI : forall now d it, insert_resume t now d it = Some (RBlocked, t') -> t' = t /\ l_cancelled (t_limiter t) = false /\ can_insert (t_limiter t) 1 = false).
  { intros now d it. unfold insert_resume, await_can_insert. destruct (l_cancelled _); [done|]. destruct (can_insert _ _); [|by intros [= <-]].
    destruct (t_data t !! it_key it); [by destruct (update_item _ _ _)|]. by destruct (insert_new _ _ _ _) as [[]|]. }
  assert (HS : forall b ds, sample_resume t b ds = Some (RBlocked, t') -> t' = t /\ l_cancelled (t_limiter t) = false /\ can_sample (t_limiter t) 1 = false).
  { intros b ds. unfold sample_resume, await_sample. destruct (l_cancelled _); [done|]. destruct (can_sample _ _); [|by intros [= <-]]. unfold sample_run. by destruct (sample_loop _ _ _ _) as [[[]]|]. }
  intros E. destruct o as [now d it|now d it|b ds|b ds|us ks| |]; cbn [step] in E; eauto.
  - unfold insert_or_assign in E. destruct (negb _); [done|]. destruct (t_data t !! it_key it); [by destruct (update_item _ _ _)|]. eauto.
  - unfold sample_batch in E. destruct (maybe_commit_sample _); [|eauto]. unfold sample_run in E. by destruct (sample_loop _ _ _ _) as [[[]]|].
  - unfold mutate_items in E. destruct (delete_items t ks) as [[]|]; [|done]. destruct (bool_decide _); [|done]. by destruct (update_items _ _).
  - discriminate E.
  - discriminate E.
Qed.

(** A thread that wakes up and does not wait again has told the limiter, or the
    limiter has been cancelled. *)
Lemma wake_tells cf t c now ds r t' : tinv cf t -> (forall i, draw_ok (ds i)) -> match c with WInsert it => prio_ok cf (it_prio it) | WSample _ => True end ->
  step t (wake_op c now ds) = Some (r, t') -> r = RBlocked \/ l_cancelled (t_limiter t) = true \/ acts t (wake_op c now ds) <> [].
Proof.
  intros I Hd Hp E. destruct c as [it|b]; cbn [wake_op step acts] in *.
  - destruct (insert_resume_limiter _ _ _ _ _ _ E) as [_ H]. unfold insert_resume, await_can_insert in E. destruct (l_cancelled _); [auto|]. destruct (can_insert _ _); [|injection E as <- <-; auto].
    right; right. apply H. destruct (t_data t !! it_key it) as [old|] eqn:Hk.
    + destruct (update_item_inv cf t (it_key it) (it_prio it) I Hp) as (u & E1 & _). rewrite E1 in E. by injection E as <- <-.
    + destruct (insert_new_spec cf t now (ds 0%nat) it I Hp (Hd _) Hk) as (u & E1 & _). rewrite E1 in E. by injection E as <- <-.
  - by apply sample_resume_limiter in E as [_ H].
Qed.

Lemma wake_op_ok cf c now ds : (forall i, draw_ok (ds i)) -> match c with WInsert it => prio_ok cf (it_prio it) | WSample _ => True end -> op_ok cf (wake_op c now ds).
Proof. intros Hd Hp. destruct c; [by split|done]. Qed.
Lemma call_op_ok cf w o p : is_call o = true -> lev_can (VCall o p) -> accepted cf w (VCall o p) -> op_ok cf o.
Proof. intros Hc H1 H2. destruct o; cbn in *; try done. Qed.

Lemma in_find i ws x : x ∈ ws -> wt_id x = i -> NoDup (wt_id <$> ws) -> List.find (of_id i) ws = Some x.
Proof.
  induction ws as [|y ws IH]; intros Hx Hi Hd; [by apply elem_of_nil in Hx|]. cbn [fmap list_fmap] in Hd. apply NoDup_cons in Hd as [Hn Hd]. cbn [List.find]. unfold of_id at 1.
  apply elem_of_cons in Hx as [->|Hx]; [by rewrite Hi, Nat.eqb_refl|]. destruct (Nat.eqb_spec (wt_id y) i) as [He|He]; [|by apply IH].
  destruct Hn. rewrite He, <- Hi. apply elem_of_list_fmap. by exists x.
Qed.

Lemma winv_step cf w e w' o r : winv cf w -> lev_can e -> regular cf w e -> lw_step w e = LNext w' o r -> winv cf w'.
Proof.
  intros I He [Ha Hr] E. destruct I as [[os [rs RE]] Hids Hnext Hprio Hgood Hclosed].
  pose proof (reached_linv _ _ _ _ RE) as LI. destruct LI as [TI _ _].
  destruct e as [o0 pick|i now ds pick|i]; cbn [lw_step] in E.
  - (* a call *)
    destruct (is_call o0) eqn:Hic; [cbn [negb] in E|done]. pose proof (call_op_ok cf w o0 pick Hic He Ha) as Hok.
    destruct (step (lw_t w) o0) as [[r0 t']|] eqn:Es; [|done]. pose proof (reached_snoc _ _ _ _ _ _ _ RE Hok Es) as RE'.
    assert (Hcase : (r0 = RBlocked /\ exists c, waits_as o0 = Some c /\ w' = mkLw t' (lw_ws w ++ [mkWaiter (lw_next w) c false]) (S (lw_next w))) \/
      (r0 <> RBlocked /\ w' = mkLw t' (match o0 with OClose => signalled <$> lw_ws w | _ => deliver (t_limiter (lw_t w)) (acts (lw_t w) o0) pick (lw_ws w) end) (lw_next w))).
    { destruct r0; [right|right|left]; [by injection E as <- <- <-|by injection E as <- <- <-|]. split; [done|]. destruct (waits_as o0) as [c|]; [|done]. exists c. by injection E as <- <- <-. }
    destruct Hcase as [[-> (c & Hw & ->)]|[Hnb ->]].
    + destruct (blocked_why _ _ _ Es) as (-> & Hca & Hwhy). split; cbn [lw_t lw_ws lw_next].
      * by exists (os ++ [o0]), (rs ++ [RBlocked]).
      * rewrite fmap_app. apply NoDup_app. split_and!; [done| |by apply NoDup_singleton]. intros j Hj Hj'. apply elem_of_list_singleton in Hj'. cbn [wt_id] in Hj'. subst j.
        apply elem_of_list_fmap in Hj as (x & Hx & Hin). rewrite Forall_forall in Hnext. specialize (Hnext _ Hin). lia.
      * apply Forall_app. split; [eapply Forall_impl; [exact Hnext|]; cbn; lia|]. constructor; [cbn; lia|constructor].
      * apply Forall_app. split; [done|]. constructor; [|constructor]. destruct o0; try done; injection Hw as <-; done.
      * intros _. destruct (Hgood Hca) as [G1 G2]. split; intros Hcan (x & Hx & H1 & H2); apply elem_of_app in Hx as [Hx|Hx].
        -- destruct G1 as (y & Hy & ?); [done|by exists x|]. exists y. split; [apply elem_of_app; by left|done].
        -- apply elem_of_list_singleton in Hx. subst x. destruct o0; try done; injection Hw as <-; cbn in H1; try done. congruence.
        -- destruct G2 as (y & Hy & ?); [done|by exists x|]. exists y. split; [apply elem_of_app; by left|done].
        -- apply elem_of_list_singleton in Hx. subst x. destruct o0; try done; injection Hw as <-; cbn in H1; try done. congruence.
      * congruence.
    + assert (Hoc : o0 = OClose \/ o0 <> OClose) by (destruct o0; auto; by right). destruct Hoc as [->|Hnc].
      * injection Es as <- <-. split; cbn [lw_t lw_ws lw_next].
        -- by exists (os ++ [OClose]), (rs ++ [RStatus Ok]).
        -- by rewrite <- list_fmap_compose.
        -- apply Forall_fmap. eapply Forall_impl; [exact Hnext|done].
        -- apply Forall_fmap. eapply Forall_impl; [exact Hprio|done].
        -- done.
        -- intros _. apply Forall_fmap. apply Forall_true. done.
      * assert (Hws : match o0 with OClose => signalled <$> lw_ws w | _ => deliver (t_limiter (lw_t w)) (acts (lw_t w) o0) pick (lw_ws w) end = deliver (t_limiter (lw_t w)) (acts (lw_t w) o0) pick (lw_ws w)) by (by destruct o0).
        rewrite Hws. clear Hws. pose proof (step_limiter _ _ _ _ Es Hnc) as Hl. split; cbn [lw_t lw_ws lw_next].
        -- by exists (os ++ [o0]), (rs ++ [r0]).
        -- by rewrite deliver_ids.
        -- apply Forall_forall. intros y Hy. apply deliver_spec in Hy as (x & Hx & -> & _). rewrite Forall_forall in Hnext. by apply Hnext.
        -- apply Forall_forall. intros y Hy. apply deliver_spec in Hy as (x & Hx & _ & -> & _). rewrite Forall_forall in Hprio. by apply Hprio.
        -- rewrite Hl, lact_cancelled. intros Hca. destruct (acts (lw_t w) o0) as [|a al] eqn:Eal; [by apply Hgood|]. by apply deliver_good.
        -- rewrite Hl, lact_cancelled. intros Hca. apply Forall_forall. intros y Hy. apply deliver_spec in Hy as (x & Hx & _ & _ & H). apply H. specialize (Hclosed Hca). rewrite Forall_forall in Hclosed. by apply Hclosed.
  - (* a thread wakes up *)
    destruct (List.find (of_id i) (lw_ws w)) as [x|] eqn:Ef; [|done]. destruct (find_spec _ _ _ Ef) as [Hx <-].
    assert (Hp : match wt_call x with WInsert it => prio_ok cf (it_prio it) | WSample _ => True end) by (rewrite Forall_forall in Hprio; by apply Hprio).
    pose proof (wake_op_ok cf (wt_call x) now ds He Hp) as Hok. destruct (step (lw_t w) (wake_op (wt_call x) now ds)) as [[r0 t']|] eqn:Es; [|done].
    pose proof (reached_snoc _ _ _ _ _ _ _ RE Hok Es) as RE'. pose proof (wake_tells cf _ _ _ _ _ _ TI He Hp Es) as Ht.
    assert (Hcase : (r0 = RBlocked /\ w' = mkLw t' (wait_again (wt_id x) (lw_ws w)) (lw_next w)) \/
      (r0 <> RBlocked /\ w' = mkLw t' (deliver (t_limiter (lw_t w)) (acts (lw_t w) (wake_op (wt_call x) now ds)) pick (others (wt_id x) (lw_ws w))) (lw_next w))).
    { destruct r0; [right|right|left]; by injection E as <- <- <-. }
    destruct Hcase as [[-> ->]|[Hnb ->]].
    + destruct (blocked_why _ _ _ Es) as (-> & Hca & Hwhy). 
      assert (Hwa : forall y, y ∈ wait_again (wt_id x) (lw_ws w) -> exists z, z ∈ lw_ws w /\ wt_id y = wt_id z /\ wt_call y = wt_call z /\ (wt_id z <> wt_id x -> y = z) /\ (wt_id z = wt_id x -> z = x)).
      { intros y Hy. apply elem_of_list_fmap in Hy as (z & -> & Hz). exists z. split; [done|]. unfold of_id. destruct (Nat.eqb_spec (wt_id z) (wt_id x)); split_and!; try done; intros Heq; try congruence.
        pose proof (in_find _ _ z Hz Heq Hids) as F1. rewrite Ef in F1. congruence. }
      split; cbn [lw_t lw_ws lw_next].
      * by exists (os ++ [wake_op (wt_call x) now ds]), (rs ++ [RBlocked]).
      * by rewrite wait_again_ids.
      * apply Forall_forall. intros y Hy. apply Hwa in Hy as (z & Hz & -> & _). rewrite Forall_forall in Hnext. by apply Hnext.
      * apply Forall_forall. intros y Hy. apply Hwa in Hy as (z & Hz & _ & -> & _). rewrite Forall_forall in Hprio. by apply Hprio.
      * intros _. destruct (Hgood Hca) as [G1 G2].
        assert (HK : forall ins, (asleep ins (lw_ws w) -> awake ins (lw_ws w)) -> inserting x <> ins -> asleep ins (wait_again (wt_id x) (lw_ws w)) -> awake ins (wait_again (wt_id x) (lw_ws w))).
        { intros ins G Hne (y & Hy & H1 & H2). apply Hwa in Hy as (z & Hz & E1 & E2 & E3 & E4).
          assert (Hzx : wt_id z <> wt_id x) by (intros Heq; apply E4 in Heq; subst z; apply Hne; unfold inserting in *; by rewrite <- E2).
          rewrite (E3 Hzx) in H1, H2. destruct G as (v & Hv & V1 & V2); [by exists z|]. exists v. split; [|done]. apply elem_of_list_fmap. exists v. split; [|done].
          unfold of_id. destruct (Nat.eqb_spec (wt_id v) (wt_id x)) as [Heq|]; [|done]. pose proof (in_find _ _ v Hv Heq Hids) as F1. rewrite Ef in F1. injection F1 as ->. done. }
        unfold inserting in HK. destruct (wt_call x) as [it|b] eqn:Ec; cbn [wake_op] in Hwhy; split; intros Hcan; try congruence; [apply HK; [by apply G2|done]|apply HK; [by apply G1|done]].
      * congruence.
    + assert (Hnc : wake_op (wt_call x) now ds <> OClose) by (by destruct (wt_call x)). pose proof (step_limiter _ _ _ _ Es Hnc) as Hl. split; cbn [lw_t lw_ws lw_next].
      * by exists (os ++ [wake_op (wt_call x) now ds]), (rs ++ [r0]).
      * rewrite deliver_ids. by apply others_ids.
      * apply Forall_forall. intros y Hy. apply deliver_spec in Hy as (z & Hz & -> & _). apply others_in in Hz as [Hz _]. rewrite Forall_forall in Hnext. by apply Hnext.
      * apply Forall_forall. intros y Hy. apply deliver_spec in Hy as (z & Hz & _ & -> & _). apply others_in in Hz as [Hz _]. rewrite Forall_forall in Hprio. by apply Hprio.
      * rewrite Hl, lact_cancelled. intros Hca. destruct Ht as [?|[?|Ht]]; [done|congruence|]. by apply deliver_good.
      * rewrite Hl, lact_cancelled. intros Hca. apply Forall_forall. intros y Hy. apply deliver_spec in Hy as (z & Hz & _ & _ & H). apply others_in in Hz as [Hz _]. apply H. specialize (Hclosed Hca). rewrite Forall_forall in Hclosed. by apply Hclosed.
  - (* a timeout *)
    destruct (List.find (of_id i) (lw_ws w)) as [x|] eqn:Ef; [|done]. injection E as <- <- <-. destruct (find_spec _ _ _ Ef) as [Hx <-]. cbn in Hr. specialize (Hr x Hx eq_refl). split; cbn [lw_t lw_ws lw_next].
    + by exists os, rs.
    + by apply others_ids.
    + apply Forall_forall. intros y Hy. apply others_in in Hy as [Hy _]. rewrite Forall_forall in Hnext. by apply Hnext.
    + apply Forall_forall. intros y Hy. apply others_in in Hy as [Hy _]. rewrite Forall_forall in Hprio. by apply Hprio.
    + intros Hca. destruct (Hgood Hca) as [G1 G2].
      assert (HK : forall ins, (asleep ins (lw_ws w) -> awake ins (lw_ws w)) -> asleep ins (others (wt_id x) (lw_ws w)) -> awake ins (others (wt_id x) (lw_ws w))).
      { intros ins G (y & Hy & H1 & H2). apply others_in in Hy as [Hy _]. destruct G as (v & Hv & V1 & V2); [by exists y|]. exists v. split; [|done]. apply others_in. split; [done|]. intros Heq.
        pose proof (in_find _ _ v Hv Heq Hids) as F1. rewrite Ef in F1. injection F1 as ->. congruence. }
      split; intros Hcan; apply HK; auto.
    + intros Hca. apply Forall_forall. intros y Hy. apply others_in in Hy as [Hy _]. specialize (Hclosed Hca). rewrite Forall_forall in Hclosed. by apply Hclosed.
Qed.

Lemma winv_trace cf tr w : cfg_ok cf -> lw_trace (regular cf) (lw_new (new_table cf)) tr w -> winv cf w.
Proof.
  intros Hc. induction 1 as [|tr w e w' o r H IH He Ha E]; [|by eapply winv_step].
  split; cbn [lw_new lw_t lw_ws lw_next]; [exists [], []; by split|constructor|constructor|constructor| |constructor].
  intros _. split; intros _ (x & Hx & _); by apply elem_of_nil in Hx.
Qed.

(** ** C25 *)

(** Whenever no thread has been signalled, nobody waits without need: the table is
    not closed, an inserting thread is one that the rate limit forbids to insert, a
    sampling thread one that the rate limit forbids to sample.
    Missing from the full statement: priorities that a Prioritized selector rejects
    (C25_refuted). *)
Theorem C25_no_lost_wakeup_partial cf tr w x : cfg_ok cf -> lw_trace (regular cf) (lw_new (new_table cf)) tr w ->
  Forall (fun x => wt_sig x = false) (lw_ws w) -> x ∈ lw_ws w ->
  l_cancelled (t_limiter (lw_t w)) = false /\
  match wt_call x with
  | WInsert _ => ~ insert_allowed cf (t_log (lw_t w))
  | WSample _ => ~ sample_allowed cf (t_log (lw_t w))
  end.
Proof.
  intros Hc H Hs Hx. destruct (winv_trace _ _ _ Hc H) as [(os & rs & RE) _ _ _ G C]. rewrite Forall_forall in Hs.
  assert (Hca : l_cancelled (t_limiter (lw_t w)) = false).
  { destruct (l_cancelled _); [|done]. specialize (C eq_refl). rewrite Forall_forall in C. specialize (C _ Hx). by rewrite (Hs _ Hx) in C. }
  split; [done|]. destruct (G Hca) as [G1 G2].
  assert (HN : forall ins, ~ awake ins (lw_ws w)) by (intros ins (y & Hy & _ & Hsy); by rewrite (Hs _ Hy) in Hsy).
  pose proof (reached_linv _ _ _ _ RE) as LI. destruct (wt_call x) eqn:Ec.
  - apply can_insert_no; [done|]. destruct (can_insert _ 1); [|done]. destruct (HN true). apply G1; [done|]. exists x. split_and!; [done|unfold inserting; by rewrite Ec|by apply Hs].
  - apply can_sample_no; [done|]. destruct (can_sample _ 1); [|done]. destruct (HN false). apply G2; [done|]. exists x. split_and!; [done|unfold inserting; by rewrite Ec|by apply Hs].
Qed.

(** The signalled threads come to rest: if from some state on only signalled threads
    run, each of their turns lowers this measure. *)
Definition nsig (ws : list waiter) : nat := length (List.filter wt_sig ws).
Definition turns (ws : list waiter) : nat := (length ws * S (length ws) + nsig ws)%nat.

Lemma nsig_le ws : (nsig ws <= length ws)%nat.
Proof. unfold nsig. induction ws as [|x ws IH]; cbn; [lia|]. destruct (wt_sig x); cbn; lia. Qed.
Lemma others_length i ws x : x ∈ ws -> wt_id x = i -> (length (others i ws) < length ws)%nat.
Proof.
  unfold others. assert (HL : forall ws, (length (List.filter (fun x => negb (of_id i x)) ws) <= length ws)%nat) by (clear; induction ws as [|y ws IH]; cbn; [lia|]; destruct (of_id i y); cbn; lia).
  induction ws as [|y ws IH]; intros Hx Hi; [by apply elem_of_nil in Hx|]. cbn. apply elem_of_cons in Hx as [->|Hx].
  - unfold of_id at 1. rewrite Hi, Nat.eqb_refl. cbn. specialize (HL ws). lia.
  - specialize (IH Hx Hi). destruct (of_id i y); cbn; lia.
Qed.
Lemma wait_again_nsig i ws x : x ∈ ws -> wt_id x = i -> wt_sig x = true -> (nsig (wait_again i ws) < nsig ws)%nat.
Proof.
  unfold nsig, wait_again. assert (HL : forall ws, (length (List.filter wt_sig ((fun x => if of_id i x then mkWaiter (wt_id x) (wt_call x) false else x) <$> ws)) <= length (List.filter wt_sig ws))%nat).
  { clear. induction ws as [|y ws IH]; cbn; [lia|]. destruct (of_id i y); cbn; [destruct (wt_sig y); cbn; lia|]. destruct (wt_sig y); cbn; lia. }
  induction ws as [|y ws IH]; intros Hx Hi Hs; [by apply elem_of_nil in Hx|]. cbn. apply elem_of_cons in Hx as [->|Hx].
  - unfold of_id at 1. rewrite Hi, Nat.eqb_refl. cbn. rewrite Hs. cbn. specialize (HL ws). cbn in HL. lia.
  - specialize (IH Hx Hi Hs). destruct (of_id i y); cbn; destruct (wt_sig y); cbn in *; lia.
Qed.
Lemma deliver_length al : forall l p ws, length (deliver l al p ws) = length ws.
Proof. intros l p ws. rewrite <- (fmap_length wt_id), deliver_ids, fmap_length. done. Qed.

(** The thread that runs has been signalled. *)
Definition runs_signalled (w : lw) (e : lev) : Prop :=
  match e with VWake i _ _ _ => exists x, x ∈ lw_ws w /\ wt_id x = i /\ wt_sig x = true | _ => False end.

Lemma turn cf w e w' o r : winv cf w -> runs_signalled w e -> lw_step w e = LNext w' o r -> (turns (lw_ws w') < turns (lw_ws w))%nat.
Proof.
  intros I Hs E. destruct e as [|i now ds pick|]; try done. destruct Hs as (x & Hx & Hi & Hsg). cbn [lw_step] in E. rewrite (in_find _ _ x Hx Hi (wi_ids _ _ I)) in E.
  destruct (step _ _) as [[r0 t']|]; [|done].
  assert (HD : forall ws, ws = deliver (t_limiter (lw_t w)) (acts (lw_t w) (wake_op (wt_call x) now ds)) pick (others i (lw_ws w)) -> (turns ws < turns (lw_ws w))%nat).
  { intros ws ->. unfold turns. pose proof (nsig_le (deliver (t_limiter (lw_t w)) (acts (lw_t w) (wake_op (wt_call x) now ds)) pick (others i (lw_ws w)))) as H1. rewrite deliver_length in *.
    pose proof (others_length i _ x Hx Hi) as H2. set (n := length (others i (lw_ws w))) in *. set (m := length (lw_ws w)) in *. clearbody n m. nia. }
  destruct r0; injection E as <- <- <-; cbn [lw_ws]; [by apply HD|by apply HD|].
  unfold turns. pose proof (wait_again_nsig i _ x Hx Hi Hsg). assert (HL : length (wait_again i (lw_ws w)) = length (lw_ws w)) by apply fmap_length. rewrite HL. lia.
Qed.

(** However the signalled threads take turns, after at most [turns] turns none is left. *)
Theorem C25_bounded cf tr w : cfg_ok cf -> lw_trace (regular cf) (lw_new (new_table cf)) tr w ->
  exists n, forall tr' w', lw_trace (fun w e => regular cf w e /\ runs_signalled w e) w tr' w' -> (length tr' <= n)%nat.
Proof.
  intros Hc H. exists (turns (lw_ws w)). intros tr' w' H'. enough (winv cf w' /\ length tr' + turns (lw_ws w') <= turns (lw_ws w))%nat by lia.
  pose proof (winv_trace _ _ _ Hc H) as I. clear H. induction H' as [|tr' w1 e w2 o r H1 [I1 IH] He [Ha Hs] E]; [split; [done|cbn; lia]|].
  pose proof (turn _ _ _ _ _ _ I1 Hs E). split; [by eapply winv_step|]. rewrite app_length. cbn [length]. lia.
Qed.

(** A signalled thread can always take its turn: the process does not crash. *)
Theorem C25_runs cf tr w x now ds pick : cfg_ok cf -> lw_trace (regular cf) (lw_new (new_table cf)) tr w -> (forall i, draw_ok (ds i)) -> x ∈ lw_ws w ->
  exists w' o r, lw_step w (VWake (wt_id x) now ds pick) = LNext w' o r.
Proof.
  intros Hc H Hd Hx. destruct (winv_trace _ _ _ Hc H) as [(os & rs & RE) Hids _ Hp _ _]. cbn [lw_step]. rewrite (in_find _ _ x Hx eq_refl Hids).
  rewrite Forall_forall in Hp. destruct (reached_linv _ _ _ _ RE) as [TI _ _]. destruct (step_inv cf (lw_t w) (wake_op (wt_call x) now ds) Hc TI (wake_op_ok _ _ _ _ Hd (Hp _ Hx))) as (r & t' & -> & _).
  destruct r; eauto.
Qed.

End WithFP.

(** ** Concrete cases *)

Local Existing Instance fp_exact.
Local Existing Instance fp_exact_laws.
Local Existing Instance fp_exact_exact.

Definition prio_okb (cf : tcfg) (p : dbl) : bool := accepts (c_sampler cf) p && accepts (c_remover cf) p.
Definition accb (cf : tcfg) (e : lev) : bool :=
  match e with
  | VCall (OInsert _ _ it) _ => prio_okb cf (it_prio it)
  | VCall (OMutate us _) _ => forallb (fun u => prio_okb cf u.2) us
  | _ => true
  end.
Definition regb (cf : tcfg) (w : lw) (e : lev) : bool :=
  accb cf e && match e with VTimeout i => forallb (fun x => negb (of_id i x) || negb (wt_sig x)) (lw_ws w) | _ => true end.
Lemma accb_ok cf w e : accb cf e = true -> accepted cf w e.
Proof.
  assert (HP : forall p, prio_okb cf p = true -> prio_ok cf p) by (intros p; unfold prio_okb, prio_ok; by intros [? ?]%andb_true_iff).
  intros H. destruct e as [o pick| |]; [|done|done]. destruct o; try done; cbn in *; [by apply HP|].
  apply Forall_forall. intros u Hu. apply HP. rewrite forallb_forall in H. apply H. by apply elem_of_list_In.
Qed.
Lemma regb_ok cf w e : regb cf w e = true -> regular cf w e.
Proof.
  unfold regb, regular. intros [H1 H2]%andb_true_iff. split; [by apply accb_ok|]. destruct e; try done. intros x Hx Hi. rewrite forallb_forall in H2. apply elem_of_list_In in Hx. specialize (H2 _ Hx).
  unfold of_id in H2. rewrite Hi, Nat.eqb_refl in H2. cbn in H2. by destruct (wt_sig x).
Qed.

Fixpoint lplay (ok : lw -> lev -> bool) (evs : list lev) (tr : list (lev * result)) (w : lw) : option (list (lev * result) * lw) :=
  match evs with
  | [] => Some (tr, w)
  | e :: evs => if ok w e then match lw_step w e with LNext w' _ r => lplay ok evs (tr ++ [(e, r)]) w' | _ => None end else None
  end.
Lemma lplay_trace (A : lw -> lev -> Prop) ok w0 evs : (forall w e, ok w e = true -> A w e) -> Forall lev_can evs ->
  forall tr w tr' w', lw_trace A w0 tr w -> lplay ok evs tr w = Some (tr', w') -> lw_trace A w0 tr' w'.
Proof.
  intros Hok. induction 1 as [|e evs He Hes IH]; intros tr w tr' w' H E; cbn [lplay] in E; [by injection E as <- <-|].
  destruct (ok w e) eqn:Ho; [|discriminate E]. destruct (lw_step w e) as [w1 o r| |] eqn:Es; [|discriminate E|discriminate E]. eapply IH; [|exact E]. econstructor; eauto.
Qed.
Definition lscript (cf : tcfg) (ok : lw -> lev -> bool) (evs : list lev) : list (lev * result) * lw :=
  default ([], lw_new (new_table cf)) (lplay ok evs [] (lw_new (new_table cf))).
Lemma lscript_trace (A : lw -> lev -> Prop) cf ok evs : (forall w e, ok w e = true -> A w e) -> Forall lev_can evs -> is_Some (lplay ok evs [] (lw_new (new_table cf))) ->
  lw_trace A (lw_new (new_table cf)) (lscript cf ok evs).1 (lscript cf ok evs).2.
Proof.
  intros Hok He [[tr w] E]. unfold lscript. rewrite E. cbn [default fst snd]. eapply lplay_trace; [exact Hok|exact He| |exact E]. constructor.
Qed.
Definition pick0 : nat -> nat := fun _ => 0%nat.
Definition v_insert (k : Z) (p : Q) : lev := VCall (OInsert (1, 0) d0 (mk_item k p 7 0)) pick0.
Definition v_sample : lev := VCall (OSample 1 ds0) pick0.
Definition v_wake (i : nat) : lev := VWake i (1, 0) ds0 pick0.
Ltac levs_ok := repeat first [exact d0_ok | exact (fun _ => d0_ok) | exact Logic.I | constructor].

(** A sampler waits for the first item, an inserter for that sample, a second sampler
    for the second item, and in the end the insertion of a fourth item waits. *)
Definition w_cfg : tcfg := mkCfg 10 0 KFifo KFifo 1 1 0 1.
Definition w_evs : list lev := [v_sample; v_insert 1 1; v_insert 2 1; v_wake 0; v_sample; v_wake 1; v_wake 2; v_insert 3 1; v_insert 4 1].
Definition w_run := lscript w_cfg (regb w_cfg) w_evs.
Example C25_example :
  cfg_ok w_cfg /\ lw_trace (regular w_cfg) (lw_new (new_table w_cfg)) w_run.1 w_run.2 /\
  lw_ws w_run.2 = [mkWaiter 3 (WInsert (mk_item 4 1 7 0)) false] /\
  (forall x, x ∈ w_run.1 -> match x with (VCall (OSample _ _) _, r) => r = RBlocked | (VWake _ _ _ _, r) => r <> RBlocked | _ => True end) /\
  lw_ws (lscript w_cfg (regb w_cfg) (take 3 w_evs)).2 = [mkWaiter 0 (WSample 1) true; mkWaiter 1 (WInsert (mk_item 2 1 7 0)) false].
Proof.
  split; [by repeat constructor|]. split; [apply lscript_trace; [apply regb_ok|levs_ok|vm_compute; by eexists]|]. split; [by vm_compute|]. split; [|by vm_compute].
  apply Forall_forall. vm_compute. repeat constructor; discriminate.
Qed.

(** A thread that is woken with a rejected priority does not pass the signal on:
    items 2 and 3 wait, the deletion of item 1 wakes the thread of item 2, which fails,
    and the thread of item 3 waits for ever although it may insert. *)
Definition r_cfg : tcfg := mkCfg 10 0 (KPrio 1) KFifo 1 1 (-100) 1.
Definition r_evs : list lev := [v_insert 1 1; v_insert 2 (-1); v_insert 3 1; VCall (OMutate [] [1]) pick0; v_wake 0].
Definition r_run := lscript r_cfg (fun _ _ => true) r_evs.
Theorem C25_refuted :
  cfg_ok r_cfg /\ lw_trace (fun _ _ => True) (lw_new (new_table r_cfg)) r_run.1 r_run.2 /\
  lw_ws r_run.2 = [mkWaiter 1 (WInsert (mk_item 3 1 7 0)) false] /\
  exists w' o, lw_step r_run.2 (v_wake 1) = LNext w' o (RStatus Ok) /\ it_key <$> t_data (lw_t w') !! 3 = Some 3.
Proof.
  split; [by repeat constructor|]. split; [apply lscript_trace; [done|levs_ok|vm_compute; by eexists]|]. split; [by vm_compute|].
  eexists _, _. split; [vm_compute; reflexivity|by vm_compute].
Qed.

(** ** C63 *)

(** A signalled thread that reports a timeout takes the signal with it. *)
Definition t_evs : list lev := [v_insert 1 1; v_insert 2 1; v_insert 3 1; VCall (OMutate [] [1]) pick0; VTimeout 0].
Definition t_cfg : tcfg := mkCfg 10 0 KFifo KFifo 1 1 (-100) 1.
Definition t_run := lscript t_cfg (fun _ e => accb t_cfg e) t_evs.
Theorem C63_timeout_refuted :
  cfg_ok t_cfg /\ lw_trace (accepted t_cfg) (lw_new (new_table t_cfg)) t_run.1 t_run.2 /\
  lw_ws t_run.2 = [mkWaiter 1 (WInsert (mk_item 3 1 7 0)) false] /\ insert_allowed t_cfg (t_log (lw_t t_run.2)).
Proof.
  split; [by repeat constructor|]. split; [apply lscript_trace; [intros; by apply accb_ok|levs_ok|vm_compute; by eexists]|]. split; [by vm_compute|].
  left. vm_compute. discriminate.
Qed.

Print Assumptions C25_no_lost_wakeup_partial.
Print Assumptions C25_bounded.
Print Assumptions C25_runs.
Print Assumptions C25_refuted.
Print Assumptions C63_timeout_refuted.
