(** Consequences of the legality of extension logs. *)
From Verif Require Import Base RateLimiter Selector SelSpec Trajectory Table EventLog TableProofs TableLog TableSpec.

(** All insertions put in items that were never sampled. *)
Definition fresh_log (log : list event) : Prop :=
  Forall (fun e => match e with EvInsert it => it_times it = 0 | _ => True end) log.

(** The selector call behind an event. *)
Definition ev_sop (e : event) : sop :=
  match e with
  | EvInsert it => SIns (it_key it) (it_prio it)
  | EvUpdate it => SUpd (it_key it) (it_prio it)
  | EvDelete it => SDel (it_key it)
  | EvSample _ => SSkip
  | EvReset => SClr
  end.

Section WithFP.
Context {fp : FP}.

Lemma replay_key c log k it : log_all (ev_ok c) log -> replay log !! k = Some it -> it_key it = k.
Proof.
  revert k it. induction log as [|e log IH] using rev_ind; intros k it H; [done|].
  apply log_all_last in H as [H He]. rewrite replay_snoc.
  destruct e as [x|x|x|x|]; cbn in *; rewrite ?lookup_insert_Some, ?lookup_delete_Some;
    try (intros [[<- <-]|[_ Hk]]; [done|by apply IH]).
  - intros [_ Hk]. by apply IH.
  - done.
Qed.

(** How often an item was sampled. *)
Lemma times_exact c log : log_all (ev_ok c) log -> fresh_log log ->
  forall k it, replay log !! k = Some it -> it_times it = times_since_insert k log.
Proof.
  induction log as [|e log IH] using rev_ind; intros H Hf k it; [done|].
  apply log_all_last in H as [H He]. apply Forall_app in Hf as [Hf Hfe].
  apply Forall_cons in Hfe as [Hfe _]. specialize (IH H Hf).
  rewrite replay_snoc, times_snoc.
  destruct e as [x|x|x|x|]; cbn in *.
  - rewrite lookup_insert_Some. intros [[<- <-]|[Hne Hk]]; [by rewrite decide_True|].
    rewrite decide_False by done. by apply IH.
  - destruct He as (old & Ho & -> & _). cbn in *. rewrite lookup_insert_Some.
    intros [[<- <-]|[Hne Hk]].
    + rewrite decide_True by done. cbn. by rewrite (IH _ _ Ho).
    + rewrite decide_False by done. by apply IH.
  - destruct He as (old & p & Ho & -> & _). cbn in *. rewrite lookup_insert_Some.
    intros [[<- <-]|[Hne Hk]]; [|by apply IH]. cbn. by apply IH.
  - rewrite lookup_delete_Some. intros [_ Hk]. by apply IH.
  - done.
Qed.

(** [removed_at] up to a sample that has just happened. *)
Definition removed_soon (m : Z) (log : list event) : Prop :=
  forall pre it post, log = pre ++ EvSample it :: post -> it_times it = m ->
    post = [] \/ exists post', post = EvDelete it :: post'.
Lemma removed_at_soon m log : removed_at m log -> removed_soon m log.
Proof. intros H pre it post E Em. right. by eapply H. Qed.
Lemma removed_soon_pre m l1 l2 : removed_soon m (l1 ++ l2) -> removed_soon m l1.
Proof.
  intros H pre it post -> Em. destruct (H pre it (post ++ l2)) as [E|[post' E]]; [by rewrite <- app_assoc|done| |].
  - left. by apply app_nil in E as [-> _].
  - destruct post as [|y post]; [by left|]. right. simpl in E. injection E as -> _. eauto.
Qed.

(** With a limit [m], counts never exceed it, and an item that reached it has
    just been sampled (and is about to be deleted). *)
Lemma times_bound c m log : log_all (ev_ok c) log -> fresh_log log -> 0 < m -> removed_soon m log ->
  forall k it, replay log !! k = Some it ->
    0 <= it_times it <= m /\ (it_times it = m -> exists pre, log = pre ++ [EvSample it]).
Proof.
  intros H Hf Hm. induction log as [|e log IH] using rev_ind; intros Hr k it; [done|].
  pose proof (removed_soon_pre _ _ _ Hr) as Hr'.
  apply log_all_last in H as [H He]. apply Forall_app in Hf as [Hf Hfe].
  apply Forall_cons in Hfe as [Hfe _].
  assert (Hold : forall k' it', replay log !! k' = Some it' -> e <> EvDelete it' -> 0 <= it_times it' < m).
  { intros k' it' Hk' Hne. destruct (IH H Hf Hr' k' it' Hk') as [Hb Hq]. split; [lia|].
    destruct (decide (it_times it' = m)) as [Em|]; [|lia]. exfalso.
    destruct (Hq Em) as [pre ->]. destruct (Hr pre it' [e]) as [E|[post' E]]; [by rewrite <- app_assoc|done|done|].
    injection E as -> _. done. }
  rewrite replay_snoc. destruct e as [x|x|x|x|]; cbn in *.
  - rewrite lookup_insert_Some. intros [[<- <-]|[Hne Hk]]; [rewrite Hfe; split; [lia|intros; lia]|].
    specialize (Hold _ _ Hk ltac:(done)). split; [lia|intros; lia].
  - destruct He as (old & Ho & -> & _). cbn in *. rewrite lookup_insert_Some.
    intros [[<- <-]|[Hne Hk]].
    + cbn. specialize (Hold _ _ Ho ltac:(done)). split; [lia|]. intros _. eauto.
    + specialize (Hold _ _ Hk ltac:(done)). split; [lia|intros; lia].
  - destruct He as (old & p & Ho & -> & _). cbn in *. rewrite lookup_insert_Some.
    intros [[<- <-]|[Hne Hk]].
    + cbn. specialize (Hold _ _ Ho ltac:(done)). split; [lia|intros; lia].
    + specialize (Hold _ _ Hk ltac:(done)). split; [lia|intros; lia].
  - rewrite lookup_delete_Some. intros [Hne Hk].
    assert (Hx : EvDelete x <> EvDelete it).
    { intros [= ->]. apply Hne. by eapply replay_key. }
    specialize (Hold _ _ Hk Hx). split; [lia|intros; lia].
  - done.
Qed.

(** Which items count as sampled. *)
Lemma uniq_exact c log : log_all (ev_ok c) log -> fresh_log log ->
  n_first log = (uniq log).2 /\
  forall k it, replay log !! k = Some it -> 0 <= it_times it /\ (k ∈ (uniq log).1 <-> 0 < it_times it).
Proof.
  induction log as [|e log IH] using rev_ind; intros H Hf; [done|].
  apply log_all_last in H as [H He]. apply Forall_app in Hf as [Hf Hfe].
  apply Forall_cons in Hfe as [Hfe _]. destruct (IH H Hf) as [E1 E2]. clear IH.
  rewrite n_first_snoc, uniq_snoc, replay_snoc.
  destruct e as [x|x|x|x|]; cbn in *.
  - split; [done|]. intros k it. rewrite lookup_insert_Some. intros [[<- <-]|[Hne Hk]].
    + rewrite Hfe. set_solver by lia.
    + destruct (E2 _ _ Hk). set_solver.
  - destruct He as (old & Ho & -> & _). cbn in *. destruct (E2 _ _ Ho) as [Hp Hin].
    case_decide as Hd.
    + apply Hin in Hd as Hd'. rewrite (proj2 (Z.eqb_neq _ _)) by lia. split; [done|].
      intros k it. rewrite lookup_insert_Some. intros [[<- <-]|[Hne Hk]]; [|by apply E2].
      cbn. split; [lia|]. split; [lia|done].
    + assert (it_times old = 0) as Ez by (destruct (decide (0 < it_times old)); [tauto|lia]).
      rewrite (proj2 (Z.eqb_eq _ _)) by lia. cbn. split; [lia|].
      intros k it. rewrite lookup_insert_Some. intros [[<- <-]|[Hne Hk]].
      * cbn. split; [lia|]. split; [lia|]. intros _. set_solver.
      * destruct (E2 _ _ Hk). set_solver.
  - destruct He as (old & p & Ho & -> & _). cbn in *. split; [done|].
    intros k it. rewrite lookup_insert_Some. intros [[<- <-]|[Hne Hk]]; [|by apply E2]. cbn. by apply E2.
  - split; [done|]. intros k it. rewrite lookup_delete_Some. intros [_ Hk]. by apply E2.
  - split; [done|]. intros k it. by rewrite lookup_empty.
Qed.

(** An absent key can only come back through an insertion. *)
Lemma back_needs_insert c pre mid k : log_all (ev_ok c) (pre ++ mid) -> replay pre !! k = None ->
  is_Some (replay (pre ++ mid) !! k) -> exists it, EvInsert it ∈ mid /\ it_key it = k.
Proof.
  induction mid as [|e mid IH] using rev_ind; intros H Hn Hs.
  - rewrite app_nil_r in Hs. rewrite Hn in Hs. by destruct Hs.
  - rewrite app_assoc in H, Hs. apply log_all_last in H as [H He]. rewrite replay_snoc in Hs.
    destruct (replay (pre ++ mid) !! k) as [x|] eqn:Ex.
    + destruct IH as (it & Hin & Hk); eauto. exists it. split; [|done]. apply elem_of_app. by left.
    + destruct e as [y|y|y|y|]; cbn in *.
      * destruct (decide (it_key y = k)) as [Hk|Hk].
        -- exists y. split; [|done]. apply elem_of_app. right. left.
        -- rewrite lookup_insert_ne, Ex in Hs by done. by destruct Hs.
      * destruct He as (old & Ho & -> & _). cbn in *. destruct (decide (it_key old = k)) as [Hk|Hk].
        -- congruence.
        -- rewrite lookup_insert_ne, Ex in Hs by done. by destruct Hs.
      * destruct He as (old & p & Ho & -> & _). cbn in *. destruct (decide (it_key old = k)) as [Hk|Hk].
        -- congruence.
        -- rewrite lookup_insert_ne, Ex in Hs by done. by destruct Hs.
      * destruct (decide (it_key y = k)) as [Hk|Hk].
        -- subst. rewrite lookup_delete in Hs. by destruct Hs.
        -- rewrite lookup_delete_ne, Ex in Hs by done. by destruct Hs.
      * rewrite lookup_empty in Hs. by destruct Hs.
Qed.

(** ** Selectors driven by a log *)

Lemma sel_replay_hist kind log : sel_replay kind log = sel_hist kind (ev_sop <$> log).
Proof.
  induction log as [|e log IH] using rev_ind; [done|].
  rewrite sel_replay_snoc, fmap_app. cbn [fmap list_fmap]. rewrite sel_hist_snoc, IH. by destruct e.
Qed.

(** The reference contents of sampler and remover after a legal log. *)
Definition log_entries (log : list event) : gmap Z entry :=
  map_imap (fun k it => Some (mkEntry (it_prio it) (ins_pos k log) (touch_pos k log))) (replay log).

Lemma log_entries_lookup log k :
  log_entries log !! k = (fun it => mkEntry (it_prio it) (ins_pos k log) (touch_pos k log)) <$> replay log !! k.
Proof. unfold log_entries. rewrite map_lookup_imap. by destruct (replay log !! k). Qed.

Lemma ref_hist_log c kind log : log_all (ev_ok c) log -> kind = c_sampler c \/ kind = c_remover c ->
  ref_hist kind (ev_sop <$> log) = log_entries log.
Proof.
  intros H Hkind. assert (Hacc : forall p, prio_ok c p -> accepts kind p = true).
  { intros p [Hp1 Hp2]. by destruct Hkind as [-> | ->]. }
  induction log as [|e log IH] using rev_ind; [done|].
  apply log_all_last in H as [H He]. specialize (IH H).
  assert (Hlen : (ref_run kind (ev_sop <$> log)).1 = length log) by (by rewrite ref_run_length, fmap_length).
  unfold ref_hist in *. rewrite fmap_app. cbn [fmap list_fmap]. rewrite ref_run_snoc. cbn [ref_step fst snd].
  rewrite IH, Hlen. apply map_eq. intros k. rewrite log_entries_lookup, replay_snoc, ins_pos_snoc, touch_pos_snoc.
  destruct e as [x|x|x|x|]; cbn [ev_sop ref_op replay_ev ev_ok] in *.
  - destruct He as (Hn & _ & Hp). rewrite log_entries_lookup, Hn. cbn. rewrite Hacc by done.
    destruct (decide (it_key x = k)) as [<-|Hne].
    + by rewrite !lookup_insert.
    + rewrite !lookup_insert_ne by done. apply log_entries_lookup.
  - destruct He as (old & Ho & -> & _). cbn in *. destruct (decide (it_key old = k)) as [<-|Hne].
    + rewrite lookup_insert, log_entries_lookup, Ho. done.
    + rewrite lookup_insert_ne by done. apply log_entries_lookup.
  - destruct He as (old & p & Ho & -> & Hp). cbn in *. rewrite log_entries_lookup, Ho. cbn.
    rewrite Hacc by done. destruct (decide (it_key old = k)) as [<-|Hne].
    + by rewrite !lookup_insert.
    + rewrite !lookup_insert_ne by done. apply log_entries_lookup.
  - destruct (decide (it_key x = k)) as [<-|Hne].
    + by rewrite !lookup_delete.
    + rewrite !lookup_delete_ne by done. apply log_entries_lookup.
  - done.
Qed.

(** ** Where events come from *)

Lemma batch_events c limited log more sms evs : batch_spec c limited log more sms evs ->
  forall e, e ∈ evs -> (exists sm, sm ∈ sms /\ (e = EvSample (sm_item sm) \/ e = EvDelete (sm_item sm))).
Proof.
  induction 1 as [log more sm evs H1 _|log more sm evs sms evs' H1 _ IH]; intros e He.
  - destruct H1 as (_ & _ & _ & _ & _ & _ & ->). exists sm. split; [left|].
    apply elem_of_cons in He as [->|He]; [by left|]. destruct (_ =? _); [|by apply elem_of_nil in He].
    apply elem_of_list_singleton in He. by right.
  - apply elem_of_app in He as [He|He].
    + destruct H1 as (_ & _ & _ & _ & _ & _ & ->). exists sm. split; [left|].
      apply elem_of_cons in He as [->|He]; [by left|]. destruct (_ =? _); [|by apply elem_of_nil in He].
      apply elem_of_list_singleton in He. by right.
    + destruct (IH e He) as (sm' & Hin & E). exists sm'. split; [by right|done].
Qed.

Lemma delete_events_only m ks e : e ∈ delete_events m ks -> exists it, e = EvDelete it.
Proof.
  revert m. induction ks as [|k ks IH]; intros m; simpl; [intros H; by apply elem_of_nil in H|].
  destruct (m !! k) as [it|]; [|by apply IH]. intros H. apply elem_of_cons in H as [->|H]; [eauto|].
  by eapply IH.
Qed.
Lemma update_events_only m us e : e ∈ update_events m us -> exists it, e = EvUpdate it.
Proof.
  revert m. induction us as [|[k p] us IH]; intros m; simpl; [intros H; by apply elem_of_nil in H|].
  destruct (m !! k) as [it|]; [|by apply IH]. intros H. apply elem_of_cons in H as [->|H]; [eauto|].
  by eapply IH.
Qed.

(** The item an insertion call brings in. *)
Definition op_inserts (o : op) : option item :=
  match o with
  | OInsert now _ it | OInsertWake now _ it => Some (it_with_at it now)
  | _ => None
  end.

Lemma insert_origin c log closed o r evs it : call_spec c log closed o r evs -> EvInsert it ∈ evs ->
  op_inserts o = Some it.
Proof.
  intros H Hin.
  assert (Hassign : forall k p, assign_spec log k p evs -> False).
  { intros k p (old & _ & ->). by apply elem_of_list_singleton in Hin. }
  assert (Hwait : forall now d it', insert_wait_spec c log closed now d it' r evs -> it = it_with_at it' now).
  { intros now d it' [(_ & _ & ->)|[(_ & _ & _ & ->)|(_ & _ & _ & [H'|[_ H']])]];
      try (by apply elem_of_nil in Hin).
    - by apply Hassign in H'.
    - destruct H' as [[_ ->]|(_ & v & q & _ & _ & ->)].
      + apply elem_of_list_singleton in Hin. congruence.
      + apply elem_of_cons in Hin as [?|Hin]; [congruence|]. by apply elem_of_list_singleton in Hin. }
  assert (Hbatch : forall limited more sms, batch_spec c limited log more sms evs -> False).
  { intros limited more sms Hb. destruct (batch_events _ _ _ _ _ _ Hb _ Hin) as (sm & _ & [?|?]); done. }
  assert (Hswait : forall b, sample_wait_spec c log closed b r evs -> False).
  { intros b [(_ & _ & ->)|[(_ & _ & _ & ->)|(_ & sms & _ & Hb)]]; try (by apply elem_of_nil in Hin).
    by eapply Hbatch. }
  destruct o as [now d x|now d x|b ds|b ds|us ks| |]; cbn in *.
  - destruct H as [(_ & _ & ->)|[(_ & H & _)|(_ & _ & H)]].
    + by apply elem_of_nil in Hin. + by apply Hassign in H. + f_equal. symmetry. by eapply Hwait.
  - f_equal. symmetry. by eapply Hwait.
  - destruct H as [(sms & _ & H)|[_ H]]; exfalso; [by eapply Hbatch|by eapply Hswait].
  - exfalso. by eapply Hswait.
  - destruct H as [_ ->]. apply elem_of_app in Hin as [Hin|Hin].
    + by apply delete_events_only in Hin as [? ?].
    + by apply update_events_only in Hin as [? ?].
  - destruct H as [_ ->]. by apply elem_of_list_singleton in Hin.
  - destruct H as [_ ->]. by apply elem_of_nil in Hin.
Qed.

Lemma insert_origin_hist c os rs log closed it : hist_spec c os rs log closed -> EvInsert it ∈ log ->
  exists o, o ∈ os /\ op_inserts o = Some it.
Proof.
  induction 1 as [|os rs log closed o r evs _ IH H]; intros Hin; [by apply elem_of_nil in Hin|].
  apply elem_of_app in Hin as [Hin|Hin].
  - destruct (IH Hin) as (o' & Ho & E). exists o'. split; [|done]. apply elem_of_app. by left.
  - exists o. split; [apply elem_of_app; right; left|]. by eapply insert_origin.
Qed.

(** Insertion calls with items whose sample count is 0. *)
Definition fresh_op (o : op) : Prop :=
  match op_inserts o with Some it => it_times it = 0 | None => True end.

Lemma hist_fresh c os rs log closed : hist_spec c os rs log closed -> Forall fresh_op os -> fresh_log log.
Proof.
  intros H Hf. apply Forall_forall. intros e He. destruct e as [it| | | |]; try done.
  destruct (insert_origin_hist _ _ _ _ _ it H He) as (o & Ho & E).
  rewrite Forall_forall in Hf. specialize (Hf o Ho). unfold fresh_op in Hf. by rewrite E in Hf.
Qed.

End WithFP.
