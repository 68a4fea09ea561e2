(** Property C83: what a client samples is what a writer put in, however often the
    server was stopped and started again in between. *)
From Verif Require Import Base RateLimiter Selector Trajectory Table Checkpoint CkptDir EventLog TableProofs TableLog SelSpec PropSelectors TableSpec LogFacts PropTable
  CheckpointProofs PropCheckpoint PropSave Service.
From Verif Require Import PropService.
From Verif Require Import Tensor TrajUtil ChunkerOptions Sample Stream Reactor PropTraj PropSample PropStream PropInsertStream
  Chunker PropChunker TrajWriter TrajWriterProofs PropTrajWriter PropChunkKeys PropOrder PropSystem.
From Verif Require Import Writer WriterProofs WriterConf WriterData WriterPlace WriterOwn WriterTrace PropWriter PropSystemAll.
From Verif Require Import Table.
Local Open Scope Z_scope.

(** ** Specification *)

Section Trace.
Context {fp : FP} (content : Z -> Trajectory.chunk) (fb : option (option dir)).

(** Nothing happens to the tables of a running server. *)
Definition quiet (s s' : sys) : Prop :=
  match s_live s, s_live s' with Some ts, Some ts' => ts' = ts | _, _ => True end.

(** The runs of C68 (starts, calls, Saves, crashes) with the calls that were made
    and the samples that were handed out, by all servers one after the other. *)
Inductive sys_hist : sys -> list op -> list sampled -> Prop :=
| sh_start : sys_hist (mkSys ∅ None None None) [] []
| sh_call fs ts snap last os sms i n t o r t' : sys_hist (mkSys fs (Some ts) snap last) os sms ->
    ts !! i = Some (n, t) -> call_ok content t o -> Table.step t o = Some (r, t') ->
    sys_hist (mkSys fs (Some (<[i := (n, t')]> ts)) snap last) (os ++ [o]) (sms ++ all_samples [r])
| sh_other s s' os sms : sys_hist s os sms -> sys_step content fb s s' -> quiet s s' -> sys_hist s' os sms.

Lemma hist_run s os sms : sys_hist s os sms -> sys_run content fb s.
Proof. induction 1; [constructor|..]; (econstructor; [eassumption|]); [by eapply ss_call|done]. Qed.
End Trace.

(** ** A call only puts in the item it brings *)

Section table.
Context {fp : FP} (P : Z -> list Trajectory.chunk -> list (list slice) -> Prop).
Notation ok := (holds P).
Definition data_ok (t : table) : Prop := forall k it, t_data t !! k = Some it -> ok it.
Definition samples_ok (r : result) : Prop := Forall (fun sm => ok (sm_item sm)) (all_samples [r]).

Lemma data_delete t t' k : t_data t' = delete k (t_data t) -> data_ok t -> data_ok t'.
Proof. intros E H i it. rewrite E, lookup_delete_Some. intros [_ Hi]. eauto. Qed.
Lemma data_insert t t' k it : t_data t' = <[k := it]> (t_data t) -> ok it -> data_ok t -> data_ok t'.
Proof. intros E Hg H i x. rewrite E, lookup_insert_Some. intros [[_ <-]|[_ Hi]]; eauto. Qed.
Lemma data_same t t' : t_data t' = t_data t -> data_ok t -> data_ok t'.
Proof. unfold data_ok. by intros ->. Qed.

Lemma delete_item_data t k st t' : delete_item t k = Some (st, t') -> data_ok t -> data_ok t'.
Proof.
  unfold delete_item. destruct (t_data t !! k) as [it|]; [|by intros [= _ <-]]. destruct (dec_eps _ _ _) as [[e n]|]; [|done]. cbn zeta.
  destruct (sel_delete _ _) as [st1 s1]. destruct (decide _).
  - destruct (sel_delete _ _) as [st2 s2]. intros [= _ <-]. by apply (data_delete _ _ k).
  - intros [= _ <-]. by apply (data_delete _ _ k).
Qed.
Lemma update_item_data t k p st t' : update_item t k p = (st, t') -> data_ok t -> data_ok t'.
Proof.
  unfold update_item. destruct (t_data t !! k) as [it|] eqn:E; [|by intros [= _ <-]]. cbn zeta. intros H D.
  assert (Hok : ok (item_set_priority it p)) by (exact (D _ _ E)).
  destruct (sel_update _ _ _) as [st1 s1]. destruct (decide _); [destruct (sel_update _ _ _) as [st2 s2]; destruct (decide _)|]; injection H as _ <-; by apply (data_insert t _ k (item_set_priority it p)).
Qed.
Lemma insert_new_data t now d it st t' : insert_new t now d it = Some (st, t') -> ok it -> data_ok t -> data_ok t'.
Proof.
  unfold insert_new. cbn zeta. intros H Hok D.
  assert (Hok' : ok (item_set_inserted_at it now)) by (exact Hok).
  destruct (sel_insert _ _ _) as [st1 s1]. destruct (negb _); [injection H as _ <-; by apply (data_insert t _ (it_key it) (item_set_inserted_at it now))|].
  destruct (sel_insert _ _ _) as [st2 s2]. destruct (negb _); [injection H as _ <-; by apply (data_insert t _ (it_key it) (item_set_inserted_at it now))|].
  destruct (_ <? _); [|injection H as _ <-; by apply (data_insert t _ (it_key it) (item_set_inserted_at it now))].
  destruct (sel_sample _ _) as [[v q]|]; [|done]. destruct (delete_item _ _) as [[st3 t3]|] eqn:Ed; [|done].
  assert (D3 : data_ok t3) by (eapply delete_item_data; [exact Ed|]; by apply (data_insert t _ (it_key it) (item_set_inserted_at it now))).
  destruct (negb _); injection H as _ <-; exact D3.
Qed.
Lemma insert_resume_data t now d it r t' : insert_resume t now d it = Some (r, t') -> ok it -> data_ok t -> data_ok t' /\ samples_ok r.
Proof.
  unfold insert_resume. intros H Hok D. destruct (await_can_insert _); [|injection H as <- <-; split; [done|constructor]..].
  destruct (t_data t !! it_key it).
  - destruct (update_item _ _ _) as [st t1] eqn:E. injection H as <- <-. split; [by eapply update_item_data|constructor].
  - destruct (insert_new _ _ _ _) as [[st t1]|] eqn:E; [|done]. injection H as <- <-. split; [by eapply insert_new_data|constructor].
Qed.
Lemma sample_one_data t d l st sm t' : sample_one t d l = Some (st, sm, t') -> data_ok t -> data_ok t' /\ ok (sm_item sm).
Proof.
  unfold sample_one. intros H D. destruct (sel_sample _ _) as [[k q]|]; [|done]. destruct (t_data t !! k) as [it|] eqn:E; [|done]. cbn zeta in H.
  assert (Hok : ok (item_set_times it (it_times it + 1))) by (exact (D _ _ E)). revert H. set (t0 := if it_times it =? 0 then _ else _).
  assert (D0 : data_ok t0) by (unfold t0; by destruct (_ =? _)).
  destruct (_ =? t_max_times _).
  - destruct (delete_item _ _) as [[st1 t1]|] eqn:Ed; [|done]. intros [= _ <- <-]. split; [|done]. eapply delete_item_data; [exact Ed|]. by apply (data_insert t0 _ k (item_set_times it (it_times it + 1))).
  - intros [= _ <- <-]. split; [|done]. by apply (data_insert t0 _ k (item_set_times it (it_times it + 1))).
Qed.
Lemma sample_loop_data more : forall t ds l st sms t', sample_loop more ds l t = Some (st, sms, t') -> data_ok t -> data_ok t' /\ Forall (fun sm => ok (sm_item sm)) sms.
Proof.
  induction more as [|more IH]; intros t ds l st sms t'; cbn [sample_loop]; destruct (sample_one _ _ _) as [[[st1 sm1] t1]|] eqn:E1; try done; intros H D;
    destruct (sample_one_data _ _ _ _ _ _ E1 D) as [D1 S1]; (destruct (negb _); [injection H as _ <- <-; split; [done|by repeat constructor]|]).
  - injection H as _ <- <-. split; [done|by repeat constructor].
  - destruct (maybe_commit_sample _) as [lim|]; [|injection H as _ <- <-; split; [done|by repeat constructor]].
    destruct (sample_loop more _ _ _) as [[[st2 sms2] t2]|] eqn:E2; [|done]. injection H as _ <- <-. destruct (IH _ _ _ _ _ _ E2 D1) as [D2 S2]. split; [done|by constructor].
Qed.
Lemma sample_run_data t b ds l r t' : sample_run t b ds l = Some (r, t') -> data_ok t -> data_ok t' /\ samples_ok r.
Proof.
  unfold sample_run. intros H D. destruct (sample_loop _ _ _ _) as [[[st sms] t1]|] eqn:E; [|done]. injection H as <- <-. destruct (sample_loop_data _ _ _ _ _ _ _ E D) as [D1 S1].
  split; [done|]. unfold samples_ok, all_samples. cbn. by rewrite app_nil_r.
Qed.
Lemma sample_resume_data t b ds r t' : sample_resume t b ds = Some (r, t') -> data_ok t -> data_ok t' /\ samples_ok r.
Proof.
  unfold sample_resume. intros H D. destruct (await_sample _); [|injection H as <- <-; split; [done|constructor]..]. by eapply sample_run_data.
Qed.
Lemma delete_items_data ks : forall t st t', delete_items t ks = Some (st, t') -> data_ok t -> data_ok t'.
Proof.
  induction ks as [|k ks IH]; intros t st t'; cbn [delete_items]; [by intros [= _ <-]|]. destruct (delete_item _ _) as [[st1 t1]|] eqn:E; [|done]. intros H D.
  pose proof (delete_item_data _ _ _ _ E D) as D1. case_bool_decide; [by eapply IH|by injection H as _ <-].
Qed.
Lemma update_items_data us : forall t st t', update_items t us = (st, t') -> data_ok t -> data_ok t'.
Proof.
  induction us as [|[k p] us IH]; intros t st t'; cbn [update_items]; [by intros [= _ <-]|]. destruct (update_item _ _ _) as [st1 t1] eqn:E. intros H D.
  pose proof (update_item_data _ _ _ _ _ E D) as D1. case_bool_decide; [by eapply IH|by injection H as _ <-].
Qed.

Lemma step_data t o r t' : Table.step t o = Some (r, t') -> op_holds P o -> data_ok t -> data_ok t' /\ samples_ok r.
Proof.
  intros H Ho D. destruct o as [now d it|now d it|b ds|b ds|us ks| |]; cbn [Table.step op_holds] in *.
  - unfold insert_or_assign in H. destruct (negb _); [injection H as <- <-; split; [done|constructor]|]. destruct (t_data t !! _); [|by eapply insert_resume_data].
    destruct (update_item _ _ _) as [st t1] eqn:E. injection H as <- <-. split; [by eapply update_item_data|constructor].
  - by eapply insert_resume_data.
  - unfold sample_batch in H. destruct (maybe_commit_sample _) as [lim|]; [|by eapply sample_resume_data]. by eapply sample_run_data.
  - by eapply sample_resume_data.
  - unfold mutate_items in H. destruct (delete_items _ _) as [[st1 t1]|] eqn:E1; [|done]. pose proof (delete_items_data _ _ _ _ E1 D) as D1.
    case_bool_decide; [|injection H as <- <-; split; [done|constructor]]. destruct (update_items _ _) as [st2 t2] eqn:E2. injection H as <- <-. split; [by eapply update_items_data|constructor].
  - injection H as <- <-. split; [|constructor]. intros i it. cbn. by rewrite lookup_empty.
  - injection H as <- <-. split; [done|constructor].
Qed.
End table.

(** ** Everywhere in the system *)

Section WithFP.
Context {fp : FP} {laws : FPLaws fp} (content : Z -> Trajectory.chunk) (fb : option (option dir)) (base : option (list (Z * table))).
Context (P : Z -> list Trajectory.chunk -> list (list slice) -> Prop).

Definition all_data (ts : list (Z * table)) : Prop := Forall (fun nt => data_ok P nt.2) ts.
Definition sys_data (s : sys) : Prop :=
  (forall ts, s_live s = Some ts -> all_data ts) /\ (forall ts, s_snap s = Some ts -> all_data ts) /\ (forall ts, s_last s = Some ts -> all_data ts).

Lemma started_data s cfgs ts : fallback_is content fb base -> (forall ts, base = Some ts -> all_data ts) -> sys_inv content s -> cfgs_ok cfgs -> sys_data s ->
  initialize true (s_fs s) fb (PropService.fresh cfgs) = Some (Ok, ts) -> all_data ts.
Proof.
  intros Hfb Hb SI Hc (_ & _ & D3) E. destruct (start_spec content fb base s cfgs Hfb SI Hc) as (st & ts' & E' & _ & _ & H). rewrite E in E'. injection E' as <- <-.
  destruct (H eq_refl) as (N & [Hnd _] & Hsrc).
  assert (Hfresh : forall n t, (n, t) ∈ PropService.fresh cfgs -> data_ok P t).
  { intros n t Hin. apply elem_of_list_fmap in Hin as (nc & [= -> ->] & _). intros k it. cbn. by rewrite lookup_empty. }
  destruct (PropService.source base s) as [old|] eqn:Es.
  - assert (Dold : all_data old). { unfold PropService.source in Es. destruct (s_last s) as [l|]; [injection Es as <-; by apply D3|by apply Hb]. }
    destruct Hsrc as [H1 H2]. apply Forall_forall. intros [n t] Hin. cbn. destruct (decide (n ∈ old.*1)) as [Hn|Hn]; [|by eapply Hfresh, H2].
    apply elem_of_list_fmap in Hn as ([n0 t0] & -> & Hold). cbn in *. destruct (H1 _ _ Hold) as (t' & Hin' & S & _).
    assert (t' = t) as ->.
    { apply elem_of_list_lookup in Hin as [a Ha]. apply elem_of_list_lookup in Hin' as [b Hb']. assert (a = b) as ->; [|congruence].
      eapply NoDup_lookup; [exact Hnd| |]; rewrite list_lookup_fmap; [by rewrite Ha|by rewrite Hb']. }
    unfold all_data in Dold. rewrite Forall_forall in Dold. specialize (Dold _ Hold). intros k it. rewrite (st_data _ _ S). apply Dold.
  - rewrite Hsrc. apply Forall_forall. intros [n t] Hin. by eapply Hfresh.
Qed.

Lemma hist_data s os sms : fallback_is content fb base -> (forall ts, base = Some ts -> all_data ts) -> sys_hist content fb s os sms -> Forall (op_holds P) os ->
  sys_data s /\ Forall (fun sm => holds P (sm_item sm)) sms.
Proof.
  intros Hfb Hb H. induction H as [|fs ts snap last os sms i n t o r t' H IH Hi Ho E|s s' os sms H IH Hst Hq]; intros F.
  - split; [|constructor]. by split_and!.
  - apply Forall_app in F as [F [F1 _]%Forall_cons]. destruct (IH F) as [(D1 & D2 & D3) S]. cbn in *. specialize (D1 _ eq_refl).
    destruct (step_data P t o r t' E F1) as [Dt Sr]. { unfold all_data in D1. rewrite Forall_lookup in D1. by apply (D1 _ _ Hi). }
    split; [|apply Forall_app; by split]. split_and!; cbn; [|done|done]. intros ? [= <-]. by apply Forall_insert.
  - destruct (IH F) as [D S]. split; [|done]. pose proof (sys_run_inv content fb base s Hfb (hist_run _ _ _ _ _ H)) as SI. pose proof D as (D1 & D2 & D3).
    destruct Hst as [cfgs fs last ts Hc Hi|fs ts snap last i n t o r t' Hi Ho Hst|fs ts last|fs ts snap last n t Hn|fs ts snap last f n keep os' l Hlen Hs Hops Hpre Hd Hm Hk|fs ts snap last ks cs n keep os' l Hops Hpre Hd Hm Hk|fs ts snap last]; cbn in *.
    + split_and!; cbn; [|done|done]. intros ? [= <-]. by apply (started_data _ _ _ Hfb Hb SI Hc D Hi).
    + unfold quiet in Hq. cbn in Hq. rewrite Hq. by split_and!.
    + split_and!; cbn; [done| |done]. intros ? [= <-]. constructor.
    + split_and!; cbn; [done| |done]. intros ? [= <-]. apply Forall_app. split; [by apply D2|]. constructor; [|constructor]. specialize (D1 _ eq_refl). unfold all_data in D1. rewrite Forall_lookup in D1. by apply (D1 _ _ Hn).
    + split_and!; cbn; [done|done|]. intros ? [= <-]. by apply D2.
    + by split_and!.
    + by split_and!.
Qed.
End WithFP.

(** ** C83 *)
Section Theorems.
Context {fp : FP} {laws : FPLaws fp} (content : Z -> Trajectory.chunk) (fb : option (option dir)) (base : option (list (Z * table))).

(** Any number of writers of both kinds and of servers one after the other, each with
    the tables of the last complete checkpoint: in whatever way the samples are cut into
    messages, a client gets one sample for each, with the data that a writer, perhaps
    long ago, put in under its key. *)
Theorem C83_restart_partial ss s os all sms gs msgs :
  Forall source_ok ss -> distinct_keys ss -> fallback_is content fb base ->
  (forall ts n t k it, base = Some ts -> (n, t) ∈ ts -> t_data t !! k = Some it -> comes_from ss it) ->
  sys_hist content fb s os all -> Forall (op_from ss) os -> Forall (fun sm => sm ∈ all) sms ->
  Forall2 carries gs (message_of ss <$> sms) -> concat msgs = concat gs -> Forall (fun r : response => r <> []) msgs ->
  exists got, fetch_request (length sms) [] [] msgs = FDone got [] /\ Forall2 (written ss) sms got.
Proof.
  intros Hss U Hfb Hb Hh Ho Hin Hc He Hm. destruct (hist_data content fb base (came_from ss) s os all Hfb) as [_ H].
  - intros ts E. apply Forall_forall. intros [n t] Ht k it Hk. by eapply Hb.
  - done.
  - done.
  - assert (H' : Forall (fun sm => holds (came_from ss) (sm_item sm)) sms).
    { eapply Forall_impl; [exact Hin|]. intros sm Hsm. rewrite Forall_forall in H. by apply H. }
    destruct (came_samples ss sms Hss U H') as [H1 H2]. exists (as_sample_local <$> (message_of ss <$> sms)). split; [|done].
    rewrite <- (fmap_length (message_of ss) sms). by eapply C42_client.
Qed.

(** What was in a table at the last complete checkpoint is in it again after a start,
    ready to be sampled, and it came from a writer. *)
Theorem C83_survives ss s os all cfgs ts old n t k it :
  fallback_is content fb base ->
  (forall ts n t k it, base = Some ts -> (n, t) ∈ ts -> t_data t !! k = Some it -> comes_from ss it) ->
  sys_hist content fb s os all -> Forall (op_from ss) os -> cfgs_ok cfgs ->
  initialize true (s_fs s) fb (PropService.fresh cfgs) = Some (Ok, ts) -> s_last s = Some old -> (n, t) ∈ old -> t_data t !! k = Some it ->
  comes_from ss it /\ exists t', (n, t') ∈ ts /\ t_data t' !! k = Some it.
Proof.
  intros Hfb Hb Hh Ho Hc E El Hn Hk. destruct (hist_data content fb base (came_from ss) s os all Hfb) as [(_ & _ & D) _].
  - intros ts' Eb. apply Forall_forall. intros [n' t'] Ht k' it' Hk'. by eapply Hb.
  - done.
  - done.
  - specialize (D _ El). unfold all_data in D. rewrite Forall_forall in D. split; [exact (D _ Hn _ _ Hk)|].
    destruct (C68_restart_partial content fb base s cfgs Hfb (hist_run _ _ _ _ _ Hh) Hc) as (st & ts' & E' & _ & _ & H). rewrite E in E'. injection E' as <- <-.
    destruct (H eq_refl) as [_ H2]. unfold PropService.source in H2. rewrite El in H2. destruct H2 as [H2 _]. destruct (H2 _ _ Hn) as (t' & Ht' & S & _).
    exists t'. split; [done|]. by rewrite (st_data _ _ S).
Qed.
End Theorems.

(** ** Example *)

Section Script.
Context {fp : FP} {laws : FPLaws fp} (content : Z -> Trajectory.chunk) (fb : option (option dir)).
Lemma hist_calls fs snap last n os' : forall t os sms rs t', sys_hist content fb (mkSys fs (Some [(n, t)]) snap last) os sms -> table_good content t ->
  Forall (call_ok content t) os' -> Table.run t os' = Some (rs, t') -> sys_hist content fb (mkSys fs (Some [(n, t')]) snap last) (os ++ os') (sms ++ all_samples rs).
Proof.
  induction os' as [|o os' IH]; intros t os sms rs t' H G Ho E; cbn in E. { injection E as <- <-. by rewrite !app_nil_r. }
  apply Forall_cons in Ho as [Ho Hos]. destruct (step_good content t o G Ho) as (r & t1 & E1 & G1 & Ec). rewrite E1 in E.
  destruct (Table.run t1 os') as [[rs2 t2]|] eqn:E2; [|done]. injection E as <- <-. change (o :: os') with ([o] ++ os'). rewrite app_assoc.
  assert (all_samples (r :: rs2) = all_samples [r] ++ all_samples rs2) as -> by apply (all_samples_app [r]). rewrite app_assoc. eapply IH; [|exact G1| |exact E2].
  - exact (sh_call content fb fs [(n, t)] snap last os sms 0 n t o r t1 H eq_refl Ho E1).
  - rewrite Forall_forall in Hos. rewrite Forall_forall. intros x Hx. apply Hos in Hx. unfold call_ok in *. by rewrite Ec.
Qed.
Lemma hist_save fs last n t l dir_n os sms : sys_hist content fb (mkSys fs (Some [(n, t)]) None last) os sms ->
  sorted_items (t_data t) l -> (forall m, is_Some (fs !! m) -> m < dir_n) ->
  let ks := [some_checkpoint n t l] in
  sys_hist content fb (mkSys (fs_run fs (simple_save fs dir_n 1 ks (PropCheckpoint.chunks_of t))) (Some [(n, t)]) None (Some [(n, t)])) os sms.
Proof.
  intros Hr Hs Hm ks. eapply sh_other; [eapply sh_other; [eapply sh_other; [exact Hr|apply ss_save|reflexivity]| |]| |].
  - apply (ss_snap content fb fs [(n, t)] [] last n t eq_refl).
  - reflexivity.
  - apply (ss_saved content fb fs [(n, t)] [(n, t)] last (mkFiles true (PropCheckpoint.chunks_of t) ks) dir_n 1
      (simple_save fs dir_n 1 ks (PropCheckpoint.chunks_of t))); [done|by apply saved_one|apply simple_save_ok|done| |done|lia].
    unfold simple_save. cbn [app]. do 5 apply elem_of_list_further. apply elem_of_list_here.
  - reflexivity.
Qed.
End Script.

Local Existing Instance fp_exact.
Local Existing Instance fp_exact_laws.
Definition r_items : list item := [the_item (STraj sys_other) 0; the_item old_source 1].
Definition r_content (k : Z) : Trajectory.chunk :=
  match list_find (fun c => Trajectory.ck_key c = k) (concat (it_chunks <$> r_items)) with Some (_, c) => c | None => Trajectory.mkChunk k 0 end.
Definition r_cfgs : list (Z * tcfg) := [(9, ex_cfg)].
(** The first server: items of both writers, a sample, a checkpoint; then it dies. *)
Definition r_ops1 : list op := [OInsert (1, 0) d0 (the_item (STraj sys_other) 0); OInsert (2, 0) d0 (the_item old_source 1); OSample 1 ds0].
Definition r_t1 : table := (final ex_cfg r_ops1).2.
Definition r_fs : fsys := fs_run ∅ (simple_save ∅ 1 1 [some_checkpoint 9 r_t1 [q_item r_t1 51; q_item r_t1 42]] (PropCheckpoint.chunks_of r_t1)).
(** The second one: the tables of the checkpoint; two samples. *)
Definition r_t2 : table := match initialize true r_fs None (PropService.fresh r_cfgs) with Some (Ok, [(_, t)]) => t | _ => new_table ex_cfg end.
Definition r_ops2 : list op := [OSample 1 ds0; OSample 1 ds0].
Definition r_end : list result * table := match Table.run r_t2 r_ops2 with Some x => x | None => ([], r_t2) end.
Definition r_sys : sys := mkSys r_fs (Some [(9, r_end.2)]) None (Some [(9, r_t1)]).
Definition r_samples : list sampled := all_samples (final ex_cfg r_ops1).1 ++ all_samples r_end.1.

Lemma r_cfgs_ok : cfgs_ok r_cfgs.
Proof. split; [by apply NoDup_singleton|]. by repeat constructor. Qed.
Lemma r_no_fallback : fallback_is r_content None None.
Proof. done. Qed.
Lemma r_good s n t os sms : sys_hist r_content None s os sms -> s_live s = Some [(n, t)] -> table_good r_content t.
Proof.
  intros Hr Hl. destruct (si_live _ _ (sys_run_inv r_content None None s r_no_fallback (hist_run _ _ _ _ _ Hr)) _ Hl) as [_ H]. by apply Forall_cons in H as [? _].
Qed.
Lemma r_chunks_of (f : Z -> Trajectory.chunk) l : (fun c => f (Trajectory.ck_key c)) <$> l = l -> Forall (fun ch => f (Trajectory.ck_key ch) = ch) l.
Proof. induction l as [|c l IH]; [constructor|]. rewrite fmap_cons. intros [= H1 H2]. constructor; [exact H1|exact (IH H2)]. Qed.
Lemma r_chunks it : (fun c => r_content (Trajectory.ck_key c)) <$> it_chunks it = it_chunks it -> chunks_are r_content it.
Proof. apply r_chunks_of. Qed.
Lemma r_call_ok t now it : (prio_ok (cfg_of t) (it_prio it)) -> chunks_are r_content it -> check_item_validity it = Ok -> call_ok r_content t (OInsert now d0 it).
Proof. intros H1 H2 H3. split; [exact (conj d0_ok H1)|]. exact (conj I H2). Qed.
Lemma r_hist : sys_hist r_content None r_sys (r_ops1 ++ r_ops2) r_samples.
Proof.
  assert (H0 : sys_hist r_content None (mkSys ∅ (Some [(9, new_table ex_cfg)]) None None) [] []).
  { eapply sh_other; [apply sh_start| |exact I]. apply (ss_start _ _ r_cfgs); [apply r_cfgs_ok|vm_compute; reflexivity]. }
  assert (H1 : sys_hist r_content None (mkSys ∅ (Some [(9, r_t1)]) None None) r_ops1 (all_samples (final ex_cfg r_ops1).1)).
  { pose proof (hist_calls r_content None ∅ None None 9 r_ops1 (new_table ex_cfg) [] [] (final ex_cfg r_ops1).1 r_t1 H0) as G. cbn [app] in G. apply G; [by eapply r_good| |vm_compute; reflexivity].
    unfold r_ops1. apply Forall_cons; split; [|apply Forall_cons; split; [|apply Forall_cons; split; [|apply Forall_nil_2]]].
    - apply r_call_ok; [split; vm_compute; reflexivity|apply r_chunks; vm_compute; reflexivity|vm_compute; reflexivity].
    - apply r_call_ok; [split; vm_compute; reflexivity|apply r_chunks; vm_compute; reflexivity|vm_compute; reflexivity].
    - split; [exact (fun _ => d0_ok)|]. split; exact I. }
  assert (H2 : sys_hist r_content None (mkSys r_fs None None (Some [(9, r_t1)])) r_ops1 (all_samples (final ex_cfg r_ops1).1)).
  { eapply sh_other; [|apply ss_stop|exact I]. apply (hist_save r_content None ∅ None 9 r_t1 [q_item r_t1 51; q_item r_t1 42] 1 _ _ H1).
    - sorted_ok.
    - intros m [d Hd]. by rewrite lookup_empty in Hd. }
  assert (H3 : sys_hist r_content None (mkSys r_fs (Some [(9, r_t2)]) None (Some [(9, r_t1)])) r_ops1 (all_samples (final ex_cfg r_ops1).1)).
  { eapply sh_other; [exact H2| |exact I]. apply (ss_start _ _ r_cfgs); [apply r_cfgs_ok|vm_compute; reflexivity]. }
  apply (hist_calls r_content None r_fs None (Some [(9, r_t1)]) 9 r_ops2 r_t2 r_ops1 _ r_end.1 r_end.2 H3); [eapply r_good; [exact H3|reflexivity]| |vm_compute; reflexivity].
  unfold r_ops2. apply Forall_cons; split; [|apply Forall_cons; split; [|apply Forall_nil_2]]; (split; [exact (fun _ => d0_ok)|]; split; exact I).
Qed.
Example C83_example :
  Forall source_ok all_ss /\ distinct_keys all_ss /\ sys_hist r_content None r_sys (r_ops1 ++ r_ops2) r_samples /\ Forall (op_from all_ss) (r_ops1 ++ r_ops2) /\
  it_key <$> (sm_item <$> r_samples) = [51; 51; 42] /\
  client_reads all_ss r_samples = [Some [vec [8; 9]]; Some [vec [8; 9]]; Some [vec [1; 2; 3]; mkTensor (TOther 1) [3; 2]%nat [1; 2; 2; 3; 3; 4]]].
Proof.
  split; [apply all_ok|]. split; [apply all_distinct|]. split; [apply r_hist|].
  split. { unfold r_ops1, r_ops2. cbn [app]. apply Forall_cons; split; [apply (the_item_from all_ss 0 _ 0 eq_refl); vm_compute; reflexivity|]. apply Forall_cons; split; [apply (the_item_from all_ss 1 _ 1 eq_refl); vm_compute; reflexivity|].
    apply Forall_cons; split; [exact I|]. apply Forall_cons; split; [exact I|]. apply Forall_cons; split; [exact I|]. apply Forall_nil_2. }
  split; vm_compute; reflexivity.
Qed.

Print Assumptions C83_restart_partial.
Print Assumptions C83_survives.
Print Assumptions C83_example.
