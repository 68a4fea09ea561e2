(** Property C68: a server that is stopped and started again, any number of times. *)
From Verif Require Import Base RateLimiter Selector Trajectory Table Checkpoint CkptDir EventLog TableProofs TableLog
  SelSpec TableSpec LogFacts PropTable CheckpointProofs PropCheckpoint PropSave Service.

(** ** Specification *)

(** The configuration of a table, read off the table. *)
Definition cfg_of (t : table) : tcfg :=
  mkCfg (t_max_size t) (t_max_times t) (sel_kind_of (t_sampler t)) (sel_kind_of (t_remover t))
    (spi (t_limiter t)) (min_size (t_limiter t)) (min_diff (t_limiter t)) (max_diff (t_limiter t)).

(** A chunk key stands for one chunk, over the whole life of the system. *)
Definition chunks_are (content : Z -> chunk) (it : item) : Prop :=
  Forall (fun ch => content (ck_key ch) = ch) (it_chunks it).

(** Calls users may make. *)
Definition call_ok {fp : FP} (content : Z -> chunk) (t : table) (o : op) : Prop :=
  op_ok (cfg_of t) o /\ wake_valid o /\
  match o with OInsert _ _ it | OInsertWake _ _ it => chunks_are content it | _ => True end.

(** The tables a program passes to the server. *)
Definition fresh (cfgs : list (Z * tcfg)) : list (Z * table) := (fun nc => (nc.1, new_table nc.2)) <$> cfgs.
Definition cfgs_ok (cfgs : list (Z * tcfg)) : Prop := NoDup cfgs.*1 /\ Forall (fun nc => cfg_ok nc.2) cfgs.

(** The state of the system.  [s_live]: the tables of the running server, if it
    runs.  [s_snap]: the tables of which the running Save has taken a checkpoint,
    as they were then.  [s_last]: the same for the last Save that wrote DONE. *)
Record sys := mkSys {
  s_fs : fsys; s_live : option (list (Z * table)); s_snap : option (list (Z * table));
  s_last : option (list (Z * table)) }.

Section Trace.
Context {fp : FP} (content : Z -> chunk) (fb : option (option dir)).

(** What can happen.  Save locks the tables one after the other, other calls may
    come between; it may be cut off at any point, by an error or because the
    process dies, and the process may die at any time. *)
Inductive sys_step : sys -> sys -> Prop :=
| ss_start cfgs fs last ts : cfgs_ok cfgs ->
    initialize true fs fb (fresh cfgs) = Some (Ok, ts) ->
    sys_step (mkSys fs None None last) (mkSys fs (Some ts) None last)
| ss_call fs ts snap last i n t o r t' : ts !! i = Some (n, t) -> call_ok content t o -> step t o = Some (r, t') ->
    sys_step (mkSys fs (Some ts) snap last) (mkSys fs (Some (<[i := (n, t')]> ts)) snap last)
| ss_save fs ts last : sys_step (mkSys fs (Some ts) None last) (mkSys fs (Some ts) (Some []) last)
| ss_snap fs ts snap last n t : ts !! length snap = Some (n, t) ->
    sys_step (mkSys fs (Some ts) (Some snap) last) (mkSys fs (Some ts) (Some (snap ++ [(n, t)])) last)
| ss_saved fs ts snap last f n keep os l : length snap = length ts -> saved snap f ->
    save_ops fs n keep (f_tables f) (f_chunks f) os -> l `prefix_of` os -> FDone n ∈ l ->
    (forall m, is_Some (fs !! m) -> m < n) -> 1 <= keep ->
    sys_step (mkSys fs (Some ts) (Some snap) last) (mkSys (fs_run fs l) (Some ts) None (Some snap))
| ss_failed fs ts snap last ks cs n keep os l :
    save_ops fs n keep ks cs os -> l `prefix_of` os -> FDone n ∉ l ->
    (forall m, is_Some (fs !! m) -> m < n) -> 1 <= keep ->
    sys_step (mkSys fs (Some ts) (Some snap) last) (mkSys (fs_run fs l) (Some ts) None last)
| ss_stop fs ts snap last : sys_step (mkSys fs (Some ts) snap last) (mkSys fs None None last).

(** An empty directory at first, no server. *)
Inductive sys_run : sys -> Prop :=
| sr_start : sys_run (mkSys ∅ None None None)
| sr_step s s' : sys_run s -> sys_step s s' -> sys_run s'.
End Trace.

(** Where a new server gets its tables from: the last checkpoint, or the fallback. *)
Definition source (base : option (list (Z * table))) (s : sys) : option (list (Z * table)) :=
  match s_last s with Some ts => Some ts | None => base end.

Section WithFP.
Context {fp : FP} {laws : FPLaws fp} (content : Z -> chunk).

(** ** Items of a table that may have been restored *)

Definition item_good (c : tcfg) (it : item) : Prop :=
  prio_ok c (it_prio it) /\ check_item_validity it = Ok /\ chunks_are content it.
Definition items_good (c : tcfg) (t : table) : Prop := forall i it, t_data t !! i = Some it -> item_good c it.

Lemma good_prio c it p : item_good c it -> prio_ok c p -> item_good c (it_with_prio it p).
Proof. intros (_ & H2 & H3) Hp. split; [done|]. split; done. Qed.
Lemma good_times c it n : item_good c it -> item_good c (it_with_times it n).
Proof. intros (H1 & H2 & H3). split; [done|]. split; done. Qed.

Lemma items_delete c t t' k : t_data t' = delete k (t_data t) -> items_good c t -> items_good c t'.
Proof. intros E H i it. rewrite E, lookup_delete_Some. intros [_ Hi]. eauto. Qed.
Lemma items_insert c t t' k it : t_data t' = <[k := it]> (t_data t) -> item_good c it -> items_good c t -> items_good c t'.
Proof. intros E Hg H i x. rewrite E, lookup_insert_Some. intros [[_ <-]|[_ Hi]]; eauto. Qed.

Lemma update_item_good c t k p st t' : tcore c t -> prio_ok c p -> items_good c t ->
  update_item t k p = (st, t') -> items_good c t'.
Proof.
  intros C Hp H E. destruct (t_data t !! k) as [it|] eqn:Hk.
  - destruct (update_item_spec c t k p it C Hp Hk) as (t1 & E1 & _ & D & _). rewrite E in E1. injection E1 as _ <-.
    eapply items_insert; [exact D| |done]. apply good_prio; eauto.
  - rewrite update_item_missing in E by done. by injection E as _ <-.
Qed.
Lemma delete_items_good c ks : forall t st t', tinv c t -> items_good c t ->
  delete_items t ks = Some (st, t') -> items_good c t'.
Proof.
  induction ks as [|k ks IH]; intros t st t' I H; cbn [delete_items]; [by intros [= _ <-]|].
  destruct (delete_items_inv c [k] t I) as (t1 & E1 & I1). cbn [delete_items] in E1.
  destruct (delete_item t k) as [[st1 t2]|] eqn:E; [|done].
  destruct (bool_decide_reflect (st1 = Ok)) as [->|]; [|by injection E1]. injection E1 as ->. apply IH; [done|].
  destruct (t_data t !! k) as [it|] eqn:Hk.
  - destruct I as [C _ _]. destruct (delete_item_spec c t k it C Hk) as (t3 & E3 & _ & D & _). rewrite E in E3. injection E3 as <-.
    by eapply items_delete.
  - rewrite delete_item_missing in E by done. by injection E as <-.
Qed.
Lemma update_items_good c us : forall t st t', tinv c t -> Forall (fun u => prio_ok c u.2) us -> items_good c t ->
  update_items t us = (st, t') -> items_good c t'.
Proof.
  induction us as [|[k p] us IH]; intros t st t' I Hu H; cbn [update_items]; [by intros [= _ <-]|].
  apply Forall_cons in Hu as [Hp Hu]. destruct (update_item_inv c t k p I Hp) as (t1 & E1 & I1). rewrite E1.
  rewrite bool_decide_true by done. apply IH; [done|done|]. eapply update_item_good; [apply I|exact Hp|exact H|exact E1].
Qed.
Lemma insert_resume_good c t now d it r t' : tinv c t -> draw_ok d -> item_good c it -> items_good c t ->
  insert_resume t now d it = Some (r, t') -> items_good c t'.
Proof.
  intros I Hd Hg H. unfold insert_resume. destruct (await_can_insert (t_limiter t)); [|by intros [= _ <-]|by intros [= _ <-]].
  pose proof Hg as (Hp & _). destruct (t_data t !! it_key it) as [old|] eqn:Hk.
  - destruct (update_item t (it_key it) (it_prio it)) as [st t1] eqn:E. intros [= _ <-]. eapply update_item_good; [apply I|exact Hp|exact H|exact E].
  - destruct (insert_new_spec c t now d it I Hp Hd Hk) as (t1 & -> & _ & Ht). intros [= _ <-].
    assert (H1 : items_good c (added t now it)) by (by eapply items_insert).
    destruct Ht as [[_ ->]|(_ & v & pr & old & t2 & _ & _ & _ & D & -> & _)]; [done|]. by eapply items_delete.
Qed.
Lemma sample_one_good c t d limited st sm t' : tcore c t -> draw_ok d -> t_data t <> ∅ -> items_good c t ->
  sample_one t d limited = Some (st, sm, t') -> items_good c t'.
Proof.
  intros C Hd Hne H E. destruct (sample_one_spec c t d limited C Hd Hne) as (k & q & it & t1 & _ & Hit & E1 & _ & Ht).
  rewrite E in E1. injection E1 as _ _ <-. assert (H1 : items_good c (marked t k it)).
  { eapply items_insert; [done| |done]. apply good_times. eauto. }
  destruct Ht as [[_ ->]|(_ & _ & D & _)]; [done|]. by eapply items_delete.
Qed.
Lemma sample_loop_good c more : forall t ds limited st sms t', cfg_ok c -> tinv c t -> (forall i, draw_ok (ds i)) ->
  t_data t <> ∅ -> items_good c t -> sample_loop more ds limited t = Some (st, sms, t') -> items_good c t'.
Proof.
  induction more as [|more IH]; intros t ds limited st sms t' Hc I Hd Hne H; cbn [sample_loop];
    destruct (sample_one_inv c t (ds 0%nat) limited I (Hd _) Hne) as (sm & t1 & E1 & I1);
    pose proof (sample_one_good c t _ _ _ _ _ (ti_core _ _ I) (Hd 0%nat) Hne H E1) as H1; rewrite E1;
    rewrite bool_decide_true by done; cbn [negb]; [by intros [= _ _ <-]|].
  unfold maybe_commit_sample. destruct (can_sample (t_limiter t1) 1) eqn:Ec; [|by intros [= _ _ <-]].
  destruct (can_sample_nonempty c t1 1 Hc I1 Ec) as [Hne1 _].
  destruct (sample_loop more _ limited _) as [[[st2 sms2] t2]|] eqn:E2; [|done]. intros [= _ _ <-].
  eapply IH; [exact Hc| | | | |exact E2]; [by apply lim_sample_inv|intros; apply Hd|done|done].
Qed.
Lemma sample_run_good c t b ds limited r t' : cfg_ok c -> tinv c t -> (forall i, draw_ok (ds i)) ->
  can_sample (t_limiter t) 1 = true -> items_good c t ->
  sample_run (with_limiter t (lim_sample (t_limiter t))) b ds limited = Some (r, t') -> items_good c t'.
Proof.
  intros Hc I Hd Ec H. destruct (can_sample_nonempty c t 1 Hc I Ec) as [Hne _]. unfold sample_run.
  destruct (sample_loop _ _ _ _) as [[[st sms] t1]|] eqn:E; [|done]. intros [= _ <-].
  eapply sample_loop_good; [exact Hc| | | | |exact E]; [by apply lim_sample_inv|done|done|done].
Qed.
Lemma sample_resume_good c t b ds r t' : cfg_ok c -> tinv c t -> (forall i, draw_ok (ds i)) -> items_good c t ->
  sample_resume t b ds = Some (r, t') -> items_good c t'.
Proof.
  intros Hc I Hd H. unfold sample_resume, await_sample.
  destruct (l_cancelled (t_limiter t)); [by intros [= _ <-]|]. destruct (can_sample (t_limiter t) 1) eqn:Ec; [|by intros [= _ <-]].
  by apply sample_run_good.
Qed.

(** What holds of every table of a running server. *)
Record table_good (t : table) : Prop := {
  tg_cfg : cfg_ok (cfg_of t);
  tg_inv : tinv (cfg_of t) t;
  tg_items : items_good (cfg_of t) t }.

Lemma tinv_cfg c t : tinv c t -> cfg_of t = c.
Proof. intros [[] _ _]. destruct c. cbn in *. unfold cfg_of. congruence. Qed.

Lemma step_good t o : table_good t -> call_ok content t o ->
  exists r t', step t o = Some (r, t') /\ table_good t' /\ cfg_of t' = cfg_of t.
Proof.
  intros [Hc I H] (Ho & Hw & Hch). destruct (step_inv (cfg_of t) t o Hc I Ho) as (r & t' & E & I').
  exists r, t'. split; [done|]. pose proof (tinv_cfg _ _ I') as Ec. split; [|done].
  assert (Hi : items_good (cfg_of t) t'); [|split; by rewrite Ec]. clear I' Ec.
  destruct o as [now d it|now d it|b ds|b ds|us ks| |]; cbn [step op_ok] in *.
  - destruct Ho as [Hd Hp]. unfold insert_or_assign in E. destruct (bool_decide_reflect (check_item_validity it = Ok)) as [Hv|]; cbn [negb] in E.
    + destruct (t_data t !! it_key it) as [old|] eqn:Hk.
      * destruct (update_item t (it_key it) (it_prio it)) as [st t1] eqn:E1. injection E as _ <-.
        eapply update_item_good; [apply I|exact Hp|exact H|exact E1].
      * eapply insert_resume_good; [exact I|exact Hd| |exact H|exact E]. by split.
    + by injection E as _ <-.
  - destruct Ho as [Hd Hp]. eapply insert_resume_good; [exact I|exact Hd| |exact H|exact E]. by split.
  - unfold sample_batch, maybe_commit_sample in E. destruct (can_sample (t_limiter t) 1) eqn:Ec.
    + by eapply sample_run_good.
    + by eapply sample_resume_good.
  - by eapply sample_resume_good.
  - unfold mutate_items in E. destruct (delete_items_inv (cfg_of t) ks t I) as (t1 & E1 & I1). rewrite E1, bool_decide_true in E by done.
    destruct (update_items t1 us) as [st t2] eqn:E2. injection E as _ <-.
    eapply update_items_good; [exact I1|exact Ho| |exact E2]. eapply delete_items_good; [exact I|exact H|exact E1].
  - injection E as _ <-. intros i it. cbn. by rewrite lookup_empty.
  - by injection E as _ <-.
Qed.

Lemma new_table_good c : cfg_ok c -> table_good (new_table c).
Proof.
  intros Hc. pose proof (new_table_inv c Hc) as I. pose proof (tinv_cfg _ _ I) as E.
  split; rewrite ?E; [done|done|]. intros i it. cbn. by rewrite lookup_empty.
Qed.

Definition all_good (ts : list (Z * table)) : Prop := NoDup ts.*1 /\ Forall (fun nt => table_good nt.2) ts.

(** ** Loading what was saved *)

Lemma restored_good t t' : table_good t -> same_table t t' -> tinv (cfg_of t) t' -> table_good t'.
Proof.
  intros [Hc I H] S I'. pose proof (tinv_cfg _ _ I') as E. split; rewrite ?E; [done|done|].
  intros i it. rewrite (st_data _ _ S). apply H.
Qed.

Lemma load_saved ts f ss : all_good ts -> saved ts f -> NoDup ss.*1 -> Forall (fun s => t_size s.2 = 0) ss ->
  Forall (fun s => table_good s.2) ss ->
  exists st ss', load f ss = Some (st, ss') /\ (st = Ok \/ st = InvalidArgument) /\
    (st = Ok <-> forall n, n ∈ ts.*1 -> n ∈ ss.*1) /\
    (st = Ok -> ss'.*1 = ss.*1 /\ Forall (fun s => table_good s.2) ss' /\
      (forall n t, (n, t) ∈ ts -> exists t', (n, t') ∈ ss' /\ same_table t t' /\ l_cancelled (t_limiter t') = false) /\
      (forall n s, n ∉ ts.*1 -> (n, s) ∈ ss' -> (n, s) ∈ ss)).
Proof.
  intros [Hnt Hg] Hs Hns Hemp Hgs. pose proof Hs as (Hd & Hf & Hch). rewrite Forall_forall in Hg.
  assert (Hm : forall n t i it ch, (n, t) ∈ ts -> t_data t !! i = Some it -> ch ∈ it_chunks it ->
            chunk_map (f_chunks f) !! ck_key ch = Some ch).
  { intros n t i it ch Ht Hi Hc. destruct (chunk_map_is (f_chunks f) ch) as [ch' E']; [apply Hch; eauto 8|].
    rewrite E'. f_equal. apply chunk_map_in in E' as [Hin' Hk]. apply Hch in Hin' as (n2 & t2 & i2 & it2 & H1 & H2 & H3).
    destruct (tg_items _ (Hg _ Ht) _ _ Hi) as (_ & _ & C1). destruct (tg_items _ (Hg _ H1) _ _ H2) as (_ & _ & C2).
    unfold chunks_are in C1, C2. rewrite Forall_forall in C1, C2. rewrite <- (C1 _ Hc), <- (C2 _ H3). by rewrite Hk. }
  assert (Hres : forall k, k ∈ f_tables f -> exists n t t', (n, t) ∈ ts /\ k_name k = n /\
            restore (chunk_map (f_chunks f)) k = Some t' /\ same_table t t' /\ table_good t' /\ l_cancelled (t_limiter t') = false).
  { intros k Hk. destruct (saved_table _ _ _ Hs Hk) as (n & t & Ht & Hck & Hn). pose proof (Hg _ Ht) as G. cbn in G.
    destruct (restore_same (cfg_of t) t n k (chunk_map (f_chunks f)) (tg_cfg _ G) (tg_inv _ G)) as (t' & E & S & I & Hcl & _).
    - intros i it Hi. by apply (tg_items _ G) in Hi as (? & _).
    - done.
    - eauto.
    - intros i it Hi. by apply (tg_items _ G) in Hi as (_ & ? & _).
    - exists n, t, t'. split; [done|]. split; [done|]. split; [done|]. split; [done|]. split; [|done]. by eapply restored_good. }
  destruct (load_tables_ok (chunk_map (f_chunks f)) (f_tables f) ss Hns) as (st & ss' & E & N & Hst & Hok & Hl).
  - by rewrite (saved_names _ _ Hs).
  - apply Forall_forall. intros k Hk. destruct (Hres k Hk) as (_ & _ & t' & _ & _ & E & _). eauto.
  - intros i n s Hi _. rewrite Forall_lookup in Hemp. apply (Hemp i _ Hi).
  - exists st, ss'. split; [unfold load; by rewrite Hd|]. split; [done|].
    assert (Hcov : st = Ok <-> forall n, n ∈ ts.*1 -> n ∈ ss.*1).
    { rewrite Hok, <- (saved_names _ _ Hs). split.
      - intros H n Hn. apply elem_of_list_fmap in Hn as (k & -> & Hk). by apply H.
      - intros H k Hk. apply H. apply elem_of_list_fmap. eauto. }
    split; [done|]. intros Hst'. pose proof (proj1 Hcov Hst') as Hsub. specialize (Hl Hst'). split; [done|]. split; [|split].
    + apply Forall_forall. intros [n s] Hin. apply elem_of_list_lookup in Hin as [i Hi]. cbn.
      destruct (Hl i n s Hi) as [(k & Hk & Hkn & Hkr)|[_ Hss]].
      * destruct (Hres k Hk) as (n2 & t2 & t2' & _ & _ & E2 & _ & G2 & _). rewrite Hkr in E2. by injection E2 as <-.
      * rewrite Forall_lookup in Hgs. by apply (Hgs i _ Hss).
    + intros n t Ht. assert (Hn : n ∈ ss'.*1).
      { rewrite N. apply Hsub. apply elem_of_list_fmap. by exists (n, t). }
      apply elem_of_list_fmap in Hn as ([n' t'] & -> & Hin). cbn in *. exists t'. split; [done|].
      apply elem_of_list_lookup in Hin as [i Hi]. destruct (Hl i n' t' Hi) as [(k & Hk & Hkn & Hkr)|[Hno _]].
      * destruct (Hres k Hk) as (n2 & t2 & t2' & Ht2 & Hn2 & E2 & S2 & _ & R2). rewrite Hkr in E2. injection E2 as <-.
        assert (t2 = t) as ->; [|done].
        rewrite Hkn in Hn2. subst n2. apply elem_of_list_lookup in Ht as [a Ha]. apply elem_of_list_lookup in Ht2 as [b Hb].
        assert (a = b) as ->.
        { eapply NoDup_lookup; [exact Hnt| |]; rewrite list_lookup_fmap; [by rewrite Ha|by rewrite Hb]. }
        congruence.
      * exfalso. apply Hno. rewrite (saved_names _ _ Hs). apply elem_of_list_fmap. by exists (n', t).
    + intros n s Hn Hin. apply elem_of_list_lookup in Hin as [i Hi].
      destruct (Hl i n s Hi) as [(k & Hk & Hkn & _)|[_ Hss]].
      * exfalso. apply Hn. rewrite <- (saved_names _ _ Hs). apply elem_of_list_fmap. eauto.
      * by eapply elem_of_list_lookup_2.
Qed.

Lemma fresh_names cfgs : (fresh cfgs).*1 = cfgs.*1.
Proof. unfold fresh. rewrite <- list_fmap_compose. done. Qed.
Lemma fresh_empty cfgs : Forall (fun s => t_size s.2 = 0) (fresh cfgs).
Proof. apply Forall_forall. intros [n s] Hin. apply elem_of_list_fmap in Hin as (nc & [= -> ->] & _). done. Qed.
Lemma fresh_good cfgs : cfgs_ok cfgs -> Forall (fun s => table_good s.2) (fresh cfgs).
Proof.
  intros [_ H]. rewrite Forall_forall in H. apply Forall_forall. intros [n s] Hin.
  apply elem_of_list_fmap in Hin as (nc & [= -> ->] & Hn). by apply new_table_good, H.
Qed.

(** ** The system *)

Context (fb : option (option dir)) (base : option (list (Z * table))).

(** The fallback: a complete checkpoint of [base], or there is none. *)
Definition fallback_is : Prop :=
  match base with
  | Some ts => all_good ts /\ exists f, saved ts f /\ fb = Some (Some (full (f_tables f) (f_chunks f)))
  | None => forall d, fb = Some (Some d) -> d_done d = false
  end.

Lemma files_full f : f_done f = true -> files_of (full (f_tables f) (f_chunks f)) = Some f.
Proof. intros H. destruct f. cbn in *. by subst. Qed.

Record sys_inv (s : sys) : Prop := {
  si_live : forall ts, s_live s = Some ts -> all_good ts;
  si_snap : forall ts snap, s_live s = Some ts -> s_snap s = Some snap ->
    Forall (fun nt => table_good nt.2) snap /\ snap.*1 = take (length snap) ts.*1;
  si_dead : s_live s = None -> s_snap s = None;
  si_good : forall ts, s_last s = Some ts -> all_good ts;
  si_last : latest (s_fs s) = None /\ s_last s = None \/
    exists n ts f, latest (s_fs s) = Some (n, full (f_tables f) (f_chunks f)) /\ s_last s = Some ts /\ saved ts f }.

Lemma start_spec s cfgs : fallback_is -> sys_inv s -> cfgs_ok cfgs ->
  exists st ts, initialize true (s_fs s) fb (fresh cfgs) = Some (st, ts) /\ (st = Ok \/ st = InvalidArgument) /\
    (st = Ok <-> forall n, n ∈ (default [] (source base s)).*1 -> n ∈ cfgs.*1) /\
    (st = Ok -> ts.*1 = cfgs.*1 /\ all_good ts /\
    match source base s with
    | Some old =>
      (forall n t, (n, t) ∈ old -> exists t', (n, t') ∈ ts /\ same_table t t' /\ l_cancelled (t_limiter t') = false) /\
      (forall n t, n ∉ old.*1 -> (n, t) ∈ ts -> (n, t) ∈ fresh cfgs)
    | None => ts = fresh cfgs
    end).
Proof.
  intros Hfb [_ _ _ Hgood Hlast] Hc. pose proof (fresh_good cfgs Hc) as Hfg. pose proof (fresh_empty cfgs) as Hfe.
  pose proof Hc as [Hnd _]. pose proof Hnd as Hnd'. rewrite <- fresh_names in Hnd'.
  assert (Hload : forall bs f, all_good bs -> saved bs f -> exists st ts,
     load_dir (full (f_tables f) (f_chunks f)) (fresh cfgs) = Some (st, ts) /\ (st = Ok \/ st = InvalidArgument) /\
     (st = Ok <-> forall n, n ∈ bs.*1 -> n ∈ cfgs.*1) /\
     (st = Ok -> ts.*1 = cfgs.*1 /\ all_good ts /\
       (forall n t, (n, t) ∈ bs -> exists t', (n, t') ∈ ts /\ same_table t t' /\ l_cancelled (t_limiter t') = false) /\
       (forall n t, n ∉ bs.*1 -> (n, t) ∈ ts -> (n, t) ∈ fresh cfgs))).
  { intros bs f Hg Hs. pose proof Hs as (Hd & _). unfold load_dir. rewrite files_full by done. cbn [d_done full].
    destruct (load_saved bs f (fresh cfgs) Hg Hs Hnd' Hfe Hfg) as (st & ts & -> & H1 & H2 & H3). rewrite fresh_names in H2, H3.
    exists st, ts. split; [done|]. split; [done|]. split; [done|]. intros E. destruct (H3 E) as (N & G & A & B).
    split; [done|]. split; [split; [by rewrite N|done]|done]. }
  unfold initialize, load_latest, source in *.
  destruct Hlast as [[-> E]|(n & ts & f & -> & E & Hs)]; rewrite E in *.
  - rewrite decide_True by done. unfold load_fallback, fallback_is in *. destruct base as [bs|].
    + destruct Hfb as (Hg & f & Hs & ->). destruct (Hload bs f Hg Hs) as (st & ts & E2 & Hst & Hcov & H3).
      cbn [d_done full]. change (mkDir (Some (f_tables f)) (Some (f_chunks f)) true) with (full (f_tables f) (f_chunks f)).
      rewrite E2. exists st, ts. destruct Hst as [->| ->].
      * rewrite decide_True by done. split; [done|]. split; [by left|]. done.
      * rewrite !decide_False by done. split; [done|]. split; [by right|]. done.
    + assert (Hl : forall (ts : list (Z * table)), (match fb with Some (Some d) => if d_done d then load_dir d ts else Some (NotFound, ts) | _ => Some (NotFound, ts) end) = Some (NotFound, ts)).
      { intros ts. destruct fb as [[d|]|]; try done. by rewrite (Hfb d eq_refl). }
      rewrite Hl. rewrite decide_False by done. rewrite decide_True by done. exists Ok, (fresh cfgs). split; [done|]. split; [by left|].
      split; [split; [|done]; intros _ n Hn; by apply elem_of_nil in Hn|]. intros _. split; [apply fresh_names|].
      split; [split; [by rewrite fresh_names|done]|done].
  - destruct (Hload ts f (Hgood _ eq_refl) Hs) as (st & ss & -> & Hst & Hcov & H3). exists st, ss. destruct Hst as [->| ->].
    + rewrite decide_False by done. rewrite decide_True by done. split; [done|]. split; [by left|]. done.
    + rewrite !decide_False by done. split; [done|]. split; [by right|]. done.
Qed.

Lemma sys_step_inv s s' : fallback_is -> sys_inv s -> sys_step content fb s s' -> sys_inv s'.
Proof.
  intros Hfb SI H. pose proof SI as [Hlive Hsnap Hdead Hgood Hlast]. destruct H as [cfgs fs last ts Hc Hi|fs ts snap last i n t o r t' Hi Ho Hst|fs ts last|fs ts snap last n t Hn|fs ts snap last f n keep os l Hlen Hs Hops Hpre Hd Hm Hk|fs ts snap last ks cs n keep os l Hops Hpre Hd Hm Hk|fs ts snap last]; cbn in *.
  - destruct (start_spec _ cfgs Hfb SI Hc) as (st & ts' & E & _ & _ & H). cbn in E. rewrite Hi in E. injection E as <- <-.
    destruct (H eq_refl) as (_ & G & _). split; cbn; try done. by intros ? [= <-].
  - specialize (Hlive ts eq_refl) as [Hnd Hg]. rewrite Forall_lookup in Hg. pose proof (Hg _ _ Hi) as G. cbn in G.
    destruct (step_good t o G Ho) as (r2 & t2 & E & G2 & _). rewrite Hst in E. injection E as <- <-.
    assert (Hnames : (<[i := (n, t')]> ts).*1 = ts.*1).
    { rewrite list_fmap_insert. apply list_insert_id. by rewrite list_lookup_fmap, Hi. }
    split; cbn; try done.
    + intros ? [= <-]. split; [by rewrite Hnames|]. apply Forall_insert; [|done]. by rewrite Forall_lookup.
    + intros ? sn [= <-] ->. rewrite Hnames. by apply Hsnap.
  - split; cbn; try done. intros ? ? [= <-] [= <-]. split; [constructor|done].
  - specialize (Hlive ts eq_refl) as [Hnd Hg]. destruct (Hsnap ts snap eq_refl eq_refl) as [Hsg Hsn]. split; cbn; try done.
    + by intros ? [= <-].
    + intros ? ? [= <-] [= <-]. split.
      * apply Forall_app. split; [done|]. constructor; [|constructor]. rewrite Forall_lookup in Hg. apply (Hg _ _ Hn).
      * rewrite app_length, fmap_app. cbn. rewrite Nat.add_1_r. erewrite take_S_r; [by rewrite <- Hsn|].
        by rewrite list_lookup_fmap, Hn.
  - destruct (Hsnap ts snap eq_refl eq_refl) as [Hsg Hsn]. pose proof (Hlive ts eq_refl) as [Hnd Hg].
    assert (all_good snap).
    { split; [|done]. rewrite Hsn, Hlen. rewrite take_ge; [done|]. by rewrite fmap_length. }
    split; cbn; try done. { by intros ? [= <-]. }
    right. exists n, snap, f. split; [|done]. by apply (C19_crash_safe fs n keep _ _ os l).
  - split; cbn; try done. assert (latest (fs_run fs l) = latest fs) as ->; [|done]. by apply (C19_crash_safe fs n keep ks cs os l).
  - split; cbn; try done.
Qed.

Lemma sys_run_inv s : fallback_is -> sys_run content fb s -> sys_inv s.
Proof.
  intros Hfb. induction 1 as [|s s' _ IH H]; [|by eapply sys_step_inv].
  split; cbn; try done. by left.
Qed.

(** ** C68 *)

(** A server started at any time gets the tables as they were saved by the last
    Save that wrote DONE (by whatever server), or else those of the fallback, or
    else its own empty ones.  It refuses to start iff it lacks one of the saved
    tables.  Missing from the full statement: calls with priorities that the
    selectors reject (false for them, [C18_load_no_crash_refuted]), directory names
    that do not increase, several Saves at the same time. *)
Theorem C68_restart_partial s cfgs : fallback_is -> sys_run content fb s -> cfgs_ok cfgs ->
  exists st ts, initialize true (s_fs s) fb (fresh cfgs) = Some (st, ts) /\ (st = Ok \/ st = InvalidArgument) /\
    (st = Ok <-> forall n, n ∈ (default [] (source base s)).*1 -> n ∈ cfgs.*1) /\
    (st = Ok -> ts.*1 = cfgs.*1 /\
      match source base s with
      | Some old =>
        (forall n t, (n, t) ∈ old -> exists t', (n, t') ∈ ts /\ same_table t t' /\ l_cancelled (t_limiter t') = false) /\
        (forall n t, n ∉ old.*1 -> (n, t) ∈ ts -> (n, t) ∈ fresh cfgs)
      | None => ts = fresh cfgs
      end).
Proof.
  intros Hfb Hr Hc. destruct (start_spec s cfgs Hfb (sys_run_inv s Hfb Hr) Hc) as (st & ts & E & H1 & H2 & H3).
  exists st, ts. split; [done|]. split; [done|]. split; [done|]. intros Hs. destruct (H3 Hs) as (A & _ & B). done.
Qed.

(** A table of any running server, however often it was restored: no call
    crashes, the size is bounded and the counters are in step. *)
Theorem C68_safe_partial s ts n t o : fallback_is -> sys_run content fb s -> s_live s = Some ts -> (n, t) ∈ ts ->
  i_size (info t) <= t_max_size t /\ i_inserts (info t) - i_deletes (info t) = i_size (info t) /\
  (call_ok content t o -> exists r t', step t o = Some (r, t')).
Proof.
  intros Hfb Hr Hl Hin. destruct (si_live _ (sys_run_inv s Hfb Hr) ts Hl) as [_ Hg]. rewrite Forall_forall in Hg.
  pose proof (Hg _ Hin) as G. cbn in G. pose proof (tg_inv _ G) as [_ Hs Hlim]. split; [exact Hs|]. split; [exact Hlim|].
  intros Ho. destruct (step_good t o G Ho) as (r & t' & E & _). eauto.
Qed.
End WithFP.

(** ** Example *)

Lemma calls_run {fp : FP} {laws : FPLaws fp} content fb fs snap last n os : forall t rs t',
  sys_run content fb (mkSys fs (Some [(n, t)]) snap last) -> table_good content t ->
  Forall (call_ok content t) os -> run t os = Some (rs, t') ->
  sys_run content fb (mkSys fs (Some [(n, t')]) snap last).
Proof.
  induction os as [|o os IH]; intros t rs t' Hr G Ho E; cbn in E; [by injection E as _ <-|].
  apply Forall_cons in Ho as [Ho Hos]. destruct (step_good content t o G Ho) as (r & t1 & E1 & G1 & Ec). rewrite E1 in E.
  destruct (run t1 os) as [[rs2 t2]|] eqn:E2; [|done]. injection E as _ <-. eapply IH; [|exact G1| |exact E2].
  - eapply sr_step; [exact Hr|]. exact (ss_call content fb fs [(n, t)] snap last 0 n t o r t1 eq_refl Ho E1).
  - rewrite Forall_forall in Hos. rewrite Forall_forall. intros x Hx. apply Hos in Hx. unfold call_ok in *. by rewrite Ec.
Qed.
(** A whole Save of one table. *)
Lemma save_run {fp : FP} content fb fs last n t l dir_n : sys_run content fb (mkSys fs (Some [(n, t)]) None last) ->
  sorted_items (t_data t) l -> (forall m, is_Some (fs !! m) -> m < dir_n) ->
  let ks := [some_checkpoint n t l] in
  sys_run content fb (mkSys (fs_run fs (simple_save fs dir_n 1 ks (chunks_of t))) (Some [(n, t)]) None (Some [(n, t)])).
Proof.
  intros Hr Hs Hm ks. eapply sr_step; [eapply sr_step; [eapply sr_step; [exact Hr|apply ss_save]|]|].
  - apply (ss_snap content fb fs [(n, t)] [] last n t eq_refl).
  - apply (ss_saved content fb fs [(n, t)] [(n, t)] last (mkFiles true (chunks_of t) ks) dir_n 1
      (simple_save fs dir_n 1 ks (chunks_of t))); [done|by apply saved_one|apply simple_save_ok|done| |done|lia].
    unfold simple_save. cbn [app]. do 5 apply elem_of_list_further. apply elem_of_list_here.
Qed.

Local Existing Instance fp_exact.
Local Existing Instance fp_exact_laws.
Definition ex_content (x : Z) : chunk := mkChunk x (if x =? 101 then 7 else 8).
Definition ex_cfgs : list (Z * tcfg) := [(9, ex_q_cfg)].
Definition start_table (fs : fsys) : table :=
  match initialize true fs None (fresh ex_cfgs) with Some (Ok, [(_, t)]) => t | _ => new_table ex_q_cfg end.
Definition after (t : table) (os : list op) : table := match run t os with Some (_, t) => t | None => t end.

(** Generation 1: three insertions, a sample and a deletion, saved; one more
    insertion that is lost.  Generation 2: one insertion and a sample, saved. *)
Definition g1_saved : table := after (new_table ex_q_cfg) ex_q_hist.
Definition g1_fs : fsys :=
  fs_run ∅ (simple_save ∅ 1 1 [some_checkpoint 9 g1_saved [q_item g1_saved 2; q_item g1_saved 3]] (chunks_of g1_saved)).
Definition g1_lost : list op := [OInsert (3, 0) d0 (mk_item 4 1 8 0)].
Definition g2_ops : list op := [OInsert (4, 0) d0 (mk_item 5 1 8 0); OSample 1 ds0].
Definition g2_start : table := start_table g1_fs.
Definition g2_saved : table := after g2_start g2_ops.
Definition g2_fs : fsys :=
  fs_run g1_fs (simple_save g1_fs 2 1 [some_checkpoint 9 g2_saved [q_item g2_saved 2; q_item g2_saved 3; q_item g2_saved 5]] (chunks_of g2_saved)).

Lemma ex_cfgs_ok : cfgs_ok ex_cfgs.
Proof. split; [by apply NoDup_singleton|]. by repeat constructor. Qed.
Lemma ex_no_fallback : fallback_is ex_content None None.
Proof. done. Qed.
Ltac calls_ok := repeat (constructor; [split; [ops_ok|split; [done|first [done|by repeat constructor]]]|]); constructor.
Lemma live_good s n t : sys_run ex_content None s -> s_live s = Some [(n, t)] -> table_good ex_content t.
Proof.
  intros Hr Hl. destruct (si_live _ _ (sys_run_inv ex_content None None s ex_no_fallback Hr) _ Hl) as [_ H].
  by apply Forall_cons in H as [? _].
Qed.

Lemma start_live fs last : sys_run ex_content None (mkSys fs None None last) ->
  initialize true fs None (fresh ex_cfgs) = Some (Ok, [(9, start_table fs)]) ->
  sys_run ex_content None (mkSys fs (Some [(9, start_table fs)]) None last).
Proof. intros H E. eapply sr_step; [exact H|]. exact (ss_start _ _ ex_cfgs _ _ _ ex_cfgs_ok E). Qed.
Lemma run_live fs last t os : sys_run ex_content None (mkSys fs (Some [(9, t)]) None last) ->
  run t os <> None -> Forall (call_ok ex_content t) os ->
  sys_run ex_content None (mkSys fs (Some [(9, after t os)]) None last).
Proof.
  intros H E Ho. unfold after. destruct (run t os) as [[rs t']|] eqn:Er; [|done].
  eapply calls_run; [exact H| |exact Ho|exact Er]. eapply live_good; [exact H|reflexivity].
Qed.

Lemma g1_run : sys_run ex_content None (mkSys g1_fs (Some [(9, g1_saved)]) None (Some [(9, g1_saved)])).
Proof.
  pose proof (start_live ∅ None (sr_start _ _) ltac:(vm_compute; reflexivity)) as H0.
  assert (E : start_table ∅ = new_table ex_q_cfg) by (vm_compute; reflexivity). rewrite E in H0.
  assert (H1 : sys_run ex_content None (mkSys ∅ (Some [(9, g1_saved)]) None None)).
  { apply (run_live _ _ _ ex_q_hist H0); [vm_compute; discriminate|]. calls_ok. }
  apply (save_run ex_content None ∅ None 9 g1_saved [q_item g1_saved 2; q_item g1_saved 3] 1 H1).
  - sorted_ok.
  - intros m [d Hd]. by rewrite lookup_empty in Hd.
Qed.
Lemma g2_run : sys_run ex_content None (mkSys g2_fs None None (Some [(9, g2_saved)])).
Proof.
  assert (H0 : sys_run ex_content None (mkSys g1_fs None None (Some [(9, g1_saved)]))).
  { eapply sr_step; [|apply ss_stop]. apply (run_live _ _ _ g1_lost g1_run); [vm_compute; discriminate|]. calls_ok. }
  apply start_live in H0; [|vm_compute; reflexivity]. change (start_table g1_fs) with g2_start in H0.
  assert (H1 : sys_run ex_content None (mkSys g1_fs (Some [(9, g2_saved)]) None (Some [(9, g1_saved)]))).
  { apply (run_live _ _ _ g2_ops H0); [vm_compute; discriminate|]. calls_ok. }
  eapply sr_step; [|apply ss_stop].
  apply (save_run ex_content None g1_fs _ 9 g2_saved [q_item g2_saved 2; q_item g2_saved 3; q_item g2_saved 5] 2 H1).
  - sorted_ok.
  - intros m [d Hd]. apply elem_of_map_to_list, elem_of_list_In in Hd. vm_compute in Hd. destruct Hd as [[= <- _]|[]]. done.
Qed.
Example C68_example :
  sys_run ex_content None (mkSys g2_fs None None (Some [(9, g2_saved)])) /\ cfgs_ok ex_cfgs /\
  info g1_saved = mkInfo 2 1 1 1 3 1 1 /\ info g2_saved = mkInfo 3 1 1 2 4 2 1 /\
  exists t, initialize true g2_fs None (fresh ex_cfgs) = Some (Ok, [(9, t)]) /\ info t = info g2_saved /\
    initialize true g2_fs None (fresh [(8, ex_q_cfg)]) = Some (InvalidArgument, fresh [(8, ex_q_cfg)]).
Proof.
  split; [apply g2_run|]. split; [apply ex_cfgs_ok|]. split; [vm_compute; reflexivity|]. split; [vm_compute; reflexivity|].
  exists (start_table g2_fs). split; [vm_compute; reflexivity|]. split; vm_compute; reflexivity.
Qed.

Print Assumptions C68_restart_partial.
Print Assumptions C68_safe_partial.
