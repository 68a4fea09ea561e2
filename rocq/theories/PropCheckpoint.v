(** Properties C17 and C18: what a checkpoint restores. *)
From Verif Require Import Base RateLimiter SelList SelUniform SelHeap SelHeapProofs SelPrio SelPrioProofs SelPrioExact
  Selector Trajectory Table EventLog TableProofs TableLog SelSpec PropSelectors TableSpec LogFacts PropTable
  TableSim SelAlike Checkpoint CheckpointProofs.

(** ** Time *)

Definition at_lt (a b : Z * Z) : Prop := a.1 < b.1 \/ (a.1 = b.1 /\ a.2 < b.2).

(** The clock readings of the insertion calls, in order. *)
Definition op_now (o : op) : list (Z * Z) :=
  match o with OInsert now _ _ | OInsertWake now _ _ => [now] | _ => [] end.
Definition clock_increases (os : list op) : Prop := StronglySorted at_lt (concat (op_now <$> os)).

(** The order in which the selectors consider the items is the order of their
    time stamps: for a queue and a stack the order of insertion, for a heap the
    order in which items of equal priority were touched. *)
Definition order_recorded (kind : sel_kind) (t : table) : Prop :=
  match kind with
  | KFifo | KLifo => forall k1 k2 x y, t_data t !! k1 = Some x -> t_data t !! k2 = Some y ->
      (ins_pos k1 (t_log t) < ins_pos k2 (t_log t))%nat -> at_lt (it_at x) (it_at y)
  | KHeap _ => forall k1 k2 x y, t_data t !! k1 = Some x -> t_data t !! k2 = Some y ->
      same_prio (it_prio x) (it_prio y) ->
      (touch_pos k1 (t_log t) < touch_pos k2 (t_log t))%nat -> at_lt (it_at x) (it_at y)
  | _ => False
  end.

Definition ev_time (e : event) : list (Z * Z) := match e with EvInsert it => [it_at it] | _ => [] end.
Definition ins_times (log : list event) : list (Z * Z) := concat (ev_time <$> log).

Lemma ins_times_app l l' : ins_times (l ++ l') = ins_times l ++ ins_times l'.
Proof. unfold ins_times. by rewrite fmap_app, concat_app. Qed.
Lemma ins_times_nil evs : (forall it, EvInsert it ∉ evs) -> ins_times evs = [].
Proof.
  induction evs as [|e evs IH]; intros H; [done|]. change (e :: evs) with ([e] ++ evs). rewrite ins_times_app, IH.
  - destruct e as [it| | | |]; try done. exfalso. apply (H it). left.
  - intros it Hi. apply (H it). by right.
Qed.

Lemma sorted_sublist {A} (R : A -> A -> Prop) l l' : sublist l l' -> StronglySorted R l' -> StronglySorted R l.
Proof.
  induction 1 as [|x l l' Hs IH|x l l' Hs IH]; intros H; [done| |].
  - apply StronglySorted_inv in H as [H F]. constructor; [by apply IH|].
    rewrite Forall_forall in F. apply Forall_forall. intros y Hy. apply F. eapply elem_of_submseteq; [exact Hy|by apply sublist_submseteq].
  - apply StronglySorted_inv in H as [H F]. by apply IH.
Qed.
Lemma sorted_app_inv {A} (R : A -> A -> Prop) l l' : StronglySorted R (l ++ l') ->
  StronglySorted R l /\ forall x y, x ∈ l -> y ∈ l' -> R x y.
Proof.
  induction l as [|a l IH]; intros H; cbn in H.
  - split; [constructor|]. intros x y Hx. by apply elem_of_nil in Hx.
  - apply StronglySorted_inv in H as [H F]. destruct (IH H) as [H1 H2]. rewrite Forall_forall in F. split.
    + constructor; [done|]. apply Forall_forall. intros y Hy. apply F, elem_of_app. by left.
    + intros x y Hx Hy. apply elem_of_cons in Hx as [->|Hx]; [|by apply H2]. apply F, elem_of_app. by right.
Qed.

Section WithFP.
Context {fp : FP} {laws : FPLaws fp}.

Lemma call_times c log closed o r evs : call_spec c log closed o r evs -> sublist (ins_times evs) (op_now o).
Proof.
  intros H.
  assert (Hw : forall now d it, insert_wait_spec c log closed now d it r evs -> sublist (ins_times evs) [now]).
  { intros now d it [(_ & _ & ->)|[(_ & _ & _ & ->)|(_ & _ & _ & [(old & _ & ->)|[_ H']])]]; try (apply sublist_nil_l).
    destruct H' as [[_ ->]|(_ & v & q & _ & _ & ->)]; cbn; done. }
  assert (Ho : op_inserts o = None -> sublist (ins_times evs) (op_now o)).
  { intros Hn. rewrite ins_times_nil; [apply sublist_nil_l|]. intros it Hi.
    pose proof (insert_origin _ _ _ _ _ _ _ H Hi). congruence. }
  destruct o as [now d it|now d it|b ds|b ds|us ks| |]; try (by apply Ho); cbn [call_spec op_now] in *.
  - destruct H as [(_ & _ & ->)|[(_ & (old & _ & ->) & _)|(_ & _ & H)]]; [apply sublist_nil_l|apply sublist_nil_l|eauto].
  - eauto.
Qed.
Lemma hist_times c os rs log closed : hist_spec c os rs log closed ->
  sublist (ins_times log) (concat (op_now <$> os)).
Proof.
  induction 1 as [|os rs log closed o r evs _ IH H]; [done|].
  rewrite ins_times_app, fmap_app, concat_app. apply sublist_app; [done|]. cbn. rewrite app_nil_r.
  by eapply call_times.
Qed.

Lemma clock_order c log : log_all (ev_ok c) log -> StronglySorted at_lt (ins_times log) ->
  (forall k it, replay log !! k = Some it -> it_at it ∈ ins_times log) /\
  (forall k1 k2 x y, replay log !! k1 = Some x -> replay log !! k2 = Some y ->
     (ins_pos k1 log < ins_pos k2 log)%nat -> at_lt (it_at x) (it_at y)).
Proof.
  induction log as [|e log IH] using rev_ind; intros H Hs.
  - split; intros *; cbn; by rewrite lookup_empty.
  - apply log_all_last in H as [H He]. rewrite ins_times_app in *. apply sorted_app_inv in Hs as [Hs Hn].
    destruct (IH H Hs) as [I1 I2]. rewrite replay_snoc.
    destruct e as [x|x|x|x|]; cbn [replay_ev ev_ok] in *.
    + destruct He as (Hnew & _). split.
      * intros k it. rewrite lookup_insert_Some, elem_of_app. intros [[<- <-]|[_ E]]; [right; left|left; eauto].
      * intros k1 k2 a b. rewrite !ins_pos_snoc, !lookup_insert_Some.
        intros [[<- <-]|[N1 A]] [[E2 <-]|[N2 B]].
        -- subst k2. rewrite decide_True by done. lia.
        -- rewrite decide_True, decide_False by done. pose proof (ins_pos_le k2 log). lia.
        -- intros _. apply Hn; [by eapply I1|]. left.
        -- rewrite !decide_False by done. by apply I2.
    + destruct He as (old & Ho & -> & _). cbn in Ho. cbn [it_key it_with_times]. rewrite app_nil_r. split.
      * intros k it. rewrite lookup_insert_Some. intros [[<- <-]|[_ E]]; [by apply (I1 _ _ Ho)|eauto].
      * intros k1 k2 a b. rewrite !ins_pos_snoc, !lookup_insert_Some.
        intros [[<- <-]|[N1 A]] [[<- <-]|[N2 B]]; try lia; cbn [it_at it_with_times]; by apply I2.
    + destruct He as (old & p & Ho & -> & _). cbn in Ho. cbn [it_key it_with_prio]. rewrite app_nil_r. split.
      * intros k it. rewrite lookup_insert_Some. intros [[<- <-]|[_ E]]; [by apply (I1 _ _ Ho)|eauto].
      * intros k1 k2 a b. rewrite !ins_pos_snoc, !lookup_insert_Some.
        intros [[<- <-]|[N1 A]] [[<- <-]|[N2 B]]; try lia; cbn [it_at it_with_prio]; by apply I2.
    + rewrite app_nil_r. split.
      * intros k it. rewrite lookup_delete_Some. intros [_ E]. eauto.
      * intros k1 k2 a b. rewrite !ins_pos_snoc, !lookup_delete_Some. intros [_ A] [_ B]. by apply I2.
    + split; intros *; by rewrite lookup_empty.
Qed.

(** ** The selectors of the restored table *)

Lemma ckpt_ref kind l : NoDup (pi_key <$> l) -> Forall (fun p => accepts kind (pi_prio p) = true) l ->
  forall k e, ref_hist kind (ckpt_ops l) !! k = Some e <->
    exists i p, l !! i = Some p /\ pi_key p = k /\ e = mkEntry (pi_prio p) (S i) (S i).
Proof.
  induction l as [|p l IH] using rev_ind; intros Hnd Ha k e.
  - cbn. rewrite lookup_empty. split; [done|]. intros (i & p & H & _). by rewrite lookup_nil in H.
  - rewrite fmap_app in Hnd. apply NoDup_app in Hnd as (Hnd & Hnew & _).
    apply Forall_app in Ha as [Ha Hap]. apply Forall_cons in Hap as [Hap _].
    assert (Hk : ref_hist kind (ckpt_ops l) !! pi_key p = None).
    { apply eq_None_not_Some. intros [x Hx]. apply IH in Hx as (i & q & Hi & Hq & _); [|done|done].
      apply (Hnew (pi_key p)); [|left]. rewrite <- Hq. apply elem_of_list_fmap_1. by eapply elem_of_list_lookup_2. }
    unfold ckpt_ops in *. rewrite fmap_app. cbn [fmap list_fmap]. unfold ref_hist in *. rewrite ref_run_snoc.
    cbn [ref_step snd fst ref_op]. rewrite Hk, Hap.
    assert (Hlen : (ref_run kind ((fun p => SIns (pi_key p) (pi_prio p)) <$> l)).1 = length l)
      by (by rewrite ref_run_length, fmap_length). rewrite Hlen.
    rewrite lookup_insert_Some, IH by done. split.
    + intros [[<- <-]|[Hne (i & q & Hi & Hq & ->)]].
      * exists (length l), p. split; [|done]. by rewrite list_lookup_middle.
      * exists i, q. split; [|done]. by apply lookup_app_l_Some.
    + intros (i & q & Hi & Hq & ->). apply lookup_app_Some in Hi as [Hi|[Hl Hi]].
      * right. split; [|eauto]. intros E. apply (Hnew (pi_key p)); [|left].
        rewrite E, <- Hq. apply elem_of_list_fmap_1. by eapply elem_of_list_lookup_2.
      * apply list_lookup_singleton_Some in Hi as [Hi <-]. left. split; [done|].
        assert (i = length l) as -> by lia. done.
Qed.

Lemma sorted_lookup {A} (R : A -> A -> Prop) l i j x y : StronglySorted R l -> (i < j)%nat ->
  l !! i = Some x -> l !! j = Some y -> R x y.
Proof.
  intros H. revert i j. induction H as [|a l H IH F]; intros i j Hij Hi Hj; [by rewrite lookup_nil in Hi|].
  destruct j as [|j]; [lia|]. cbn in Hj. destruct i as [|i]; cbn in Hi.
  - injection Hi as <-. rewrite Forall_forall in F. apply F. by eapply elem_of_list_lookup_2.
  - eapply IH; [|exact Hi|exact Hj]. lia.
Qed.

Lemma sorted_pos l i j p q : StronglySorted (fun a b => inserted_before b a = false) l ->
  l !! i = Some p -> l !! j = Some q -> at_lt (pi_at p) (pi_at q) -> (i < j)%nat.
Proof.
  intros Hs Hi Hj Hlt. destruct (Nat.lt_trichotomy i j) as [H|[H|H]]; [done| |].
  - subst j. rewrite Hi in Hj. injection Hj as <-. unfold at_lt in Hlt. lia.
  - pose proof (sorted_lookup _ _ _ _ _ _ Hs H Hj Hi) as Hb. cbn in Hb. unfold inserted_before, at_lt in *. lia.
Qed.

(** Everything a checkpoint needs from the world. *)
Record restores (c : tcfg) (os : list op) (rs : list result) (t : table) (k : tckpt) (m : gmap Z chunk)
  (t' : table) : Prop := {
  rst_reached : reached c os rs t;
  rst_wake : Forall wake_valid os;
  rst_ckpt : checkpoint (k_name k) t k;
  rst_chunks : forall i it ch, t_data t !! i = Some it -> ch ∈ it_chunks it -> m !! ck_key ch = Some ch;
  rst_restore : restore m k = Some t' }.

(** ** C17 *)

(** Restoring always succeeds, and everything visible is as it was: items,
    counters, configuration. *)
Theorem C17_restore_same c os rs t n k m : reached c os rs t -> Forall wake_valid os -> checkpoint n t k ->
  (forall i it ch, t_data t !! i = Some it -> ch ∈ it_chunks it -> m !! ck_key ch = Some ch) ->
  exists t', restore m k = Some t' /\ same_table t t' /\ l_cancelled (t_limiter t') = false.
Proof.
  intros H Hw Hk Hm.
  destruct (restore_same c t n k m (re_cfg _ _ _ _ H) (li_inv _ _ (reached_linv _ _ _ _ H)) (linv_prio _ _ (reached_linv _ _ _ _ H)) Hk Hm) as (t' & E & S & _ & Hcl & _).
  - by eapply reached_valid.
  - eauto.
Qed.

Lemma restores_inv c os rs t k m t' : restores c os rs t k m t' ->
  same_table t t' /\ tinv c t' /\ l_cancelled (t_limiter t') = false /\
  t_sampler t' = sel_hist (c_sampler c) (ckpt_ops (k_items k)) /\
  t_remover t' = sel_hist (c_remover c) (ckpt_ops (k_items k)) /\
  sorted_items (t_data t) (k_items k).
Proof.
  intros [H Hw Hk Hm E].
  destruct (restore_same c t _ k m (re_cfg _ _ _ _ H) (li_inv _ _ (reached_linv _ _ _ _ H)) (linv_prio _ _ (reached_linv _ _ _ _ H)) Hk Hm) as (t2 & E2 & S & I & Hcl & Hs & Hr).
  - by eapply reached_valid.
  - rewrite E in E2. injection E2 as <-. repeat split; try done; try apply S; try apply I.
    all: destruct Hk as (l & HS & ->); apply HS.
Qed.

(** The restored table is as safe as the original: later calls never crash, the
    size stays bounded and the limiter's counters stay in step. *)
Theorem C17_restored_safe c os rs t k m t' os' : restores c os rs t k m t' -> Forall (op_ok c) os' ->
  exists rs' t'', run t' os' = Some (rs', t'') /\ i_size (info t'') <= c_max_size c /\
    i_inserts (info t'') - i_deletes (info t'') = i_size (info t'').
Proof.
  intros H Ho. destruct (restores_inv _ _ _ _ _ _ _ H) as (_ & I & _).
  destruct (run_inv c os' t' (re_cfg _ _ _ _ (rst_reached _ _ _ _ _ _ _ H)) I Ho) as (rs' & t'' & E & I'').
  exists rs', t''. split; [done|]. destruct I''. done.
Qed.

Lemma replay_prio c (P : dbl -> Prop) log : log_all (ev_ok c) log ->
  Forall (fun e => match e with EvInsert it | EvUpdate it => P (it_prio it) | _ => True end) log ->
  forall k it, replay log !! k = Some it -> P (it_prio it).
Proof.
  induction log as [|e log IH] using rev_ind; intros H HP k it.
  - cbn. by rewrite lookup_empty.
  - apply log_all_last in H as [H He]. apply Forall_app in HP as [HP HPe]. apply Forall_cons in HPe as [HPe _].
    specialize (IH H HP). rewrite replay_snoc.
    destruct e as [x|x|x|x|]; cbn in *.
    + rewrite lookup_insert_Some. intros [[<- <-]|[_ E]]; [done|eauto].
    + destruct He as (old & Ho & -> & _). rewrite lookup_insert_Some. intros [[<- <-]|[_ E]]; [|eauto]. by apply IH in Ho.
    + rewrite lookup_insert_Some. intros [[<- <-]|[_ E]]; [done|eauto].
    + rewrite lookup_delete_Some. intros [_ E]. eauto.
    + by rewrite lookup_empty.
Qed.

(** The entries of the restored selectors have the same priorities. *)
Lemma restored_prios c os rs t l kind : reached c os rs t -> sorted_items (t_data t) l ->
  kind = c_sampler c \/ kind = c_remover c ->
  forall k, en_prio <$> ref_hist kind (ev_sop <$> t_log t) !! k = en_prio <$> ref_hist kind (ckpt_ops l) !! k.
Proof.
  intros H HS Hkind k. pose proof (reached_spec _ _ _ _ H) as [Hh LI]. pose proof LI as [[C _ _] L _].
  pose proof (la_data _ _ _ _ L) as D. pose proof (la_ok _ _ _ _ L) as Hok.
  assert (Hnd : NoDup (pi_key <$> l)) by (rewrite (sorted_items_keys _ _ (tc_key _ _ C) HS); apply NoDup_fst_map_to_list).
  assert (Hacc : Forall (fun p => accepts kind (pi_prio p) = true) l).
  { apply Forall_forall. intros p Hp. rewrite sorted_items_elem in Hp by done. destruct Hp as (i & it & Hi & ->).
    destruct (linv_prio c t LI i it Hi). by destruct Hkind as [-> | ->]. }
  pose proof (ckpt_ref kind l Hnd Hacc) as Href.
  rewrite (ref_hist_log c kind (t_log t) Hok Hkind), log_entries_lookup, D. destruct (t_data t !! k) as [x|] eqn:Hx; cbn.
  - assert (Hin : to_proto x ∈ l) by (rewrite sorted_items_elem by done; eauto).
    apply elem_of_list_lookup in Hin as [i Hi].
    rewrite (proj2 (Href k (mkEntry (it_prio x) (S i) (S i)))); [done|].
    exists i, (to_proto x). split; [done|]. split; [|done]. cbn. by apply (tc_key _ _ C).
  - destruct (ref_hist kind (ckpt_ops l) !! k) as [e|] eqn:He; [|done]. exfalso.
    apply Href in He as (i & p & Hi & Hp & _).
    assert (Hin : p ∈ l) by (by eapply elem_of_list_lookup_2). rewrite sorted_items_elem in Hin by done.
    destruct Hin as (k' & y & Hy & ->). cbn in Hp. rewrite (tc_key _ _ C _ _ Hy) in Hp. congruence.
Qed.

Lemma sel_alike_restored c os rs t l kind : reached c os rs t -> sorted_items (t_data t) l ->
  kind = c_sampler c \/ kind = c_remover c -> order_recorded kind t ->
  (heap_kind kind -> Forall op_finite os) ->
  alike kind (sel_replay kind (t_log t)) (sel_hist kind (ckpt_ops l)).
Proof.
  intros H HS Hkind Hord Hfin. pose proof (reached_spec _ _ _ _ H) as [Hh LI]. pose proof LI as [[C _ _] L _].
  pose proof (la_data _ _ _ _ L) as D. pose proof (la_ok _ _ _ _ L) as Hok.
  assert (Hko : kind_ok kind) by (destruct (re_cfg _ _ _ _ H) as (_ & _ & ? & ?); by destruct Hkind as [-> | ->]).
  assert (Hnd : NoDup (pi_key <$> l)) by (rewrite (sorted_items_keys _ _ (tc_key _ _ C) HS); apply NoDup_fst_map_to_list).
  assert (Hacc : Forall (fun p => accepts kind (pi_prio p) = true) l).
  { apply Forall_forall. intros p Hp. rewrite sorted_items_elem in Hp by done. destruct Hp as (i & it & Hi & ->).
    destruct (linv_prio c t LI i it Hi). by destruct Hkind as [-> | ->]. }
  pose proof (ckpt_ref kind l Hnd Hacc) as Href.
  pose proof (ref_hist_log c kind (t_log t) Hok Hkind) as Hlog.
  rewrite sel_replay_hist. eexists _, _, _, _. split; [by apply hist_rel|]. split; [by apply hist_rel|].
  rewrite Hlog.
  (* an entry of the log and the entry of the checkpoint for the same key *)
  assert (Hent : forall k a b, log_entries (t_log t) !! k = Some a -> ref_hist kind (ckpt_ops l) !! k = Some b ->
     exists x i, t_data t !! k = Some x /\ a = mkEntry (it_prio x) (ins_pos k (t_log t)) (touch_pos k (t_log t)) /\
       l !! i = Some (to_proto x) /\ b = mkEntry (it_prio x) (S i) (S i)).
  { intros k a b Ha Hb. rewrite log_entries_lookup, D in Ha. destruct (t_data t !! k) as [x|] eqn:Hx; [|done].
    cbn in Ha. injection Ha as <-. apply Href in Hb as (i & p & Hi & Hp & ->).
    assert (Hin : p ∈ l) by (by eapply elem_of_list_lookup_2). rewrite sorted_items_elem in Hin by done.
    destruct Hin as (k' & y & Hy & ->). cbn in Hp. rewrite (tc_key _ _ C _ _ Hy) in Hp. subst k'.
    rewrite Hx in Hy. injection Hy as <-. exists x, i. done. }
  split.
  - split.
    + intros k. rewrite <- Hlog. by apply (restored_prios c os rs t l).
    + intros Hf k1 k2 a1 a2 b1 b2 A1 A2 B1 B2 Hlt.
      destruct (Hent _ _ _ A1 B1) as (x1 & i1 & D1 & -> & L1 & ->). destruct (Hent _ _ _ A2 B2) as (x2 & i2 & D2 & -> & L2 & ->).
      cbn in *. assert (i1 < i2)%nat; [|lia]. eapply sorted_pos; [apply HS|exact L1|exact L2|]. cbn.
      destruct Hf as [-> | ->]; by eapply (Hord k1 k2).
    + intros [mh Hf] k1 k2 a1 a2 b1 b2 A1 A2 B1 B2 Hp Hlt.
      destruct (Hent _ _ _ A1 B1) as (x1 & i1 & D1 & -> & L1 & ->). destruct (Hent _ _ _ A2 B2) as (x2 & i2 & D2 & -> & L2 & ->).
      cbn in *. assert (i1 < i2)%nat; [|lia]. eapply sorted_pos; [apply HS|exact L1|exact L2|]. cbn.
      subst kind. by eapply (Hord k1 k2).
  - destruct kind as [| |mh| |e]; try done.
    + by destruct (sel_hist KFifo (ev_sop <$> t_log t)) eqn:E1, (sel_hist KFifo (ckpt_ops l)) eqn:E2;
        pose proof (hist_shape KFifo (ev_sop <$> t_log t) I) as K1; pose proof (hist_shape KFifo (ckpt_ops l) I) as K2;
        rewrite E1 in K1; rewrite E2 in K2.
    + by destruct (sel_hist KLifo (ev_sop <$> t_log t)) eqn:E1, (sel_hist KLifo (ckpt_ops l)) eqn:E2;
        pose proof (hist_shape KLifo (ev_sop <$> t_log t) I) as K1; pose proof (hist_shape KLifo (ckpt_ops l) I) as K2;
        rewrite E1 in K1; rewrite E2 in K2.
    + specialize (Hfin I). pose proof (hist_finite _ _ _ _ _ Hh Hfin) as Hfe.
      destruct (hist_heap_ordered mh (ev_sop <$> t_log t)) as (h1 & -> & ? & ?); [by apply Forall_fmap|].
      destruct (hist_heap_ordered mh (ckpt_ops l)) as (h2 & -> & ? & ?); [|done].
      apply Forall_fmap, Forall_forall. intros p Hp. rewrite sorted_items_elem in Hp by done. destruct Hp as (i & it & Hi & ->).
      cbn. rewrite <- D in Hi. refine (replay_prio c (fun p => p <> NaN) (t_log t) Hok _ i it Hi).
      eapply Forall_impl; [exact Hfe|]. by intros [].
Qed.

Definition with_log (t : table) (l : list event) : table :=
  mkTable (t_max_size t) (t_max_times t) (t_sampler t) (t_remover t) (t_limiter t) (t_data t) (t_eps t)
    (t_del_eps t) (t_unique t) l.

Lemma eq_simrel : simrel (fun _ => True) (@eq selector).
Proof.
  split; try (intros; by subst). intros a b d -> _. apply same_pick_refl.
Qed.

Lemma same_sample_trans x y z : same_sample x y -> same_sample z y -> same_sample x z.
Proof.
  intros (A1 & A2 & A3 & A4 & A5 & A6) (B1 & B2 & B3 & B4 & B5 & B6).
  split; [congruence|]. split; [lra|]. repeat split; congruence.
Qed.
Lemma same_samples_trans x y z : Forall2 same_sample x y -> Forall2 same_sample z y -> Forall2 same_sample x z.
Proof.
  intros H. revert z. induction H; intros z Hz; inversion Hz; subst; constructor; [by eapply same_sample_trans|auto].
Qed.
Lemma same_result_trans x y z : same_result x y -> same_result z y -> same_result x z.
Proof.
  destruct x, y, z; cbn; try done; try congruence. intros [-> ?] [-> ?]. split; [done|]. by eapply same_samples_trans.
Qed.
Lemma same_results_trans x y z : Forall2 same_result x y -> Forall2 same_result z y -> Forall2 same_result x z.
Proof.
  intros H. revert z. induction H; intros z Hz; inversion Hz; subst; constructor; [by eapply same_result_trans|auto].
Qed.

(** With deterministic selectors whose order is recorded in the time stamps the
    restored table answers every sequence of calls like the saved one. *)
Theorem C17_future c os rs t k m t' os' : restores c os rs t k m t' ->
  det_kind (c_sampler c) -> det_kind (c_remover c) ->
  order_recorded (c_sampler c) t -> order_recorded (c_remover c) t ->
  (heap_kind (c_sampler c) \/ heap_kind (c_remover c) -> Forall op_finite (os ++ os')) ->
  l_cancelled (t_limiter t) = false -> Forall (op_ok c) os' ->
  exists rs1 t1 rs2 t2 evs,
    run t os' = Some (rs1, t1) /\ run t' os' = Some (rs2, t2) /\
    Forall2 same_result rs1 rs2 /\ info t1 = info t2 /\ t_data t1 = t_data t2 /\
    t_log t1 = t_log t ++ evs /\ t_log t2 = t_log t' ++ evs.
Proof.
  intros R D1 D2 O1 O2 Hfin Hcl Ho. pose proof (rst_reached _ _ _ _ _ _ _ R) as H.
  destruct (restores_inv _ _ _ _ _ _ _ R) as (S & I & Hcl' & Es & Er & HS).
  pose proof (reached_linv _ _ _ _ H) as LI. pose proof LI as [[C _ _] L _].
  set (okp := fun p => heap_kind (c_sampler c) \/ heap_kind (c_remover c) -> p <> NaN).
  assert (R1 : simrel okp (alike (c_sampler c))).
  { apply alike_simrel; [done|]. intros p Hp Hk. apply Hp. by left. }
  assert (R2 : simrel okp (alike (c_remover c))).
  { apply alike_simrel; [done|]. intros p Hp Hk. apply Hp. by right. }
  assert (T1 : tsim (R1 := alike (c_sampler c)) (R2 := alike (c_remover c)) (t_log t) t (with_log t' [])).
  { assert (Hf1 : heap_kind (c_sampler c) -> Forall op_finite os).
    { intros Hk. specialize (Hfin (or_introl Hk)). by apply Forall_app in Hfin as [? _]. }
    assert (Hf2 : heap_kind (c_remover c) -> Forall op_finite os).
    { intros Hk. specialize (Hfin (or_intror Hk)). by apply Forall_app in Hfin as [? _]. }
    destruct S as [Sd Se Si (S1 & S2 & S3 & S4 & S5 & S6 & S7 & S8)].
    unfold info in Si. injection Si as _ _ Sde Su Si1 Si2 Si3.
    split; cbn [with_log t_max_size t_max_times t_sampler t_remover t_limiter t_data t_eps t_del_eps t_unique t_log];
      try done.
    - rewrite Es, <- (la_sampler _ _ _ _ L). apply (sel_alike_restored c os rs t); auto.
    - rewrite Er, <- (la_remover _ _ _ _ L). apply (sel_alike_restored c os rs t); auto.
    - destruct (t_limiter t), (t_limiter t'). cbn in *. congruence.
    - by rewrite app_nil_r. }
  assert (T2 : tsim (R1 := eq) (R2 := eq) (t_log t') t' (with_log t' [])).
  { split; cbn; try done. by rewrite app_nil_r. }
  assert (Hp : Forall (op_prios okp) os').
  { apply Forall_forall. intros o Hin. unfold okp.
    assert (Hof : heap_kind (c_sampler c) \/ heap_kind (c_remover c) -> op_finite o).
    { intros Hk. specialize (Hfin Hk). apply Forall_app in Hfin as [_ Hfin]. rewrite Forall_forall in Hfin. by apply Hfin. }
    destruct o; cbn in *; try done. apply Forall_forall. intros u Hu Hk. specialize (Hof Hk).
    rewrite Forall_forall in Hof. by apply Hof. }
  assert (Hp' : Forall (op_prios (fun _ => True)) os').
  { apply Forall_forall. intros o _. destruct o; cbn; try done. by apply Forall_true. }
  destruct (linv_run c os' t (re_cfg _ _ _ _ H) LI Ho) as (rs1 & t1 & E1 & _).
  pose proof (run_sim R1 R2 c _ os' _ _ T1 Ho Hp) as P1. pose proof (run_sim eq_simrel eq_simrel c _ os' _ _ T2 Ho Hp') as P2.
  rewrite E1 in P1. destruct (run (with_log t' []) os') as [[rs0 t0]|] eqn:E0; [|done].
  destruct (run t' os') as [[rs2 t2]|] eqn:E2; [|done].
  destruct P1 as [P1 Q1], P2 as [P2 Q2]. cbn in P1, Q1, P2, Q2.
  exists rs1, t1, rs2, t2, (t_log t0). split; [done|]. split; [done|].
  split; [by eapply same_results_trans|]. destruct Q1, Q2. split; [|split; [congruence|done]].
  unfold info, t_size. congruence.
Qed.

(** For queues and stacks it is enough that the clock never stood still between
    two insertions. *)
Theorem C17_clock_order c os rs t kind : reached c os rs t -> clock_increases os ->
  kind = KFifo \/ kind = KLifo -> order_recorded kind t.
Proof.
  intros H Hclk Hk. pose proof (reached_spec _ _ _ _ H) as [Hh [_ L _]].
  pose proof (sorted_sublist _ _ _ (hist_times _ _ _ _ _ Hh) Hclk) as Hs.
  destruct (clock_order c _ (la_ok _ _ _ _ L) Hs) as [_ Hord]. rewrite (la_data _ _ _ _ L) in Hord.
  destruct Hk as [-> | ->]; exact Hord.
Qed.
(** For heaps it is enough that no two items have the same priority. *)
Theorem C17_distinct_order t mh :
  (forall k1 k2 x y, t_data t !! k1 = Some x -> t_data t !! k2 = Some y -> k1 <> k2 ->
     ~ same_prio (it_prio x) (it_prio y)) -> order_recorded (KHeap mh) t.
Proof.
  intros H k1 k2 x y A B Hp Hlt. destruct (decide (k1 = k2)) as [->|Hne]; [lia|]. exfalso. exact (H k1 k2 x y A B Hne Hp).
Qed.

(** ** Random selectors *)

Lemma same_sizes (m m' : gmap Z entry) : (forall k, en_prio <$> m !! k = en_prio <$> m' !! k) -> size m = size m'.
Proof.
  intros H. rewrite <- (map_size_fmap en_prio m), <- (map_size_fmap en_prio m'). f_equal.
  apply map_eq. intros k. by rewrite !lookup_fmap.
Qed.
Lemma same_total e (m m' : gmap Z entry) : (forall k, en_prio <$> m !! k = en_prio <$> m' !! k) ->
  (total_weight e m == total_weight e m')%Q.
Proof.
  intros H. assert (E : entry_weight e <$> m = entry_weight e <$> m').
  { apply map_eq. intros k. rewrite !lookup_fmap. specialize (H k).
    destruct (m !! k) as [x|], (m' !! k) as [y|]; cbn in *; try done.
    injection H as H. unfold entry_weight. by rewrite H. }
  assert (Ht : forall m0 : gmap Z entry, (total_weight e m0 == qsum snd (map_to_list (entry_weight e <$> m0)))%Q).
  { intros m0. unfold total_weight. rewrite (qsum_perm _ _ _ (map_to_list_fmap _ _)), qsum_fmap. done. }
  by rewrite !Ht, E.
Qed.

(** Each item of the restored table is drawn by as many values of the random
    index as before, namely one residue modulo the size, and the reported
    probability is the same. *)
Definition drawn_by_index (s : selector) (n : nat) (k : Z) : Prop :=
  exists i, (i < n)%nat /\ forall d,
    ((exists q, sel_sample s d = Some (k, q)) <-> (d_int d mod n)%nat = i) /\
    forall q, sel_sample s d = Some (k, q) -> q = rnd (1 / inject_Z (Z.of_nat n)).

Lemma uniform_drawn os k : is_Some (ref_hist KUniform os !! k) ->
  drawn_by_index (sel_hist KUniform os) (size (ref_hist KUniform os)) k.
Proof.
  intros Hk. destruct (C12_uniform os) as (key_of & _ & Hs & Hi & Hd).
  destruct (Hs k Hk) as (i & Hlt & <-). exists i. split; [done|]. intros d.
  assert (Hne : ref_hist KUniform os <> ∅).
  { intros E. rewrite E in Hlt. rewrite map_size_empty in Hlt. lia. }
  rewrite (Hd d Hne). split; [split|].
  - intros [q [= E _]]. apply Hi in E; [done| |done]. apply Nat.mod_upper_bound. lia.
  - intros ->. eauto.
  - intros q [= _ <-]. done.
Qed.

Theorem C17_uniform_same c os rs t k m t' key : restores c os rs t k m t' ->
  is_Some (t_data t !! key) ->
  (c_sampler c = KUniform -> drawn_by_index (t_sampler t) (size (t_data t)) key /\
                             drawn_by_index (t_sampler t') (size (t_data t)) key) /\
  (c_remover c = KUniform -> drawn_by_index (t_remover t) (size (t_data t)) key /\
                             drawn_by_index (t_remover t') (size (t_data t)) key).
Proof.
  intros R Hk. pose proof (rst_reached _ _ _ _ _ _ _ R) as H.
  destruct (restores_inv _ _ _ _ _ _ _ R) as (S & I & Hcl' & Es & Er & HS).
  pose proof (reached_linv _ _ _ _ H) as LI. pose proof LI as [[C _ _] L _].
  assert (Hu : KUniform = c_sampler c \/ KUniform = c_remover c ->
    drawn_by_index (sel_hist KUniform (ev_sop <$> t_log t)) (size (t_data t)) key /\
    drawn_by_index (sel_hist KUniform (ckpt_ops (k_items k))) (size (t_data t)) key).
  { intros Hkind. pose proof (restored_prios c os rs t _ _ H HS Hkind) as Hp.
    assert (Hd : forall x, is_Some (ref_hist KUniform (ev_sop <$> t_log t) !! x) <-> is_Some (t_data t !! x)).
    { intros x. rewrite (ref_hist_log c _ (t_log t) (la_ok _ _ _ _ L) Hkind), log_entries_lookup, (la_data _ _ _ _ L).
      by rewrite fmap_is_Some. }
    assert (Hsz : size (t_data t) = size (ref_hist KUniform (ev_sop <$> t_log t))).
    { rewrite <- !(size_dom (D := gset Z)). f_equal. apply set_eq. intros x. by rewrite !elem_of_dom, Hd. }
    rewrite Hsz. split.
    - apply uniform_drawn. by apply Hd.
    - rewrite (same_sizes _ _ Hp). apply uniform_drawn. apply Hd in Hk. specialize (Hp key).
      apply (fmap_is_Some en_prio). rewrite <- Hp. by apply fmap_is_Some. }
  rewrite Es, Er, <- (la_sampler _ _ _ _ L), <- (la_remover _ _ _ _ L), !sel_replay_hist.
  split; intros E; rewrite E in *; apply Hu; auto.
Qed.

(** For the prioritized selector, when the arithmetic is exact: an item is drawn
    on an interval of the unit draw of the same length. *)
Definition drawn_on_interval (s : selector) (w : Q) (k : Z) : Prop :=
  exists start : Q, (0 <= start)%Q /\ (start + w <= 1)%Q /\ forall d, draw_ok d ->
    ((exists q, sel_sample s d = Some (k, q)) <-> (start <= d_unit d)%Q /\ (d_unit d < start + w)%Q) /\
    forall q, sel_sample s d = Some (k, q) -> (q == w)%Q.

End WithFP.

Section WithExact.
Context {fp : FP} {laws : FPLaws fp} {exact : FPExact fp}.

Lemma drawn_eq s w w' k : (w == w')%Q -> drawn_on_interval s w k -> drawn_on_interval s w' k.
Proof.
  intros E (a & H1 & H2 & H3). exists a. rewrite <- E. split; [done|]. split; [done|]. intros d Hd. rewrite <- E.
  destruct (H3 d Hd) as [H4 H5]. split; [done|]. intros q Hq. rewrite <- E. by apply H5.
Qed.

Definition prob (e : Q) (m : gmap Z entry) (x : entry) : Q :=
  if Qle_bool (total_weight e m) 0 then (1 / inject_Z (Z.of_nat (size m)))%Q else (entry_weight e x / total_weight e m)%Q.

Lemma total_nonneg e os : (0 <= e)%Q -> (0 <= total_weight e (ref_hist (KPrio e) os))%Q.
Proof.
  intros He. destruct (hist_prio_exact e os He) as (q & E & X).
  pose proof (hist_rel (KPrio e) os He) as R. rewrite E in R.
  destruct (prio_rel_weights e q _ _ R) as (Hw & Hnn & Htot & _ & _). rewrite <- Htot. by apply qsum_nonneg.
Qed.

Lemma prio_drawn e os k x : (0 <= e)%Q -> ref_hist (KPrio e) os !! k = Some x ->
  drawn_on_interval (sel_hist (KPrio e) os) (prob e (ref_hist (KPrio e) os) x) k.
Proof.
  intros He Hk. unfold prob. destruct (Qle_bool _ _) eqn:Hb.
  - apply Qle_bool_iff in Hb. pose proof (total_nonneg e os He) as Hn.
    destruct (C13_prio_all_zero e os He) as [idx Hidx]; [lra|]. destruct (Hidx k) as [Hlt Hd]; [eauto|].
    set (n := inject_Z (Z.of_nat (size (ref_hist (KPrio e) os)))) in *.
    assert (Hpos : (0 < n)%Q) by (unfold n, Qlt; cbn; lia).
    exists (inject_Z (Z.of_nat (idx k)) / n)%Q.
    assert (Eq : (inject_Z (Z.of_nat (idx k)) / n + 1 / n == (inject_Z (Z.of_nat (idx k)) + 1) / n)%Q) by (field; lra).
    split; [|split].
    + apply Qle_shift_div_l; [done|]. rewrite Qmult_0_l. unfold Qle; cbn; lia.
    + rewrite Eq. apply Qle_shift_div_r; [done|]. rewrite Qmult_1_l. unfold n.
      change 1%Q with (inject_Z 1). rewrite <- inject_Z_plus, <- Zle_Qle. lia.
    + intros d Hdr. rewrite Eq. by apply Hd.
  - destruct (C13_prio_distribution e os He) as [start Hs].
    { apply Qnot_le_lt. intros Hle. apply Qle_bool_iff in Hle. congruence. }
    destruct (Hs k x Hk) as (H1 & H2 & H3). exists (start k). done.
Qed.

Theorem C17_prio_same c os rs t k m t' key : restores c os rs t k m t' -> is_Some (t_data t !! key) ->
  (forall e, c_sampler c = KPrio e ->
     exists w, drawn_on_interval (t_sampler t) w key /\ drawn_on_interval (t_sampler t') w key) /\
  (forall e, c_remover c = KPrio e ->
     exists w, drawn_on_interval (t_remover t) w key /\ drawn_on_interval (t_remover t') w key).
Proof.
  intros R Hk. pose proof (rst_reached _ _ _ _ _ _ _ R) as H.
  destruct (restores_inv _ _ _ _ _ _ _ R) as (S & I & Hcl' & Es & Er & HS).
  pose proof (reached_linv _ _ _ _ H) as LI. pose proof LI as [[C _ _] L _].
  assert (Hu : forall e, KPrio e = c_sampler c \/ KPrio e = c_remover c -> exists w,
    drawn_on_interval (sel_hist (KPrio e) (ev_sop <$> t_log t)) w key /\
    drawn_on_interval (sel_hist (KPrio e) (ckpt_ops (k_items k))) w key).
  { intros e Hkind. pose proof (restored_prios c os rs t _ _ H HS Hkind) as Hp.
    assert (He : (0 <= e)%Q).
    { destruct (re_cfg _ _ _ _ H) as (_ & _ & K1 & K2). destruct Hkind as [E|E]; [rewrite <- E in K1|rewrite <- E in K2]; done. }
    assert (Hd : is_Some (ref_hist (KPrio e) (ev_sop <$> t_log t) !! key)).
    { rewrite (ref_hist_log c _ (t_log t) (la_ok _ _ _ _ L) Hkind), log_entries_lookup, (la_data _ _ _ _ L).
      by rewrite fmap_is_Some. }
    destruct Hd as [x Hx]. pose proof (Hp key) as Hy. rewrite Hx in Hy. cbn in Hy.
    destruct (ref_hist (KPrio e) (ckpt_ops (k_items k)) !! key) as [y|] eqn:Ey; [|done]. injection Hy as Hy.
    exists (prob e (ref_hist (KPrio e) (ev_sop <$> t_log t)) x). split; [by apply prio_drawn|].
    assert (E : (prob e (ref_hist (KPrio e) (ev_sop <$> t_log t)) x == prob e (ref_hist (KPrio e) (ckpt_ops (k_items k))) y)%Q).
    { unfold prob. pose proof (same_total e _ _ Hp) as Ht. rewrite (same_sizes _ _ Hp).
      assert (Hb : Qle_bool (total_weight e (ref_hist (KPrio e) (ev_sop <$> t_log t))) 0 =
                   Qle_bool (total_weight e (ref_hist (KPrio e) (ckpt_ops (k_items k)))) 0).
      { apply eq_true_iff_eq. by rewrite !Qle_bool_iff, Ht. }
      rewrite Hb. clear Hb. destruct (Qle_bool (total_weight e (ref_hist (KPrio e) (ckpt_ops (k_items k)))) 0); [reflexivity|]. unfold entry_weight. rewrite Hy, Ht. reflexivity. }
    eapply drawn_eq; [|by apply prio_drawn]. by rewrite E. }
  rewrite Es, Er, <- (la_sampler _ _ _ _ L), <- (la_remover _ _ _ _ L), !sel_replay_hist.
  split; intros e E; rewrite E in *; apply Hu; auto.
Qed.

End WithExact.

(** ** Saving and loading all tables *)

(** Every table of the server was reached from a new one by legal calls. *)
Definition tables_reached {fp : FP} (ts : list (Z * table)) : Prop :=
  Forall (fun nt => exists c os rs, reached c os rs nt.2 /\ Forall wake_valid os) ts.
(** A chunk key stands for one chunk. *)
Definition chunks_consistent (ts : list (Z * table)) : Prop :=
  forall n1 t1 i1 it1 ch1 n2 t2 i2 it2 ch2,
    (n1, t1) ∈ ts -> t_data t1 !! i1 = Some it1 -> ch1 ∈ it_chunks it1 ->
    (n2, t2) ∈ ts -> t_data t2 !! i2 = Some it2 -> ch2 ∈ it_chunks it2 ->
    ck_key ch1 = ck_key ch2 -> ch1 = ch2.

Section Load.
Context {fp : FP} {laws : FPLaws fp}.

Lemma find_table_some n ts i : find_table n ts = Some i -> exists t, ts !! i = Some (n, t).
Proof.
  revert i. induction ts as [|[n' t'] ts IH]; intros i; cbn; [done|]. case_decide as E.
  - intros [= <-]. exists t'. by rewrite E.
  - rewrite fmap_Some. intros (j & Hj & ->). apply IH in Hj. done.
Qed.
Lemma find_table_none n ts : find_table n ts = None -> n ∉ ts.*1.
Proof.
  induction ts as [|[n' t'] ts IH]; cbn; [intros _; apply not_elem_of_nil|]. case_decide as E; [done|].
  rewrite fmap_None. intros H. rewrite not_elem_of_cons. split; [done|auto].
Qed.

(** Loading replaces the named tables one by one. *)
Lemma load_tables_ok m ks : forall ss,
  NoDup ss.*1 -> NoDup (k_name <$> ks) -> Forall (fun k => is_Some (restore m k)) ks ->
  (forall i n s, ss !! i = Some (n, s) -> n ∈ k_name <$> ks -> t_size s = 0) ->
  exists st ss', load_tables m ss ks = Some (st, ss') /\ ss'.*1 = ss.*1 /\
    (st = Ok \/ st = InvalidArgument) /\
    (st = Ok <-> forall k, k ∈ ks -> k_name k ∈ ss.*1) /\
    (st = Ok -> forall i n t, ss' !! i = Some (n, t) ->
       (exists k, k ∈ ks /\ k_name k = n /\ restore m k = Some t) \/
       (n ∉ k_name <$> ks /\ ss !! i = Some (n, t))).
Proof.
  induction ks as [|k ks IH]; intros ss Hnd Hks Hres Hemp.
  - exists Ok, ss. split; [done|]. split; [done|]. split; [auto|]. split.
    + split; [|done]. intros _ k Hk. by apply elem_of_nil in Hk.
    + intros _ i n t H. right. split; [apply not_elem_of_nil|done].
  - cbn [load_tables]. cbn in Hks. apply NoDup_cons in Hks as [Hk Hks]. apply Forall_cons in Hres as [[t Ht] Hres].
    destruct (find_table (k_name k) ss) as [i|] eqn:Ef.
    + destruct (find_table_some _ _ _ Ef) as [old Ho]. rewrite Ho, Ht.
      rewrite (Hemp i _ old Ho) by (cbn; left). cbn [Z.eqb].
      assert (Hnames : (<[i := (k_name k, t)]> ss).*1 = ss.*1).
      { rewrite list_fmap_insert. apply list_insert_id. by rewrite list_lookup_fmap, Ho. }
      destruct (IH (<[i := (k_name k, t)]> ss)) as (st & ss' & E & N & Hst & Hok & Hd).
      { by rewrite Hnames. } { done. } { done. }
      { intros j n s Hj Hn. apply list_lookup_insert_Some in Hj as [(-> & [= <- <-] & _)|[_ Hj]]; [done|].
        apply (Hemp j n s Hj). cbn. by right. }
      exists st, ss'. split; [done|]. split; [congruence|]. split; [done|]. rewrite Hnames in Hok. split.
      * rewrite Hok. split; [|intros H x Hx; apply H; by right].
        intros H x Hx. apply elem_of_cons in Hx as [->|Hx]; [|auto].
        apply elem_of_list_fmap. exists (k_name k, old). split; [done|]. by eapply elem_of_list_lookup_2.
      * intros Hs j n s Hj. destruct (Hd Hs j n s Hj) as [(x & Hx & H1 & H2)|[Hn Hl]].
        -- left. exists x. split; [by right|done].
        -- apply list_lookup_insert_Some in Hl as [(-> & [= <- <-] & _)|[Hne Hl]].
           ++ left. exists k. split; [left|done].
           ++ right. split; [|done]. cbn. rewrite not_elem_of_cons. split; [|done]. intros ->.
              apply Hne. eapply NoDup_lookup; [exact Hnd| |]; rewrite list_lookup_fmap; [by rewrite Ho|by rewrite Hl].
    + exists InvalidArgument, ss. split; [done|]. split; [done|]. split; [auto|]. split; [|done].
      split; [done|]. intros H. exfalso. apply (find_table_none _ _ Ef), H. left.
Qed.

Lemma saved_names ts f : saved ts f -> k_name <$> f_tables f = ts.*1.
Proof.
  intros (_ & H & _). induction H as [|[n t] k ts ks (l & _ & ->) _ IH]; [done|]. cbn in *. by f_equal.
Qed.
Lemma saved_table ts f k : saved ts f -> k ∈ f_tables f -> exists n t, (n, t) ∈ ts /\ checkpoint n t k /\ k_name k = n.
Proof.
  intros (_ & H & _) Hk. apply elem_of_list_lookup in Hk as [i Hi].
  destruct (Forall2_lookup_r _ _ _ _ _ H Hi) as ([n t] & Ht & Hc). exists n, t.
  split; [by eapply elem_of_list_lookup_2|]. split; [done|]. destruct Hc as (l & _ & ->). done.
Qed.

(** C18: loading what was saved never crashes.  It is successful if the server
    has a table for every saved name, and refused otherwise.  Missing from the
    full statement: tables that were given a priority their selectors reject; it
    is false for them ([C18_load_no_crash_refuted]). *)
Theorem C18_load_no_crash_partial ts f ss : tables_reached ts -> NoDup ts.*1 -> saved ts f ->
  NoDup ss.*1 -> Forall (fun s => t_size s.2 = 0) ss ->
  exists st ss', load f ss = Some (st, ss') /\ ss'.*1 = ss.*1 /\
    (st = Ok \/ st = InvalidArgument) /\ (st = Ok <-> forall n, n ∈ ts.*1 -> n ∈ ss.*1).
Proof.
  intros Hr Hnt Hs Hns Hemp. pose proof Hs as (Hd & Hf & Hch). unfold load. rewrite Hd.
  destruct (load_tables_ok (chunk_map (f_chunks f)) (f_tables f) ss Hns) as (st & ss' & E & N & Hst & Hok & _).
  - by rewrite (saved_names _ _ Hs).
  - apply Forall_forall. intros k Hk. destruct (saved_table _ _ _ Hs Hk) as (n & t & Ht & Hck & _).
    unfold tables_reached in Hr. rewrite Forall_forall in Hr. destruct (Hr _ Ht) as (c & os & rs & H & Hw). cbn in H.
    destruct (restore_ok c t n k (chunk_map (f_chunks f)) (re_cfg _ _ _ _ H) (li_inv _ _ (reached_linv _ _ _ _ H)) (linv_prio _ _ (reached_linv _ _ _ _ H)) Hck)
      as (t0 & _ & _ & Er & _).
    + intros i it ch Hi Hc. apply chunk_map_is, Hch. eauto 8.
    + by eapply reached_valid.
    + eauto.
  - intros i n s Hi _. rewrite Forall_lookup in Hemp. apply (Hemp i _ Hi).
  - exists st, ss'. split; [done|]. split; [done|]. split; [done|]. rewrite Hok, <- (saved_names _ _ Hs). split.
    + intros H n Hn. apply elem_of_list_fmap in Hn as (k & -> & Hk). by apply H.
    + intros H k Hk. apply H. apply elem_of_list_fmap. eauto.
Qed.

(** C17: after Save and Load every saved table is there again with the same
    contents, and the other tables are untouched. *)
Theorem C17_save_load ts f ss : tables_reached ts -> chunks_consistent ts -> NoDup ts.*1 -> saved ts f ->
  NoDup ss.*1 -> Forall (fun s => t_size s.2 = 0) ss -> (forall n, n ∈ ts.*1 -> n ∈ ss.*1) ->
  exists ss', load f ss = Some (Ok, ss') /\ ss'.*1 = ss.*1 /\
    (forall n t, (n, t) ∈ ts -> exists t', (n, t') ∈ ss' /\ same_table t t' /\
        forall c os rs, reached c os rs t -> Forall wake_valid os ->
          exists k m, restores c os rs t k m t') /\
    (forall n s, n ∉ ts.*1 -> (n, s) ∈ ss' -> (n, s) ∈ ss).
Proof.
  intros Hr Hcons Hnt Hs Hns Hemp Hsub. pose proof Hs as (Hd & Hf & Hch).
  assert (Hm : forall n t i it ch, (n, t) ∈ ts -> t_data t !! i = Some it -> ch ∈ it_chunks it ->
            chunk_map (f_chunks f) !! ck_key ch = Some ch).
  { intros n t i it ch Ht Hi Hc. destruct (chunk_map_is (f_chunks f) ch) as [ch' E']; [apply Hch; eauto 8|].
    rewrite E'. f_equal. apply chunk_map_in in E' as [Hin' Hk]. apply Hch in Hin' as (n2 & t2 & i2 & it2 & H1 & H2 & H3).
    by eapply (Hcons n2 t2 i2 it2 ch' n t i it ch). }
  assert (Hres : forall k, k ∈ f_tables f -> exists n t t', (n, t) ∈ ts /\ k_name k = n /\
            restore (chunk_map (f_chunks f)) k = Some t' /\ same_table t t' /\
            forall c os rs, reached c os rs t -> Forall wake_valid os -> restores c os rs t k (chunk_map (f_chunks f)) t').
  { intros k Hk. destruct (saved_table _ _ _ Hs Hk) as (n & t & Ht & Hck & Hn).
    unfold tables_reached in Hr. rewrite Forall_forall in Hr. destruct (Hr _ Ht) as (c & os & rs & H & Hw). cbn in H.
    destruct (C17_restore_same c os rs t n k (chunk_map (f_chunks f)) H Hw Hck) as (t' & E & S & _); [eauto|].
    exists n, t, t'. split; [done|]. split; [done|]. split; [done|]. split; [done|].
    intros c2 os2 rs2 H2 Hw2. split; [done|done|by rewrite Hn|eauto|done]. }
  destruct (load_tables_ok (chunk_map (f_chunks f)) (f_tables f) ss Hns) as (st & ss' & E & N & Hst & Hok & Hl).
  - by rewrite (saved_names _ _ Hs).
  - apply Forall_forall. intros k Hk. destruct (Hres k Hk) as (_ & _ & t' & _ & _ & E & _). eauto.
  - intros i n s Hi _. rewrite Forall_lookup in Hemp. apply (Hemp i _ Hi).
  - assert (st = Ok) as ->.
    { apply Hok. intros k Hk. apply Hsub. rewrite <- (saved_names _ _ Hs). apply elem_of_list_fmap. eauto. }
    specialize (Hl eq_refl). exists ss'. split; [unfold load; by rewrite Hd|]. split; [done|]. split.
    + intros n t Ht. assert (Hn : n ∈ ss'.*1).
      { rewrite N. apply Hsub. apply elem_of_list_fmap. by exists (n, t). }
      apply elem_of_list_fmap in Hn as ([n' t'] & -> & Hin). cbn in *. exists t'. split; [done|].
      apply elem_of_list_lookup in Hin as [i Hi]. destruct (Hl i n' t' Hi) as [(k & Hk & Hkn & Hkr)|[Hno _]].
      * destruct (Hres k Hk) as (n2 & t2 & t2' & Ht2 & Hn2 & E2 & S2 & R2). rewrite Hkr in E2. injection E2 as <-.
        assert (t2 = t) as ->.
        { rewrite Hkn in Hn2. subst n2. apply elem_of_list_lookup in Ht as [a Ha]. apply elem_of_list_lookup in Ht2 as [b Hb].
          assert (a = b) as ->.
          { eapply NoDup_lookup; [exact Hnt| |]; rewrite list_lookup_fmap; [by rewrite Ha|by rewrite Hb]. }
          congruence. }
        split; [done|]. intros c os rs H Hw. eauto.
      * exfalso. apply Hno. rewrite (saved_names _ _ Hs). apply elem_of_list_fmap. by exists (n', t).
    + intros n s Hn Hin. apply elem_of_list_lookup in Hin as [i Hi].
      destruct (Hl i n s Hi) as [(k & Hk & Hkn & _)|[_ Hss]].
      * exfalso. apply Hn. rewrite <- (saved_names _ _ Hs). apply elem_of_list_fmap. eauto.
      * by eapply elem_of_list_lookup_2.
Qed.

End Load.

(** ** Concrete cases *)

Local Existing Instance fp_exact.
Local Existing Instance fp_exact_laws.
Local Existing Instance fp_exact_exact.

(** The first checkpoint of a table that a sort may give. *)
Definition some_checkpoint (n : Z) (t : table) (l : list pitem) : tckpt :=
  mkCkpt n (t_max_size t) (t_max_times t) (t_del_eps t) (t_unique t)
    (sel_kind_of (t_sampler t)) (sel_kind_of (t_remover t))
    (spi (t_limiter t)) (min_diff (t_limiter t)) (max_diff (t_limiter t)) (min_size (t_limiter t))
    (l_samples (t_limiter t)) (l_inserts (t_limiter t)) (l_deletes (t_limiter t)) l.
Lemma some_checkpoint_ok n t l : sorted_items (t_data t) l -> checkpoint n t (some_checkpoint n t l).
Proof. intros H. by exists l. Qed.
Definition chunks_of (t : table) : list chunk := concat ((fun kv => it_chunks kv.2) <$> map_to_list (t_data t)).

Lemma saved_one n t l : sorted_items (t_data t) l ->
  saved [(n, t)] (mkFiles true (chunks_of t) [some_checkpoint n t l]).
Proof.
  intros H. split; [done|]. split.
  - constructor; [|constructor]. cbn. by apply some_checkpoint_ok.
  - intros ch. cbn [f_chunks]. unfold chunks_of. rewrite elem_of_list_In, in_concat. setoid_rewrite <- elem_of_list_In. split.
    + intros (x & Hl & Hc). apply elem_of_list_fmap in Hl as ([i it] & -> & Hi). apply elem_of_map_to_list in Hi.
      exists n, t, i, it. split; [left|done].
    + intros (n' & t' & i & it & Ht & Hi & Hc). apply elem_of_list_singleton in Ht. injection Ht as -> ->.
      exists (it_chunks it). split; [|done]. apply elem_of_list_fmap. exists (i, it). split; [done|].
      by apply elem_of_map_to_list.
Qed.

Definition ex_q_cfg : tcfg := mkCfg 5 0 KFifo KFifo 1 1 (-20) 20.
Definition ex_h_cfg : tcfg := mkCfg 5 0 (KHeap true) KFifo 1 1 (-20) 20.
Definition q_item (t : table) (k : Z) : pitem := to_proto (default (mk_item 0 0 0 0) (t_data t !! k)).

Ltac sorted_ok := split;
  [vm_compute; first [reflexivity | apply Permutation_swap | idtac]
  |repeat (constructor; [|first [by vm_compute | repeat (constructor; [by vm_compute|]); constructor]]); try constructor].

(** Two items inserted at the same clock reading may change places: the queue
    is not restored. *)
Definition ex_same_time : list op :=
  [OInsert (1, 0) d0 (mk_item 1 1 7 0); OInsert (1, 0) d0 (mk_item 2 1 8 0)].
Definition has_chunks (m : gmap Z chunk) (t : table) : bool :=
  forallb (fun kv => forallb (fun ch => match m !! ck_key ch with
    | Some x => (ck_key x =? ck_key ch) && (ck_ep x =? ck_ep ch) | None => false end) (it_chunks kv.2))
    (map_to_list (t_data t)).
Lemma has_chunks_ok m t : has_chunks m t = true ->
  forall i it ch, t_data t !! i = Some it -> ch ∈ it_chunks it -> m !! ck_key ch = Some ch.
Proof.
  unfold has_chunks. rewrite forallb_forall. intros H i it ch Hi Hc.
  apply elem_of_map_to_list, elem_of_list_In, H in Hi. cbn in Hi. rewrite forallb_forall in Hi.
  apply elem_of_list_In, Hi in Hc. destruct (m !! ck_key ch) as [x|]; [|done].
  apply andb_true_iff in Hc as [H1 H2]. apply Z.eqb_eq in H1, H2. destruct x, ch; cbn in *. by subst.
Qed.
Ltac restores_ok := split;
  [split; [by repeat constructor|ops_ok|by vm_compute]|by repeat constructor|apply some_checkpoint_ok; sorted_ok|
   apply has_chunks_ok; by vm_compute|vm_compute; reflexivity].

Theorem C17_equal_times_refuted :
  let r := final ex_q_cfg ex_same_time in
  exists k t', restores ex_q_cfg ex_same_time r.1 r.2 k (chunk_map (chunks_of r.2)) t' /\
    exists a b ta tb, step r.2 (OSample 1 ds0) = Some (RSamples Ok [a], ta) /\
      step t' (OSample 1 ds0) = Some (RSamples Ok [b], tb) /\
      it_key (sm_item a) = 1 /\ it_key (sm_item b) = 2.
Proof.
  intros r. exists (some_checkpoint 9 r.2 [q_item r.2 2; q_item r.2 1]). eexists. split.
  - restores_ok.
  - eexists _, _, _, _. split; [vm_compute; reflexivity|]. split; [vm_compute; reflexivity|]. by vm_compute.
Qed.

(** A heap hands out items of equal priority in the order in which they were
    touched; a checkpoint only records when they were inserted. *)
Definition ex_touched : list op :=
  [OInsert (1, 0) d0 (mk_item 1 5 7 0); OInsert (2, 0) d0 (mk_item 2 5 8 0); OMutate [(1, Fin 5)] []].
Theorem C17_heap_ties_refuted :
  let r := final ex_h_cfg ex_touched in
  clock_increases ex_touched /\
  exists k t', restores ex_h_cfg ex_touched r.1 r.2 k (chunk_map (chunks_of r.2)) t' /\
    exists a b ta tb, step r.2 (OSample 1 ds0) = Some (RSamples Ok [a], ta) /\
      step t' (OSample 1 ds0) = Some (RSamples Ok [b], tb) /\
      it_key (sm_item a) = 2 /\ it_key (sm_item b) = 1.
Proof.
  intros r. split. { repeat (constructor; [|try (constructor; [left; by vm_compute|]; constructor)]); constructor. }
  exists (some_checkpoint 9 r.2 [q_item r.2 1; q_item r.2 2]). eexists. split.
  - restores_ok.
  - eexists _, _, _, _. split; [vm_compute; reflexivity|]. split; [vm_compute; reflexivity|]. by vm_compute.
Qed.

(** An item whose insertion was refused stays in the table (see C26) and is
    saved; loading the files aborts the server, every time it is started. *)
Definition ex_bad_cfg : tcfg := mkCfg 5 0 (KPrio 1) KFifo 1 1 (-20) 20.
Definition ex_bad : list op :=
  [OInsert (1, 0) d0 (mk_item 1 5 7 0); OInsert (2, 0) d0 (mk_item 2 (-1) 8 0)].
Theorem C18_load_no_crash_refuted :
  exists rs t f, cfg_ok ex_bad_cfg /\ run (new_table ex_bad_cfg) ex_bad = Some (rs, t) /\
    saved [(9, t)] f /\ load f [(9, new_table ex_bad_cfg)] = None.
Proof.
  pose (r := final ex_bad_cfg ex_bad). exists r.1, r.2.
  exists (mkFiles true (chunks_of r.2) [some_checkpoint 9 r.2 [q_item r.2 1; q_item r.2 2]]).
  split; [by repeat constructor|]. split; [by vm_compute|]. split; [|by vm_compute].
  apply saved_one. sorted_ok.
Qed.

(** The hypotheses of the positive theorems: a queue, and a heap with distinct
    priorities after an update, a deletion and some samples. *)
Definition ex_q_hist : list op :=
  [OInsert (1, 0) d0 (mk_item 1 1 7 0); OInsert (1, 5) d0 (mk_item 2 1 8 0); OSample 1 ds0;
   OInsert (2, 0) d0 (mk_item 3 1 8 0); OMutate [(2, Fin 9)] [1]].
Example C17_future_example :
  let r := final ex_q_cfg ex_q_hist in
  clock_increases ex_q_hist /\
  exists k t', restores ex_q_cfg ex_q_hist r.1 r.2 k (chunk_map (chunks_of r.2)) t' /\
    order_recorded (c_sampler ex_q_cfg) r.2 /\ l_cancelled (t_limiter r.2) = false /\
    exists a ta, step t' (OSample 2 ds0) = Some (RSamples Ok a, ta) /\ (it_key ∘ sm_item) <$> a = [2; 2].
Proof.
  intros r.
  assert (Hclk : clock_increases ex_q_hist).
  { unfold clock_increases. cbn. repeat constructor; unfold at_lt; cbn; lia. }
  split; [done|]. exists (some_checkpoint 9 r.2 [q_item r.2 2; q_item r.2 3]).
  assert (R : exists t', restores ex_q_cfg ex_q_hist r.1 r.2 (some_checkpoint 9 r.2 [q_item r.2 2; q_item r.2 3])
     (chunk_map (chunks_of r.2)) t' /\ exists a ta, step t' (OSample 2 ds0) = Some (RSamples Ok a, ta) /\
     (it_key ∘ sm_item) <$> a = [2; 2]).
  { eexists. split; [restores_ok|]. eexists _, _. split; [vm_compute; reflexivity|]. by vm_compute. }
  destruct R as (t' & R & S). exists t'. split; [done|]. split; [|split; [by vm_compute|done]].
  eapply C17_clock_order; [exact (rst_reached _ _ _ _ _ _ _ R)|done|by left].
Qed.

Definition ex_h_hist : list op :=
  [OInsert (1, 0) d0 (mk_item 1 5 7 0); OInsert (1, 0) d0 (mk_item 2 1 8 0); OMutate [(1, Fin 3)] []].
Example C17_heap_example :
  let r := final ex_h_cfg ex_h_hist in
  exists k t', restores ex_h_cfg ex_h_hist r.1 r.2 k (chunk_map (chunks_of r.2)) t' /\
    order_recorded (KHeap true) r.2 /\ Forall op_finite ex_h_hist.
Proof.
  intros r. exists (some_checkpoint 9 r.2 [q_item r.2 1; q_item r.2 2]). eexists. split; [restores_ok|].
  split; [|by repeat constructor].
  apply C17_distinct_order. intros k1 k2 x y A B Hne Hp.
  assert (G : forall k x, t_data r.2 !! k = Some x -> (k = 1 /\ it_prio x = Fin 3) \/ (k = 2 /\ it_prio x = Fin 1)).
  { intros k z Hz. apply elem_of_map_to_list, elem_of_list_In in Hz. vm_compute in Hz.
    destruct Hz as [[= <- <-]|[[= <- <-]|[]]]; cbn; auto. }
  apply G in A as [[-> A]|[-> A]]; apply G in B as [[-> B]|[-> B]]; try done; rewrite A, B in Hp; cbn in Hp; discriminate.
Qed.

(** The server after a restart has the table of the files and another one. *)
Example C17_save_load_example :
  let r := final ex_q_cfg ex_q_hist in
  let f := mkFiles true (chunks_of r.2) [some_checkpoint 9 r.2 [q_item r.2 2; q_item r.2 3]] in
  let ss := [(4, new_table ex_h_cfg); (9, new_table ex_q_cfg)] in
  tables_reached [(9, r.2)] /\ saved [(9, r.2)] f /\ Forall (fun s => t_size s.2 = 0) ss /\
  exists ss', load f ss = Some (Ok, ss') /\ (fun s => t_size s.2) <$> ss' = [0; 2].
Proof.
  intros r f ss. split; [|split; [|split]].
  - constructor; [|constructor]. exists ex_q_cfg, ex_q_hist, r.1.
    split; [split; [by repeat constructor|ops_ok|by vm_compute]|by repeat constructor].
  - apply saved_one. sorted_ok.
  - by repeat constructor.
  - eexists. split; [vm_compute; reflexivity|]. by vm_compute.
Qed.

Print Assumptions C17_restore_same.
Print Assumptions C17_restored_safe.
Print Assumptions C17_future.
Print Assumptions C17_clock_order.
Print Assumptions C17_distinct_order.
Print Assumptions C17_uniform_same.
Print Assumptions C17_prio_same.
Print Assumptions C17_save_load.
Print Assumptions C17_equal_times_refuted.
Print Assumptions C17_heap_ties_refuted.
Print Assumptions C18_load_no_crash_partial.
Print Assumptions C18_load_no_crash_refuted.
