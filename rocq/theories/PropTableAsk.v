(** C96: can_sample(n) and can_insert(n) tell whether the next n calls go
    through. *)
From Verif Require Import Base RateLimiter Selector Trajectory Table EventLog TableProofs TableLog
  SelSpec PropSelectors TableSpec LogFacts PropTable TableAsk.

Section WithFP.
Context {fp : FP} {laws : FPLaws fp}.

(** ** Specification *)

(** The calls, made one after the other with nothing in between, all return one
    item and none of them waits. *)
Definition samples_go_through (t : table) (ds : list draw) : Prop :=
  exists sms t', run t ((fun d => OSample 1 (fun _ => d)) <$> ds) =
    Some ((fun sm => RSamples Ok [sm]) <$> sms, t').

(** An insertion: the time, the draw of the remover and the item. *)
Definition ins : Type := (Z * Z) * draw * item.
Definition ins_op (x : ins) : op := OInsert x.1.1 x.1.2 x.2.
(** All these insertions succeed and none of them waits. *)
Definition inserts_go_through (t : table) (xs : list ins) : Prop :=
  exists t', run t (ins_op <$> xs) = Some ((fun _ => RStatus Ok) <$> xs, t').
(** Items with different keys, none of them in the table, that a table accepts. *)
Record new_items (c : tcfg) (t : table) (xs : list ins) : Prop := {
  ni_ok : Forall (op_ok c) (ins_op <$> xs);
  ni_valid : Forall (fun x => check_item_validity x.2 = Ok) xs;
  ni_keys : NoDup ((fun x => it_key x.2) <$> xs);
  ni_new : Forall (fun x => t_data t !! it_key x.2 = None) xs }.

(** ** Proofs: samples *)

Definition nonneg (t : table) : Prop := map_Forall (fun _ it => 0 <= it_times it) (t_data t).

Lemma times_nonneg k log : 0 <= times_since_insert k log.
Proof.
  induction log as [|e log IH] using rev_ind; [done|]. rewrite times_snoc.
  destruct e; try done; cbn; case_decide; lia.
Qed.
Lemma fresh_nonneg c os rs t : reached c os rs t -> Forall fresh_op os -> nonneg t.
Proof.
  intros H Hf k it Hk. apply reached_spec in H as [S [I L ?]]. pose proof (hist_fresh _ _ _ _ _ S Hf) as F.
  rewrite <- (la_data _ _ _ _ L) in Hk. rewrite (times_exact c _ (la_ok _ _ _ _ L) F _ _ Hk). apply times_nonneg.
Qed.

Lemma can_sample_spec c t n : tinv c t -> can_sample (t_limiter t) n = true <->
  c_min_size c <= t_size t /\
  (c_min_diff c <= inject_Z (l_inserts (t_limiter t)) * c_spi c - inject_Z (l_samples (t_limiter t)) - inject_Z n)%Q.
Proof.
  intros [C Hs Hl]. unfold can_sample. rewrite (tc_mins _ _ C), (tc_mind _ _ C), (tc_spi _ _ C), Hl.
  destruct (Z.ltb_spec (t_size t) (c_min_size c)).
  - split; [done|intros []; lia].
  - rewrite Qle_bool_iff. split; [intros ?; split; [lia|done]|by intros []].
Qed.

Lemma single_cases c t d : cfg_ok c -> tinv c t -> draw_ok d ->
  exists r t', step t (OSample 1 (fun _ => d)) = Some (r, t') /\ tinv c t' /\
   ((can_sample (t_limiter t) 1 = true /\ (exists sm, r = RSamples Ok [sm]) /\
     l_inserts (t_limiter t') = l_inserts (t_limiter t) /\
     l_samples (t_limiter t') = l_samples (t_limiter t) + 1 /\
     t_size t - 1 <= t_size t' <= t_size t /\
     (c_max_times c <= 0 -> nonneg t -> t_size t' = t_size t /\ nonneg t')) \/
    (can_sample (t_limiter t) 1 = false /\ (r = RBlocked \/ r = RSamples Cancelled []))).
Proof.
  intros Hc I Hd. destruct (can_sample (t_limiter t) 1) eqn:Hs.
  - destruct (can_sample_nonempty c t 1 Hc I Hs) as [Hne _].
    pose proof (lim_sample_inv c t I) as I0.
    destruct (sample_one_inv c _ d false I0 Hd Hne) as (sm & t' & E & I').
    destruct (sample_one_spec c _ d false (ti_core _ _ I0) Hd Hne) as (k & q & it & t1 & _ & Hit & E1 & _ & Ht).
    assert (t1 = t') as -> by congruence. cbn in Hit.
    exists (RSamples Ok [sm]), t'. split; [by apply (single_step t d sm t' Hs E)|]. split; [done|]. left.
    split; [done|]. split; [by exists sm|]. destruct Ht as [[_ ->]|(Hm & _ & D & L)].
    + split; [done|]. split; [done|]. rewrite marked_size by done. change (t_size (with_limiter t _)) with (t_size t).
      split; [lia|]. intros _ Hn. split; [done|]. intros k' it'. cbn. rewrite lookup_insert_Some.
      intros [[<- <-]|[_ Hk]]; [cbn; specialize (Hn _ _ Hit); cbn in Hn; lia|by apply (Hn k')].
    + rewrite L. split; [done|]. split; [done|]. split.
      * unfold t_size. rewrite D. cbn. rewrite map_size_delete, Hit. lia.
      * intros Hm0 Hn. specialize (Hn _ _ Hit). cbn in Hn. lia.
  - cbn [step]. unfold sample_batch, maybe_commit_sample, sample_resume, await_sample. rewrite Hs.
    destruct (l_cancelled _); eexists _, t; (split; [reflexivity|]); (split; [done|]); right; eauto.
Qed.

Lemma samples_true c ds : cfg_ok c -> Forall draw_ok ds -> forall t, tinv c t ->
  ds <> [] -> can_sample (t_limiter t) (Z.of_nat (length ds)) = true ->
  (c_max_times c <= 0 /\ nonneg t) \/ c_min_size c + Z.of_nat (length ds) - 1 <= t_size t ->
  samples_go_through t ds.
Proof.
  intros Hc Hd. induction Hd as [|d ds Hd _ IH]; intros t I Hne Hs Hside; [done|]. clear Hne.
  apply (can_sample_spec c t _ I) in Hs as [S1 S2]. cbn [length] in *. rewrite Nat2Z.inj_succ in *. unfold Z.succ in *.
  destruct (single_cases c t d Hc I Hd) as (r & t1 & E & I1 & [(_ & [sm ->] & A & B & Z1 & Z2)|[Hf _]]).
  2:{ exfalso. assert (can_sample (t_limiter t) 1 = true); [|congruence]. apply (can_sample_spec c t 1 I).
      split; [done|]. rewrite inject_Z_plus in S2. change (inject_Z 1) with 1%Q in *.
      assert (Hl : (inject_Z 0 <= inject_Z (Z.of_nat (length ds)))%Q) by (rewrite <- Zle_Qle; lia).
      change (inject_Z 0) with 0%Q in Hl. lra. }
  destruct ds as [|d' ds]; [exists [sm], t1; cbn [fmap list_fmap run]; by rewrite E|].
  destruct (IH t1 I1 ltac:(done)) as (sms & t' & E').
  - apply (can_sample_spec c t1 _ I1). split.
    + destruct Hside as [[Hm Hn]|Hside]; [destruct (Z2 Hm Hn); lia|]. cbn [length] in *. lia.
    + rewrite A, B. rewrite inject_Z_plus in *. lra.
  - destruct Hside as [[Hm Hn]|Hside]; [left; split; [done|by apply Z2]|right; cbn [length] in *; lia].
  - exists (sm :: sms), t'. cbn [fmap list_fmap run] in *. by rewrite E, E'.
Qed.

Lemma samples_only c ds : cfg_ok c -> Forall draw_ok ds -> forall t, tinv c t ->
  ds <> [] -> samples_go_through t ds -> can_sample (t_limiter t) (Z.of_nat (length ds)) = true.
Proof.
  intros Hc Hd. induction Hd as [|d ds Hd _ IH]; intros t I Hne (sms & t' & E); [done|]. clear Hne.
  destruct (single_cases c t d Hc I Hd) as (r & t1 & E1 & I1 & Hr). cbn [fmap list_fmap run] in E. rewrite E1 in E.
  destruct (run t1 _) as [[rs t2]|] eqn:E2; [|done]. destruct sms as [|sm sms]; [done|].
  cbn in E. injection E as -> -> ->.
  destruct Hr as [(Hs & _ & A & B & Z1 & _)|[_ [?|?]]]; [|done|done].
  apply (can_sample_spec c t _ I) in Hs as [S1 S2]. apply (can_sample_spec c t _ I). split; [done|].
  destruct ds as [|d' ds]; [exact S2|].
  assert (Hs1 : can_sample (t_limiter t1) (Z.of_nat (length (d' :: ds))) = true).
  { apply (IH t1 I1); [done|]. by exists sms, t'. }
  apply (can_sample_spec c t1 _ I1) in Hs1 as [_ S3]. rewrite A, B in S3.
  change (length (d :: d' :: ds)) with (S (length (d' :: ds))). rewrite Nat2Z.inj_succ. unfold Z.succ.
  rewrite inject_Z_plus in *. lra.
Qed.

(** ** Proofs: insertions *)

Lemma can_insert_spec c t n : tinv c t -> can_insert (t_limiter t) n = true <->
  t_size t + n <= c_min_size c \/
  (inject_Z (n + l_inserts (t_limiter t)) * c_spi c - inject_Z (l_samples (t_limiter t)) <= c_max_diff c)%Q.
Proof.
  intros [C Hs Hl]. unfold can_insert. rewrite (tc_mins _ _ C), (tc_maxd _ _ C), (tc_spi _ _ C).
  replace (l_inserts (t_limiter t) + n - l_deletes (t_limiter t)) with (t_size t + n) by lia.
  destruct (Z.leb_spec (t_size t + n) (c_min_size c)).
  - split; [by left|done].
  - rewrite Qle_bool_iff. split; [by right|intros [?|?]; [lia|done]].
Qed.

Lemma ins_cases c t x : tinv c t -> op_ok c (ins_op x) -> check_item_validity x.2 = Ok ->
  t_data t !! it_key x.2 = None -> l_cancelled (t_limiter t) = false ->
  (can_insert (t_limiter t) 1 = false /\ step t (ins_op x) = Some (RBlocked, t)) \/
  (can_insert (t_limiter t) 1 = true /\ exists t', step t (ins_op x) = Some (RStatus Ok, t') /\ tinv c t' /\
    l_cancelled (t_limiter t') = false /\
    l_inserts (t_limiter t') = l_inserts (t_limiter t) + 1 /\ l_samples (t_limiter t') = l_samples (t_limiter t) /\
    (t_size t' = t_size t + 1 \/ t_size t = c_max_size c /\ t_size t' = t_size t) /\
    (forall k, k <> it_key x.2 -> t_data t !! k = None -> t_data t' !! k = None)).
Proof.
  intros I [Hd Hp] Hv Hk Hcl. unfold ins_op. cbn [step]. unfold insert_or_assign.
  rewrite bool_decide_true by done. cbn [negb]. rewrite Hk. unfold insert_resume, await_can_insert. rewrite Hcl, Hk.
  destruct (can_insert (t_limiter t) 1); [right|by left]. split; [done|].
  destruct (insert_new_spec c t x.1.1 x.1.2 x.2 I Hp Hd Hk) as (t' & E & I' & Ht). rewrite E.
  exists t'. split; [done|]. split; [done|].
  assert (Hadd : forall k, k <> it_key x.2 -> t_data t !! k = None -> t_data (added t x.1.1 x.2) !! k = None).
  { intros k Hne H0. cbn. by rewrite lookup_insert_ne. }
  destruct Ht as [[Hroom ->]|(Hfull & victim & pr & old & t2 & _ & Hold & _ & D & -> & L)].
  - split; [done|]. split; [done|]. split; [done|]. split.
    + left. unfold t_size. cbn. rewrite map_size_insert_None by done. lia.
    + exact Hadd.
  - cbn [t_limiter with_limiter]. rewrite L. split; [done|]. split; [done|]. split; [done|]. split.
    + right. split; [done|]. unfold t_size. cbn [t_data with_limiter]. rewrite D, map_size_delete, Hold. cbn.
      rewrite map_size_insert_None by done. lia.
    + intros k Hne H0. cbn [t_data with_limiter]. rewrite D, lookup_delete_None. right. by apply Hadd.
Qed.

Lemma new_items_step c t x xs t' : new_items c t (x :: xs) ->
  (forall k, k <> it_key x.2 -> t_data t !! k = None -> t_data t' !! k = None) -> new_items c t' xs.
Proof.
  intros [N1 N2 N3 N4] H. cbn [fmap list_fmap] in *. apply Forall_cons in N1 as [_ N1].
  apply Forall_cons in N2 as [_ N2]. apply NoDup_cons in N3 as [Hx N3]. apply Forall_cons in N4 as [_ N4].
  split; [done|done|done|]. rewrite Forall_forall in N4. apply Forall_forall. intros y Hy.
  apply H; [|by apply N4]. intros E. apply Hx. rewrite <- E. apply elem_of_list_fmap. by exists y.
Qed.

Lemma inserts_true c xs : cfg_ok c -> (0 <= c_spi c)%Q -> forall t, tinv c t -> new_items c t xs ->
  l_cancelled (t_limiter t) = false -> xs <> [] ->
  can_insert (t_limiter t) (Z.of_nat (length xs)) = true -> inserts_go_through t xs.
Proof.
  intros Hc Hspi. induction xs as [|x xs IH]; intros t I N Hcl Hne Hi; [done|]. clear Hne.
  apply (can_insert_spec c t _ I) in Hi. cbn [length] in Hi. rewrite Nat2Z.inj_succ in Hi. unfold Z.succ in Hi.
  pose proof N as [N1 N2 _ N4]. cbn [fmap list_fmap] in *. apply Forall_cons in N1 as [N1 _]. apply Forall_cons in N2 as [N2 _].
  apply Forall_cons in N4 as [N4 _].
  destruct (ins_cases c t x I N1 N2 N4 Hcl) as [[Hf _]|(_ & t1 & E & I1 & Hcl1 & A & B & Zs & Hk)].
  { exfalso. assert (can_insert (t_limiter t) 1 = true); [|congruence]. apply (can_insert_spec c t 1 I).
    destruct Hi as [Hi|Hi]; [left; lia|right].
    assert (Hl : (inject_Z 0 <= inject_Z (Z.of_nat (length xs)))%Q) by (rewrite <- Zle_Qle; lia).
    change (inject_Z 0) with 0%Q in Hl. rewrite !inject_Z_plus in *. nra. }
  destruct xs as [|x' xs]; [exists t1; cbn [fmap list_fmap run]; by rewrite E|].
  destruct (IH t1 I1 (new_items_step _ _ _ _ _ N Hk) Hcl1 ltac:(done)) as (t' & E').
  - apply (can_insert_spec c t1 _ I1). destruct Hi as [Hi|Hi]; [left; lia|right]. rewrite A, B.
    eapply Qle_trans; [|exact Hi]. replace (Z.of_nat (length (x' :: xs)) + (l_inserts (t_limiter t) + 1))
      with (Z.of_nat (length (x' :: xs)) + 1 + l_inserts (t_limiter t)) by lia. apply Qle_refl.
  - exists t'. cbn [fmap list_fmap run] in *. by rewrite E, E'.
Qed.

Lemma inserts_only c xs : cfg_ok c -> c_min_size c <= c_max_size c -> forall t, tinv c t -> new_items c t xs ->
  l_cancelled (t_limiter t) = false -> xs <> [] ->
  inserts_go_through t xs -> can_insert (t_limiter t) (Z.of_nat (length xs)) = true.
Proof.
  intros Hc Hmm. induction xs as [|x xs IH]; intros t I N Hcl Hne [t' E]; [done|]. clear Hne.
  pose proof N as [N1 N2 _ N4]. cbn [fmap list_fmap] in *. apply Forall_cons in N1 as [N1 _]. apply Forall_cons in N2 as [N2 _].
  apply Forall_cons in N4 as [N4 _]. cbn [run] in E.
  destruct (ins_cases c t x I N1 N2 N4 Hcl) as [[_ Ef]|(Hi & t1 & E1 & I1 & Hcl1 & A & B & Zs & Hk)].
  { rewrite Ef in E. destruct (run t _) as [[rs t2]|]; done. }
  rewrite E1 in E. destruct (run t1 _) as [[rs t2]|] eqn:E2; [|done]. injection E as -> ->.
  destruct xs as [|x' xs]; [exact Hi|].
  assert (Hi1 : can_insert (t_limiter t1) (Z.of_nat (length (x' :: xs))) = true).
  { apply (IH t1 I1 (new_items_step _ _ _ _ _ N Hk) Hcl1); [done|]. exists t'. exact E2. }
  apply (can_insert_spec c t1 _ I1) in Hi1. rewrite A, B in Hi1. apply (can_insert_spec c t _ I).
  change (length (x :: x' :: xs)) with (S (length (x' :: xs))). rewrite Nat2Z.inj_succ. unfold Z.succ.
  destruct Hi1 as [Hi1|Hi1]; [left|right].
  - cbn [length] in *. destruct I1 as [_ ? _]. lia.
  - eapply Qle_trans; [|exact Hi1]. replace (Z.of_nat (length (x' :: xs)) + (l_inserts (t_limiter t) + 1))
      with (Z.of_nat (length (x' :: xs)) + 1 + l_inserts (t_limiter t)) by lia. apply Qle_refl.
Qed.

Lemma open_hist c os rs log closed : hist_spec c os rs log closed ->
  Forall (fun o => o <> OClose) os -> closed = false.
Proof.
  induction 1 as [|os rs log closed o r evs _ IH _]; [done|]. rewrite Forall_app. intros [H Ho].
  apply Forall_cons in Ho as [Ho _]. rewrite (IH H). destruct o; done.
Qed.

(** ** C96 *)

(** The answer "no" is always right, whatever the table does with sampled items
    (also for n = 1, and also after Close). *)
Theorem C96_sample_no c os rs t ds : reached c os rs t -> Forall draw_ok ds -> ds <> [] ->
  samples_go_through t ds -> table_can_sample t (Z.of_nat (length ds)) = Some true.
Proof.
  intros H Hd Hne G. pose proof (reached_linv _ _ _ _ H) as [I _ _]. unfold table_can_sample.
  destruct ds as [|d ds]; [done|]. destruct (Z.leb_spec (Z.of_nat (length (d :: ds))) 0); [cbn in *; lia|].
  f_equal. apply (samples_only c (d :: ds) (re_cfg _ _ _ _ H) Hd t I Hne G).
Qed.

(** The answer is exact when sampling does not remove items, and when so many
    items are left that removals do not matter.  Missing: tables with
    max_times_sampled where the items run out on the way; the answer "yes" is
    wrong there ([C96_sample_refuted]). *)
Theorem C96_sample_partial c os rs t ds : reached c os rs t -> Forall draw_ok ds -> ds <> [] ->
  (c_max_times c <= 0 /\ Forall fresh_op os) \/
    c_min_size c + Z.of_nat (length ds) - 1 <= i_size (info t) ->
  table_can_sample t (Z.of_nat (length ds)) = Some true <-> samples_go_through t ds.
Proof.
  intros H Hd Hne Hside. split; [|by apply (C96_sample_no c os rs)].
  pose proof (reached_linv _ _ _ _ H) as [I _ _]. unfold table_can_sample.
  destruct (Z.leb_spec (Z.of_nat (length ds)) 0); [done|]. intros [= Hs].
  apply (samples_true c ds (re_cfg _ _ _ _ H) Hd t I Hne Hs). destruct Hside as [[Hm Hf]|Hside]; [left|by right].
  split; [done|]. by apply (fresh_nonneg c os rs).
Qed.

(** One sample: exact for every table. *)
Theorem C96_sample_one c os rs t d : reached c os rs t -> draw_ok d ->
  table_can_sample t 1 = Some true <-> samples_go_through t [d].
Proof.
  intros H Hd. split; [|intros G; by apply (C96_sample_no c os rs t [d] H (Forall_cons_2 _ _ _ Hd (Forall_nil_2 _)))].
  intros E. pose proof (reached_linv _ _ _ _ H) as [I _ _]. cbn in E. injection E as E.
  apply (C96_sample_partial c os rs t [d] H); [by constructor|done| |unfold table_can_sample; cbn [length]; change (Z.of_nat 1) with 1; by rewrite E].
  right. apply (can_sample_spec c t _ I) in E as [E _]. cbn. lia.
Qed.

Lemma loop_limited more : forall t ds l st sms t', sample_loop more ds l t = Some (st, sms, t') ->
  Forall (fun sm => sm_limited sm = l) sms.
Proof.
  assert (One : forall t d l st sm t', sample_one t d l = Some (st, sm, t') -> sm_limited sm = l).
  { intros t d l st sm t' E. unfold sample_one in E. destruct (sel_sample _ _) as [[k p]|]; [|done].
    destruct (t_data t !! k) as [it|]; [|done]. cbv zeta in E.
    destruct (it_times _ =? t_max_times _).
    - destruct (delete_item _ _) as [[st' t1]|]; [|done]. by injection E as <- <- <-.
    - by injection E as <- <- <-. }
  induction more as [|more IH]; intros t ds l st sms t' E; cbn [sample_loop] in E;
    destruct (sample_one t (ds 0%nat) l) as [[[st1 sm] t1]|] eqn:E1; try done; apply One in E1;
    destruct (negb _); try (injection E as <- <- <-; by repeat constructor).
  destruct (maybe_commit_sample _) as [li|]; [|injection E as <- <- <-; by repeat constructor].
  destruct (sample_loop more _ l _) as [[[st2 sms2] t2]|] eqn:E2; [|done]. injection E as <- <- <-.
  constructor; [done|]. by eapply IH.
Qed.

Lemma singles_shape ds n : singles ds n = (fun d => OSample 1 (fun _ => d)) <$> (ds <$> seq 0 n).
Proof. done. Qed.

(** A call that asks for up to n items returns all n of them, without waiting,
    when can_sample(n) says so, and fewer when it does not. *)
Theorem C96_batch_partial c os rs t n ds : reached c os rs t -> (forall i, draw_ok (ds i)) -> 1 <= n ->
  (c_max_times c <= 0 /\ Forall fresh_op os) \/ c_min_size c + n - 1 <= i_size (info t) ->
  exists b, table_can_sample t n = Some b /\
    (b = true <-> exists sms t', step t (OSample n ds) = Some (RSamples Ok sms, t') /\
                    Z.of_nat (length sms) = n /\ Forall (fun sm => sm_limited sm = false) sms).
Proof.
  intros H Hd Hn Hside. exists (can_sample (t_limiter t) n).
  assert (Hask : table_can_sample t n = Some (can_sample (t_limiter t) n)).
  { unfold table_can_sample. destruct (Z.leb_spec n 0); [lia|done]. }
  split; [done|].
  assert (Hdr : Forall draw_ok (ds <$> seq 0 (Z.to_nat n))).
  { apply Forall_forall. intros d (i & -> & _)%elem_of_list_fmap. apply Hd. }
  assert (Hlen : Z.of_nat (length (ds <$> seq 0 (Z.to_nat n))) = n) by (rewrite fmap_length, seq_length; lia).
  assert (Hne : ds <$> seq 0 (Z.to_nat n) <> []).
  { intros E. rewrite E in Hlen. cbn in Hlen. lia. }
  pose proof (C96_sample_partial c os rs t (ds <$> seq 0 (Z.to_nat n)) H Hdr Hne) as Iff.
  rewrite Hlen, Hask in Iff. specialize (Iff Hside).
  destruct (can_sample (t_limiter t) 1) eqn:Hs.
  - pose proof (reached_linv _ _ _ _ H) as [I _ _].
    destruct (sample_run_inv c t n ds false (re_cfg _ _ _ _ H) I Hd Hs) as (sms & t' & E & _).
    assert (E1 : step t (OSample n ds) = Some (RSamples Ok sms, t')).
    { cbn [step]. unfold sample_batch, maybe_commit_sample. by rewrite Hs. }
    destruct (C23_batch c os rs t n ds sms t' H Hd Hs Hn E1) as (R & Hl & Hshort).
    split.
    + intros Hcs. exists sms, t'. split; [done|]. split.
      * destruct (Z.eq_dec (Z.of_nat (length sms)) n) as [|Hne']; [done|exfalso].
        destruct (Hshort ltac:(lia)) as (r & Er & Hr).
        destruct (proj1 Iff ltac:(by rewrite Hcs)) as (sms2 & t2 & E2).
        replace (Z.to_nat n) with (length sms + (1 + (Z.to_nat n - length sms - 1)))%nat in E2 by lia.
        rewrite seq_app, !fmap_app, run_app, <- singles_shape, R in E2.
        cbn [seq fmap list_fmap run plus Nat.add] in E2.
        assert (Eb : step t' (OSample 1 (fun _ => ds (length sms))) = Some (r, t')).
        { rewrite <- Er. cbn [step]. assert (Hc1 : can_sample (t_limiter t') 1 = false).
          { destruct (can_sample (t_limiter t') 1) eqn:Hc1; [|done]. exfalso. cbn [step] in Er.
            unfold sample_batch, maybe_commit_sample in Er. rewrite Hc1 in Er. unfold sample_run in Er.
            destruct (sample_loop _ _ _ _) as [[[st0 l0] t0]|] eqn:El; [|done]. injection Er as <- ->.
            destruct Hr as [?|Hr]; [done|]. injection Hr as -> ->. cbn [sample_loop] in El.
            change (Z.to_nat (1 - 1)) with 0%nat in El. cbn [sample_loop] in El.
            destruct (sample_one _ _ _) as [[[st3 sm3] t3]|]; [|done]. by destruct (negb _). }
          unfold sample_batch, maybe_commit_sample, sample_resume, await_sample. rewrite Hc1. by destruct (l_cancelled _). }
        rewrite Eb in E2. destruct (run t' _) as [[rs3 t3]|]; [|done]. injection E2 as E2 _.
        assert (Hin : r ∈ ((fun sm => RSamples Ok [sm]) <$> sms2)).
        { rewrite <- E2. apply elem_of_app. right. left. }
        apply elem_of_list_fmap in Hin as (sm & -> & _). by destruct Hr.
      * unfold sample_run in E. destruct (sample_loop _ _ _ _) as [[[st2 sms2] t2]|] eqn:El; [|done].
        injection E as E2 E3 E4. rewrite <- E3. by eapply loop_limited.
    + intros (sms1 & t1 & E2 & Hl2 & _). assert (sms1 = sms) as -> by congruence.
      destruct Iff as [_ Iff]. rewrite <- Hl2, Nat2Z.id in Iff.
      assert (Some (can_sample (t_limiter t) (Z.of_nat (length sms))) = Some true) as [= G].
      { apply Iff. exists sms, t'. rewrite <- singles_shape. exact R. }
      by rewrite <- Hl2.
  - split.
    + intros Hcs. exfalso. pose proof (reached_linv _ _ _ _ H) as [I _ _].
      destruct (proj1 Iff ltac:(by rewrite Hcs)) as (sms2 & t2 & E2).
      assert (G : samples_go_through t [ds 0%nat]).
      { destruct (Z.to_nat n) as [|m] eqn:Em; [lia|]. cbn [seq fmap list_fmap run] in E2.
        destruct (step t _) as [[r t1]|] eqn:E3; [|done]. destruct (run t1 _) as [[rs3 t3]|]; [|done].
        destruct sms2 as [|sm sms2]; [done|]. cbn in E2. injection E2 as -> _ _.
        exists [sm], t1. cbn [fmap list_fmap run]. by rewrite E3. }
      apply (C96_sample_one c os rs t (ds 0%nat) H (Hd 0%nat)) in G. cbn in G. congruence.
    + intros (sms & t' & E & Hl & _). cbn [step] in E. unfold sample_batch, maybe_commit_sample, sample_resume, await_sample in E.
      rewrite Hs in E. by destruct (l_cancelled _).
Qed.

(** Insertions: "yes" is right for every table that is open. *)
Theorem C96_insert_yes c os rs t xs : reached c os rs t -> Forall (fun o => o <> OClose) os ->
  (0 <= c_spi c)%Q -> new_items c t xs ->
  table_can_insert t (Z.of_nat (length xs)) = Some true -> inserts_go_through t xs.
Proof.
  intros H Hop Hspi N E. pose proof (reached_spec _ _ _ _ H) as [S [I _ _]]. unfold table_can_insert in E.
  destruct (Z.leb_spec (Z.of_nat (length xs)) 0); [done|]. injection E as E.
  apply (inserts_true c xs (re_cfg _ _ _ _ H) Hspi t I N); [by apply (open_hist _ _ _ _ _ S)|by intros ->|done].
Qed.

(** ... and exact when the table can hold as many items as sampling needs. *)
Theorem C96_insert_partial c os rs t xs : reached c os rs t -> Forall (fun o => o <> OClose) os ->
  (0 <= c_spi c)%Q -> c_min_size c <= c_max_size c -> new_items c t xs -> xs <> [] ->
  table_can_insert t (Z.of_nat (length xs)) = Some true <-> inserts_go_through t xs.
Proof.
  intros H Hop Hspi Hmm N Hne. split; [by apply (C96_insert_yes c os rs)|]. intros G.
  pose proof (reached_spec _ _ _ _ H) as [S [I _ _]]. unfold table_can_insert.
  destruct xs as [|x xs]; [done|]. destruct (Z.leb_spec (Z.of_nat (length (x :: xs))) 0); [cbn in *; lia|]. f_equal.
  apply (inserts_only c (x :: xs) (re_cfg _ _ _ _ H) Hmm t I N); [by apply (open_hist _ _ _ _ _ S)|done|done].
Qed.

End WithFP.

(** ** Examples and counterexamples *)

Local Existing Instance fp_exact.
Local Existing Instance fp_exact_laws.

Definition nx (k : Z) : ins := (k, 0, d0, mk_item k 5 7 0).

(** max_times_sampled = 1 and two items, the case of the TODO of table.h: the
    table says that 3 samples are possible, the third one waits. *)
Definition once_cfg : tcfg := mkCfg 10 1 KFifo KFifo 5 1 (-20) 20.
Definition two_items : list op := [ins_op (nx 1); ins_op (nx 2)].
Theorem C96_sample_refuted :
  let t := (final once_cfg two_items).2 in
  reached once_cfg two_items (final once_cfg two_items).1 t /\
  table_can_sample t 3 = Some true /\ ~ samples_go_through t [d0; d0; d0] /\ samples_go_through t [d0; d0].
Proof.
  cbv zeta. split. { split; [by repeat constructor|ops_ok|by vm_compute]. } split; [by vm_compute|]. split.
  - intros (sms & t' & E).
    assert (E3 : (fun x => x.1 !! 2%nat) <$> run (final once_cfg two_items).2 ((fun d => OSample 1 (fun _ => d)) <$> [d0; d0; d0]) = Some (Some RBlocked)) by (by vm_compute).
    rewrite E in E3. cbn in E3. injection E3 as E3. rewrite list_lookup_fmap in E3. destruct (sms !! 2%nat); done.
  - destruct (run (final once_cfg two_items).2 ((fun d => OSample 1 (fun _ => d)) <$> [d0; d0])) as [[rs t']|] eqn:E.
    + exists (concat (result_samples <$> rs)), t'. rewrite E. f_equal. f_equal.
      assert (E2 : Some rs = fst <$> run (final once_cfg two_items).2 ((fun d => OSample 1 (fun _ => d)) <$> [d0; d0])) by (by rewrite E).
      vm_compute in E2. injection E2 as ->. by vm_compute.
    + exfalso. assert (Hs : is_Some (run (final once_cfg two_items).2 ((fun d => OSample 1 (fun _ => d)) <$> [d0; d0]))).
      { apply (bool_decide_unpack _). by vm_compute. } rewrite E in Hs. by apply is_Some_None in Hs.
Qed.

(** A table that cannot hold as many items as sampling needs never blocks
    insertions, but says that 4 insertions are not possible. *)
Definition small_cfg : tcfg := mkCfg 2 0 KFifo KFifo 1 3 0 1.
Theorem C96_insert_refuted :
  let t := new_table small_cfg in
  reached small_cfg [] [] t /\ new_items small_cfg t (nx <$> [1; 2; 3; 4]) /\
  table_can_insert t 4 = Some false /\ inserts_go_through t (nx <$> [1; 2; 3; 4]).
Proof.
  cbv zeta. split. { split; [by repeat constructor|ops_ok|done]. } split.
  { split; [ops_ok|by repeat constructor| |by repeat constructor]. cbn.
    repeat (constructor; [rewrite ?elem_of_cons, ?elem_of_nil; lia|]). constructor. }
  split; [by vm_compute|].
  destruct (run (new_table small_cfg) (ins_op <$> (nx <$> [1; 2; 3; 4]))) as [[rs t']|] eqn:E.
  - exists t'. rewrite E. f_equal. f_equal.
    assert (E2 : Some rs = fst <$> run (new_table small_cfg) (ins_op <$> (nx <$> [1; 2; 3; 4]))) by (by rewrite E).
    vm_compute in E2. injection E2 as ->. by vm_compute.
  - exfalso. assert (Hs : is_Some (run (new_table small_cfg) (ins_op <$> (nx <$> [1; 2; 3; 4])))).
    { apply (bool_decide_unpack _). by vm_compute. } rewrite E in Hs. by apply is_Some_None in Hs.
Qed.

(** A table where both answers change on the way: 2 samples per insertion are
    wanted, give or take 3.  After two insertions two samples are possible and a
    third is not; one insertion is possible and a second is not. *)
Definition ask_cfg : tcfg := mkCfg 10 0 KUniform KFifo 2 1 2 6.
Example C96_example :
  let t := (final ask_cfg two_items).2 in
  reached ask_cfg two_items (final ask_cfg two_items).1 t /\
  Forall fresh_op two_items /\ Forall (fun o => o <> OClose) two_items /\ (0 <= c_spi ask_cfg)%Q /\
  new_items ask_cfg t [nx 3; nx 4] /\
  table_can_sample t 2 = Some true /\ table_can_sample t 3 = Some false /\ table_can_sample t 0 = None /\
  table_can_insert t 1 = Some true /\ table_can_insert t 2 = Some false.
Proof.
  cbv zeta. split. { split; [by repeat constructor|ops_ok|by vm_compute]. }
  split; [by repeat constructor|]. split; [by repeat constructor|]. split; [by vm_compute|]. split.
  { split; [ops_ok|by repeat constructor| |].
    - cbn. repeat (constructor; [rewrite ?elem_of_cons, ?elem_of_nil; lia|]). constructor.
    - repeat (constructor; [by vm_compute|]). constructor. }
  split; [by vm_compute|]. split; [by vm_compute|]. split; [done|]. split; by vm_compute.
Qed.

Print Assumptions C96_sample_no.
Print Assumptions C96_sample_partial.
Print Assumptions C96_sample_one.
Print Assumptions C96_batch_partial.
Print Assumptions C96_insert_yes.
Print Assumptions C96_insert_partial.
Print Assumptions C96_sample_refuted.
Print Assumptions C96_insert_refuted.
