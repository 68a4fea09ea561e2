(** The state of a table is determined by the calls its extensions received,
    and every such call is legal given the earlier ones. *)
From Verif Require Import Base RateLimiter Selector Trajectory Table EventLog TableProofs.

Section WithFP.
Context {fp : FP} {laws : FPLaws fp}.

(** What the limiter must guarantee, in terms of what a listener has seen. *)
Definition sample_allowed (c : tcfg) (pre : list event) : Prop :=
  c_min_size c <= Z.of_nat (size (replay pre)) /\
  (c_min_diff c <= inject_Z (n_ins pre) * c_spi c - inject_Z (n_samp pre + 1))%Q.
Definition insert_allowed (c : tcfg) (pre : list event) : Prop :=
  Z.of_nat (size (replay pre)) + 1 <= c_min_size c \/
  (inject_Z (n_ins pre + 1) * c_spi c - inject_Z (n_samp pre) <= c_max_diff c)%Q.

(** When an event is legal after the events [pre]. *)
Definition ev_ok (c : tcfg) (pre : list event) (e : event) : Prop :=
  match e with
  | EvInsert it => replay pre !! it_key it = None /\ insert_allowed c pre /\ prio_ok c (it_prio it)
  | EvSample it =>
    exists old, replay pre !! it_key it = Some old /\
      it = it_with_times old (it_times old + 1) /\ sample_allowed c pre /\
      exists d q, draw_ok d /\ sel_sample (sel_replay (c_sampler c) pre) d = Some (it_key it, q)
  | EvUpdate it => exists old p, replay pre !! it_key it = Some old /\ it = it_with_prio old p /\
      prio_ok c p
  | EvDelete it => replay pre !! it_key it = Some it
  | EvReset => True
  end.

(** A listener that counts more than max_size items is about to see the removal
    of the item the remover selects. *)
Definition evict_ok (c : tcfg) (pre : list event) (e : event) : Prop :=
  c_max_size c < Z.of_nat (size (replay pre)) ->
  exists it d q, e = EvDelete it /\ draw_ok d /\
    sel_sample (sel_replay (c_remover c) pre) d = Some (it_key it, q).

(** Table and log agree.  [di] is 1 while an insertion is logged but not yet
    counted by the limiter, [ds] is 1 while a sample is counted but not logged. *)
Record lag (c : tcfg) (t : table) (di ds : Z) : Prop := {
  la_data : replay (t_log t) = t_data t;
  la_sampler : sel_replay (c_sampler c) (t_log t) = t_sampler t;
  la_remover : sel_replay (c_remover c) (t_log t) = t_remover t;
  la_ins : n_ins (t_log t) = l_inserts (t_limiter t) + di;
  la_samp : n_samp (t_log t) + ds = l_samples (t_limiter t);
  la_del : n_del (t_log t) = l_deletes (t_limiter t);
  la_lost : lost_episodes (t_log t) = t_del_eps t;
  la_first : n_first (t_log t) = t_unique t;
  la_ok : log_all (ev_ok c) (t_log t);
  la_evict : log_all (evict_ok c) (t_log t) }.

Lemma eps_of_update m k it it' : m !! k = Some it -> it_chunks it' = it_chunks it ->
  eps_of (<[k := it']> m) = eps_of m.
Proof.
  intros Hk Hc. apply set_eq. intros x. rewrite !eps_of_refs. by rewrite (refs_update m k it it').
Qed.
Lemma eps_of_insert_sub m k it : m !! k = None -> eps_of m ⊆ eps_of (<[k := it]> m).
Proof.
  intros Hk x. rewrite !eps_of_refs, refs_insert by done.
  pose proof (occ_nonneg x (it_chunks it)). lia.
Qed.
Lemma size_diff_sub (X Y : gset Z) : X ⊆ Y -> Z.of_nat (size (X ∖ Y)) = 0.
Proof.
  intros H. assert (E : X ∖ Y = ∅) by set_solver. rewrite E, size_empty. done.
Qed.

Lemma new_table_lag c : lag c (new_table c) 0 0.
Proof. split; try done; apply log_all_nil. Qed.

(** Deleting an item. *)
Lemma delete_item_lag c t k it t' di ds : tcore c t -> lag c t di ds -> t_data t !! k = Some it ->
  evict_ok c (t_log t) (EvDelete it) -> delete_item t k = Some (Ok, t') ->
  lag c t' di ds /\ t_log t' = t_log t ++ [EvDelete it].
Proof.
  intros C L Hk Hev E. destruct (delete_item_spec c t k it C Hk) as (t1 & E1 & _ & D & Lm & U & Lg & DE & S & R).
  assert (t1 = t') as -> by congruence. split; [|done].
  pose proof (tc_key _ _ C _ _ Hk) as <-. destruct L.
  split; rewrite ?Lg, ?replay_snoc, ?sel_replay_snoc, ?n_ins_snoc, ?n_samp_snoc, ?n_del_snoc, ?lost_snoc, ?n_first_snoc; cbn.
  - by rewrite la_data0, D.
  - by rewrite la_sampler0, S.
  - by rewrite la_remover0, R.
  - by rewrite Lm.
  - by rewrite Lm.
  - by rewrite Lm, la_del0.
  - by rewrite la_lost0, la_data0, DE, D.
  - by rewrite U.
  - apply log_all_snoc; [done|]. cbn. by rewrite la_data0.
  - by apply log_all_snoc.
Qed.

Lemma evict_ok_small c t di ds e : lag c t di ds -> t_size t <= c_max_size c -> evict_ok c (t_log t) e.
Proof. intros L H Hlt. rewrite (la_data _ _ _ _ L) in Hlt. unfold t_size in H. lia. Qed.

Lemma update_item_lag c t k p it t' di ds : tcore c t -> prio_ok c p -> lag c t di ds ->
  t_size t <= c_max_size c ->
  t_data t !! k = Some it -> update_item t k p = (Ok, t') ->
  lag c t' di ds /\ t_log t' = t_log t ++ [EvUpdate (it_with_prio it p)].
Proof.
  intros C Hp L Hsz Hk E. pose proof (fun e => evict_ok_small c t di ds e L Hsz) as Hev.
  destruct (update_item_spec c t k p it C Hp Hk) as (t1 & E1 & _ & D & Lm & U & _ & DE & Lg & S & R).
  assert (t1 = t') as -> by congruence. split; [|done].
  pose proof (tc_key _ _ C _ _ Hk) as <-. destruct L.
  split; rewrite ?Lg, ?replay_snoc, ?sel_replay_snoc, ?n_ins_snoc, ?n_samp_snoc, ?n_del_snoc, ?lost_snoc, ?n_first_snoc; cbn.
  - by rewrite la_data0, D.
  - by rewrite la_sampler0, S.
  - by rewrite la_remover0, R.
  - by rewrite Lm.
  - by rewrite Lm.
  - by rewrite Lm.
  - rewrite la_lost0, la_data0, DE, (eps_of_update _ _ it) by done. rewrite size_diff_sub by done. lia.
  - by rewrite U.
  - apply log_all_snoc; [done|]. cbn. rewrite la_data0. eauto.
  - by apply log_all_snoc.
Qed.

Lemma added_lag c t now it : lag c t 0 0 -> t_size t <= c_max_size c -> t_data t !! it_key it = None ->
  insert_allowed c (t_log t) -> prio_ok c (it_prio it) -> lag c (added t now it) 1 0.
Proof.
  intros L Hsz Hk Ha Hp. pose proof (fun e => evict_ok_small c t 0 0 e L Hsz) as Hev. destruct L.
  split; unfold added; cbn [t_log t_data t_sampler t_remover t_limiter t_del_eps t_unique];
    rewrite ?replay_snoc, ?sel_replay_snoc, ?n_ins_snoc, ?n_samp_snoc, ?n_del_snoc, ?lost_snoc, ?n_first_snoc; cbn.
  - by rewrite la_data0.
  - by rewrite la_sampler0.
  - by rewrite la_remover0.
  - lia.
  - lia.
  - done.
  - rewrite la_data0, size_diff_sub by (by apply eps_of_insert_sub). lia.
  - done.
  - apply log_all_snoc; [done|]. cbn. by rewrite la_data0.
  - by apply log_all_snoc.
Qed.

Lemma marked_lag c t k it d q : tcore c t -> lag c t 0 1 -> t_size t <= c_max_size c -> t_data t !! k = Some it ->
  sample_allowed c (t_log t) -> draw_ok d -> sel_sample (t_sampler t) d = Some (k, q) ->
  lag c (marked t k it) 0 0.
Proof.
  intros C L Hsz Hk Ha Hd Hs. pose proof (fun e => evict_ok_small c t 0 1 e L Hsz) as Hev. pose proof (tc_key _ _ C _ _ Hk) as <-. destruct L.
  split; unfold marked; cbn [t_log t_data t_sampler t_remover t_limiter t_del_eps t_unique];
    rewrite ?replay_snoc, ?sel_replay_snoc, ?n_ins_snoc, ?n_samp_snoc, ?n_del_snoc, ?lost_snoc, ?n_first_snoc; cbn.
  - by rewrite la_data0.
  - by rewrite la_sampler0.
  - by rewrite la_remover0.
  - lia.
  - lia.
  - done.
  - rewrite la_data0, (eps_of_update _ _ it) by done. rewrite size_diff_sub by done. lia.
  - rewrite la_first0. destruct (Z.eqb_spec (it_times it + 1) 1), (Z.eqb_spec (it_times it) 0); lia.
  - apply log_all_snoc; [done|]. cbn. rewrite la_data0, la_sampler0. eauto 10.
  - by apply log_all_snoc.
Qed.

Lemma lag_with_insert c t : lag c t 1 0 -> lag c (with_limiter t (lim_insert (t_limiter t))) 0 0.
Proof.
  intros []. split; cbn [with_limiter t_log t_data t_sampler t_remover t_limiter t_del_eps t_unique
    lim_insert lim_sample l_inserts l_samples l_deletes]; done || lia.
Qed.
Lemma lag_with_sample c t : lag c t 0 0 -> lag c (with_limiter t (lim_sample (t_limiter t))) 0 1.
Proof.
  intros []. split; cbn [with_limiter t_log t_data t_sampler t_remover t_limiter t_del_eps t_unique
    lim_insert lim_sample l_inserts l_samples l_deletes]; done || lia.
Qed.

Lemma can_sample_allowed c t : tinv c t -> lag c t 0 0 -> can_sample (t_limiter t) 1 = true ->
  sample_allowed c (t_log t).
Proof.
  intros [C Hs Hl] L. unfold can_sample. destruct L. rewrite (tc_mins _ _ C), Hl.
  destruct (Z.ltb_spec (t_size t) (c_min_size c)); [done|].
  rewrite (tc_mind _ _ C), (tc_spi _ _ C), Qle_bool_iff. intros Hq. split.
  - rewrite la_data0. done.
  - rewrite la_ins0, Z.add_0_r. rewrite Z.add_0_r in la_samp0. rewrite la_samp0, inject_Z_plus. lra.
Qed.

Lemma can_insert_allowed c t : tinv c t -> lag c t 0 0 -> can_insert (t_limiter t) 1 = true ->
  insert_allowed c (t_log t).
Proof.
  intros [C Hs Hl] L. unfold can_insert. destruct L. rewrite (tc_mins _ _ C).
  destruct (Z.leb_spec (l_inserts (t_limiter t) + 1 - l_deletes (t_limiter t)) (c_min_size c)) as [Hm|Hm].
  - intros _. left. rewrite la_data0. unfold t_size in Hl. lia.
  - rewrite (tc_maxd _ _ C), (tc_spi _ _ C), Qle_bool_iff. intros Hq. right.
    rewrite la_ins0, Z.add_0_r. rewrite Z.add_0_r in la_samp0. rewrite la_samp0.
    rewrite Z.add_comm. done.
Qed.

(** Facts about the log kept between calls, besides agreement. *)
Record linv (c : tcfg) (t : table) : Prop := {
  li_inv : tinv c t;
  li_lag : lag c t 0 0;
  li_rem : removed_at (c_max_times c) (t_log t) }.

(** The relation between a returned sample and the event seen by extensions. *)
Definition sample_rel (c : tcfg) (sm : sampled) (p : list event * item) : Prop :=
  let '(pre, it) := p in
  sm_item sm = it /\ sm_size sm = Z.of_nat (size (replay pre)) /\
  sm_prio sm = it_prio it /\ sm_times sm = it_times it /\
  exists d, draw_ok d /\ sel_sample (sel_replay (c_sampler c) pre) d = Some (it_key it, sm_prob sm).

(** A call from [t] to [t']: only adds to the log and the samples it returns are
    the sample events it adds. *)
Definition ext_rel (c : tcfg) (t t' : table) (sms : list sampled) : Prop :=
  exists pts, sample_points (t_log t') = sample_points (t_log t) ++ pts /\
    Forall2 (sample_rel c) sms pts.

Lemma ext_rel_same c t t' : sample_points (t_log t') = sample_points (t_log t) -> ext_rel c t t' [].
Proof. intros E. exists []. by rewrite E, app_nil_r. Qed.
Lemma ext_rel_trans c t1 t2 t3 s1 s2 : ext_rel c t1 t2 s1 -> ext_rel c t2 t3 s2 ->
  ext_rel c t1 t3 (s1 ++ s2).
Proof.
  intros (p1 & E1 & F1) (p2 & E2 & F2). exists (p1 ++ p2). rewrite E2, E1, app_assoc.
  split; [done|]. by apply Forall2_app.
Qed.

Lemma tinv_delete c t k it t' : tinv c t -> t_data t !! k = Some it ->
  delete_item t k = Some (Ok, t') -> tinv c t'.
Proof.
  intros [C Hs Hl] Hk E. destruct (delete_item_spec c t k it C Hk) as (t1 & E1 & C1 & D & L & _).
  assert (t1 = t') as -> by congruence.
  assert (Hsz : t_size t' = t_size t - 1).
  { unfold t_size. rewrite D, map_size_delete, Hk.
    assert (0 < t_size t) by (apply tinv_size_nonempty; intros E'; rewrite E', lookup_empty in Hk; done).
    unfold t_size in *. lia. }
  split; [done|lia|]. rewrite L. cbn. lia.
Qed.

Lemma linv_delete c t k it t' : linv c t -> t_data t !! k = Some it ->
  delete_item t k = Some (Ok, t') ->
  linv c t' /\ t_log t' = t_log t ++ [EvDelete it] /\ ext_rel c t t' [].
Proof.
  intros [I L R] Hk E. destruct (delete_item_lag c t k it t' 0 0 (ti_core _ _ I) L Hk (evict_ok_small c t 0 0 _ L (ti_size _ _ I)) E) as [L' Lg].
  split; [split; [by eapply tinv_delete|done|]|].
  - rewrite Lg. by apply removed_at_snoc.
  - split; [done|]. apply ext_rel_same. rewrite Lg, sample_points_snoc. by rewrite app_nil_r.
Qed.

Lemma linv_update c t k it p t' : linv c t -> prio_ok c p -> t_data t !! k = Some it ->
  update_item t k p = (Ok, t') ->
  linv c t' /\ t_log t' = t_log t ++ [EvUpdate (it_with_prio it p)] /\ ext_rel c t t' [].
Proof.
  intros [I L R] Hp Hk E.
  destruct (update_item_lag c t k p it t' 0 0 (ti_core _ _ I) Hp L (ti_size _ _ I) Hk E) as [L' Lg].
  split; [split; [|done|]|].
  - destruct (update_item_inv c t k p I Hp) as (t1 & E1 & I1). congruence.
  - rewrite Lg. by apply removed_at_snoc.
  - split; [done|]. apply ext_rel_same. rewrite Lg, sample_points_snoc. by rewrite app_nil_r.
Qed.

Lemma linv_insert_new c t now d it : linv c t -> prio_ok c (it_prio it) -> draw_ok d ->
  t_data t !! it_key it = None -> can_insert (t_limiter t) 1 = true ->
  exists t', insert_new t now d it = Some (Ok, t') /\ linv c t' /\ ext_rel c t t' [] /\
    (t_log t' = t_log t ++ [EvInsert (it_with_at it now)] \/
     exists old, t_log t' = (t_log t ++ [EvInsert (it_with_at it now)]) ++ [EvDelete old]).
Proof.
  intros [I L R] Hp Hd Hk Hc.
  pose proof (can_insert_allowed c t I L Hc) as Ha.
  pose proof (added_lag c t now it L (ti_size _ _ I) Hk Ha Hp) as L1.
  pose proof (added_core c t now it (ti_core _ _ I) Hp Hk) as C1.
  destruct (insert_new_spec c t now d it I Hp Hd Hk) as (t' & E & I' & H).
  exists t'. split; [done|].
  destruct H as [[Hroom ->]|(Hfull & victim & pr & old & t2 & Hv & Hold & Hdel & D2 & -> & Lm)].
  - assert (Lg : t_log (with_limiter (added t now it) (lim_insert (t_limiter t)))
               = t_log t ++ [EvInsert (it_with_at it now)]) by done.
    split; [split; [done| |]|split; [|by left]].
    + by apply (lag_with_insert c (added t now it)).
    + rewrite Lg. by apply removed_at_snoc.
    + apply ext_rel_same. rewrite Lg, sample_points_snoc. by rewrite app_nil_r.
  - destruct (delete_item_lag c (added t now it) victim old t2 1 0 C1 L1 Hold) as [L2 Lg]; [|done|].
    { intros _. exists old, d, pr. split; [done|]. split; [done|].
      rewrite (la_remover _ _ _ _ L1), (tc_key _ _ C1 _ _ Hold). done. }
    assert (Lg' : t_log t2 = (t_log t ++ [EvInsert (it_with_at it now)]) ++ [EvDelete old]) by (rewrite Lg; done).
    split; [split; [done| |]|split; [|by right; exists old]].
    + by apply lag_with_insert.
    + cbn. rewrite Lg'. apply removed_at_snoc; [|done]. by apply removed_at_snoc.
    + apply ext_rel_same. cbn. rewrite Lg', !sample_points_snoc. by rewrite !app_nil_r.
Qed.

(** One sample whose place in the limiter has been committed. *)
Lemma linv_sample_one c t d limited : linv c t -> can_sample (t_limiter t) 1 = true ->
  cfg_ok c -> draw_ok d ->
  let t0 := with_limiter t (lim_sample (t_limiter t)) in
  exists sm t', sample_one t0 d limited = Some (Ok, sm, t') /\ linv c t' /\ ext_rel c t t' [sm] /\
    sm_limited sm = limited.
Proof.
  intros [I L R] Hc Hcfg Hd t0.
  pose proof (can_sample_allowed c t I L Hc) as Ha.
  destruct (can_sample_nonempty c t 1 Hcfg I Hc) as [Hne _].
  pose proof (lim_sample_inv c t I) as I0. pose proof (lag_with_sample c t L) as L0. fold t0 in I0, L0.
  destruct (sample_one_inv c t0 d limited I0 Hd Hne) as (sm' & t'' & E' & I'').
  destruct (sample_one_spec c t0 d limited (ti_core _ _ I0) Hd Hne)
    as (k & q & it & t' & Hs & Hit & E & C' & Ht').
  rewrite E in E'. injection E' as <- <-. eexists _, t'. split; [exact E|].
  pose proof (marked_core c t0 k it (ti_core _ _ I0) Hit) as Cm.
  pose proof (marked_lag c t0 k it d q (ti_core _ _ I0) L0 (ti_size _ _ I0) Hit Ha Hd Hs) as Lm.
  pose proof (tc_key _ _ (ti_core _ _ I0) _ _ Hit) as Hkey.
  assert (Hrel : sample_rel c (mkSampled (it_with_times it (it_times it + 1)) q (t_size t0) (it_prio it)
                 (it_times it + 1) limited) (t_log t, it_with_times it (it_times it + 1))).
  { cbn. split; [done|]. split; [by rewrite (la_data _ _ _ _ L)|]. split; [done|]. split; [done|].
    exists d. split; [done|]. rewrite (la_sampler _ _ _ _ L). rewrite Hkey. done. }
  set (it' := it_with_times it (it_times it + 1)) in *.
  destruct Ht' as [[Hm ->]|(Hm & Hdel & D & Ll)].
  - split; [split; [done|done|]|split; [|done]].
    + cbn. apply removed_at_snoc; done.
    + exists [(t_log t, it')]. cbn. rewrite sample_points_snoc. split; [done|]. by constructor.
  - destruct (delete_item_lag c (marked t0 k it) k it' t' 0 0 Cm Lm) as [L' Lg].
    { cbn. apply lookup_insert. }
    { eapply evict_ok_small; [done|]. rewrite (marked_size t0 k it) by done. apply I0. } { done. }
    assert (Lg' : t_log t' = (t_log t ++ [EvSample it']) ++ [EvDelete it']) by (rewrite Lg; done).
    split; [split; [done|done|]|split; [|done]].
    + rewrite Lg'. by apply removed_at_snoc2.
    + exists [(t_log t, it')]. rewrite Lg', !sample_points_snoc, app_nil_r. split; [done|]. by constructor.
Qed.

Lemma linv_sample_loop c more : forall t ds limited, cfg_ok c -> linv c t ->
  (forall i, draw_ok (ds i)) -> can_sample (t_limiter t) 1 = true ->
  exists sms t', sample_loop more ds limited (with_limiter t (lim_sample (t_limiter t))) = Some (Ok, sms, t') /\
    linv c t' /\ ext_rel c t t' sms /\ Forall (fun sm => sm_limited sm = limited) sms.
Proof.
  induction more as [|more IH]; intros t ds limited Hc I Hd Hcan; cbn [sample_loop];
    destruct (linv_sample_one c t (ds 0%nat) limited I Hcan Hc (Hd _)) as (sm & t1 & -> & I1 & X & Hlim);
    rewrite bool_decide_true by done; cbn [negb].
  - eauto 10.
  - unfold maybe_commit_sample. destruct (can_sample (t_limiter t1) 1) eqn:Ec; [|eauto 10].
    destruct (IH t1 (fun i => ds (S i)) limited Hc I1 (fun i => Hd (S i)) Ec) as (sms & t2 & -> & I2 & X2 & Hl2).
    exists (sm :: sms), t2. split; [done|]. split; [done|]. split; [|by constructor].
    by apply (ext_rel_trans c t t1 t2 [sm] sms).
Qed.

Definition result_samples (r : result) : list sampled :=
  match r with RSamples _ l => l | _ => [] end.

Lemma ext_rel_refl c t : ext_rel c t t [].
Proof. by apply ext_rel_same. Qed.

Lemma linv_delete_items c ks : forall t, linv c t ->
  exists t', delete_items t ks = Some (Ok, t') /\ linv c t' /\ ext_rel c t t' [].
Proof.
  induction ks as [|k ks IH]; intros t I; cbn [delete_items]; [eauto using ext_rel_refl|].
  destruct (t_data t !! k) as [it|] eqn:Hk.
  - destruct (delete_item_spec c t k it (ti_core _ _ (li_inv _ _ I)) Hk) as (t1 & E & _).
    destruct (linv_delete c t k it t1 I Hk E) as (I1 & _ & X). rewrite E, bool_decide_true by done.
    destruct (IH t1 I1) as (t2 & -> & I2 & X2). eexists. split; [done|]. split; [done|].
    by apply (ext_rel_trans c t t1 t2 [] []).
  - rewrite delete_item_missing, bool_decide_true by done. by apply IH.
Qed.

Lemma linv_update_item c t k p : linv c t -> prio_ok c p ->
  exists t', update_item t k p = (Ok, t') /\ linv c t' /\ ext_rel c t t' [].
Proof.
  intros I Hp. destruct (t_data t !! k) as [it|] eqn:Hk.
  - destruct (update_item_spec c t k p it (ti_core _ _ (li_inv _ _ I)) Hp Hk) as (t1 & E & _).
    destruct (linv_update c t k it p t1 I Hp Hk E) as (I1 & _ & X). eauto.
  - rewrite update_item_missing by done. eauto using ext_rel_refl.
Qed.

Lemma linv_update_items c us : forall t, linv c t -> Forall (fun u => prio_ok c u.2) us ->
  exists t', update_items t us = (Ok, t') /\ linv c t' /\ ext_rel c t t' [].
Proof.
  induction us as [|[k p] us IH]; intros t I H; cbn [update_items]; [eauto using ext_rel_refl|].
  apply Forall_cons in H as [Hp H].
  destruct (linv_update_item c t k p I Hp) as (t1 & -> & I1 & X). rewrite bool_decide_true by done.
  destruct (IH t1 I1 H) as (t2 & -> & I2 & X2). eexists. split; [done|]. split; [done|].
  by apply (ext_rel_trans c t t1 t2 [] []).
Qed.

Lemma linv_insert_resume c t now d it : linv c t -> draw_ok d -> prio_ok c (it_prio it) ->
  exists r t', insert_resume t now d it = Some (r, t') /\ linv c t' /\ ext_rel c t t' (result_samples r).
Proof.
  intros I Hd Hp. unfold insert_resume, await_can_insert.
  destruct (l_cancelled (t_limiter t)); [eauto 6 using ext_rel_refl|].
  destruct (can_insert (t_limiter t) 1) eqn:Ec; [|eauto 6 using ext_rel_refl].
  destruct (t_data t !! it_key it) as [old|] eqn:Hk.
  - destruct (linv_update_item c t (it_key it) (it_prio it) I Hp) as (t' & -> & ? & ?). eauto 6.
  - destruct (linv_insert_new c t now d it I Hp Hd Hk Ec) as (t' & -> & I' & X & _). eauto 6.
Qed.

Lemma linv_sample_resume c t b ds : cfg_ok c -> linv c t -> (forall i, draw_ok (ds i)) ->
  exists r t', sample_resume t b ds = Some (r, t') /\ linv c t' /\ ext_rel c t t' (result_samples r).
Proof.
  intros Hc I Hd. unfold sample_resume, await_sample, sample_run.
  destruct (l_cancelled (t_limiter t)); [eauto 6 using ext_rel_refl|].
  destruct (can_sample (t_limiter t) 1) eqn:Ec; [|eauto 6 using ext_rel_refl].
  destruct (linv_sample_loop c (Z.to_nat (b - 1)) t ds true Hc I Hd Ec) as (sms & t' & -> & I' & X & _).
  eauto 6.
Qed.

(** One call. *)
Lemma linv_step c t o : cfg_ok c -> linv c t -> op_ok c o ->
  exists r t', step t o = Some (r, t') /\ linv c t' /\ ext_rel c t t' (result_samples r).
Proof.
  intros Hc I Ho. destruct o as [now d it|now d it|b ds|b ds|us ks| |]; cbn [step op_ok] in *.
  - destruct Ho as [Hd Hp]. unfold insert_or_assign.
    case_bool_decide; cbn [negb]; [|eauto 6 using ext_rel_refl].
    destruct (t_data t !! it_key it) as [old|] eqn:Hk.
    + destruct (linv_update_item c t (it_key it) (it_prio it) I Hp) as (t' & -> & ? & ?). eauto 6.
    + by apply linv_insert_resume.
  - destruct Ho as [Hd Hp]. by apply linv_insert_resume.
  - unfold sample_batch, maybe_commit_sample, sample_run.
    destruct (can_sample (t_limiter t) 1) eqn:Ec; [|by apply linv_sample_resume].
    destruct (linv_sample_loop c (Z.to_nat (b - 1)) t ds false Hc I Ho Ec) as (sms & t' & -> & I' & X & _).
    eauto 6.
  - by apply linv_sample_resume.
  - unfold mutate_items. destruct (linv_delete_items c ks t I) as (t1 & -> & I1 & X1).
    rewrite bool_decide_true by done.
    destruct (linv_update_items c us t1 I1 Ho) as (t2 & -> & I2 & X2). eexists _, _.
    split; [done|]. split; [done|]. by apply (ext_rel_trans c t t1 t2 [] []).
  - eexists _, _. split; [done|]. destruct I as [I L R].
    split; [split; [by apply reset_inv| |]|].
    + pose proof (evict_ok_small c t 0 0 EvReset L (ti_size _ _ I)).
      destruct L. split; cbn [reset_table ext_op t_log t_data t_sampler t_remover t_limiter t_del_eps t_unique lim_reset l_inserts l_samples l_deletes];
        rewrite ?replay_snoc, ?sel_replay_snoc, ?n_ins_snoc, ?n_samp_snoc, ?n_del_snoc, ?lost_snoc, ?n_first_snoc; cbn;
        try congruence; try done; apply log_all_snoc; done.
    + cbn. by apply removed_at_snoc.
    + apply ext_rel_same. cbn. rewrite sample_points_snoc. by rewrite app_nil_r.
  - eexists _, _. split; [done|]. destruct I as [[[] ? ?] [] R].
    split; [split; [split; [split; done| |]; done|split; done|done]|]. by apply ext_rel_same.
Qed.

Lemma linv_run c os : forall t, cfg_ok c -> linv c t -> Forall (op_ok c) os ->
  exists rs t', run t os = Some (rs, t') /\ linv c t' /\ ext_rel c t t' (concat (result_samples <$> rs)).
Proof.
  induction os as [|o os IH]; intros t Hc I H; cbn [run]; [eauto 6 using ext_rel_refl|].
  apply Forall_cons in H as [Ho H].
  destruct (linv_step c t o Hc I Ho) as (r & t1 & -> & I1 & X1).
  destruct (IH t1 Hc I1 H) as (rs & t2 & -> & I2 & X2). eexists _, _. split; [done|].
  split; [done|]. cbn. by eapply ext_rel_trans.
Qed.

Lemma new_table_linv c : cfg_ok c -> linv c (new_table c).
Proof. intros H. split; [by apply new_table_inv|apply new_table_lag|apply removed_at_nil]. Qed.

(** Every history from a new table. *)
Lemma linv_history c os rs t : cfg_ok c -> Forall (op_ok c) os ->
  run (new_table c) os = Some (rs, t) ->
  linv c t /\ Forall2 (sample_rel c) (concat (result_samples <$> rs)) (sample_points (t_log t)).
Proof.
  intros Hc Ho E. destruct (linv_run c os (new_table c) Hc (new_table_linv c Hc) Ho)
    as (rs' & t' & E' & I & (pts & Ep & F)).
  assert (rs' = rs /\ t' = t) as [-> ->] by (split; congruence). split; [done|].
  rewrite Ep. done.
Qed.

End WithFP.
