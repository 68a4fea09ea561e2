(** C04: the limiters that can be built from Python never block inserts and
    samples at the same time. *)
From Verif Require Import Base RateLimiter Selector Trajectory Table EventLog TableProofs TableLog
  SelSpec PropSelectors TableSpec LogFacts PropTable PyConfig.

(** The limiter parameters a Python program can end up with. *)
Definition py_limiter (l : lparams) : Prop :=
  (exists n, py_min_size n = Some l) \/
  (exists spi n eb, py_ratio spi n eb = Some l) \/
  (exists n, 1 <= n /\ l = py_queue n) \/ (exists n, 1 <= n /\ l = py_stack n).
(** The configurations of Table(...) in Python. *)
Definition py_config (c : tcfg) : Prop :=
  exists sampler remover max_size l max_times, py_limiter l /\
    py_table sampler remover max_size l max_times = Some c.

Lemma py_limiter_gap l (i s : Z) : py_limiter l ->
  (lp_max_diff l < inject_Z (i + 1) * lp_spi l - inject_Z s)%Q ->
  (lp_min_diff l <= inject_Z i * lp_spi l - inject_Z (s + 1))%Q.
Proof.
  intros H Hi. rewrite inject_Z_plus in Hi. rewrite inject_Z_plus. change (inject_Z 1) with 1%Q in *.
  destruct H as [[n H]|[(spi & n & eb & H)|H]].
  - unfold py_min_size in H. destruct (n <? 1); [done|]. injection H as <-. cbn [lp_spi lp_min_diff lp_max_diff] in *.
    assert (1 <= float_max)%Q by (vm_compute; discriminate). lra.
  - unfold py_ratio in H. destruct (match eb with EBNum b => _ | EBRange lo hi => _ end) as [lo hi].
    destruct (Qle_bool (2 * _) (hi - lo)) eqn:Hgap; [|done]. apply Qle_bool_iff in Hgap.
    destruct (Qle_bool lo _); [|done]. destruct (n <? 1); [done|]. cbn in H. injection H as <-.
    cbn [lp_spi lp_min_diff lp_max_diff] in *.
    destruct (Qle_bool spi 1) eqn:H1.
    + apply Qle_bool_iff in H1. lra.
    + assert (1 < spi)%Q by (apply Qnot_le_lt; intros Hc; apply Qle_bool_iff in Hc; congruence). lra.
  - assert (exists n, 1 <= n /\ l = mkLP 1 1 0 (inject_Z n)) as (n & Hn & ->) by (destruct H as [(n & ? & ->)|(n & ? & ->)]; eauto).
    cbn [lp_spi lp_min_diff lp_max_diff] in *.
    assert (Hz : (inject_Z n < inject_Z (i + 1 - s))%Q) by (unfold Zminus; rewrite !inject_Z_plus, inject_Z_opp; change (inject_Z 1) with 1%Q; lra).
    rewrite <- Zlt_Qlt in Hz.
    assert (Hq : (inject_Z 0 <= inject_Z (i - s - 1))%Q) by (rewrite <- Zle_Qle; lia).
    unfold Zminus in Hq. rewrite !inject_Z_plus, !inject_Z_opp in Hq. change (inject_Z 1) with 1%Q in Hq.
    change (inject_Z 0) with 0%Q in Hq. lra.
Qed.

Section WithFP.
Context {fp : FP} {laws : FPLaws fp}.

Lemma py_config_fields c : py_config c -> exists l, py_limiter l /\
  c_spi c = lp_spi l /\ c_min_size c = lp_min_size l /\ c_min_diff c = lp_min_diff l /\ c_max_diff c = lp_max_diff l.
Proof.
  intros (sa & re & m & l & mt & Hl & E). unfold py_table in E. destruct (m <=? 0); [done|].
  injection E as <-. by exists l.
Qed.

Lemma py_progress c t : py_config c -> linv c t ->
  can_insert (t_limiter t) 1 = true \/ can_sample (t_limiter t) 1 = true.
Proof.
  intros Hp LI. destruct (can_insert (t_limiter t) 1) eqn:Ei; [by left|right].
  pose proof (py_config_fields c Hp) as (l & Hl & E1 & E2 & E3 & E4).
  pose proof (can_insert_no _ _ LI Ei) as Hn. apply (can_sample_iff c t LI).
  unfold insert_allowed in Hn. apply Decidable.not_or in Hn as [Hs Hd]. apply Qnot_le_lt in Hd.
  split; [lia|]. rewrite E1, E4 in Hd. rewrite E1, E3. by apply py_limiter_gap.
Qed.

(** ** C04 *)

(** In no state do an insert and a sample both have to wait. *)
Theorem C04_no_deadlock c os rs t now d it b ds : py_config c -> reached c os rs t ->
  ~ ((exists t1, step t (OInsert now d it) = Some (RBlocked, t1)) /\
     (exists t2, step t (OSample b ds) = Some (RBlocked, t2))).
Proof.
  intros Hp H [[t1 E1] [t2 E2]]. pose proof (reached_linv _ _ _ _ H) as LI.
  assert (Hi : can_insert (t_limiter t) 1 = false).
  { cbn [step] in E1. unfold insert_or_assign, insert_resume, await_can_insert in E1.
    destruct (negb _); [done|].
    destruct (t_data t !! it_key it). { by destruct (update_item t _ _). }
    destruct (l_cancelled _); [done|]. destruct (can_insert _ 1); [|done].
    destruct (insert_new _ _ _ _) as [[]|]; done. }
  assert (Hs : can_sample (t_limiter t) 1 = false).
  { cbn [step] in E2. unfold sample_batch, maybe_commit_sample, sample_run in E2.
    destruct (can_sample _ 1); [|done]. destruct (sample_loop _ _ _ _) as [[[]]|]; done. }
  destruct (py_progress c t Hp LI); congruence.
Qed.

Lemma reached_snoc c os rs t o r t' : reached c os rs t -> op_ok c o -> step t o = Some (r, t') ->
  reached c (os ++ [o]) (rs ++ [r]) t'.
Proof.
  intros [Hc Ho Hr] Hok E. split; [done|apply Forall_app; by repeat constructor|].
  rewrite run_app, Hr. cbn [run]. by rewrite E.
Qed.

Lemma can_insert_not_blocked t now d it t' : can_insert (t_limiter t) 1 = true ->
  step t (OInsert now d it) <> Some (RBlocked, t').
Proof.
  intros Hi E. cbn [step] in E. unfold insert_or_assign, insert_resume, await_can_insert in E.
  destruct (negb _); [done|]. destruct (t_data t !! it_key it). { by destruct (update_item t _ _). }
  rewrite Hi in E. destruct (l_cancelled _); [done|].
  destruct (insert_new _ _ _ _) as [[]|]; done.
Qed.
Lemma can_sample_not_blocked t b ds t' : can_sample (t_limiter t) 1 = true ->
  step t (OSample b ds) <> Some (RBlocked, t').
Proof.
  intros Hs E. cbn [step] in E. unfold sample_batch, maybe_commit_sample, sample_run in E.
  rewrite Hs in E. destruct (sample_loop _ _ _ _) as [[[]]|]; done.
Qed.

(** A blocked insert is unblocked by finitely many samples, none of which has to
    wait. *)
Theorem C04_insert_unblocked c os rs t ds : py_config c -> reached c os rs t -> (forall i, draw_ok (ds i)) ->
  exists n rs' t', run t (singles ds n) = Some (rs', t') /\
    Forall (fun r => exists sm, r = RSamples Ok [sm]) rs' /\
    forall now d it t2, step t' (OInsert now d it) <> Some (RBlocked, t2).
Proof.
  intros Hp H Hd. pose proof (reached_linv _ _ _ _ H) as LI. pose proof (re_cfg _ _ _ _ H) as Hc. clear H.
  assert (exists m : nat, (inject_Z (n_ins (t_log t) + 1) * c_spi c - inject_Z (n_samp (t_log t)) - c_max_diff c <= inject_Z (Z.of_nat m))%Q) as [m Hm].
  { set (x := (_ - c_max_diff c)%Q). exists (Z.to_nat (Qceiling x)). pose proof (Qle_ceiling x).
    assert (inject_Z (Qceiling x) <= inject_Z (Z.of_nat (Z.to_nat (Qceiling x))))%Q by (rewrite <- Zle_Qle; lia). lra. }
  revert t ds LI Hd Hm. induction m as [|m IH]; intros t ds LI Hd Hm.
  - exists 0%nat, [], t. split; [done|]. split; [done|]. intros now d it t2.
    apply can_insert_not_blocked. apply (can_insert_iff c t LI). right. change (inject_Z (Z.of_nat 0)) with 0%Q in Hm. lra.
  - destruct (can_insert (t_limiter t) 1) eqn:Ei.
    { exists 0%nat, [], t. split; [done|]. split; [done|]. intros now d it t2. by apply can_insert_not_blocked. }
    destruct (py_progress c t Hp LI) as [?|Hs]; [congruence|].
    destruct (spec_sample_one c t (ds 0%nat) false LI Hs Hc (Hd _)) as (sm & t1 & evs & E1 & LI1 & Lg & S1 & _).
    pose proof (single_step _ _ _ _ Hs E1) as Hfirst.
    destruct (IH t1 (fun i => ds (S i)) LI1 (fun i => Hd (S i))) as (n & rs' & t' & Hr & Hf & Hfin).
    { rewrite Lg. destruct S1 as (_ & _ & _ & _ & _ & _ & ->).
      assert (Hcnt : forall l it, n_ins (l ++ EvSample it :: (if it_times it =? c_max_times c then [EvDelete it] else [])) = n_ins l /\
        n_samp (l ++ EvSample it :: (if it_times it =? c_max_times c then [EvDelete it] else [])) = n_samp l + 1).
      { intros l it. unfold n_ins, n_samp. rewrite !fold_left_app. destruct (it_times it =? _); split; reflexivity. }
      destruct (Hcnt (t_log t) (sm_item sm)) as [-> ->].
      rewrite (inject_Z_plus (n_samp _)). rewrite Nat2Z.inj_succ in Hm. unfold Z.succ in Hm. rewrite (inject_Z_plus (Z.of_nat m)) in Hm.
      change (inject_Z 1) with 1%Q in *. lra. }
    exists (S n), (RSamples Ok [sm] :: rs'), t'. split; [|split; [constructor; eauto|done]].
    unfold singles. cbn [seq fmap list_fmap run]. rewrite Hfirst.
    assert (Eq : singles (fun i => ds (S i)) n = single <$> (ds <$> seq 1 n)).
    { unfold singles. rewrite <- fmap_S_seq, <- !list_fmap_compose. done. }
    unfold singles in Eq, Hr. rewrite Eq in Hr. by rewrite Hr.
Qed.

(** A blocked sample is unblocked by finitely many inserts of new items, none of
    which has to wait, if the ratio is positive and the table is large enough for
    min_size_to_sample. *)
Definition inserts (now : Z * Z) (d : draw) (its : nat -> item) (n : nat) : list op :=
  (fun i => OInsert now d (its i)) <$> seq 0 n.

Theorem C04_sample_unblocked c os rs t now d its : py_config c -> reached c os rs t ->
  l_cancelled (t_limiter t) = false -> (0 < c_spi c)%Q -> c_min_size c <= c_max_size c ->
  draw_ok d ->
  (forall i, prio_ok c (it_prio (its i)) /\ check_item_validity (its i) = Ok /\ t_data t !! it_key (its i) = None) ->
  (forall i j, it_key (its i) = it_key (its j) -> i = j) ->
  exists n rs' t', run t (inserts now d its n) = Some (rs', t') /\
    Forall (fun r => r = RStatus Ok) rs' /\
    forall b ds t2, step t' (OSample b ds) <> Some (RBlocked, t2).
Proof.
  intros Hp H Hcl Hspi Hsz Hd Hits Hinj.
  pose proof (reached_linv _ _ _ _ H) as LI. pose proof (re_cfg _ _ _ _ H) as Hc. clear H.
  assert (exists m : nat, c_min_size c <= Z.of_nat (size (replay (t_log t))) + Z.of_nat m /\
    (c_min_diff c <= inject_Z (n_ins (t_log t) + Z.of_nat m) * c_spi c - inject_Z (n_samp (t_log t) + 1))%Q) as [m Hm].
  { set (x := ((c_min_diff c + inject_Z (n_samp (t_log t) + 1)) / c_spi c)%Q).
    exists (Z.to_nat (Z.max (c_min_size c) (Qceiling x - n_ins (t_log t)))).
    split; [lia|]. pose proof (Qle_ceiling x) as Hx.
    set (z := n_ins (t_log t) + _). assert (Hz : (inject_Z (Qceiling x) <= inject_Z z)%Q) by (rewrite <- Zle_Qle; lia).
    assert (Hxz : (x <= inject_Z z)%Q) by lra.
    assert (Hmul : (x * c_spi c <= inject_Z z * c_spi c)%Q) by (apply Qmult_le_compat_r; lra).
    unfold x in Hmul. rewrite (Qmult_comm (_ / _)), Qmult_div_r in Hmul by lra. lra. }
  revert t its LI Hcl Hits Hinj Hm. induction m as [|m IH]; intros t its LI Hcl Hits Hinj [Hm1 Hm2].
  - exists 0%nat, [], t. split; [done|]. split; [done|]. intros b ds t2.
    apply can_sample_not_blocked. apply (can_sample_iff c t LI). split; [lia|]. by rewrite Z.add_0_r in Hm2.
  - destruct (can_sample (t_limiter t) 1) eqn:Es.
    { exists 0%nat, [], t. split; [done|]. split; [done|]. intros b ds t2. by apply can_sample_not_blocked. }
    destruct (py_progress c t Hp LI) as [Hi|?]; [|congruence].
    destruct (Hits 0%nat) as (Hp0 & Hv0 & Hn0).
    destruct (spec_step c t (OInsert now d (its 0%nat)) Hc LI) as (r & t1 & evs & E & LI1 & Lg & Hcall & Hcl1); [done|].
    pose proof (la_data _ _ _ _ (li_lag _ _ LI)) as D. pose proof (la_data _ _ _ _ (li_lag _ _ LI1)) as D1.
    apply (can_insert_iff c t LI) in Hi.
    assert (r = RStatus Ok /\ new_item_spec c (t_log t) d (it_with_at (its 0%nat) now) evs) as [-> Hnew].
    { cbn in Hcall. destruct Hcall as [(Hne & _)|[(_ & (old & Ho & _) & _)|(_ & _ & Hw)]]; [done|rewrite D in Ho; congruence|].
      destruct Hw as [(Hx & _)|[(_ & Hx & _)|(_ & _ & -> & [(old & Ho & _)|[_ Hnew]])]]; [congruence|done|rewrite D in Ho; congruence|done]. }
    assert (Heff : n_ins (t_log t ++ evs) = n_ins (t_log t) + 1 /\ n_samp (t_log t ++ evs) = n_samp (t_log t) /\
      (Z.of_nat (size (replay (t_log t ++ evs))) = Z.of_nat (size (replay (t_log t))) + 1 \/
       Z.of_nat (size (replay (t_log t ++ evs))) = c_max_size c) /\
      forall k, k <> it_key (its 0%nat) -> replay (t_log t) !! k = None -> replay (t_log t ++ evs) !! k = None).
    { destruct Hnew as [[Hs ->]|(Hs & v & q & Hv & Hin & ->)].
      - rewrite n_ins_snoc, n_samp_snoc, replay_snoc. cbn [replay_ev n_ins_ev n_samp_ev].
        split; [done|]. split; [done|]. split.
        + left. rewrite map_size_insert_None by (cbn; by rewrite D). lia.
        + intros k Hk HN. rewrite lookup_insert_ne; [done|]. cbn. congruence.
      - change [EvInsert (it_with_at (its 0%nat) now); EvDelete v] with ([EvInsert (it_with_at (its 0%nat) now)] ++ [EvDelete v]).
        rewrite app_assoc, !n_ins_snoc, !n_samp_snoc, (replay_snoc _ (EvDelete v)). cbn [n_ins_ev n_samp_ev replay_ev].
        split; [done|]. split; [done|]. split.
        + right. rewrite map_size_delete_Some by eauto. rewrite replay_snoc. cbn [replay_ev].
          rewrite map_size_insert_None by (cbn; by rewrite D). lia.
        + intros k Hk HN. apply lookup_delete_None. right. rewrite replay_snoc. cbn [replay_ev].
          rewrite lookup_insert_ne; [done|]. cbn. congruence. }
    rewrite <- Lg in Heff. destruct Heff as (H1 & H2 & H3 & H4).
    destruct (IH t1 (fun i => its (S i))) as (n & rs' & t' & Hr & Hf & Hfin).
    { done. }
    { rewrite Hcl1, Hcl. done. }
    { intros i. destruct (Hits (S i)) as (? & ? & Hn). split; [done|]. split; [done|].
      rewrite <- D1. apply H4; [|by rewrite D]. intros Hk. by apply Hinj in Hk. }
    { intros i j Hk. apply Hinj in Hk. congruence. }
    { rewrite H1, H2. split; [lia|]. replace (n_ins (t_log t) + 1 + Z.of_nat m) with (n_ins (t_log t) + Z.of_nat (S m)) by lia. done. }
    exists (S n), (RStatus Ok :: rs'), t'. split; [|split; [constructor; eauto|done]].
    unfold inserts in *. cbn [seq fmap list_fmap run]. rewrite E.
    assert (Eq : (fun i => OInsert now d (its (S i))) <$> seq 0 n = (fun i => OInsert now d (its i)) <$> seq 1 n).
    { rewrite <- fmap_S_seq, <- list_fmap_compose. done. }
    rewrite <- Eq. rewrite Hr. done.
Qed.

(** The condition on the sizes is needed and not checked anywhere: such a table
    never returns a sample. *)
Theorem C04_table_too_small c os rs t : reached c os rs t -> c_max_size c < c_min_size c ->
  all_samples rs = [].
Proof.
  intros H Hlt. pose proof (C05_samples_logged c os rs t H) as [E _].
  destruct (all_samples rs) as [|sm l]; [done|exfalso].
  assert (Hin : exists it, EvSample it ∈ t_log t).
  { cbn in E. assert (Hi : sm_item sm ∈ concat (ev_sampled <$> t_log t)) by (rewrite <- E; left).
    apply elem_of_list_In, in_concat in Hi as (x & Hx & Hy). apply elem_of_list_In, elem_of_list_fmap in Hx as (e & -> & He).
    destruct e; cbn in Hy; try done. eauto. }
  destruct Hin as [it Hin]. apply elem_of_list_split in Hin as (pre & post & Ep).
  destruct (C03_sample_window c os rs t pre it post H Ep) as [Hs _].
  apply reached_linv in H as [_ L _].
  destruct (decide (c_max_size c < Z.of_nat (size (replay pre)))) as [Hb|]; [|lia].
  by destruct (la_evict _ _ _ _ L _ _ _ Ep Hb) as (? & ? & ? & ? & _).
Qed.

End WithFP.

(** ** Examples *)

Local Existing Instance fp_exact.
Local Existing Instance fp_exact_laws.
Local Existing Instance fp_exact_exact.

(** A ratio limiter that is accepted, and one that is too narrow. *)
Example C04_accepts : py_ratio 2 1 (EBNum 2) = Some (mkLP 2 1 0 4) /\ py_ratio 2 1 (EBNum (19 # 10)) = None /\
  py_ratio 2 1 (EBRange 3 9) = None.
Proof. by vm_compute. Qed.

Definition ex_ratio_cfg : tcfg := mkCfg 5 0 KFifo KFifo 2 1 0 4.
(** Two inserts: the third is blocked.  Then samples until they are blocked. *)
Definition ex_ratio_hist : list op :=
  [OInsert (1, 0) d0 (mk_item 1 5 7 0); OInsert (2, 0) d0 (mk_item 2 5 7 0); OInsert (3, 0) d0 (mk_item 3 5 7 0);
   OSample 9 ds0; OSample 1 ds0].
Example C04_example :
  py_config ex_ratio_cfg /\
  (let r := final ex_ratio_cfg ex_ratio_hist in reached ex_ratio_cfg ex_ratio_hist r.1 r.2 /\
     r.1 !! 2%nat = Some RBlocked /\ (length ∘ result_samples <$> r.1) !! 3%nat = Some 4%nat /\ r.1 !! 4%nat = Some RBlocked).
Proof.
  split.
  - exists KFifo, KFifo, 5, (mkLP 2 1 0 4), 0. split; [|done]. right. left. by exists 2%Q, 1, (EBNum 2).
  - split. { split; [by repeat constructor|ops_ok|by vm_compute]. }
    split; [by vm_compute|]. split; by vm_compute.
Qed.

Print Assumptions C04_no_deadlock.
Print Assumptions C04_insert_unblocked.
Print Assumptions C04_sample_unblocked.
Print Assumptions C04_table_too_small.
