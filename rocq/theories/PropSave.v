(** Property C19: a crash during Save loses no checkpoint. *)
From stdpp Require Import sorting.
From Verif Require Import Base RateLimiter Selector Trajectory Table Checkpoint CkptDir EventLog TableProofs TableLog
  SelSpec TableSpec LogFacts PropTable CheckpointProofs PropCheckpoint.

(** ** Specification *)

(** [n] is the newest complete checkpoint. *)
Definition is_latest (fs : fsys) (n : Z) (d : dir) : Prop :=
  fs !! n = Some d /\ d_done d = true /\
  forall n' d', fs !! n' = Some d' -> d_done d' = true -> n' <= n.

Lemma names_desc_elem fs n : n ∈ names_desc fs <-> is_Some (fs !! n).
Proof.
  unfold names_desc. rewrite elem_of_reverse, merge_sort_Permutation, elem_of_list_fmap. split.
  - intros ([k d] & -> & H). apply elem_of_map_to_list in H. cbn. eauto.
  - intros [d H]. exists (n, d). split; [done|]. by apply elem_of_map_to_list.
Qed.
Lemma names_desc_sorted fs : StronglySorted Z.ge (names_desc fs).
Proof.
  unfold names_desc. pose proof (StronglySorted_merge_sort Z.le (map_to_list fs).*1) as H.
  induction H as [|x l H IH F]; [constructor|]. rewrite reverse_cons.
  clear - IH F. assert (F' : Forall (fun y => x <= y) (reverse l)) by (by rewrite reverse_Permutation).
  revert IH F'. generalize (reverse l). intros r IH F'. induction IH as [|y r IH' IH2 F2]; cbn.
  - repeat constructor.
  - apply Forall_cons in F' as [Hy F']. constructor; [by apply IH2|]. apply Forall_app. split; [done|].
    repeat constructor. lia.
Qed.
Lemma names_desc_nodup fs : NoDup (names_desc fs).
Proof. unfold names_desc. rewrite reverse_Permutation, merge_sort_Permutation. apply NoDup_fst_map_to_list. Qed.

Lemma first_done_spec fs ns n d : StronglySorted Z.ge ns -> first_done fs ns = Some (n, d) <->
  n ∈ ns /\ fs !! n = Some d /\ d_done d = true /\
  forall n' d', n' ∈ ns -> fs !! n' = Some d' -> d_done d' = true -> n' <= n.
Proof.
  induction 1 as [|x ns Hs IH F]; cbn.
  - split; [done|]. intros [H _]. by apply elem_of_nil in H.
  - rewrite Forall_forall in F. destruct (fs !! x) as [dx|] eqn:Ex; [destruct (d_done dx) eqn:Ed|].
    + split.
      * intros [= <- <-]. split; [left|]. split; [done|]. split; [done|].
        intros n' d' H _ _. apply elem_of_cons in H as [->|H]; [lia|]. apply F in H. lia.
      * intros (Hin & Hn & Hd & Hmax). apply elem_of_cons in Hin as [->|Hin]; [congruence|].
        pose proof (Hmax x dx (elem_of_list_here _ _) Ex Ed) as H1. apply F in Hin as H2.
        assert (n = x) as -> by lia. congruence.
    + rewrite IH. split; intros (Hin & Hn & Hd & Hmax).
      * split; [by right|]. split; [done|]. split; [done|]. intros n' d' H Hn' Hd'.
        apply elem_of_cons in H as [->|H]; [congruence|]. by eapply Hmax.
      * apply elem_of_cons in Hin as [->|Hin]; [congruence|]. split; [done|]. split; [done|]. split; [done|].
        intros n' d' H. apply Hmax. by right.
    + rewrite IH. split; intros (Hin & Hn & Hd & Hmax).
      * split; [by right|]. split; [done|]. split; [done|]. intros n' d' H Hn' Hd'.
        apply elem_of_cons in H as [->|H]; [congruence|]. by eapply Hmax.
      * apply elem_of_cons in Hin as [->|Hin]; [congruence|]. split; [done|]. split; [done|]. split; [done|].
        intros n' d' H. apply Hmax. by right.
Qed.

(** LoadLatest loads the newest complete checkpoint. *)
Theorem C19_latest fs n d : latest fs = Some (n, d) <-> is_latest fs n d.
Proof.
  unfold latest, is_latest. rewrite first_done_spec by apply names_desc_sorted. split.
  - intros (_ & H1 & H2 & H3). split; [done|]. split; [done|]. intros n' d' Hn. apply (H3 n' d'); [|done].
    apply names_desc_elem. eauto.
  - intros (H1 & H2 & H3). split; [apply names_desc_elem; eauto|]. split; [done|]. split; [done|].
    intros n' d' _. apply H3.
Qed.

(** ** The phases of Save *)

Lemma prefix_snoc {A} (l a : list A) x : l `prefix_of` a ++ [x] -> l `prefix_of` a \/ l = a ++ [x].
Proof.
  intros [r H]. destruct r as [|y r _] using rev_ind; [right; by rewrite app_nil_r in H|].
  rewrite app_assoc in H. apply app_inj_tail in H as [H _]. left. by exists r.
Qed.

Lemma fs_run_app fs a b : fs_run fs (a ++ b) = fs_run (fs_run fs a) b.
Proof. apply fold_left_app. Qed.

(** While the new directory is being written: everything else is as it was, and
    the new directory has no DONE. *)
Definition writing (n : Z) (fs fs' : fsys) : Prop :=
  (forall m, m <> n -> fs' !! m = fs !! m) /\ forall d, fs' !! n = Some d -> d_done d = false.
Definition write_op (n : Z) (o : fsop) : Prop := o = FMkdir n \/ table_write n o \/ chunk_write n o.

Lemma writing_op n fs fs' o : writing n fs fs' -> write_op n o -> writing n fs (fs_op fs' o).
Proof.
  intros [H1 H2] [->|[Ho|Ho]].
  - cbn [fs_op]. destruct (fs' !! n) as [d|] eqn:E; [by split; [|rewrite E]|]. split.
    + intros m Hm. rewrite lookup_insert_ne by done. auto.
    + intros d. rewrite lookup_insert. by intros [= <-].
  - destruct o; try done. cbn in Ho. subst n0. cbn. split.
    + intros m Hm. rewrite lookup_alter_ne by done. auto.
    + intros d. rewrite lookup_alter. destruct (fs' !! n) as [d'|] eqn:E; [|done]. cbn. intros [= <-]. cbn. by apply (H2 d').
  - destruct o; try done. cbn in Ho. subst n0. cbn. split.
    + intros m Hm. rewrite lookup_alter_ne by done. auto.
    + intros d. rewrite lookup_alter. destruct (fs' !! n) as [d'|] eqn:E; [|done]. cbn. intros [= <-]. cbn. by apply (H2 d').
Qed.
Lemma writing_run n fs os : forall fs', writing n fs fs' -> Forall (write_op n) os -> writing n fs (fs_run fs' os).
Proof.
  induction os as [|o os IH]; intros fs' H Ho; [done|]. apply Forall_cons in Ho as [Ho Hos]. cbn. apply IH; [|done].
  by apply writing_op.
Qed.
Lemma writing_latest n fs fs' : fs !! n = None -> writing n fs fs' -> latest fs' = latest fs.
Proof.
  intros Hn [H1 H2].
  assert (E : forall m d, is_latest fs' m d <-> is_latest fs m d).
  { intros m d. unfold is_latest.
    assert (Hl : forall m d, (fs' !! m = Some d /\ d_done d = true) <-> (fs !! m = Some d /\ d_done d = true)).
    { intros a b. destruct (decide (a = n)) as [->|Hne]; [|by rewrite H1]. rewrite Hn.
      split; [|by intros [? _]]. intros [Hb Hd]. apply H2 in Hb. congruence. }
    split; intros (A & B & C).
    - destruct (proj1 (Hl m d) (conj A B)) as [A' B']. split; [done|]. split; [done|].
      intros n' d' Hn' Hd'. destruct (proj2 (Hl n' d') (conj Hn' Hd')). eauto.
    - destruct (proj2 (Hl m d) (conj A B)) as [A' B']. split; [done|]. split; [done|].
      intros n' d' Hn' Hd'. destruct (proj1 (Hl n' d') (conj Hn' Hd')). eauto. }
  destruct (latest fs) as [[m d]|] eqn:L.
  - apply C19_latest, E. by apply C19_latest.
  - destruct (latest fs') as [[m d]|] eqn:L'; [|done]. apply C19_latest, E, C19_latest in L'. congruence.
Qed.

(** The contents of the new directory when DONE is written. *)
Lemma table_writes n os : forall fs d, Forall (table_write n) os -> fs !! n = Some d ->
  exists d', fs_run fs os !! n = Some d' /\ d_chunks d' = d_chunks d /\ d_done d' = d_done d.
Proof.
  induction os as [|o os IH]; intros fs d Ho Hd; [eauto|]. apply Forall_cons in Ho as [Ho Hos].
  destruct o as [|n' l| | | | | |]; try done. cbn in Ho. subst n'. cbn.
  destruct (IH (fs_op fs (FTables n l)) (mkDir (Some l) (d_chunks d) (d_done d)) Hos) as (d' & H & H1 & H2).
  { cbn. by rewrite lookup_alter, Hd. }
  eauto.
Qed.
Lemma chunk_writes n os : forall fs d, Forall (chunk_write n) os -> fs !! n = Some d ->
  exists d', fs_run fs os !! n = Some d' /\ d_tables d' = d_tables d /\ d_done d' = d_done d.
Proof.
  induction os as [|o os IH]; intros fs d Ho Hd; [eauto|]. apply Forall_cons in Ho as [Ho Hos].
  destruct o as [| |n' l| | | | |]; try done. cbn in Ho. subst n'. cbn.
  destruct (IH (fs_op fs (FChunks n l)) (mkDir (d_tables d) (Some l) (d_done d)) Hos) as (d' & H & H1 & H2).
  { cbn. by rewrite lookup_alter, Hd. }
  eauto.
Qed.

Definition full (ks : list tckpt) (cs : list chunk) : dir := mkDir (Some ks) (Some cs) true.
Definition writes (n : Z) (tw cw : list fsop) ks cs : list fsop :=
  FMkdir n :: tw ++ [FTables n ks] ++ cw ++ [FChunks n cs].

Lemma writes_ok n tw cw ks cs : Forall (table_write n) tw -> Forall (chunk_write n) cw ->
  Forall (write_op n) (writes n tw cw ks cs).
Proof.
  intros H1 H2. unfold writes, write_op. rewrite !Forall_cons, !Forall_app, !Forall_singleton.
  split; [auto|]. split; [eapply Forall_impl; [exact H1|auto]|]. split; [right; left; done|].
  split; [eapply Forall_impl; [exact H2|auto]|]. right; right; done.
Qed.

Lemma written fs n tw cw ks cs : fs !! n = None -> Forall (table_write n) tw -> Forall (chunk_write n) cw ->
  let fs' := fs_run fs (writes n tw cw ks cs ++ [FDone n]) in
  fs' !! n = Some (full ks cs) /\ forall m, m <> n -> fs' !! m = fs !! m.
Proof.
  intros Hn Ht Hc fs'.
  assert (W : writing n fs (fs_run fs (writes n tw cw ks cs))).
  { apply writing_run; [|by apply writes_ok]. split; [done|]. intros d. by rewrite Hn. }
  assert (E : exists d, fs_run fs (writes n tw cw ks cs) !! n = Some d /\ d_tables d = Some ks /\ d_chunks d = Some cs).
  { unfold writes. change (FMkdir n :: ?x) with ([FMkdir n] ++ x). rewrite !fs_run_app.
    set (fs0 := fs_run fs [FMkdir n]).
    assert (H0 : fs0 !! n = Some (mkDir None None false)) by (unfold fs0; cbn; rewrite Hn; apply lookup_insert).
    destruct (table_writes n tw fs0 _ Ht H0) as (d1 & H1 & _).
    set (fs1 := fs_run fs0 tw) in *. set (fs2 := fs_run fs1 [FTables n ks]).
    assert (H2 : fs2 !! n = Some (mkDir (Some ks) (d_chunks d1) (d_done d1))) by (unfold fs2; cbn; by rewrite lookup_alter, H1).
    destruct (chunk_writes n cw fs2 _ Hc H2) as (d3 & H3 & H4 & _). cbn in H4.
    set (fs3 := fs_run fs2 cw) in *. cbn. rewrite lookup_alter, H3. cbn. eauto. }
  destruct E as (d & E1 & E2 & E3). unfold fs'. rewrite fs_run_app.
  change (fs_run ?f [?o]) with (fs_op f o). cbn [fs_op]. split.
  - rewrite lookup_alter, E1. cbn. rewrite E2, E3. done.
  - intros m Hm. rewrite lookup_alter_ne by done. by apply W.
Qed.

(** Deleting other directories. *)
Definition other_op (n : Z) (o : fsop) : Prop :=
  match o with FUnlinkTables m | FUnlinkChunks m | FUnlinkDone m | FRmdir m => m <> n | _ => False end.
Definition newest (n : Z) (d : dir) (fs : fsys) : Prop := fs !! n = Some d /\ forall m, is_Some (fs !! m) -> m <= n.

Lemma newest_op n d fs o : newest n d fs -> other_op n o -> newest n d (fs_op fs o).
Proof.
  intros [H1 H2] Ho.
  assert (Ha : forall f m, m <> n -> newest n d (alter f m fs)).
  { intros f m Hm. split; [by rewrite lookup_alter_ne|]. intros x. rewrite lookup_alter_is_Some. apply H2. }
  destruct o; try done; cbn in *; auto. split; [by rewrite lookup_delete_ne|]. intros m.
  rewrite lookup_delete_is_Some. intros [_ H]. auto.
Qed.
Lemma newest_run n d os : forall fs, newest n d fs -> Forall (other_op n) os -> newest n d (fs_run fs os).
Proof.
  induction os as [|o os IH]; intros fs H Ho; [done|]. apply Forall_cons in Ho as [Ho Hos]. cbn. apply IH; [|done].
  by apply newest_op.
Qed.
Lemma newest_latest n d fs : d_done d = true -> newest n d fs -> latest fs = Some (n, d).
Proof. intros Hd [H1 H2]. apply C19_latest. split; [done|]. split; [done|]. intros m d' Hm _. apply H2. eauto. Qed.

Lemma victims_other fs n keep : (forall m, is_Some (fs !! m) -> m < n) -> 1 <= keep ->
  n ∉ drop (Z.to_nat keep) (names_desc (fs_op fs (FMkdir n))).
Proof.
  intros Hn Hk. assert (E : fs !! n = None) by (apply eq_None_not_Some; intros H; apply Hn in H; lia).
  cbn. rewrite E. set (fs1 := <[n := mkDir None None false]> fs).
  pose proof (names_desc_sorted fs1) as Hs. pose proof (names_desc_nodup fs1) as Hd.
  assert (Hin : n ∈ names_desc fs1) by (apply names_desc_elem; unfold fs1; rewrite lookup_insert; eauto).
  assert (Hmax : forall m, m ∈ names_desc fs1 -> m <= n).
  { intros m Hm. apply names_desc_elem in Hm. unfold fs1 in Hm. destruct (decide (m = n)) as [->|]; [lia|].
    rewrite lookup_insert_ne in Hm by done. apply Hn in Hm. lia. }
  destruct (names_desc fs1) as [|a l]; [by apply elem_of_nil in Hin|].
  assert (a = n) as ->.
  { apply StronglySorted_inv in Hs as [_ F]. rewrite Forall_forall in F. apply elem_of_cons in Hin as [->|Hin]; [done|].
    apply F in Hin. pose proof (Hmax a (elem_of_list_here _ _)). lia. }
  apply NoDup_cons in Hd as [Hd _]. replace (Z.to_nat keep) with (S (Z.to_nat (keep - 1))) by lia. cbn.
  intros H. apply Hd. rewrite <- (take_drop (Z.to_nat (keep - 1)) l). apply elem_of_app. by right.
Qed.
Lemma removals_other n vs dels : n ∉ vs -> Forall2 removal vs dels -> Forall (other_op n) (concat dels).
Proof.
  intros Hn H. induction H as [|v os vs dels (us & Hu & ->) _ IH]; cbn; [constructor|].
  apply not_elem_of_cons in Hn as [Hne Hn]. rewrite !Forall_app. split; [|auto]. split.
  - eapply Forall_impl; [exact Hu|]. intros o Ho. destruct o; cbn in *; try done; congruence.
  - constructor; [|constructor]. cbn. congruence.
Qed.

Lemma not_done_write n o : write_op n o -> o <> FDone n.
Proof. intros [->|[H|H]] E; subst; done. Qed.

(** ** C19 *)

(** Save is cut off anywhere.  Until DONE is written the previous checkpoint is
    the one that is loaded, from then on the new one, and it is whole. *)
Theorem C19_crash_safe fs n keep ks cs os l : save_ops fs n keep ks cs os -> l `prefix_of` os ->
  (forall m, is_Some (fs !! m) -> m < n) -> 1 <= keep ->
  (FDone n ∉ l -> latest (fs_run fs l) = latest fs) /\
  (FDone n ∈ l -> latest (fs_run fs l) = Some (n, full ks cs)).
Proof.
  intros (tw & cw & dels & Ht & Hc & Hdel & ->) Hl Hn Hk.
  assert (E : fs !! n = None) by (apply eq_None_not_Some; intros H; apply Hn in H; lia).
  pose proof (writes_ok n tw cw ks cs Ht Hc) as Hw.
  assert (W0 : writing n fs fs) by (split; [done|]; intros d; by rewrite E).
  replace (FMkdir n :: tw ++ [FTables n ks] ++ cw ++ [FChunks n cs] ++ [FDone n] ++ concat dels)
    with ((writes n tw cw ks cs ++ [FDone n]) ++ concat dels) in Hl by (unfold writes; cbn; by rewrite <- !app_assoc; cbn; rewrite <- !app_assoc).
  split; [intros Hd|intros Hd]; [|].
  2: {
    assert (Hl2 : exists l', l = (writes n tw cw ks cs ++ [FDone n]) ++ l' /\ l' `prefix_of` concat dels).
    { destruct (prefix_weak_total l (writes n tw cw ks cs ++ [FDone n]) ((writes n tw cw ks cs ++ [FDone n]) ++ concat dels))
        as [Hp|[l' ->]]; [done|by apply prefix_app_r| |].
      - apply prefix_snoc in Hp as [Hp| ->]; [|exists []; split; [by rewrite app_nil_r|apply prefix_nil]].
        exfalso. destruct Hp as [x Hp]. assert (Hin : FDone n ∈ writes n tw cw ks cs) by (rewrite Hp; apply elem_of_app; by left).
        rewrite Forall_forall in Hw. apply Hw in Hin. by apply not_done_write in Hin.
      - exists l'. split; [done|]. by eapply prefix_app_inv. }
    destruct Hl2 as (l' & -> & Hl'). rewrite fs_run_app. apply newest_latest; [done|].
    destruct (written fs n tw cw ks cs E Ht Hc) as [W1 W2]. apply newest_run.
    + split; [done|]. intros m Hm. destruct (decide (m = n)) as [->|Hne]; [lia|]. rewrite W2 in Hm by done.
      apply Hn in Hm. lia.
    + pose proof (removals_other n _ _ (victims_other fs n keep Hn Hk) Hdel) as F. destruct Hl' as [x Hx].
      rewrite Hx in F. by apply Forall_app in F as [? _]. }
  -
    destruct (prefix_weak_total l (writes n tw cw ks cs ++ [FDone n]) ((writes n tw cw ks cs ++ [FDone n]) ++ concat dels))
        as [Hp|[l' ->]]; [done|by apply prefix_app_r| |].
    + apply prefix_snoc in Hp as [Hp| ->].
      * apply (writing_latest n); [done|]. apply writing_run; [done|]. destruct Hp as [x Hp]. rewrite Hp in Hw.
        by apply Forall_app in Hw as [? _].
      * exfalso. apply Hd. apply elem_of_app. right. left.
    + exfalso. apply Hd. apply elem_of_app. left. apply elem_of_app. right. left.
Qed.

(** A successful Save makes the new checkpoint the one that is loaded. *)
Theorem C19_saved fs n keep ks cs os : save_ops fs n keep ks cs os ->
  (forall m, is_Some (fs !! m) -> m < n) -> 1 <= keep -> latest (fs_run fs os) = Some (n, full ks cs).
Proof.
  intros H Hn Hk. apply (C19_crash_safe fs n keep ks cs os os H); [done|done|done|].
  destruct H as (tw & cw & dels & _ & _ & _ & ->).
  right. apply elem_of_app. right. apply elem_of_app. right. apply elem_of_app. right. apply elem_of_app. right.
  apply elem_of_app. left. left.
Qed.

(** Any number of calls of Save, each of them cut off anywhere, with names that
    increase.  [last] is the checkpoint of the last call that got as far as
    writing DONE. *)
Inductive save_history : fsys -> option (Z * dir) -> Prop :=
| sh_start : save_history ∅ None
| sh_lost fs last n keep ks cs os l : save_history fs last -> save_ops fs n keep ks cs os -> l `prefix_of` os ->
    (forall m, is_Some (fs !! m) -> m < n) -> 1 <= keep -> FDone n ∉ l -> save_history (fs_run fs l) last
| sh_done fs last n keep ks cs os l : save_history fs last -> save_ops fs n keep ks cs os -> l `prefix_of` os ->
    (forall m, is_Some (fs !! m) -> m < n) -> 1 <= keep -> FDone n ∈ l ->
    save_history (fs_run fs l) (Some (n, full ks cs)).

Theorem C19_history fs last : save_history fs last -> latest fs = last.
Proof.
  induction 1 as [|fs last n keep ks cs os l _ IH H Hl Hn Hk Hd|fs last n keep ks cs os l _ IH H Hl Hn Hk Hd]; [done| |].
  - rewrite <- IH. by apply (C19_crash_safe fs n keep ks cs os l).
  - by apply (C19_crash_safe fs n keep ks cs os l).
Qed.

(** What is left after a successful Save: the newest [keep] entries, unchanged. *)
Lemma removal_run n os fs : removal n os -> forall m, fs_run fs os !! m = if decide (m = n) then None else fs !! m.
Proof.
  intros (us & Hu & ->) m. rewrite fs_run_app. change (fs_run ?f [?o]) with (fs_op f o). cbn [fs_op]. case_decide as E.
  - subst m. apply lookup_delete.
  - rewrite lookup_delete_ne by done. clear -Hu E. revert fs. induction Hu as [|o us Ho _ IH]; intros fs; [done|].
    change (fs_run fs (o :: us)) with (fs_run (fs_op fs o) us). rewrite IH.
    destruct o; cbn in Ho; try done; subst; cbn [fs_op]; by rewrite lookup_alter_ne.
Qed.
Lemma removals_run vs dels : Forall2 removal vs dels -> forall fs m,
  fs_run fs (concat dels) !! m = if decide (m ∈ vs) then None else fs !! m.
Proof.
  induction 1 as [|v os vs dels Hv _ IH]; intros fs m; [done|]. cbn [concat]. rewrite fs_run_app, IH, (removal_run v os fs Hv).
  destruct (decide (m ∈ vs)) as [H1|H1], (decide (m = v)) as [H2|H2], (decide (m ∈ v :: vs)) as [H3|H3]; try done;
    exfalso; rewrite elem_of_cons in H3; tauto.
Qed.
Theorem C19_kept fs n keep ks cs os : save_ops fs n keep ks cs os -> (forall m, is_Some (fs !! m) -> m < n) -> 1 <= keep ->
  let fs' := fs_run fs os in
  (forall m, m <> n -> fs' !! m = fs !! m \/ fs' !! m = None) /\
  (forall m m', is_Some (fs' !! m) -> is_Some (fs !! m') -> m <= m' -> is_Some (fs' !! m')) /\
  Z.of_nat (size fs') = Z.min keep (Z.of_nat (size fs) + 1).
Proof.
  intros H Hn Hk fs'. pose proof (victims_other fs n keep Hn Hk) as Hv. destruct H as (tw & cw & dels & Ht & Hc & Hdel & Eos).
  assert (E : fs !! n = None) by (apply eq_None_not_Some; intros H; apply Hn in H; lia).
  destruct (written fs n tw cw ks cs E Ht Hc) as [W1 W2].
  set (fs1 := fs_run fs (writes n tw cw ks cs ++ [FDone n])) in *.
  assert (F : forall m, fs' !! m = if decide (m ∈ drop (Z.to_nat keep) (names_desc (fs_op fs (FMkdir n)))) then None else fs1 !! m).
  { intros m. rewrite <- (removals_run _ _ Hdel). unfold fs1, fs'. rewrite <- fs_run_app. f_equal. f_equal. rewrite Eos.
    unfold writes; cbn; by rewrite <- !app_assoc; cbn; rewrite <- !app_assoc. }
  set (fs0 := fs_op fs (FMkdir n)) in *.
  assert (F0 : forall m, is_Some (fs0 !! m) <-> is_Some (fs1 !! m)).
  { intros m. unfold fs0. cbn [fs_op]. rewrite E. destruct (decide (m = n)) as [->|Hne].
    - rewrite lookup_insert, W1. split; eauto.
    - by rewrite lookup_insert_ne, W2. }
  pose proof (names_desc_sorted fs0) as Hs. pose proof (names_desc_nodup fs0) as Hnd.
  set (ns := names_desc fs0) in *. set (kk := Z.to_nat keep) in *.
  assert (Fk : forall m, is_Some (fs' !! m) <-> m ∈ take kk ns).
  { intros m. rewrite F. assert (Hm : m ∈ ns <-> is_Some (fs1 !! m)) by (unfold ns; by rewrite names_desc_elem, F0).
    rewrite <- (take_drop kk ns) in Hm, Hnd. rewrite elem_of_app in Hm. apply NoDup_app in Hnd as (_ & Hdis & _).
    case_decide as D.
    - split; [by intros [? ?]|]. intros Ht'. exfalso. by apply (Hdis m).
    - rewrite <- Hm. split; [|auto]. by intros [?|?]. }
  split; [|split].
  - intros m Hm. rewrite F. case_decide; [by right|]. left. by apply W2.
  - intros m m' H1 H2 Hle. apply Fk. apply Fk in H1.
    assert (Hin : m' ∈ ns).
    { unfold ns. rewrite names_desc_elem, F0. destruct (decide (m' = n)) as [->|]; [rewrite W1; eauto|]. by rewrite W2. }
    rewrite <- (take_drop kk ns) in Hin, Hs, Hnd. apply elem_of_app in Hin as [Hin|Hin]; [done|].
    apply sorted_app_inv in Hs as [_ Hs]. specialize (Hs m m' H1 Hin). assert (m = m') as -> by lia. done.
  - assert (Hsz : size fs' = length (take kk ns)).
    { assert (Hp : (map_to_list fs').*1 ≡ₚ take kk ns).
      { apply NoDup_Permutation; [apply NoDup_fst_map_to_list| |].
        - rewrite <- (take_drop kk ns) in Hnd. by apply NoDup_app in Hnd as [? _].
        - intros m. rewrite <- Fk, elem_of_list_fmap. split.
          + intros ([k d] & -> & Hk'). apply elem_of_map_to_list in Hk'. cbn. eauto.
          + intros [d Hd]. exists (m, d). split; [done|]. by apply elem_of_map_to_list. }
      rewrite <- Hp, fmap_length. done. }
    assert (Hl : length ns = S (size fs)).
    { unfold ns, names_desc. rewrite reverse_length, merge_sort_Permutation, fmap_length. change (length (map_to_list fs0)) with (size fs0).
      unfold fs0. cbn [fs_op]. rewrite E. by apply map_size_insert_None. }
    rewrite Hsz, take_length, Hl. unfold kk. lia.
Qed.

(** Together with C17: after a crash of the server anywhere after DONE, a new
    server with the same (empty) tables gets back what was saved. *)
Theorem C19_crash_then_load {fp : FP} {laws : FPLaws fp} fs n keep ts f os l ss :
  tables_reached ts -> chunks_consistent ts -> NoDup ts.*1 -> saved ts f ->
  save_ops fs n keep (f_tables f) (f_chunks f) os -> l `prefix_of` os -> FDone n ∈ l ->
  (forall m, is_Some (fs !! m) -> m < n) -> 1 <= keep ->
  NoDup ss.*1 -> Forall (fun s => t_size s.2 = 0) ss -> (forall n, n ∈ ts.*1 -> n ∈ ss.*1) ->
  exists d f' ss', latest (fs_run fs l) = Some (n, d) /\ files_of d = Some f' /\ load f' ss = Some (Ok, ss') /\
    forall name t, (name, t) ∈ ts -> exists t', (name, t') ∈ ss' /\ same_table t t'.
Proof.
  intros Hr Hc Hnt Hs Ho Hl Hd Hn Hk Hns Hemp Hsub.
  destruct (C19_crash_safe fs n keep _ _ os l Ho Hl Hn Hk) as [_ HL]. specialize (HL Hd).
  exists (full (f_tables f) (f_chunks f)), f.
  destruct (C17_save_load ts f ss Hr Hc Hnt Hs Hns Hemp Hsub) as (ss' & E & _ & Ht & _).
  exists ss'. split; [done|]. split. { cbn. destruct Hs as (Hdone & _). destruct f; cbn in *. by subst. }
  split; [done|]. intros name t Hin. destruct (Ht name t Hin) as (t' & ? & ? & _). eauto.
Qed.

(** ** Concrete cases *)

(** The deletions that take a directory away file by file. *)
Definition rm (n : Z) : list fsop := [FUnlinkDone n; FUnlinkTables n; FUnlinkChunks n; FRmdir n].
Lemma rm_removal n : removal n (rm n).
Proof. exists [FUnlinkDone n; FUnlinkTables n; FUnlinkChunks n]. split; [repeat constructor|done]. Qed.
Definition simple_save (fs : fsys) (n keep : Z) ks cs : list fsop :=
  FMkdir n :: [FTables n []] ++ [FTables n ks] ++ [FChunks n []] ++ [FChunks n cs] ++ [FDone n] ++
  concat (rm <$> drop (Z.to_nat keep) (names_desc (fs_op fs (FMkdir n)))).
Lemma simple_save_ok fs n keep ks cs : save_ops fs n keep ks cs (simple_save fs n keep ks cs).
Proof.
  exists [FTables n []], [FChunks n []], (rm <$> drop (Z.to_nat keep) (names_desc (fs_op fs (FMkdir n)))).
  split; [repeat constructor|]. split; [repeat constructor|]. split; [|done].
  generalize (drop (Z.to_nat keep) (names_desc (fs_op fs (FMkdir n)))). intros vs.
  induction vs; constructor; [apply rm_removal|done].
Qed.

Definition ch (k : Z) : list chunk := [mkChunk k 0].

(** A directory with a complete checkpoint and the remains of a crashed Save. *)
Definition ex_fs : fsys := {[ 3 := full [] (ch 30); 4 := mkDir (Some []) None false ]}.
Example C19_example :
  (forall m, is_Some (ex_fs !! m) -> m < 5) /\ latest ex_fs = Some (3, full [] (ch 30)) /\
  save_ops ex_fs 5 1 [] (ch 50) (simple_save ex_fs 5 1 [] (ch 50)) /\
  latest (fs_run ex_fs (take 5 (simple_save ex_fs 5 1 [] (ch 50)))) = Some (3, full [] (ch 30)) /\
  latest (fs_run ex_fs (take 8 (simple_save ex_fs 5 1 [] (ch 50)))) = Some (5, full [] (ch 50)) /\
  size (fs_run ex_fs (simple_save ex_fs 5 1 [] (ch 50))) = 1%nat.
Proof.
  split.
  { intros m [d Hd]. unfold ex_fs in Hd. apply lookup_insert_Some in Hd as [[? _]|[_ Hd]]; [lia|].
    apply lookup_singleton_Some in Hd as [? _]. lia. }
  split; [by vm_compute|]. split; [apply simple_save_ok|]. split; [by vm_compute|]. split; by vm_compute.
Qed.

(** An entry in the root directory whose name sorts behind the time stamps (any
    name that starts with a letter) and keep_latest = 1, which is what the
    server uses: Save returns OK, and has deleted every checkpoint including the
    one it just wrote. *)
Theorem C19_foreign_entry_refuted :
  exists fs n os, fs !! n = None /\ save_ops fs n 1 [] (ch 50) os /\
    latest fs = Some (3, full [] (ch 30)) /\ latest (fs_run fs os) = None.
Proof.
  exists {[ 3 := full [] (ch 30); 9 := mkDir None None false ]}, 5, (simple_save {[ 3 := full [] (ch 30); 9 := mkDir None None false ]} 5 1 [] (ch 50)).
  split; [by vm_compute|]. split; [apply simple_save_ok|]. split; by vm_compute.
Qed.
(** The same when the clock was set back: the new checkpoint is deleted, the old
    one stays. *)
Theorem C19_clock_back_refuted :
  exists fs n os, fs !! n = None /\ save_ops fs n 1 [] (ch 50) os /\
    fs_run fs os !! n = None /\ latest (fs_run fs os) = Some (8, full [] (ch 80)).
Proof.
  exists {[ 8 := full [] (ch 80) ]}, 5, (simple_save {[ 8 := full [] (ch 80) ]} 5 1 [] (ch 50)).
  split; [by vm_compute|]. split; [apply simple_save_ok|]. split; by vm_compute.
Qed.
(** A name that is used twice: after a crash the directory has DONE and
    incomplete files. *)
Theorem C19_same_name_refuted :
  exists fs n os l, save_ops fs n 1 [] (ch 50) os /\ l `prefix_of` os /\
    latest fs = Some (n, full [] (ch 30)) /\ latest (fs_run fs l) = Some (n, full [] []).
Proof.
  exists {[ 5 := full [] (ch 30) ]}, 5, (simple_save {[ 5 := full [] (ch 30) ]} 5 1 [] (ch 50)),
    (take 4 (simple_save {[ 5 := full [] (ch 30) ]} 5 1 [] (ch 50))).
  split; [apply simple_save_ok|]. split; [|split; by vm_compute].
  eexists. symmetry. apply take_drop.
Qed.

Print Assumptions C19_latest.
Print Assumptions C19_crash_safe.
Print Assumptions C19_saved.
Print Assumptions C19_history.
Print Assumptions C19_kept.
Print Assumptions C19_crash_then_load.
Print Assumptions C19_foreign_entry_refuted.
Print Assumptions C19_clock_back_refuted.
Print Assumptions C19_same_name_refuted.
