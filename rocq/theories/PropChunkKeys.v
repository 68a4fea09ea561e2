(** C60 for TrajectoryWriter: one chunk key, one content.  Every history of calls,
    stream failures and retries; chunks sent on different streams are compared too. *)
From Verif Require Import Base Tensor Sample Stream ChunkerOptions Chunker PropChunker Reactor PropInsertStream TrajWriter TrajWriterProofs PropTrajWriter.
From stdpp Require Import gmap.
Open Scope Z_scope.

Lemma signal_cols w : w_cols (signal w) = w_cols w.
Proof. unfold signal. by destruct (w_pos w). Qed.
Lemma return_cols w st : w_cols (worker_return w st) = w_cols w.
Proof. unfold worker_return. repeat case_match; try done; by rewrite ?signal_cols. Qed.
Lemma send_cols w m o : w_cols (send w m o) = w_cols w.
Proof. unfold send. by destruct (delivered o). Qed.

(** Columns and the chunks of their cells are never taken back. *)
Lemma tw_step_cols w e w' ret : winv w -> tw_enabled w e -> tw_step w e = TNext w' ret -> cols_le (w_cols w) (w_cols w').
Proof.
  intros I He E.
  assert (S : w_cols w' = w_cols w -> cols_le (w_cols w) (w_cols w')) by (intros ->; apply cols_le_refl).
  destruct e as [| |big o| | |o| |st|keys|c a|data inc nk|nk|table prio cols key|n nk|clear nk|timeout nk newep|c o|]; cbn [tw_enabled] in He; cbn [tw_step] in E.
  1-9: apply S; clear S; repeat (case_match; try discriminate E); injection E as <- <-; cbn [w_cols set_pos set_wire set_flight set_queue set_acked];
       rewrite ?return_cols, ?send_cols; cbn [w_cols set_pos set_wire set_flight set_queue set_acked]; rewrite ?send_cols; reflexivity.
  - destruct (w_pos w); try discriminate E. unfold col_step in E. destruct (w_cols w !! c) as [[k h]|] eqn:Hk; [|discriminate E]. cbn [mbind option_bind k_step] in E. injection E as <- <-.
    cbn [w_cols set_cols].
    by destruct (insert_col (w_cols w) c k h (KTune a) (mkChunker (k_spec k) (Auto a) (k_buffer k) (k_offset k) (k_next k) (k_cells k) (k_active k)) h (v_cols w I) Hk (He _ _ eq_refl)) as (_ & L & _); [by intros x ?|done|].
  - destruct He as [[Hf Hi] Ht]. unfold append_begin in E. destruct (w_user w); try discriminate E. destruct (bool_decide _); [|injection E as <- <-; by apply S].
    destruct (add_chunkers_spec data nk w 0 (v_cols w I) (v_defo w I) (v_over w I)) as (m' & Ea & _ & L & _); [intros c; left; apply Hf|done|].
    rewrite Ea in E. cbn [mbind option_bind] in E. injection E as <- <-. exact L.
  - unfold append_col in E. destruct (w_user w) as [|i rest inc ep stp|] eqn:Hu; try discriminate E. pose proof (v_user w I) as U. rewrite Hu in U. cbn in U. destruct U as (-> & -> & U).
    destruct rest as [|[t|] rest].
    + rewrite !Z.eqb_refl in E. cbn [andb] in E. injection E as <- <-. apply S. cbn [w_cols set_user]. rewrite signal_cols. done.
    + destruct (U 0%nat t eq_refl) as [[[k h] Hk] Ht]. rewrite Nat.add_0_r in Hk. rewrite Hk in E. cbn [mbind option_bind] in E.
      assert (Hen : k_enabled k (KAppend t (w_ep w) (w_stp w) nk)) by (split; [done|]; by apply (no_key_enabled (w_cols w) i k h)).
      destruct (step_inv k h _ (proj1 (proj1 (v_cols w I) _ _ _ Hk)) Hen) as (k' & h' & Es & _). unfold col_step in E. rewrite Hk in E. cbn [mbind option_bind] in E. rewrite Es in E.
      assert (Es' := Es). cbn [k_step] in Es. destruct (k_append k t (w_ep w) (w_stp w) nk) as [[[st o] k2]|] eqn:Ek; [|discriminate Es]. cbn [mbind option_bind] in *.
      destruct (insert_col (w_cols w) i k h (KAppend t (w_ep w) (w_stp w) nk) k' h' (v_cols w I) Hk Hen) as (_ & L & _); [by intros x [= <-]|exact Es'|].
      destruct (bool_decide _); injection E as <- <-; exact L.
    + injection E as <- <-. by apply S.
  - unfold create_item in E. repeat (case_match; try discriminate E); injection E as <- <-; by apply S.
  - destruct (w_user w) eqn:Hu; try discriminate E. destruct (flush_begin_inv w n FinFlush nk I Hu He Logic.I) as (m' & Ef & _ & L & _). rewrite Ef in E. injection E as <- <-.
    cbn [w_cols set_user]. rewrite signal_cols. exact L.
  - destruct (w_user w) eqn:Hu; try discriminate E. destruct (bool_decide _); [|injection E as <- <-; by apply S].
    destruct (flush_begin_inv w 0 (FinEpisode clear) nk I Hu He eq_refl) as (m' & Ef & _ & L & _). rewrite Ef in E. injection E as <- <-.
    cbn [w_cols set_user]. rewrite signal_cols. exact L.
  - destruct He as [Hf Hi]. unfold flush_done in E. destruct (w_user w) as [| |n fin] eqn:Hu; try discriminate E.
    destruct (flush_cond w n) eqn:Hc; [|destruct timeout; [injection E as <- <-; by apply S|discriminate E]]. cbn zeta in E.
    change (w_unrec (set_user w UIdle)) with (w_unrec w) in E. destruct (bool_decide_reflect (w_unrec w = Ok)) as [Ho|]; cbn [negb] in E; [|injection E as <- <-; by apply S].
    destruct fin as [|clear]; [injection E as <- <-; by apply S|].
    destruct (end_chunkers_spec (columns (set_user w UIdle)) clear nk (set_user w UIdle)) as (m' & Em & _ & L).
    + unfold columns. apply NoDup_fst_map_to_list.
    + exact (v_cols w I).
    + intros c Hc'. unfold columns in Hc'. apply elem_of_list_fmap in Hc' as ([c' p] & -> & Hp). apply elem_of_map_to_list in Hp. by exists p.
    + done.
    + intros c _. apply Hf.
    + rewrite Em in E. rewrite bool_decide_true in E by done. injection E as <- <-. exact L.
  - unfold configure in E. destruct (w_user w); try discriminate E. destruct (bool_decide_reflect (validate_options o = Ok)) as [Ho|]; cbn [negb] in E; [|injection E as <- <-; by apply S].
    destruct (w_cols w !! c) as [[k h]|] eqn:Hk.
    + unfold col_step in E. rewrite Hk in E. cbn [mbind option_bind k_step] in E. injection E as <- <-. cbn [w_cols set_cols].
      by destruct (insert_col (w_cols w) c k h (KConfig (clone o)) (k_apply_config k (clone o)).2 h (v_cols w I) Hk Logic.I) as (_ & L & _); [by intros x ?|done|].
    + injection E as <- <-. by apply S.
  - unfold close in E. apply S. destruct (w_closed w); injection E as <- <-; [done|]. by rewrite signal_cols.
Qed.

Lemma tw_reach_cols w w' : winv w -> tw_reach w w' -> winv w' /\ cols_le (w_cols w) (w_cols w').
Proof.
  intros I. induction 1 as [|w1 e w2 ret _ IH He E]; [split; [done|apply cols_le_refl]|]. destruct IH as [I1 L1].
  pose proof (tw_step_inv w1 e I1 He) as J. rewrite E in J. split; [done|]. eapply cols_le_trans; [done|]. by eapply tw_step_cols.
Qed.

(** In one state of the columns a key determines the chunk. *)
Lemma from_cell_unique m a b : colsinv m -> from_cell m a -> from_cell m b -> kc_key a = kc_key b -> a = b.
Proof.
  intros [I1 I2] (r & c & ch & Hc & Hch & ->) (s & d & dh & Hd & Hdh & ->) Hk. cbn [kc_key] in Hk.
  unfold cell_at in Hc, Hd. destruct (m !! r.1) as [[k h]|] eqn:Em; [|done]. destruct (m !! s.1) as [[k' h']|] eqn:Em'; [|done]. cbn [mbind option_bind] in Hc, Hd.
  destruct (I1 _ _ _ Em) as (K & HO & _). destruct (I1 _ _ _ Em') as (K' & _ & _). cbn [fst snd] in *.
  destruct (ki_res _ _ K _ _ _ Hc Hch) as (_ & Hck & _). destruct (ki_res _ _ K' _ _ _ Hd Hdh) as (_ & Hdk & _).
  assert (r.1 = s.1) as Es.
  { apply (I2 _ _ _ _ _ _ (ck_key ch) Em Em'); apply elem_of_list_further, elem_of_list_fmap.
    - exists c. split; [done|]. by eapply elem_of_list_lookup_2.
    - exists d. split; [congruence|]. by eapply elem_of_list_lookup_2. }
  rewrite Es, Em' in Em. injection Em as -> ->. destruct (HO r.2 s.2 c d Hc Hd) as [_ O]; [congruence|]. specialize (O ch Hch). congruence.
Qed.

(** Two chunks that reached the server at any two moments of a run, over the same or
    over different streams, are the same if their keys are. *)
Theorem C60_trajectory o sigs ep w1 w2 m1 m2 a b : validate_options o = Ok -> tw_reach (tw_new o sigs ep) w1 -> tw_reach w1 w2 ->
  m1 ∈ w_wire w1 -> m2 ∈ w_wire w2 -> a ∈ ir_chunks m1 -> b ∈ ir_chunks m2 -> kc_key a = kc_key b -> a = b.
Proof.
  intros Ho R1 R2 H1 H2 Ha Hb Hk. pose proof (tw_reach_inv _ _ _ _ Ho R1) as I1. destruct (tw_reach_cols _ _ I1 R2) as [I2 L].
  pose proof (v_from _ I1) as F1. pose proof (v_from _ I2) as F2. rewrite Forall_forall in F1, F2. destruct (F1 _ H1) as [F1' _]. destruct (F2 _ H2) as [F2' _].
  rewrite Forall_forall in F1', F2'. apply (from_cell_unique (w_cols w2)); [exact (v_cols _ I2)| |by apply F2'|done]. eapply from_cell_le; [exact L|by apply F1'].
Qed.

(** The first stream breaks after a chunk has been sent; on the second stream the
    chunk is sent again. *)
Definition keys_before : list sev := append1 1 100 ++ append1 2 110 ++ append1 3 120 ++ append1 4 130 ++
  [SEv (ECreate 5 (Fin 1) [([(0, 1); (0, 2); (0, 3)]%nat, false); ([(0, 3)]%nat, true)] 41); SEv EStart; SEv ENext; SEv (EChunk true OutOk)].
Definition keys_retry : list sev := replicate 4 (SEv (EChunk false OutOk)) ++ [SEv ECheck; SFlush 0 200; SEv EWake; SEv ENext; SEv (EChunk false OutOk); SEv (EChunk false OutOk);
   SEv (EChunk true OutLost); SEv (EFinish Unavailable); SEv EStart; SEv ENext; SEv (EChunk true OutOk)].
Example C60_trajectory_example : exists w1 w2 m1 m2 a b, tw_reach (tw_new ex_opts ex_sigs 7) w1 /\ tw_reach w1 w2 /\ w_wire w1 = [m1] /\ w_wire w2 = [m2] /\
  ir_chunks m1 = [a] /\ ir_chunks m2 = [b] /\ kc_key a = kc_key b /\ length (w_created w2) = 1%nat.
Proof.
  set (w1 := after ex_opts keys_before). set (w2 := match tw_script w1 keys_retry with Some w => w | None => w1 end).
  exists w1, w2. eexists _, _, _, _. split; [apply after_reach|]. split.
  { assert (H : tw_script w1 keys_retry = Some w2) by (vm_compute; reflexivity). eapply script_reach; [constructor|exact H]. }
  split; [vm_compute; reflexivity|]. split; [vm_compute; reflexivity|]. split; [vm_compute; reflexivity|]. split; [vm_compute; reflexivity|]. split; vm_compute; reflexivity.
Qed.

Print Assumptions C60_trajectory.
