(** C85: which columns of an item are sampled as a single value, told from the calls of the
    user.  PropPyTraj.v has the values. *)
From stdpp Require Import strings gmap.
From Verif Require Import Base Signature PyWriter PyWriterProofs PropPyWriter Tensor TrajUtil ChunkerOptions Chunker TrajWriter PyTraj PropTrajWriter PropChunkKeys PropOrder PropSystem PropSystemAll PropPyTraj PropPySystem.

(** ** Specification *)

(** The calls of a client, one after the other. *)
Inductive c_trace (c0 : client) : list cev -> client -> Prop :=
| ct_nil : c_trace c0 [] c0
| ct_snoc tr c e c' : c_trace c0 tr c -> c_step c e = Some c' -> c_trace c0 (tr ++ [e]) c'.
(** What stood in the brackets, history[...][s] or column[s], in the order of the calls. *)
Definition bracket (e : cev) : option sel := match e with CTake _ s | CSub _ s => Some s | _ => None end.
Definition brackets (tr : list cev) : list sel := omap bracket tr.
(** The i-th column is sampled as a single value if and only if an index stood there. *)
Definition by_index (s : sel) (tc : tcol) : Prop := tc_squeeze tc = true <-> exists i, s = SIdx i.

(** ** Proofs *)
Lemma by_index_take s refs want pl : by_index s (mkTcol refs (squeezes s) want pl).
Proof. unfold by_index. cbn. destruct s; split; try done; [by eexists|by intros []]. Qed.
Lemma log_append_same c w d p call : c_taken (log_append c w d p call) = c_taken c /\ c_items (log_append c w d p call) = c_items c.
Proof. unfold log_append. by destruct (append (c_py c) d p call). Qed.
Lemma log_end_same c w a b : c_taken (log_end c w a b) = c_taken c /\ c_items (log_end c w a b) = c_items c.
Proof. unfold log_end. by destruct (end_episode (c_py c) a b). Qed.

Definition step_spec (c : client) (e : cev) (c' : client) : Prop :=
  match e with
  | CTake _ s | CSub _ s => (exists tc, c_taken c' = c_taken c ++ [tc] /\ by_index s tc) /\ c_items c' = c_items c
  | CCreate _ _ cols key => c_taken c' = c_taken c /\
      (c_items c' = c_items c \/ exists tcs, mapM (fun i => c_taken c !! i) cols = Some tcs /\ c_items c' = c_items c ++ [(key, tcs)])
  | _ => c_taken c' = c_taken c /\ c_items c' = c_items c
  end.
Lemma step_cols c e c' : c_step c e = Some c' -> step_spec c e c'.
Proof.
  intros H. destruct e as [d p nk|p s|i s|table prio cols key|n nk|clear nk|p o ok|e]; cbn [c_step step_spec] in *.
  1-7: destruct (c_call c); [done|].
  - destruct (passed (c_py c) d) as [fd|]; [|injection H as <-; apply log_append_same].
    destruct (tw_step _ _) as [| |w [st|]]; try done; injection H as <-; [apply log_append_same|done].
  - destruct (history (c_py c)) as [h|]; [|done]. cbn in H. destruct (at_path h p) as [col|]; [|done]. cbn in H.
    destruct (get_refs col s) as [refs|]; [|done]. cbn in H. injection H as <-. split; [|done]. eexists. split; [done|]. apply by_index_take.
  - destruct (c_taken c !! i) as [tc|]; [|done]. cbn in H. destruct (get_refs _ s) as [refs|]; [|done]. cbn in H. injection H as <-.
    split; [|done]. eexists. split; [done|]. apply by_index_take.
  - destruct (mapM (fun i => c_taken c !! i) cols) as [tcs|] eqn:Em; [|done]. cbn [mbind option_bind] in H.
    destruct (tw_step _ _) as [| |w [st|]]; try done. injection H as <-. split; [done|]. cbn. destruct (bool_decide (st = Ok)); [|by left].
    right. by exists tcs.
  - destruct (n <? 0); [by injection H as <-|]. destruct (tw_step _ _) as [| |w [st|]]; try done; by injection H as <-.
  - destruct (tw_step _ _) as [| |w [st|]]; try done; injection H as <-; [apply log_end_same|done].
  - destruct (PyWriter.configure (c_py c) p o ok) as [r q]. by injection H as <-.
  - destruct (runs c e); [|done]. destruct (tw_step (c_cxx c) e) as [| |w ret]; try done.
    destruct (c_call c) as [[]|]; destruct ret as [st|]; try (by injection H as <-); injection H as <-;
      first [apply log_append_same|apply log_end_same].
Qed.
Lemma mapM_taken (l k : list tcol) cols tcs : mapM (fun i => l !! i) cols = Some tcs -> mapM (fun i => (l ++ k) !! i) cols = Some tcs.
Proof.
  rewrite !mapM_Some. intros H. induction H as [|i tc cols tcs Hi _ IH]; constructor; [|done]. by apply lookup_app_l_Some.
Qed.

(** ** The property *)

(** The columns of an item are the ones that the user named in create_item, and each is
    sampled as a single value if and only if it was taken by an index. *)
Theorem C85_columns c0 tr c : c_taken c0 = [] -> c_items c0 = [] -> c_trace c0 tr c ->
  Forall2 by_index (brackets tr) (c_taken c) /\
  forall key tcs, (key, tcs) ∈ c_items c -> exists table prio cols, CCreate table prio cols key ∈ tr /\
    Forall2 (fun i tc => c_taken c !! i = Some tc /\ exists s, brackets tr !! i = Some s /\ by_index s tc) cols tcs.
Proof.
  intros H0 H1 T.
  assert (K : Forall2 by_index (brackets tr) (c_taken c) /\
    forall key tcs, (key, tcs) ∈ c_items c -> exists table prio cols, CCreate table prio cols key ∈ tr /\ mapM (fun i => c_taken c !! i) cols = Some tcs).
  { induction T as [|tr c e c' T IH E].
    - rewrite H0, H1. split; [constructor|]. intros key tcs H. by apply elem_of_nil in H.
    - destruct IH as [IT II]. apply step_cols in E. unfold brackets. rewrite omap_app. fold (brackets tr).
      assert (OLD : forall l, c_taken c' = c_taken c ++ l -> forall key tcs, (key, tcs) ∈ c_items c -> exists table prio cols,
        CCreate table prio cols key ∈ tr ++ [e] /\ mapM (fun i => c_taken c' !! i) cols = Some tcs).
      { intros l El key tcs H. destruct (II key tcs H) as (ta & pr & cols & Hc & Hm). exists ta, pr, cols.
        split; [apply elem_of_app; by left|]. rewrite El. by apply mapM_taken. }
      assert (SAME : bracket e = None -> c_taken c' = c_taken c -> Forall2 by_index (brackets tr ++ omap bracket [e]) (c_taken c')).
      { intros Eb ->. cbn. by rewrite Eb, app_nil_r. }
      destruct e as [d p nk|p s|i s|table prio cols key|n nk|clear nk|p o ok|e]; cbn [step_spec] in E.
      1,5-8: destruct E as [Et Ei]; (split; [by apply SAME|]); rewrite Ei; apply (OLD []); by rewrite app_nil_r.
      1,2: destruct E as [(tc & Et & Hb) Ei]; (split; [rewrite Et; apply Forall2_app; [done|]; by constructor|]); rewrite Ei; by apply (OLD [tc]).
      destruct E as [Et Ei]. split; [by apply SAME|]. intros key' tcs' H.
      destruct Ei as [Ei|(tcs & Em & Ei)]; rewrite Ei in H; [|apply elem_of_app in H as [H|H]].
      + apply (OLD []); [by rewrite app_nil_r|done].
      + apply (OLD []); [by rewrite app_nil_r|done].
      + apply elem_of_list_singleton in H. injection H as -> ->. exists table, prio, cols.
        split; [apply elem_of_app; right; by apply elem_of_list_singleton|]. by rewrite Et. }
  destruct K as [KT KI]. split; [done|]. intros key tcs H. destruct (KI key tcs H) as (ta & pr & cols & Hc & Hm).
  exists ta, pr, cols. split; [done|]. apply mapM_Some in Hm. eapply Forall2_impl; [exact Hm|]. cbn. intros i tc Hi. split; [done|].
  destruct (Forall2_lookup_r _ _ _ _ _ KT Hi) as (s & Hs & Hb). by exists s.
Qed.

(** ** Example: the client of C85_example takes five columns, two of them by an index, and
    makes an item of three of them. *)
Lemma x_trace c0 top es : forall tr c c', c_trace c0 tr c -> x_script top c es = Some c' -> c_trace c0 (tr ++ List.map xev_event es) c'.
Proof.
  induction es as [|x es IH]; intros tr c c' H; cbn [x_script]; [intros [= <-]; by rewrite app_nil_r|]. destruct (xok top c x); [|done].
  destruct (c_step c (xev_event x)) as [c1|] eqn:E; [|done]. cbn [mbind option_bind]. intros Hs. cbn [List.map]; rewrite cons_middle, app_assoc.
  eapply IH; [|exact Hs]. by econstructor.
Qed.
Example C85_columns_example : c_trace (c_new ex_opts ex_sigs 7) (List.map xev_event py_run) py_client /\
  brackets (List.map xev_event py_run) = [SSlice None None 1; SSlice (Some (-3)) None 1; SIdx 1; SSlice (Some 1) None 1; SIdx (-1)] /\
  List.map (fun x : Z * list tcol => (x.1, List.map tc_squeeze x.2)) (c_items py_client) = [(70, [false]); (71, [false; true; true])].
Proof.
  split; [|split; vm_compute; reflexivity].
  assert (S : is_Some (x_script false (c_new ex_opts ex_sigs 7) py_run)) by (vm_compute; by eexists).
  destruct S as [c E]. unfold py_client, x_after. rewrite E. apply (x_trace _ false py_run [] (c_new ex_opts ex_sigs 7)); [constructor|exact E].
Qed.

Print Assumptions C85_columns.
Print Assumptions C85_columns_example.
