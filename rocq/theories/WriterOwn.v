(** The Writer: the messages and the items that they are for. *)
From Verif Require Import Base Trajectory Tensor TrajUtil ChunkerOptions Sample Stream Reactor Chunker PropChunker PropDelta PropInsertStream PropTraj TrajWriter TrajWriterProofs Writer WriterProofs WriterConf WriterData.
Local Open Scope Z_scope.

(** An item on the stream, and an item that CreateItem has built. *)
Definition item_of (ii : iitem) (it : litem) : Prop := ii_key ii = li_key it /\ ii_table ii = li_table it /\ ii_traj ii = li_traj it.
Record oinv (w : lw) : Prop := {
  o_wire : forall r, r ∈ l_wire w -> (forall c, c ∈ ir_chunks r -> c ∈ l_sent w) /\ forall ii, ir_item r = Some ii -> exists m, m ∈ l_made w /\ item_of ii (lm_item m);
  o_pend : forall it, it ∈ l_pending w -> exists m, m ∈ l_made w /\ lm_item m = it;
  o_keys : NoDup (made_keys w) }.

Lemma oinv_sub w w' : oinv w -> l_made w' = l_made w -> (forall it, it ∈ l_pending w' -> it ∈ l_pending w) -> l_wire w' = l_wire w \/ l_wire w' = [] -> l_sent w' = l_sent w -> oinv w'.
Proof.
  intros [H1 H2 H3] Em Hp Hw Es. split.
  - intros r Hr. rewrite Em, Es. destruct Hw as [-> | ->] in Hr; [by apply H1|by apply elem_of_nil in Hr].
  - intros it Hi. rewrite Em. by apply H2, Hp.
  - unfold made_keys. by rewrite Em.
Qed.
Ltac same_own := eapply oinv_sub; [eassumption|try done..]; (try by left); (try by right).
Lemma write_begin_own p w c w' ret : oinv w -> write_begin p w c = LNext w' ret -> oinv w'.
Proof. intros O. unfold write_begin. destruct (l_stream w); [intros [= <- <-]; same_own|]. destruct (p_flight p); [destruct (_ || _); [done|]|]; intros [= <- <-]; same_own. Qed.
Lemma close_begin_own w r w' ret : oinv w -> close_begin w r = LNext w' ret -> oinv w'.
Proof. intros O. unfold close_begin. destruct (l_stream w); [destruct (l_half w); [done|]|]; intros [= <- <-]; same_own. Qed.
Lemma removelast_elem {A} (l : list A) x : x ∈ removelast l -> x ∈ l.
Proof. destruct l as [|y l _] using rev_ind; [done|]. rewrite removelast_last. set_solver. Qed.
Lemma call_failed_own p w c st w' ret : oinv w -> call_failed p w c st = LNext w' ret -> oinv w'.
Proof.
  intros O. unfold call_failed. destruct c as [|key| |].
  - intros [= <- <-]. same_own.
  - intros [= <- <-]. same_own. intros it. apply removelast_elem.
  - intros [= <- <-]. same_own.
  - destruct (_ || _); [intros [= <- <-]; same_own|]. by apply close_begin_own.
Qed.
Lemma write_end_own p w c st nk w' ret : oinv w -> write_end p w c st nk = LNext w' ret -> oinv w'.
Proof.
  intros O. unfold write_end. destruct c as [old|key| |r].
  2: { case_bool_decide; [intros [= <- <-]; same_own|by apply call_failed_own]. }
  all: case_bool_decide; [|apply call_failed_own; same_own].
  1-2: intros [= <- <-]; same_own. apply close_begin_own. same_own.
Qed.
Lemma finish_begin_own p w c w' ret : oinv w -> finish_begin p w c = LNext w' ret -> oinv w'.
Proof.
  intros O. unfold finish_begin. destruct (build_chunk _ _) as [[d|]|]; [|by apply call_failed_own|done]. apply write_begin_own. same_own.
Qed.
Lemma lsend_own w m o : oinv w -> (forall ii, ir_item m = Some ii -> exists md, md ∈ l_made w /\ item_of ii (lm_item md)) -> oinv (lsend w m o).
Proof.
  intros O Hm. unfold lsend. destruct (delivered o); [|done]. destruct O as [H1 H2 H3]. split; [|exact H2|exact H3]. cbn. intros r. rewrite elem_of_app, elem_of_list_singleton. intros [Hr| ->].
  - destruct (H1 r Hr) as [A1 A2]. split; [|done]. intros c Hc. apply elem_of_app. left. by apply A1.
  - split; [|done]. intros c Hc. apply elem_of_app. by right.
Qed.
Lemma lsend_pending w m o : l_pending (lsend w m o) = l_pending w.
Proof. unfold lsend. by destruct (delivered o). Qed.

Lemma lw_step_own p w e w' ret : lw_enabled w e -> oinv w -> lw_step p w e = LNext w' ret -> oinv w'.
Proof.
  intros He O. destruct e as [data|table m prio key| |r|big o nk|st nk|m|]; cbn [lw_step]; unfold idle.
  - destruct (l_pos w) eqn:E; [|done]. unfold append. destruct (l_closed w) eqn:Hc; [by intros [= <- <-]|].
    destruct (match l_buffer w with [] => _ | _ => _ end); [by intros [= <- <-]|]. destruct (l_ring w !! l_loc w) as [old|]; [|done]. cbn zeta.
    destruct (_ <? _)%nat; [intros [= <- <-]; same_own|]. apply finish_begin_own. same_own.
  - destruct (l_pos w) eqn:E; [|done]. unfold lw_create. destruct (l_closed w) eqn:Hc; [by intros [= <- <-]|]. destruct (_ || _); [by intros [= <- <-]|]. destruct (_ <? _); [by intros [= <- <-]|].
    destruct (check_signature _ _ _ _) as [st|]; [|done]. destruct (negb _); [by intros [= <- <-]|].
    match goal with |- context [match ?x with Some tr => _ | None => LCrash end] => destruct x as [tr|] end; [|done]. cbn zeta.
    set (it := mkLitem _ _ _ _). set (w1 := ls_create w _ _). assert (O1 : oinv w1).
    { destruct O as [H1 H2 H3]. split; cbn.
      - intros r Hr. destruct (H1 r Hr) as [A1 A2]. split; [done|]. intros ii Hii. destruct (A2 ii Hii) as (md & B1 & B2). exists md. split; [apply elem_of_app; by left|done].
      - intros it'. rewrite elem_of_app, elem_of_list_singleton. intros [Hi| ->]; [destruct (H2 it' Hi) as (md & B1 & B2); exists md; split; [apply elem_of_app; by left|done]|].
        eexists. split; [apply elem_of_app; right; by apply elem_of_list_singleton|done].
      - unfold made_keys. cbn. rewrite fmap_app. apply NoDup_app. split; [done|]. split; [|apply NoDup_singleton]. intros k Hk Hk2. apply elem_of_list_singleton in Hk2 as ->. by apply He. }
    destruct (l_buffer w1); [|by intros [= <- <-]]. by apply write_begin_own.
  - destruct (l_pos w) eqn:E; [|done]. unfold lw_flush. destruct (l_closed w) eqn:Hc; [by intros [= <- <-]|]. destruct (l_pending w) eqn:Ep.
    + intros [= <- <-]. same_own.
    + by apply finish_begin_own.
  - destruct (l_pos w) eqn:E; [|done]. unfold lw_close. destruct (l_closed w) eqn:Hc; [by intros [= <- <-]|]. destruct (l_pending w) eqn:Ep.
    + by apply close_begin_own.
    + by apply finish_begin_own.
  - destruct (l_pos w) as [|c ph] eqn:E; [done|].
    destruct ph as [rest req keep|req keep|req keep| | | | | | |]; cbn [call_step].
    + destruct rest as [|ch rest]; [intros [= <- <-]; same_own|]. unfold chunk_scan. destruct (_ && _); [|intros [= <- <-]; same_own].
      destruct big; [|intros [= <- <-]; same_own]. destruct (l_half w); [done|]. set (m := mkIreq _ None). assert (O1 : oinv (lsend w m o)) by (by apply lsend_own).
      destruct (write_ok o); intros [= <- <-]; same_own.
    + destruct (l_pending w) as [|it rest] eqn:Ep; [by apply write_end_own|].
      destruct (p_flight p); [destruct (confirm_items w _) as [[]|]|]; intros [= <- <-]; same_own.
    + unfold item_write. destruct (l_pending w) as [|it rest] eqn:Ep; [done|]. destruct (l_half w) eqn:Hh; [done|]. set (m := litem_message p it req keep).
      assert (O1 : oinv (lsend w m o)).
      { apply lsend_own; [done|]. intros ii [= <-]. destruct (o_pend w O it) as (md & B1 & B2); [rewrite Ep; left|]. exists md. split; [done|]. rewrite B2. done. }
      destruct (write_ok o); intros [= <- <-]; same_own. cbn. intros it' Hi. rewrite lsend_pending, Ep. by right.
    + destruct (l_half w); [done|]. intros [= <- <-]. same_own.
    + destruct (stop_worker p w) as [st w1] eqn:Es. apply stop_worker_fields in Es as (b & f & ->). case_bool_decide; [intros [= <- <-]; same_own|].
      apply write_end_own. same_own.
    + done.
    + destruct (confirm_items w 0); [|done]. intros [= <- <-]; same_own.
    + destruct (confirm_items w 0); [|done]. intros [= <- <-]; same_own.
    + destruct (stop_worker p w) as [st w1] eqn:Es. apply stop_worker_fields in Es as (b & f & ->). intros [= <- <-]; same_own.
    + done.
  - unfold stream_finish. destruct (l_pos w) as [|c ph] eqn:E; [done|]. destruct ph; try done; [|intros [= <- <-]; same_own].
    destruct (_ && _); [apply write_begin_own|apply write_end_own]; same_own.
  - destruct (_ && _); [|done]. intros [= <- <-]; same_own.
  - destruct (_ && _); [|done]. intros [= <- <-]; same_own.
Qed.
Theorem lw_reach_own p key w : lw_reach p (lw_new p key) w -> oinv w.
Proof.
  induction 1 as [|w e w' ret H IH He E].
  - split; [intros r Hr; by apply elem_of_nil in Hr|intros r Hr; by apply elem_of_nil in Hr|constructor].
  - by eapply lw_step_own.
Qed.
