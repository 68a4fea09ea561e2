(** Runs of the Writer with what the calls return. *)
From Verif Require Import Base Trajectory Tensor TrajUtil ChunkerOptions Sample Stream Reactor Chunker PropChunker PropDelta PropInsertStream PropTraj TrajWriter TrajWriterProofs Writer WriterProofs WriterConf WriterData WriterPlace WriterOwn.
Local Open Scope Z_scope.

(** ** Specification *)

(** A run, with what every action returns to the user. *)
Inductive lw_trace (p : lconf) (w0 : lw) : list (lev * option status) -> lw -> Prop :=
| lt_nil : lw_trace p w0 [] w0
| lt_snoc tr w e w' ret : lw_trace p w0 tr w -> lw_enabled w e -> lw_step p w e = LNext w' ret -> lw_trace p w0 (tr ++ [(e, ret)]) w'.
(** The calls that have returned, with their status; the call that is running. *)
Definition is_call (e : lev) : bool := match e with LAppend _ | LCreate _ _ _ _ | LFlush | LClose _ => true | _ => false end.
Definition ret_step (s : list (lev * status) * option lev) (x : lev * option status) : list (lev * status) * option lev :=
  let cur := if is_call x.1 then Some x.1 else s.2 in
  match x.2, cur with
  | Some st, Some e => (s.1 ++ [(e, st)], None)
  | _, _ => (s.1, cur)
  end.
Definition calls (tr : list (lev * option status)) : list (lev * status) * option lev := foldl ret_step ([], None) tr.
Definition returned tr := (calls tr).1.
Definition current tr := (calls tr).2.
(** The steps whose Append returned OK; the items whose CreateItem did. *)
Definition appended (rs : list (lev * status)) : list step := omap (fun x => match x with (LAppend d, Ok) => Some d | _ => None end) rs.
Definition created (rs : list (lev * status)) : list Z := omap (fun x => match x with (LCreate _ _ _ key, Ok) => Some key | _ => None end) rs.

Lemma calls_snoc tr x : calls (tr ++ [x]) = ret_step (calls tr) x.
Proof. unfold calls. by rewrite foldl_app. Qed.
Lemma appended_app a b : appended (a ++ b) = appended a ++ appended b.
Proof. apply omap_app. Qed.
Lemma created_app a b : created (a ++ b) = created a ++ created b.
Proof. apply omap_app. Qed.
Lemma trace_reach p w0 tr w : lw_trace p w0 tr w -> lw_reach p w0 w.
Proof. induction 1; [constructor|by econstructor]. Qed.
Lemma reach_trace p w0 w : lw_reach p w0 w -> exists tr, lw_trace p w0 tr w.
Proof. induction 1 as [|w e w' ret H [tr IH] He E]; [by eexists; constructor|]. eexists. by econstructor. Qed.

(** ** What an action of a call does *)

Definition pkeys (w : lw) : list Z := li_key <$> l_pending w.
Record ceff (c : lcall) (w w' : lw) (ret : option status) : Prop := {
  f_pos : match ret with None => exists ph, l_pos w' = LRun c ph | Some _ => l_pos w' = LIdle end;
  f_hist : l_hist w' = match ret, c with Some st, CAppend _ => if decide (st = Ok) then l_hist w else removelast (l_hist w) | _, _ => l_hist w end;
  f_written : forall k, k ∈ l_written w -> k ∈ l_written w';
  f_pend : forall k, k ∈ pkeys w -> k ∈ pkeys w' \/ k ∈ l_written w' \/ exists key st, c = CCreate key /\ ret = Some st /\ st <> Ok;
  f_ok : ret = Some Ok -> match c with CClose _ => True | _ => l_pending w' = [] end;
  f_made : l_made w' = l_made w;
  f_conf : l_confirmed w ⊆ l_confirmed w';
  f_closed : (forall r, c <> CClose r) -> l_closed w' = l_closed w;
  f_failed : ret = None \/ ret = Some Ok \/ (exists key, c = CCreate key) -> (forall r, c <> CClose r) -> l_failed w' = l_failed w }.

Lemma write_begin_eff p w c w' ret : write_begin p w c = LNext w' ret -> ceff c w w' ret /\ ret = None.
Proof.
  unfold write_begin. destruct (l_stream w); [intros [= <- <-]|destruct (p_flight p); [destruct (_ || _); [done|]|]; intros [= <- <-]]; (split; [split|]; try done; [by eexists|by left]).
Qed.
Lemma close_begin_eff w r w' ret : close_begin w r = LNext w' ret -> ceff (CClose r) w w' ret.
Proof.
  unfold close_begin. destruct (l_stream w); [destruct (l_half w); [done|]|]; intros [= <- <-]; split; try done; [by eexists|by left|by left|intros H; by destruct (H r)].
Qed.
Lemma call_failed_eff p w c st w' ret : st <> Ok -> call_failed p w c st = LNext w' ret -> ceff c w w' ret.
Proof.
  intros Hst. unfold call_failed. destruct c as [|key| |].
  - intros [= <- <-]. split; try done; cbn; [by rewrite decide_False|by left|by intros [= ->]].
  - intros [= <- <-]. split; try done; cbn; [|by intros [= ->]]. intros k Hk. right. right. by exists key, st.
  - intros [= <- <-]. split; try done; cbn; [by left|by intros [= ->]].
  - destruct (_ || _); [intros [= <- <-]; split; try done; cbn; by left|]. by apply close_begin_eff.
Qed.
Lemma ceff_from c w0 w w' ret : l_hist w = l_hist w0 -> l_written w = l_written w0 -> l_pending w = l_pending w0 -> l_made w = l_made w0 -> l_confirmed w = l_confirmed w0 -> l_closed w = l_closed w0 -> (ret = None \/ ret = Some Ok \/ (exists key, c = CCreate key) -> (forall r, c <> CClose r) -> l_failed w = l_failed w0) -> ceff c w w' ret -> ceff c w0 w' ret.
Proof. intros E1 E2 E3 E4 E5 E6 E7 []. unfold pkeys in *. split; unfold pkeys; rewrite <- ?E1, <- ?E2, <- ?E3, <- ?E4, <- ?E5, <- ?E6; try done. intros H1 H2. rewrite f_failed0 by done. by apply E7. Qed.
Lemma write_end_eff p w c st nk w' ret : (st = Ok -> l_pending w = []) -> write_end p w c st nk = LNext w' ret -> ceff c w w' ret.
Proof.
  intros Hp. unfold write_end. destruct c as [old|key| |r].
  2: { case_bool_decide as Hs; [intros [= <- <-]; split; try done; [by left|intros _; by apply Hp]|by apply call_failed_eff]. }
  all: case_bool_decide as Hs; [|intros H; eapply ceff_from; [..|by apply call_failed_eff in H]; try done; intros H1 H2; try (by destruct (H2 r)); injection H as _ <-; destruct H1 as [?|[?|[? ?]]]; congruence].
  1-2: intros [= <- <-]; split; try done; [by left|intros _; by apply Hp].
  cbn zeta. intros H. apply close_begin_eff in H. eapply ceff_from; [..|exact H]; done.
Qed.
Lemma close_begin_failed w r w' ret : close_begin w r = LNext w' ret -> l_failed w' = l_failed w.
Proof. unfold close_begin. destruct (l_stream w); [destruct (l_half w); [done|]|]; by intros [= <- <-]. Qed.
Lemma finish_begin_failed p w c w' ret : finish_begin p w c = LNext w' ret -> l_failed w' = l_failed w.
Proof.
  unfold finish_begin. destruct (build_chunk _ _) as [[d|]|]; [| |done].
  - unfold write_begin. destruct (l_stream _); [by intros [= <- <-]|]. destruct (p_flight p); [destruct (_ || _); [done|]|]; by intros [= <- <-].
  - unfold call_failed. destruct c; [by intros [= <- <-]..|]. destruct (_ || _); [by intros [= <- <-]|]. apply close_begin_failed.
Qed.
Lemma finish_begin_eff p w c w' ret : finish_begin p w c = LNext w' ret -> ceff c w w' ret.
Proof.
  unfold finish_begin. destruct (build_chunk _ _) as [[d|]|]; [|by apply call_failed_eff|done]. intros H. apply write_begin_eff in H as [H _]. eapply ceff_from; [..|exact H]; done.
Qed.

Lemma lsend_fields w m o : l_hist (lsend w m o) = l_hist w /\ l_written (lsend w m o) = l_written w /\ l_pending (lsend w m o) = l_pending w /\ l_made (lsend w m o) = l_made w /\ l_confirmed (lsend w m o) = l_confirmed w /\ l_closed (lsend w m o) = l_closed w /\ l_failed (lsend w m o) = l_failed w.
Proof. unfold lsend. by destruct (delivered o). Qed.
Lemma item_write_eff p w c req keep o w' ret : item_write p w c req keep o = LNext w' ret -> ceff c w w' ret.
Proof.
  unfold item_write. destruct (l_pending w) as [|it rest] eqn:Ep; [done|]. destruct (l_half w); [done|]. destruct (lsend_fields w (litem_message p it req keep) o) as (S1 & S2 & S3 & S4 & S5 & S6 & S7).
  destruct (write_ok o); intros [= <- <-]; split; unfold pkeys; cbn; rewrite ?S1, ?S2, ?S3, ?S4, ?S5, ?S6, ?S7; try done; try (by eexists).
  - intros k Hk. apply elem_of_app. by left.
  - intros k. rewrite Ep. cbn. rewrite elem_of_cons, elem_of_app, elem_of_list_singleton. tauto.
  - intros k Hk. by left.
Qed.
Lemma chunk_scan_eff w c ch rest req keep big o w' ret : chunk_scan w c ch rest req keep big o = LNext w' ret -> ceff c w w' ret.
Proof.
  unfold chunk_scan. destruct (_ && _); [|intros [= <- <-]; split; try done; [by eexists|by left]]. destruct big; [|intros [= <- <-]; split; try done; [by eexists|by left]].
  destruct (l_half w); [done|]. set (m := mkIreq _ None). destruct (lsend_fields w m o) as (S1 & S2 & S3 & S4 & S5 & S6 & S7).
  destruct (write_ok o); intros [= <- <-]; split; unfold pkeys; cbn; rewrite ?S1, ?S2, ?S3, ?S4, ?S5, ?S6, ?S7; try done; try (by eexists); by left.
Qed.
Lemma call_step_eff p w c ph big o nk w' ret : pinv p w -> l_pos w = LRun c ph -> call_step p w c ph big o nk = LNext w' ret -> ceff c w w' ret.
Proof.
  intros [_ _ HP] E. rewrite E in HP. destruct ph as [rest req keep|req keep|req keep| | | | | | |]; cbn [call_step].
  - destruct rest as [|ch rest]; [intros [= <- <-]; split; try done; [by eexists|by left]|]. apply chunk_scan_eff.
  - destruct (l_pending w) as [|it rest] eqn:Ep; [by apply write_end_eff|].
    destruct (p_flight p); [destruct (confirm_items w _) as [[]|]|]; intros [= <- <-]; (split; try done; [by eexists|by left]).
  - apply item_write_eff.
  - destruct (l_half w); [done|]. intros [= <- <-]. split; try done; [by eexists|by left].
  - destruct (stop_worker p w) as [st w1] eqn:Es. apply stop_worker_fields in Es as (b & f & ->). case_bool_decide; [intros [= <- <-]; split; try done; [by eexists|by left]|].
    intros H2. apply write_end_eff in H2; [|done]. eapply ceff_from; [..|exact H2]; done.
  - done.
  - destruct (confirm_items w 0) as [b|]; [|done]. destruct HP as (-> & _ & _ & Hp). intros [= <- <-]. split; try done; by left.
  - destruct (confirm_items w 0); [|done]. intros [= <- <-]. split; try done; [by eexists|by left].
  - destruct (stop_worker p w) as [st w1] eqn:Es. apply stop_worker_fields in Es as (b & f & ->). intros [= <- <-]. split; try done; [by eexists|by left].
  - done.
Qed.
Lemma stream_finish_eff p w st nk c ph w' ret : pinv p w -> l_pos w = LRun c ph -> (forall c, l_pos w = LRun c PFinish -> st <> Ok) -> stream_finish p w st nk = LNext w' ret -> ceff c w w' ret.
Proof.
  intros [_ _ HP] E Hst. rewrite E in HP. unfold stream_finish. rewrite E. destruct ph; try done.
  - specialize (Hst c E). destruct (_ && _).
    + intros H. apply write_begin_eff in H as [H _]. eapply ceff_from; [..|exact H]; done.
    + intros H. apply write_end_eff in H; [|done]. eapply ceff_from; [..|exact H]; done.
  - destruct HP as ((r & ->) & _). intros [= <- <-]. split; try done; [by left|]. intros H. by destruct (H r).
Qed.

(** The beginning of a call. *)
Record beff (e : lev) (w w' : lw) (ret : option status) : Prop := {
  g_idle : l_pos w = LIdle;
  g_pos : match ret with
          | None => match e with LAppend d => exists old ph, l_pos w' = LRun (CAppend old) ph | LCreate _ _ _ key => exists ph, l_pos w' = LRun (CCreate key) ph
                    | LFlush => exists ph, l_pos w' = LRun CFlush ph | LClose r => exists ph, l_pos w' = LRun (CClose r) ph | _ => False end
          | Some _ => l_pos w' = LIdle end;
  g_hist : l_hist w' = match e with LAppend d => match ret with None | Some Ok => l_hist w ++ [d] | _ => l_hist w end | _ => l_hist w end;
  g_written : forall k, k ∈ l_written w -> k ∈ l_written w';
  g_pend : forall k, k ∈ pkeys w -> k ∈ pkeys w' \/ k ∈ l_written w';
  g_create : forall t n pr key, e = LCreate t n pr key -> match ret with
               | Some st => st = Ok -> (key ∈ pkeys w' \/ key ∈ l_written w') /\ exists tr, l_made w' = l_made w ++ [mkLmade (mkLitem key t pr tr) n (l_hist w) (steps_held w)]
               | None => (key ∈ pkeys w' \/ key ∈ l_written w') /\ l_pending w = [] /\ exists tr, l_made w' = l_made w ++ [mkLmade (mkLitem key t pr tr) n (l_hist w) (steps_held w)] end;
  g_made : forall m, m ∈ l_made w -> m ∈ l_made w';
  g_conf : l_confirmed w ⊆ l_confirmed w';
  g_failed : l_failed w' = l_failed w;
  g_flush : e = LFlush -> ret <> Some Ok /\ (ret = None -> l_pending w = [] -> l_pos w' = LRun CFlush PWait) }.

Lemma append_eff p w d w' ret : l_pos w = LIdle -> append p w d = LNext w' ret -> beff (LAppend d) w w' ret.
Proof.
  intros E. unfold append. destruct (l_closed w); [intros [= <- <-]; split; try done; by left|]. destruct (match l_buffer w with [] => _ | _ => _ end); [intros [= <- <-]; split; try done; by left|]. destruct (l_ring w !! l_loc w) as [old|]; [|done]. cbn zeta.
  set (w1 := ls_append w _ _ _ _). destruct (_ <? _)%nat; [intros [= <- <-]; split; try done; by left|]. intros H. pose proof (finish_begin_eff _ _ _ _ _ H) as []. split; try done.
  - destruct ret; [done|]. by exists old.
  - rewrite f_hist0. destruct ret as [st|]; [|done]. cbn. rewrite removelast_last. by destruct st.
  - intros k Hk. destruct (f_pend0 k Hk) as [?|[Hw|(key & st & ? & _)]]; [by left|by right|done].
  - intros m. by rewrite f_made0.
  - by rewrite (finish_begin_failed _ _ _ _ _ H).
Qed.
Lemma create_eff p w t n pr key w' ret : pinv p w -> l_pos w = LIdle -> lw_create p w t n pr key = LNext w' ret -> beff (LCreate t n pr key) w w' ret.
Proof.
  intros I E. unfold lw_create.
  assert (RF : forall st, st <> Ok -> beff (LCreate t n pr key) w w (Some st)) by (intros st Hs; split; try done; by left).
  destruct (l_closed w) eqn:Hc; [intros [= <- <-]; by apply RF|]. destruct (_ || _); [intros [= <- <-]; by apply RF|]. destruct (_ <? _); [intros [= <- <-]; by apply RF|].
  destruct (check_signature _ _ _ _) as [st|]; [|done]. destruct (negb _) eqn:Hst; [intros [= <- <-]; apply RF; by intros -> |].
  match goal with |- context [match ?x with Some tr => _ | None => LCrash end] => destruct x as [tr|] end; [|done]. cbn zeta.
  set (w1 := ls_create w _ _). change (l_buffer w1) with (l_buffer w). destruct (l_buffer w) eqn:Eb.
  - intros H. apply write_begin_eff in H as [[] ->]. split; try done.
    + intros k Hk. destruct (f_pend0 k) as [?|[Hw|(key' & st' & _ & ? & _)]]; [|by left|by right|done]. unfold pkeys. cbn. rewrite fmap_app, elem_of_app. by left.
    + intros ? ? ? ? [= <- <- <- <-]. split; [|split].
      * destruct (f_pend0 key) as [?|[Hw|(key' & st' & _ & ? & _)]]; [|by left|by right|done]. unfold pkeys; cbn; rewrite fmap_app, elem_of_app; right; by left.
      * destruct I as [_ _ HP]. rewrite E in HP. destruct (HP Hc) as [(_ & H & _) _]. by apply H.
      * exists tr. by rewrite f_made0.
    + intros m. rewrite f_made0. cbn. rewrite elem_of_app. by left.
    + by rewrite f_failed0 by auto.
  - intros [= <- <-]. split; try done.
    + intros k Hk. left. unfold pkeys. cbn. rewrite fmap_app, elem_of_app. by left.
    + intros ? ? ? ? [= <- <- <- <-] _. split; [|by exists tr]. left. unfold pkeys. cbn. rewrite fmap_app, elem_of_app. right; by left.
    + intros m. cbn. rewrite elem_of_app. by left.
Qed.
Lemma flush_eff p w w' ret : l_pos w = LIdle -> lw_flush p w = LNext w' ret -> beff LFlush w w' ret.
Proof.
  intros E. unfold lw_flush. destruct (l_closed w); [intros [= <- <-]; split; try done; by left|]. destruct (l_pending w) as [|it rest] eqn:Ep.
  - intros [= <- <-]. split; try done; [by eexists|by left].
  - intros H. pose proof (finish_begin_eff _ _ _ _ _ H) as []. split; try done.
    + rewrite f_hist0. by destruct ret.
    + intros k Hk. destruct (f_pend0 k Hk) as [?|[Hw|(key & st & ? & _)]]; [by left|by right|done].
    + intros m. by rewrite f_made0.
    + by rewrite (finish_begin_failed _ _ _ _ _ H).
    + intros _. split; [|by rewrite Ep]. intros ->. unfold finish_begin in H. destruct (build_chunk _ _) as [[d|]|]; [|done|done]. apply write_begin_eff in H as [_ H]. done.
Qed.
Lemma close_eff p w r w' ret : l_pos w = LIdle -> lw_close p w r = LNext w' ret -> beff (LClose r) w w' ret.
Proof.
  intros E. unfold lw_close. destruct (l_closed w); [intros [= <- <-]; split; try done; by left|]. intros H.
  assert (C : ceff (CClose r) w w' ret) by (destruct (l_pending w); [by apply close_begin_eff|by eapply finish_begin_eff]). destruct C. split; try done.
  - rewrite f_hist0. by destruct ret.
  - intros k Hk. destruct (f_pend0 k Hk) as [?|[Hw|(key & st & ? & _)]]; [by left|by right|done].
  - intros m. by rewrite f_made0.
  - destruct (l_pending w); [by rewrite (close_begin_failed _ _ _ _ H)|by rewrite (finish_begin_failed _ _ _ _ _ H)].
Qed.

(** Every action. *)
Inductive seff (w : lw) (e : lev) (w' : lw) (ret : option status) : Prop :=
| se_begin : is_call e = true -> beff e w w' ret -> seff w e w' ret
| se_go c ph : is_call e = false -> l_pos w = LRun c ph -> ceff c w w' ret -> seff w e w' ret
| se_worker : is_call e = false -> ret = None -> l_pos w' = l_pos w -> l_hist w' = l_hist w -> l_written w' = l_written w -> l_pending w' = l_pending w -> l_made w' = l_made w ->
    l_closed w' = l_closed w -> l_confirmed w ⊆ l_confirmed w' -> l_failed w' = l_failed w -> seff w e w' ret.
Lemma lw_step_eff p w e w' ret : pinv p w -> lw_enabled w e -> lw_step p w e = LNext w' ret -> seff w e w' ret.
Proof.
  intros I He. destruct e as [data|table m prio key| |r|big o nk|st nk|m|]; cbn [lw_step]; unfold idle.
  - destruct (l_pos w) eqn:E; [|done]. intros H. apply se_begin; [done|]. by eapply append_eff.
  - destruct (l_pos w) eqn:E; [|done]. intros H. apply se_begin; [done|]. by eapply create_eff.
  - destruct (l_pos w) eqn:E; [|done]. intros H. apply se_begin; [done|]. by eapply flush_eff.
  - destruct (l_pos w) eqn:E; [|done]. intros H. apply se_begin; [done|]. by eapply close_eff.
  - destruct (l_pos w) as [|c ph] eqn:E; [done|]. intros H. eapply se_go; [done|exact E|]. by eapply call_step_eff.
  - intros H. destruct (l_pos w) as [|c ph] eqn:E; [unfold stream_finish in H; by rewrite E in H|]. eapply se_go; [done|exact E|]. eapply stream_finish_eff; [done|exact E|apply He|exact H].
  - destruct (_ && _); [|done]. intros [= <- <-]. apply se_worker; try done. cbn. apply union_subseteq_l.
  - destruct (_ && _); [|done]. intros [= <- <-]. by apply se_worker.
Qed.

(** ** The invariant *)

Definition matches (c : lcall) (e : lev) (hist : list step) : Prop :=
  match c with
  | CAppend _ => exists d h, e = LAppend d /\ hist = h ++ [d]
  | CCreate key => exists t n pr, e = LCreate t n pr key
  | CFlush => e = LFlush
  | CClose r => e = LClose r
  end.
Definition creating (x : lpos) : Prop := match x with LRun (CCreate _) _ => True | _ => False end.
Record tinv (tr : list (lev * option status)) (w : lw) : Prop := {
  t_cur : match l_pos w with LIdle => current tr = None | LRun c _ => exists e, current tr = Some e /\ matches c e (l_hist w) end;
  t_app : appended (returned tr) = match l_pos w with LRun (CAppend _) _ => removelast (l_hist w) | _ => l_hist w end;
  t_made : forall tr1 tr2 t n pr key ret, tr = tr1 ++ (LCreate t n pr key, ret) :: tr2 -> ret = None \/ ret = Some Ok ->
             exists m, m ∈ l_made w /\ li_key (lm_item m) = key /\ li_table (lm_item m) = t /\ lm_n m = n /\ lm_hist m = appended (returned tr1);
  t_items : forall key, key ∈ created (returned tr) -> key ∈ l_written w \/ (key ∈ pkeys w /\ ~ creating (l_pos w));
  t_new : forall key ph, l_pos w = LRun (CCreate key) ph -> key ∈ l_written w \/ key ∈ pkeys w;
  t_clean : last (returned tr) = Some (LFlush, Ok) -> (l_pos w = LIdle -> l_pending w = [] /\ l_closed w = false) /\ forall ph, l_pos w = LRun CFlush ph -> ph = PWait }.

Lemma wait_step p w e w' c : l_pos w = LRun c PWait -> lw_step p w e = LNext w' None -> l_pos w' = l_pos w.
Proof.
  intros E. destruct e as [data|table m prio key| |r|big o nk|st nk|m|]; cbn [lw_step]; unfold idle; rewrite ?E; try done.
  - cbn [call_step]. destruct (confirm_items w 0); done.
  - unfold stream_finish. by rewrite E.
  - destruct (_ && _); [|done]. by intros [= <-].
  - destruct (_ && _); [|done]. by intros [= <-].
Qed.

Lemma snoc_split {A} (l : list A) x l1 y l2 : l ++ [x] = l1 ++ y :: l2 -> (l1 = l /\ y = x /\ l2 = []) \/ exists l2', l = l1 ++ y :: l2' /\ l2 = l2' ++ [x].
Proof.
  destruct l2 as [|z l2 _] using rev_ind.
  - intros H. apply app_inj_tail in H as [-> ->]. by left.
  - intros H. right. exists l2. rewrite app_comm_cons, app_assoc in H. apply app_inj_tail in H as [-> ->]. done.
Qed.
Lemma last_created rs e st : created (rs ++ [(e, st)]) = created rs ++ match e, st with LCreate _ _ _ key, Ok => [key] | _, _ => [] end.
Proof. rewrite created_app. by destruct e, st. Qed.
Lemma last_appended rs e st : appended (rs ++ [(e, st)]) = appended rs ++ match e, st with LAppend d, Ok => [d] | _, _ => [] end.
Proof. rewrite appended_app. by destruct e, st. Qed.

Lemma tinv_step p tr w e w' ret : pinv p w -> tinv tr w -> lw_enabled w e -> lw_step p w e = LNext w' ret -> tinv (tr ++ [(e, ret)]) w'.
Proof.
  intros I T He E. pose proof (lw_step_eff p w e w' ret I He E) as S. destruct T as [T1 T2 T3 T4 T5 T6]. unfold current, returned in *.
  destruct S as [Hc B|c ph Hc Hp C|Hc -> S1 S2 S3 S4 S5 S6 S7 _].
  - destruct B. rewrite g_idle0 in *. split; unfold current, returned; rewrite ?calls_snoc; unfold ret_step; cbn [fst snd]; rewrite ?Hc.
    + destruct ret as [st|]; cbn [fst snd]; [by rewrite g_pos0|]. destruct e; try done.
      * destruct g_pos0 as (old & ph & ->). exists (LAppend data). split; [done|]. cbn. exists data, (l_hist w). done.
      * destruct g_pos0 as (ph & ->). eexists. split; [done|]. cbn. by eexists _, _, _.
      * destruct g_pos0 as (ph & ->). by eexists.
      * destruct g_pos0 as (ph & ->). by eexists.
    + destruct ret as [st|]; cbn [fst snd].
      * rewrite last_appended, g_pos0, T2, g_hist0. destruct e; rewrite ?app_nil_r; try done. destruct st; by rewrite ?app_nil_r.
      * destruct e; try done.
        -- destruct g_pos0 as (old & ph & ->). by rewrite g_hist0, removelast_last.
        -- destruct g_pos0 as (ph & ->). by rewrite g_hist0.
        -- destruct g_pos0 as (ph & ->). by rewrite g_hist0.
        -- destruct g_pos0 as (ph & ->). by rewrite g_hist0.
    + intros tr1 tr2 t n pr key ret' Htr Hret. apply snoc_split in Htr as [(-> & [= <- <-] & ->)|(tr2' & -> & ->)].
      * specialize (g_create0 _ _ _ _ eq_refl). assert (exists trj, l_made w' = l_made w ++ [mkLmade (mkLitem key t pr trj) n (l_hist w) (steps_held w)]) as [trj Em].
        { destruct Hret as [->| ->]; [apply g_create0|by apply g_create0]. }
        rewrite Em. eexists. split; [apply elem_of_app; right; by apply elem_of_list_singleton|]. cbn. rewrite T2. done.
      * destruct (T3 _ _ _ _ _ _ _ eq_refl Hret) as (m & M1 & M2). exists m. split; [by apply g_made0|done].
    + intros key Hk. assert (HO : forall key, key ∈ created (calls tr).1 -> key ∈ l_written w' \/ (key ∈ pkeys w' /\ ~ creating (l_pos w'))).
      { intros key' Hk'. destruct (T4 key' Hk') as [Hw|[Hw _]]; [left; by apply g_written0|]. destruct e; try done.
        all: destruct ret as [st|]; [rewrite g_pos0; destruct (g_pend0 _ Hw); [right; split; [assumption|intros []]|by left]|].
        - destruct g_pos0 as (old & ph & ->). destruct (g_pend0 _ Hw); [right; split; [assumption|intros []]|by left].
        - destruct (g_create0 _ _ _ _ eq_refl) as (_ & Hn & _). unfold pkeys in Hw. rewrite Hn in Hw. by apply elem_of_nil in Hw.
        - destruct g_pos0 as (ph & ->). destruct (g_pend0 _ Hw); [right; split; [assumption|intros []]|by left].
        - destruct g_pos0 as (ph & ->). destruct (g_pend0 _ Hw); [right; split; [assumption|intros []]|by left]. }
      destruct ret as [st|]; cbn [fst snd] in Hk; [|by apply HO]. rewrite last_created, elem_of_app in Hk. destruct Hk as [Hk|Hk]; [by apply HO|].
      destruct e; try (by apply elem_of_nil in Hk). destruct st; try (by apply elem_of_nil in Hk). apply elem_of_list_singleton in Hk as ->.
      destruct (g_create0 _ _ _ _ eq_refl eq_refl) as [[?|?] _]; [right; rewrite g_pos0; split; [assumption|intros []]|by left].
    + intros key ph Hph. destruct ret as [st|]; [congruence|]. destruct e; try done.
      * destruct g_pos0 as (? & ? & ?). congruence.
      * destruct g_pos0 as (ph' & Hp'). rewrite Hp' in Hph. injection Hph as <- _. destruct (g_create0 _ _ _ _ eq_refl) as ([?|?] & _); [by right|by left].
      * destruct g_pos0 as (? & ?). congruence.
      * destruct g_pos0 as (? & ?). congruence.
    + destruct ret as [st|]; cbn [fst snd].
      * rewrite last_snoc. intros [= -> ->]. by destruct (g_flush0 eq_refl).
      * intros Hl. destruct (T6 Hl) as [T7 _]. split; [intros Hi; exfalso; destruct e; try done; destruct g_pos0 as (? & g_pos0); [destruct g_pos0 as [? ?]|..]; congruence|].
        intros ph Hph. destruct e; try done; destruct g_pos0 as (? & g_pos0); [destruct g_pos0 as [? ?]; congruence|congruence| |congruence].
        destruct (g_flush0 eq_refl) as [_ G]. rewrite G in Hph; [by injection Hph|done|by apply T7].
  - destruct C. rewrite Hp in *. destruct T1 as (ec & T1 & TM).
    assert (HR : ret_step (calls tr) (e, ret) = match ret with Some st => ((calls tr).1 ++ [(ec, st)], None) | None => ((calls tr).1, Some ec) end).
    { unfold ret_step. cbn [fst snd]. rewrite Hc, T1. by destruct ret. }
    split; unfold current, returned; rewrite ?calls_snoc; rewrite ?HR.
    + destruct ret as [st|]; cbn [fst snd]; [by rewrite f_pos0|]. destruct f_pos0 as (ph' & ->). exists ec. split; [done|]. by rewrite f_hist0.
    + destruct ret as [st|]; cbn [fst snd].
      * rewrite last_appended, T2, f_pos0, f_hist0. destruct c as [old|key| |r]; cbn in TM.
        -- destruct TM as (d & h & -> & ->). rewrite removelast_last. destruct (decide (st = Ok)) as [->|Hst]; [done|]. destruct st; by rewrite ?app_nil_r.
        -- destruct TM as (? & ? & ? & ->). by rewrite app_nil_r.
        -- subst ec. by rewrite app_nil_r.
        -- subst ec. by rewrite app_nil_r.
      * destruct f_pos0 as (ph' & ->). rewrite f_hist0. done.
    + intros tr1 tr2 t n pr key ret' Htr Hret. apply snoc_split in Htr as [(-> & [= <- <-] & ->)|(tr2' & -> & ->)]; [done|].
      destruct (T3 _ _ _ _ _ _ _ eq_refl Hret) as (m & M1 & M2). exists m. split; [by rewrite f_made0|done].
    + intros key Hk. assert (HO : forall key, key ∈ created (calls tr).1 -> key ∈ l_written w' \/ (key ∈ pkeys w' /\ ~ creating (l_pos w'))).
      { intros key' Hk'. destruct (T4 key' Hk') as [Hw|[Hw Hn]]; [left; by apply f_written0|]. destruct (f_pend0 _ Hw) as [Hw'|[Hw'|(k2 & st & -> & _)]]; [|by left|by destruct Hn].
        right. split; [done|]. destruct ret as [st|]; [rewrite f_pos0; intros []|]. destruct f_pos0 as (ph' & ->). done. }
      destruct ret as [st|]; cbn [fst snd] in Hk; [|by apply HO]. rewrite last_created, elem_of_app in Hk. destruct Hk as [Hk|Hk]; [by apply HO|].
      destruct ec; try (by apply elem_of_nil in Hk). destruct st; try (by apply elem_of_nil in Hk). apply elem_of_list_singleton in Hk as ->.
      destruct c as [old|key'| |r]; cbn in TM; [destruct TM as (? & ? & ? & _); done| |done|done]. destruct TM as (? & ? & ? & [= -> -> -> ->]).
      destruct (T5 _ _ eq_refl) as [Hw|Hw]; [left; by apply f_written0|]. destruct (f_pend0 _ Hw) as [Hw'|[Hw'|(k2 & st & _ & [= <-] & ?)]]; [|by left|done]. right. split; [done|]. rewrite f_pos0. intros [].
    + intros key ph' Hph. destruct ret as [st|]; [congruence|]. destruct f_pos0 as (ph'' & Hp'). rewrite Hph in Hp'. injection Hp' as <- ->.
      destruct (T5 _ _ eq_refl) as [Hw|Hw]; [left; by apply f_written0|]. destruct (f_pend0 _ Hw) as [Hw'|[Hw'|(k2 & st & _ & ? & ?)]]; [by right|by left|done].
    + destruct ret as [st|]; cbn [fst snd].
      * rewrite last_snoc. intros [= -> ->]. split; [|congruence]. intros _. destruct c as [old|key'| |r]; cbn in TM; [destruct TM as (? & ? & ? & _); done|destruct TM as (? & ? & ? & ?); done| |done].
        split; [by apply f_ok0|]. rewrite f_closed0 by done. destruct (l_closed w) eqn:Hcl; [|done]. apply (a_closed p w I) in Hcl. congruence.
      * intros Hl. destruct f_pos0 as (ph' & Hp'). split; [congruence|]. intros ph2 Hp2. rewrite Hp' in Hp2. injection Hp2 as -> ->. destruct (T6 Hl) as [_ T7]. rewrite (T7 ph) in Hp by done.
        apply (wait_step _ _ _ _ _ Hp) in E. rewrite E, Hp in Hp'. by injection Hp'.
  - assert (HR : ret_step (calls tr) (e, None) = calls tr) by (unfold ret_step; cbn [fst snd]; rewrite Hc; by destruct (calls tr)).
    split; unfold current, returned, pkeys in *; rewrite ?calls_snoc, ?HR, ?S1, ?S2, ?S3, ?S4, ?S5, ?S6; try done.
    intros tr1 tr2 t n pr key ret' Htr Hret. apply snoc_split in Htr as [(-> & [= <- ->] & ->)|(tr2' & -> & ->)]; [done|]. by eapply T3.
Qed.
Theorem lw_trace_inv p key tr w : conf_ok p -> lw_trace p (lw_new p key) tr w -> tinv tr w.
Proof.
  intros Hcf. induction 1 as [|tr w e w' ret H IH He E].
  - split; try done; [intros tr1 tr2 * H; by destruct tr1|intros k Hk; by apply elem_of_nil in Hk].
  - eapply tinv_step; [eapply lw_reach_inv; [done|by eapply trace_reach]|exact IH|exact He|exact E].
Qed.

(** ** Runs in which nothing fails *)

(** Close is not called, and Append and Flush return OK. *)
Definition smooth (tr : list (lev * option status)) : Prop :=
  (forall r ret, (LClose r, ret) ∉ tr) /\ forall e st, (e, st) ∈ returned tr -> match e with LAppend _ | LFlush => st = Ok | _ => True end.
Lemma returned_snoc tr x : exists l, returned (tr ++ [x]) = returned tr ++ l.
Proof. unfold returned. rewrite calls_snoc. unfold ret_step. destruct x.2, (if is_call x.1 then Some x.1 else (calls tr).2); cbn; first [by eexists|exists []; by rewrite app_nil_r]. Qed.
Lemma smooth_snoc tr x : smooth (tr ++ [x]) -> smooth tr.
Proof.
  intros [H1 H2]. split; [intros r ret Hx; apply (H1 r ret), elem_of_app; by left|]. intros e st Hx. apply H2. destruct (returned_snoc tr x) as [l ->]. apply elem_of_app. by left.
Qed.
Lemma matches_close c e h r : matches c e h -> c = CClose r -> e = LClose r.
Proof. by intros H ->. Qed.
Lemma current_in tr e : current tr = Some e -> exists ret, (e, ret) ∈ tr.
Proof.
  induction tr as [|[e' ret'] tr IH] using rev_ind; [done|]. unfold current in *. rewrite calls_snoc. unfold ret_step. cbn. destruct (is_call e') eqn:Ec; destruct ret'; cbn; try done.
  - intros [= ->]. exists None. apply elem_of_app. right. by apply elem_of_list_singleton.
  - destruct (calls tr).2; [done|]. cbn. done.
  - intros H. destruct (IH H) as (ret & Hr). exists ret. apply elem_of_app. by left.
Qed.
Theorem smooth_ok p key tr w : conf_ok p -> lw_trace p (lw_new p key) tr w -> smooth tr -> l_failed w = false.
Proof.
  intros Hcf H. induction H as [|tr w e w' ret H IH He E]; intros Hs; [done|]. pose proof (smooth_snoc _ _ Hs) as Hs'. specialize (IH Hs'). pose proof (lw_trace_inv _ _ _ _ Hcf H) as T.
  assert (I : pinv p w) by (eapply lw_reach_inv; [done|by eapply trace_reach]). pose proof (lw_step_eff p w e w' ret I He E) as S. destruct S as [Hc B|c ph Hc Hp C|Hc -> S1 S2 S3 S4 S5 S6 S7 S8].
  - by rewrite (g_failed _ _ _ _ B).
  - pose proof (t_cur _ _ T) as T1. rewrite Hp in T1. destruct T1 as (ec & T1 & TM). rewrite (f_failed _ _ _ _ C); [done| |].
    + destruct ret as [st|]; [|by left]. right. destruct Hs as [_ Hs]. specialize (Hs ec st). unfold returned in Hs. rewrite calls_snoc in Hs. unfold ret_step in Hs. cbn [fst snd] in Hs. rewrite Hc in Hs. unfold current in T1. rewrite T1 in Hs. cbn in Hs.
      specialize (Hs ltac:(apply elem_of_app; right; by apply elem_of_list_singleton)). destruct c as [old|key'| |r]; cbn in TM.
      * destruct TM as (? & ? & -> & _). left. by rewrite Hs.
      * right. by exists key'.
      * subst ec. left. by rewrite Hs.
      * subst ec. destruct (current_in _ _ T1) as (ret' & Hin). destruct Hs' as [Hs' _]. by destruct (Hs' r ret').
    + intros r ->. cbn in TM. subst ec. destruct (current_in _ _ T1) as (ret' & Hin). destruct Hs' as [Hs' _]. by destruct (Hs' r ret').
  - by rewrite S8.
Qed.

(** Without Flush all chunks are full. *)
Definition full (p : lconf) (w : lw) : Prop :=
  Forall (fun c => length (lc_rows c) = p_len p) (l_chunks w) /\ match cb (l_pos w) with None => (length (l_buffer w) < p_len p)%nat | Some (CAppend _) => length (l_buffer w) = p_len p | _ => False end.
Theorem full_chunks p key tr w : conf_ok p -> lw_trace p (lw_new p key) tr w -> smooth tr -> (forall ret, (LFlush, ret) ∉ tr) -> full p w.
Proof.
  intros Hcf H. induction H as [|tr w e w' ret H IH He E]; intros Hs Hn; [split; [constructor|]; cbn; destruct Hcf; lia|]. pose proof (smooth_snoc _ _ Hs) as Hs'.
  assert (Hn' : forall ret, (LFlush, ret) ∉ tr) by (intros r Hr; apply (Hn r), elem_of_app; by left). specialize (IH Hs' Hn').
  assert (I : pinv p w) by (eapply lw_reach_inv; [done|by eapply trace_reach]). pose proof (lw_step_data p w e w' ret Hcf I He E) as D.
  assert (Hf : l_failed w' = false) by (eapply (smooth_ok p key); [done|by econstructor|done]).
  assert (T : tinv (tr ++ [(e, ret)]) w') by (eapply lw_trace_inv; [done|by econstructor]). destruct IH as [IH1 IH2]. unfold full.
  destruct D as [new pre C1 C2 C3 C4 C5 C6 _ _ C7 C8 C9 C10 C11 C12|data Cl C0 C1 C2 C3 C4 C5 _ _ C6 C7 C8 C9 C10|data old d Cl C0 C1 C2 C3 C4 C5 C6 _ _ _ C7 C8 C9 C10 C11|c d C0 C1 Cc C2 C3 C4 C5 C6 _ _ C7 C8 C9 C10 C11|nk pre c C0 C1 C2 C3 C4 C5 C6 _ _ C7 C8 C9 C10 C11|c C1 C2 C3 C4 _|table n prio k cols trj C0 C1 C2 C3 C4 C5 _ _ C6 C7 C8 C9 C10 C11 C12 _ C13 C14].
  - rewrite C1, C4. split; [|done]. rewrite C2 in IH1. by apply Forall_app in IH1 as [_ ?].
  - rewrite C1, C2. done.
  - rewrite C1, C2, C3. rewrite C0 in IH2. rewrite C3, app_length in Cl. cbn in Cl. assert (EL : (length (l_buffer w) + 1 = p_len p)%nat) by lia. rewrite app_length. split; [|done]. apply Forall_app. split; [done|]. repeat constructor. cbn. by rewrite app_length.
  - exfalso. pose proof (t_cur _ _ T) as T1. unfold cb in C1. destruct (l_pos w') as [|c' ph]; [done|]. destruct T1 as (ec & T1 & TM).
    assert (c' = c) as -> by (destruct ph; try done; destruct c'; congruence). destruct (current_in _ _ T1) as (ret' & Hin). destruct c as [old|k| |r]; cbn in TM.
    + by destruct (Cc old).
    + by destruct ph.
    + subst ec. by apply (Hn ret').
    + subst ec. destruct Hs as [Hs _]. by apply (Hs r ret').
  - rewrite C1, C4. rewrite C3 in IH1. apply Forall_app in IH1 as [_ ?]. split; [done|]. cbn. destruct Hcf. lia.
  - congruence.
  - rewrite C1, C2, C3. by rewrite C0 in IH2.
Qed.
