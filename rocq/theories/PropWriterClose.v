(** C101: closing a Writer. *)
From Verif Require Import Base Trajectory Tensor TrajUtil ChunkerOptions Sample Stream Reactor PropTraj PropSample PropStream PropInsertStream
  Chunker PropChunker PropDelta TrajWriter TrajWriterProofs PropTrajWriter Writer WriterProofs WriterConf WriterData WriterPlace WriterOwn WriterTrace PropWriter WriterClose.
Local Open Scope Z_scope.

(** ** Proofs about the C++ writer *)

Definition closing (ph : lphase) : bool := match ph with PCloseWait | PCloseStop | PCloseFinish => true | _ => false end.
Definition qinv (w : lw) : Prop := forall ph, l_pos w = LRun (CClose true) ph -> closing ph = true -> l_pending w = [].
Definition qres (r : bool) (w : lw) (ret : option status) : Prop :=
  (ret = Some Ok -> l_closed w = true /\ (r = true -> l_pending w = [])) /\ (r = true -> qinv w).

Lemma close_begin_q w r w' ret : (r = true -> l_pending w = []) -> close_begin w r = LNext w' ret -> qres r w' ret.
Proof.
  intros Hp. unfold close_begin. destruct (l_stream w); [destruct (l_half w); [done|]|]; intros [= <- <-]; split; try done.
  intros Hr ph _ _. by apply Hp.
Qed.
Lemma write_begin_q p w r w' ret : write_begin p w (CClose r) = LNext w' ret -> qres r w' ret.
Proof.
  unfold write_begin. destruct (l_stream w); [intros [= <- <-]|destruct (p_flight p); [destruct (_ || _); [done|]|]; intros [= <- <-]];
    (split; [done|]; intros Hr ph Hp Hc; cbn in Hp; injection Hp as _ <-; done).
Qed.
Lemma call_failed_q p w r st w' ret : st <> Ok -> call_failed p w (CClose r) st = LNext w' ret -> qres r w' ret.
Proof.
  intros Hs. cbn [call_failed]. destruct (negb _ || r) eqn:Hr.
  - intros [= <- <-]. split; [by intros [= ->]|]. intros _ ph Hp. done.
  - apply orb_false_iff in Hr as [_ ->]. by apply close_begin_q.
Qed.
Lemma write_end_q p w r st nk w' ret : (st = Ok -> l_pending w = []) -> write_end p w (CClose r) st nk = LNext w' ret -> qres r w' ret.
Proof.
  intros Hs. cbn [write_end]. destruct (decide (st = Ok)) as [->|Hne].
  - rewrite bool_decide_eq_true_2 by done. apply close_begin_q. intros _. by apply Hs.
  - rewrite bool_decide_eq_false_2 by done. by apply call_failed_q.
Qed.
Lemma finish_begin_q p w r w' ret : finish_begin p w (CClose r) = LNext w' ret -> qres r w' ret.
Proof.
  unfold finish_begin. destruct (build_chunk _ _) as [[d|]|]; [|by apply call_failed_q|done]. apply write_begin_q.
Qed.
Lemma pos_q r w : (forall ph, l_pos w = LRun (CClose r) ph -> closing ph = false) -> qres r w None.
Proof. intros H. split; [done|]. intros -> ph Hp Hc. by rewrite (H ph Hp) in Hc. Qed.

Lemma call_step_q p w r ph big o nk w' ret : pinv p w -> qinv w -> l_pos w = LRun (CClose r) ph -> call_step p w (CClose r) ph big o nk = LNext w' ret -> qres r w' ret.
Proof.
  intros [_ _ HP] Q E. rewrite E in HP. destruct ph as [[|ch rest] req keep|req keep|req keep| | | | | | |]; cbn [call_step].
  - intros [= <- <-]. apply pos_q. cbn. by intros ph [= <-].
  - unfold chunk_scan. destruct (_ && _); [destruct big; [destruct (l_half w); [done|]; destruct (write_ok o)|]|];
      intros [= <- <-]; apply pos_q; cbn; by intros ph [= <-].
  - destruct (l_pending w) eqn:Ep; [by apply write_end_q|]. destruct (p_flight p).
    + destruct (confirm_items _ _) as [[]|]; [| |done]; intros [= <- <-]; apply pos_q; cbn; by intros ph [= <-].
    + intros [= <- <-]; apply pos_q; cbn; by intros ph [= <-].
  - unfold item_write. destruct (l_pending w); [done|]. destruct (l_half w); [done|]. destruct (write_ok o); intros [= <- <-]; apply pos_q; cbn; by intros ph [= <-].
  - destruct (l_half w); [done|]. intros [= <- <-]; apply pos_q; cbn; by intros ph [= <-].
  - destruct (stop_worker p w) as [st w1] eqn:Es. destruct (decide (st = Ok)) as [->|Hne].
    + rewrite bool_decide_eq_true_2 by done. intros [= <- <-]; apply pos_q; cbn; by intros ph [= <-].
    + rewrite bool_decide_eq_false_2 by done. by apply write_end_q.
  - done.
  - by destruct HP as (? & _).
  - destruct (confirm_items _ _); [|done]. intros [= <- <-]. split; [done|]. intros -> ph _ _. by apply (Q PCloseWait).
  - destruct (stop_worker p w) as [st w1] eqn:Es. intros [= <- <-]. split; [done|]. intros -> ph _ _. cbn.
    assert (l_pending w1 = l_pending w) as ->; [|by apply (Q PCloseStop)].
    unfold stop_worker in Es. destruct (p_flight p); [destruct (0 <? l_flight w)|]; by injection Es as _ <-.
  - done.
Qed.
Lemma stream_finish_q p w r ph st nk w' ret : qinv w -> l_pos w = LRun (CClose r) ph -> (ph = PFinish -> st <> Ok) -> stream_finish p w st nk = LNext w' ret -> qres r w' ret.
Proof.
  intros Q E Hs. unfold stream_finish. rewrite E. destruct ph; try done.
  - destruct (_ && _); [apply write_begin_q|]. apply write_end_q. intros ->. by destruct (Hs eq_refl).
  - intros [= <- <-]. split; [|by intros _ ph Hp]. intros _. split; [done|]. intros ->. by apply (Q PCloseFinish).
Qed.

Lemma other_q w : (forall ph, l_pos w <> LRun (CClose true) ph) -> qinv w.
Proof. intros H ph Hp. by destruct (H ph). Qed.

(** One action of the C++ writer. *)
Lemma step_q p w e w' ret : pinv p w -> qinv w -> lw_enabled w e -> lw_step p w e = LNext w' ret ->
  qinv w' /\ forall r, (e = LClose r \/ is_call e = false /\ exists ph, l_pos w = LRun (CClose r) ph) -> ret = Some Ok -> l_closed w' = true /\ (r = true -> l_pending w' = []).
Proof.
  intros I Q He E.
  assert (R : forall r, qres r w' ret -> (forall ph r', l_pos w' = LRun (CClose r') ph -> r' = r) -> qinv w').
  { intros r [_ R] Hr ph Hp Hc. assert (true = r) as <- by (by eapply Hr). by eapply R. }
  pose proof (lw_step_eff p w e w' ret I He E) as S. destruct S as [Hc B|c ph Hc Hp C|Hc -> S1 S2 S3 S4 S5 S6 S7 S8].
  - destruct e as [data|t n pr k| |r|big o nk|st nk|n|]; try done.
    + split; [|by intros r [H|[H _]]]. apply other_q. intros ph Hx. pose proof (g_pos _ _ _ _ B) as G. destruct ret; [congruence|]. destruct G as (? & ? & G). congruence.
    + split; [|by intros r [H|[H _]]]. apply other_q. intros ph Hx. pose proof (g_pos _ _ _ _ B) as G. destruct ret; [congruence|]. destruct G as (? & G). congruence.
    + split; [|by intros r [H|[H _]]]. apply other_q. intros ph Hx. pose proof (g_pos _ _ _ _ B) as G. destruct ret; [congruence|]. destruct G as (? & G). congruence.
    + assert (H : l_closed w = true /\ w' = w /\ ret = Some FailedPrecondition \/ qres r w' ret).
      { pose proof (g_idle _ _ _ _ B) as Gi. cbn [lw_step] in E. unfold idle in E. rewrite Gi in E. unfold lw_close in E.
        destruct (l_closed w); [injection E as <- <-; by left|]. right. destruct (l_pending w) eqn:Ep; [by eapply close_begin_q|by eapply finish_begin_q]. }
      destruct H as [(H1 & -> & ->)|H].
      * split; [done|]. intros r' _ [=].
      * split; [|intros r' [[= <-]|[[=] _]]; apply H]. apply (R r H). intros ph r' Hx. pose proof (g_pos _ _ _ _ B) as G. destruct ret; [congruence|]. destruct G as (? & G). congruence.
  - destruct c as [old|k| |r].
    1-3: split; [|intros r [->|[_ [ph' Hx]]]; [done|congruence]]; apply other_q; intros ph' Hx; pose proof (f_pos _ _ _ _ C) as G; destruct ret; [congruence|]; destruct G as (? & G); congruence.
    assert (H : qres r w' ret).
    { destruct e as [data|t n pr k| |r'|big o nk|st nk|n|]; try done; cbn [lw_step] in E.
      - rewrite Hp in E. by eapply call_step_q.
      - eapply stream_finish_q; [exact Q|exact Hp| |exact E]. intros ->. destruct He as [_ He]. by eapply He.
      - destruct (_ && _); [|done]. injection E as <- <-. split; [done|]. intros ->. exact Q.
      - destruct (_ && _); [|done]. injection E as <- <-. split; [done|]. intros ->. exact Q. }
    split; [|intros r' [->|[_ [ph' Hx]]]; [done|]; assert (r' = r) as -> by congruence; apply H].
    apply (R r H). intros ph' r' Hx. pose proof (f_pos _ _ _ _ C) as G. destruct ret; [congruence|]. destruct G as (? & G). congruence.
  - split; [|done]. intros ph Hx Hcl. rewrite S4. apply (Q ph); [congruence|done].
Qed.

(** Once closed. *)
Lemma closed_step p w e w' ret : pinv p w -> l_closed w = true -> lw_step p w e = LNext w' ret ->
  if is_call e then ret = Some FailedPrecondition /\ w' = w else ret = None /\ l_closed w' = true /\ l_pending w' = l_pending w /\ l_sent w' = l_sent w /\ l_wire w' = l_wire w /\ l_written w' = l_written w /\ l_made w' = l_made w.
Proof.
  intros I Hc E. pose proof (a_closed p w I Hc) as Hp. destruct e as [data|t n pr k| |r|big o nk|st nk|n|]; cbn [lw_step is_call] in *; unfold idle in E; rewrite ?Hp in E.
  - unfold append in E. rewrite Hc in E. by injection E as <- <-.
  - unfold lw_create in E. rewrite Hc in E. by injection E as <- <-.
  - unfold lw_flush in E. rewrite Hc in E. by injection E as <- <-.
  - unfold lw_close in E. rewrite Hc in E. by injection E as <- <-.
  - done.
  - unfold stream_finish in E. by rewrite Hp in E.
  - destruct (_ && _); [|done]. by injection E as <- <-.
  - destruct (_ && _); [|done]. by injection E as <- <-.
Qed.

Section Close.
Context (p : lconf) (key : Z) (Hcf : conf_ok p).

Lemma trace_q tr w : lw_trace p (lw_new p key) tr w -> qinv w.
Proof.
  induction 1 as [|tr w e w' ret H IH He E]; [by intros ph|].
  eapply step_q; [eapply lw_reach_inv; [done|by eapply trace_reach]|exact IH|exact He|exact E].
Qed.

Definition closed_inv (tr : list (lev * option status)) (w : lw) : Prop :=
  (forall r, (LClose r, Ok) ∈ returned tr -> l_closed w = true) /\ ((LClose true, Ok) ∈ returned tr -> l_pending w = []).
Lemma trace_closed tr w : lw_trace p (lw_new p key) tr w -> closed_inv tr w.
Proof.
  induction 1 as [|tr w e w' ret H [IH1 IH2] He E]; [split; [intros r|]; intros Hk; by apply elem_of_nil in Hk|].
  assert (I : pinv p w) by (eapply lw_reach_inv; [done|by eapply trace_reach]).
  assert (OLD : l_closed w = true -> l_closed w' = true /\ l_pending w' = l_pending w).
  { intros Hc. pose proof (closed_step _ _ _ _ _ I Hc E) as C. destruct (is_call e); [by destruct C as [_ ->]|]. by destruct C as (_ & ? & ? & _). }
  destruct (step_q _ _ _ _ _ I (trace_q _ _ H) He E) as [_ NEW].
  pose proof (lw_trace_inv _ _ _ _ Hcf H) as T. pose proof (t_cur _ _ T) as TC.
  assert (K : forall r, (LClose r, Ok) ∈ returned (tr ++ [(e, ret)]) -> (LClose r, Ok) ∈ returned tr \/
    (ret = Some Ok /\ (e = LClose r \/ is_call e = false /\ exists ph, l_pos w = LRun (CClose r) ph))).
  { intros r. unfold returned. rewrite calls_snoc. unfold ret_step. cbn [fst snd]. destruct ret as [st|]; [|by left].
    destruct (is_call e) eqn:Hc.
    - cbn. intros [Hk|Hk]%elem_of_app; [by left|]. apply elem_of_list_singleton in Hk as [= <- <-]. right. split; [done|by left].
    - unfold current in TC. destruct (calls tr).2 as [e'|] eqn:Ec; [|by left]. cbn. intros [Hk|Hk]%elem_of_app; [by left|].
      apply elem_of_list_singleton in Hk as [= <- <-]. right. split; [done|]. right. split; [done|].
      destruct (l_pos w) as [|c ph]; [done|]. destruct TC as (e1 & [= <-] & TM). exists ph.
      destruct c as [old|k| |r']; [by destruct TM as (? & ? & ? & _)|by destruct TM as (? & ? & ? & ?)|done|]. by injection TM as <-. }
  split.
  - intros r Hk. destruct (K r Hk) as [Ho|[Hr Hn]]; [by apply OLD, (IH1 r)|]. by apply (NEW r).
  - intros Hk. destruct (K true Hk) as [Ho|[Hr Hn]]; [|by apply (NEW true)]. destruct (OLD (IH1 true Ho)) as [_ ->]. by apply IH2.
Qed.

(** ** The theorems *)

Lemma vstep_trace v e v' l r tr : lw_trace p (lw_new p key) tr (v_w v) -> venabled v e -> vstep p v e = Some (v', l, r) -> lw_trace p (lw_new p key) (tr ++ l) (v_w v').
Proof.
  intros H He E.
  assert (L : forall b e', lw_enabled (v_w v) e' -> lift b e' (lw_step p (v_w v) e') = Some (v', l, r) -> lw_trace p (lw_new p key) (tr ++ l) (v_w v')).
  { intros b e' He' E'. unfold lift in E'. destruct (lw_step p (v_w v) e') as [| |w ret] eqn:Es; try done. injection E' as <- <- _. by eapply lt_snoc. }
  assert (C : forall retry, py_close p v retry = Some (v', l, r) -> lw_trace p (lw_new p key) (tr ++ l) (v_w v')).
  { intros retry E'. unfold py_close in E'. destruct (v_closed v); [injection E' as <- <- _; by rewrite app_nil_r|]. by eapply L; [|exact E']. }
  destruct e as [e|retry| | | |e]; cbn [vstep venabled] in *.
  - destruct (user_call e); [|done]. destruct (py_refuses e); [injection E as <- <- _; by rewrite app_nil_r|]. by eapply L.
  - by eapply C.
  - by eapply C.
  - destruct (v_closed v); [injection E as <- <- _; by rewrite app_nil_r|by eapply C].
  - destruct (l_closed (v_w v)); [injection E as <- <- _; by rewrite app_nil_r|]. by eapply L; [|exact E].
  - destruct e; try done; by eapply L.
Qed.
Lemma vtrace_trace tr v : vtrace p (pyv_new p key) tr v -> lw_trace p (lw_new p key) tr (v_w v).
Proof. induction 1; [constructor|by eapply vstep_trace]. Qed.

(** close() has returned: all items are on their way. *)
Theorem C101_sent tr v : vtrace p (pyv_new p key) tr v -> (LClose true, Ok) ∈ returned tr ->
  forall k, k ∈ created (returned tr) -> k ∈ l_written (v_w v).
Proof.
  intros H Hr k Hk. apply vtrace_trace in H. destruct (trace_closed _ _ H) as [_ Hp]. specialize (Hp Hr).
  destruct (t_items _ _ (lw_trace_inv _ _ _ _ Hcf H) k Hk) as [?|[Hx _]]; [done|]. unfold pkeys in Hx. rewrite Hp in Hx. by apply elem_of_nil in Hx.
Qed.

(** After close() or close(False) has returned: nothing is sent any more, and all calls
    fail and change nothing. *)
Theorem C101_closed tr v r e v' l res : vtrace p (pyv_new p key) tr v -> (LClose r, Ok) ∈ returned tr -> vstep p v e = Some (v', l, res) ->
  match e with
  | VCall _ => (res = VValueError \/ res = VOut FailedPrecondition) /\ v' = v
  | VClose _ | VExit => (res = VValueError \/ res = VOut FailedPrecondition) /\ v_w v' = v_w v
  | VDel => (res = VNone \/ res = VOut FailedPrecondition) /\ v_w v' = v_w v
  | VDestroy => res = VNone /\ v' = v
  | VGo _ => res = VNone
  end /\ l_sent (v_w v') = l_sent (v_w v) /\ l_written (v_w v') = l_written (v_w v) /\ created (returned (tr ++ l)) = created (returned tr).
Proof.
  intros H Hr E. apply vtrace_trace in H. assert (I : pinv p (v_w v)) by (eapply lw_reach_inv; [done|by eapply trace_reach]).
  destruct (trace_closed _ _ H) as [Hc _]. specialize (Hc r Hr).
  pose proof (a_closed p _ I Hc) as Hidle. pose proof (t_cur _ _ (lw_trace_inv _ _ _ _ Hcf H)) as Hcur. rewrite Hidle in Hcur.
  assert (L : forall b e', lift b e' (lw_step p (v_w v) e') = Some (v', l, res) ->
    (if is_call e' then res = VOut FailedPrecondition /\ v' = mkPyv (v_w v) b else res = VNone) /\
    l_sent (v_w v') = l_sent (v_w v) /\ l_written (v_w v') = l_written (v_w v) /\ created (returned (tr ++ l)) = created (returned tr)).
  { intros b e' E'. unfold lift in E'. destruct (lw_step p (v_w v) e') as [| |w ret] eqn:Es; try done. injection E' as <- <- <-.
    pose proof (closed_step _ _ _ _ _ I Hc Es) as C. unfold returned, current in *. rewrite calls_snoc. unfold ret_step. cbn [fst snd].
    destruct (is_call e') eqn:Ei.
    - destruct C as [-> ->]. cbn. split; [done|]. split; [done|]. split; [done|]. rewrite last_created. destruct e'; by rewrite app_nil_r.
    - destruct C as (-> & _ & _ & C1 & _ & C2 & _). by cbn. }
  assert (C : forall retry, py_close p v retry = Some (v', l, res) ->
    ((res = VValueError /\ v_closed v = true \/ res = VOut FailedPrecondition) /\ v_w v' = v_w v) /\
    l_sent (v_w v') = l_sent (v_w v) /\ l_written (v_w v') = l_written (v_w v) /\ created (returned (tr ++ l)) = created (returned tr)).
  { intros retry E'. unfold py_close in E'. destruct (v_closed v).
    - injection E' as <- <- <-. rewrite app_nil_r. split; [|done]. split; [by left|done].
    - apply L in E' as [[-> ->] E']. split; [|done]. split; [by right|done]. }
  destruct e as [e|retry| | | |e]; cbn [vstep] in *.
  - destruct (user_call e) eqn:Eu; [|done]. destruct (py_refuses e); [injection E as <- <- <-; rewrite app_nil_r; split; [|done]; split; [by left|done]|].
    apply L in E as [E1 E2]. split; [|done]. destruct e; try done; destruct E1 as [-> ->], v; (split; [by right|done]).
  - apply C in E as [[[[-> _]| ->] E1] E2]; (split; [|done]); (split; [|done]); [by left|by right].
  - apply C in E as [[[[-> _]| ->] E1] E2]; (split; [|done]); (split; [|done]); [by left|by right].
  - destruct (v_closed v) eqn:Ev.
    + injection E as <- <- <-. rewrite app_nil_r. split; [|done]. split; [by left|done].
    + apply C in E as [[[[_ Hx]| ->] E1] E2]; [done|]. split; [|done]. split; [by right|done].
  - rewrite Hc in E. injection E as <- <- <-. by rewrite app_nil_r.
  - destruct e; try done; by apply L in E as [E1 E2].
Qed.
End Close.

(** ** Examples *)

Definition venabled_b (v : pyv) (e : vev) : bool := match e with VCall e | VGo e => lw_enabled_b (v_w v) e | _ => true end.
Fixpoint vscript (p : lconf) (v : pyv) (es : list vev) : option (pyv * list (lev * option status) * list vres) :=
  match es with
  | [] => Some (v, [], [])
  | e :: es =>
    if venabled_b v e then
      match vstep p v e with
      | Some (v1, l1, r1) => match vscript p v1 es with Some (v2, l2, r2) => Some (v2, l1 ++ l2, r1 :: r2) | None => None end
      | None => None
      end
    else None
  end.
Lemma venabled_sound v e : venabled_b v e = true -> venabled v e.
Proof. destruct e; cbn [venabled venabled_b]; try done; apply lw_enabled_sound. Qed.
Lemma vscript_trace p v0 es : forall tr v v' l r, vtrace p v0 tr v -> vscript p v es = Some (v', l, r) -> vtrace p v0 (tr ++ l) v'.
Proof.
  induction es as [|e es IH]; intros tr v v' l r H; cbn [vscript]; [intros [= <- <- <-]; by rewrite app_nil_r|].
  destruct (venabled_b v e) eqn:He; [|discriminate]. destruct (vstep p v e) as [[[v1 l1] r1]|] eqn:E; [|discriminate].
  destruct (vscript p v1 es) as [[[v2 l2] r2]|] eqn:E2; [|discriminate]. intros [= <- <- <-]. rewrite app_assoc.
  eapply IH; [|exact E2]. eapply vt_snoc; [exact H|by apply venabled_sound|exact E].
Qed.
Definition vc : lconf := lex_conf (Some 1).
Definition vrun (es : list vev) : pyv * list (lev * option status) * list vres := default (pyv_new vc 100, [], []) (vscript vc (pyv_new vc 100) es).
Lemma vrun_trace es : vtrace vc (pyv_new vc 100) (vrun es).1.2 (vrun es).1.1.
Proof.
  unfold vrun. destruct (vscript vc (pyv_new vc 100) es) as [[[v l] r]|] eqn:E; [|constructor]. cbn. rewrite <- (app_nil_l l). eapply vscript_trace; [constructor|exact E].
Qed.

Definition vex_body : list vev := [VCall (LAppend (lstep 1)); VCall (LCreate 5 1 (Fin 1) 41)].
(** The with block ends, its item is sent and confirmed, the stream ends. *)
Definition vex_good : list vev := vex_body ++ [VExit] ++ (VGo <$> (go 200 5 ++ [LConf 1] ++ go 300 2 ++ [LFinish Ok 400])).
(** The item does not get through. *)
Definition vex_lost (st : status) : list vev := VGo <$> (go 200 3 ++ [LStep false OutLost 300; LStep false OutOk 301; LStep false OutOk 302; LFinish st 400]).

Example C101_example : exists tr v, vtrace vc (pyv_new vc 100) tr v /\ (LClose true, Ok) ∈ returned tr /\ created (returned tr) = [41] /\
  l_written (v_w v) = [41] /\ 
  (exists l, vstep vc v (VCall (LAppend (lstep 2))) = Some (v, l, VOut FailedPrecondition)) /\ vstep vc v VExit = Some (v, [], VValueError).
Proof.
  exists (vrun vex_good).1.2, (vrun vex_good).1.1. split; [apply vrun_trace|].
  assert (returned (vrun vex_good).1.2 = [(LAppend (lstep 1), Ok); (LCreate 5 1 (Fin 1) 41, Ok); (LClose true, Ok)]) as -> by (vm_compute; reflexivity).
  split; [right; right; left|]. split; [reflexivity|]. split; [vm_compute; reflexivity|]. split; [eexists; vm_compute; reflexivity|vm_compute; reflexivity].
Qed.

(** close(False) returns although the item was not sent, and it never is. *)
Theorem C101_unavailable_refuted : exists tr v, vtrace vc (pyv_new vc 100) tr v /\ (LClose false, Ok) ∈ returned tr /\ 41 ∈ created (returned tr) /\
  41 ∉ l_written (v_w v) /\ forall tr2 v2, vtrace vc v tr2 v2 -> 41 ∉ l_written (v_w v2).
Proof.
  set (R := vrun (vex_body ++ [VClose false] ++ vex_lost Unavailable)). exists R.1.2, R.1.1. pose proof (vrun_trace (vex_body ++ [VClose false] ++ vex_lost Unavailable)) as T. fold R in T.
  assert (ER : returned R.1.2 = [(LAppend (lstep 1), Ok); (LCreate 5 1 (Fin 1) 41, Ok); (LClose false, Ok)]) by (vm_compute; reflexivity).
  assert (EW : l_written (v_w R.1.1) = []) by (vm_compute; reflexivity). clearbody R.
  assert (HC : (LClose false, Ok) ∈ returned R.1.2) by (rewrite ER; right; right; left).
  split; [exact T|]. split; [exact HC|]. split; [rewrite ER; left|]. split; [rewrite EW; by intros ?%elem_of_nil|].
  intros tr2 v2 H.
  assert (K : vtrace vc (pyv_new vc 100) (R.1.2 ++ tr2) v2 /\ l_written (v_w v2) = []).
  { induction H as [|tr2 v e v' l r H [IH1 IH2] He E]; [by rewrite app_nil_r|]. rewrite app_assoc. split; [by eapply vt_snoc|].
    assert (HC2 : (LClose false, Ok) ∈ returned (R.1.2 ++ tr2)).
    { clear -HC. induction tr2 as [|x tr2 IH] using List.rev_ind; [by rewrite app_nil_r|]. rewrite app_assoc. destruct (returned_snoc (R.1.2 ++ tr2) x) as [l ->]. apply elem_of_app. by left. }
    assert (CF : conf_ok vc) by (by apply lex_conf_ok).
    pose proof (C101_closed vc 100 CF _ _ _ _ _ _ _ IH1 HC2 E) as (_ & _ & W & _). by rewrite W. }
  destruct K as [_ ->]. by intros ?%elem_of_nil.
Qed.

(** close() has raised an exception: it cannot be called again, although the item is still
    waiting, and append goes on as if it had not been called. *)
Theorem C101_failed_refuted : exists tr v, vtrace vc (pyv_new vc 100) tr v /\ (LClose true, Internal) ∈ returned tr /\
  vstep vc v (VClose true) = Some (v, [], VValueError) /\ vstep vc v VDel = Some (v, [], VNone) /\ (li_key <$> l_pending (v_w v)) = [41] /\
  exists v' l, vstep vc v (VCall (LCreate 5 1 (Fin 1) 42)) = Some (v', l, VOut Ok).
Proof.
  set (R := vrun (vex_body ++ [VExit] ++ vex_lost Internal)). exists R.1.2, R.1.1. split; [apply vrun_trace|].
  assert (returned R.1.2 = [(LAppend (lstep 1), Ok); (LCreate 5 1 (Fin 1) 41, Ok); (LClose true, Internal)]) as -> by (vm_compute; reflexivity).
  split; [right; right; left|]. split; [vm_compute; reflexivity|]. split; [vm_compute; reflexivity|]. split; [vm_compute; reflexivity|].
  eexists _, _. vm_compute. reflexivity.
Qed.

Print Assumptions C101_sent.
Print Assumptions C101_closed.
Print Assumptions C101_unavailable_refuted.
Print Assumptions C101_failed_refuted.
Print Assumptions C101_example.
