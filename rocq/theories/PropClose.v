(** C41: Close of the Writer. *)
From Verif Require Import Base Trajectory Tensor TrajUtil ChunkerOptions Sample Stream Reactor PropTraj PropSample PropStream PropInsertStream
  Chunker PropChunker PropDelta TrajWriter TrajWriterProofs PropTrajWriter Writer WriterProofs WriterConf WriterData WriterPlace WriterOwn WriterTrace PropWriter.
Local Open Scope Z_scope.

(** The worker has not met a broken stream. *)
Definition no_dead (tr : list (lev * option status)) : Prop := forall ret, (LDead, ret) ∉ tr.
Lemma no_dead_snoc tr x : no_dead (tr ++ [x]) -> no_dead tr /\ x.1 <> LDead.
Proof. intros H. split; [intros r Hr; apply (H r); apply elem_of_app; by left|]. destruct x as [e r]. cbn. intros ->. apply (H r). apply elem_of_app; right; left. Qed.

Section close.
Context (p : lconf) (n : Z) (Hn : p_flight p = Some n) (Hn1 : 1 <= n) (Hcf : conf_ok p).

Definition allc (w : lw) : Prop := forall k, k ∈ l_written w -> k ∈ l_confirmed w.
Definition up (w : lw) : Prop := l_stream w = true -> l_half w = false -> l_running w = true.
Definition cphase (w : lw) (r : bool) (ph : lphase) : Prop :=
  match ph with
  | PCloseWait => l_running w = true /\ (r = true -> l_pending w = [])
  | PCloseStop => l_flight w <= 0 /\ (r = true -> l_pending w = [])
  | PCloseFinish => allc w /\ (r = true -> l_pending w = [])
  | _ => True
  end.
Record cinv (w : lw) : Prop := {
  y_up : up w;
  y_closed : l_closed w = true -> allc w;
  y_pos : match l_pos w with LRun (CClose r) ph => cphase w r ph | _ => True end }.
Definition cend (w' : lw) (r : bool) (ret : option status) : Prop := ret = Some Ok -> r = true -> l_closed w' = true /\ l_pending w' = [].

Lemma cinv_new key : cinv (lw_new p key).
Proof. split; done. Qed.
Lemma write_begin_close w c w' ret : up w -> (l_closed w = true -> allc w) -> write_begin p w c = LNext w' ret -> cinv w' /\ ret = None.
Proof.
  intros U HC. unfold write_begin. destruct (l_stream w) eqn:Es; [|rewrite Hn; destruct (_ || _); [done|]]; intros [= <- <-]; (split; [|done]); split; try done; cbn; by destruct c.
Qed.
Lemma close_begin_close w r w' ret : up w -> (l_stream w = false -> allc w) -> l_closed w = false -> (r = true -> l_pending w = []) -> close_begin w r = LNext w' ret -> cinv w' /\ cend w' r ret.
Proof.
  intros U HS HC HP. unfold close_begin. destruct (l_stream w) eqn:Es; [destruct (l_half w) eqn:Eh; [done|]|]; intros [= <- <-]; (split; [split|]); try done.
  - cbn. by rewrite HC.
  - cbn. split; [by apply U|done].
  - intros _. by apply HS.
  - intros _ Hr. split; [done|by apply HP].
Qed.
Lemma call_failed_close w c st w' ret : st <> Ok -> up w -> (l_stream w = false -> allc w) -> l_closed w = false -> call_failed p w c st = LNext w' ret -> cinv w' /\ forall r, c = CClose r -> cend w' r ret.
Proof.
  intros Hst U HS HC. unfold call_failed. destruct c as [old|k| |r]; [| | |destruct (negb _ || r) eqn:Er].
  1-4: intros [= <- <-]; (split; [split; cbn; [done|by rewrite HC|done]|intros r0 Hr]); try done; intros [= ->]; done.
  apply orb_false_iff in Er as [_ ->]. intros H. apply close_begin_close in H as [H1 H2]; [|done..]. split; [done|]. intros r0 [= <-]. done.
Qed.
Lemma write_end_close w c st nk w' ret : up w -> (l_stream w = false -> allc w) -> l_closed w = false -> (st = Ok -> l_pending w = []) -> write_end p w c st nk = LNext w' ret ->
  cinv w' /\ forall r, c = CClose r -> cend w' r ret.
Proof.
  intros U HS HC HP. unfold write_end. destruct c as [old|k| |r].
  2: { case_bool_decide as Hs; [intros [= <- <-]; split; [|done]; split; cbn; [done|by rewrite HC|done]|by apply call_failed_close]. }
  all: case_bool_decide as Hs; [|intros H; eapply call_failed_close in H; [exact H|done..]].
  1-2: intros [= <- <-]; (split; [|done]); split; cbn; [done|by rewrite HC|done].
  cbn zeta. intros H. apply close_begin_close in H as [H1 H2]; [|done..|by intros _; apply HP]. split; [done|]. intros r0 [= <-]. done.
Qed.
Lemma finish_begin_close w c w' ret : up w -> (l_stream w = false -> allc w) -> l_closed w = false -> finish_begin p w c = LNext w' ret -> cinv w' /\ forall r, c = CClose r -> cend w' r ret.
Proof.
  intros U HS HC. unfold finish_begin. destruct (build_chunk _ _) as [[d|]|]; [|by apply call_failed_close|done]. cbn zeta. intros H. apply write_begin_close in H as [H ->]; [|done|cbn; by rewrite HC]. split; [done|]. intros r _ [=].
Qed.

Lemma lsend_close w m o : l_stream (lsend w m o) = l_stream w /\ l_half (lsend w m o) = l_half w /\ l_running (lsend w m o) = l_running w /\ l_closed (lsend w m o) = l_closed w.
Proof. unfold lsend. by destruct (delivered o). Qed.

Lemma lw_step_close w e w' ret : pinv p w -> binv n w -> cinv w -> lw_enabled w e -> e <> LDead -> lw_step p w e = LNext w' ret ->
  cinv w' /\ forall r, (e = LClose r \/ exists ph, is_call e = false /\ l_pos w = LRun (CClose r) ph) -> cend w' r ret.
Proof.
  intros I B [Y1 Y2 Y3] He Hd E. pose proof (a_pos _ _ I) as HP. pose proof (a_closed _ _ I) as HCL.
  assert (HB : l_closed w = false -> bcore n (pk (l_pos w)) (l_stream w) (l_half w) (l_running w) (l_flight w) (l_wire w) (l_now w) (l_acks w) (l_written w) (l_confirmed w)) by apply B.
  assert (HS : l_closed w = false -> l_stream w = false -> allc w). { intros Hc Hs. intros k Hk. eapply (all_confirmed _ _ _ _ _ _ _ _ _ _ _ (HB Hc)); [|exact Hk]. by rewrite Hs. }
  assert (SAME : cinv w) by done.
  destruct e as [data|table m prio key| |r|big o nk|st nk|m|]; cbn [lw_step] in E; try done.
  - unfold idle in E. destruct (l_pos w) eqn:Hp; [|done]. assert (cinv w'); [|split; [done|]; intros r [?|(? & ? & _)]; done]. unfold append in E.
    destruct (l_closed w) eqn:Hc; [by injection E as <- <-|]. destruct (match l_buffer w with [] => _ | _ => _ end); [by injection E as <- <-|]. destruct (l_ring w !! l_loc w) as [old|]; [|done]. cbn zeta in E.
    destruct (_ <? _)%nat; [injection E as <- <-; split; cbn; [done|by rewrite Hc|by rewrite Hp]|]. apply finish_begin_close in E as [E _]; [done|done|by apply HS|done].
  - unfold idle in E. destruct (l_pos w) eqn:Hp; [|done]. assert (cinv w'); [|split; [done|]; intros r [?|(? & ? & _)]; done]. unfold lw_create in E.
    destruct (l_closed w) eqn:Hc; [by injection E as <- <-|]. destruct (_ || _); [by injection E as <- <-|]. destruct (_ <? _); [by injection E as <- <-|]. destruct (check_signature _ _ _ _) as [st|]; [|done]. destruct (negb _); [by injection E as <- <-|].
    match type of E with context [match ?x with Some tr => _ | None => LCrash end] => destruct x as [tr|] end; [|done]. cbn zeta in E. set (w1 := ls_create w _ _) in E. change (l_buffer w1) with (l_buffer w) in E. destruct (l_buffer w).
    + apply write_begin_close in E as [E _]; [done|done|cbn; by rewrite Hc].
    + injection E as <- <-. split; cbn; [done|by rewrite Hc|by rewrite Hp].
  - unfold idle in E. destruct (l_pos w) eqn:Hp; [|done]. assert (cinv w'); [|split; [done|]; intros r [?|(? & ? & _)]; done]. unfold lw_flush in E.
    destruct (l_closed w) eqn:Hc; [by injection E as <- <-|]. destruct (l_pending w); [injection E as <- <-; split; cbn; [done|by rewrite Hc|done]|]. apply finish_begin_close in E as [E _]; [done|done|by apply HS|done].
  - unfold idle in E. destruct (l_pos w) eqn:Hp; [|done]. unfold lw_close in E.
    destruct (l_closed w) eqn:Hc; [injection E as <- <-; split; [done|]; intros ? _ [=]|]. destruct (l_pending w) eqn:Epd.
    + apply close_begin_close in E as [E1 E2]; [|done|by apply HS|done|done]. split; [done|]. intros r0 [[= <-]|(? & ? & _)]; done.
    + apply finish_begin_close in E as [E1 E2]; [|done|by apply HS|done]. split; [done|]. intros r0 [[= <-]|(? & ? & _)]; [by apply E2|done].
  - destruct (l_pos w) as [|c ph] eqn:Hp; [done|]. assert (Hc : l_closed w = false) by (destruct (l_closed w); [by specialize (HCL eq_refl)|done]). specialize (HB Hc). specialize (HS Hc).
    assert (G : cinv w' /\ forall r, c = CClose r -> cend w' r ret); [|destruct G as [G1 G2]; split; [done|]; intros r [?|(? & _ & [= -> _])]; [done|by apply G2]].
    assert (HK : forall w1 ph1, w' = w1 -> ret = None -> l_pos w1 = LRun c ph1 -> l_stream w1 = l_stream w -> l_half w1 = l_half w \/ l_half w1 = true -> l_running w1 = l_running w -> l_closed w1 = l_closed w -> match c with CClose r => cphase w1 r ph1 | _ => True end -> cinv w' /\ forall r, c = CClose r -> cend w' r ret).
    { intros w1 ph1 -> -> P1 P2 P3 P4 P5 P6. split; [split|intros r _ [=]].
      - unfold up. rewrite P2, P4. intros X1 X2. apply Y1; [done|]. destruct P3; congruence.
      - rewrite P5, Hc. done.
      - rewrite P1. by destruct c. }
    assert (CO : forall x : Prop, x -> match c with CClose _ => x | _ => True end) by (intros; by destruct c).
    destruct ph as [rest req keep|req keep|req keep| | | | | | |]; cbn [call_step] in E.
    + destruct rest as [|ch rest]; [injection E as <- <-; by (eapply HK; [reflexivity|reflexivity|reflexivity|reflexivity|left; reflexivity|reflexivity|reflexivity|by destruct c])|].
      unfold chunk_scan in E. destruct (_ && _); [|injection E as <- <-; by (eapply HK; [reflexivity|reflexivity|reflexivity|reflexivity|left; reflexivity|reflexivity|reflexivity|by destruct c])].
      destruct big; [|injection E as <- <-; by (eapply HK; [reflexivity|reflexivity|reflexivity|reflexivity|left; reflexivity|reflexivity|reflexivity|by destruct c])]. destruct (l_half w) eqn:Eh; [done|]. set (mm := mkIreq _ None) in E. destruct (lsend_close w mm o) as (S1 & S2 & S3 & S4).
      destruct (write_ok o); injection E as <- <-; (eapply HK; [reflexivity|reflexivity|reflexivity|exact S1|left; cbn; congruence|exact S3|exact S4|by destruct c]).
    + destruct (l_pending w) as [|it rest] eqn:Ep; [apply write_end_close in E; try done|]. rewrite Hn in E.
      destruct (confirm_items w _) as [[]|]; [| |done]; injection E as <- <-; (by (eapply HK; [reflexivity|reflexivity|reflexivity|reflexivity|left; reflexivity|reflexivity|reflexivity|by destruct c])).
    + unfold item_write in E. destruct (l_pending w) as [|it rest] eqn:Ep; [done|]. destruct (l_half w) eqn:Eh; [done|]. destruct (lsend_close w (litem_message p it req keep) o) as (S1 & S2 & S3 & S4).
      destruct (write_ok o); injection E as <- <-; (eapply HK; [reflexivity|reflexivity|reflexivity|exact S1|left; cbn; congruence|exact S3|exact S4|by destruct c]).
    + destruct (l_half w); [done|]. injection E as <- <-. eapply HK; [reflexivity|reflexivity|reflexivity|reflexivity|right; reflexivity|reflexivity|reflexivity|by destruct c].
    + destruct HP as (_ & Hst & Hh). destruct (stop_worker p w) as [st w1] eqn:Es. apply stop_worker_fields in Es as (b & f & ->). case_bool_decide as Hs.
      * injection E as <- <-. split; [split|intros r _ [=]]; cbn; [intros _; cbn; by rewrite Hh|by rewrite Hc|by destruct c].
      * apply write_end_close in E; [done| |cbn; by rewrite Hst|done|done]. intros _. cbn. by rewrite Hh.
    + done.
    + destruct (confirm_items w 0); [|done]. destruct HP as (-> & _). injection E as <- <-. split; [split; cbn; [done|by rewrite Hc|done]|done].
    + destruct HP as ((r & ->) & _). cbn in Y3. destruct Y3 as [R1 R2]. destruct (confirm_items w 0) as [b|] eqn:Ec; [|done]. injection E as <- <-. eapply HK; [reflexivity|done|done|done|by left|done|done|]. cbn. split; [|done].
      unfold confirm_items in Ec. rewrite R1 in Ec. destruct (Z.leb_spec (l_flight w) 0); [done|]. done.
    + destruct HP as ((r & ->) & Hst & Hh). cbn in Y3. destruct Y3 as [R1 R2]. destruct (stop_worker p w) as [st w1] eqn:Es. apply stop_worker_fields in Es as (b & f & ->). injection E as <- <-.
      split; [split|intros ? _ [=]]; cbn; [intros _; cbn; by rewrite Hh|by rewrite Hc|]. split; [|done]. unfold allc. cbn. intros k Hk. eapply (all_confirmed _ _ _ _ _ _ _ _ _ _ _ HB); [|exact Hk].
      intros _. pose proof (b_flight _ _ _ _ _ _ _ _ _ _ _ HB Hst ltac:(done) ltac:(done)). lia.
    + done.
  - destruct (l_pos w) as [|c ph] eqn:Hp; [unfold stream_finish in E; by rewrite Hp in E|]. assert (Hc : l_closed w = false) by (destruct (l_closed w); [by specialize (HCL eq_refl)|done]). specialize (HB Hc).
    assert (G : cinv w' /\ forall r, c = CClose r -> cend w' r ret); [|destruct G as [G1 G2]; split; [done|]; intros r [?|(? & _ & [= -> _])]; [done|by apply G2]].
    unfold stream_finish in E. rewrite Hp in E. destruct ph; try done.
    + assert (AC : allc w). { destruct (b_fin _ _ _ _ _ _ _ _ _ _ _ HB eq_refl) as (? & _). intros k Hk. eapply (all_confirmed _ _ _ _ _ _ _ _ _ _ _ HB); [|exact Hk]. done. }
      destruct (_ && _); [apply write_begin_close in E as [E ->]; [split; [done|]; intros r _ [=]|done|cbn; by rewrite Hc]|].
      apply write_end_close in E; try done. intros Hs. exfalso. by destruct He as [_ He]; apply (He c Hp).
    + destruct HP as ((r & ->) & _). cbn in Y3. destruct Y3 as [R1 R2]. injection E as <- <-. split; [split; try done|]. intros r0 [= <-] _ Hr. split; [done|by apply R2].
  - destruct (_ && _); [|done]. injection E as <- <-. split; [|intros r [?|(? & _ & _)]; intros [=]]. assert (AL : allc w -> allc (ls_conf w (l_flight w - Z.of_nat m) (l_acks w + m) (l_confirmed w ∪ list_to_set (take m (drop (l_acks w) (confirmable (l_wire w))))))).
    { intros H k Hk. cbn in *. apply elem_of_union. left. by apply H. }
    split; cbn; [done|intros Hc; by apply AL, Y2|]. destruct (l_pos w) as [|[| | |r] ph]; try done. destruct ph; try done; cbn in *.
    + destruct Y3. split; [lia|done].
    + destruct Y3. split; [by apply AL|done].
Qed.

(** Close (with retry_on_unavailable, the default) has returned OK and the worker has
    not met a broken stream: every item created before is confirmed by the server.
    Without the second condition this is false: C41_writer_close_refuted. *)
Theorem C41_writer_close_partial key tr w pre : lw_trace p (lw_new p key) tr w -> no_dead tr -> returned tr = pre ++ [(LClose true, Ok)] -> current tr = None ->
  forall k, k ∈ created pre -> k ∈ l_confirmed w.
Proof.
  intros H ND Hret Hcur.
  assert (G : cinv w /\ forall pre, returned tr = pre ++ [(LClose true, Ok)] -> l_closed w = true /\ l_pending w = []).
  { clear Hret Hcur. induction H as [|tr w e w' ret H IH He E]; [split; [apply cinv_new|]; intros pr Hp; by destruct pr|]. apply no_dead_snoc in ND as [ND Hd]. cbn in Hd. destruct (IH ND) as [IH1 IH2].
    pose proof (trace_reach _ _ _ _ H) as R. pose proof (lw_reach_inv _ _ _ Hcf R) as I. pose proof (lw_reach_conf p n Hn Hn1 key w Hcf R) as B. pose proof (lw_trace_inv _ _ _ _ Hcf H) as T.
    destruct (lw_step_close w e w' ret I B IH1 He Hd E) as [C1 C2]. split; [done|]. intros pr Hr.
    assert (OLD : returned tr = pr ++ [(LClose true, Ok)] -> l_closed w' = true /\ l_pending w' = []).
    { intros Ho. destruct (IH2 pr Ho) as [O1 O2]. pose proof (a_closed _ _ I O1) as Hp. destruct e; cbn [lw_step] in E; unfold idle in E; rewrite ?Hp in E.
      - unfold append in E. rewrite O1 in E. by injection E as <- <-.
      - unfold lw_create in E. rewrite O1 in E. by injection E as <- <-.
      - unfold lw_flush in E. rewrite O1 in E. by injection E as <- <-.
      - unfold lw_close in E. rewrite O1 in E. by injection E as <- <-.
      - done.
      - unfold stream_finish in E. by rewrite Hp in E.
      - destruct (_ && _); [|done]. by injection E as <- <-.
      - done. }
    apply returned_split in Hr as [[Hr _]|[(Hr & -> & Hc)|(Hr & _)]]; [by apply OLD| |by apply OLD]. cbn [fst snd] in *. apply (C2 true); [|done|done].
    destruct Hc as [[_ <-]|[Hc Hcur]]; [by left|]. right. pose proof (t_cur _ _ T) as T1. destruct (l_pos w) as [|c ph] eqn:Hp; [congruence|]. destruct T1 as (ec & T1 & TM). rewrite Hcur in T1. injection T1 as <-. exists ph. split; [done|].
    destruct c; cbn in TM; [by destruct TM as (? & ? & ? & _)|by destruct TM as (? & ? & ? & ?)|done|by injection TM as <-]. }
  destruct G as [G1 G2]. destruct (G2 _ Hret) as [O1 O2]. intros k Hk. pose proof (lw_trace_inv _ _ _ _ Hcf H) as T. apply (y_closed _ G1 O1).
  destruct (t_items _ _ T k) as [?|[Hx _]]; [rewrite Hret, created_app; apply elem_of_app; by left|done|]. unfold pkeys in Hx. rewrite O2 in Hx. by apply elem_of_nil in Hx.
Qed.
End close.
