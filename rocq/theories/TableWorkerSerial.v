(** The worker and the table it works on: the table is what the calls of the
    synchronous interface would have made of it; the worker sleeps only when there is
    nothing to do; and it comes to rest. *)
From Verif Require Import Base RateLimiter Selector Trajectory Table EventLog TableProofs TableLog SelSpec PropSelectors TableSpec LogFacts PropTable TableWorker TableWorkerProofs.

Section WithFP.
Context {fp : FP} {laws : FPLaws fp}.

Ltac ws := cbn [wk_t wk_cancel wk_now wk_pos wk_prog wk_lim wk_ci wk_cs wk_nl wk_term wk_ss wk_is wk_pi wk_ps wk_ns wk_stop wk_sig wk_owed wk_nins wk_nreq
  set_t set_cancel set_now set_pos set_prog set_lim set_ci set_cs set_nl set_term set_statuses set_pi set_ps set_ns set_stop set_sig set_owed set_count].
Ltac wsi H := cbn [wk_t wk_cancel wk_now wk_pos wk_prog wk_lim wk_ci wk_cs wk_nl wk_term wk_ss wk_is wk_pi wk_ps wk_ns wk_stop wk_sig wk_owed wk_nins wk_nreq
  set_t set_cancel set_now set_pos set_prog set_lim set_ci set_cs set_nl set_term set_statuses set_pi set_ps set_ns set_stop set_sig set_owed set_count] in H.

(** ** The calls that a run amounts to *)

(** The calls of the synchronous interface (Table.v), each with its result, in the
    order in which the worker and the other threads change the table. *)
Definition effects (tr : list (wev * list wout)) : list (op * result) :=
  tr ≫= fun x =>
    match x.1, x.2 with
    | EMutate us ks, [OReturn st] => [(OMutate us ks, RStatus st)]
    | EReset, _ => [(OReset, RStatus Ok)]
    | _, outs => omap (fun o => match o with
                                | OApplied _ it at_ d => Some (OInsert at_ d it, RStatus Ok)
                                | OTaken _ d sm => Some (OSample 1 (fun _ => d), RSamples Ok [sm])
                                | _ => None
                                end) outs
    end.
Lemma effects_app a b : effects (a ++ b) = effects a ++ effects b.
Proof. apply bind_app. Qed.

(** Equal but for the flag "rate limited" of a sample. *)
Definition same_sample (a b : sampled) : Prop :=
  sm_item a = sm_item b /\ sm_prob a = sm_prob b /\ sm_size a = sm_size b /\ sm_prio a = sm_prio b /\ sm_times a = sm_times b.
Definition same_result (a b : result) : Prop :=
  match a, b with
  | RStatus x, RStatus y => x = y
  | RSamples x l, RSamples y k => x = y /\ Forall2 same_sample l k
  | _, _ => False
  end.

Lemma sample_one_limited t d b st sm t' : sample_one t d b = Some (st, sm, t') -> exists sm', sample_one t d false = Some (st, sm', t') /\ same_sample sm sm'.
Proof.
  unfold sample_one. destruct (sel_sample _ _) as [[k pr]|]; [|done]. destruct (t_data t !! k) as [it|]; [|done]. cbn zeta.
  destruct (_ =? t_max_times _); [destruct (delete_item _ _) as [[st1 t1]|]; [|done]|]; intros [= <- <- <-]; eexists; (split; [done|]); repeat split.
Qed.

Record sinv (cf : tcfg) (tr : list (wev * list wout)) (w : wk) (rs : list result) : Prop := {
  si_reached : reached cf (fst <$> effects tr) rs (wk_t w);
  si_open : l_cancelled (t_limiter (wk_t w)) = false;
  si_res : Forall2 same_result (snd <$> effects tr) rs;
  si_items : Forall (fun x => prio_ok cf (it_prio x.2) /\ check_item_validity x.2 = Ok) (wk_ci w ++ wk_pi w);
  si_pos : forall st, wk_pos w = PReturned st -> st = Ok }.

(** An action that leaves the table alone. *)
Lemma sinv_same cf tr w rs e outs w' : sinv cf tr w rs -> effects [(e, outs)] = [] -> wk_t w' = wk_t w ->
  Forall (fun x => prio_ok cf (it_prio x.2) /\ check_item_validity x.2 = Ok) (wk_ci w' ++ wk_pi w') -> (forall st, wk_pos w' = PReturned st -> st = Ok) ->
  exists rs', sinv cf (tr ++ [(e, outs)]) w' rs'.
Proof. intros [] He Ht Hi Hp. exists rs. constructor; rewrite ?effects_app, ?He, ?app_nil_r, ?Ht; done. Qed.

(** An action that is one call of the synchronous interface. *)
Lemma sinv_call cf tr w rs e outs w' o r r' : sinv cf tr w rs -> effects [(e, outs)] = [(o, r)] -> op_ok cf o -> step (wk_t w) o = Some (r', wk_t w') -> same_result r r' -> is_close o = false ->
  Forall (fun x => prio_ok cf (it_prio x.2) /\ check_item_validity x.2 = Ok) (wk_ci w' ++ wk_pi w') -> (forall st, wk_pos w' = PReturned st -> st = Ok) ->
  exists rs', sinv cf (tr ++ [(e, outs)]) w' rs'.
Proof.
  intros [] He Ho Hs Hr Hcl Hi Hp. exists (rs ++ [r']). constructor; rewrite ?effects_app, ?He, ?fmap_app; try done.
  - destruct si_reached0 as [R1 R2 R3]. constructor; [done|apply Forall_app; split; [done|by constructor]|].
    rewrite run_app, R3. cbn [fmap list_fmap fst run]. by rewrite Hs.
  - destruct (spec_step cf (wk_t w) o (re_cfg _ _ _ _ si_reached0) (reached_linv _ _ _ _ si_reached0) Ho) as (r2 & t2 & evs & E2 & _ & _ & _ & Hc).
    rewrite Hs in E2. injection E2 as <- <-. by rewrite Hc, si_open0, Hcl.
  - apply Forall2_app; [done|]. by repeat constructor.
Qed.

Lemma sinv_insert cf tr w rs it at_ d : sinv cf tr w rs -> can_insert (t_limiter (wk_t w)) 1 = true -> prio_ok cf (it_prio it) -> check_item_validity it = Ok -> draw_ok d ->
  exists t, insert_internal (wk_t w) at_ d it = Some (Ok, t) /\ step (wk_t w) (OInsert at_ d it) = Some (RStatus Ok, t).
Proof.
  intros [] Hc Hp Hv Hd. pose proof (li_inv _ _ (reached_linv _ _ _ _ si_reached0)) as I. unfold insert_internal. cbn [step]. unfold insert_or_assign. rewrite bool_decide_true by done. cbn [negb].
  destruct (t_data (wk_t w) !! it_key it) as [old|] eqn:Hk.
  - destruct (update_item_inv cf _ (it_key it) (it_prio it) I Hp) as (t' & -> & _). eauto.
  - destruct (insert_new_spec cf _ at_ d it I Hp Hd Hk) as (t' & E & _). exists t'. split; [done|]. unfold insert_resume, await_can_insert. rewrite si_open0, Hc, Hk, E. done.
Qed.

Lemma sinv_sample cf tr w rs d b : sinv cf tr w rs -> can_sample (t_limiter (wk_t w)) 1 = true -> draw_ok d ->
  exists sm sm' t, sample_one (with_limiter (wk_t w) (lim_sample (t_limiter (wk_t w)))) d b = Some (Ok, sm, t) /\
    step (wk_t w) (OSample 1 (fun _ => d)) = Some (RSamples Ok [sm'], t) /\ same_sample sm sm'.
Proof.
  intros [] Hc Hd. pose proof (li_inv _ _ (reached_linv _ _ _ _ si_reached0)) as I. destruct (can_sample_nonempty cf _ 1 (re_cfg _ _ _ _ si_reached0) I Hc) as [Hne _].
  destruct (sample_one_inv cf (with_limiter (wk_t w) (lim_sample (t_limiter (wk_t w)))) d b (lim_sample_inv _ _ I) Hd Hne) as (sm & t & E & _).
  destruct (sample_one_limited _ _ _ _ _ _ E) as (sm' & E' & Hs). exists sm, sm', t. split; [done|]. split; [|done].
  cbn [step]. unfold sample_batch, maybe_commit_sample. rewrite Hc. unfold sample_run. change (Z.to_nat (1 - 1)) with 0%nat. cbn [sample_loop]. rewrite E'. rewrite bool_decide_true by done. done.
Qed.

Lemma fetch_t w : wk_t (fetch w) = wk_t w /\ wk_ci (fetch w) ++ wk_pi (fetch w) = wk_ci w ++ wk_pi w.
Proof. destruct w as [? ? ? ? ? ? [|] [|] ? ? ? ? [|] [|] ? ? ? ? ? ?]; cbn; rewrite ?app_nil_r; done. Qed.
Lemma abandon_t w : wk_t (abandon w) = wk_t w /\ wk_pi (abandon w) = wk_pi w /\ (wk_ci (abandon w) = if wk_cancel w then [] else wk_ci w).
Proof. unfold abandon. destruct w as [? [|] ? ? ? ? ? ? [|] ? ? ? ? ? [|] ? ? ? ? ?]; done. Qed.

Lemma mutate_ok cf t us ks : tinv cf t -> Forall (fun u => prio_ok cf u.2) us -> exists t', mutate_items t us ks = Some (RStatus Ok, t').
Proof.
  intros I Hu. unfold mutate_items. destruct (delete_items_inv cf ks t I) as (t1 & -> & I1). rewrite bool_decide_true by done.
  destruct (update_items_inv cf us t1 I1 Hu) as (t2 & -> & _). eauto.
Qed.

(** One step: the process does not die, and the invariant is kept. *)
Lemma sinv_step c cf tr w rs e : sinv cf tr w rs -> wk_can w e -> wk_prio cf e ->
  match wk_step c w e with WNext w' outs => exists rs', sinv cf (tr ++ [(e, outs)]) w' rs' | WCrash => False | WBlocked => True end.
Proof.
  intros I He Hp. pose proof I as I0. destruct e as [at_ d| |it|num timeout|us ks| | | | |now]; cbn [wk_step wk_can wk_prio] in *.
  - destruct (wk_pos w) as [| |made| |wu bl| |st] eqn:Hpos; try done.
    + eapply sinv_same; try done; [|apply (si_items _ _ _ _ I)]. cbn. clear. by induction (wk_nl w).
    + unfold work_insert. destruct (wk_ci w) as [|[i it] rest] eqn:Hci; [eapply sinv_same; try done; apply (si_items _ _ _ _ I)|].
      pose proof (si_items _ _ _ _ I) as Hi. rewrite Hci in Hi. cbn [app] in Hi. apply Forall_cons in Hi as [[Hi1 Hi2] Hi]. cbn [snd] in Hi1, Hi2.
      destruct (can_insert _ 1) eqn:Hca; [|eapply sinv_same; try done; apply (si_items _ _ _ _ I)].
      destruct (sinv_insert cf tr w rs it at_ d I Hca Hi1 Hi2 He) as (t & E1 & E2). rewrite E1. rewrite bool_decide_true by done.
      eapply (sinv_call cf tr w rs _ _ _ (OInsert at_ d it) (RStatus Ok) (RStatus Ok)); try done.
    + unfold work_sample. pose proof (skip_none_head (wk_cs w)) as Hsh. destruct (skip_none (wk_cs w)) as [|[r|] rest] eqn:Hcs.
      * eapply sinv_same; try done; [apply (si_items _ _ _ _ I)|ws; by destruct made].
      * unfold maybe_commit_sample. destruct (can_sample _ 1) eqn:Hca; [|eapply sinv_same; try done; [apply (si_items _ _ _ _ I)|ws; by destruct made]].
        destruct (sinv_sample cf tr w rs d (wk_lim w) I Hca He) as (sm & sm' & t & E1 & E2 & E3). rewrite E1. rewrite bool_decide_true by done. cbn [negb].
        destruct (_ =? _)%nat; (eapply (sinv_call cf tr w rs _ _ _ (OSample 1 (fun _ => d)) (RSamples Ok [sm]) (RSamples Ok [sm'])); try done; [intros ?; exact He|split; [done|constructor; [exact E3|constructor]]|apply (si_items _ _ _ _ I)]).
      * destruct Hsh.
    + destruct (work_swap_spec w) as (w1 & E1 & S). rewrite E1. destruct (fetch_t w) as [F1 F2]. destruct (abandon_t (fetch w)) as (B1 & B2 & B3).
      assert (IA : Forall (fun x => prio_ok cf (it_prio x.2) /\ check_item_validity x.2 = Ok) (wk_ci (abandon (fetch w)) ++ wk_pi (abandon (fetch w)))).
      { pose proof (si_items _ _ _ _ I) as Hi. rewrite <- F2 in Hi. apply Forall_app in Hi as [Hi1 Hi2]. rewrite B2, B3. apply Forall_app. split; [|done]. by destruct (wk_cancel (fetch w)). }
      inversion S as [Hpr|out1 cs next1 out2 ps next2 a now Hpr G1 G2 Hne|next1 next2 a now Hpr G1 G2 Hnl Hst|next1 next2 a now Hpr G1 G2 Hnl Hst]; subst w1; (eapply sinv_same; [exact I|done|ws; try unfold a; by rewrite ?B1, F1|exact IA || (ws; rewrite F2; apply (si_items _ _ _ _ I))|ws; intros st [=]; done]).
    + eapply sinv_same; try done; [|apply (si_items _ _ _ _ I)]. cbn. clear. by induction (wk_term w).
  - destruct (waiting w); [|done]. eapply sinv_same; try done. apply (si_items _ _ _ _ I).
  - case_bool_decide as Hv; cbn [negb].
    2: { eapply sinv_same; try done; [apply (si_items _ _ _ _ I)|apply (si_pos _ _ _ _ I)]. }
    rewrite wake_eq. ws.
    assert (Hi : Forall (fun x => prio_ok cf (it_prio x.2) /\ check_item_validity x.2 = Ok) (wk_ci w ++ wk_pi w ++ [(wk_nins w, it)])).
    { rewrite app_assoc. apply Forall_app. split; [apply (si_items _ _ _ _ I)|]. constructor; [split; [exact Hp|exact Hv]|constructor]. }
    destruct (_ <? c); (eapply sinv_same; try done; apply (si_pos _ _ _ _ I)).
  - rewrite wake_eq. eapply sinv_same; try done; [apply (si_items _ _ _ _ I)|apply (si_pos _ _ _ _ I)].
  - destruct (mutate_ok cf (wk_t w) us ks (li_inv _ _ (reached_linv _ _ _ _ (si_reached _ _ _ _ I))) Hp) as (t & E). rewrite E. rewrite bool_decide_true by done.
    eapply (sinv_call cf tr w rs _ _ _ (OMutate us ks) (RStatus Ok) (RStatus Ok)); try done; [apply (si_items _ _ _ _ I)|apply (si_pos _ _ _ _ I)].
  - eapply (sinv_call cf tr w rs _ _ _ OReset (RStatus Ok) (RStatus Ok)); try done; [apply (si_items _ _ _ _ I)|apply (si_pos _ _ _ _ I)].
  - eapply sinv_same; try done; [apply (si_items _ _ _ _ I)|apply (si_pos _ _ _ _ I)].
  - destruct (wk_owed w) as [|b rest]; [done|]. rewrite wake_eq. destruct (_ && _); (eapply sinv_same; try done; [apply (si_items _ _ _ _ I)|apply (si_pos _ _ _ _ I)]).
  - rewrite wake_eq. eapply sinv_same; try done; [apply (si_items _ _ _ _ I)|apply (si_pos _ _ _ _ I)].
  - eapply sinv_same; try done; [apply (si_items _ _ _ _ I)|apply (si_pos _ _ _ _ I)].
Qed.

(** Runs in which the selectors accept all priorities. *)
Definition accepted (cf : tcfg) (w : wk) (e : wev) : Prop := wk_prio cf e.
(** Of these, runs in which no MutateItems or Reset changes the table just when the
    worker has released [mu_] and not yet taken [worker_mu_]. *)
Definition calm (cf : tcfg) (w : wk) (e : wev) : Prop :=
  wk_prio cf e /\ match e with EMutate _ _ | EReset => wk_pos w <> PSwap | _ => True end.

Lemma trace_mono (A B : wk -> wev -> Prop) c w0 tr w : (forall w e, A w e -> B w e) -> wk_trace A c w0 tr w -> wk_trace B c w0 tr w.
Proof. intros H. induction 1; [constructor|]. econstructor; eauto. Qed.
Lemma trace_app A c w0 tr1 w1 tr2 w2 : wk_trace A c w0 tr1 w1 -> wk_trace A c w1 tr2 w2 -> wk_trace A c w0 (tr1 ++ tr2) w2.
Proof. intros H1. induction 1 as [|tr w e w' outs H IH Hc HA E]; [by rewrite app_nil_r|]. rewrite app_assoc. econstructor; eauto. Qed.

Lemma sinv_trace c cf now0 tr w : cfg_ok cf -> wk_trace (accepted cf) c (wk_new (new_table cf) now0) tr w -> exists rs, sinv cf tr w rs.
Proof.
  intros Hc. induction 1 as [|tr w e w' outs H IH Hca HA E].
  - exists []. constructor; try done; try constructor; try done. constructor.
  - destruct IH as [rs I]. pose proof (sinv_step c cf tr w rs e I Hca HA) as S. by rewrite E in S.
Qed.

(** ** The worker does not sleep in vain *)

Definition no_insert (w : wk) : Prop := wk_ci w = [] \/ can_insert (t_limiter (wk_t w)) 1 = false.
Definition no_sample (w : wk) : Prop := wk_cs w = [] \/ can_sample (t_limiter (wk_t w)) 1 = false /\ exists r rest, wk_cs w = Some r :: rest.

(** [strict]: the runs are calm. *)
Record stuck (strict : bool) (w : wk) (wakeup : option Z) : Prop := {
  st_insert : strict = true -> no_insert w;
  st_sample : no_sample w;
  st_pi : wk_ci w = [] -> wk_cancel w = false -> wk_pi w = [];
  st_ps : wk_cs w = [] -> wk_ps w = [];
  st_cancel : wk_cancel w = true -> queued w = [] /\ wk_ns w = [] /\ wk_ci w = [];
  st_deadline : forall r d, r ∈ queued w -> q_deadline r = Some d -> exists k, wakeup = Some k /\ k <= d }.

Record vinv (strict : bool) (w : wk) : Prop := {
  v_sample : forall made, wk_pos w = PSample made -> if made then wk_prog w = true else no_insert w;
  v_swap : wk_pos w = PSwap -> wk_prog w = true \/ (strict = true -> no_insert w) /\ no_sample w;
  v_wait : forall wu b, wk_pos w = PWait wu b -> (b = false <-> wk_ci w = [] /\ wk_cs w = []) /\ (wk_sig w = true \/ wk_owed w <> [] \/ stuck strict w wu);
  v_stop : wk_stop w = true -> wk_cancel w = true;
  v_return : forall st, wk_pos w = PReturned st -> wk_stop w = true /\ queued w = [] }.

Lemma vinv_env strict w w' : vinv strict w -> wk_pos w' = wk_pos w -> wk_prog w' = wk_prog w -> wk_ci w' = wk_ci w -> wk_cs w' = wk_cs w ->
  (wk_t w' = wk_t w \/ ((strict = true -> wk_pos w <> PSwap) /\ holds_mu w = false /\ (can_sample (t_limiter (wk_t w)) 1 = false -> can_sample (t_limiter (wk_t w')) 1 = false))) ->
  (wk_stop w' = true -> wk_cancel w' = true) -> (wk_stop w = true -> wk_stop w' = true /\ wk_ps w' = wk_ps w) ->
  (waiting w = true -> wk_sig w' = true \/ wk_owed w' <> [] \/
     wk_sig w' = wk_sig w /\ wk_owed w' = wk_owed w /\ wk_t w' = wk_t w /\ wk_pi w' = wk_pi w /\ wk_ps w' = wk_ps w /\ wk_ns w' = wk_ns w /\ wk_cancel w' = wk_cancel w) ->
  vinv strict w'.
Proof.
  intros [] E1 E2 E3 E4 E5 E6 E7 E8. constructor; rewrite ?E1.
  - intros made Hp. specialize (v_sample0 _ Hp). rewrite E2. unfold no_insert in *. rewrite E3. destruct E5 as [->|(_ & Hh & _)]; [done|]. unfold holds_mu in Hh. by rewrite Hp in Hh.
  - intros Hp. specialize (v_swap0 Hp). rewrite E2. unfold no_insert, no_sample in *. rewrite E3, E4. destruct E5 as [->|(Hh & _ & Hs)]; [done|]. destruct v_swap0 as [?|[N1 N2]]; [by left|right]. split; [intros Hst; by destruct (Hh Hst)|].
    destruct N2 as [N2|[N2 N3]]; [by left|right]. auto.
  - intros wu b Hp. destruct (v_wait0 _ _ Hp) as [V1 V2]. rewrite E3, E4. split; [done|].
    assert (Hw : waiting w = true) by (unfold waiting; by rewrite Hp). destruct (E8 Hw) as [?|[?|(X1 & X2 & X3 & X4 & X5 & X6 & X7)]]; [by left|by right; left|].
    rewrite X1, X2. destruct V2 as [?|[?|[]]]; [by left|by right; left|right; right].
    constructor; unfold no_insert, no_sample, queued in *; rewrite ?E3, ?E4, ?X3, ?X4, ?X5, ?X6, ?X7; done.
  - done.
  - intros st Hp. destruct (v_return0 _ Hp) as [R1 R2]. destruct (E7 R1) as [E9 E10]. split; [done|]. unfold queued in *. by rewrite E4, E10.
Qed.

Lemma can_sample_delete l : can_sample l 1 = false -> can_sample (lim_delete l) 1 = false.
Proof.
  unfold can_sample, lim_delete. cbn. destruct (Z.ltb_spec (l_inserts l - l_deletes l) (min_size l)) as [H|H]; [intros _; rewrite (proj2 (Z.ltb_lt _ _)) by lia; done|].
  intros Hq. destruct (_ <? _); done.
Qed.
Lemma can_sample_deletes cf ks : forall t t', tinv cf t -> delete_items t ks = Some (Ok, t') -> can_sample (t_limiter t) 1 = false -> can_sample (t_limiter t') 1 = false.
Proof.
  induction ks as [|k ks IH]; intros t t' I E Hc; cbn [delete_items] in E; [by injection E as <-|].
  destruct (t_data t !! k) as [it|] eqn:Hk.
  - destruct (delete_item_spec cf t k it (ti_core _ _ I) Hk) as (t1 & E1 & _ & _ & L & _). destruct (delete_items_inv cf [k] t I) as (t2 & E2 & I2). cbn [delete_items] in E2. rewrite E1 in E, E2.
    rewrite bool_decide_true in E, E2 by done. injection E2 as ->. apply (IH _ _ I2 E). rewrite L. by apply can_sample_delete.
  - rewrite delete_item_missing in E by done. rewrite bool_decide_true in E by done. by apply (IH _ _ I E).
Qed.
Lemma can_sample_mutate cf t us ks t' : tinv cf t -> Forall (fun u => prio_ok cf u.2) us -> mutate_items t us ks = Some (RStatus Ok, t') -> can_sample (t_limiter t) 1 = false -> can_sample (t_limiter t') 1 = false.
Proof.
  intros I Hu E Hc. unfold mutate_items in E. destruct (delete_items_inv cf ks t I) as (t1 & E1 & I1). rewrite E1 in E. rewrite bool_decide_true in E by done.
  pose proof (can_sample_deletes cf ks t t1 I E1 Hc) as H1. destruct (update_items t1 us) as [st t2] eqn:E2. injection E as -> ->.
  assert (HU : forall us t t', Forall (fun u => prio_ok cf u.2) us -> tinv cf t -> update_items t us = (Ok, t') -> t_limiter t' = t_limiter t).
  { clear -laws. induction us as [|[k p] us IH]; intros t t' Hu I E; cbn [update_items] in E; [by injection E as <-|]. apply Forall_cons in Hu as [Hp Hu]. cbn [snd] in Hp.
    destruct (update_item_inv cf t k p I Hp) as (t1 & E1 & I1). rewrite E1 in E. rewrite bool_decide_true in E by done. rewrite (IH _ _ Hu I1 E).
    destruct (t_data t !! k) as [it|] eqn:Hk; [|rewrite update_item_missing in E1 by done; by injection E1 as <-].
    destruct (update_item_spec cf t k p it (ti_core _ _ I) Hp Hk) as (t2 & E2 & _ & _ & L & _). rewrite E1 in E2. injection E2 as <-. done. }
  by rewrite (HU us t1 t' Hu I1 E2).
Qed.
Lemma can_sample_reset cf t : cfg_ok cf -> tinv cf t -> can_sample (t_limiter (reset_table t)) 1 = false.
Proof.
  intros (_ & Hm & _) I. pose proof (tc_mins _ _ (ti_core _ _ I)) as Hmin. unfold can_sample, reset_table. cbn. rewrite Hmin. rewrite (proj2 (Z.ltb_lt _ _)) by lia. done.
Qed.

Definition strictly (strict : bool) (cf : tcfg) (w : wk) (e : wev) : Prop := if strict then calm cf w e else accepted cf w e.

Lemma vinv_step strict c cf tr w rs e w' outs : sinv cf tr w rs -> vinv strict w ->
  wk_can w e -> strictly strict cf w e -> wk_step c w e = WNext w' outs -> vinv strict w'.
Proof.
  intros SI V He Hst0 E. pose proof V as V0. assert (Hp : wk_prio cf e) by (destruct strict; [by destruct Hst0|exact Hst0]).
  assert (Hcalm : strict = true -> match e with EMutate _ _ | EReset => wk_pos w <> PSwap | _ => True end) by (intros ->; by destruct Hst0).
  clear Hst0. pose proof (li_inv _ _ (reached_linv _ _ _ _ (si_reached _ _ _ _ SI))) as TI.
  destruct e as [at_ d| |it|num timeout|us ks| | | | |now]; cbn [wk_step wk_can wk_prio] in *.
  - destruct (wk_pos w) as [| |made| |wu bl| |st] eqn:Hpos; try discriminate E.
    + injection E as <- <-. constructor; ws; try done. apply (v_stop _ _ V).
    + unfold work_insert in E. destruct (wk_ci w) as [|[i it] rest] eqn:Hci.
      { injection E as <- <-. constructor; ws; try done; [intros made [= <-]; by left|apply (v_stop _ _ V)]. }
      pose proof (si_items _ _ _ _ SI) as Hi. rewrite Hci in Hi. cbn [app] in Hi. apply Forall_cons in Hi as [[Hi1 Hi2] Hi]. cbn [snd] in Hi1, Hi2.
      destruct (can_insert _ 1) eqn:Hca.
      * destruct (sinv_insert cf tr w rs it at_ d SI Hca Hi1 Hi2 He) as (t & E1 & _). rewrite E1 in E. rewrite bool_decide_true in E by done. injection E as <- <-.
        constructor; ws; try done; [intros made [= <-]; done|apply (v_stop _ _ V)].
      * injection E as <- <-. constructor; ws; try done; [intros made [= <-]; by right|apply (v_stop _ _ V)].
    + unfold work_sample in E. pose proof (skip_none_head (wk_cs w)) as Hsh. pose proof (v_sample _ _ V _ Hpos) as VS. destruct (skip_none (wk_cs w)) as [|[r|] rest] eqn:Hcs.
      * injection E as <- <-. constructor; ws; [by destruct made| |by destruct made|apply (v_stop _ _ V)|by destruct made]. destruct made; [done|]. intros _. right. split; [done|by left].
      * unfold maybe_commit_sample in E. destruct (can_sample _ 1) eqn:Hca.
        -- destruct (sinv_sample cf tr w rs d (wk_lim w) SI Hca He) as (sm & sm' & t & E1 & _). rewrite E1 in E. rewrite bool_decide_true in E by done. cbn [negb] in E.
           destruct (_ =? _)%nat; injection E as <- <-; (constructor; ws; try done; try apply (v_stop _ _ V)). intros made' [= <-]. done.
        -- injection E as <- <-. constructor; ws; [by destruct made| |by destruct made|apply (v_stop _ _ V)|by destruct made]. destruct made; [done|]. intros _. right. split; [done|].
           right. split; [done|]. by eexists _, _.
      * destruct Hsh.
    + destruct (work_swap_spec w) as (w1 & E1 & S). rewrite E1 in E. injection E as <- <-. pose proof (v_swap _ _ V Hpos) as VS.
      destruct (fetch_cancel w) as (F1 & F2 & F3 & F4). destruct (abandon_cancel (fetch w)) as (B1 & B2 & B3 & B4). destruct (abandon_queued (fetch w)) as (Q1 & Q2).
      destruct (fetch_t w) as [T1 _]. destruct (abandon_t (fetch w)) as (T2 & T3 & T4).
      assert (VS' : wk_stop (abandon (fetch w)) = true -> wk_cancel (abandon (fetch w)) = true) by (rewrite B3, F3, B1, F1; apply (v_stop _ _ V)).
      (* without progress nothing was fetched *)
      assert (NP : wk_prog (fetch w) = false -> fetch w = w /\ (wk_ci w = [] -> wk_pi w = []) /\ (wk_cs w = [] -> wk_ps w = []) /\ (strict = true -> no_insert w) /\ no_sample w).
      { intros Hpr. assert (HF : fetch w = w /\ (wk_ci w = [] -> wk_pi w = []) /\ (wk_cs w = [] -> wk_ps w = [])).
        { clear -Hpr. destruct w as [t ca nw po pr li ci cs nl te ss is pi ps ns sp sg ow ni nr]. unfold fetch in *. ws. wsi Hpr. destruct ci, pi; wsi Hpr; ws; destruct cs, ps; wsi Hpr; ws; try discriminate Hpr; done. }
        destruct HF as (HF & H1 & H2). rewrite HF in Hpr. destruct VS as [VS|[M1 M2]]; [congruence|]. by split_and!. }
      assert (CQ : forall next1 next2, let a := abandon (fetch w) in let now := if wk_cancel w then None else Some (wk_now w) in
        get_expired now (wk_cs a) None = ([], wk_cs a, next1) -> get_expired now (wk_ps a) next1 = ([], wk_ps a, next2) -> wk_cancel w = true -> lives (wk_cs a) ++ lives (wk_ps a) = []).
      { intros next1 next2 a now G1 G2 Hca. destruct (get_expired_spec _ _ _ _ _ _ G1) as (X1 & _). destruct (get_expired_spec _ _ _ _ _ _ G2) as (Y1 & _). unfold now in X1, Y1. rewrite Hca in X1, Y1.
        assert (FA : forall l : list sreq, filter (fun r => expired None r) l = l). { clear. intros l. induction l as [|r l IH]; [done|]. rewrite filter_cons. rewrite decide_True by done. by rewrite IH. }
        rewrite FA in X1, Y1. by rewrite <- X1, <- Y1. }
      inversion S as [Hpr|out1 cs next1 out2 ps next2 a now Hpr G1 G2 Hne|next1 next2 a now Hpr G1 G2 Hnl Hst|next1 next2 a now Hpr G1 G2 Hnl Hst]; subst w1.
      * constructor; ws; try done. rewrite F3, F1. apply (v_stop _ _ V).
      * constructor; ws; try done.
      * constructor; ws; try done. intros st [= <-]. split; [unfold a; by rewrite B3, F3|]. unfold queued. ws. apply (CQ _ _ G1 G2). by apply (v_stop _ _ V).
      * destruct (NP Hpr) as (HF & N1 & N2 & N3 & N4). constructor; ws; try done.
        intros wu b [= <- <-]. split; [destruct (wk_cs a), (wk_ci a); split; try done; by intros []|]. right; right.
        destruct (get_expired_spec _ _ _ _ _ _ G1) as (_ & _ & _ & _ & _ & D1). destruct (get_expired_spec _ _ _ _ _ _ G2) as (_ & _ & _ & _ & D2 & D3).
        assert (Ha : wk_t a = wk_t w /\ wk_cs a = wk_cs w /\ wk_ps a = wk_ps w /\ wk_pi a = wk_pi w /\ wk_cancel a = wk_cancel w /\ wk_ci a = (if wk_cancel w then [] else wk_ci w)).
        { unfold a. rewrite HF in *. split_and!; congruence. } destruct Ha as (A1 & A2 & A3 & A4 & A5 & A6).
        constructor; unfold no_insert, no_sample, queued; ws; rewrite ?A1, ?A2, ?A3, ?A4, ?A5, ?A6.
        -- intros Hs. destruct (wk_cancel w); [by left|by apply N3].
        -- done.
        -- intros H1 H2. rewrite H2 in H1. auto.
        -- done.
        -- intros Hca. split; [rewrite <- A2, <- A3; by apply (CQ _ _ G1 G2)|]. rewrite Hca. split; [|done]. assert (Ha : a = abandon w) by (unfold a; by rewrite HF). rewrite Ha in Hnl |- *. clear -Hnl Hca. unfold abandon in *. rewrite Hca in *.
           destruct w as [t ca nw po pr li ci cs nl te ss is pi ps ns sp sg ow ni nr]. ws. wsi Hnl. destruct nl, ns; wsi Hnl; ws; done.
        -- intros r d' Hr Hd. rewrite A2 in D1. rewrite A3 in D3. apply elem_of_app in Hr as [Hr|Hr]; [|by eapply D3].
           destruct (D1 _ _ Hr Hd) as (k & -> & Hk). destruct (D2 _ eq_refl) as (k' & -> & Hk'). exists k'. split; [done|lia].
    + injection E as <- <-. constructor; ws; try done. apply (v_stop _ _ V).
  - destruct (waiting w); [|discriminate E]. injection E as <- <-. constructor; ws; try done. apply (v_stop _ _ V).
  - destruct (negb _); [by injection E as <- <-|]. rewrite wake_eq in E. destruct (_ <? c); injection E as <- <-;
      (eapply vinv_env; [exact V|ws; try done..]; [by left|rewrite He; done|intros Hw; left; unfold waiting in *; ws; rewrite Hw; by rewrite orb_true_r]).
  - rewrite wake_eq in E. injection E as <- <-. eapply vinv_env; [exact V|ws; try done..]; [by left|rewrite He; done|rewrite He; done|intros Hw; left; unfold waiting in *; ws; rewrite Hw; by rewrite orb_true_r].
  - destruct (mutate_ok cf (wk_t w) us ks (li_inv _ _ (reached_linv _ _ _ _ (si_reached _ _ _ _ SI))) Hp) as (t & E1). rewrite E1 in E. rewrite bool_decide_true in E by done. injection E as <- <-.
    destruct He as [He1 He2]. eapply vinv_env; [exact V|ws; try done..]; [right; split_and!; try done; by apply (can_sample_mutate cf _ us ks)|rewrite He2; done|]. intros _. right; left. by destruct (wk_owed w).
  - injection E as <- <-. destruct He as [He1 He2]. eapply vinv_env; [exact V|ws; try done..]; [right; split_and!; try done; intros _; apply (can_sample_reset cf); [apply (re_cfg _ _ _ _ (si_reached _ _ _ _ SI))|done]|rewrite He2; done|]. intros _. right; left. by destruct (wk_owed w).
  - injection E as <- <-. eapply vinv_env; [exact V|ws; try done..]; [by left|]. intros _. right; left. by destruct (wk_owed w).
  - destruct (wk_owed w) as [|b rest] eqn:Ho; [discriminate E|]. rewrite wake_eq in E.
    assert (HE : w' = set_sig (set_owed w rest) (wk_sig w || waiting w)).
    { unfold waiting in *. wsi E. destruct (wk_pos w), b; cbn [andb negb] in E; injection E as <- <-; rewrite ?orb_false_r; done. }
    rewrite HE. eapply vinv_env; [exact V|ws; try done..]; [by left|apply (v_stop _ _ V)|]. intros Hw. left. rewrite Hw. by rewrite orb_true_r.
  - rewrite wake_eq in E. injection E as <- <-. eapply vinv_env; [exact V|ws; try done..]; [by left|]. intros Hw. left. unfold waiting in *. ws. rewrite Hw. by rewrite orb_true_r.
  - injection E as <- <-. eapply vinv_env; [exact V|ws; try done..]; [by left|apply (v_stop _ _ V)|]. intros _. right; right. done.
Qed.
Lemma calm_accepted cf w e : calm cf w e -> accepted cf w e.
Proof. by intros []. Qed.

Lemma strictly_accepted strict cf w e : strictly strict cf w e -> accepted cf w e.
Proof. destruct strict; [apply calm_accepted|done]. Qed.

Lemma vinv_trace strict c cf now0 tr w : cfg_ok cf -> wk_trace (strictly strict cf) c (wk_new (new_table cf) now0) tr w -> vinv strict w.
Proof.
  intros Hc. induction 1 as [|tr w e w' outs H IH Hca HA E]; [by constructor|].
  destruct (sinv_trace c cf now0 tr w Hc (trace_mono _ _ _ _ _ _ (strictly_accepted strict cf) H)) as [rs SI]. by eapply vinv_step.
Qed.

(** ** The worker comes to rest *)

Definition slots (r : sreq) : nat := 3 * (Nat.max 1 (q_num r) - length (q_samples r)).
Fixpoint load (x : nat) (l : list (option sreq)) : nat :=
  match l with [] => 0%nat | o :: l => (x + match o with Some r => slots r | None => 0 end + load x l)%nat end.
Definition pot (w : wk) : nat :=
  (3 * length (wk_ci w) + 5 * length (wk_pi w) + load 0 (wk_cs w) + load 2 (wk_ps w) + 2 * length (wk_ns w) + length (wk_nl w)
   + (if wk_prog w then 1 else 0) + match wk_pos w with PSample true => 1 | _ => 0 end)%nat.
Definition stage (p : wpos) : nat :=
  match p with PFinal => 5 | PNotify => 4 | PInsert => 3 | PSample _ => 2 | PSwap => 1 | PWait _ _ | PReturned _ => 0 end.
Definition mu (w : wk) : nat := (6 * pot w + stage (wk_pos w))%nat.

Lemma load_skip x l : (load x (skip_none l) <= load x l)%nat.
Proof. induction l as [|[r|] l IH]; cbn [skip_none load]; lia. Qed.
Lemma load_shift l : (load 2 l = load 0 l + 2 * length l)%nat.
Proof. induction l as [|o l IH]; cbn [load length]; lia. Qed.
Lemma load_expired now x l : forall next out rest next', get_expired now l next = (out, rest, next') ->
  Forall (fun r => (length (q_samples r) < Nat.max 1 (q_num r))%nat) (lives l) -> (load x rest + 3 * length out <= load x l)%nat.
Proof.
  induction l as [|o l IH]; intros next out rest next'; cbn [get_expired load]; [intros [= <- <- <-] _; cbn; lia|]. destruct o as [r|].
  - change (lives (Some r :: l)) with (r :: lives l). destruct (expired now r); destruct (get_expired now l _) as [[out1 rest1] next1] eqn:E; intros [= <- <- <-] H; apply Forall_cons in H as [H1 H2];
      specialize (IH _ _ _ _ E H2); cbn [load length]; unfold slots; lia.
  - change (lives (None :: l)) with (lives l). destruct (get_expired now l next) as [[out1 rest1] next1] eqn:E; intros [= <- <- <-] H. specialize (IH _ _ _ _ E H). cbn [load]. lia.
Qed.
Lemma expired_next now l : forall next out rest next', get_expired now l next = (out, rest, next') ->
  match now with None => next' = next | Some n => (forall k, next = Some k -> n < k) -> forall k, next' = Some k -> n < k end.
Proof.
  induction l as [|o l IH]; intros next out rest next'; cbn [get_expired]; [intros [= <- <- <-]; by destruct now|]. destruct o as [r|].
  - destruct (expired now r) eqn:Hx; destruct (get_expired now l _) as [[out1 rest1] next1] eqn:E; intros [= <- <- <-]; specialize (IH _ _ _ _ E); [done|].
    destruct now as [n|]; [|done]. intros Hn. apply IH. intros k Hk. unfold expired in Hx. destruct (q_deadline r) as [d|]; [|destruct next; cbn in Hk; auto].
    destruct next as [m|]; cbn in Hk; injection Hk as <-; [specialize (Hn _ eq_refl)|]; lia.
  - destruct (get_expired now l next) as [[out1 rest1] next1] eqn:E; intros [= <- <- <-]. by apply (IH _ _ _ _ E).
Qed.

Lemma fetch_idle w : wk_prog (fetch w) = false -> fetch w = w.
Proof.
  destruct w as [t ca nw po pr li ci cs nl te ss is pi ps ns sp sg ow ni nr]. unfold fetch. ws. intros Hpr. destruct ci, pi; wsi Hpr; ws; destruct cs, ps; wsi Hpr; ws; try discriminate Hpr; done.
Qed.
Lemma pot_fetch w : wk_nl w = [] -> (pot (fetch w) <= pot w)%nat.
Proof.
  destruct w as [t ca nw po pr li ci cs nl te ss is pi ps ns sp sg ow ni nr]. ws. intros ->. unfold fetch, pot. ws.
  assert (H : forall b : bool, ((if b then 1 else 0) <= 1)%nat) by (intros []; lia). specialize (H pr).
  destruct ci, pi; ws; destruct cs, ps; ws; cbn [length load]; rewrite ?load_shift; cbn [length load]; lia.
Qed.
Lemma pot_abandon w : wk_nl w = [] -> (pot (abandon w) <= pot w)%nat /\ (wk_nl (abandon w) <> [] -> (pot (abandon w) < pot w)%nat).
Proof.
  destruct w as [t ca nw po pr li ci cs nl te ss is pi ps ns sp sg ow ni nr]. ws. intros ->. unfold abandon, pot. ws. destruct ca; ws; [|split; [lia|done]]. destruct ns; ws; cbn [length]; split; (lia || done || (intros _; lia)).
Qed.
Lemma pos_fetch w : wk_pos (fetch w) = wk_pos w /\ wk_pos (abandon w) = wk_pos w /\ wk_prog (abandon w) = wk_prog w /\ wk_owed (fetch w) = wk_owed w /\ wk_owed (abandon w) = wk_owed w.
Proof. split_and!; [by destruct w as [? ? ? ? ? ? [|] [|] ? ? ? ? [|] [|] ? ? ? ? ? ?]|by unfold abandon; destruct w as [? [|] ? ? ? ? ? ? [|] ? ? ? ? ? [|] ? ? ? ? ?]..|by destruct w as [? ? ? ? ? ? [|] [|] ? ? ? ? [|] [|] ? ? ? ? ? ?]|by unfold abandon; destruct w as [? [|] ? ? ? ? ? ? [|] ? ? ? ? ? [|] ? ? ? ? ?]]. Qed.

(** A waiting worker that has just gone to sleep. *)
Definition fresh (w : wk) : Prop :=
  match wk_pos w with PWait wu _ => wk_sig w = false /\ forall k, wu = Some k -> wk_now w < k | _ => True end.

Lemma work_step c now0 tr w at_ d w' outs : rinv now0 tr w -> ninv tr w -> wk_step c w (EWork at_ d) = WNext w' outs -> (forall st, wk_pos w' = PReturned st -> st = Ok) ->
  (mu w' < mu w)%nat /\ wk_owed w' = wk_owed w /\ fresh w'.
Proof.
  intros R [N Hl] E Hno. cbn [wk_step] in E. destruct (wk_pos w) as [| |made| |wu bl| |st] eqn:Hp; try discriminate E.
  - injection E as <- <-. split_and!; try done. unfold mu, pot. ws. rewrite Hp. cbn [stage length]. lia.
  - unfold work_insert in E. destruct (wk_ci w) as [|[i it] rest] eqn:Hci; [injection E as <- <-; split_and!; try done; unfold mu, pot; ws; rewrite Hp, Hci; cbn [stage length]; lia|].
    destruct (can_insert _ 1); [|injection E as <- <-; split_and!; try done; unfold mu, pot; ws; rewrite Hp, Hci; cbn [stage length]; lia].
    destruct (insert_internal _ _ _ _) as [[st t]|]; [|discriminate E]. destruct (bool_decide (st = Ok)); injection E as <- <-; split_and!; try done; unfold mu, pot; ws; rewrite Hp, Hci; cbn [stage length]; destruct (wk_prog w); lia.
  - assert (Ht : wk_term w = []) by (apply (ri_where _ _ _ R); by rewrite Hp).
    unfold work_sample in E. pose proof (load_skip 0 (wk_cs w)) as Hsk. pose proof (skip_none_head (wk_cs w)) as Hsh. pose proof (skip_none_lives (wk_cs w)) as Hlv.
    assert (HE : forall l, (load 0 l <= load 0 (wk_cs w))%nat -> (mu (set_pos (set_cs w l) (end_turn made)) < mu w)%nat).
    { intros l Hle. unfold mu, pot. ws. rewrite Hp. destruct made; cbn [end_turn stage]; lia. }
    assert (HF : forall l, fresh (set_pos (set_cs w l) (end_turn made))) by (intros l; unfold fresh; ws; by destruct made).
    destruct (skip_none (wk_cs w)) as [|[r|] rest] eqn:Hcs.
    + injection E as <- <-. split_and!; [by apply HE|done|apply HF].
    + destruct (maybe_commit_sample _) as [l|]; [|injection E as <- <-; split_and!; [by apply HE|done|apply HF]].
      destruct (sample_one _ _ _) as [[[st sm] t]|]; [|discriminate E].
      case_bool_decide as Hst; cbn [negb] in E; [|injection E as <- <-; by destruct (Hst (Hno st eq_refl))].
      pose proof (ri_live _ _ _ R) as L. unfold live, queued in L. rewrite <- Hlv in L. change (lives (Some r :: rest)) with (r :: lives rest) in L. cbn [app] in L. apply Forall_cons in L as [[_ L] _].
      cbn [load] in Hsk. destruct (_ =? _)%nat; injection E as <- <-; (split_and!; try done); unfold mu, pot; ws; rewrite Hp; cbn [stage load]; unfold slots in *; cbn [q_num q_samples];
        rewrite ?app_length; cbn [length]; destruct (wk_prog w), made; lia.
    + destruct Hsh.
  - assert (Hn : wk_nl w = []) by (by apply Hl). assert (Ht : wk_term w = []) by (apply (ri_where _ _ _ R); by rewrite Hp).
    destruct (work_swap_spec w) as (w1 & E1 & S). rewrite E1 in E. injection E as <- <-.
    pose proof (pot_fetch w Hn) as PF. destruct (pos_fetch w) as (P1 & _ & _ & P4 & _). destruct (pos_fetch (fetch w)) as (_ & P2 & P3 & _ & P5). destruct (abandon_queued (fetch w)) as (Q1 & Q2).
    destruct (fetch_cancel w) as (F1 & F2 & _ & _). destruct (abandon_cancel (fetch w)) as (B1 & B2 & _ & _).
    inversion S as [Hpr|out1 cs next1 out2 ps next2 a now Hpr G1 G2 Hne|next1 next2 a now Hpr G1 G2 Hnl Hst|next1 next2 a now Hpr G1 G2 Hnl Hst]; subst w1.
    + split_and!; try done. unfold mu. unfold pot in *. ws. rewrite Hp in *. rewrite P1 in PF. rewrite Hpr in PF. cbn [stage]. lia.
    + pose proof (fetch_idle w Hpr) as HF. destruct (pot_abandon (fetch w)) as [PA PB]; [by rewrite HF|].
      assert (L : Forall (fun r => (length (q_samples r) < Nat.max 1 (q_num r))%nat) (lives (wk_cs a) ++ lives (wk_ps a))).
      { unfold a. rewrite Q1, Q2, HF. pose proof (ri_live _ _ _ R) as L. unfold live in L. rewrite Ht, app_nil_r in L. eapply Forall_impl; [exact L|]. by intros r []. }
      apply Forall_app in L as [L1 L2]. pose proof (load_expired _ 0 _ _ _ _ _ G1 L1) as D1. pose proof (load_expired _ 2 _ _ _ _ _ G2 L2) as D2.
      split_and!; [|ws; unfold a; by rewrite P5, P4|done].
      assert (HX : (pot (set_pos (set_term (set_ps (set_cs a cs) ps) (out1 ++ out2)) PFinal) < pot w)%nat); [|unfold mu; ws; cbn [stage]; lia].
      assert (HX : (pot (set_pos (set_term (set_ps (set_cs a cs) ps) (out1 ++ out2)) PFinal) + 3 * length (out1 ++ out2) <= pot a)%nat) by (unfold pot; ws; unfold a; rewrite P2, P1, Hp; fold a; rewrite app_length; lia).
      rewrite HF in PA, PB. assert (Ha : a = abandon w) by (unfold a; by rewrite HF). rewrite <- Ha in PA, PB.
      destruct Hne as [Hne|Hne]; [|specialize (PB Hne); lia]. destruct (out1 ++ out2); [done|]. cbn [length] in HX. lia.
    + pose proof (fetch_idle w Hpr) as HF. destruct (pot_abandon (fetch w)) as [PA _]; [by rewrite HF|]. split_and!; [|ws; unfold a; by rewrite P5, P4|done].
      unfold mu. assert (HX : (pot (set_pos (set_term a []) (PReturned Ok)) <= pot a)%nat) by (unfold pot; ws; unfold a; rewrite P2, P1, Hp; lia). fold a in PA. rewrite Hp. ws. cbn [stage]. lia.
    + pose proof (fetch_idle w Hpr) as HF. destruct (pot_abandon (fetch w)) as [PA _]; [by rewrite HF|]. split_and!; [|ws; unfold a; by rewrite P5, P4|].
      * unfold mu. match goal with |- (6 * pot ?v + _ < _)%nat => assert (HX : (pot v <= pot a)%nat) by (unfold pot; ws; unfold a; rewrite P2, P1, Hp; lia) end. fold a in PA. rewrite Hp. ws. cbn [stage]. lia.
      * unfold fresh. ws. split; [done|]. intros k Hk. unfold a. rewrite B2, F2. pose proof (expired_next _ _ _ _ _ _ G1) as N1. pose proof (expired_next _ _ _ _ _ _ G2) as N2. unfold now in N1, N2.
        destruct (wk_cancel w); [congruence|]. apply N2; [|done]. by apply N1.
  - injection E as <- <-. split_and!; try done. unfold mu, pot. ws. rewrite Hp. cbn [stage]. lia.
Qed.

(** An action of the worker alone, or of a call that is about to signal it. *)
Definition inner (e : wev) : Prop := match e with EWork _ _ | EWake | EOwed => True | _ => False end.
Definition resting (w : wk) : Prop := match wk_pos w with PWait _ _ | PReturned _ => True | _ => False end.

Global Instance resting_dec w : Decision (resting w).
Proof. unfold resting. destruct (wk_pos w); apply _. Defined.

Lemma settle strict c cf now0 d n : cfg_ok cf -> draw_ok d -> forall tr w, (mu w <= n)%nat -> wk_trace (strictly strict cf) c (wk_new (new_table cf) now0) tr w ->
  exists tr' w', wk_trace (strictly strict cf) c (wk_new (new_table cf) now0) (tr ++ tr') w' /\ (length tr' <= mu w)%nat /\ Forall (fun x => inner x.1) tr' /\ resting w' /\ wk_owed w' = wk_owed w /\ (resting w /\ w' = w \/ fresh w').
Proof.
  intros Hc Hd. induction n as [n IH] using lt_wf_ind. intros tr w Hn H.
  destruct (decide (resting w)) as [Hr|NR].
  { exists [], w. rewrite app_nil_r. split_and!; try done; [cbn; lia|by left]. }
  destruct (sinv_trace c cf now0 tr w Hc (trace_mono _ _ _ _ _ _ (strictly_accepted strict cf) H)) as [rs SI].
  pose proof (sinv_step c cf tr w rs (EWork (0, 0) d) SI Hd Logic.I) as S.
  destruct (wk_step c w (EWork (0, 0) d)) as [w1 outs| |] eqn:E; [|done|].
  2: { exfalso. apply NR. unfold resting. cbn [wk_step] in E. destruct (wk_pos w) as [| |made| |wu bl| |st]; try discriminate E; try exact Logic.I.
       - unfold work_insert in E. destruct (wk_ci w) as [|[? ?] ?]; [discriminate E|]. destruct (can_insert _ _); [|discriminate E]. destruct (insert_internal _ _ _ _) as [[st ?]|]; [|discriminate E]. by destruct (bool_decide _).
       - unfold work_sample in E. destruct (skip_none _) as [|[?|] ?]; try discriminate E. destruct (maybe_commit_sample _); [|discriminate E]. destruct (sample_one _ _ _) as [[[? ?] ?]|]; [|discriminate E].
         destruct (negb _); [discriminate E|]. by destruct (_ =? _)%nat.
       - destruct (work_swap_spec w) as (w1 & E1 & _). rewrite E1 in E. discriminate E. }
  destruct (work_step c now0 tr w (0, 0) d w1 outs (rinv_trace _ _ _ _ _ _ H) (ninv_trace _ _ _ _ _ _ H) E) as (M & O & F); [by destruct S as [rs' []]|].
  assert (H1 : wk_trace (strictly strict cf) c (wk_new (new_table cf) now0) (tr ++ [(EWork (0, 0) d, outs)]) w1) by (econstructor; [exact H|exact Hd|by destruct strict|exact E]).
  destruct (IH (mu w1) ltac:(lia) _ w1 ltac:(lia) H1) as (tr' & w' & H2 & L2 & I2 & R2 & O2 & F2).
  exists ((EWork (0, 0) d, outs) :: tr'), w'. split_and!.
  - by rewrite <- app_assoc in H2.
  - cbn [length]. lia.
  - by constructor.
  - done.
  - congruence.
  - right. by destruct F2 as [[_ ->]|F2].
Qed.
(** At rest for good: asleep, no signal under way, no deadline passed. *)
Definition quiet (w : wk) : Prop :=
  match wk_pos w with PWait wu _ => wk_sig w = false /\ wk_owed w = [] /\ forall k, wu = Some k -> wk_now w < k | _ => False end.

Lemma drain strict c cf now0 : forall tr w wu b, wk_trace (strictly strict cf) c (wk_new (new_table cf) now0) tr w -> wk_pos w = PWait wu b ->
  exists tr' w', wk_trace (strictly strict cf) c (wk_new (new_table cf) now0) (tr ++ tr') w' /\ Forall (fun x => inner x.1) tr' /\ wk_pos w' = PWait wu b /\ wk_owed w' = [].
Proof.
  intros tr w wu b. remember (length (wk_owed w)) as n eqn:Hn. revert tr w Hn. induction n as [|n IH]; intros tr w Hn H Hp.
  - exists [], w. rewrite app_nil_r. destruct (wk_owed w); [|done]. split_and!; done.
  - destruct (wk_owed w) as [|x rest] eqn:Ho; [done|].
    assert (E : wk_step c w EOwed = WNext (set_sig (set_owed w rest) (wk_sig w || waiting w)) []).
    { cbn [wk_step]. rewrite Ho, wake_eq. unfold waiting. ws. rewrite Hp. destruct x; done. }
    destruct (IH (tr ++ [(EOwed, [])]) (set_sig (set_owed w rest) (wk_sig w || waiting w))) as (tr' & w' & H1 & H2 & H3 & H4).
    { cbn [length] in Hn. ws. lia. }
    { econstructor; [exact H|exact Logic.I|by destruct strict|exact E]. }
    { exact Hp. }
    exists ((EOwed, []) :: tr'), w'. rewrite <- app_assoc in H1. split_and!; try done. by constructor.
Qed.

Lemma comes_to_rest strict c cf now0 d tr w : cfg_ok cf -> draw_ok d -> wk_trace (strictly strict cf) c (wk_new (new_table cf) now0) tr w ->
  exists tr' w', wk_trace (strictly strict cf) c (wk_new (new_table cf) now0) (tr ++ tr') w' /\ Forall (fun x => inner x.1) tr' /\ (quiet w' \/ exists st, wk_pos w' = PReturned st).
Proof.
  intros Hc Hd H. destruct (settle strict c cf now0 d (mu w) Hc Hd tr w ltac:(lia) H) as (tr1 & w1 & H1 & _ & I1 & R1 & _ & _).
  unfold resting in R1. destruct (wk_pos w1) as [| |made| |wu bl| |st] eqn:Hp; try done; [|exists tr1, w1; split_and!; try done; right; by exists st].
  destruct (drain strict c cf now0 _ w1 wu bl H1 Hp) as (tr2 & w2 & H2 & I2 & P2 & O2).
  assert (E : wk_step c w2 EWake = WNext (set_pos (set_sig w2 false) PNotify) []) by (cbn [wk_step]; unfold waiting; by rewrite P2).
  assert (H3 : wk_trace (strictly strict cf) c (wk_new (new_table cf) now0) (((tr ++ tr1) ++ tr2) ++ [(EWake, [])]) (set_pos (set_sig w2 false) PNotify)).
  { econstructor; [exact H2|exact Logic.I|by destruct strict|exact E]. }
  destruct (settle strict c cf now0 d _ Hc Hd _ _ (le_n _) H3) as (tr4 & w4 & H4 & _ & I4 & R4 & O4 & F4).
  exists (tr1 ++ tr2 ++ [(EWake, [])] ++ tr4), w4. rewrite <- !app_assoc in H4. split; [exact H4|]. split; [rewrite !Forall_app; split_and!; try done; by repeat constructor|].
  unfold resting in R4. unfold quiet. destruct F4 as [[[] _]|F4]. unfold fresh in F4. destruct (wk_pos w4) as [| |made| |wu' bl'| |st]; try done; [left|right; by exists st].
  destruct F4 as [F4 F5]. split_and!; try done. rewrite O4. exact O2.
Qed.
End WithFP.
