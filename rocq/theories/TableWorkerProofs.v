(** Invariants of the table worker. *)
From Verif Require Import Base RateLimiter Selector Trajectory Table EventLog TableProofs TableLog SelSpec PropSelectors TableSpec LogFacts PropTable TableWorker.
From Coq Require Import Sorting.Sorted.

(** ** What a run shows *)

(** The clock after a run. *)
Fixpoint clock (now : Z) (tr : list (wev * list wout)) : Z :=
  match tr with [] => now | (ETick n, _) :: tr => clock n tr | _ :: tr => clock now tr end.
(** The sampling requests of a run in the order of arrival: number of samples and
    deadline. *)
Fixpoint requests (now : Z) (tr : list (wev * list wout)) : list (nat * option Z) :=
  match tr with
  | [] => []
  | (ETick n, _) :: tr => requests n tr
  | (ERequest num timeout, _) :: tr => (num, (fun t => now + t) <$> timeout) :: requests now tr
  | _ :: tr => requests now tr
  end.
(** The items of the accepted calls of InsertOrAssignAsync. *)
Definition arrivals (tr : list (wev * list wout)) : list item :=
  tr ≫= fun x => match x.1 with EInsert it => if bool_decide (check_item_validity it = Ok) then [it] else [] | _ => [] end.
Definition outputs (tr : list (wev * list wout)) : list wout := tr ≫= snd.
Definition answers (tr : list (wev * list wout)) : list (nat * status * list sampled) :=
  omap (fun o => match o with OAnswer i st l => Some (i, st, l) | _ => None end) (outputs tr).
Definition applied (tr : list (wev * list wout)) : list (nat * item) :=
  omap (fun o => match o with OApplied i it _ _ => Some (i, it) | _ => None end) (outputs tr).
(** Callers that were told to wait, and those that were told to go on. *)
Definition held_back (tr : list (wev * list wout)) : list nat :=
  omap (fun o => match o with OMore i false => Some i | _ => None end) (outputs tr).
Definition let_go (tr : list (wev * list wout)) : list nat :=
  omap (fun o => match o with OMayInsert i _ => Some i | _ => None end) (outputs tr).
Definition closed (tr : list (wev * list wout)) : bool := existsb (fun x => match x.1 with EClose => true | _ => false end) tr.

Lemma clock_snoc now tr e outs : clock now (tr ++ [(e, outs)]) = match e with ETick n => n | _ => clock now tr end.
Proof. revert now. induction tr as [|[x y] tr IH]; intros now; cbn [app clock]; [by destruct e|]. destruct x; apply IH. Qed.
Lemma requests_snoc now tr e outs : requests now (tr ++ [(e, outs)]) =
  requests now tr ++ match e with ERequest num timeout => [(num, (fun t => clock now tr + t) <$> timeout)] | _ => [] end.
Proof. revert now. induction tr as [|[x y] tr IH]; intros now; cbn [app requests clock]; [by destruct e|]. destruct x; cbn [app]; try apply IH. by rewrite IH. Qed.
Lemma outputs_snoc tr e outs : outputs (tr ++ [(e, outs)]) = outputs tr ++ outs.
Proof. unfold outputs. rewrite bind_app. cbn. by rewrite app_nil_r. Qed.
Lemma answers_snoc tr e outs : answers (tr ++ [(e, outs)]) = answers tr ++ omap (fun o => match o with OAnswer i st l => Some (i, st, l) | _ => None end) outs.
Proof. unfold answers. by rewrite outputs_snoc, omap_app. Qed.
Lemma applied_snoc tr e outs : applied (tr ++ [(e, outs)]) = applied tr ++ omap (fun o => match o with OApplied i it _ _ => Some (i, it) | _ => None end) outs.
Proof. unfold applied. by rewrite outputs_snoc, omap_app. Qed.
Lemma held_back_snoc tr e outs : held_back (tr ++ [(e, outs)]) = held_back tr ++ omap (fun o => match o with OMore i false => Some i | _ => None end) outs.
Proof. unfold held_back. by rewrite outputs_snoc, omap_app. Qed.
Lemma let_go_snoc tr e outs : let_go (tr ++ [(e, outs)]) = let_go tr ++ omap (fun o => match o with OMayInsert i _ => Some i | _ => None end) outs.
Proof. unfold let_go. by rewrite outputs_snoc, omap_app. Qed.
Lemma arrivals_snoc tr e outs : arrivals (tr ++ [(e, outs)]) =
  arrivals tr ++ match e with EInsert it => if bool_decide (check_item_validity it = Ok) then [it] else [] | _ => [] end.
Proof. unfold arrivals. rewrite bind_app. cbn. by rewrite app_nil_r. Qed.
Lemma closed_snoc tr e outs : closed (tr ++ [(e, outs)]) = closed tr || match e with EClose => true | _ => false end.
Proof. unfold closed. rewrite existsb_app. cbn. by rewrite orb_false_r. Qed.

Section WithFP.
Context {fp : FP}.

Ltac ws := cbn [wk_t wk_cancel wk_now wk_pos wk_prog wk_lim wk_ci wk_cs wk_nl wk_term wk_ss wk_is wk_pi wk_ps wk_ns wk_stop wk_sig wk_owed wk_nins wk_nreq
  set_t set_cancel set_now set_pos set_prog set_lim set_ci set_cs set_nl set_term set_statuses set_pi set_ps set_ns set_stop set_sig set_owed set_count].
Ltac wsi H := cbn [wk_t wk_cancel wk_now wk_pos wk_prog wk_lim wk_ci wk_cs wk_nl wk_term wk_ss wk_is wk_pi wk_ps wk_ns wk_stop wk_sig wk_owed wk_nins wk_nreq
  set_t set_cancel set_now set_pos set_prog set_lim set_ci set_cs set_nl set_term set_statuses set_pi set_ps set_ns set_stop set_sig set_owed set_count] in H.

(** [wake] changes nothing but the signal. *)
Lemma wake_eq w : wake w = set_sig w (wk_sig w || waiting w).
Proof. unfold wake. destruct (waiting w); [by rewrite orb_true_r|]. rewrite orb_false_r. by destruct w. Qed.

(** *** The requests *)

Definition lives (l : list (option sreq)) : list sreq := omap id l.
Definition queued (w : wk) : list sreq := lives (wk_cs w) ++ lives (wk_ps w).
Definition live (w : wk) : list sreq := queued w ++ wk_term w.

Lemma lives_app a b : lives (a ++ b) = lives a ++ lives b.
Proof. apply omap_app. Qed.
Lemma skip_none_lives l : lives (skip_none l) = lives l.
Proof. induction l as [|[r|] l IH]; [done|done|]. exact IH. Qed.
Lemma skip_none_head l : match skip_none l with None :: _ => False | _ => True end.
Proof. induction l as [|[r|] l IH]; done. Qed.

Lemma get_expired_spec now rs : forall next out rest next', get_expired now rs next = (out, rest, next') ->
  out = filter (fun r => expired now r) (lives rs) /\ lives rest = filter (fun r => ~ expired now r) (lives rs) /\ length rest = length rs /\
  (out = [] -> rest = rs) /\
  (forall k, next = Some k -> exists k', next' = Some k' /\ k' <= k) /\
  (forall r d, r ∈ lives rest -> q_deadline r = Some d -> exists k', next' = Some k' /\ k' <= d).
Proof.
  induction rs as [|o rs IH]; intros next out rest next'; cbn [get_expired].
  { intros [= <- <- <-]. split_and!; try done; [intros k ->; exists k; split; [done|lia]|]. intros r d H. by apply elem_of_nil in H. }
  destruct o as [r|].
  - destruct (expired now r) eqn:Hx.
    + destruct (get_expired now rs next) as [[out1 rest1] next1] eqn:E. intros [= <- <- <-]. destruct (IH _ _ _ _ E) as (A1 & A2 & A3 & A4 & A5 & A6).
      change (lives (Some r :: rs)) with (r :: lives rs). change (lives (None :: rest1)) with (lives rest1).
      rewrite !filter_cons. rewrite decide_True by (rewrite Hx; exact Logic.I). rewrite decide_False by (rewrite Hx; intros H; by apply H).
      split_and!; try done; [by rewrite A1|cbn; by rewrite A3].
    + destruct (get_expired now rs _) as [[out1 rest1] next1] eqn:E. intros [= <- <- <-]. destruct (IH _ _ _ _ E) as (A1 & A2 & A3 & A4 & A5 & A6).
      change (lives (Some r :: rs)) with (r :: lives rs). change (lives (Some r :: rest1)) with (r :: lives rest1).
      rewrite !filter_cons. rewrite decide_False by (rewrite Hx; intros []). rewrite decide_True by (rewrite Hx; intros []).
      split_and!; [done|by rewrite A2|cbn; by rewrite A3|intros H; by rewrite (A4 H)|..].
      * intros k ->. destruct (q_deadline r) as [d|]; cbn [min_deadline] in A5; [|by apply A5].
        destruct (A5 _ eq_refl) as (k' & -> & Hk). exists k'. split; [done|lia].
      * intros r' d H Hd. apply elem_of_cons in H as [->|H]; [|by eapply A6]. rewrite Hd in A5.
        destruct next as [n|]; cbn [min_deadline] in A5; destruct (A5 _ eq_refl) as (k' & -> & Hk); exists k'; (split; [done|lia]).
  - destruct (get_expired now rs next) as [[out1 rest1] next1] eqn:E. intros [= <- <- <-]. destruct (IH _ _ _ _ E) as (A1 & A2 & A3 & A4 & A5 & A6).
    change (lives (None :: rs)) with (lives rs). change (lives (None :: rest1)) with (lives rest1). split_and!; try done; [cbn; by rewrite A3|].
    intros H. by rewrite (A4 H).
Qed.

(** What the section under [worker_mu_] does, in four cases. *)
Inductive swap_result (w : wk) : wk -> Prop :=
| sr_progress : wk_prog (fetch w) = true -> swap_result w (set_pos (set_prog (fetch w) false) PNotify)
| sr_final out1 cs next1 out2 ps next2 : let a := abandon (fetch w) in let now := if wk_cancel w then None else Some (wk_now w) in
    wk_prog (fetch w) = false -> get_expired now (wk_cs a) None = (out1, cs, next1) -> get_expired now (wk_ps a) next1 = (out2, ps, next2) ->
    out1 ++ out2 <> [] \/ wk_nl a <> [] -> swap_result w (set_pos (set_term (set_ps (set_cs a cs) ps) (out1 ++ out2)) PFinal)
| sr_stop next1 next2 : let a := abandon (fetch w) in let now := if wk_cancel w then None else Some (wk_now w) in
    wk_prog (fetch w) = false -> get_expired now (wk_cs a) None = ([], wk_cs a, next1) -> get_expired now (wk_ps a) next1 = ([], wk_ps a, next2) -> wk_nl a = [] -> wk_stop w = true ->
    swap_result w (set_pos (set_term a []) (PReturned Ok))
| sr_wait next1 next2 : let a := abandon (fetch w) in let now := if wk_cancel w then None else Some (wk_now w) in
    wk_prog (fetch w) = false -> get_expired now (wk_cs a) None = ([], wk_cs a, next1) -> get_expired now (wk_ps a) next1 = ([], wk_ps a, next2) -> wk_nl a = [] -> wk_stop w = false ->
    swap_result w (set_sig (set_pos (set_lim (set_term a []) (match wk_cs a with [] => false | _ => true end))
      (PWait next2 (match wk_cs a, wk_ci a with [], [] => false | _, _ => true end))) false).

Lemma fetch_cancel w : wk_cancel (fetch w) = wk_cancel w /\ wk_now (fetch w) = wk_now w /\ wk_stop (fetch w) = wk_stop w /\ wk_term (fetch w) = wk_term w.
Proof. destruct w as [? ? ? ? ? ? [|] [|] ? ? ? ? [|] [|] ? ? ? ? ? ?]; done. Qed.
Lemma abandon_cancel w : wk_cancel (abandon w) = wk_cancel w /\ wk_now (abandon w) = wk_now w /\ wk_stop (abandon w) = wk_stop w /\ wk_term (abandon w) = wk_term w.
Proof. unfold abandon. destruct w as [? [|] ? ? ? ? ? ? [|] ? ? ? ? ? [|] ? ? ? ? ?]; done. Qed.

Lemma work_swap_spec w : exists w', work_swap w = WNext w' [] /\ swap_result w w'.
Proof.
  unfold work_swap. cbn zeta. destruct (wk_prog (fetch w)) eqn:Hp; [eexists; split; [done|by apply sr_progress]|].
  destruct (fetch_cancel w) as (F1 & F2 & F3 & F4). destruct (abandon_cancel (fetch w)) as (B1 & B2 & B3 & B4). rewrite B1, B2, F1, F2.
  set (a := abandon (fetch w)). set (now := if wk_cancel w then None else Some (wk_now w)).
  destruct (get_expired now (wk_cs a) None) as [[out1 cs] next1] eqn:E1. destruct (get_expired now (wk_ps a) next1) as [[out2 ps] next2] eqn:E2. ws.
  destruct (out1 ++ out2) as [|r out] eqn:Ho.
  - apply app_eq_nil in Ho as [-> ->]. assert (cs = wk_cs a) as -> by (by apply (get_expired_spec _ _ _ _ _ _ E1)).
    assert (ps = wk_ps a) as -> by (by apply (get_expired_spec _ _ _ _ _ _ E2)).
    assert (Ea : forall v, set_ps (set_cs v (wk_cs v)) (wk_ps v) = v) by (by intros []). rewrite Ea.
    destruct (wk_nl a) as [|i nl] eqn:Hn.
    + change (wk_stop a) with (wk_stop (abandon (fetch w))). rewrite B3, F3. destruct (wk_stop w) eqn:Hs.
      * eexists. split; [done|]. eapply sr_stop; done.
      * eexists. split; [done|]. eapply (sr_wait w next1 next2); done.
    + eexists. split; [done|]. rewrite <- (Ea (set_term a [])). eapply (sr_final w [] _ next1 [] _ next2); try done. right. fold a. by rewrite Hn.
  - eexists. split; [done|]. rewrite <- Ho. eapply (sr_final w out1 cs next1 out2 ps next2); try done. left. by rewrite Ho.
Qed.

(** What the loop does to the requests. *)
Lemma fetch_queued w : queued (fetch w) = queued w.
Proof.
  unfold fetch, queued. destruct w as [t ca nw po pr li ci cs nl te ss is pi ps ns sp sg ow ni nr]. ws. destruct ci, pi; ws; destruct cs, ps; ws; cbn [lives omap list_omap app]; rewrite ?app_nil_r; done.
Qed.
Lemma abandon_queued w : wk_cs (abandon w) = wk_cs w /\ wk_ps (abandon w) = wk_ps w.
Proof. unfold abandon. destruct w as [? [|] ? ? ? ? ? ? [|] ? ? ? ? ? [|] ? ? ? ? ?]; done. Qed.

Definition ids (l : list sreq) : list nat := q_id <$> l.
Definition ok_ids (l : list (nat * status * list sampled)) : list nat := omap (fun a => if bool_decide (a.1.2 = Ok) then Some a.1.1 else None) l.
Definition answer_ids (l : list (nat * status * list sampled)) : list nat := (fun a => a.1.1) <$> l.

(** An answer is as the caller may expect it. *)
Definition answer_fine (now0 : Z) (tr : list (wev * list wout)) (a : nat * status * list sampled) : Prop :=
  exists num dl, requests now0 tr !! a.1.1 = Some (num, dl) /\
    (a.1.2 = Ok /\ length a.2 = Nat.max 1 num \/ a.1.2 = DeadlineExceeded /\ (exists d, dl = Some d /\ d <= clock now0 tr) \/ a.1.2 = Cancelled /\ closed tr = true).

Record rinv (now0 : Z) (tr : list (wev * list wout)) (w : wk) : Prop := {
  ri_clock : wk_now w = clock now0 tr;
  ri_closed : wk_cancel w = closed tr;
  ri_count : wk_nreq w = length (requests now0 tr);
  ri_live : Forall (fun r => requests now0 tr !! q_id r = Some (q_num r, q_deadline r) /\ (length (q_samples r) < Nat.max 1 (q_num r))%nat) (live w);
  ri_once : Permutation (answer_ids (answers tr) ++ ids (live w)) (seq 0 (wk_nreq w));
  ri_fine : Forall (answer_fine now0 tr) (answers tr);
  ri_order : StronglySorted lt (ok_ids (answers tr) ++ ids (queued w));
  ri_status : wk_ss w = DeadlineExceeded \/ wk_ss w = Cancelled /\ wk_cancel w = true;
  ri_term : wk_ss w = DeadlineExceeded -> Forall (fun r => exists d, q_deadline r = Some d /\ d <= wk_now w) (wk_term w);
  ri_where : wk_pos w <> PFinal -> wk_term w = [];
}.

(** Facts about traces grow with the trace. *)
Lemma fine_snoc now0 tr e outs a : (forall n, e = ETick n -> clock now0 tr <= n) -> answer_fine now0 tr a -> answer_fine now0 (tr ++ [(e, outs)]) a.
Proof.
  intros Hc (num & dl & H1 & H2). exists num, dl. rewrite requests_snoc. split; [by apply lookup_app_l_Some|].
  destruct H2 as [H2|[(H2 & d & H3 & H4)|[H2 H3]]]; [by left|right; left|right; right].
  - split; [done|]. exists d. split; [done|]. rewrite clock_snoc. destruct e; try done. specialize (Hc _ eq_refl). lia.
  - split; [done|]. rewrite closed_snoc, H3. done.
Qed.

Lemma sorted_sub (l l' : list nat) : sublist l' l -> StronglySorted lt l -> StronglySorted lt l'.
Proof.
  induction 1 as [|x l l' H IH|x l l' H IH]; intros S; [done| |].
  - apply StronglySorted_inv in S as [S1 S2]. constructor; [by apply IH|]. apply Forall_forall. intros y Hy. rewrite List.Forall_forall in S2. apply S2. apply elem_of_list_In.
    eapply elem_of_submseteq; [exact Hy|]. by apply sublist_submseteq.
  - apply StronglySorted_inv in S as [S1 _]. by apply IH.
Qed.
Lemma sorted_snoc (l : list nat) x : StronglySorted lt l -> Forall (fun y => (y < x)%nat) l -> StronglySorted lt (l ++ [x]).
Proof.
  induction l as [|y l IH]; intros S H; cbn [app]; [repeat constructor|]. apply StronglySorted_inv in S as [S1 S2]. apply Forall_cons in H as [H1 H2].
  constructor; [by apply IH|]. apply Forall_app. split; [done|]. by repeat constructor.
Qed.

Lemma sublist_filter (P : sreq -> Prop) `{forall r, Decision (P r)} (l : list sreq) : sublist (filter P l) l.
Proof. induction l as [|r l IH]; [done|]. rewrite filter_cons. destruct (decide (P r)); by constructor. Qed.
Lemma sublist_ids (l l' : list sreq) : sublist l' l -> sublist (q_id <$> l') (q_id <$> l).
Proof. induction 1; cbn; by constructor. Qed.
Lemma filter_perm (P : sreq -> Prop) `{forall r, Decision (P r)} (l : list sreq) : Permutation (filter P l ++ filter (fun r => ~ P r) l) l.
Proof.
  induction l as [|r l IH]; [done|]. rewrite !filter_cons. destruct (decide (P r)) as [HP|HP].
  - rewrite decide_False by tauto. cbn. by rewrite IH.
  - rewrite decide_True by done. rewrite <- Permutation_middle. by rewrite IH.
Qed.

(** An action that leaves the requests alone. *)
Lemma rinv_same now0 tr w e outs w' : rinv now0 tr w -> (forall n, e = ETick n -> clock now0 tr <= n) ->
  match e with ERequest _ _ => False | _ => True end -> omap (fun o => match o with OAnswer i st l => Some (i, st, l) | _ => None end) outs = [] ->
  wk_now w' = match e with ETick n => n | _ => wk_now w end -> wk_cancel w' = wk_cancel w || match e with EClose => true | _ => false end ->
  wk_nreq w' = wk_nreq w -> queued w' = queued w -> wk_term w' = wk_term w -> wk_ss w' = wk_ss w -> (wk_pos w' = wk_pos w \/ wk_term w = []) ->
  rinv now0 (tr ++ [(e, outs)]) w'.
Proof.
  intros [] Hc He Ho E1 E2 E3 E4 E5 E6 E7.
  assert (Hr : requests now0 (tr ++ [(e, outs)]) = requests now0 tr) by (rewrite requests_snoc; destruct e; try done; by rewrite app_nil_r).
  assert (Ha : answers (tr ++ [(e, outs)]) = answers tr) by (by rewrite answers_snoc, Ho, app_nil_r).
  constructor; rewrite ?Hr, ?Ha, ?E3; unfold live; rewrite ?E4, ?E5, ?E6; try done.
  - rewrite E1, clock_snoc, ri_clock0. by destruct e.
  - rewrite E2, closed_snoc, ri_closed0. done.
  - eapply Forall_impl; [exact ri_fine0|]. intros a. by apply fine_snoc.
  - destruct ri_status0 as [->|[-> Hs]]; [by left|]. right. split; [done|]. rewrite E2, Hs. done.
  - intros Hs. eapply Forall_impl; [exact (ri_term0 Hs)|]. intros r (d & H1 & H2). exists d. split; [done|]. rewrite E1. destruct e; try done. specialize (Hc _ eq_refl). lia.
  - intros Hp. destruct E7 as [E7|E7]; [|done]. apply ri_where0. by rewrite <- E7.
Qed.

Lemma rinv_step c now0 tr w e w' outs : rinv now0 tr w -> wk_can w e -> wk_step c w e = WNext w' outs -> rinv now0 (tr ++ [(e, outs)]) w'.
Proof.
  intros I He E. pose proof I as I0.
  assert (Hc : forall n, e = ETick n -> clock now0 tr <= n) by (intros n ->; cbn in He; rewrite <- (ri_clock _ _ _ I); done).
  destruct e as [at_ d| |it|num timeout|us ks| | | | |now]; cbn [wk_step] in E.
  - (* the worker *)
    destruct (wk_pos w) as [| |made| |wu bl| |st] eqn:Hp; try discriminate E.
    + injection E as <- <-. eapply rinv_same; try done; ws; [by induction (wk_nl w)|by rewrite orb_false_r|right; apply (ri_where _ _ _ I); by rewrite Hp].
    + assert (Ht : wk_term w = []) by (apply (ri_where _ _ _ I); by rewrite Hp).
      unfold work_insert in E. destruct (wk_ci w) as [|[i it] rest] eqn:Hci; [injection E as <- <-; eapply rinv_same; try done; ws; [by rewrite orb_false_r|by right]|].
      destruct (can_insert _ 1); [|injection E as <- <-; eapply rinv_same; try done; ws; [by rewrite orb_false_r|by right]].
      destruct (insert_internal _ _ _ _) as [[st t]|]; [|discriminate E]. destruct (bool_decide (st = Ok));
        injection E as <- <-; (eapply rinv_same; try done; ws; [by rewrite orb_false_r|by right]).
    + assert (Ht : wk_term w = []) by (apply (ri_where _ _ _ I); by rewrite Hp).
      unfold work_sample in E. pose proof (skip_none_lives (wk_cs w)) as Hsk. pose proof (skip_none_head (wk_cs w)) as Hsh. destruct (skip_none (wk_cs w)) as [|[r|] rest] eqn:Hcs.
      * injection E as <- <-. eapply rinv_same; try done; ws; [by rewrite orb_false_r| |by right]. unfold queued. ws. by rewrite <- Hsk.
      * destruct (maybe_commit_sample _) as [l|].
        2: { injection E as <- <-. eapply rinv_same; try done; ws; [by rewrite orb_false_r| |by right]. unfold queued. ws. by rewrite <- Hsk. }
        destruct (sample_one _ _ _) as [[[st sm] t]|]; [|discriminate E].
        destruct (negb (bool_decide (st = Ok))); [injection E as <- <-; eapply rinv_same; try done; ws; [by rewrite orb_false_r|by right]|].
        change (lives (Some r :: rest)) with (r :: lives rest) in Hsk.
        assert (HQ : queued w = r :: lives rest ++ lives (wk_ps w)) by (unfold queued; by rewrite <- Hsk).
        destruct I. unfold live in *. rewrite Ht, app_nil_r in *. rewrite HQ in *. apply Forall_cons in ri_live0 as [[L1 L2] L3].
        destruct (Nat.eqb_spec (Nat.max 1 (q_num r)) (length (q_samples r ++ [sm]))) as [Hn|Hn]; injection E as <- <-.
        -- (* the answer *)
           assert (HA : answers (tr ++ [(EWork at_ d, [OTaken (q_id r) d sm; OAnswer (q_id r) Ok (q_samples r ++ [sm])])]) = answers tr ++ [(q_id r, Ok, q_samples r ++ [sm])]) by (by rewrite answers_snoc).
           assert (HR : requests now0 (tr ++ [(EWork at_ d, [OTaken (q_id r) d sm; OAnswer (q_id r) Ok (q_samples r ++ [sm])])]) = requests now0 tr) by (by rewrite requests_snoc, app_nil_r).
           constructor; rewrite ?HA, ?HR, ?clock_snoc, ?closed_snoc, ?orb_false_r; ws; try done; unfold live, queued in *; ws.
           ++ rewrite Ht, app_nil_r. done.
           ++ rewrite Ht, app_nil_r. unfold answer_ids in *. rewrite fmap_app. cbn [fmap list_fmap fst]. rewrite <- app_assoc. exact ri_once0.
           ++ apply Forall_app. split; [eapply Forall_impl; [exact ri_fine0|]; intros a; by apply fine_snoc|]. constructor; [|constructor].
              exists (q_num r), (q_deadline r). cbn [fst snd]. rewrite HR. split; [done|]. left. split; [done|]. by rewrite Hn.
           ++ unfold ok_ids. rewrite omap_app. cbn [omap list_omap fst snd]. rewrite bool_decide_true by done. rewrite <- app_assoc. exact ri_order0.
           ++ rewrite Ht. intros _. constructor.
        -- eapply (rinv_same now0 tr (set_cs w (Some (mkSreq (q_id r) (q_num r) (q_deadline r) (q_samples r ++ [sm])) :: rest))); try done; ws; [|by rewrite orb_false_r|by right].
           constructor; ws; unfold live, queued in *; ws; try done; rewrite ?Ht, ?app_nil_r; change (lives (Some ?x :: rest)) with (x :: lives rest).
           ++ constructor; [|done]. cbn [q_id q_num q_deadline q_samples]. split; [done|]. rewrite app_length in *. cbn [length] in *. lia.
           ++ exact ri_once0.
           ++ intros _. constructor.
      * destruct Hsh.
    + (* the section under worker_mu_ *)
      assert (Ht : wk_term w = []) by (apply (ri_where _ _ _ I); by rewrite Hp).
      destruct (work_swap_spec w) as (w1 & E1 & R). rewrite E1 in E. injection E as <- <-.
      destruct (fetch_cancel w) as (F1 & F2 & F3 & F4). destruct (abandon_cancel (fetch w)) as (B1 & B2 & B3 & B4). destruct (abandon_queued (fetch w)) as (Q1 & Q2).
      pose proof (fetch_queued w) as FQ.
      assert (Fn : wk_nreq (fetch w) = wk_nreq w /\ wk_ss (fetch w) = wk_ss w).
      { clear. destruct w as [? ? ? ? ? ? [|] [|] ? ? ? ? [|] [|] ? ? ? ? ? ?]; done. } destruct Fn as [Fn Fs].
      assert (Bn : forall v, wk_nreq (abandon v) = wk_nreq v /\ (wk_ss (abandon v) = if wk_cancel v then Cancelled else wk_ss v)).
      { clear. intros v. unfold abandon. destruct v as [? [|] ? ? ? ? ? ? [|] ? ? ? ? ? [|] ? ? ? ? ?]; done. } destruct (Bn (fetch w)) as [Bn1 Bn2]. clear Bn. rewrite F1 in Bn2.
      inversion R as [Hpr|out1 cs next1 out2 ps next2 a now Hpr G1 G2 Hne|next1 next2 a now Hpr G1 G2 Hnl Hst|next1 next2 a now Hpr G1 G2 Hnl Hst]; subst w1.
      * eapply rinv_same; try done; ws; [by rewrite F1, orb_false_r|by right].
      * assert (HR : requests now0 (tr ++ [(EWork at_ d, [])]) = requests now0 tr) by (by rewrite requests_snoc, app_nil_r).
        assert (HA : answers (tr ++ [(EWork at_ d, [])]) = answers tr) by (by rewrite answers_snoc, app_nil_r).
        destruct (get_expired_spec _ _ _ _ _ _ G1) as (X1 & X2 & _). destruct (get_expired_spec _ _ _ _ _ _ G2) as (Y1 & Y2 & _).
        assert (HQ : lives (wk_cs a) ++ lives (wk_ps a) = queued w) by (unfold a; rewrite Q1, Q2; exact FQ).
        assert (HP : Permutation ((lives cs ++ lives ps) ++ out1 ++ out2) (queued w)).
        { rewrite X1, Y1, X2, Y2, <- HQ. rewrite <- (filter_perm (fun r => expired now r) (lives (wk_cs a))) at 3. rewrite <- (filter_perm (fun r => expired now r) (lives (wk_ps a))) at 3.
          solve_Permutation. }
        assert (HS : sublist (lives cs ++ lives ps) (queued w)).
        { rewrite <- HQ, X2, Y2. apply sublist_app; apply sublist_filter. }
        destruct I. constructor; rewrite ?HA, ?HR, ?clock_snoc, ?closed_snoc, ?orb_false_r; ws; try done; unfold live, queued in *; ws; fold a in Bn1, Bn2, B1, B2, B3, B4.
        -- by rewrite B2, F2.
        -- by rewrite B1, F1.
        -- by rewrite Bn1, Fn.
        -- rewrite HP. rewrite Ht, app_nil_r in ri_live0. done.
        -- rewrite Bn1, Fn. rewrite <- ri_once0. rewrite Ht, app_nil_r. unfold ids. by rewrite HP.
        -- eapply Forall_impl; [exact ri_fine0|]. intros x. by apply fine_snoc.
        -- eapply sorted_sub; [|exact ri_order0]. apply sublist_app; [done|]. unfold ids. by apply sublist_ids.
        -- rewrite Bn2, Fs, B1, F1. destruct (wk_cancel w) eqn:Hca; [by right|]. destruct ri_status0 as [->|[_ ?]]; [by left|done].
        -- rewrite Bn2, Fs. intros Hss. assert (Hca : wk_cancel w = false) by (by destruct (wk_cancel w)). unfold now in X1, Y1. rewrite Hca in X1, Y1.
           rewrite B2, F2. rewrite X1, Y1. apply Forall_app. split; apply Forall_forall; intros r Hr; apply elem_of_list_filter in Hr as [Hr _]; unfold expired in Hr;
             (destruct (q_deadline r) as [dd|]; [|done]; exists dd; split; [done|]; apply Is_true_true in Hr; lia).
      * assert (HSt : forall v p, rinv now0 (tr ++ [(EWork at_ d, [])]) (set_pos (set_term v []) PFinal) -> rinv now0 (tr ++ [(EWork at_ d, [])]) (set_pos (set_term v []) p)).
        { intros v p []. by constructor. }
        apply HSt. clear HSt. destruct I. unfold live, queued in *. constructor; unfold live, queued; ws; rewrite ?requests_snoc, ?answers_snoc, ?clock_snoc, ?closed_snoc, ?orb_false_r, ?app_nil_r; try done;
          fold a in Bn1, Bn2, B1, B2, B3, B4, Q1, Q2; rewrite ?Q1, ?Q2, ?FQ, ?Bn1, ?Bn2, ?Fn, ?Fs, ?B1, ?B2, ?F1, ?F2; try done.
        -- rewrite Ht, app_nil_r in ri_live0. done.
        -- rewrite Ht, app_nil_r in ri_once0. done.
        -- eapply Forall_impl; [exact ri_fine0|]. intros x. by apply fine_snoc.
        -- destruct (wk_cancel w) eqn:Hca; [by right|]. destruct ri_status0 as [->|[_ ?]]; [by left|done].
      * assert (HSt : forall v p l s, rinv now0 (tr ++ [(EWork at_ d, [])]) (set_pos (set_term v []) PFinal) -> rinv now0 (tr ++ [(EWork at_ d, [])]) (set_sig (set_pos (set_lim (set_term v []) l) p) s)).
        { intros v p l s []. by constructor. }
        apply HSt. clear HSt. destruct I. unfold live, queued in *. constructor; unfold live, queued; ws; rewrite ?requests_snoc, ?answers_snoc, ?clock_snoc, ?closed_snoc, ?orb_false_r, ?app_nil_r; try done;
          fold a in Bn1, Bn2, B1, B2, B3, B4, Q1, Q2; rewrite ?Q1, ?Q2, ?FQ, ?Bn1, ?Bn2, ?Fn, ?Fs, ?B1, ?B2, ?F1, ?F2; try done.
        -- rewrite Ht, app_nil_r in ri_live0. done.
        -- rewrite Ht, app_nil_r in ri_once0. done.
        -- eapply Forall_impl; [exact ri_fine0|]. intros x. by apply fine_snoc.
        -- destruct (wk_cancel w) eqn:Hca; [by right|]. destruct ri_status0 as [->|[_ ?]]; [by left|done].
    + (* the late answers *)
      injection E as <- <-. set (outs := (fun r => OAnswer (q_id r) (wk_ss w) (q_samples r)) <$> wk_term w).
      assert (HO : omap (fun o => match o with OAnswer i st l => Some (i, st, l) | _ => None end) outs = (fun r => (q_id r, wk_ss w, q_samples r)) <$> wk_term w).
      { unfold outs. induction (wk_term w) as [|r l IH]; [done|]. cbn. by rewrite IH. }
      destruct I. constructor; rewrite ?answers_snoc, ?requests_snoc, ?clock_snoc, ?closed_snoc, ?orb_false_r, ?HO, ?app_nil_r; ws; try done; unfold live, queued in *; ws; rewrite ?app_nil_r.
      * by apply Forall_app in ri_live0 as [? _].
      * rewrite <- ri_once0. unfold answer_ids, ids. rewrite !fmap_app, <- !app_assoc. apply Permutation_app_head. rewrite <- list_fmap_compose. cbn [fst]. solve_Permutation.
      * apply Forall_app. split; [eapply Forall_impl; [exact ri_fine0|]; intros x; by apply fine_snoc|].
        apply Forall_fmap, Forall_forall. intros r Hr. apply Forall_app in ri_live0 as [_ L]. rewrite Forall_forall in L. destruct (L _ Hr) as [L1 _].
        exists (q_num r), (q_deadline r). cbn [fst snd]. rewrite requests_snoc, app_nil_r, clock_snoc, closed_snoc, orb_false_r. split; [done|].
        destruct ri_status0 as [Hs|[Hs Hca]].
        -- right; left. split; [done|]. specialize (ri_term0 Hs). rewrite Forall_forall in ri_term0. destruct (ri_term0 _ Hr) as (dd & D1 & D2). exists dd. split; [done|]. by rewrite <- ri_clock0.
        -- right; right. split; [done|]. by rewrite <- ri_closed0.
      * unfold ok_ids in *. rewrite omap_app. assert (omap (fun a : nat * status * list sampled => if bool_decide (a.1.2 = Ok) then Some a.1.1 else None) ((fun r => (q_id r, wk_ss w, q_samples r)) <$> wk_term w) = []) as ->.
        { clear -ri_status0. induction (wk_term w) as [|r l IH]; [done|]. cbn. rewrite bool_decide_false by (destruct ri_status0 as [->|[-> _]]; done). exact IH. }
        by rewrite app_nil_r.
  - destruct (waiting w) eqn:Hw; [|discriminate E]. injection E as <- <-. eapply rinv_same; try done; ws; [by rewrite orb_false_r|right; apply (ri_where _ _ _ I)].
    unfold waiting in Hw. by destruct (wk_pos w).
  - destruct (negb _); [injection E as <- <-; eapply rinv_same; try done; [by rewrite orb_false_r|by left]|]. rewrite wake_eq in E.
    destruct (_ <? c); injection E as <- <-; (eapply rinv_same; try done; ws; [by rewrite orb_false_r|by left]).
  - rewrite wake_eq in E. injection E as <- <-. destruct I.
    set (r := mkSreq (wk_nreq w) num ((fun t => wk_now w + t) <$> timeout) []).
    assert (HR : requests now0 (tr ++ [(ERequest num timeout, [])]) = requests now0 tr ++ [(num, q_deadline r)]) by (rewrite requests_snoc; unfold r; cbn [q_deadline]; by rewrite ri_clock0).
    constructor; rewrite ?HR, ?answers_snoc, ?clock_snoc, ?closed_snoc, ?orb_false_r; ws; try done; unfold live, queued in *; ws; rewrite ?lives_app; cbn [omap list_omap app]; rewrite ?app_nil_r.
    + rewrite app_length, <- ri_count0. cbn. lia.
    + rewrite <- app_assoc, !Forall_app. rewrite !Forall_app in ri_live0. destruct ri_live0 as [[L1 L2] L3].
      assert (M : forall l, Forall (fun r0 => requests now0 tr !! q_id r0 = Some (q_num r0, q_deadline r0) /\ (length (q_samples r0) < Nat.max 1 (q_num r0))%nat) l ->
        Forall (fun r0 => (requests now0 tr ++ [(num, q_deadline r)]) !! q_id r0 = Some (q_num r0, q_deadline r0) /\ (length (q_samples r0) < Nat.max 1 (q_num r0))%nat) l).
      { intros l Hl. eapply Forall_impl; [exact Hl|]. intros x [H1 H2]. split; [by apply lookup_app_l_Some|done]. }
      split; [by apply M|]. split; [|by apply M]. split; [by apply M|]. constructor; [|constructor]. unfold r. cbn [id q_id q_num q_samples length]. split; [|lia].
      rewrite ri_count0. rewrite lookup_app_r by done. by rewrite Nat.sub_diag.
    + rewrite seq_S. cbn [plus]. rewrite <- ri_once0. unfold ids. rewrite !fmap_app. cbn [fmap list_fmap id]. unfold r. cbn [q_id]. solve_Permutation.
    + eapply Forall_impl; [exact ri_fine0|]. intros x. by apply fine_snoc.
    + unfold ids. rewrite !fmap_app, !app_assoc. apply sorted_snoc; [rewrite <- app_assoc; unfold ids in *; by rewrite fmap_app in ri_order0|].
      assert (B : forall x, x ∈ answer_ids (answers tr) ++ ids (queued w ++ wk_term w) -> (x < wk_nreq w)%nat).
      { intros x Hx. unfold queued in Hx. rewrite ri_once0 in Hx. apply elem_of_seq in Hx. lia. }
      rewrite !Forall_app. cbn [id q_id]. split; [split|]; apply Forall_forall; intros x Hx; apply B; apply elem_of_app.
      * left. unfold ok_ids in Hx. apply elem_of_list_omap in Hx as (a & Ha & Hx). apply elem_of_list_fmap. exists a. split; [|done]. destruct (bool_decide _); [by injection Hx|discriminate Hx].
      * right. unfold ids, queued. rewrite !fmap_app. set_solver.
      * right. unfold ids, queued. rewrite !fmap_app. set_solver.
  - destruct (mutate_items _ _ _) as [[[st|st l|] t]|]; try discriminate E. destruct (bool_decide _); injection E as <- <-; (eapply rinv_same; try done; ws; [by rewrite orb_false_r|by left]).
  - injection E as <- <-. eapply rinv_same; try done; ws; [by rewrite orb_false_r|by left].
  - injection E as <- <-. eapply rinv_same; try done; ws; [by rewrite orb_true_r|by left].
  - destruct (wk_owed w) as [|b rest]; [discriminate E|]. rewrite wake_eq in E. destruct (_ && _); injection E as <- <-; (eapply rinv_same; try done; ws; [by rewrite orb_false_r|by left]).
  - rewrite wake_eq in E. injection E as <- <-. eapply rinv_same; try done; ws; [by rewrite orb_false_r|by left].
  - injection E as <- <-. eapply rinv_same; try done; ws; [by rewrite orb_false_r|by left].
Qed.

Lemma rinv_new now0 t : rinv now0 [] (wk_new t now0).
Proof. constructor; try done; try constructor; done. Qed.

Lemma rinv_trace A c t now0 tr w : wk_trace A c (wk_new t now0) tr w -> rinv now0 tr w.
Proof. induction 1 as [|tr w e w' outs H IH Hc HA E]; [apply rinv_new|]. by eapply rinv_step. Qed.

(** The samples taken for a request. *)
Definition taken_for (i : nat) (tr : list (wev * list wout)) : list sampled :=
  omap (fun o => match o with OTaken j _ sm => if bool_decide (i = j) then Some sm else None | _ => None end) (outputs tr).
Lemma taken_for_snoc i tr e outs : taken_for i (tr ++ [(e, outs)]) = taken_for i tr ++
  omap (fun o => match o with OTaken j _ sm => if bool_decide (i = j) then Some sm else None | _ => None end) outs.
Proof. unfold taken_for. by rewrite outputs_snoc, omap_app. Qed.

Record kinv (tr : list (wev * list wout)) (w : wk) : Prop := {
  ki_live : Forall (fun r => q_samples r = taken_for (q_id r) tr) (live w);
  ki_ans : Forall (fun a => a.2 = taken_for a.1.1 tr) (answers tr);
  ki_new : forall i, (wk_nreq w <= i)%nat -> taken_for i tr = [] }.

Lemma kinv_same tr w e outs w' : kinv tr w -> (wk_nreq w <= wk_nreq w')%nat ->
  omap (fun o => match o with OAnswer i st l => Some (i, st, l) | _ => None end) outs = [] ->
  (forall i, omap (fun o => match o with OTaken j _ sm => if bool_decide (i = j) then Some sm else None | _ => None end) outs = []) ->
  Permutation (live w') (live w) -> kinv (tr ++ [(e, outs)]) w'.
Proof.
  intros [] E1 E2 E3 E4. assert (HT : forall i, taken_for i (tr ++ [(e, outs)]) = taken_for i tr) by (intros i; by rewrite taken_for_snoc, E3, app_nil_r).
  constructor.
  - rewrite E4. eapply Forall_impl; [exact ki_live0|]. intros r. by rewrite HT.
  - rewrite answers_snoc, E2, app_nil_r. eapply Forall_impl; [exact ki_ans0|]. intros a. by rewrite HT.
  - intros i Hi. rewrite HT. apply ki_new0. lia.
Qed.

Lemma kinv_step c now0 tr w e w' outs : rinv now0 tr w -> kinv tr w -> wk_step c w e = WNext w' outs -> kinv (tr ++ [(e, outs)]) w'.
Proof.
  intros R I E. destruct e as [at_ d| |it|num timeout|us ks| | | | |now]; cbn [wk_step] in E.
  - destruct (wk_pos w) as [| |made| |wu bl| |st] eqn:Hp; try discriminate E.
    + injection E as <- <-. apply (kinv_same _ w); try done; [by induction (wk_nl w)|intros i; by induction (wk_nl w)].
    + unfold work_insert in E. destruct (wk_ci w) as [|[i it] rest] eqn:Hci; [injection E as <- <-; by apply (kinv_same _ w)|].
      destruct (can_insert _ 1); [|injection E as <- <-; by apply (kinv_same _ w)].
      destruct (insert_internal _ _ _ _) as [[st t]|]; [|discriminate E]. destruct (bool_decide (st = Ok));
        injection E as <- <-; by apply (kinv_same _ w).
    + assert (Ht : wk_term w = []) by (apply (ri_where _ _ _ R); by rewrite Hp).
      unfold work_sample in E. pose proof (skip_none_lives (wk_cs w)) as Hsk. pose proof (skip_none_head (wk_cs w)) as Hsh. destruct (skip_none (wk_cs w)) as [|[r|] rest] eqn:Hcs.
      * injection E as <- <-. apply (kinv_same _ w); try done. unfold live, queued. ws. by rewrite <- Hsk.
      * destruct (maybe_commit_sample _) as [l|].
        2: { injection E as <- <-. apply (kinv_same _ w); try done. unfold live, queued. ws. by rewrite <- Hsk. }
        destruct (sample_one _ _ _) as [[[st sm] t]|]; [|discriminate E].
        destruct (negb (bool_decide (st = Ok))); [injection E as <- <-; by apply (kinv_same _ w)|].
        change (lives (Some r :: rest)) with (r :: lives rest) in Hsk.
        assert (HQ : live w = r :: lives rest ++ lives (wk_ps w)) by (unfold live, queued; rewrite Ht, app_nil_r; by rewrite <- Hsk).
        destruct I. pose proof (ri_once _ _ _ R) as Hon. pose proof (NoDup_seq 0 (wk_nreq w)) as Hnd. rewrite <- Hon in Hnd. apply NoDup_app in Hnd as (_ & Hd1 & Hd2).
        rewrite HQ in *. cbn [ids fmap list_fmap] in Hd1, Hd2. change (q_id <$> lives rest ++ lives (wk_ps w)) with (ids (lives rest ++ lives (wk_ps w))) in Hd1, Hd2. apply NoDup_cons in Hd2 as [Hd2 _].
        assert (HT : forall outs0 i, outs0 = [] \/ outs0 = [OAnswer (q_id r) Ok (q_samples r ++ [sm])] -> i <> q_id r -> taken_for i (tr ++ [(EWork at_ d, OTaken (q_id r) d sm :: outs0)]) = taken_for i tr).
        { intros outs0 i Ho Hi. rewrite taken_for_snoc. cbn [omap list_omap]. rewrite bool_decide_false by done. destruct Ho as [->| ->]; cbn [omap list_omap]; by rewrite app_nil_r. }
        assert (HT' : forall outs0, outs0 = [] \/ outs0 = [OAnswer (q_id r) Ok (q_samples r ++ [sm])] -> taken_for (q_id r) (tr ++ [(EWork at_ d, OTaken (q_id r) d sm :: outs0)]) = taken_for (q_id r) tr ++ [sm]).
        { intros outs0 Ho. rewrite taken_for_snoc. cbn [omap list_omap]. rewrite bool_decide_true by done. by destruct Ho as [->| ->]. }
        apply Forall_cons in ki_live0 as [L1 L2].
        assert (HL : forall outs0, outs0 = [] \/ outs0 = [OAnswer (q_id r) Ok (q_samples r ++ [sm])] -> Forall (fun r0 => q_samples r0 = taken_for (q_id r0) (tr ++ [(EWork at_ d, OTaken (q_id r) d sm :: outs0)])) (lives rest ++ lives (wk_ps w))).
        { intros outs0 Ho. rewrite Forall_forall in L2 |- *. intros r0 Hr0. rewrite HT; [by apply L2|done|]. intros Hi. apply Hd2. rewrite <- Hi. apply elem_of_list_fmap. eauto. }
        assert (HA : forall outs0, outs0 = [] \/ outs0 = [OAnswer (q_id r) Ok (q_samples r ++ [sm])] -> Forall (fun a => a.2 = taken_for a.1.1 (tr ++ [(EWork at_ d, OTaken (q_id r) d sm :: outs0)])) (answers tr)).
        { intros outs0 Ho. rewrite Forall_forall in ki_ans0 |- *. intros a Ha. rewrite HT; [by apply ki_ans0|done|]. intros Hi. apply (Hd1 a.1.1); [apply elem_of_list_fmap; eauto|]. rewrite Hi. apply elem_of_cons. by left. }
        assert (HN : forall outs0, outs0 = [] \/ outs0 = [OAnswer (q_id r) Ok (q_samples r ++ [sm])] -> forall i, (wk_nreq w <= i)%nat -> taken_for i (tr ++ [(EWork at_ d, OTaken (q_id r) d sm :: outs0)]) = []).
        { intros outs0 Ho i Hi. rewrite HT; [by apply ki_new0|done|]. intros ->. pose proof (ri_live _ _ _ R) as Hlv. rewrite HQ in Hlv. apply Forall_cons in Hlv as [[Hlv _] _].
          apply lookup_lt_Some in Hlv. rewrite <- (ri_count _ _ _ R) in Hlv. lia. }
        destruct (Nat.eqb_spec (Nat.max 1 (q_num r)) (length (q_samples r ++ [sm]))) as [Hn|Hn]; injection E as <- <-.
        -- constructor; [unfold live, queued; ws; rewrite Ht, app_nil_r; apply HL; by right| |ws; apply HN; by right].
           rewrite answers_snoc. cbn [omap list_omap]. apply Forall_app. split; [apply HA; by right|]. constructor; [|constructor]. cbn [fst snd]. rewrite HT' by (by right). by rewrite L1.
        -- constructor; [unfold live, queued; ws; rewrite Ht, app_nil_r| |ws; apply HN; by left].
           ++ change (lives (Some ?x :: rest)) with (x :: lives rest). constructor; [cbn [q_samples q_id]; rewrite HT' by (by left); by rewrite L1|]. apply HL. by left.
           ++ rewrite answers_snoc. cbn [omap list_omap]. rewrite app_nil_r. apply HA. by left.
      * destruct Hsh.
    + assert (Ht : wk_term w = []) by (apply (ri_where _ _ _ R); by rewrite Hp).
      destruct (work_swap_spec w) as (w1 & E1 & S). rewrite E1 in E. injection E as <- <-.
      destruct (fetch_cancel w) as (_ & _ & _ & F4). destruct (abandon_queued (fetch w)) as (Q1 & Q2). pose proof (fetch_queued w) as FQ.
      assert (Fn : wk_nreq (fetch w) = wk_nreq w) by (clear; by destruct w as [? ? ? ? ? ? [|] [|] ? ? ? ? [|] [|] ? ? ? ? ? ?]).
      assert (Bn : wk_nreq (abandon (fetch w)) = wk_nreq (fetch w)) by (generalize (fetch w); clear; intros v; unfold abandon; by destruct v as [? [|] ? ? ? ? ? ? [|] ? ? ? ? ? [|] ? ? ? ? ?]).
      inversion S as [Hpr|out1 cs next1 out2 ps next2 a now Hpr G1 G2 Hne|next1 next2 a now Hpr G1 G2 Hnl Hst|next1 next2 a now Hpr G1 G2 Hnl Hst]; subst w1.
      * apply (kinv_same _ w); try done; [ws; by rewrite Fn|]. unfold live. ws. rewrite F4. change (queued (set_pos (set_prog (fetch w) false) PNotify)) with (queued (fetch w)). by rewrite FQ.
      * apply (kinv_same _ w); try done; [ws; unfold a; by rewrite Bn, Fn|].
        destruct (get_expired_spec _ _ _ _ _ _ G1) as (X1 & X2 & _). destruct (get_expired_spec _ _ _ _ _ _ G2) as (Y1 & Y2 & _).
        unfold live, queued. ws. rewrite Ht, app_nil_r. change (lives (wk_cs w) ++ lives (wk_ps w)) with (queued w). rewrite <- FQ. unfold queued. rewrite <- Q1, <- Q2. fold a.
        rewrite X1, Y1, X2, Y2. rewrite <- (filter_perm (fun r => expired now r) (lives (wk_cs a))) at 3. rewrite <- (filter_perm (fun r => expired now r) (lives (wk_ps a))) at 3. solve_Permutation.
      * apply (kinv_same _ w); try done; [ws; unfold a; by rewrite Bn, Fn|]. unfold live, queued. ws. rewrite Ht. unfold a. rewrite Q1, Q2. unfold queued in FQ. by rewrite FQ.
      * apply (kinv_same _ w); try done; [ws; unfold a; by rewrite Bn, Fn|]. unfold live, queued. ws. rewrite Ht. unfold a. rewrite Q1, Q2. unfold queued in FQ. by rewrite FQ.
    + injection E as <- <-. destruct I.
      assert (HT : forall i, taken_for i (tr ++ [(EWork at_ d, (fun r => OAnswer (q_id r) (wk_ss w) (q_samples r)) <$> wk_term w)]) = taken_for i tr).
      { intros i. rewrite taken_for_snoc. clear. induction (wk_term w) as [|r l IH]; [by rewrite app_nil_r|exact IH]. }
      constructor.
      * unfold live in *. apply Forall_app in ki_live0 as [L1 L2]. unfold queued in *. ws. rewrite app_nil_r. eapply Forall_impl; [exact L1|]. intros r. by rewrite HT.
      * rewrite answers_snoc. apply Forall_app. split; [eapply Forall_impl; [exact ki_ans0|]; intros a; by rewrite HT|].
        assert (omap (fun o => match o with OAnswer i st l => Some (i, st, l) | _ => None end) ((fun r => OAnswer (q_id r) (wk_ss w) (q_samples r)) <$> wk_term w) = (fun r => (q_id r, wk_ss w, q_samples r)) <$> wk_term w) as ->.
        { clear. induction (wk_term w) as [|r l IH]; [done|]. cbn. by rewrite IH. }
        apply Forall_fmap, Forall_forall. intros r Hr. cbn. rewrite HT. unfold live in ki_live0. apply Forall_app in ki_live0 as [_ L2]. rewrite Forall_forall in L2. by apply L2.
      * intros i Hi. rewrite HT. apply ki_new0. exact Hi.
  - destruct (waiting w) eqn:Hw; [|discriminate E]. injection E as <- <-. by apply (kinv_same _ w).
  - destruct (negb _); [injection E as <- <-; by apply (kinv_same _ w)|]. rewrite wake_eq in E. destruct (_ <? c); injection E as <- <-; by apply (kinv_same _ w).
  - rewrite wake_eq in E. injection E as <- <-. destruct I. constructor.
    + unfold live, queued in *. ws. rewrite lives_app. cbn [omap list_omap]. rewrite !Forall_app in ki_live0. destruct ki_live0 as [[L1 L2] L3].
      assert (M : forall l, Forall (fun r => q_samples r = taken_for (q_id r) tr) l -> Forall (fun r => q_samples r = taken_for (q_id r) (tr ++ [(ERequest num timeout, [])])) l).
      { intros l Hl. eapply Forall_impl; [exact Hl|]. intros r Hr. by rewrite taken_for_snoc, app_nil_r. }
      rewrite !Forall_app. split; [|by apply M]. split; [by apply M|]. split; [by apply M|]. constructor; [|constructor]. cbn [id q_samples q_id]. rewrite taken_for_snoc, app_nil_r. symmetry. by apply ki_new0.
    + rewrite answers_snoc, app_nil_r. eapply Forall_impl; [exact ki_ans0|]. intros a. by rewrite taken_for_snoc, app_nil_r.
    + ws. intros i Hi. rewrite taken_for_snoc, app_nil_r. apply ki_new0. lia.
  - destruct (mutate_items _ _ _) as [[[st|st l|] t]|]; try discriminate E. destruct (bool_decide _); injection E as <- <-; by apply (kinv_same _ w).
  - injection E as <- <-. by apply (kinv_same _ w).
  - injection E as <- <-. by apply (kinv_same _ w).
  - destruct (wk_owed w) as [|b rest]; [discriminate E|]. rewrite wake_eq in E. destruct (_ && _); injection E as <- <-; by apply (kinv_same _ w).
  - rewrite wake_eq in E. injection E as <- <-. by apply (kinv_same _ w).
  - injection E as <- <-. by apply (kinv_same _ w).
Qed.

Lemma kinv_trace A c t now0 tr w : wk_trace A c (wk_new t now0) tr w -> kinv tr w.
Proof.
  induction 1 as [|tr w e w' outs H IH Hc HA E]; [constructor; try done; constructor|]. eapply kinv_step; [by eapply rinv_trace|exact IH|exact E].
Qed.

(** *** The inserts *)

Definition alive (w : wk) : Prop := forall st, wk_pos w <> PReturned st.

Record ncore (tr : list (wev * list wout)) (w : wk) : Prop := {
  nc_closed : wk_cancel w = closed tr;
  nc_count : wk_nins w = length (arrivals tr);
  nc_hand : exists hd, imap pair (arrivals tr) = hd ++ wk_ci w ++ wk_pi w /\ sublist (applied tr) hd /\ (wk_cancel w = false -> alive w -> applied tr = hd);
  nc_notif : let_go tr ++ wk_nl w ++ wk_ns w = held_back tr;
  nc_ns : Forall (fun i => i ∈ (wk_pi w).*1) (wk_ns w);
  nc_is : wk_is w = Ok \/ wk_is w = Cancelled /\ wk_cancel w = true;
  nc_go : Forall (fun o => match o with OMayInsert _ st => st = Ok \/ st = Cancelled /\ closed tr = true | _ => True end) (outputs tr);
}.
Definition ninv (tr : list (wev * list wout)) (w : wk) : Prop := ncore tr w /\ (wk_pos w <> PNotify -> wk_pos w <> PFinal -> wk_nl w = []).

Definition silent (outs : list wout) : Prop :=
  Forall (fun o => match o with OApplied _ _ _ _ | OMayInsert _ _ | OMore _ _ => False | _ => True end) outs.

Lemma ncore_same tr w e outs w' : ncore tr w -> silent outs ->
  match e with EInsert it => check_item_validity it <> Ok | _ => True end ->
  wk_cancel w' = wk_cancel w || match e with EClose => true | _ => false end ->
  wk_nins w' = wk_nins w -> wk_ci w' = wk_ci w -> wk_pi w' = wk_pi w -> wk_nl w' = wk_nl w -> wk_ns w' = wk_ns w -> wk_is w' = wk_is w -> (alive w' -> alive w) ->
  ncore (tr ++ [(e, outs)]) w'.
Proof.
  intros [] Hs He E1 E2 E3 E4 E5 E6 E7 E8.
  assert (S1 : omap (fun o => match o with OApplied i it _ _ => Some (i, it) | _ => None end) outs = []) by (clear -Hs; induction Hs as [|[] l Ho Hl IH]; [done|..]; cbn in Ho; first [by destruct Ho | exact IH]).
  assert (S2 : omap (fun o => match o with OMore i false => Some i | _ => None end) outs = []) by (clear -Hs; induction Hs as [|[] l Ho Hl IH]; [done|..]; cbn in Ho; first [by destruct Ho | exact IH]).
  assert (S3 : omap (fun o => match o with OMayInsert i _ => Some i | _ => None end) outs = []) by (clear -Hs; induction Hs as [|[] l Ho Hl IH]; [done|..]; cbn in Ho; first [by destruct Ho | exact IH]).
  assert (S4 : arrivals (tr ++ [(e, outs)]) = arrivals tr).
  { rewrite arrivals_snoc. destruct e; rewrite ?app_nil_r; try done. rewrite bool_decide_false by done. by rewrite app_nil_r. }
  constructor; rewrite ?applied_snoc, ?let_go_snoc, ?held_back_snoc, ?S1, ?S2, ?S3, ?S4, ?app_nil_r, ?E2, ?E3, ?E4, ?E5, ?E6, ?E7; try done.
  - by rewrite E1, closed_snoc, nc_closed0.
  - destruct nc_hand0 as (hd & H1 & H2 & H3). exists hd. split_and!; try done. rewrite E1. intros Hc Ha. apply orb_false_iff in Hc as [Hc _]. auto.
  - rewrite E1. destruct nc_is0 as [->|[-> Hc]]; [by left|right]. by rewrite Hc.
  - rewrite outputs_snoc. apply Forall_app. split.
    + eapply Forall_impl; [exact nc_go0|]. intros []; try done. intros [->|[-> Hc]]; [by left|right]. rewrite closed_snoc, Hc. done.
    + eapply Forall_impl; [exact Hs|]. by intros [].
Qed.

(** The same without a new action. *)
Lemma ncore_fetch tr w : ncore tr w -> wk_nl w = [] -> ncore tr (fetch w).
Proof.
  intros [] Hn. destruct w as [t ca nw po pr li ci cs nl te ss is pi ps ns sp sg ow ni nr]. wsi Hn. subst nl. unfold fetch. ws.
  assert (HA : forall w, alive w -> forall st, wk_pos w <> PReturned st) by done.
  unfold alive in *. cbn [wk_ci wk_pi wk_nl wk_ns wk_cancel wk_is wk_nins wk_pos app] in *.
  destruct ci as [|x ci], pi as [|y pi]; ws; destruct cs as [|q cs], ps as [|q' ps]; ws; (constructor; ws; rewrite ?app_nil_r; try done; unfold alive; ws; try done).
  all: rewrite ?app_nil_r in *; try done; try constructor.
  all: destruct nc_hand0 as (hd & H1 & H2 & H3); exists hd; rewrite ?app_nil_r in *; done.
Qed.
Lemma ncore_abandon tr w : ncore tr w -> ncore tr (abandon w).
Proof.
  intros I. unfold abandon. destruct (wk_cancel w) eqn:Hc; [|done]. destruct I.
  destruct w as [t ca nw po pr li ci cs nl te ss is pi ps ns sp sg ow ni nr]. wsi Hc. subst ca. ws.
  cbn [wk_ci wk_pi wk_nl wk_ns wk_cancel wk_is wk_nins wk_pos app] in *.
  assert (HH : exists hd, imap pair (arrivals tr) = hd ++ pi /\ sublist (applied tr) hd).
  { destruct nc_hand0 as (hd & H1 & H2 & H3). exists (hd ++ ci). split; [by rewrite <- app_assoc|]. by apply sublist_inserts_r. }
  destruct HH as (hd & H1 & H2).
  destruct nl as [|n nl], ns as [|n' ns]; ws; (constructor; ws; rewrite ?app_nil_r in *; try done; try (by right); try (by exists hd)).
Qed.
Lemma ncore_view tr w w' : ncore tr w -> wk_cancel w' = wk_cancel w -> wk_nins w' = wk_nins w -> wk_ci w' = wk_ci w -> wk_pi w' = wk_pi w ->
  wk_nl w' = wk_nl w -> wk_ns w' = wk_ns w -> wk_is w' = wk_is w -> (alive w' -> alive w) -> ncore tr w'.
Proof.
  intros [] E1 E2 E3 E4 E5 E6 E7 E8. constructor; rewrite ?E1, ?E2, ?E3, ?E4, ?E5, ?E6, ?E7; try done.
  destruct nc_hand0 as (hd & H1 & H2 & H3). exists hd. split_and!; auto.
Qed.

Lemma ninv_step c tr w e w' outs : ninv tr w -> wk_step c w e = WNext w' outs -> ninv (tr ++ [(e, outs)]) w'.
Proof.
  intros [I Hl] E.
  assert (AL : forall p, wk_pos w = p -> (forall st, p <> PReturned st) -> alive w) by (intros p <- Hp; exact Hp).
  destruct e as [at_ d| |it|num timeout|us ks| | | | |now]; cbn [wk_step] in E.
  - destruct (wk_pos w) as [| |made| |wu bl| |st] eqn:Hp; try discriminate E.
    + injection E as <- <-. split; [|done]. specialize (AL _ eq_refl ltac:(done)). destruct I.
      assert (S1 : omap (fun o => match o with OApplied i it _ _ => Some (i, it) | _ => None end) ((fun i => OMayInsert i (wk_is w)) <$> wk_nl w) = []) by (clear; by induction (wk_nl w)).
      assert (S2 : omap (fun o => match o with OMore i false => Some i | _ => None end) ((fun i => OMayInsert i (wk_is w)) <$> wk_nl w) = []) by (clear; by induction (wk_nl w)).
      assert (S3 : omap (fun o => match o with OMayInsert i _ => Some i | _ => None end) ((fun i => OMayInsert i (wk_is w)) <$> wk_nl w) = wk_nl w) by (clear; induction (wk_nl w) as [|x l IH]; [done|]; cbn; by rewrite IH).
      constructor; rewrite ?arrivals_snoc, ?applied_snoc, ?let_go_snoc, ?held_back_snoc, ?S1, ?S2, ?S3, ?app_nil_r; ws; try done.
      * by rewrite closed_snoc, orb_false_r.
      * destruct nc_hand0 as (hd & H1 & H2 & H3). exists hd. split_and!; auto.
      * rewrite <- nc_notif0. by rewrite <- app_assoc.
      * rewrite outputs_snoc. apply Forall_app. split.
        -- eapply Forall_impl; [exact nc_go0|]. intros []; try done. intros [->|[-> Hc]]; [by left|right]. rewrite closed_snoc, Hc. done.
        -- apply Forall_fmap, Forall_forall. intros i _. cbn. destruct nc_is0 as [->|[-> Hc]]; [by left|right]. split; [done|]. by rewrite closed_snoc, <- nc_closed0, Hc.
    + assert (Hn : wk_nl w = []) by (by apply Hl). specialize (AL _ eq_refl ltac:(done)).
      unfold work_insert in E. destruct (wk_ci w) as [|[i it] rest] eqn:Hci.
      { injection E as <- <-. split; [|done]. eapply ncore_same; try done; ws; [constructor|by rewrite orb_false_r]. }
      destruct (can_insert _ 1).
      2: { injection E as <- <-. split; [|done]. eapply ncore_same; try done; ws; [constructor|by rewrite orb_false_r]. }
      destruct (insert_internal _ _ _ _) as [[st t]|]; [|discriminate E].
      assert (HC : forall o p b, (o = [OApplied i it at_ d] \/ o = [] /\ ~ alive (set_pos w p)) -> ncore (tr ++ [(EWork at_ d, o)]) (set_pos (set_prog (set_ci (set_t w t) rest) b) p)).
      { intros o p b Ho. destruct I. assert (omap (fun o => match o with OMore i false => Some i | _ => None end) o = []) as S2 by (by destruct Ho as [->|[-> _]]).
        assert (omap (fun o => match o with OMayInsert i _ => Some i | _ => None end) o = []) as S3 by (by destruct Ho as [->|[-> _]]).
        constructor; rewrite ?arrivals_snoc, ?let_go_snoc, ?held_back_snoc, ?S2, ?S3, ?app_nil_r; ws; try done.
        - by rewrite closed_snoc, orb_false_r.
        - destruct nc_hand0 as (hd & H1 & H2 & H3). exists (hd ++ [(i, it)]). rewrite Hci in H1. split; [rewrite H1, <- app_assoc; done|]. rewrite applied_snoc.
          destruct Ho as [->|[-> Hd]]; cbn [omap list_omap].
          + split; [by apply sublist_app|]. intros Hca _. by rewrite (H3 Hca AL).
          + rewrite app_nil_r. split; [by apply sublist_inserts_r|]. intros _ Ha. by destruct Hd.
        - rewrite outputs_snoc. apply Forall_app. split; [|destruct Ho as [->|[-> _]]; repeat constructor].
          eapply Forall_impl; [exact nc_go0|]. intros []; try done. intros [->|[-> Hc]]; [by left|right]. rewrite closed_snoc, Hc. done. }
      destruct (bool_decide (st = Ok)); injection E as <- <-; (split; [|done]); [apply HC; by left|].
      eapply ncore_view; [apply (HC [] (PReturned st) (wk_prog w)); right; split; [done|]; intros Ha; by apply (Ha st)|done..].
    + assert (Hn : wk_nl w = []) by (by apply Hl). specialize (AL _ eq_refl ltac:(done)).
      assert (HN : exists cs t b p o, w' = set_pos (set_prog (set_t (set_cs w cs) t) b) p /\ silent o /\ outs = o).
      { unfold work_sample in E. destruct (skip_none (wk_cs w)) as [|[r|] rest].
        - injection E as <- <-. exists [], (wk_t w), (wk_prog w), (end_turn made), []. split; [by destruct w|]. split; [constructor|done].
        - destruct (maybe_commit_sample _) as [l|].
          2: { injection E as <- <-. exists (Some r :: rest), (wk_t w), (wk_prog w), (end_turn made), []. split; [by destruct w|]. split; [constructor|done]. }
          destruct (sample_one _ _ _) as [[[st sm] t]|]; [|discriminate E]. destruct (negb (bool_decide (st = Ok))).
          { injection E as <- <-. exists (wk_cs w), t, true, (PReturned st), []. split; [by destruct w|]. split; [constructor|done]. }
          destruct (_ =? _)%nat; injection E as <- <-.
          + exists rest, t, true, PInsert. eexists. split; [by destruct w|]. split; [|done]. repeat constructor.
          + eexists _, t, true, (PSample true). eexists. split; [by destruct w|]. split; [|done]. repeat constructor.
        - injection E as <- <-. eexists _, (wk_t w), (wk_prog w), (end_turn made), []. split; [reflexivity|]. split; [constructor|done]. }
      destruct HN as (cs & t & b & p & o & -> & Ho & ->). split; [|done]. eapply ncore_same; try done; ws. by rewrite orb_false_r.
    + assert (Hn : wk_nl w = []) by (by apply Hl). specialize (AL _ eq_refl ltac:(done)).
      destruct (work_swap_spec w) as (w1 & E1 & S). rewrite E1 in E. injection E as <- <-.
      assert (I1 : ncore (tr ++ [(EWork at_ d, [])]) w) by (eapply ncore_same; try done; [constructor|by rewrite orb_false_r]).
      pose proof (ncore_fetch _ _ I1 Hn) as I2. pose proof (ncore_abandon _ _ I2) as I3.
      assert (AF : alive (fetch w)) by (unfold alive in *; clear -AL; by destruct w as [? ? ? ? ? ? [|] [|] ? ? ? ? [|] [|] ? ? ? ? ? ?]).
      assert (AA : alive (abandon (fetch w))).
      { revert AF. generalize (fetch w). clear. intros v Hv. unfold abandon, alive in *. by destruct v as [? [|] ? ? ? ? ? ? [|] ? ? ? ? ? [|] ? ? ? ? ?]. }
      inversion S as [Hpr|out1 cs next1 out2 ps next2 a now Hpr G1 G2 Hne|next1 next2 a now Hpr G1 G2 Hnl Hst|next1 next2 a now Hpr G1 G2 Hnl Hst]; subst w1.
      * split; [|by intros []]. eapply ncore_view; [exact I2|done..].
      * split; [|by intros _ []]. eapply ncore_view; [exact I3|done..].
      * split; [|by intros _ _]. eapply ncore_view; [exact I3|done..].
      * split; [|by intros _ _]. eapply ncore_view; [exact I3|done..].
    + injection E as <- <-. specialize (AL _ eq_refl ltac:(done)). split; [|by intros []]. eapply ncore_same; try done; ws; [|by rewrite orb_false_r]. apply Forall_fmap, Forall_forall. done.
  - destruct (waiting w) eqn:Hw; [|discriminate E]. injection E as <- <-. split; [|by intros []]. eapply ncore_same; try done; ws; [constructor|by rewrite orb_false_r|].
    intros _. unfold waiting in Hw. unfold alive. by destruct (wk_pos w).
  - case_bool_decide as Hv; cbn [negb] in E.
    2: { injection E as <- <-. split; [|done]. eapply ncore_same; try done; [repeat constructor|by rewrite orb_false_r]. }
    rewrite wake_eq in E. ws. wsi E. destruct I.
    assert (HI : imap pair (arrivals tr ++ [it]) = imap pair (arrivals tr) ++ [(wk_nins w, it)]) by (rewrite imap_app, nc_count0; cbn; by rewrite Nat.add_0_r).
    assert (HF : Forall (fun i => i ∈ (wk_pi w ++ [(wk_nins w, it)]).*1) (wk_ns w)).
    { eapply Forall_impl; [exact nc_ns0|]. intros i Hi. rewrite fmap_app. apply elem_of_app. by left. }
    destruct (_ <? c); injection E as <- <-; (split; [|done]); (constructor; rewrite ?arrivals_snoc, ?applied_snoc, ?let_go_snoc, ?held_back_snoc, ?bool_decide_true by done; cbn [omap list_omap]; rewrite ?app_nil_r; ws; try done).
    all: try (by rewrite closed_snoc, orb_false_r).
    all: try (rewrite app_length, nc_count0; cbn; lia).
    all: try (destruct nc_hand0 as (hd & H1 & H2 & H3); exists hd; split_and!; try done; rewrite HI, H1, <- !app_assoc; done).
    all: try (rewrite outputs_snoc; apply Forall_app; split; [|by repeat constructor]; eapply Forall_impl; [exact nc_go0|]; intros []; try done; intros [->|[-> Hc]]; [by left|right]; rewrite closed_snoc, Hc; done).
    + rewrite <- nc_notif0. by rewrite <- !app_assoc.
    + apply Forall_app. split; [done|]. constructor; [|constructor]. rewrite fmap_app. apply elem_of_app. right. apply elem_of_cons. by left.
  - rewrite wake_eq in E. injection E as <- <-. split; [|done]. eapply ncore_same; try done; ws; [constructor|by rewrite orb_false_r].
  - destruct (mutate_items _ _ _) as [[[st|st l|] t]|]; try discriminate E. destruct (bool_decide _); injection E as <- <-; (split; [|done]); (eapply ncore_same; try done; ws; [repeat constructor|by rewrite orb_false_r]).
  - injection E as <- <-. split; [|done]. eapply ncore_same; try done; ws; [constructor|by rewrite orb_false_r].
  - injection E as <- <-. split; [|done]. eapply ncore_same; try done; ws; [constructor|by rewrite orb_true_r].
  - destruct (wk_owed w) as [|b rest]; [discriminate E|]. rewrite wake_eq in E. destruct (_ && _); injection E as <- <-; (split; [|done]); (eapply ncore_same; try done; ws; [constructor|by rewrite orb_false_r]).
  - rewrite wake_eq in E. injection E as <- <-. split; [|done]. eapply ncore_same; try done; ws; [constructor|by rewrite orb_false_r].
  - injection E as <- <-. split; [|done]. eapply ncore_same; try done; ws; [constructor|by rewrite orb_false_r].
Qed.

Lemma ninv_trace A c t now0 tr w : wk_trace A c (wk_new t now0) tr w -> ninv tr w.
Proof.
  induction 1 as [|tr w e w' outs H IH Hc HA E].
  - split; [|done]. constructor; try done; try constructor; try done. exists []. done.
  - by eapply ninv_step.
Qed.
End WithFP.
