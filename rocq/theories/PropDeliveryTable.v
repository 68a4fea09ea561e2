(** C86, with a table of Table.v at the other end: its samples are what the Samplers
    get. *)
From Verif Require Import Base RateLimiter Selector SelList Trajectory Table EventLog TableProofs TableLog
  SelSpec PropSelectors TableSpec LogFacts PropTable PyConfig PropQueue.
From Verif Require Import Queue PropBoundedQueue Sampler PropSampler Delivery PropDelivery.

(** Insertions and samples of a key in a history of a table. *)
Definition inserted (k : Z) (log : list event) : nat := length (List.filter (fun e => match e with EvInsert it => bool_decide (it_key it = k) | _ => false end) log).
(** How often the key [k] is among some samples. *)
Definition deliveries (k : Z) (l : list sampled) : nat := length (List.filter (fun sm => bool_decide (it_key (sm_item sm) = k)) l).
(** What the callers of all the Samplers have got. *)
Definition delivered (y : dsys sampled) : list sampled := concat ((fun c => h_returned (r_p c)) <$> y_clients y).

Section WithFP.
Context {fp : FP} {laws : FPLaws fp}.

Lemma sampled_once c log k : log_all (ev_ok c) log -> (inserted k log <= 1)%nat ->
  Z.of_nat (length (List.filter (fun it => bool_decide (it_key it = k)) (concat (ev_sampled <$> log)))) = times_since_insert k log /\
  (inserted k log = 0%nat -> replay log !! k = None).
Proof.
  induction log as [|e log IH] using List.rev_ind; intros H Hi; [done|]. apply log_all_last in H as [H He]. unfold inserted in *. rewrite List.filter_app, app_length in Hi.
  destruct (IH H) as [IH1 IH2]; [lia|]. rewrite fmap_app, concat_app, List.filter_app, !app_length, List.filter_app, app_length, times_snoc, replay_snoc, Nat2Z.inj_add, IH1.
  destruct e as [x|x|x|x|]; cbn [ev_sampled fmap list_fmap concat app List.filter length times_ev replay_ev] in *.
  - destruct (decide (it_key x = k)) as [Hk|Hk].
    + rewrite bool_decide_true in * by done. cbn [length] in *. split; [|lia].
      assert (E : times_since_insert k log = 0); [|lia]. rewrite <- IH1.
      assert (N : forall it, EvInsert it ∈ log -> it_key it <> k).
      { intros it Hin Hk'. apply elem_of_list_split in Hin as (pre & post & ->). rewrite List.filter_app, app_length in Hi. cbn [List.filter] in Hi. rewrite bool_decide_true in Hi by done. cbn [length] in Hi. lia. }
      assert (S : forall it, EvSample it ∈ log -> it_key it <> k).
      { intros it Hin Hk'. apply elem_of_list_split in Hin as (pre & post & ->). destruct (H pre (EvSample it) post eq_refl) as (old & Ho & E & _). apply (f_equal it_key) in E. cbn in E.
        destruct (back_needs_insert c [] pre k) as (it0 & Hin0 & Hk0); [eapply log_all_pre; exact H|done|cbn [app]; exists old; congruence|]. apply (N it0); [|done]. apply elem_of_app. by left. }
      clear -S. induction log as [|e log IHl]; [done|]. cbn. rewrite List.filter_app, app_length. rewrite Nat2Z.inj_add, IHl by (intros it Hin; apply S; by right).
      destruct e as [y|y|y|y|]; try done. cbn. rewrite bool_decide_false; [done|]. apply S. by left.
    + rewrite bool_decide_false in * by done. cbn [length] in *. split; [lia|]. intros Hz. rewrite lookup_insert_ne by done. apply IH2. lia.
  - destruct He as (old & Ho & E & _). pose proof (f_equal it_key E) as Ek. cbn in Ek. destruct (decide (it_key x = k)) as [Hk|Hk].
    + rewrite bool_decide_true by done. cbn [length]. split; [lia|]. intros Hz. specialize (IH2 ltac:(lia)). congruence.
    + rewrite bool_decide_false by done. cbn [length]. split; [lia|]. intros Hz. rewrite lookup_insert_ne by done. apply IH2. lia.
  - destruct He as (old & p & Ho & E & _). pose proof (f_equal it_key E) as Ek. cbn in Ek. split; [lia|]. intros Hz. specialize (IH2 ltac:(lia)). rewrite lookup_insert_ne; [done|]. congruence.
  - split; [lia|]. intros Hz. rewrite lookup_delete_None. right. apply IH2. lia.
  - split; [lia|]. done.
Qed.

Lemma filter_sub {B} (f : B -> bool) (l1 l2 : list B) : l1 ⊆+ l2 -> (length (List.filter f l1) <= length (List.filter f l2))%nat.
Proof. induction 1 as [|x l1 l2 _ IH|x y l|x l1 l2 _ IH|l1 l2 l3 _ IH1 _ IH2]; cbn; repeat case_match; cbn; lia. Qed.

(** However many Samplers with however many workers: an item that is inserted once reaches
    callers at most max_times_sampled times, in a table with such a limit. *)
Theorem C86_max_times c os rs t k len cs es y : (forall x, (0 < len x)%nat) -> reached c os rs t -> Forall fresh_op os -> 0 < c_max_times c -> (inserted k (t_log t) <= 1)%nat ->
  samplers_new cs -> y_run len (mkDsys cs []) es = Some y -> y_given y = all_samples rs ->
  Z.of_nat (deliveries k (delivered y)) <= c_max_times c.
Proof.
  intros Hlen H Hf Hm Hi Hn Hr Hg. pose proof (C86_once len Hlen cs es y Hn Hr) as Hsub. rewrite Hg in Hsub.
  assert (Hd : (deliveries k (delivered y) <= deliveries k (all_samples rs))%nat) by by apply filter_sub.
  destruct (C05_samples_logged c os rs t H) as [Hl _]. destruct (C05_max_times c os rs t H Hf Hm) as [Hs _].
  assert (Hdl : deliveries k (all_samples rs) = length (List.filter (fun it => bool_decide (it_key it = k)) (concat (ev_sampled <$> t_log t)))).
  { rewrite <- Hl. unfold deliveries. generalize (all_samples rs). intros l. induction l as [|sm l IH]; [done|]. cbn. case_bool_decide; cbn; by rewrite IH. }
  apply reached_linv in H as [_ L _]. pose proof (la_ok _ _ _ _ L) as Hok. destruct (sampled_once c (t_log t) k Hok Hi) as [E _].
  assert (T : times_since_insert k (t_log t) <= c_max_times c); [|lia].
  assert (Hs' : forall pre it post, t_log t = pre ++ EvSample it :: post -> it_times it = times_since_insert (it_key it) pre + 1 /\ it_times it <= c_max_times c) by (intros pre it post Ep; by destruct (Hs pre it post Ep) as (H1 & H2 & _)).
  clear -Hs' Hm. revert Hs'. generalize (t_log t). intros log. induction log as [|e log IH] using List.rev_ind; intros Hs; [cbn; lia|]. rewrite times_snoc.
  assert (IH' : times_since_insert k log <= c_max_times c).
  { apply IH. intros pre it post E. apply (Hs pre it (post ++ [e])). by rewrite E, <- app_assoc. }
  destruct e as [x|x|x|x|]; cbn; try done; case_decide; try lia. destruct (Hs log x []) as (H1 & H2); [done|]. subst k. lia.
Qed.

(** Table.queue: whatever the number of Samplers and workers, an item that was inserted
    reaches callers at most once. *)
Theorem C86_queue_once n c os outs q rs t len cs es y : (forall x, (0 < len x)%nat) -> py_table_queue n = Some c ->
  Forall (op_ok c) os -> Forall fresh_op os -> Forall no_reset os -> box_run false n [] false os = Some (outs, q) -> run (new_table c) os = Some (rs, t) ->
  samplers_new cs -> y_run len (mkDsys cs []) es = Some y -> y_given y = all_samples rs ->
  (sm_item <$> delivered y) ++ (handed_out <$> q) ⊆+ handed_out <$> accepted os rs.
Proof.
  intros Hlen Hc Hok Hf Hr Hb E Hn Hy Hg. destruct (C30_exactly_once n c os outs q rs t Hc Hok Hf Hr Hb E) as [-> _]. apply submseteq_app; [|done].
  pose proof (C86_once len Hlen cs es y Hn Hy) as Hs. rewrite Hg in Hs. fold (delivered y) in Hs. apply submseteq_Permutation in Hs as [k Hk]. rewrite Hk, fmap_app. by apply submseteq_inserts_r.
Qed.

(** One Sampler with one worker, one thread that calls it, and nothing fails: it
    gets the items of a Table.queue in the order in which they were inserted, none twice
    and none left out. *)
Theorem C86_queue_order n c os outs q rs t len maxs ps nw k es s : (forall x, (0 < len x)%nat) -> py_table_queue n = Some c ->
  Forall (op_ok c) os -> Forall fresh_op os -> Forall no_reset os -> box_run false n [] false os = Some (outs, q) -> run (new_table c) os = Some (rs, t) ->
  valid_options maxs ps nw [k] -> r_run len (r_new maxs ps nw [k]) es = Some s -> r_given s = all_samples rs ->
  one_caller len (r_new maxs ps nw [k]) es -> Forall (fun e => undisturbed e = true) es ->
  handed_out <$> accepted os rs = (sm_item <$> h_returned (r_p s)) ++ (sm_item <$> held s) ++ (handed_out <$> q).
Proof.
  intros Hlen Hc Hok Hf Hr Hb E Hv Hs Hg Ho Hu. destruct (C30_exactly_once n c os outs q rs t Hc Hok Hf Hr Hb E) as [-> _]. destruct (C86_order len Hlen maxs ps nw k es s Hv Ho Hs) as [_ H]. rewrite <- Hg, (H Hu), fmap_app. by rewrite (assoc_L (++)).
Qed.

End WithFP.

(** ** Examples *)

Local Existing Instance fp_exact.
Local Existing Instance fp_exact_laws.
Local Existing Instance fp_exact_exact.

Definition dq_len (x : sampled) : nat := 1.
Lemma dq_len_pos x : (0 < dq_len x)%nat.
Proof. unfold dq_len. lia. Qed.
(** The history of Table.queue of C30; its four samples go to one Sampler. *)
Definition dq_cfg : tcfg := default ex_cfg (py_table_queue 2).
Definition dq_run := Eval vm_compute in run (new_table dq_cfg) ex_queue_hist.
Definition dq_samples : list sampled := match dq_run with Some (rs, _) => all_samples rs | None => [] end.
Definition dq_new : rclient sampled := r_new (-1) (-1) 1 [KLocal 8].
Definition dq_events : list (rev sampled) :=
  [RRun (NWorker 0 VStep); RRun (NWorker 0 VStep)] ++
  concat (List.map (fun sm => [RGive 0 [sm] false; RRun (NWorker 0 VStep); RRun (NWorker 0 VStep); RRun NPop; RRun (NReturn 0 true)]) dq_samples).
Example C86_queue_example : exists outs q rs t s, py_table_queue 2 = Some dq_cfg /\ Forall (op_ok dq_cfg) ex_queue_hist /\ Forall fresh_op ex_queue_hist /\ Forall no_reset ex_queue_hist /\
  box_run false 2 [] false ex_queue_hist = Some (outs, q) /\ run (new_table dq_cfg) ex_queue_hist = Some (rs, t) /\ valid_options (-1) (-1) 1 [KLocal 8] /\
  r_run dq_len dq_new dq_events = Some s /\ r_given s = all_samples rs /\ one_caller dq_len dq_new dq_events /\ Forall (fun e => undisturbed e = true) dq_events /\
  (it_key ∘ sm_item <$> h_returned (r_p s)) = [1; 2; 3; 1].
Proof.
  eexists _, _, _, _, _. split; [reflexivity|]. split; [ops_ok|]. split; [by repeat constructor|]. split; [by repeat constructor|].
  split; [vm_compute; reflexivity|]. split; [vm_compute; reflexivity|]. split; [by repeat constructor; left|]. split; [vm_compute; reflexivity|]. split; [vm_compute; reflexivity|].
  split; [vm_compute; repeat split|]. split; [by repeat constructor|]. vm_compute. reflexivity.
Qed.
Example C86_max_times_example : let r := final dq_cfg ex_queue_hist in reached dq_cfg ex_queue_hist r.1 r.2 /\ Forall fresh_op ex_queue_hist /\ c_max_times dq_cfg = 1 /\ inserted 2 (t_log r.2) = 1%nat /\
  samplers_new [dq_new] /\ exists y, y_run dq_len (mkDsys [dq_new] []) (List.map (pair 0%nat) dq_events) = Some y /\ y_given y = all_samples r.1 /\ deliveries 2 (delivered y) = 1%nat.
Proof.
  cbv zeta. split. { split; [by repeat constructor|ops_ok|by vm_compute]. } split; [by repeat constructor|]. split; [reflexivity|]. split; [vm_compute; reflexivity|]. split.
  - assert (valid_options (-1) (-1) 1 [KLocal 8]) by by repeat constructor; left. repeat constructor. by eexists _, _, _, _.
  - eexists. split; [vm_compute; reflexivity|]. split; vm_compute; reflexivity.
Qed.

Print Assumptions C86_max_times.
Print Assumptions C86_queue_once.
Print Assumptions C86_queue_order.
