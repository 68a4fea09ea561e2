(** Tables whose selectors cannot be told apart behave in the same way. *)
From Verif Require Import Base RateLimiter Selector Trajectory Table.

Section WithFP.
Context {fp : FP}.

(** Picks that differ at most in how the probability is written. *)
Definition same_pick (a b : option (Z * Q)) : Prop :=
  match a, b with
  | Some (k, q), Some (k', q') => k = k' /\ (q == q')%Q
  | None, None => True
  | _, _ => False
  end.
Lemma same_pick_refl a : same_pick a a.
Proof. destruct a as [[k q]|]; done. Qed.

(** A relation between selectors that all calls preserve, with the same results.
    [okp] restricts the priorities. *)
Record simrel (okp : dbl -> Prop) (R : selector -> selector -> Prop) : Prop := {
  sim_ins : forall a b k p, R a b -> okp p ->
    (sel_insert a k p).1 = (sel_insert b k p).1 /\ R (sel_insert a k p).2 (sel_insert b k p).2;
  sim_upd : forall a b k p, R a b -> okp p ->
    (sel_update a k p).1 = (sel_update b k p).1 /\ R (sel_update a k p).2 (sel_update b k p).2;
  sim_del : forall a b k, R a b ->
    (sel_delete a k).1 = (sel_delete b k).1 /\ R (sel_delete a k).2 (sel_delete b k).2;
  sim_samp : forall a b d, R a b -> draw_ok d -> same_pick (sel_sample a d) (sel_sample b d);
  sim_clr : forall a b, R a b -> R (sel_clear a) (sel_clear b) }.

(** The priorities of a call. *)
Definition op_prios (okp : dbl -> Prop) (o : op) : Prop :=
  match o with
  | OInsert _ _ it | OInsertWake _ _ it => okp (it_prio it)
  | OMutate us _ => Forall (fun u => okp u.2) us
  | _ => True
  end.

Context {okp : dbl -> Prop} {R1 R2 : selector -> selector -> Prop}
  (SR1 : simrel okp R1) (SR2 : simrel okp R2).

Record tsim (pre : list event) (a b : table) : Prop := {
  ts_max : t_max_size a = t_max_size b; ts_times : t_max_times a = t_max_times b;
  ts_sampler : R1 (t_sampler a) (t_sampler b); ts_remover : R2 (t_remover a) (t_remover b);
  ts_limiter : t_limiter a = t_limiter b; ts_data : t_data a = t_data b; ts_eps : t_eps a = t_eps b;
  ts_del : t_del_eps a = t_del_eps b; ts_unique : t_unique a = t_unique b;
  ts_log : t_log a = pre ++ t_log b }.

Definition opt_rel {A B} (R : A -> B -> Prop) (a : option A) (b : option B) : Prop :=
  match a, b with Some x, Some y => R x y | None, None => True | _, _ => False end.
Definition pair_sim (pre : list event) {A} (R : A -> A -> Prop) (x y : A * table) : Prop :=
  R x.1 y.1 /\ tsim pre x.2 y.2.

(** Samples that differ at most in how the probability is written. *)
Definition same_sample (x y : sampled) : Prop :=
  sm_item x = sm_item y /\ (sm_prob x == sm_prob y)%Q /\ sm_size x = sm_size y /\
  sm_prio x = sm_prio y /\ sm_times x = sm_times y /\ sm_limited x = sm_limited y.
Definition same_result (x y : result) : Prop :=
  match x, y with
  | RStatus a, RStatus b => a = b
  | RSamples a l, RSamples b l' => a = b /\ Forall2 same_sample l l'
  | RBlocked, RBlocked => True
  | _, _ => False
  end.

Lemma delete_item_sim pre a b k : tsim pre a b ->
  opt_rel (pair_sim pre eq) (delete_item a k) (delete_item b k).
Proof.
  intros S. unfold delete_item. destruct S. rewrite ts_data0.
  destruct (t_data b !! k) as [it|]; [|by split]. rewrite ts_eps0, ts_del0.
  destruct (dec_eps _ _ _) as [[e n]|]; [|done]. cbn.
  destruct (sim_del _ _ SR1 _ _ k ts_sampler0) as [A1 A2].
  destruct (sel_delete (t_sampler a) k) as [st s], (sel_delete (t_sampler b) k) as [st' s']. cbn in A1, A2. subst st'.
  destruct (sim_del _ _ SR2 _ _ k ts_remover0) as [B1 B2].
  destruct (sel_delete (t_remover a) k) as [st2 s2], (sel_delete (t_remover b) k) as [st2' s2']. cbn in B1, B2. subst st2'.
  case_decide; cbn; (split; [done|]); split; cbn; try done; try congruence; rewrite ts_log0; by rewrite app_assoc.
Qed.

Lemma update_item_sim pre a b k p : tsim pre a b -> okp p ->
  pair_sim pre eq (update_item a k p) (update_item b k p).
Proof.
  intros S Hp. unfold update_item. destruct S. rewrite ts_data0.
  destruct (t_data b !! k) as [it|]; [|by split]. cbn.
  destruct (sim_upd _ _ SR1 _ _ k p ts_sampler0 Hp) as [A1 A2].
  destruct (sel_update (t_sampler a) k p) as [st s], (sel_update (t_sampler b) k p) as [st' s']. cbn in A1, A2. subst st'.
  destruct (sim_upd _ _ SR2 _ _ k p ts_remover0 Hp) as [B1 B2].
  destruct (sel_update (t_remover a) k p) as [st2 s2], (sel_update (t_remover b) k p) as [st2' s2']. cbn in B1, B2. subst st2'.
  case_decide; cbn; [case_decide|]; cbn; (split; [done|]); split; cbn; try done; try congruence; rewrite ts_log0; by rewrite app_assoc.
Qed.

Lemma tsim_limiter pre a b f : tsim pre a b ->
  tsim pre (with_limiter a (f (t_limiter a))) (with_limiter b (f (t_limiter b))).
Proof. intros []. split; cbn; try done. congruence. Qed.

Lemma insert_new_sim pre a b now d it : tsim pre a b -> draw_ok d -> okp (it_prio it) ->
  opt_rel (pair_sim pre eq) (insert_new a now d it) (insert_new b now d it).
Proof.
  intros S Hd Hp. unfold insert_new. destruct S. cbn.
  destruct (sim_ins _ _ SR1 _ _ (it_key it) (it_prio it) ts_sampler0 Hp) as [A1 A2].
  destruct (sel_insert (t_sampler a) _ _) as [st s], (sel_insert (t_sampler b) _ _) as [st' s']. cbn in A1, A2. subst st'.
  destruct (sim_ins _ _ SR2 _ _ (it_key it) (it_prio it) ts_remover0 Hp) as [B1 B2].
  destruct (sel_insert (t_remover a) _ _) as [st2 s2], (sel_insert (t_remover b) _ _) as [st2' s2']. cbn in B1, B2. subst st2'.
  case_bool_decide; cbn; [|split; [done|split; cbn; try done; congruence]].
  case_bool_decide; cbn; [|split; [done|split; cbn; try done; congruence]].
  match goal with |- opt_rel _ (if _ <? t_size ?x then _ else _) (if _ <? t_size ?y then _ else _) =>
    set (a1 := x); set (b1 := y) end.
  assert (S1 : tsim pre a1 b1).
  { split; cbn; try done; try congruence. rewrite ts_log0. by rewrite app_assoc. }
  assert (Hsz : t_size a1 = t_size b1) by (unfold t_size; by rewrite (ts_data _ _ _ S1)).
  rewrite ts_max0, Hsz. destruct (_ <? _).
  - pose proof (sim_samp _ _ SR2 _ _ d B2 Hd) as P.
    destruct (sel_sample s2 d) as [[v q]|], (sel_sample s2' d) as [[v' q']|]; try done.
    destruct P as [<- _]. pose proof (delete_item_sim pre a1 b1 v S1) as P.
    destruct (delete_item a1 v) as [[st3 t3]|], (delete_item b1 v) as [[st3' t3']|]; try done.
    destruct P as [P1 P2]. cbn in P1, P2. subst st3'. case_bool_decide; cbn; [|done].
    split; [done|]. by apply tsim_limiter.
  - split; [done|]. apply (tsim_limiter pre a1 b1 lim_insert S1).
Qed.

Lemma insert_resume_sim pre a b now d it : tsim pre a b -> draw_ok d -> okp (it_prio it) ->
  opt_rel (pair_sim pre same_result) (insert_resume a now d it) (insert_resume b now d it).
Proof.
  intros S Hd Hp. unfold insert_resume. rewrite (ts_limiter _ _ _ S).
  destruct (await_can_insert _); [|by split|by split]. rewrite (ts_data _ _ _ S).
  destruct (t_data b !! it_key it).
  - pose proof (update_item_sim pre a b (it_key it) (it_prio it) S Hp) as [P1 P2].
    destruct (update_item a _ _), (update_item b _ _). cbn in *. by split.
  - pose proof (insert_new_sim pre a b now d it S Hd Hp) as P.
    destruct (insert_new a now d it) as [[? ?]|], (insert_new b now d it) as [[? ?]|]; done.
Qed.

Lemma sample_one_sim pre a b d limited : tsim pre a b -> draw_ok d ->
  opt_rel (fun x y => x.1.1 = y.1.1 /\ same_sample x.1.2 y.1.2 /\ tsim pre x.2 y.2)
    (sample_one a d limited) (sample_one b d limited).
Proof.
  intros S Hd. unfold sample_one. pose proof (sim_samp _ _ SR1 _ _ d (ts_sampler _ _ _ S) Hd) as P.
  destruct (sel_sample (t_sampler a) d) as [[k q]|], (sel_sample (t_sampler b) d) as [[k' q']|]; try done.
  destruct P as [<- Hq]. rewrite (ts_data _ _ _ S). destruct (t_data b !! k) as [it|]; [|done].
  set (a1 := if it_times it =? 0 then with_unique a (t_unique a + 1) else a).
  set (b1 := if it_times it =? 0 then with_unique b (t_unique b + 1) else b).
  assert (S1 : tsim pre a1 b1).
  { unfold a1, b1. destruct (_ =? _); [|done]. destruct S. split; cbn; try done. congruence. }
  set (it' := item_set_times it (it_times it + 1)).
  set (a2 := with_data a1 (<[k := it']> (t_data a1))). set (b2 := with_data b1 (<[k := it']> (t_data b1))).
  assert (S2 : tsim pre a2 b2). { destruct S1. split; cbn; try done. congruence. }
  assert (S3 : tsim pre (ext_op a2 (EvSample it')) (ext_op b2 (EvSample it'))).
  { destruct S2. split; cbn -[a2 b2]; try done. rewrite ts_log0. by rewrite app_assoc. }
  assert (Hsm : same_sample (mkSampled it' q (t_size a2) (it_prio it') (it_times it') limited)
                            (mkSampled it' q' (t_size b2) (it_prio it') (it_times it') limited)).
  { repeat split; try done. cbn [sm_size]. unfold t_size. by rewrite (ts_data _ _ _ S2). }
  change (t_max_times (ext_op a2 (EvSample it'))) with (t_max_times a2).
  change (t_max_times (ext_op b2 (EvSample it'))) with (t_max_times b2).
  rewrite (ts_times _ _ _ S2). destruct (it_times it' =? t_max_times b2); [|split; [done|]; split; [exact Hsm|exact S3]].
  pose proof (delete_item_sim pre _ _ (it_key it') S3) as P.
  destruct (delete_item (ext_op a2 _) _) as [[st3 t3]|], (delete_item (ext_op b2 _) _) as [[st3' t3']|]; try done.
  destruct P as [P1 P2]. cbn in P1, P2. split; [done|]. split; [exact Hsm|done].
Qed.

Lemma sample_loop_sim pre more : forall a b ds limited, tsim pre a b -> (forall i, draw_ok (ds i)) ->
  opt_rel (fun x y => x.1.1 = y.1.1 /\ Forall2 same_sample x.1.2 y.1.2 /\ tsim pre x.2 y.2)
    (sample_loop more ds limited a) (sample_loop more ds limited b).
Proof.
  induction more as [|more IH]; intros a b ds limited Sm Hd; cbn [sample_loop];
    pose proof (sample_one_sim pre a b (ds 0%nat) limited Sm (Hd 0%nat)) as P;
    destruct (sample_one a (ds 0%nat) limited) as [[[st sm] a1]|], (sample_one b (ds 0%nat) limited) as [[[st' sm'] b1]|];
    try done; destruct P as (P1 & P2 & P3); cbn [fst snd] in P1, P2, P3; subst st';
    case_bool_decide; cbn [negb opt_rel fst snd].
  - split; [done|]. split; [constructor; [done|constructor]|done].
  - split; [done|]. split; [constructor; [done|constructor]|done].
  - unfold maybe_commit_sample. rewrite (ts_limiter _ _ _ P3). destruct (can_sample _ _).
    + assert (S1 : tsim pre (with_limiter a1 (lim_sample (t_limiter b1))) (with_limiter b1 (lim_sample (t_limiter b1)))).
      { rewrite <- (ts_limiter _ _ _ P3) at 1. by apply tsim_limiter. }
      specialize (IH _ _ (fun i => ds (S i)) limited S1 (fun i => Hd (S i))).
      destruct (sample_loop more _ limited (with_limiter a1 _)) as [[[st2 sms] a2]|],
               (sample_loop more _ limited (with_limiter b1 _)) as [[[st2' sms'] b2]|]; try done.
      destruct IH as (Q1 & Q2 & Q3). cbn [fst snd opt_rel] in *. split; [done|]. split; [by constructor|done].
    + cbn. split; [done|]. split; [constructor; [done|constructor]|done].
  - split; [done|]. split; [constructor; [done|constructor]|done].
Qed.

Lemma sample_run_sim pre a b n ds limited : tsim pre a b -> (forall i, draw_ok (ds i)) ->
  opt_rel (pair_sim pre same_result) (sample_run a n ds limited) (sample_run b n ds limited).
Proof.
  intros S Hd. unfold sample_run. pose proof (sample_loop_sim pre (Z.to_nat (n - 1)) a b ds limited S Hd) as P.
  destruct (sample_loop _ ds limited a) as [[[st sms] a2]|], (sample_loop _ ds limited b) as [[[st' sms'] b2]|]; try done.
  destruct P as (Q1 & Q2 & Q3). cbn [fst snd] in *. split; [|done]. cbn. by split.
Qed.

Lemma sample_resume_sim pre a b n ds : tsim pre a b -> (forall i, draw_ok (ds i)) ->
  opt_rel (pair_sim pre same_result) (sample_resume a n ds) (sample_resume b n ds).
Proof.
  intros S Hd. unfold sample_resume. rewrite (ts_limiter _ _ _ S) at 1. destruct (await_sample _).
  - apply sample_run_sim; [|done]. by apply tsim_limiter.
  - split; [|done]. cbn. by split.
  - by split.
Qed.

Lemma delete_items_sim pre ks : forall a b, tsim pre a b ->
  opt_rel (pair_sim pre eq) (delete_items a ks) (delete_items b ks).
Proof.
  induction ks as [|k ks IH]; intros a b S; cbn [delete_items]; [by split|].
  pose proof (delete_item_sim pre a b k S) as P.
  destruct (delete_item a k) as [[st a1]|], (delete_item b k) as [[st' b1]|]; try done.
  destruct P as [P1 P2]. cbn in P1, P2. subst st'. case_bool_decide; [by apply IH|done].
Qed.
Lemma update_items_sim pre us : Forall (fun u => okp u.2) us -> forall a b, tsim pre a b ->
  pair_sim pre eq (update_items a us) (update_items b us).
Proof.
  induction us as [|[k p] us IH]; intros Hp a b S; cbn [update_items]; [by split|].
  apply Forall_cons in Hp as [Hp Hps]. pose proof (update_item_sim pre a b k p S Hp) as [P1 P2].
  destruct (update_item a k p) as [st a1], (update_item b k p) as [st' b1].
  cbn in P1, P2. subst st'. case_bool_decide; [by apply IH|done].
Qed.

Lemma step_sim c pre a b o : tsim pre a b -> op_ok c o -> op_prios okp o ->
  opt_rel (pair_sim pre same_result) (step a o) (step b o).
Proof.
  intros S Ho Hp. destruct o as [now d it|now d it|n ds|n ds|us ks| |]; cbn [step op_ok op_prios] in *.
  - unfold insert_or_assign. case_bool_decide; cbn [negb]; [|by split]. rewrite (ts_data _ _ _ S).
    destruct (t_data b !! it_key it).
    + pose proof (update_item_sim pre a b (it_key it) (it_prio it) S Hp) as [P1 P2].
      destruct (update_item a _ _), (update_item b _ _). cbn in *. by split.
    + apply insert_resume_sim; [done|apply Ho|done].
  - apply insert_resume_sim; [done|apply Ho|done].
  - unfold sample_batch, maybe_commit_sample. rewrite (ts_limiter _ _ _ S) at 1. destruct (can_sample _ _).
    + apply sample_run_sim; [|done]. by apply tsim_limiter.
    + by apply sample_resume_sim.
  - by apply sample_resume_sim.
  - unfold mutate_items. pose proof (delete_items_sim pre ks a b S) as P.
    destruct (delete_items a ks) as [[st a1]|], (delete_items b ks) as [[st' b1]|]; try done.
    destruct P as [P1 P2]. cbn in P1, P2. subst st'. case_bool_decide; [|by split].
    pose proof (update_items_sim pre us Hp a1 b1 P2) as [Q1 Q2].
    destruct (update_items a1 us), (update_items b1 us). cbn in *. by split.
  - split; [done|]. destruct S. split; cbn; try done; try (first [by apply (sim_clr _ _ SR1)|by apply (sim_clr _ _ SR2)]); try congruence.
    rewrite ts_log0. by rewrite app_assoc.
  - split; [done|]. by apply tsim_limiter.
Qed.

Lemma run_sim c pre os : forall a b, tsim pre a b -> Forall (op_ok c) os -> Forall (op_prios okp) os ->
  opt_rel (pair_sim pre (Forall2 same_result)) (run a os) (run b os).
Proof.
  induction os as [|o os IH]; intros a b S H Hp; cbn [run]; [split; [constructor|done]|].
  apply Forall_cons in H as [Ho H]. apply Forall_cons in Hp as [Hpo Hp].
  pose proof (step_sim c pre a b o S Ho Hpo) as P.
  destruct (step a o) as [[r a1]|], (step b o) as [[r' b1]|]; try done.
  destruct P as [P1 P2]. cbn in P1, P2. specialize (IH a1 b1 P2 H Hp).
  destruct (run a1 os) as [[rs a2]|], (run b1 os) as [[rs' b2]|]; try done.
  destruct IH as [Q1 Q2]. cbn in Q1, Q2. split; [by constructor|done].
Qed.

End WithFP.
