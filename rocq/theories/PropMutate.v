(** C81: priority updates as remote calls, with the retries of TFClient. *)
From Verif Require Import Base RateLimiter SelList SelHeap SelUniform SelPrio Selector Trajectory Table EventLog TableProofs TableLog
  TableSpec PropTable MutateRpc.

(** Number of values in a tensor of this shape. *)
Definition product (shape : list Z) : Z := foldr Z.mul 1 shape.

Section WithFP.
Context {fp : FP} {laws : FPLaws fp}.

(** ** Specification *)

(** What handling the request once does to the tables of the server. *)
Definition served (rq : mreq) (ts : gmap Z table) (st : status) (ts' : gmap Z table) : Prop :=
  match ts !! rq_table rq with
  | None => st = NotFound /\ ts' = ts
  | Some t => exists t', step t (OMutate (rq_updates rq) (rq_deletes rq)) = Some (RStatus st, t') /\
                         ts' = <[rq_table rq := t']> ts
  end.

(** The attempts of call [c] the server handled, with their results; those the
    client sent; and how often the network failed the call. *)
Definition handled (c : nat) (l : list mlog) : list (nat * status) :=
  omap (fun x => match x with LHandle c' a _ st => if decide (c' = c) then Some (a, st) else None | _ => None end) l.
Definition sent (c : nat) (l : list mlog) : list nat :=
  omap (fun x => match x with LSend c' a _ => if decide (c' = c) then Some a else None | _ => None end) l.
Definition failures (c : nat) (es : list mev) : list status :=
  omap (fun e => match e with MFail c' st => if decide (c' = c) then Some st else None | _ => None end) es.

Global Arguments handled : simpl never.
Global Arguments sent : simpl never.
Global Arguments failures : simpl never.

(** ** Statuses of the table *)

Lemma sel_delete_status s k : transient (sel_delete s k).1 = false.
Proof.
  destruct s; cbn; unfold ls_delete, heap_delete, uniform_delete, prio_delete;
    repeat (case_match; simplify_eq/=; try done).
Qed.
Lemma sel_update_status s k p : transient (sel_update s k p).1 = false.
Proof.
  destruct s; cbn; unfold ls_update, heap_update, uniform_update, prio_update;
    repeat (case_match; simplify_eq/=; try done).
Qed.

Lemma delete_items_status ks : forall t st t', delete_items t ks = Some (st, t') -> transient st = false.
Proof.
  induction ks as [|k ks IH]; intros t st t' H; cbn [delete_items] in H; [by simplify_eq|].
  destruct (delete_item t k) as [[st1 t1]|] eqn:E; [|done].
  destruct (bool_decide (st1 = Ok)); [by eapply IH|]. injection H as -> ->.
  unfold delete_item in E. destruct (t_data t !! k) as [it|]; [|by simplify_eq].
  destruct (dec_eps _ _ _) as [[e n]|]; [|done].
  match type of E with context [sel_delete ?a ?b] => pose proof (sel_delete_status a b) as H1; destruct (sel_delete a b) as [st1 s1] eqn:E1 end.
  cbn [fst] in H1. destruct (decide (st1 = Ok)); [|by simplify_eq].
  match type of E with context [sel_delete ?a ?b] => pose proof (sel_delete_status a b) as H2; destruct (sel_delete a b) as [st2 s2] eqn:E2 end.
  cbn [fst] in H2. by simplify_eq.
Qed.
Lemma update_items_status us : forall t, transient (update_items t us).1 = false.
Proof.
  induction us as [|[k p] us IH]; intros t; cbn [update_items]; [done|].
  assert (H : transient (update_item t k p).1 = false).
  { unfold update_item. destruct (t_data t !! k) as [it|]; [|done].
    match goal with |- context [sel_update ?a ?b ?c] => pose proof (sel_update_status a b c) as H1; destruct (sel_update a b c) as [st1 s1] end.
    destruct (decide (st1 = Ok)); [|done].
    match goal with |- context [sel_update ?a ?b ?c] => pose proof (sel_update_status a b c) as H2; destruct (sel_update a b c) as [st2 s2] end.
    by destruct (decide (st2 = Ok)). }
  destruct (update_item t k p) as [st t1]. destruct (bool_decide (st = Ok)); [apply IH|done].
Qed.
Lemma mutate_status t us ks st t' : step t (OMutate us ks) = Some (RStatus st, t') -> transient st = false.
Proof.
  cbn [step]. unfold mutate_items. destruct (delete_items t ks) as [[st1 t1]|] eqn:E; [|done].
  pose proof (delete_items_status _ _ _ _ E). destruct (bool_decide (st1 = Ok)); [|by intros [= <- <-]].
  pose proof (update_items_status us t1). destruct (update_items t1 us) as [st2 t2]. by intros [= <- <-].
Qed.

Lemma handle_served ts rq st ts' : handle ts rq = Some (st, ts') -> served rq ts st ts'.
Proof.
  unfold handle, served. destruct (ts !! rq_table rq) as [t|]; [|by intros [= <- <-]].
  destruct (step t _) as [[[] t']|]; try done. intros [= <- <-]. eauto.
Qed.
Lemma handle_status ts rq st ts' : handle ts rq = Some (st, ts') -> transient st = false.
Proof.
  unfold handle. destruct (ts !! rq_table rq) as [t|]; [|by intros [= <- <-]].
  destruct (step t _) as [[[] t']|] eqn:E; try done. intros [= <- <-]. by eapply mutate_status.
Qed.

(** ** Runs *)

Lemma m_run_app es1 : forall s es2, m_run s (es1 ++ es2) = match m_run s es1 with Some s' => m_run s' es2 | None => None end.
Proof. induction es1 as [|e es1 IH]; intros s es2; cbn; [done|]. destruct (m_step s e); [apply IH|done]. Qed.
Lemma m_run_snoc s es e s' : m_run s (es ++ [e]) = Some s' ->
  exists s1, m_run s es = Some s1 /\ m_step s1 e = Some s'.
Proof. rewrite m_run_app. destruct (m_run s es) as [s1|]; [|done]. cbn. destruct (m_step s1 e) eqn:E; [|done]. intros [= <-]. eauto. Qed.

Lemma handled_one c c' a rq st : handled c [LHandle c' a rq st] = if decide (c' = c) then [(a, st)] else [].
Proof. unfold handled. cbn. by case_decide. Qed.
Lemma handled_send c c' a rq : handled c [LSend c' a rq] = [].
Proof. done. Qed.
Lemma handled_return c c' rq r st : handled c [LReturn c' rq r st] = [].
Proof. done. Qed.
Lemma sent_one c c' a rq : sent c [LSend c' a rq] = if decide (c' = c) then [a] else [].
Proof. unfold sent. cbn. by case_decide. Qed.
Lemma sent_handle c c' a rq st : sent c [LHandle c' a rq st] = [].
Proof. done. Qed.
Lemma sent_return c c' rq r st : sent c [LReturn c' rq r st] = [].
Proof. done. Qed.
Lemma handled_app c l1 l2 : handled c (l1 ++ l2) = handled c l1 ++ handled c l2.
Proof. apply omap_app. Qed.
Lemma sent_app c l1 l2 : sent c (l1 ++ l2) = sent c l1 ++ sent c l2.
Proof. apply omap_app. Qed.
Lemma failures_app c l1 l2 : failures c (l1 ++ l2) = failures c l1 ++ failures c l2.
Proof. apply omap_app. Qed.
Lemma elem_of_handled c l a st : (a, st) ∈ handled c l <-> exists rq, LHandle c a rq st ∈ l.
Proof.
  unfold handled. rewrite elem_of_list_omap. split.
  - intros (x & Hx & E). destruct x; try done. case_decide; [|done]. simplify_eq. eauto.
  - intros [rq H]. exists (LHandle c a rq st). split; [done|]. by rewrite decide_True.
Qed.
Lemma elem_of_sent c l a : a ∈ sent c l <-> exists rq, LSend c a rq ∈ l.
Proof.
  unfold sent. rewrite elem_of_list_omap. split.
  - intros (x & Hx & E). destruct x; try done. case_decide; [|done]. simplify_eq. eauto.
  - intros [rq H]. exists (LSend c a rq). split; [done|]. by rewrite decide_True.
Qed.
Lemma snoc_split {A} (l pre post : list A) x y : l ++ [x] = pre ++ y :: post ->
  (post = [] /\ pre = l /\ x = y) \/ exists post', post = post' ++ [x] /\ l = pre ++ y :: post'.
Proof.
  destruct post as [|z post _] using rev_ind.
  - intros H. apply app_inj_tail in H as [-> ->]. by left.
  - intros H. right. exists post. change (pre ++ y :: post ++ [z]) with (pre ++ (y :: post) ++ [z]) in H.
    rewrite app_assoc in H. apply app_inj_tail in H as [-> ->]. done.
Qed.

Record minv (es : list mev) (s : mst) : Prop := {
  mi_flight : forall a c rq, m_flight s !! a = Some (c, rq) ->
    (a < m_next s)%nat /\ LSend c a rq ∈ m_log s /\ forall c' st, (a, st) ∉ handled c' (m_log s);
  mi_calls : forall c ca, m_calls s !! c = Some ca ->
    (c < m_next s)%nat /\ LSend c (ca_cur ca) (ca_req ca) ∈ m_log s /\
    forall st, ca_reply ca = Some st -> LHandle c (ca_cur ca) (ca_req ca) st ∈ m_log s;
  mi_sent : forall c a rq, LSend c a rq ∈ m_log s -> (c <= a)%nat /\ (a < m_next s)%nat;
  mi_one : forall c a rq c' rq', LSend c a rq ∈ m_log s -> LSend c' a rq' ∈ m_log s -> c' = c /\ rq' = rq;
  mi_req : forall c a rq a' rq', LSend c a rq ∈ m_log s -> LSend c a' rq' ∈ m_log s -> rq' = rq;
  mi_nodup : forall c, NoDup (handled c (m_log s)).*1;
  mi_hs : forall c a rq st, LHandle c a rq st ∈ m_log s -> LSend c a rq ∈ m_log s /\ transient st = false;
  mi_bound : forall c, (length (sent c (m_log s)) <= S (length (failures c es)))%nat;
  mi_ret : forall pre post c rq r st, m_log s = pre ++ LReturn c rq r st :: post ->
    m_calls s !! c = None /\ (c < m_next s)%nat /\
    if transient st then r = false /\ failures c es <> [] else exists a, LHandle c a rq st ∈ pre
}.

Lemma minv_init ts : minv [] (m_init ts).
Proof.
  constructor; cbn; try (intros *; rewrite ?lookup_empty, ?elem_of_nil; done).
  - intros c. constructor.
  - intros c. apply Nat.le_0_l.
  - intros pre post c rq r st H. by destruct pre.
Qed.

Lemma failures_mono c es e : failures c es <> [] -> failures c (es ++ [e]) <> [].
Proof. rewrite failures_app. by destruct (failures c es). Qed.
Lemma failures_len c es e : (length (failures c es) <= length (failures c (es ++ [e])))%nat.
Proof. rewrite failures_app, app_length. lia. Qed.

(** The table half changes, or a request disappears: nothing else depends on them. *)
Lemma minv_weaken es e s ts fl : minv es s -> (forall a x, fl !! a = Some x -> m_flight s !! a = Some x) ->
  minv (es ++ [e]) (mkMst ts fl (m_calls s) (m_next s) (m_log s)).
Proof.
  intros I Hf. destruct I. constructor; cbn; try done.
  - intros a c rq H. apply mi_flight0. by apply Hf.
  - intros c. etrans; [apply mi_bound0|]. pose proof (failures_len c es e). lia.
  - intros pre post c rq r st H. destruct (mi_ret0 _ _ _ _ _ _ H) as (A & B & C). split; [done|]. split; [done|].
    destruct (transient st); [|done]. destruct C. split; [done|]. by apply failures_mono.
Qed.

Lemma minv_send es e s c rq retry : minv es s ->
  (c = m_next s \/
   (c < m_next s)%nat /\ (exists ca, m_calls s !! c = Some ca) /\ (exists a, LSend c a rq ∈ m_log s) /\
   failures c (es ++ [e]) = failures c es ++ [Unavailable] \/
   (c < m_next s)%nat /\ (exists ca, m_calls s !! c = Some ca) /\ (exists a, LSend c a rq ∈ m_log s) /\
   failures c (es ++ [e]) = failures c es ++ [DeadlineExceeded]) ->
  minv (es ++ [e]) (send s c rq retry).
Proof.
  intros I Hc.
  assert (Hle : (c <= m_next s)%nat) by (destruct Hc as [->|[[? _]|[? _]]]; lia).
  assert (Hnew : forall c' rq', LSend c' (m_next s) rq' ∉ m_log s).
  { intros c' rq' H. apply (mi_sent _ _ I) in H. lia. }
  constructor; cbn.
  - intros a c' rq'. rewrite lookup_insert_Some. intros [[<- [= <- <-]]|[Hne H]].
    + split; [lia|]. split; [apply elem_of_app; right; apply elem_of_list_here|].
      intros c' st. rewrite handled_app, ?handled_send, ?handled_return, app_nil_r. intros H. apply elem_of_handled in H as [rq' H].
      apply (mi_hs _ _ I) in H as [H _]. by apply Hnew in H.
    + destruct (mi_flight _ _ I _ _ _ H) as (A & B & C). split; [lia|]. split; [apply elem_of_app; by left|].
      intros c'' st. rewrite handled_app, ?handled_send, ?handled_return, app_nil_r. apply C.
  - intros c' ca. rewrite lookup_insert_Some. intros [[<- <-]|[Hne H]]; cbn.
    + split; [lia|]. split; [|done]. apply elem_of_app. right. apply elem_of_list_here.
    + destruct (mi_calls _ _ I _ _ H) as (A & B & C). split; [lia|]. split; [apply elem_of_app; by left|].
      intros st Hst. apply elem_of_app. left. by apply C.
  - intros c' a rq' H. apply elem_of_app in H as [H|H]; [apply (mi_sent _ _ I) in H; lia|].
    apply elem_of_list_singleton in H. simplify_eq. lia.
  - intros c1 a rq1 c2 rq2 H1 H2. apply elem_of_app in H1 as [H1|H1], H2 as [H2|H2].
    + by eapply (mi_one _ _ I).
    + apply elem_of_list_singleton in H2. simplify_eq. by apply Hnew in H1.
    + apply elem_of_list_singleton in H1. simplify_eq. by apply Hnew in H2.
    + apply elem_of_list_singleton in H1, H2. by simplify_eq.
  - assert (Hold : forall a rq', LSend c a rq' ∈ m_log s -> rq' = rq).
    { intros a rq' H. destruct Hc as [->|[(_ & _ & [a' H'] & _)|(_ & _ & [a' H'] & _)]].
      - apply (mi_sent _ _ I) in H. lia.
      - by eapply (mi_req _ _ I).
      - by eapply (mi_req _ _ I). }
    intros c1 a1 rq1 a2 rq2 H1 H2. apply elem_of_app in H1 as [H1|H1], H2 as [H2|H2].
    + by eapply (mi_req _ _ I).
    + apply elem_of_list_singleton in H2. simplify_eq. symmetry. by eapply Hold.
    + apply elem_of_list_singleton in H1. simplify_eq. by eapply Hold.
    + apply elem_of_list_singleton in H1, H2. by simplify_eq.
  - intros c'. rewrite handled_app, ?handled_send, ?handled_return, app_nil_r. apply (mi_nodup _ _ I).
  - intros c' a rq' st H. apply elem_of_app in H as [H|H].
    + destruct (mi_hs _ _ I _ _ _ _ H). split; [apply elem_of_app; by left|done].
    + by apply elem_of_list_singleton in H.
  - intros c'. rewrite sent_app, app_length, sent_one. pose proof (mi_bound _ _ I c') as B.
    pose proof (failures_len c' es e). destruct (decide (c = c')) as [->|Hne]; cbn; [|lia].
    destruct Hc as [->|[(_ & _ & _ & E)|(_ & _ & _ & E)]].
    + assert (sent (m_next s) (m_log s) = []) as ->; [|cbn; lia].
      apply elem_of_nil_inv. intros a Ha. apply elem_of_sent in Ha as [rq' Ha]. apply (mi_sent _ _ I) in Ha. lia.
    + rewrite E, app_length. cbn. lia.
    + rewrite E, app_length. cbn. lia.
  - intros pre post c' rq' r st H. apply snoc_split in H as [(_ & _ & H)|(post' & -> & H)]; [done|].
    destruct (mi_ret _ _ I _ _ _ _ _ _ H) as (A & B & C).
    assert (c <> c').
    { intros ->. destruct Hc as [->|[(_ & [ca E] & _)|(_ & [ca E] & _)]]; [lia|congruence|congruence]. }
    split; [by rewrite lookup_insert_ne|]. split; [lia|].
    destruct (transient st); [|done]. destruct C. split; [done|]. by apply failures_mono.
Qed.

Lemma minv_return es e s c ca st : minv es s -> m_calls s !! c = Some ca ->
  (if transient st then ca_retry ca = false /\ failures c (es ++ [e]) <> []
   else LHandle c (ca_cur ca) (ca_req ca) st ∈ m_log s) ->
  minv (es ++ [e]) (mkMst (m_tables s) (m_flight s) (delete c (m_calls s)) (m_next s)
         (m_log s ++ [LReturn c (ca_req ca) (ca_retry ca) st])).
Proof.
  intros I Hca Hst. constructor; cbn.
  - intros a c' rq H. destruct (mi_flight _ _ I _ _ _ H) as (A & B & C). split; [done|]. split; [apply elem_of_app; by left|].
    intros c'' st'. rewrite handled_app, ?handled_send, ?handled_return, app_nil_r. apply C.
  - intros c' ca'. rewrite lookup_delete_Some. intros [_ H]. destruct (mi_calls _ _ I _ _ H) as (A & B & C).
    split; [done|]. split; [apply elem_of_app; by left|]. intros st' Hs. apply elem_of_app. left. by apply C.
  - intros c' a rq H. apply elem_of_app in H as [H|H]; [by apply (mi_sent _ _ I) in H|].
    by apply elem_of_list_singleton in H.
  - intros c1 a rq1 c2 rq2 H1 H2. apply elem_of_app in H1 as [H1|H1], H2 as [H2|H2].
    + by eapply (mi_one _ _ I).
    + by apply elem_of_list_singleton in H2.
    + by apply elem_of_list_singleton in H1.
    + by apply elem_of_list_singleton in H1.
  - intros c1 a1 rq1 a2 rq2 H1 H2. apply elem_of_app in H1 as [H1|H1], H2 as [H2|H2].
    + by eapply (mi_req _ _ I).
    + by apply elem_of_list_singleton in H2.
    + by apply elem_of_list_singleton in H1.
    + by apply elem_of_list_singleton in H1.
  - intros c'. rewrite handled_app, ?handled_send, ?handled_return, app_nil_r. apply (mi_nodup _ _ I).
  - intros c' a rq' st' H. apply elem_of_app in H as [H|H].
    + destruct (mi_hs _ _ I _ _ _ _ H). split; [apply elem_of_app; by left|done].
    + by apply elem_of_list_singleton in H.
  - intros c'. rewrite sent_app, ?sent_handle, ?sent_return, app_nil_r. etrans; [apply (mi_bound _ _ I)|]. pose proof (failures_len c' es e). lia.
  - intros pre post c' rq' r st' H. apply snoc_split in H as [(-> & -> & H)|(post' & -> & H)].
    + simplify_eq. rewrite lookup_delete. split; [done|]. split; [by eapply (mi_calls _ _ I)|].
      destruct (transient st'); [done|eauto].
    + destruct (mi_ret _ _ I _ _ _ _ _ _ H) as (A & B & C).
      assert (c <> c') by congruence. split; [by rewrite lookup_delete_ne|]. split; [done|].
      destruct (transient st'); [|done]. destruct C. split; [done|]. by apply failures_mono.
Qed.

Lemma minv_handle es e s a c rq st ts calls : minv es s -> m_flight s !! a = Some (c, rq) ->
  transient st = false ->
  calls = match m_calls s !! c with
          | Some ca => if decide (ca_cur ca = a)
                       then <[c := mkMcall (ca_req ca) (ca_retry ca) a (Some st)]> (m_calls s) else m_calls s
          | None => m_calls s
          end ->
  minv (es ++ [e]) (mkMst ts (delete a (m_flight s)) calls (m_next s) (m_log s ++ [LHandle c a rq st])).
Proof.
  intros I Hf Hst Ecalls. destruct (mi_flight _ _ I _ _ _ Hf) as (Ha & Hs & Hnh).
  assert (Hcalls : forall c', calls !! c' = None <-> m_calls s !! c' = None).
  { intros c'. rewrite Ecalls. destruct (m_calls s !! c) as [ca|] eqn:Ec; [|done]. case_decide; [|done].
    rewrite lookup_insert_None. split; [by intros []|]. intros Hn. split; [done|]. congruence. }
  constructor; cbn.
  - intros a' c' rq'. rewrite lookup_delete_Some. intros [Hne H]. destruct (mi_flight _ _ I _ _ _ H) as (A & B & C).
    split; [done|]. split; [apply elem_of_app; by left|]. intros c'' st'. rewrite handled_app, elem_of_app.
    intros [H1|H1]; [by apply C in H1|]. apply elem_of_handled in H1 as [rq'' H1].
    apply elem_of_list_singleton in H1. by simplify_eq.
  - intros c' ca' H. rewrite Ecalls in H.
    assert (Hold : m_calls s !! c' = Some ca' -> (c' < m_next s)%nat /\ LSend c' (ca_cur ca') (ca_req ca') ∈ m_log s ++ [LHandle c a rq st] /\
      forall st0, ca_reply ca' = Some st0 -> LHandle c' (ca_cur ca') (ca_req ca') st0 ∈ m_log s ++ [LHandle c a rq st]).
    { intros H1. destruct (mi_calls _ _ I _ _ H1) as (A & B & C). split; [done|]. split; [apply elem_of_app; by left|].
      intros st' Hs'. apply elem_of_app. left. by apply C. }
    destruct (m_calls s !! c) as [ca|] eqn:Ec; [|by apply Hold]. case_decide as Hd; [|by apply Hold].
    apply lookup_insert_Some in H as [[<- <-]|[Hne H]]; [|by apply Hold]. cbn.
    destruct (mi_calls _ _ I _ _ Ec) as (A & B & C). subst a.
    destruct (mi_one _ _ I _ _ _ _ _ Hs B) as [_ Erq].
    split; [done|]. split; [apply elem_of_app; by left|]. intros st' [= <-]. rewrite Erq.
    apply elem_of_app. right. apply elem_of_list_here.
  - intros c' a' rq' H. apply elem_of_app in H as [H|H]; [by apply (mi_sent _ _ I) in H|].
    by apply elem_of_list_singleton in H.
  - intros c1 a1 rq1 c2 rq2 H1 H2. apply elem_of_app in H1 as [H1|H1], H2 as [H2|H2].
    + by eapply (mi_one _ _ I).
    + by apply elem_of_list_singleton in H2.
    + by apply elem_of_list_singleton in H1.
    + by apply elem_of_list_singleton in H1.
  - intros c1 a1 rq1 a2 rq2 H1 H2. apply elem_of_app in H1 as [H1|H1], H2 as [H2|H2].
    + by eapply (mi_req _ _ I).
    + by apply elem_of_list_singleton in H2.
    + by apply elem_of_list_singleton in H1.
    + by apply elem_of_list_singleton in H1.
  - intros c'. rewrite handled_app, fmap_app, handled_one. apply NoDup_app. split; [apply (mi_nodup _ _ I)|]. split.
    + intros x Hx Hx'. cbn in Hx'. case_decide; [|by apply elem_of_nil in Hx']. cbn in Hx'.
      apply elem_of_list_singleton in Hx'. subst x c'. apply elem_of_list_fmap in Hx as [[a' st'] [E Hx]]. cbn in E. subst a'.
      by apply Hnh in Hx.
    + cbn. case_decide; cbn; [apply NoDup_singleton|constructor].
  - intros c' a' rq' st' H. apply elem_of_app in H as [H|H].
    + destruct (mi_hs _ _ I _ _ _ _ H). split; [apply elem_of_app; by left|done].
    + apply elem_of_list_singleton in H. simplify_eq. split; [apply elem_of_app; by left|done].
  - intros c'. rewrite sent_app, ?sent_handle, ?sent_return, app_nil_r. etrans; [apply (mi_bound _ _ I)|]. pose proof (failures_len c' es e). lia.
  - intros pre post c' rq' r st' H. apply snoc_split in H as [(_ & _ & H)|(post' & -> & H)]; [done|].
    destruct (mi_ret _ _ I _ _ _ _ _ _ H) as (A & B & C). split; [by apply Hcalls|]. split; [done|].
    destruct (transient st'); [|done]. destruct C. split; [done|]. by apply failures_mono.
Qed.

Lemma minv_step es s e s' : minv es s -> m_step s e = Some s' -> minv (es ++ [e]) s'.
Proof.
  intros I. destruct e as [rq retry|a|a|c|c st|tbl o|ts]; cbn [m_step].
  - intros [= <-]. apply minv_send; [done|]. by left.
  - destruct (m_flight s !! a) as [[c rq]|] eqn:Hf; [|done].
    destruct (handle (m_tables s) rq) as [[st ts]|] eqn:Hh; [|done]. intros [= <-].
    eapply minv_handle; [done..|by eapply handle_status|done].
  - destruct (m_flight s !! a) as [x|] eqn:Hf; [|done]. intros [= <-]. apply minv_weaken; [done|].
    intros a' y. rewrite lookup_delete_Some. by intros [].
  - destruct (m_calls s !! c) as [ca|] eqn:Hc; [|done]. destruct (ca_reply ca) as [st|] eqn:Hr; [|done]. intros [= <-].
    destruct (mi_calls _ _ I _ _ Hc) as (A & B & C). specialize (C _ Hr).
    destruct (mi_hs _ _ I _ _ _ _ C) as [_ Hst]. unfold stub_returns. rewrite Hst, andb_false_r.
    apply minv_return; [done|done|]. by rewrite Hst.
  - destruct (m_calls s !! c) as [ca|] eqn:Hc; [|done]. destruct (transient st) eqn:Hst; [|done]. intros [= <-].
    assert (Hf : failures c (es ++ [MFail c st]) = failures c es ++ [st]).
    { rewrite failures_app. unfold failures at 2. cbn. by rewrite decide_True. }
    unfold stub_returns. rewrite Hst, andb_true_r. destruct (mi_calls _ _ I _ _ Hc) as (A & B & C).
    destruct (ca_retry ca) eqn:Hr.
    + apply minv_send; [done|]. right. destruct st; try done; [right|left]; (split; [done|]; split; [eauto|]; split; [eauto|done]).
    + rewrite <- Hr. apply minv_return; [done|done|]. rewrite Hst, Hf. split; [done|]. by destruct (failures c es).
  - destruct (m_tables s !! tbl) as [t|]; [|done]. destruct (step t o) as [[r t']|]; [|done]. intros [= <-].
    by apply minv_weaken.
  - intros [= <-]. by apply minv_weaken.
Qed.

Lemma minv_run ts es : forall s, m_run (m_init ts) es = Some s -> minv es s.
Proof.
  induction es as [|e es IH] using rev_ind; intros s H.
  - injection H as <-. apply minv_init.
  - apply m_run_snoc in H as (s1 & H1 & H2). eapply minv_step; [by apply IH|done].
Qed.

(** ** Theorems *)

(** A call that retries returns only what the server answered, after the server
    has handled its request, and never one of the two statuses it retries on.  A
    call without the loop may also return one of those, after a failure. *)
Theorem C81_at_least_once ts es s pre c rq retry st post : m_run (m_init ts) es = Some s ->
  m_log s = pre ++ LReturn c rq retry st :: post ->
  if transient st then retry = false /\ failures c es <> []
  else exists a, LHandle c a rq st ∈ pre.
Proof. intros H E. by destruct (mi_ret _ _ (minv_run _ _ _ H) _ _ _ _ _ _ E) as (_ & _ & ?). Qed.

(** Every entry [LHandle] of the log is one application of the request to the
    tables of the server, at one moment of the run. *)
Theorem C81_applied ts es s c a rq st : m_run (m_init ts) es = Some s -> LHandle c a rq st ∈ m_log s ->
  exists es1 es2 s1 s2, es = es1 ++ MHandle a :: es2 /\ m_run (m_init ts) es1 = Some s1 /\
    m_step s1 (MHandle a) = Some s2 /\ m_log s2 = m_log s1 ++ [LHandle c a rq st] /\
    LSend c a rq ∈ m_log s1 /\ served rq (m_tables s1) st (m_tables s2).
Proof.
  revert s. induction es as [|e es IH] using rev_ind; intros s H Hin.
  - injection H as <-. by apply elem_of_nil in Hin.
  - apply m_run_snoc in H as (s1 & H1 & H2).
    match goal with |- ?G => assert (Hold : LHandle c a rq st ∈ m_log s1 -> G) end.
    { intros Hold. destruct (IH _ H1 Hold) as (es1 & es2 & s2 & s3 & -> & Hrest). exists es1, (es2 ++ [e]), s2, s3.
      split; [by rewrite <- app_assoc|done]. }
    pose proof (minv_run _ _ _ H1) as I.
    assert (Hadd : forall x, m_log s = m_log s1 ++ [x] -> LHandle c a rq st ∈ m_log s1 \/ x = LHandle c a rq st).
    { intros x E. rewrite E, elem_of_app, elem_of_list_singleton in Hin. destruct Hin; [by left|by right]. }
    destruct e as [rq0 retry|a0|a0|c0|c0 st0|tbl o|ts0]; pose proof H2 as H2'; cbn [m_step] in H2'.
    + injection H2' as <-. specialize (Hadd _ eq_refl). destruct Hadd; [by apply Hold|done].
    + destruct (m_flight s1 !! a0) as [[c1 rq1]|] eqn:Hf; [|done].
      destruct (handle (m_tables s1) rq1) as [[st1 ts1]|] eqn:Hh; [|done]. injection H2' as <-.
      specialize (Hadd _ eq_refl). destruct Hadd as [Hadd|Hadd]; [by apply Hold|]. injection Hadd as -> -> -> ->.
      exists es, [], s1. eexists. split; [done|]. split; [done|]. split; [exact H2|]. split; [done|].
      split; [by apply (mi_flight _ _ I) in Hf as (_ & ? & _)|]. cbn. by apply handle_served.
    + destruct (m_flight s1 !! a0); [|done]. injection H2' as <-. by apply Hold.
    + destruct (m_calls s1 !! c0) as [ca|]; [|done]. destruct (ca_reply ca); [|done]. injection H2' as <-.
      unfold stub_returns in Hadd. destruct (_ && _); (destruct (Hadd _ eq_refl); [by apply Hold|done]).
    + destruct (m_calls s1 !! c0) as [ca|]; [|done]. destruct (transient st0) eqn:?; [|done]. injection H2' as <-.
      unfold stub_returns in Hadd. destruct (_ && _); (destruct (Hadd _ eq_refl); [by apply Hold|done]).
    + destruct (m_tables s1 !! tbl) as [t|]; [|done]. destruct (step t o) as [[r t']|]; [|done].
      injection H2' as <-. by apply Hold.
    + injection H2' as <-. by apply Hold.
Qed.

(** An attempt is handled at most once, so a call is applied at most once more
    than it failed. *)
Theorem C81_at_most ts es s c : m_run (m_init ts) es = Some s ->
  NoDup (handled c (m_log s)).*1 /\ (length (handled c (m_log s)) <= S (length (failures c es)))%nat.
Proof.
  intros H. pose proof (minv_run _ _ _ H) as I. split; [apply (mi_nodup _ _ I)|].
  etrans; [|apply (mi_bound _ _ I)]. rewrite <- (fmap_length fst). apply submseteq_length, NoDup_submseteq; [apply (mi_nodup _ _ I)|].
  intros a Ha. apply elem_of_list_fmap in Ha as [[a' st] [-> Ha]]. apply elem_of_handled in Ha as [rq Ha].
  apply elem_of_sent. exists rq. by apply (mi_hs _ _ I) in Ha as [? _].
Qed.

(** Missing from the full statement: calls that failed on the way.  They can be
    applied more than once, and after they returned ([C81_overwritten_refuted],
    [C81_stale_refuted]). *)
Theorem C81_once_partial ts es s pre c rq retry st post : m_run (m_init ts) es = Some s ->
  failures c es = [] -> m_log s = pre ++ LReturn c rq retry st :: post ->
  exists a, handled c pre = [(a, st)] /\ handled c post = [].
Proof.
  intros H Hf E. pose proof (C81_at_least_once _ _ _ _ _ _ _ _ _ H E) as HL.
  destruct (transient st); [by destruct HL|]. destruct HL as [a Ha].
  destruct (C81_at_most _ _ _ c H) as [_ Hlen]. rewrite Hf, E, handled_app, app_length in Hlen.
  change (LReturn c rq retry st :: post) with ([LReturn c rq retry st] ++ post) in Hlen.
  rewrite handled_app, handled_return in Hlen. cbn [length app] in Hlen.
  assert (Hin : (a, st) ∈ handled c pre) by (apply elem_of_handled; eauto).
  exists a. destruct (handled c pre) as [|x [|y l]]; cbn in Hlen; [by apply elem_of_nil in Hin| |lia].
  apply elem_of_list_singleton in Hin as ->. split; [done|]. destruct (handled c post); [done|cbn in Hlen; lia].
Qed.

(** A call that retries can always still come to an end: if the server is up and
    its next request is handled, it returns the server's answer. *)
Theorem C81_can_return s c ca st ts : m_calls s !! c = Some ca -> ca_retry ca = true ->
  handle (m_tables s) (ca_req ca) = Some (st, ts) ->
  exists s', m_run s [MFail c Unavailable; MHandle (m_next s); MReply c] = Some s' /\
    m_tables s' = ts /\ m_calls s' = delete c (m_calls s) /\
    exists l, m_log s' = m_log s ++ l ++ [LReturn c (ca_req ca) true st].
Proof.
  intros Hc Hr Hh.
  assert (E1 : m_step s (MFail c Unavailable) = Some (send s c (ca_req ca) true)).
  { cbn [m_step]. rewrite Hc. cbn [transient]. unfold stub_returns. by rewrite Hr. }
  cbn [m_run]. rewrite E1. unfold send. cbn [m_step m_flight m_tables m_calls m_next m_log].
  rewrite lookup_insert, Hh, lookup_insert. cbn [ca_cur ca_req ca_retry]. rewrite decide_True by done.
  cbn [m_flight m_tables m_calls m_next m_log]. rewrite lookup_insert. cbn [ca_reply]. eexists. split; [done|].
  unfold stub_returns. cbn [ca_retry ca_req]. rewrite (handle_status _ _ _ _ Hh). cbn [andb m_tables m_calls m_log].
  split; [done|]. split; [by rewrite insert_insert, delete_insert_delete|]. eexists [_; _]. by rewrite <- !app_assoc.
Qed.

(** ** What repeating does to a table *)

Lemma mutated_twice us ks m : mutated us ks (mutated us ks m) = mutated us ks m.
Proof.
  apply map_eq. intros k. unfold mutated. rewrite !map_lookup_imap. destruct (m !! k) as [it|]; [|done]. cbn.
  destruct (decide (k ∈ ks)) eqn:Hd; [done|]. cbn. rewrite ?Hd. by destruct (last_prio k us).
Qed.

Lemma reached_snoc c os rs t o r t' : reached c os rs t -> op_ok c o -> step t o = Some (r, t') ->
  reached c (os ++ [o]) (rs ++ [r]) t'.
Proof.
  intros [Hc Ho Hr] Hok E. constructor; [done|apply Forall_app; split; [done|by constructor]|].
  revert Hr. generalize (new_table c). intros t0. revert t0 rs. clear Ho Hc Hok.
  induction os as [|o0 os IH]; intros t0 rs Hr; cbn in *.
  - injection Hr as <- <-. by rewrite E.
  - destruct (step t0 o0) as [[r0 t1]|]; [|done]. destruct (run t1 os) as [[rs1 t2]|] eqn:E1; [|done].
    injection Hr as <- <-. by rewrite (IH _ _ E1).
Qed.

(** A request that is applied several times in a row has the effect it has when
    applied once. *)
Theorem C81_repeat c os rs t us ks n : reached c os rs t -> Forall (fun u => prio_ok c u.2) us ->
  exists t', run t (replicate (S n) (OMutate us ks)) = Some (replicate (S n) (RStatus Ok), t') /\
    t_data t' = mutated us ks (t_data t) /\
    i_inserts (info t') = i_inserts (info t) /\ i_samples (info t') = i_samples (info t) /\
    i_unique (info t') = i_unique (info t).
Proof.
  intros H Hu. revert os rs t H. induction n as [|n IH]; intros os rs t H;
    destruct (C21_mutate _ _ _ _ us ks H Hu) as (t1 & E & D & A1 & A2 & A3).
  - exists t1. cbn [replicate run]. rewrite E. done.
  - destruct (IH _ _ t1 (reached_snoc _ _ _ _ (OMutate us ks) _ _ H Hu E)) as (t2 & E2 & D2 & B1 & B2 & B3).
    exists t2. change (replicate (S (S n)) (OMutate us ks)) with (OMutate us ks :: replicate (S n) (OMutate us ks)).
    cbn [run]. rewrite E, E2. rewrite D2, D, mutated_twice. split; [done|]. split; [done|]. lia.
Qed.

(** Only calls with this one request reach the server. *)
Definition only (rq : mreq) (e : mev) : Prop :=
  match e with MCall rq' _ => rq' = rq | MOther _ _ | MRestart _ => False | _ => True end.

(** However often calls fail and are repeated: as long as nothing else is done to
    the table, it holds what one application leaves, from the first time a
    request is handled, and every call that comes back without a failure
    reports success. *)
Theorem C81_alone c os rs t rq ts es s : reached c os rs t -> Forall (fun u => prio_ok c u.2) (rq_updates rq) ->
  ts !! rq_table rq = Some t -> Forall (only rq) es -> m_run (m_init ts) es = Some s ->
  exists t', m_tables s = <[rq_table rq := t']> ts /\
    ((forall c a rq' st, LHandle c a rq' st ∉ m_log s) /\ t' = t \/
     (exists c a, LHandle c a rq Ok ∈ m_log s) /\
       t_data t' = mutated (rq_updates rq) (rq_deletes rq) (t_data t)) /\
    (forall c a rq' st, LHandle c a rq' st ∈ m_log s -> rq' = rq /\ st = Ok).
Proof.
  intros H Hu Ht Ho Hr.
  cut ((forall a c rq', m_flight s !! a = Some (c, rq') -> rq' = rq) /\
       (forall c ca, m_calls s !! c = Some ca -> ca_req ca = rq) /\
       exists os' rs' t', reached c os' rs' t' /\ m_tables s = <[rq_table rq := t']> ts /\
    ((forall c a rq' st, LHandle c a rq' st ∉ m_log s) /\ t' = t \/
     (exists c a, LHandle c a rq Ok ∈ m_log s) /\
       t_data t' = mutated (rq_updates rq) (rq_deletes rq) (t_data t)) /\
    (forall c a rq' st, LHandle c a rq' st ∈ m_log s -> rq' = rq /\ st = Ok)).
  { intros (_ & _ & os' & rs' & t' & _ & ?). eauto. }
  revert s Hr. induction es as [|e es IH] using rev_ind; intros s Hr.
  { injection Hr as <-. cbn. split; [done|]. split; [done|]. exists os, rs, t. split; [done|].
    split; [by rewrite insert_id|]. split; [left; split; [|done]|]; intros *; [apply not_elem_of_nil|by rewrite elem_of_nil]. }
  apply m_run_snoc in Hr as (s1 & Hr1 & Hr2). apply Forall_app in Ho as [Ho He].
  apply Forall_inv in He.
  destruct (IH Ho _ Hr1) as (If & Ic & os' & rs' & t' & Hre & Htab & Hd & Hl). clear IH.
  assert (Hsend : forall c rq' retry, rq' = rq -> s = send s1 c rq' retry ->
      (forall a c rq', m_flight s !! a = Some (c, rq') -> rq' = rq) /\
      (forall c ca, m_calls s !! c = Some ca -> ca_req ca = rq) /\
      m_tables s = m_tables s1 /\ forall c a rq' st, LHandle c a rq' st ∈ m_log s <-> LHandle c a rq' st ∈ m_log s1).
  { intros c0 rq' retry -> ->. cbn. split.
    { intros a c1 rq'. rewrite lookup_insert_Some. intros [[_ [= _ <-]]|[_ ?]]; [done|by eapply If]. }
    split.
    { intros c1 ca. rewrite lookup_insert_Some. intros [[_ <-]|[_ ?]]; [done|by eapply Ic]. }
    split; [done|]. intros *. rewrite elem_of_app, elem_of_list_singleton. split; [|by left]. by intros [?|?]. }
  assert (Hsame : (forall a c rq', m_flight s !! a = Some (c, rq') -> rq' = rq) /\
      (forall c ca, m_calls s !! c = Some ca -> ca_req ca = rq) /\
      m_tables s = m_tables s1 /\ (forall c a rq' st, LHandle c a rq' st ∈ m_log s <-> LHandle c a rq' st ∈ m_log s1) ->
      (forall a c rq', m_flight s !! a = Some (c, rq') -> rq' = rq) /\
       (forall c ca, m_calls s !! c = Some ca -> ca_req ca = rq) /\
       exists os' rs' t', reached c os' rs' t' /\ m_tables s = <[rq_table rq := t']> ts /\
    ((forall c a rq' st, LHandle c a rq' st ∉ m_log s) /\ t' = t \/
     (exists c a, LHandle c a rq Ok ∈ m_log s) /\
       t_data t' = mutated (rq_updates rq) (rq_deletes rq) (t_data t)) /\
    (forall c a rq' st, LHandle c a rq' st ∈ m_log s -> rq' = rq /\ st = Ok)).
  { intros (A & B & C & D). split; [done|]. split; [done|]. exists os', rs', t'. split; [done|]. split; [congruence|].
    split.
    - destruct Hd as [[Hd ->]|[(c1 & a1 & Hd) Hd']]; [left|right].
      + split; [|done]. intros *. rewrite D. apply Hd.
      + split; [|done]. exists c1, a1. by apply D.
    - intros * Hin. apply D in Hin. by eapply Hl. }
  assert (Hret : forall c0 ca st, m_calls s1 !! c0 = Some ca -> s = stub_returns s1 c0 ca st ->
      (forall a c rq', m_flight s !! a = Some (c, rq') -> rq' = rq) /\
      (forall c ca, m_calls s !! c = Some ca -> ca_req ca = rq) /\
      m_tables s = m_tables s1 /\ forall c a rq' st, LHandle c a rq' st ∈ m_log s <-> LHandle c a rq' st ∈ m_log s1).
  { intros c0 ca st Hc Es. unfold stub_returns in Es. destruct (_ && _).
    - eapply Hsend; [|exact Es]. by eapply Ic.
    - subst s. cbn. split; [done|]. split.
      { intros c1 ca1. rewrite lookup_delete_Some. intros [_ ?]. by eapply Ic. }
      split; [done|]. intros *. rewrite elem_of_app, elem_of_list_singleton. split; [|by left]. by intros [?|?]. }
  destruct e as [rq0 retry|a0|a0|c0|c0 st0|tbl o|ts0]; cbn [m_step only] in Hr2, He; try done.
  - injection Hr2 as Hr2. apply Hsame. by eapply Hsend.
  - destruct (m_flight s1 !! a0) as [[c1 rq1]|] eqn:Hf; [|done]. apply If in Hf as Hf'. subst rq1.
    unfold handle in Hr2. rewrite Htab, lookup_insert in Hr2.
    destruct (C21_mutate _ _ _ _ (rq_updates rq) (rq_deletes rq) Hre Hu) as (t2 & E & D & _). rewrite E in Hr2.
    injection Hr2 as <-. cbn. split.
    { intros a c2 rq'. rewrite lookup_delete_Some. intros [_ ?]. by eapply If. }
    split.
    { intros c2 ca2. destruct (m_calls s1 !! c1) as [ca1|] eqn:Ec; [|apply Ic]. case_decide; [|apply Ic].
      rewrite lookup_insert_Some. intros [[_ <-]|[_ ?]]; [|by eapply Ic]. cbn. by eapply Ic. }
    exists (os' ++ [OMutate (rq_updates rq) (rq_deletes rq)]), (rs' ++ [RStatus Ok]), t2.
    split; [by eapply reached_snoc|]. split; [by rewrite insert_insert|]. split.
    + right. split; [exists c1, a0; apply elem_of_app; right; apply elem_of_list_here|].
      rewrite D. destruct Hd as [[_ ->]|[_ ->]]; [done|by rewrite mutated_twice].
    + intros * Hin. apply elem_of_app in Hin as [Hin|Hin]; [by eapply Hl|].
      apply elem_of_list_singleton in Hin. by simplify_eq.
  - destruct (m_flight s1 !! a0); [|done]. injection Hr2 as <-. apply Hsame. cbn. split; [|done].
    intros a c2 rq'. rewrite lookup_delete_Some. intros [_ ?]. by eapply If.
  - destruct (m_calls s1 !! c0) as [ca|] eqn:Hc; [|done]. destruct (ca_reply ca) as [st|]; [|done]. injection Hr2 as Hr2.
    apply Hsame. by eapply Hret.
  - destruct (m_calls s1 !! c0) as [ca|] eqn:Hc; [|done]. destruct (transient st0); [|done]. injection Hr2 as Hr2.
    apply Hsame. by eapply Hret.
Qed.

(** The op refuses anything but two tensors of the same shape with one dimension;
    otherwise key i gets priority i. *)
Theorem C81_request tbl ks ps keys prios : product ks = Z.of_nat (length keys) -> product ps = Z.of_nat (length prios) ->
  match op_request tbl ks ps keys prios with
  | None => length ks <> 1%nat \/ ks <> ps
  | Some rq => length ks = 1%nat /\ ks = ps /\ rq_table rq = tbl /\ rq_deletes rq = [] /\
      length (rq_updates rq) = length keys /\
      forall i k, keys !! i = Some k -> exists p, prios !! i = Some p /\ rq_updates rq !! i = Some (k, p)
  end.
Proof.
  intros Hk Hp. unfold op_request. case_decide as H1; [|by left]. case_decide as H2; [|by right].
  assert (Hl : length keys = length prios) by (subst ps; lia).
  cbn. split; [done|]. split; [done|]. split; [done|]. split; [done|]. split; [rewrite zip_with_length; lia|].
  intros i k Hi. destruct (prios !! i) as [p|] eqn:Ep.
  - exists p. split; [done|]. apply lookup_zip_with_Some. eauto.
  - apply lookup_lt_Some in Hi. apply lookup_ge_None in Ep. lia.
Qed.

End WithFP.

(** ** Witnesses and examples *)

Local Existing Instance fp_exact.
Local Existing Instance fp_exact_laws.
Local Existing Instance fp_exact_exact.

Definition m_script (ts : gmap Z table) (es : list mev) : mst := default (m_init ts) (m_run (m_init ts) es).
Lemma m_script_ok ts es : (if m_run (m_init ts) es then true else false) = true ->
  m_run (m_init ts) es = Some (m_script ts es).
Proof. unfold m_script. by destruct (m_run _ es). Qed.
Definition prio_of (s : mst) (tbl k : Z) : option dbl :=
  match m_tables s !! tbl with Some t => it_prio <$> t_data t !! k | None => None end.
Definition returns (l : list mlog) : list (nat * status) :=
  omap (fun x => match x with LReturn c _ _ st => Some (c, st) | _ => None end) l.

(** A server with the table of PropTable.v, which holds items 2 and 4. *)
Definition ex_tables : gmap Z table := {[ 7 := ex_res.2 ]}.
Definition set (k : Z) (p : Q) : mreq := mkMreq 7 [(k, Fin p)] [].

(** The answer is lost and another client updates the same item before the
    request is sent again.  That update, already confirmed, is undone; and the
    call was applied twice. *)
Definition ex_lost : list mev :=
  [MCall (set 2 50) true; MHandle 0; MFail 0 Unavailable;
   MCall (set 2 60) true; MHandle 2; MReply 2;
   MHandle 1; MReply 0].
Theorem C81_overwritten_refuted :
  let s := m_script ex_tables ex_lost in
  m_run (m_init ex_tables) ex_lost = Some s /\
  returns (m_log s) = [(2%nat, Ok); (0%nat, Ok)] /\
  handled 0 (m_log s) = [(0%nat, Ok); (1%nat, Ok)] /\
  prio_of (m_script ex_tables (take 2 ex_lost)) 7 2 = Some (Fin 50) /\
  prio_of (m_script ex_tables (take 6 ex_lost)) 7 2 = Some (Fin 60) /\ prio_of s 7 2 = Some (Fin 50).
Proof.
  cbv zeta. split; [apply m_script_ok; vm_compute; reflexivity|]. split; [vm_compute; reflexivity|]. split; [vm_compute; reflexivity|]. split; [vm_compute; reflexivity|]. split; vm_compute; reflexivity. Qed.

(** One client, one call after the other: the first attempt of a call that has
    long returned is handled late and takes the priority back. *)
Definition ex_late : list mev :=
  [MCall (set 2 50) true; MFail 0 Unavailable; MHandle 1; MReply 0;
   MCall (set 2 60) true; MHandle 2; MReply 2;
   MHandle 0].
Theorem C81_stale_refuted :
  let s := m_script ex_tables ex_late in
  m_run (m_init ex_tables) ex_late = Some s /\
  returns (m_log s) = [(0%nat, Ok); (2%nat, Ok)] /\
  prio_of (m_script ex_tables (take 7 ex_late)) 7 2 = Some (Fin 60) /\ prio_of s 7 2 = Some (Fin 50).
Proof.
  cbv zeta. split; [apply m_script_ok; vm_compute; reflexivity|]. split; [vm_compute; reflexivity|]. split; vm_compute; reflexivity. Qed.

(** Client::MutatePriorities itself does not retry: the caller learns
    Unavailable although the update was made. *)
Definition ex_plain : list mev := [MCall (set 2 50) false; MHandle 0; MFail 0 Unavailable].
Theorem C81_unknown_refuted :
  let s := m_script ex_tables ex_plain in
  m_run (m_init ex_tables) ex_plain = Some s /\
  returns (m_log s) = [(0%nat, Unavailable)] /\ prio_of s 7 2 = Some (Fin 50).
Proof.
  cbv zeta. split; [apply m_script_ok; vm_compute; reflexivity|]. split; vm_compute; reflexivity. Qed.

(** A call that fails three times before, while and after its request is
    handled; and one for a table that does not exist. *)
Definition ex_retry : list mev :=
  [MCall (set 4 50) true; MDrop 0; MFail 0 Unavailable; MHandle 1; MFail 0 DeadlineExceeded;
   MFail 0 Unavailable; MHandle 3; MReply 0; MHandle 2].
Example C81_retry_example :
  let s := m_script ex_tables ex_retry in
  m_run (m_init ex_tables) ex_retry = Some s /\ Forall (only (set 4 50)) ex_retry /\
  Forall (fun u => prio_ok ex_cfg u.2) (rq_updates (set 4 50)) /\ ex_tables !! 7 = Some ex_res.2 /\
  returns (m_log s) = [(0%nat, Ok)] /\
  handled 0 (m_log s) = [(1%nat, Ok); (3%nat, Ok); (2%nat, Ok)] /\ length (failures 0 ex_retry) = 3%nat /\
  prio_of s 7 4 = Some (Fin 50).
Proof.
  cbv zeta. split; [apply m_script_ok; vm_compute; reflexivity|]. split; [by repeat constructor|]. split; [by repeat constructor|]. split; [done|].
  split; [vm_compute; reflexivity|]. split; [vm_compute; reflexivity|]. split; vm_compute; reflexivity.
Qed.

Example C81_once_example :
  let es := [MCall (set 2 50) true; MCall (mkMreq 8 [] [2]) false; MCall (mkMreq 7 [(2, Fin 60)] [4]) false;
             MFail 1 Unavailable; MHandle 2; MHandle 0; MReply 0; MHandle 1; MReply 2] in
  let s := m_script ex_tables es in
  m_run (m_init ex_tables) es = Some s /\ failures 0 es = [] /\ failures 2 es = [] /\
  returns (m_log s) = [(1%nat, Unavailable); (0%nat, Ok); (2%nat, Ok)] /\
  handled 1 (m_log s) = [(1%nat, NotFound)] /\
  prio_of s 7 2 = Some (Fin 50) /\ prio_of s 7 4 = None.
Proof.
  cbv zeta. split; [apply m_script_ok; vm_compute; reflexivity|]. split; [done|]. split; [done|]. split; [vm_compute; reflexivity|]. split; [vm_compute; reflexivity|].
  split; vm_compute; reflexivity.
Qed.

Example C81_request_example :
  op_request 7 [2] [2] [2; 4] [Fin 1; Fin 3] = Some (mkMreq 7 [(2, Fin 1); (4, Fin 3)] []) /\
  op_request 7 [2] [1] [2; 4] [Fin 1] = None /\ op_request 7 [1; 2] [1; 2] [2; 4] [Fin 1; Fin 3] = None /\
  product [1; 2] = 2.
Proof. done. Qed.

Print Assumptions C81_at_least_once.
Print Assumptions C81_applied.
Print Assumptions C81_at_most.
Print Assumptions C81_once_partial.
Print Assumptions C81_can_return.
Print Assumptions C81_repeat.
Print Assumptions C81_alone.
Print Assumptions C81_request.
Print Assumptions C81_overwritten_refuted.
Print Assumptions C81_stale_refuted.
Print Assumptions C81_unknown_refuted.
