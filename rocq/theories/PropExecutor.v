(** C53: the task executor. *)
From Verif Require Import Base Executor.

(** ** Specification *)

(** Tasks that were accepted, and tasks whose callback was started, in order. *)
Definition accepted (es : list xev) : list Z := omap (fun e => match e with XAccept t => Some t | _ => None end) es.
Definition started (es : list xev) : list Z := omap (fun e => match e with XStart t => Some t | _ => None end) es.
Definition is_thread (a : xact) : Prop := match a with XSchedule _ => False | _ => True end.
Global Instance is_thread_dec a : Decision (is_thread a).
Proof. destruct a; cbn; apply _. Defined.

(** ** Invariants *)

Record xinv (es : list xev) (s : exec) : Prop := {
  xi_tasks : accepted es = started es ++ u_buf (x_queue s);
  xi_closed : u_closed (x_queue s) = true <-> u_last (x_queue s) = true /\ u_buf (x_queue s) = [];
  xi_last : u_last (x_queue s) = true <-> x_close s <> CIdle;
  xi_join : x_close s = CJoin \/ x_close s = CDone -> u_closed (x_queue s) = true;
  xi_start : XCloseStart ∈ es <-> x_close s <> CIdle;
  xi_end : XCloseEnd ∈ es <-> x_close s = CDone;
  xi_exit : WExit ∈ x_workers s -> u_closed (x_queue s) = true }.

Lemma inv_new n : xinv [] (ex_new n).
Proof.
  split; cbn; try done.
  - split; [done|by intros [? _]].
  - by intros [?|?].
  - split; [intros H%elem_of_nil|]; done.
  - split; [intros H%elem_of_nil|]; done.
  - induction n; cbn; [intros H%elem_of_nil; done|]. by intros [?|?]%elem_of_cons; [|auto].
Qed.

Lemma uq_pop_cases {A} (q : uqueue A) r q' : uq_pop q = Some (r, q') -> (u_closed q = true <-> u_last q = true /\ u_buf q = []) ->
  u_last q' = u_last q /\ (u_closed q' = true <-> u_last q' = true /\ u_buf q' = []) /\
  match r with
  | Some t => u_buf q = t :: u_buf q' /\ u_closed q = false
  | None => q' = q /\ u_closed q = true /\ u_buf q = []
  end.
Proof.
  unfold uq_pop. destruct q as [[|x l] [] la]; cbn; intros H Hc; try done; injection H as <- <-; cbn.
  - done.
  - by destruct (proj1 Hc eq_refl) as [_ ?].
  - split; [done|]. split; [|done]. destruct l; [tauto|]. split; [done|by intros [_ ?]].
Qed.

Lemma elem_of_snoc {A} (l : list A) x y : x ∈ l ++ [y] <-> x ∈ l \/ x = y.
Proof. rewrite elem_of_app, elem_of_list_singleton. done. Qed.
Lemma accepted_snoc es e : accepted (es ++ [e]) = accepted es ++ accepted [e].
Proof. apply omap_app. Qed.
Lemma started_snoc es e : started (es ++ [e]) = started es ++ started [e].
Proof. apply omap_app. Qed.

Lemma elem_insert {A} (l : list A) i x y : x ∈ <[i := y]> l -> x = y \/ x ∈ l.
Proof.
  intros [j H]%elem_of_list_lookup. destruct (decide (i = j)) as [<-|Hn].
  - apply list_lookup_insert_Some in H as [(_ & -> & _)|(? & _)]; [by left|done].
  - rewrite list_lookup_insert_ne in H by done. right. by eapply elem_of_list_lookup_2.
Qed.

Ltac xmem := rewrite ?elem_of_snoc; split; [intros [Hm|Hm]; [|discriminate Hm]|intros Hm; left]; tauto.

Lemma inv_step es s a e s' : xinv es s -> ex_step s a = Some (e, s') -> xinv (es ++ [e]) s'.
Proof.
  intros [I1 I2 I3 I4 I5 I6 I7] H. destruct s as [q ws c]. cbn [x_queue x_workers x_close] in *.
  destruct a as [t|i|]; cbn [ex_step x_queue x_workers x_close] in H.
  - unfold uq_push in H. destruct (u_closed q || u_last q) eqn:E; injection H as <- <-; split; cbn [x_queue x_workers x_close u_buf u_closed u_last]; try assumption; try xmem.
    + rewrite accepted_snoc, started_snoc, I1. cbn. by rewrite !app_nil_r.
    + rewrite accepted_snoc, started_snoc, I1. cbn. by rewrite app_nil_r, app_assoc.
    + apply orb_false_iff in E as [E1 E2]. rewrite E1, E2. split; [done|by intros [? _]].
  - destruct (ws !! i) as [[|t|]|] eqn:Ei; try done.
    + destruct (uq_pop q) as [[r q']|] eqn:Eq; [|done]. cbn in H. injection H as <- <-.
      destruct (uq_pop_cases _ _ _ Eq I2) as (P1 & P2 & P3). rewrite P1 in P2.
      destruct r as [t|]; [destruct P3 as (Eb & Ec)|destruct P3 as (-> & Ec & Eb)];
        split; cbn [x_queue x_workers x_close]; rewrite ?P1; try assumption; try xmem.
      * rewrite accepted_snoc, started_snoc, I1, Eb. cbn. by rewrite app_nil_r, <- app_assoc.
      * intros Hj. specialize (I4 Hj). congruence.
      * intros [?|Hx]%elem_insert; [done|]. specialize (I7 Hx). congruence.
      * rewrite accepted_snoc, started_snoc, I1. cbn. by rewrite !app_nil_r.
      * done.
    + injection H as <- <-. split; cbn [x_queue x_workers x_close]; try assumption; try xmem.
      * rewrite accepted_snoc, started_snoc, I1. cbn. by rewrite !app_nil_r.
      * intros [?|Hx]%elem_insert; [done|auto].
  - destruct c as [| |t| |].
    + injection H as <- <-. split; cbn [x_queue x_workers x_close].
      * rewrite accepted_snoc, started_snoc, I1. cbn. by rewrite !app_nil_r.
      * cbn. destruct (u_buf q) as [|x l]; [done|]. split; [|by intros [_ ?]]. intros Hc. by destruct (proj1 I2 Hc).
      * done.
      * by intros [?|?].
      * rewrite elem_of_snoc. split; [done|]. by right.
      * rewrite elem_of_snoc. split; [|done]. intros [Hm|?]; [|done]. by apply I6 in Hm.
      * intros Hx. specialize (I7 Hx). cbn. by destruct (u_buf q).
    + destruct (uq_pop q) as [[r q']|] eqn:Eq; [|done]. cbn in H. injection H as <- <-.
      destruct (uq_pop_cases _ _ _ Eq I2) as (P1 & P2 & P3). rewrite P1 in P2.
      assert (S1 : forall c', c' <> CIdle -> c' <> CDone -> forall e, e <> XCloseStart -> e <> XCloseEnd ->
        (XCloseStart ∈ es ++ [e] <-> c' <> CIdle) /\ (XCloseEnd ∈ es ++ [e] <-> c' = CDone)).
      { intros c' N1 N2 e0 N3 N4. rewrite !elem_of_snoc. split; [split; [done|]; intros _; left; by apply I5|].
        split; [|done]. intros [Hm|Hm]; [by apply I6 in Hm|congruence]. }
      destruct r as [t|]; [destruct P3 as (Eb & Ec)|destruct P3 as (-> & Ec & Eb)];
        split; cbn [x_queue x_workers x_close]; rewrite ?P1; try assumption; try (by apply S1).
      * rewrite accepted_snoc, started_snoc, I1, Eb. cbn. by rewrite app_nil_r, <- app_assoc.
      * split; [done|]. intros _. by apply I3.
      * by intros [?|?].
      * intros Hx. specialize (I7 Hx). congruence.
      * rewrite accepted_snoc, started_snoc, I1. cbn. by rewrite !app_nil_r.
      * split; [done|]. intros _. by apply I3.
      * done.
    + injection H as <- <-. split; cbn [x_queue x_workers x_close]; try assumption.
      * rewrite accepted_snoc, started_snoc, I1. cbn. by rewrite !app_nil_r.
      * split; [done|]. intros _. by apply I3.
      * by intros [?|?].
      * rewrite elem_of_snoc. split; [done|]. intros _. left. by apply I5.
      * rewrite elem_of_snoc. split; [|done]. intros [Hm|?]; [|done]. by apply I6 in Hm.
    + destruct (forallb _ ws) eqn:Ew; [|done]. injection H as <- <-.
      split; cbn [x_queue x_workers x_close]; try assumption.
      * rewrite accepted_snoc, started_snoc, I1. cbn. by rewrite !app_nil_r.
      * split; [done|]. intros _. by apply I3.
      * intros _. apply I4. by left.
      * rewrite elem_of_snoc. split; [done|]. intros _. left. by apply I5.
      * rewrite elem_of_snoc. split; [done|]. by right.
    + done.
Qed.

Lemma inv_run l : forall es s es' s', xinv es s -> ex_run s l = Some (es', s') -> xinv (es ++ es') s'.
Proof.
  induction l as [|a l IH]; intros es s es' s' I H; cbn in H; [injection H as <- <-; by rewrite app_nil_r|].
  destruct (ex_step s a) as [[e s1]|] eqn:E; [|done]. cbn in H. destruct (ex_run s1 l) as [[es1 s2]|] eqn:E1; [|done]. cbn in H. injection H as <- <-.
  replace (es ++ e :: es1) with ((es ++ [e]) ++ es1) by (by rewrite <- app_assoc). apply (IH _ s1); [by apply (inv_step es s a)|done].
Qed.

(** ** C53 *)

(** Callbacks are started in the order in which they were scheduled, each accepted
    task at most once; when Close returns every one has been started. *)
Theorem C53_exactly_once n l es s : ex_run (ex_new n) l = Some (es, s) ->
  exists waiting, accepted es = started es ++ waiting /\ (XCloseEnd ∈ es -> waiting = []).
Proof.
  intros H. pose proof (inv_run _ [] _ _ _ (inv_new n) H) as I. cbn in I. exists (u_buf (x_queue s)). split; [apply I|].
  intros He. apply (xi_closed _ _ I), (xi_join _ _ I). right. by apply (xi_end _ _ I).
Qed.

(** A task is accepted if and only if Close has not started. *)
Theorem C53_accepted n l es s t e s' : ex_run (ex_new n) l = Some (es, s) -> ex_step s (XSchedule t) = Some (e, s') ->
  (e = XAccept t <-> XCloseStart ∉ es) /\ (e = XAccept t \/ e = XRefuse t).
Proof.
  intros H Hs. pose proof (inv_run _ [] _ _ _ (inv_new n) H) as I. cbn in I.
  cbn in Hs. unfold uq_push in Hs. rewrite (xi_start _ _ I).
  assert (El : u_closed (x_queue s) || u_last (x_queue s) = u_last (x_queue s)).
  { destruct (u_closed (x_queue s)) eqn:E; [|done]. apply (xi_closed _ _ I) in E as [-> _]. done. }
  rewrite El in Hs. pose proof (xi_last _ _ I) as L. destruct (u_last (x_queue s)); injection Hs as <- <-.
  - split; [|by right]. split; [done|]. intros Hn. by destruct Hn, L as [L _]; apply L.
  - split; [|by left]. split; [|done]. intros _ Hc. apply L in Hc. done.
Qed.

(** Close returns: after it has started only finitely many steps of the threads
    are possible (whatever is scheduled), and when none is possible it has
    returned, with all threads finished. *)
Definition wwork (w : wstate) : nat := match w with WPop => 1 | WRun _ => 2 | WExit => 0 end.
Definition work (s : exec) : nat :=
  3 * length (u_buf (x_queue s)) + foldr Nat.add 0%nat (wwork <$> x_workers s) +
  match x_close s with CIdle => 4 | CPop => 2 | CRun _ => 3 | CJoin => 1 | CDone => 0 end.

Lemma sum_insert {A} (f : A -> nat) (ws : list A) i w w' : ws !! i = Some w ->
  (foldr Nat.add 0 (f <$> <[i := w']> ws) + f w = foldr Nat.add 0 (f <$> ws) + f w')%nat.
Proof.
  revert i. induction ws as [|x ws IH]; intros [|i] H; cbn in H; try done.
  - injection H as ->. change (<[0%nat := w']> (w :: ws)) with (w' :: ws). rewrite !fmap_cons. cbn [foldr]. lia.
  - specialize (IH i H). change (<[S i := w']> (x :: ws)) with (x :: <[i := w']> ws). rewrite !fmap_cons. cbn [foldr]. lia.
Qed.

Lemma work_step es s a e s' : xinv es s -> XCloseStart ∈ es -> ex_step s a = Some (e, s') ->
  (work s' + (if decide (is_thread a) then 1 else 0) <= work s)%nat.
Proof.
  intros I Hs H. rewrite (xi_start _ _ I) in Hs. pose proof (proj2 (xi_last _ _ I) Hs) as Hl.
  destruct I as [_ I2 _ _ _ _ _]. destruct s as [q ws c]. cbn [x_queue x_workers x_close] in *. unfold work.
  destruct a as [t|i|]; cbn [ex_step x_queue x_workers x_close] in H; cbn [is_thread].
  - unfold uq_push in H. rewrite Hl, orb_true_r in H. injection H as <- <-. destruct (decide False); [done|]. cbn. lia.
  - destruct (decide True) as [_|]; [|done]. destruct (ws !! i) as [[|t|]|] eqn:Ei; try done.
    + destruct (uq_pop q) as [[r q']|] eqn:Eq; [|done]. cbn in H. injection H as <- <-.
      destruct (uq_pop_cases _ _ _ Eq I2) as (P1 & P2 & P3). cbn [x_queue x_workers x_close].
      pose proof (sum_insert wwork ws i _ (match r with Some t => WRun t | None => WExit end) Ei) as Hw. cbn [wwork] in Hw.
      destruct r as [t|]; cbn [wwork] in Hw; [destruct P3 as (Eb & _); rewrite Eb|destruct P3 as (-> & _)]; cbn [length]; lia.
    + injection H as <- <-. cbn [x_queue x_workers x_close].
      pose proof (sum_insert wwork ws i _ WPop Ei) as Hw. cbn [wwork] in Hw. lia.
  - destruct (decide True) as [_|]; [|done]. destruct c as [| |t| |]; try done.
    + destruct (uq_pop q) as [[r q']|] eqn:Eq; [|done]. cbn in H. injection H as <- <-.
      destruct (uq_pop_cases _ _ _ Eq I2) as (P1 & P2 & P3). cbn [x_queue x_workers x_close].
      destruct r as [t|]; [destruct P3 as (Eb & _); rewrite Eb|destruct P3 as (-> & _)]; cbn [length]; lia.
    + injection H as <- <-. cbn [x_queue x_workers x_close]. lia.
    + destruct (forallb _ ws); [|done]. injection H as <- <-. cbn [x_queue x_workers x_close]. lia.
Qed.

Theorem C53_close_returns n l es s : ex_run (ex_new n) l = Some (es, s) -> XCloseStart ∈ es ->
  forall l' es' s', ex_run s l' = Some (es', s') ->
    (length (filter is_thread l') <= work s)%nat /\
    ((forall a, is_thread a -> ex_step s' a = None) -> XCloseEnd ∈ es ++ es' /\ Forall (eq WExit) (x_workers s')).
Proof.
  intros H Hs l' es' s' H'. pose proof (inv_run _ [] _ _ _ (inv_new n) H) as I. cbn in I. clear H. split.
  - revert es s es' I Hs H'. induction l' as [|a l' IH]; intros es s es' I Hs H'; [cbn; lia|]. cbn in H'.
    destruct (ex_step s a) as [[e s1]|] eqn:E; [|done]. cbn in H'. destruct (ex_run s1 l') as [[es1 s2]|] eqn:E1; [|done]. cbn in H'. injection H' as <- <-.
    pose proof (work_step _ _ _ _ _ I Hs E) as W. pose proof (inv_step _ _ _ _ _ I E) as I1.
    specialize (IH _ _ _ I1 ltac:(apply elem_of_app; by left) E1). rewrite filter_cons. destruct (decide (is_thread a)); cbn [length]; lia.
  - intros Hd. pose proof (inv_run _ es _ _ _ I H') as I'. clear I H'.
    assert (Hs' : XCloseStart ∈ es ++ es') by (apply elem_of_app; by left). rewrite (xi_start _ _ I') in Hs'.
    pose proof (proj2 (xi_last _ _ I') Hs') as Hl. rewrite (xi_end _ _ I').
    assert (Hp : is_Some (uq_pop (x_queue s'))).
    { unfold uq_pop. destruct (u_closed (x_queue s')) eqn:Ec; [by eexists|]. destruct (u_buf (x_queue s')) eqn:Eb; [|by eexists].
      rewrite (proj2 (xi_closed _ _ I')) in Ec; done. }
    destruct Hp as [[r q'] Hp].
    assert (Hw : Forall (eq WExit) (x_workers s')).
    { apply Forall_lookup. intros i w Hi. specialize (Hd (XWorker i) Logic.I). cbn in Hd. rewrite Hi, Hp in Hd. by destruct w. }
    split; [|done]. specialize (Hd XClose Logic.I). cbn in Hd. rewrite Hp in Hd. destruct (x_close s'); try done.
    destruct (forallb _ (x_workers s')) eqn:Ew; [done|]. exfalso. rewrite <- not_true_iff_false in Ew. apply Ew.
    apply forallb_forall. intros w Hi%elem_of_list_In. rewrite Forall_forall in Hw. by rewrite <- (Hw w Hi).
Qed.

(** ** Concrete case: two threads, three tasks, one of them run by Close, one too
    late. *)
Example C53_example : exists s,
  ex_run (ex_new 2) [XSchedule 7; XSchedule 8; XWorker 1; XSchedule 9; XWorker 0; XClose; XSchedule 4; XClose; XWorker 1;
                     XClose; XClose; XWorker 1; XWorker 0; XWorker 0; XClose] =
  Some ([XAccept 7; XAccept 8; XStart 7; XAccept 9; XStart 8; XCloseStart; XRefuse 4; XStart 9; XNothing;
         XNothing; XNothing; XNothing; XNothing; XNothing; XCloseEnd], s).
Proof. eexists. by vm_compute. Qed.

Print Assumptions C53_exactly_once.
Print Assumptions C53_accepted.
Print Assumptions C53_close_returns.
