(** C79: PeriodicClosure.  C80: stopping a server and waiting for it. *)
From Verif Require Import Base Closure.
Local Open Scope Z_scope.

(** ** Specification: events in a log *)

Definition is_call (x : clog) : bool := match l_event x with CCall => true | _ => false end.
Definition is_return (x : clog) : bool := match l_event x with CReturn => true | _ => false end.
Definition is_started (x : clog) : bool := match l_event x, l_ret x with CStart, Some Ok => true | _, _ => false end.
Definition is_joined (x : clog) : bool := match l_event x with CJoin => true | _ => false end.
(** Steps of the background thread. *)
Definition by_worker (e : cevent) : bool := match e with CBegin | CWake | CNext | CCall | CReturn => true | _ => false end.
Definition count (f : clog -> bool) (l : list clog) : nat := length (List.filter f l).

Lemma count_app f l1 l2 : count f (l1 ++ l2) = (count f l1 + count f l2)%nat.
Proof. unfold count. by rewrite List.filter_app, app_length. Qed.
Lemma count_nil f : count f [] = 0%nat.
Proof. done. Qed.
Lemma count_one f x : count f [x] = if f x then 1%nat else 0%nat.
Proof. unfold count. cbn. by destruct (f x). Qed.

Lemma c_run_split p c l1 l2 c' : c_run p c (l1 ++ l2) c' -> exists cm, c_run p c l1 cm /\ c_run p cm l2 c'.
Proof.
  remember (l1 ++ l2) as l eqn:El. intros H. revert l2 El. induction H as [c|c l c1 e c2 r Hr IH Hs]; intros l2 El.
  - symmetry in El. apply app_eq_nil in El as [-> ->]. exists c. split; constructor.
  - destruct l2 as [|y l2 _] using rev_ind.
    + rewrite app_nil_r in El. subst l1. exists c2. split; [by econstructor|constructor].
    + rewrite app_assoc in El. apply app_inj_tail in El as [-> <-]. destruct (IH l2 eq_refl) as (cm & H1 & H2).
      exists cm. split; [done|]. by econstructor.
Qed.

Lemma c_run_nil p c c' : c_run p c [] c' -> c' = c.
Proof. inversion 1 as [|? l' ? ? ? ? ? ? El]; subst; [done|]. by destruct l'. Qed.
Lemma c_run_one p c x c' : c_run p c [x] c' -> c_step p c (l_event x) = CDone c' (l_ret x) /\ l_time x = c_now c'.
Proof.
  remember [x] as l eqn:E. destruct 1 as [c|c l c1 e c2 r Hr Hs]; [done|]. destruct l as [|z l]; [|by destruct l].
  injection E as <-. apply c_run_nil in Hr as ->. done.
Qed.

(** ** The closure *)

Definition in_fn (c : closure) : nat := match c_worker c with WRun _ => 1 | _ => 0 end.

Record cinv (p : Z) (t0 : Z) (l : list clog) (c : closure) : Prop := {
  ci_calls : (count is_call l = count is_return l + in_fn c)%nat;
  ci_start : (count is_started l <= 1)%nat;
  ci_none : count is_started l = 0%nat -> c_worker c = WNone /\ count is_call l = 0%nat;
  ci_gone : count is_started l = 1%nat -> c_worker c = WNone -> c_stopped c = true;
  ci_join : c_joining c = true -> c_stopped c = true;
  ci_end : count is_joined l <> 0%nat -> c_stopped c = true /\ c_worker c = WNone;
  ci_exit : c_worker c = WExit -> c_stopped c = true;
}.

Ltac inv_step H := unfold c_step in H; repeat case_match; try discriminate H; injection H as <- <-.

Lemma cinv_run p t0 l c : c_run p (new_closure t0) l c -> cinv p t0 l c.
Proof.
  remember (new_closure t0) as c0 eqn:E0. induction 1 as [c|c l c1 e c2 r Hr IH Hs]; subst.
  - split; unfold in_fn, count; cbn; intros; try done; repeat split; try done; lia.
  - specialize (IH eq_refl). destruct IH as [I1 I2 I3 I4 I5 I6 I7]. clear Hr. unfold in_fn in *.
    destruct c1 as [st w jn now]. cbn [c_stopped c_worker c_joining c_now] in *.
    assert (Hst : (count is_started l = 0 \/ count is_started l = 1)%nat) by lia.
    assert (Hjn : (count is_joined l = 0 \/ count is_joined l <> 0)%nat) by lia.
    unfold c_step in Hs. destruct e; cbn [c_stopped c_worker c_joining c_now set_worker] in Hs; repeat case_match; try discriminate Hs; injection Hs as <- <-;
      subst; split; rewrite ?count_app, ?count_one; unfold in_fn; cbn [set_worker c_stopped c_worker c_joining c_now is_call is_return is_started is_joined l_event l_ret];
      rewrite ?Nat.add_0_r in *; try assumption; try lia; try (destruct Hst as [Hst|Hst], Hjn as [Hjn|Hjn];
      repeat match goal with H : ?a -> _, H' : ?a |- _ => specialize (H H') end; destruct_and?; intros; repeat split; try assumption; try discriminate; try congruence; try lia).
    1: discriminate (I4 eq_refl).
    all: by apply I5.
Qed.

(** Calls of the function never overlap: at any time at most one of them has not
    returned. *)
Theorem C79_no_overlap p t0 l c : c_run p (new_closure t0) l c ->
  (count is_return l <= count is_call l <= count is_return l + 1)%nat.
Proof. intros H. destruct (cinv_run _ _ _ _ H) as [H1 _ _ _ _ _ _]. unfold in_fn in H1. case_match; lia. Qed.

(** At most one Start succeeds, however often it is called. *)
Theorem C79_start_once p t0 l c : c_run p (new_closure t0) l c -> (count is_started l <= 1)%nat.
Proof. intros H. apply (cinv_run _ _ _ _ H). Qed.

(** When Stop has returned OK, the function is not running, it is never called
    again and no Start succeeds. *)
Lemma ended_run p c l c' : c_run p c l c' -> c_stopped c = true -> c_worker c = WNone ->
  (c_stopped c' = true /\ c_worker c' = WNone) /\ count is_call l = 0%nat /\ count is_started l = 0%nat.
Proof.
  induction 1 as [c|c l c1 e c2 r Hr IH Hs]; intros H1 H2; [done|]. destruct (IH H1 H2) as ([E1 E2] & E3 & E4).
  rewrite !count_app, !count_one, E3, E4. destruct c1 as [st w jn now]. cbn [c_stopped c_worker] in E1, E2. subst st w.
  unfold c_step in Hs. destruct e; cbn [c_stopped c_worker c_joining c_now set_worker] in Hs; repeat case_match; try discriminate Hs; injection Hs as <- <-; done.
Qed.
Theorem C79_stopped p t0 l1 x l2 c : c_run p (new_closure t0) (l1 ++ x :: l2) c ->
  l_event x = CJoin -> l_ret x = Some Ok ->
  count is_call l1 = count is_return l1 /\ count is_call l2 = 0%nat /\ count is_started l2 = 0%nat.
Proof.
  intros H Hx _. rewrite cons_middle, app_assoc in H. apply c_run_split in H as (cm & H1 & H2).
  pose proof (cinv_run _ _ _ _ H1) as [I1 _ _ _ _ I6 _].
  rewrite !count_app, !count_one in *. unfold is_call, is_return, is_joined in I1, I6. rewrite Hx in I1, I6.
  destruct I6 as [E1 E2]; [lia|]. unfold in_fn in I1. rewrite E2 in I1.
  destruct (ended_run _ _ _ _ H2 E1 E2) as (_ & H3 & H4). split; [|done].
  fold is_call is_return in I1. rewrite !Nat.add_0_r in I1. done.
Qed.

(** While Stop waits, the background thread ends after at most four steps of its
    own: it waits for nothing but the return of the function, not even for time
    to pass. *)
Definition rank (w : wstate) : nat :=
  match w with WNone | WExit => 0 | WWait _ => 1 | WRun _ | WBegin => 2 | WReady _ => 3 | WWoken => 4 end.
Definition next_of (w : wstate) : cevent :=
  match w with WBegin => CBegin | WWoken => CNext | WReady _ => CCall | WRun _ => CReturn | _ => CWake end.
Lemma stop_rank p c e c' r : c_stopped c = true -> c_step p c e = CDone c' r ->
  c_stopped c' = true /\ (rank (c_worker c') + (if by_worker e then 1 else 0) <= rank (c_worker c))%nat.
Proof.
  destruct c as [st w jn now]. cbn [c_stopped c_worker]. intros ->. unfold c_step.
  destruct e; cbn [c_stopped c_worker c_joining c_now set_worker by_worker]; intros Hs; repeat case_match; try discriminate Hs;
    injection Hs as <- <-; cbn [set_worker c_stopped c_worker rank]; subst; split; try done; cbn [rank]; try lia.
Qed.
Theorem C79_stop_bounded p c l c' : c_stopped c = true -> c_run p c l c' -> (count (fun x => by_worker (l_event x)) l <= 4)%nat.
Proof.
  intros H0 H. assert (G : c_stopped c' = true /\ (count (fun x => by_worker (l_event x)) l + rank (c_worker c') <= rank (c_worker c))%nat).
  { induction H as [c|c l c1 e c2 r Hr IH Hs]; [by rewrite count_nil|]. destruct (IH H0) as [E1 E2].
    destruct (stop_rank _ _ _ _ _ E1 Hs) as [E3 E4]. rewrite count_app, count_one. cbn [l_event]. split; [done|]. destruct (by_worker e); lia. }
  destruct G as [_ G]. destruct (c_worker c); cbn [rank] in G; lia.
Qed.
Theorem C79_stop_returns p c : c_stopped c = true -> c_joining c = true ->
  exists es c' l, Forall (fun e => by_worker e = true) es /\ (length es <= 4)%nat /\
    c_script p c (es ++ [CJoin]) = Some (c', l) /\ last l = Some (mkClog CJoin (Some Ok) (c_now c)) /\ c_worker c' = WNone.
Proof.
  intros Hs Hj. destruct c as [st w jn now]. cbn in Hs, Hj. subst st jn.
  destruct w as [| |n| |n|n|].
  - exists []. eexists _, _. split; [constructor|]. split; [cbn; lia|]. by cbn.
  - exists [CBegin; CWake]. eexists _, _. split; [by repeat constructor|]. split; [cbn; lia|]. by cbn.
  - exists [CWake]. eexists _, _. split; [by repeat constructor|]. split; [cbn; lia|]. by cbn.
  - exists [CNext; CCall; CReturn; CWake]. eexists _, _. split; [by repeat constructor|]. split; [cbn; lia|]. by cbn.
  - exists [CCall; CReturn; CWake]. eexists _, _. split; [by repeat constructor|]. split; [cbn; lia|]. by cbn.
  - exists [CReturn; CWake]. eexists _, _. split; [by repeat constructor|]. split; [cbn; lia|]. by cbn.
  - exists []. eexists _, _. split; [constructor|]. split; [cbn; lia|]. by cbn.
Qed.

(** *** Times *)

(** The n-th call comes no earlier than n periods after Start. *)
Definition timed (p : Z) (ts : Z) (n : Z) (c : closure) : Prop :=
  ts + n * p <= c_now c /\
  match c_worker c with
  | WNone | WBegin | WExit => True
  | WWait m => ts + (n + 1) * p <= m
  | WWoken => ts + (n + 1) * p <= c_now c
  | WReady m => ts + (n + 1) * p <= c_now c /\ ts + (n + 2) * p <= m
  | WRun m => ts + (n + 1) * p <= m
  end.
Lemma timed_run p ts c l c' n : 0 <= p -> c_run p c l c' -> count is_started l = 0%nat ->
  timed p ts n c -> (c_worker c <> WNone /\ c_worker c <> WExit) \/ c_stopped c = true ->
  timed p ts (n + Z.of_nat (count is_call l)) c' /\ ((c_worker c' <> WNone /\ c_worker c' <> WExit) \/ c_stopped c' = true).
Proof.
  intros Hp H. induction H as [c|c l c1 e c2 r Hr IH Hs]; intros H0 Ht Hw.
  - rewrite count_nil, Z.add_0_r. done.
  - rewrite count_app, count_one in H0.
    destruct IH as [E1 E2]; [lia|done|done|]. rewrite count_app, count_one. set (m := n + Z.of_nat (count is_call l)) in *.
    destruct c1 as [st w jn now]. cbn [c_stopped c_worker] in E2. destruct E1 as [E0 E1]. cbn [c_worker c_now] in E0, E1.
    unfold c_step in Hs. destruct e; cbn [c_stopped c_worker c_joining c_now set_worker] in Hs; repeat case_match; try discriminate Hs; injection Hs as <- <-;
      subst; unfold timed; cbn [set_worker c_stopped c_worker c_joining c_now is_call l_event];
      rewrite ?Nat.add_0_r, ?Nat2Z.inj_add, ?Z.add_assoc; fold m; (split; [|first [by left | by right | destruct E2 as [[? ?]|E2]; [first [by left|done]|by right]]]);
      repeat split; try done; try lia; try nia.
Qed.
Theorem C79_rate p t0 l1 x l2 y l3 c : 0 <= p -> c_run p (new_closure t0) (l1 ++ x :: l2 ++ y :: l3) c ->
  l_event x = CStart -> l_ret x = Some Ok -> l_event y = CCall ->
  l_time x + Z.of_nat (count is_call l2 + 1) * p <= l_time y.
Proof.
  intros Hp H Hx Hx' Hy. pose proof (C79_start_once _ _ _ _ H) as Hone.
  rewrite !count_app in Hone. change (x :: l2 ++ y :: l3) with ([x] ++ (l2 ++ [y] ++ l3)) in Hone. rewrite !count_app, !count_one in Hone.
  assert (Hsx : is_started x = true) by (unfold is_started; by rewrite Hx, Hx'). rewrite Hsx in Hone.
  assert (Hl2 : count is_started l2 = 0%nat) by (destruct (is_started y); lia). clear Hone.
  change (x :: l2 ++ y :: l3) with ([x] ++ (l2 ++ [y] ++ l3)) in H.
  apply c_run_split in H as (ca & _ & H). apply c_run_split in H as (cb & Hb & H). apply c_run_split in H as (cc & Hc & H).
  apply c_run_split in H as (cd & Hd & _).
  assert (Tb : timed p (l_time x) 0 cb /\ ((c_worker cb <> WNone /\ c_worker cb <> WExit) \/ c_stopped cb = true)).
  { apply c_run_one in Hb as [Hs Ht]. rewrite Hx, Hx' in Hs. unfold c_step in Hs. repeat case_match; try discriminate Hs. injection Hs as <-.
    rewrite Ht. unfold timed. cbn [set_worker c_worker c_now]. split; [split; [lia|done]|left; split; discriminate]. }
  destruct (timed_run p (l_time x) cb l2 cc 0 Hp Hc Hl2 (proj1 Tb) (proj2 Tb)) as [Tc _].
  apply c_run_one in Hd as [Hs Ht]. rewrite Hy in Hs. unfold c_step in Hs. repeat case_match; try discriminate Hs. injection Hs as <- _.
  destruct Tc as [_ Tc]. match goal with Hw : c_worker _ = WReady _ |- _ => rewrite Hw in Tc end. rewrite Ht. cbn [set_worker c_now]. lia.
Qed.

(** ** The server *)

Definition g_reach (l : list gobs) (g : world) : Prop := g_run world0 l g.

Lemma g_step_obs g e g' o : g_step g e = Some (g', o) -> (length o <= 1)%nat.
Proof.
  unfold g_step. intros H. destruct e; unfold mbind, option_bind in H; repeat case_match; try discriminate H; injection H as <- <-; cbn; lia.
Qed.
Lemma g_run_split g l1 l2 g' : g_run g (l1 ++ l2) g' -> exists gm, g_run g l1 gm /\ g_run gm l2 g'.
Proof.
  remember (l1 ++ l2) as l eqn:El. intros H. revert l1 l2 El. induction H as [g|g l g1 e g2 o Hr IH Hs]; intros l1 l2 El.
  - symmetry in El. apply app_eq_nil in El as [-> ->]. exists g. split; constructor.
  - pose proof (g_step_obs _ _ _ _ Hs) as Ho. destruct o as [|x [|? ?]]; [|  |cbn in Ho; lia].
    + rewrite app_nil_r in El. destruct (IH l1 l2 El) as (gm & H1 & H2). exists gm. split; [done|].
      rewrite <- (app_nil_r l2). by econstructor.
    + destruct l2 as [|y l2 _] using rev_ind.
      * rewrite app_nil_r in El. subst l1. exists g2. split; [by econstructor|constructor].
      * rewrite app_assoc in El. apply app_inj_tail in El as [-> <-]. destruct (IH l1 l2 eq_refl) as (gm & H1 & H2).
        exists gm. split; [done|]. by econstructor.
Qed.
(** The step at which something was observed. *)
Lemma g_run_at g l1 x l2 g' : g_run g (l1 ++ x :: l2) g' ->
  exists g1 e g2, g_run g l1 g1 /\ g_step g1 e = Some (g2, [x]) /\ g_run g2 l2 g'.
Proof.
  intros H. rewrite cons_middle, app_assoc in H. apply g_run_split in H as (gm & H1 & H2).
  remember (l1 ++ [x]) as l eqn:El. revert H2. induction H1 as [g|g l g1 e g2 o Hr IH Hs]; intros H2; [by destruct l1|].
  pose proof (g_step_obs _ _ _ _ Hs) as Ho. destruct o as [|y [|? ?]]; [| |cbn in Ho; lia].
  - rewrite app_nil_r in El. apply (IH El). assert (G : forall a l b, g_run a l b -> forall c o, g_run b o c -> g_run a (l ++ o) c).
    { clear. intros a l b Hab c o Hbc. revert Hab. induction Hbc as [g|g l0 g1 e g2 o Hr IH Hs]; intros Hab; [by rewrite app_nil_r|].
      rewrite app_assoc. econstructor; [by apply IH|done]. }
    change l2 with ([] ++ l2). eapply G; [|exact H2]. change (@nil gobs) with (@nil gobs ++ []). econstructor; [constructor|done].
  - apply app_inj_tail in El as [-> ->]. by exists g1, e, g2.
Qed.

(** What holds of a server at any time. *)
Record sinv (i : nat) (l : list gobs) (s : server) : Prop := {
  si_count : sv_closed s = (sv_shut s + match sv_holder s with Some _ => 1 | None => 0 end)%nat;
  si_shut : sv_shut s = (if sv_running s then 0 else 1)%nat;
  si_holder : sv_holder s <> None -> sv_running s = true;
  si_worker : sv_holder s = Some Worker <-> sv_fn s = FStop;
  si_dtor : sv_holder s = Some Dtor <-> sv_dtor s = DStop;
  si_fn : sv_fn s <> FIdle <-> exists n, c_worker (sv_clo s) = WRun n;
  si_want : sv_fn s = FWant \/ sv_fn s = FStop -> sv_signalled s = true;
  si_sig : sv_signalled s = true -> OSignal (Some i) ∈ l;
  si_by : sv_running s = false -> sv_signalled s = false -> exists w, w <> Worker /\ OStopped i w ∈ l;
  si_ext : sv_signalled s = false -> sv_holder s <> Some Worker;
  si_ret : forall w, OStopped i w ∈ l -> sv_running s = false;
  si_alive : sv_dtor s = DNone -> c_stopped (sv_clo s) = false;
  si_thread : c_stopped (sv_clo s) = false -> c_worker (sv_clo s) <> WNone /\ c_worker (sv_clo s) <> WExit;
}.
Definition ginv (l : list gobs) (g : world) : Prop :=
  (forall i s, w_servers g !! i = Some s -> sinv i l s) /\
  (forall i w, OStopped i w ∈ l -> is_Some (w_servers g !! i)) /\
  (forall i, w_handler g = HFn (Some i) -> is_Some (w_servers g !! i)).

Lemma sinv_more i l o s : sinv i l s -> (forall w, OStopped i w ∉ o) -> sinv i (l ++ o) s.
Proof.
  intros [] Ho. split; try done.
  - intros H. apply elem_of_app. left. auto.
  - intros H1 H2. destruct (si_by0 H1 H2) as (w & E1 & E2). exists w. split; [done|]. apply elem_of_app. by left.
  - intros w [H|H]%elem_of_app; [by apply (si_ret0 w)|by destruct (Ho w)].
Qed.

(** Changes of the waiting threads or of the time. *)
Lemma sinv_waiters i l s m : sinv i l s -> sinv i l (set_waiters s m).
Proof. by intros []; split. Qed.
Lemma sinv_signalled i l s : sinv i l s -> OSignal (Some i) ∈ l -> sinv i l (set_signalled s).
Proof. intros [] H. split; cbn [set_signalled sv_running sv_holder sv_closed sv_shut sv_fn sv_dtor sv_clo sv_signalled]; try done. Qed.

(** Steps of the worker that neither enter nor leave the function. *)
Lemma sinv_clo i l s c : sinv i l s -> sv_fn s = FIdle -> (forall n, c_worker c <> WRun n) ->
  (sv_dtor s = DNone -> c_stopped c = false) -> (c_stopped c = false -> c_worker c <> WNone /\ c_worker c <> WExit) -> sinv i l (set_clo s c).
Proof.
  intros [] Hf Hr Hd Ht. split; cbn [set_clo sv_running sv_holder sv_closed sv_shut sv_fn sv_dtor sv_clo sv_signalled]; try done.
  rewrite Hf. split; [done|]. intros [n Hn]. by destruct (Hr n).
Qed.
Lemma sinv_stopping i l s c : sinv i l s -> c_worker c = c_worker (sv_clo s) -> (c_stopped (sv_clo s) = true -> c_stopped c = true) ->
  (sv_dtor s = DNone -> c_stopped c = false) -> sinv i l (set_clo s c).
Proof.
  intros [] Hw Hd Ha. split; cbn [set_clo sv_running sv_holder sv_closed sv_shut sv_fn sv_dtor sv_clo sv_signalled]; try done.
  - by rewrite Hw.
  - intros H. rewrite Hw. apply si_thread0. destruct (c_stopped (sv_clo s)); [|done]. by rewrite Hd in H.
Qed.
Lemma idle_of i l s : sinv i l s -> (forall n, c_worker (sv_clo s) <> WRun n) -> sv_fn s = FIdle.
Proof. intros [] H. destruct (sv_fn s) eqn:E; [done|..]; (destruct (proj1 si_fn0) as [n Hn]; [by rewrite ?E|by destruct (H n)]). Qed.

Lemma ginv_upd l g i s s' o h :
  w_servers g !! i = Some s -> ginv l g -> sinv i (l ++ o) s' -> (forall j w, OStopped j w ∈ o -> j = i) ->
  (forall j, h = HFn (Some j) -> j = i \/ w_handler g = HFn (Some j)) ->
  ginv (l ++ o) (mkWorld (<[i := s']> (w_servers g)) h).
Proof.
  intros Hi (G1 & G2 & G3) Hs Ho Hh. split; [|split]; cbn [w_servers w_handler].
  - intros j t. destruct (decide (j = i)) as [-> |Hj]; [rewrite lookup_insert; by intros [= <-]|].
    rewrite lookup_insert_ne by done. intros Ht. apply sinv_more; [by apply G1|]. intros w Hw. by apply Ho in Hw.
  - intros j w H. destruct (decide (j = i)) as [-> |Hj]; [rewrite lookup_insert; by eexists|]. rewrite lookup_insert_ne by done.
    apply elem_of_app in H as [H|H]; [by apply (G2 j w)|by apply Ho in H].
  - intros j H. destruct (decide (j = i)) as [-> |Hj]; [rewrite lookup_insert; by eexists|]. rewrite lookup_insert_ne by done.
    destruct (Hh j H) as [?|?]; [done|by apply G3].
Qed.
Lemma ginv_upd0 l g i s s' : w_servers g !! i = Some s -> ginv l g -> sinv i l s' -> ginv (l ++ []) (upd g i s').
Proof.
  intros Hi G Hs. apply (ginv_upd l g i s s' [] (w_handler g)); [done|done|by rewrite app_nil_r|by intros ? ? []%elem_of_nil|by right].
Qed.

Lemma ginv_new l g i now : w_servers g !! i = None -> ginv l g -> ginv (l ++ []) (upd g i (new_server now)).
Proof.
  intros Hi (G1 & G2 & G3). rewrite app_nil_r. split; [|split]; cbn [upd w_servers w_handler].
  - intros j t. destruct (decide (j = i)) as [-> |Hj]; [|rewrite lookup_insert_ne by done; apply G1]. rewrite lookup_insert. intros [= <-].
    split; cbn; try done.
    + split; [done|]. by intros [n Hn].
    + by intros [?|?].
    + intros w Hw. destruct (G2 i w Hw) as [? ?]. congruence.
  - intros j w H. destruct (decide (j = i)) as [-> |Hj]; [rewrite lookup_insert; by eexists|]. rewrite lookup_insert_ne by done. by apply (G2 j w).
  - intros j H. destruct (decide (j = i)) as [-> |Hj]; [rewrite lookup_insert; by eexists|]. rewrite lookup_insert_ne by done. by apply G3.
Qed.

(** Stop, entered and left. *)
Lemma sinv_enter i l s w : sinv i l s -> may_stop s w = true -> sv_holder s = None -> sv_running s = true ->
  sinv i l (let s := in_stop s w in
    mkServer (sv_clo s) (sv_running s) (sv_signalled s) (Some w) (S (sv_closed s)) (sv_shut s) (sv_fn s) (sv_waiters s) (sv_dtor s)).
Proof.
  intros [] Hm Hh Hr. rewrite Hh in *.
  assert (Hf : sv_fn s <> FStop) by (intros H; by apply si_worker0 in H).
  assert (Hd : sv_dtor s <> DStop) by (intros H; by apply si_dtor0 in H).
  unfold may_stop in Hm.
  destruct w; cbn [in_stop set_fn set_dtor sv_running sv_holder sv_closed sv_shut sv_fn sv_dtor sv_clo sv_signalled] in *.
  - split; cbn [sv_running sv_holder sv_closed sv_shut sv_fn sv_dtor sv_clo sv_signalled]; try done. lia.
  - destruct (sv_fn s) eqn:Ef; try (by destruct (sv_dtor s)).
    assert (Hsig : sv_signalled s = true) by (apply si_want0; by left).
    split; cbn [sv_running sv_holder sv_closed sv_shut sv_fn sv_dtor sv_clo sv_signalled]; try done; try lia.
    + split; [intros _; by apply si_fn0|done].
    + by rewrite Hsig.
  - destruct (sv_dtor s) eqn:Ed; try (by destruct (sv_fn s)).
    split; cbn [sv_running sv_holder sv_closed sv_shut sv_fn sv_dtor sv_clo sv_signalled]; try done; try lia.
Qed.
Lemma sinv_not_running i l s w : sinv i l s -> may_stop s w = true -> sv_holder s = None -> sv_running s = false ->
  sinv i (l ++ [OStopped i w]) (after_stop s w).
Proof.
  intros [] Hm Hh Hr. rewrite Hh in *.
  assert (Hf : sv_fn s <> FStop) by (intros H; by apply si_worker0 in H).
  assert (Hd : sv_dtor s <> DStop) by (intros H; by apply si_dtor0 in H).
  assert (Hby : sv_running s = false → sv_signalled s = false → ∃ w0, w0 ≠ Worker ∧ OStopped i w0 ∈ l ++ [OStopped i w]).
  { intros H1 H2. destruct (si_by0 H1 H2) as (w0 & ? & ?). exists w0. split; [done|]. apply elem_of_app. by left. }
  assert (Hsg : sv_signalled s = true → OSignal (Some i) ∈ l ++ [OStopped i w]) by (intros H; apply elem_of_app; left; auto).
  unfold may_stop in Hm.
  destruct w; cbn [after_stop set_fn set_dtor sv_running sv_holder sv_closed sv_shut sv_fn sv_dtor sv_clo sv_signalled] in *.
  - split; cbn [sv_running sv_holder sv_closed sv_shut sv_fn sv_dtor sv_clo sv_signalled]; rewrite ?Hh; try done.
  - destruct (sv_fn s) eqn:Ef; try (by destruct (sv_dtor s)).
    split; cbn [set_fn sv_running sv_holder sv_closed sv_shut sv_fn sv_dtor sv_clo sv_signalled]; rewrite ?Hh; try done.
    + split; [intros _; by apply si_fn0|done].
    + by intros [?|?].
  - destruct (sv_dtor s) eqn:Ed; try (by destruct (sv_fn s)).
    split; cbn [set_dtor sv_running sv_holder sv_closed sv_shut sv_fn sv_dtor sv_clo sv_signalled]; rewrite ?Hh; try done.
Qed.
Lemma sinv_leave i l s w : sinv i l s -> sv_holder s = Some w ->
  sinv i (l ++ [OStopped i w]) (let s := after_stop s w in
    mkServer (sv_clo s) false (sv_signalled s) None (sv_closed s) (S (sv_shut s)) (sv_fn s) (sv_waiters s) (sv_dtor s)).
Proof.
  intros [] Hh. rewrite Hh in *. assert (Hr := si_holder0 ltac:(done)). rewrite Hr in *.
  assert (Hsg : sv_signalled s = true → OSignal (Some i) ∈ l ++ [OStopped i w]) by (intros H; apply elem_of_app; left; auto).
  assert (Hby : sv_signalled s = false → ∃ w0, w0 ≠ Worker ∧ OStopped i w0 ∈ l ++ [OStopped i w]).
  { intros H. exists w. split; [intros ->; by apply (si_ext0 H)|]. apply elem_of_app. right. apply elem_of_list_here. }
  destruct w; cbn [after_stop set_fn set_dtor sv_running sv_holder sv_closed sv_shut sv_fn sv_dtor sv_clo sv_signalled] in *.
  - assert (Hf : sv_fn s <> FStop) by (intros H; by apply si_worker0 in H).
    assert (Hd : sv_dtor s <> DStop) by (intros H; by apply si_dtor0 in H).
    split; cbn [sv_running sv_holder sv_closed sv_shut sv_fn sv_dtor sv_clo sv_signalled]; try done; try lia.
  - assert (Hf : sv_fn s = FStop) by (by apply si_worker0).
    assert (Hd : sv_dtor s <> DStop) by (intros H; by apply si_dtor0 in H).
    split; cbn [sv_running sv_holder sv_closed sv_shut sv_fn sv_dtor sv_clo sv_signalled]; try done; try lia.
    + rewrite Hf in si_fn0. split; [intros _; by apply si_fn0|done].
    + by intros [?|?].
  - assert (Hf : sv_fn s <> FStop) by (intros H; by apply si_worker0 in H).
    assert (Hd : sv_dtor s = DStop) by (by apply si_dtor0).
    split; cbn [sv_running sv_holder sv_closed sv_shut sv_fn sv_dtor sv_clo sv_signalled]; try done; try lia.
Qed.

Lemma ginv_step l g e g' o : ginv l g -> g_step g e = Some (g', o) -> ginv (l ++ o) g'.
Proof.
  intros G Hs. pose proof G as (G1 & G2 & G3). destruct e as [i now|i w|i|i t|i t|i t| |i d|i|i|i|i|i|i|i]; unfold g_step in Hs.
  - destruct (w_servers g !! i) eqn:Hi; [done|]. injection Hs as <- <-. by apply ginv_new.
  - destruct (w_servers g !! i) as [s|] eqn:Hi; [|done]. cbn [mbind option_bind] in Hs. destruct (may_stop s w) eqn:Hm; [|done].
    destruct (sv_holder s) eqn:Hh; [done|]. specialize (G1 i s Hi). destruct (sv_running s) eqn:Hr; injection Hs as <- <-.
    + apply (ginv_upd0 l g i s); [done|done|]. by apply sinv_enter.
    + apply (ginv_upd l g i s); [done|done|by apply sinv_not_running|by intros j w' [= -> _]%elem_of_list_singleton|by right].
  - destruct (w_servers g !! i) as [s|] eqn:Hi; [|done]. cbn [mbind option_bind] in Hs. destruct (sv_holder s) as [w|] eqn:Hh; [|done].
    injection Hs as <- <-. apply (ginv_upd l g i s); [done|done| |by intros j w' [= -> _]%elem_of_list_singleton|by right].
    by apply (sinv_leave i l s w); [apply G1|].
  - destruct (w_servers g !! i) as [s|] eqn:Hi; [|done]. cbn [mbind option_bind] in Hs. repeat case_match; try discriminate Hs; injection Hs as <- <-.
    + apply (ginv_upd0 l g i s); [done|done|]. by apply sinv_waiters, G1.
    + split; [|split]; [intros j t' Ht; apply sinv_more; [by apply G1|]; by intros ? [=]%elem_of_list_singleton| |done].
      intros j w [Hw|[=]%elem_of_list_singleton]%elem_of_app. by apply (G2 j w).
  - destruct (w_servers g !! i) as [s|] eqn:Hi; [|done]. cbn [mbind option_bind] in Hs. repeat case_match; try discriminate Hs; injection Hs as <- <-.
    apply (ginv_upd l g i s); [done|done| |by intros ? ? []%elem_of_nil|by intros j [= ->]; left]. rewrite app_nil_r. by apply sinv_waiters, G1.
  - destruct (w_servers g !! i) as [s|] eqn:Hi; [|done]. cbn [mbind option_bind] in Hs. repeat case_match; try discriminate Hs; injection Hs as <- <-.
    apply (ginv_upd l g i s); [done|done| |by intros ? ? [=]%elem_of_list_singleton|done].
    apply sinv_waiters, sinv_more; [by apply G1|]. by intros ? [=]%elem_of_list_singleton.
  - destruct (w_handler g) as [|[i|]] eqn:Hh; try (injection Hs as <- <-).
    2: destruct (w_servers g !! i) as [s|] eqn:Hi; [|done]; injection Hs as <- <-;
       apply (ginv_upd l g i s); [done|done| |by intros ? ? [=]%elem_of_list_singleton|by right];
       apply sinv_signalled; [apply sinv_more; [by apply G1|]; by intros ? [=]%elem_of_list_singleton|apply elem_of_app; right; apply elem_of_list_here].
    all: split; [|split]; [intros j t' Ht; apply sinv_more; [by apply G1|]; by intros ? [=]%elem_of_list_singleton| |by rewrite Hh];
      intros j w [Hw|[=]%elem_of_list_singleton]%elem_of_app; by apply (G2 j w).
  - destruct (w_servers g !! i) as [s|] eqn:Hi; [|done]. cbn [mbind option_bind c_step] in Hs. destruct (0 <=? d); [|done]. injection Hs as <- <-.
    apply (ginv_upd0 l g i s); [done|done|]. specialize (G1 i s Hi). apply sinv_stopping; [done..|]. apply G1.
  - destruct (w_servers g !! i) as [s|] eqn:Hi; [|done]. cbn [mbind option_bind c_step] in Hs. destruct (c_worker (sv_clo s)) eqn:Hw; try done. injection Hs as <- <-.
    apply (ginv_upd0 l g i s); [done|done|]. specialize (G1 i s Hi). apply sinv_clo; cbn [set_worker c_worker c_stopped]; try done; [|by apply G1].
    apply (idle_of i l s); [done|]. by rewrite Hw.
  - destruct (w_servers g !! i) as [s|] eqn:Hi; [|done]. cbn [mbind option_bind c_step] in Hs. destruct (c_worker (sv_clo s)) eqn:Hw; try done.
    specialize (G1 i s Hi). assert (Hid : sv_fn s = FIdle) by (apply (idle_of i l s); [done|by rewrite Hw]).
    destruct (c_stopped (sv_clo s)) eqn:Hst; [|match type of Hs with context [if ?b then _ else _] => destruct b end; [|done]]; injection Hs as <- <-; (apply (ginv_upd0 l g i s); [exact Hi|exact G|]);
      apply sinv_clo; cbn [set_worker c_worker c_stopped]; rewrite ?Hst; try done.
    intros Hd. pose proof (si_alive _ _ _ G1 Hd). congruence.
  - destruct (w_servers g !! i) as [s|] eqn:Hi; [|done]. cbn [mbind option_bind c_step] in Hs. destruct (c_worker (sv_clo s)) eqn:Hw; try done. injection Hs as <- <-.
    apply (ginv_upd0 l g i s); [done|done|]. specialize (G1 i s Hi). apply sinv_clo; cbn [set_worker c_worker c_stopped]; try done; [|by apply G1].
    apply (idle_of i l s); [done|]. by rewrite Hw.
  - destruct (w_servers g !! i) as [s|] eqn:Hi; [|done]. cbn [mbind option_bind c_step] in Hs. destruct (c_worker (sv_clo s)) eqn:Hw; try done. injection Hs as <- <-.
    specialize (G1 i s Hi). assert (Hid : sv_fn s = FIdle) by (apply (idle_of i l s); [done|by rewrite Hw]).
    apply (ginv_upd l g i s); [done|done| |by intros ? ? [=]%elem_of_list_singleton|by right].
    apply sinv_more; [|by intros ? [=]%elem_of_list_singleton].
    destruct G1. rewrite Hid in *. split; cbn [set_fn set_clo set_worker c_worker c_stopped sv_running sv_holder sv_closed sv_shut sv_fn sv_dtor sv_clo sv_signalled]; try done.
    + rewrite si_worker0. by destruct (sv_signalled s).
    + split; [intros _; by eexists|by destruct (sv_signalled s)].
    + destruct (sv_signalled s); [done|]. by intros [?|?].
  - destruct (w_servers g !! i) as [s|] eqn:Hi; [|done]. cbn [mbind option_bind c_step] in Hs. destruct (sv_fn s) eqn:Hf; try done.
    destruct (c_worker (sv_clo s)) eqn:Hw; try done. injection Hs as <- <-. specialize (G1 i s Hi).
    apply (ginv_upd l g i s); [done|done| |by intros ? ? [=]%elem_of_list_singleton|by right].
    apply sinv_more; [|by intros ? [=]%elem_of_list_singleton].
    destruct G1. rewrite Hf in *. split; cbn [set_fn set_clo set_worker c_worker c_stopped sv_running sv_holder sv_closed sv_shut sv_fn sv_dtor sv_clo sv_signalled]; try done.
    + rewrite si_worker0. by split.
    + split; [done|]. by intros [n' Hn].
    + by intros [?|?].
  - destruct (w_servers g !! i) as [s|] eqn:Hi; [|done]. cbn [mbind option_bind c_step] in Hs. destruct (sv_dtor s) eqn:Hd; try done. specialize (G1 i s Hi).
    rewrite (si_alive _ _ _ G1 Hd) in Hs. injection Hs as <- <-. apply (ginv_upd0 l g i s); [done|done|]. destruct G1. rewrite Hd in *.
    split; cbn [set_dtor set_clo c_worker c_stopped sv_running sv_holder sv_closed sv_shut sv_fn sv_dtor sv_clo sv_signalled]; try done.
    rewrite si_dtor0. by split.
  - destruct (w_servers g !! i) as [s|] eqn:Hi; [|done]. cbn [mbind option_bind c_step] in Hs. destruct (sv_dtor s) eqn:Hd; try done. specialize (G1 i s Hi).
    destruct (c_joining (sv_clo s)); [|done].
    assert (Hnr : c_worker (sv_clo s) = WNone \/ c_worker (sv_clo s) = WExit) by (destruct (c_worker (sv_clo s)); try done; [by left|by right]).
    assert (Hid : sv_fn s = FIdle) by (apply (idle_of i l s); [done|]; intros n; by destruct Hnr as [-> | ->]).
    assert (Hst : c_stopped (sv_clo s) = true).
    { destruct (c_stopped (sv_clo s)) eqn:E; [done|]. destruct (si_thread _ _ _ G1 E). by destruct Hnr. }
    assert (E : Some (upd g i (set_dtor (set_clo s (mkClosure (c_stopped (sv_clo s)) WNone false (c_now (sv_clo s)))) DWant), []) = Some (g', o)) by (by destruct Hnr as [Hn|Hn]; rewrite Hn in Hs).
    injection E as <- <-. apply (ginv_upd0 l g i s); [done|done|]. destruct G1. rewrite Hd, Hid in *.
    split; cbn [set_dtor set_clo c_worker c_stopped sv_running sv_holder sv_closed sv_shut sv_fn sv_dtor sv_clo sv_signalled]; rewrite ?Hid; try done.
    + rewrite si_dtor0. by split.
    + split; [done|]. by intros [n Hn].
    + by rewrite Hst.
Qed.
Lemma ginv_reach l g : g_reach l g -> ginv l g.
Proof.
  unfold g_reach. remember world0 as g0 eqn:E. induction 1 as [g|g l g1 e g2 o Hr IH Hs]; subst.
  - split; [|split]; cbn; [by intros i s; rewrite lookup_empty|by intros i w H%elem_of_nil|done].
  - by apply (ginv_step l g1 e); [apply IH|].
Qed.

(** What one step does to a server. *)
Record evolves (i : nat) (s : server) (o : list gobs) (s' : server) : Prop := {
  ev_sig : sv_signalled s = true -> sv_signalled s' = true;
  ev_signal : OSignal (Some i) ∈ o -> sv_signalled s' = true;
  ev_run : sv_running s = false -> sv_running s' = false;
  ev_shut : sv_running s' = false -> sv_running s = false \/ exists w, o = [OStopped i w];
  ev_want : sv_fn s = FWant \/ sv_fn s = FStop -> sv_fn s' = FWant \/ sv_fn s' = FStop \/ sv_running s' = false;
  ev_called : OCalled i ∈ o -> sv_signalled s = true -> sv_fn s' = FWant;
  ev_done : OFnDone i ∈ o -> sv_fn s = FDone }.
Definition quiet (i : nat) (o : list gobs) : Prop := OSignal (Some i) ∉ o /\ OCalled i ∉ o /\ OFnDone i ∉ o.

Lemma evolves_quiet i s o s' : quiet i o -> (sv_signalled s = true -> sv_signalled s' = true) ->
  sv_running s' = sv_running s -> sv_fn s' = sv_fn s -> evolves i s o s'.
Proof. intros (H1 & H2 & H3) H4 H5 H6. split; rewrite ?H5, ?H6; try done; try tauto. Qed.
Lemma quiet_nil i : quiet i [].
Proof. repeat split; apply not_elem_of_nil. Qed.
Lemma quiet_one i x : x <> OSignal (Some i) -> x <> OCalled i -> x <> OFnDone i -> quiet i [x].
Proof. intros H1 H2 H3. repeat split; intros H%elem_of_list_singleton; congruence. Qed.

(** Which server a step changes. *)
Lemma step_shape g e g' o : g_step g e = Some (g', o) ->
  (w_servers g' = w_servers g /\ forall i, quiet i o) \/
  exists j sj, w_servers g' = <[j := sj]> (w_servers g) /\ (forall i, i <> j -> quiet i o) /\
    forall l s, w_servers g !! j = Some s -> sinv j l s -> evolves j s o sj.
Proof.
  intros Hs.
  assert (Q : forall i x, (forall j, x = OSignal (Some j) \/ x = OCalled j \/ x = OFnDone j -> j <> i) -> quiet i [x]).
  { intros i x H. apply quiet_one; intros ->; by destruct (H i); auto. }
  destruct e as [j now|j w|j|j t|j t|j t| |j d|j|j|j|j|j|j|j]; unfold g_step in Hs.
  - destruct (w_servers g !! j) eqn:Hj; [done|]. injection Hs as <- <-. right. eexists j, _. split; [done|]. split; [intros; apply quiet_nil|].
    intros l s Hsj. congruence.
  - destruct (w_servers g !! j) as [s|] eqn:Hj; [|done]. cbn [mbind option_bind] in Hs. destruct (may_stop s w) eqn:Hm; [|done].
    destruct (sv_holder s) eqn:Hh; [done|]. right. destruct (sv_running s) eqn:Hr; injection Hs as <- <-; eexists j, _; (split; [done|]).
    + split; [intros; apply quiet_nil|]. intros l s0 Hs0 Iv; rewrite Hj in Hs0; injection Hs0 as <-. split; cbn; try (by intros []%elem_of_nil).
      * by destruct w.
      * destruct w; cbn; by rewrite Hr.
      * destruct w; cbn; by rewrite Hr.
      * intros [H|H]; [|by apply (si_worker _ _ _ Iv) in H; rewrite Hh in H]. destruct w; cbn; [by left|by right; left|by left].
    + split; [intros; apply Q; by intros ? [?|[?|?]]|]. intros l s0 Hs0 Iv; rewrite Hj in Hs0; injection Hs0 as <-. split; cbn; try (by intros [=]%elem_of_list_singleton).
      * by destruct w.
      * destruct w; cbn; by rewrite Hr.
      * intros _. by left.
      * intros _. right. right. by destruct w.
  - destruct (w_servers g !! j) as [s|] eqn:Hj; [|done]. cbn [mbind option_bind] in Hs. destruct (sv_holder s) as [w|] eqn:Hh; [|done].
    injection Hs as <- <-. right. eexists j, _; (split; [done|]). split; [intros; apply Q; by intros ? [?|[?|?]]|].
    intros l s0 Hs0 Iv; rewrite Hj in Hs0; injection Hs0 as <-. split; cbn; try done; try (by intros [=]%elem_of_list_singleton).
    + by destruct w.
    + intros _. right. by exists w.
    + intros _. by right; right.
  - destruct (w_servers g !! j) as [s|] eqn:Hj; [|done]. cbn [mbind option_bind] in Hs. repeat case_match; try discriminate Hs; injection Hs as <- <-.
    + right. eexists j, _; (split; [done|]). split; [intros; apply quiet_nil|]. intros l s0 Hs0 Iv; rewrite Hj in Hs0; injection Hs0 as <-. by apply evolves_quiet; [apply quiet_nil|..].
    + left. split; [done|]. intros i. apply Q; by intros ? [?|[?|?]].
  - destruct (w_servers g !! j) as [s|] eqn:Hj; [|done]. cbn [mbind option_bind] in Hs. repeat case_match; try discriminate Hs; injection Hs as <- <-.
    right. eexists j, _; (split; [done|]). split; [intros; apply quiet_nil|]. intros l s0 Hs0 Iv; rewrite Hj in Hs0; injection Hs0 as <-. by apply evolves_quiet; [apply quiet_nil|..].
  - destruct (w_servers g !! j) as [s|] eqn:Hj; [|done]. cbn [mbind option_bind] in Hs. repeat case_match; try discriminate Hs; injection Hs as <- <-.
    right. eexists j, _; (split; [done|]). split; [intros; apply Q; by intros ? [?|[?|?]]|]. intros l s0 Hs0 Iv; rewrite Hj in Hs0; injection Hs0 as <-. by apply evolves_quiet; [apply Q; by intros ? [?|[?|?]]|..].
  - destruct (w_handler g) as [|[j|]] eqn:Hh; [injection Hs as <- <-| |injection Hs as <- <-].
    1,3: left; split; [done|]; intros i; apply Q; by intros ? [[=]|[?|?]].
    destruct (w_servers g !! j) as [s|] eqn:Hj; [|done]. injection Hs as <- <-. right. eexists j, _; (split; [done|]).
    split; [intros i Hi; apply Q; intros k [[= ->]|[?|?]]; done|]. intros l s0 Hs0 Iv; rewrite Hj in Hs0; injection Hs0 as <-. split; cbn; try done; try tauto; by intros [=]%elem_of_list_singleton.
  - destruct (w_servers g !! j) as [s|] eqn:Hj; [|done]. cbn [mbind option_bind c_step] in Hs. destruct (0 <=? d); [|done]. injection Hs as <- <-.
    right. eexists j, _; (split; [done|]). split; [intros; apply quiet_nil|]. intros l s0 Hs0 Iv; rewrite Hj in Hs0; injection Hs0 as <-. by apply evolves_quiet; [apply quiet_nil|..].
  - destruct (w_servers g !! j) as [s|] eqn:Hj; [|done]. cbn [mbind option_bind c_step] in Hs. destruct (c_worker (sv_clo s)) eqn:Hw; try done. injection Hs as <- <-.
    right. eexists j, _; (split; [done|]). split; [intros; apply quiet_nil|]. intros l s0 Hs0 Iv; rewrite Hj in Hs0; injection Hs0 as <-. by apply evolves_quiet; [apply quiet_nil|..].
  - destruct (w_servers g !! j) as [s|] eqn:Hj; [|done]. cbn [mbind option_bind c_step] in Hs. destruct (c_worker (sv_clo s)) eqn:Hw; try done.
    destruct (c_stopped (sv_clo s)); [|match type of Hs with context [if ?b then _ else _] => destruct b end; [|done]]; injection Hs as <- <-;
    (right; eexists j, _; (split; [done|]); split; [intros; apply quiet_nil|]; intros l s0 Hs0 Iv; rewrite Hj in Hs0; injection Hs0 as <-; by apply evolves_quiet; [apply quiet_nil|..]).
  - destruct (w_servers g !! j) as [s|] eqn:Hj; [|done]. cbn [mbind option_bind c_step] in Hs. destruct (c_worker (sv_clo s)) eqn:Hw; try done. injection Hs as <- <-.
    right. eexists j, _; (split; [done|]). split; [intros; apply quiet_nil|]. intros l s0 Hs0 Iv; rewrite Hj in Hs0; injection Hs0 as <-. by apply evolves_quiet; [apply quiet_nil|..].
  - destruct (w_servers g !! j) as [s|] eqn:Hj; [|done]. cbn [mbind option_bind c_step] in Hs. destruct (c_worker (sv_clo s)) eqn:Hw; try done. injection Hs as <- <-.
    right. eexists j, _; (split; [done|]). split; [intros i Hi; apply Q; intros k [?|[[= ->]|?]]; done|]. intros l s0 Hs0 Iv; rewrite Hj in Hs0; injection Hs0 as <-. 
    split; cbn; try done; try tauto; try (by intros [=]%elem_of_list_singleton).
    + assert (Hid : sv_fn s = FIdle) by (apply (idle_of j l s); [done|by rewrite Hw]). rewrite Hid. by intros [?|?].
    + intros _ ->. done.
  - destruct (w_servers g !! j) as [s|] eqn:Hj; [|done]. cbn [mbind option_bind c_step] in Hs. destruct (sv_fn s) eqn:Hf; try done.
    destruct (c_worker (sv_clo s)) eqn:Hw; try done. injection Hs as <- <-.
    right. eexists j, _; (split; [done|]). split; [intros i Hi; apply Q; intros k [?|[?|[= ->]]]; done|].
    intros l s0 Hs0 Iv; rewrite Hj in Hs0; injection Hs0 as <-. split; cbn; try done; try tauto; try (by intros [=]%elem_of_list_singleton).
    rewrite Hf. by intros [?|?].
  - destruct (w_servers g !! j) as [s|] eqn:Hj; [|done]. cbn [mbind option_bind c_step] in Hs. destruct (sv_dtor s) eqn:Hd; try done.
    destruct (c_stopped (sv_clo s)); injection Hs as <- <-;
    (right; eexists j, _; (split; [done|]); split; [intros; apply quiet_nil|]; intros l s0 Hs0 Iv; rewrite Hj in Hs0; injection Hs0 as <-; by apply evolves_quiet; [apply quiet_nil|..]).
  - destruct (w_servers g !! j) as [s|] eqn:Hj; [|done]. cbn [mbind option_bind c_step] in Hs. destruct (sv_dtor s) eqn:Hd; try done.
    destruct (c_joining (sv_clo s)); [|done]. destruct (c_worker (sv_clo s)); try done; injection Hs as <- <-;
    (right; eexists j, _; (split; [done|]); split; [intros; apply quiet_nil|]; intros l s0 Hs0 Iv; rewrite Hj in Hs0; injection Hs0 as <-; by apply evolves_quiet; [apply quiet_nil|..]).
Qed.
Lemma step_server l g e g' o i s : ginv l g -> g_step g e = Some (g', o) -> w_servers g !! i = Some s ->
  exists s', w_servers g' !! i = Some s' /\ evolves i s o s'.
Proof.
  intros (G1 & _) Hs Hi. destruct (step_shape g e g' o Hs) as [[E Q]|(j & sj & E & Q & H)]; rewrite E.
  - exists s. split; [done|]. by apply evolves_quiet.
  - destruct (decide (i = j)) as [-> |Hj].
    + exists sj. rewrite lookup_insert. split; [done|]. apply (H l); [done|by apply G1].
    + exists s. rewrite lookup_insert_ne by done. split; [done|]. by apply evolves_quiet; [apply Q|..].
Qed.

Lemma g_run_inv g l0 l g' : ginv l0 g -> g_run g l g' -> ginv (l0 ++ l) g'.
Proof.
  intros G H. induction H as [g|g l g1 e g2 o Hr IH Hs]; [by rewrite app_nil_r|]. rewrite app_assoc. by apply (ginv_step _ g1 e); [apply IH|].
Qed.

Lemma reach_facts l g : g_reach l g ->
  (forall i, OSignal (Some i) ∈ l -> exists s, w_servers g !! i = Some s /\ sv_signalled s = true) /\
  (forall i s, w_servers g !! i = Some s -> sv_running s = false -> exists w, OStopped i w ∈ l).
Proof.
  unfold g_reach. remember world0 as g0 eqn:E. induction 1 as [g|g l g1 e g2 o Hr IH Hs]; subst.
  - split; [by intros i []%elem_of_nil|]. intros i s. cbn. by rewrite lookup_empty.
  - destruct (IH eq_refl) as [H1 H2]. pose proof (ginv_reach l g1 Hr) as G. split.
    + intros i [H|H]%elem_of_app.
      * destruct (H1 i H) as (s & E1 & E2). destruct (step_server _ _ _ _ _ _ _ G Hs E1) as (s' & E3 & E4). exists s'. split; [done|]. by apply E4.
      * destruct (step_shape _ _ _ _ Hs) as [[_ Q]|(j & sj & E & Q & HE)]; [by destruct (Q i)|].
        destruct (decide (i = j)) as [-> |Hj]; [|by destruct (Q i Hj)]. exists sj. rewrite E, lookup_insert. split; [done|].
        destruct (w_servers g1 !! j) as [s|] eqn:Ej; [apply (ev_signal _ _ _ _ (HE l s ltac:(done) (proj1 G j s Ej)) H)|]. exfalso.
        destruct e; unfold g_step in Hs; try (unfold mbind, option_bind in Hs; repeat case_match; try discriminate Hs; injection Hs as <- <-;
          first [by apply elem_of_nil in H | apply elem_of_list_singleton in H; try discriminate H; injection H as <-; congruence]).
    + intros i s' Hi Hr'. destruct (w_servers g1 !! i) as [s|] eqn:Ei.
      * destruct (step_server _ _ _ _ _ _ _ G Hs Ei) as (s2 & E1 & E2). rewrite E1 in Hi. injection Hi as ->.
        destruct (ev_shut _ _ _ _ E2 Hr') as [H|[w ->]].
        -- destruct (H2 i s Ei H) as [w Hw]. exists w. apply elem_of_app. by left.
        -- exists w. apply elem_of_app. right. apply elem_of_list_here.
      * exfalso. destruct (step_shape _ _ _ _ Hs) as [[E _]|(j & sj & E & _)]; [congruence|]. 
        destruct (decide (i = j)) as [-> |Hj]; [|rewrite E, lookup_insert_ne in Hi by done; congruence].
        clear E. unfold g_step in Hs. destruct e; unfold mbind, option_bind in Hs; repeat case_match; try discriminate Hs; injection Hs as <- <-;
          cbn [upd w_servers] in Hi; try congruence;
          match type of Hi with <[?k := _]> _ !! _ = _ => destruct (decide (j = k)) as [-> |Hk]; [rewrite lookup_insert in Hi; try congruence|rewrite lookup_insert_ne in Hi by done; congruence] end.
        injection Hi as <-. discriminate Hr'.
Qed.

(** *** Stop *)

(** However many threads call Stop, the service is closed and the gRPC server is
    shut down at most once, and every call returns after that has happened. *)
Theorem C80_stop l g i s : g_reach l g -> w_servers g !! i = Some s ->
  (sv_closed s <= 1)%nat /\ (sv_shut s <= sv_closed s)%nat /\
  forall w, OStopped i w ∈ l -> sv_running s = false /\ sv_closed s = 1%nat /\ sv_shut s = 1%nat.
Proof.
  intros Hr Hi. destruct (ginv_reach _ _ Hr) as (G & _). specialize (G i s Hi). destruct G.
  assert (H : (sv_holder s = None \/ sv_running s = true)%nat) by (destruct (sv_holder s); [right; by apply si_holder0|by left]).
  rewrite si_count0, si_shut0. split; [|split]; [destruct (sv_holder s), (sv_running s); try lia; by destruct H|lia|].
  intros w Hw. rewrite (si_ret0 w Hw) in *. destruct H as [-> |?]; done.
Qed.

(** *** Wait *)

(** A thread that is released from Wait: the server has been stopped, and the
    answer is true exactly if a SIGINT has been delivered to this server; if not,
    somebody called Stop or destroyed the server. *)
Theorem C80_wait l g i t g' o : g_reach l g -> g_step g (GWaitReturn i t) = Some (g', o) ->
  exists r, o = [OWait i t r] /\ (r = true <-> OSignal (Some i) ∈ l) /\ (exists w, OStopped i w ∈ l) /\
    (r = false -> exists w, w <> Worker /\ OStopped i w ∈ l).
Proof.
  intros Hr Hs. destruct (ginv_reach _ _ Hr) as (G & _). destruct (reach_facts _ _ Hr) as [F1 F2].
  unfold g_step in Hs. destruct (w_servers g !! i) as [s|] eqn:Hi; [|done]. cbn [mbind option_bind] in Hs.
  destruct (sv_waiters s !! t) as [[]|]; [done| |done]. destruct (0 <? sv_shut s)%nat eqn:Hsh; [|done]. injection Hs as <- <-.
  pose proof (G i s Hi) as I. assert (Hrun : sv_running s = false).
  { pose proof (si_shut _ _ _ I) as H. destruct (sv_running s); [|done]. rewrite H in Hsh. done. }
  exists (sv_signalled s). split; [done|]. split; [|split].
  - split; [apply I|]. intros H. destruct (F1 i H) as (s' & E1 & E2). rewrite Hi in E1. by injection E1 as <-.
  - by apply (F2 i s).
  - intros H. by apply I.
Qed.
(** A call of Wait on a server that has been stopped returns false at once (also
    if it was stopped by a SIGINT); on a running one it does not return. *)
Theorem C80_wait_stopped l g i t g' o : g_reach l g -> g_step g (GWait i t) = Some (g', o) ->
  o = [] /\ (forall w, OStopped i w ∉ l) \/ o = [OWait i t false] /\ exists w, OStopped i w ∈ l.
Proof.
  intros Hr Hs. destruct (ginv_reach _ _ Hr) as (G & _). destruct (reach_facts _ _ Hr) as [F1 F2].
  unfold g_step in Hs. destruct (w_servers g !! i) as [s|] eqn:Hi; [|done]. cbn [mbind option_bind] in Hs.
  destruct (sv_holder s); [done|]. destruct (sv_dtor s); try done. destruct (sv_waiters s !! t); [done|].
  destruct (sv_running s) eqn:Hrun; injection Hs as <- <-.
  - left. split; [done|]. intros w Hw. pose proof (si_ret _ _ _ (G i s Hi) w Hw). congruence.
  - right. split; [done|]. by apply (F2 i s).
Qed.

(** *** SIGINT *)

(** The first call of the worker's function that starts after the signal stops
    the server: when it has returned, Stop has completed. *)
Lemma want_run i g l0 l g' s : ginv l0 g -> g_run g l g' -> w_servers g !! i = Some s ->
  sv_fn s = FWant \/ sv_fn s = FStop \/ sv_running s = false ->
  exists s', w_servers g' !! i = Some s' /\ (sv_fn s' = FWant \/ sv_fn s' = FStop \/ sv_running s' = false).
Proof.
  intros G H. revert G. induction H as [g|g l g1 e g2 o Hr IH Hs]; intros G Hi Hf; [by exists s|].
  destruct (IH G Hi Hf) as (s1 & E1 & E2). destruct (step_server _ _ _ _ _ _ _ (g_run_inv _ _ _ _ G Hr) Hs E1) as (s2 & E3 & E4).
  exists s2. split; [done|]. destruct E2 as [E2|[E2|E2]]; [apply E4; by left|apply E4; by right|]. right. right. by apply E4.
Qed.
Lemma sig_run i g l0 l g' s : ginv l0 g -> g_run g l g' -> w_servers g !! i = Some s -> sv_signalled s = true ->
  exists s', w_servers g' !! i = Some s' /\ sv_signalled s' = true.
Proof.
  intros G H. revert G. induction H as [g|g l g1 e g2 o Hr IH Hs]; intros G Hi Hf; [by exists s|].
  destruct (IH G Hi Hf) as (s1 & E1 & E2). destruct (step_server _ _ _ _ _ _ _ (g_run_inv _ _ _ _ G Hr) Hs E1) as (s2 & E3 & E4).
  exists s2. split; [done|]. by apply E4.
Qed.
Theorem C80_sigint_stops l1 l2 l3 l4 i g : g_reach (l1 ++ OSignal (Some i) :: l2 ++ OCalled i :: l3 ++ OFnDone i :: l4) g ->
  exists w, OStopped i w ∈ l1 ++ OSignal (Some i) :: l2 ++ OCalled i :: l3.
Proof.
  intros H. unfold g_reach in H.
  replace (l1 ++ OSignal (Some i) :: l2 ++ OCalled i :: l3 ++ OFnDone i :: l4)
    with ((l1 ++ OSignal (Some i) :: l2) ++ OCalled i :: (l3 ++ OFnDone i :: l4)) in H by (by rewrite <- app_assoc).
  apply g_run_at in H as (ga & e1 & gb & Ra & S1 & H). apply g_run_at in H as (gc & e2 & gd & Rb & S2 & _).
  destruct (reach_facts _ _ Ra) as [F1 _]. destruct (F1 i) as (s & E1 & E2); [apply elem_of_app; right; apply elem_of_list_here|].
  pose proof (ginv_reach _ _ Ra) as Ga. destruct (step_server _ _ _ _ _ _ _ Ga S1 E1) as (sb & E3 & E4).
  pose proof (ev_called _ _ _ _ E4 ltac:(apply elem_of_list_here) E2) as E5.
  assert (Rb' : g_reach (((l1 ++ OSignal (Some i) :: l2) ++ [OCalled i]) ++ l3) gc).
  { assert (Gn : forall a l b, g_run a l b -> forall c o, g_run b o c -> g_run a (l ++ o) c).
    { clear. intros a l b Hab c o Hbc. revert Hab. induction Hbc as [g|g l0 g1 e g2 o Hr IH Hs]; intros Hab; [by rewrite app_nil_r|].
      rewrite app_assoc. econstructor; [by apply IH|done]. }
    eapply Gn; [|exact Rb]. econstructor; [exact Ra|exact S1]. }
  pose proof (ginv_step _ _ _ _ _ Ga S1) as Gb.
  destruct (want_run i gb _ l3 gc sb Gb Rb E3 (or_introl E5)) as (sc & E6 & E7).
  pose proof (ginv_reach _ _ Rb') as Gc. destruct (step_server _ _ _ _ _ _ _ Gc S2 E6) as (sd & E8 & E9).
  pose proof (ev_done _ _ _ _ E9 ltac:(apply elem_of_list_here)) as E10. rewrite E10 in E7. destruct E7 as [?|[?|E7]]; [done|done|].
  destruct (reach_facts _ _ Rb') as [_ F2]. destruct (F2 i sc E6 E7) as [w Hw]. exists w.
  rewrite <- !app_assoc in Hw. done.
Qed.

(** And nothing can keep the worker from getting there: while the object lives,
    from every state after the signal its own steps, the passing of time and the
    end of a Stop in progress suffice. *)
Definition own_step (i : nat) (e : gevent) : bool :=
  match e with
  | GTick j _ | GBegin j | GWake j | GNext j | GCall j | GReturn j | GStop j Worker | GShut j => (i =? j)%nat
  | _ => false
  end.
Definition gets_stopped (i : nat) (g : world) : Prop :=
  exists es g' l s, Forall (fun e => own_step i e = true) es /\ g_script g es = Some (g', l) /\ w_servers g' !! i = Some s /\ sv_running s = false.
Lemma gets_step i g e g' o : own_step i e = true -> g_step g e = Some (g', o) -> gets_stopped i g' -> gets_stopped i g.
Proof.
  intros He Hs (es & g2 & l & s & H1 & H2 & H3 & H4). exists (e :: es), g2, (o ++ l), s. split; [by constructor|]. split; [|done].
  cbn [g_script]. rewrite Hs. cbn [mbind option_bind]. by rewrite H2.
Qed.
Theorem C80_sigint_progress l g i s : g_reach l g -> w_servers g !! i = Some s -> OSignal (Some i) ∈ l -> sv_dtor s = DNone ->
  gets_stopped i g.
Proof.
  intros Hr Hi Hsg Hd. destruct (ginv_reach _ _ Hr) as (G & _). destruct (reach_facts _ _ Hr) as [F1 _].
  destruct (F1 i Hsg) as (s' & E1 & Hsig). rewrite Hi in E1. injection E1 as <-. pose proof (G i s Hi) as I. clear G F1 Hr Hsg.
  pose proof (si_alive _ _ _ I Hd) as Hst. pose proof (si_thread _ _ _ I Hst) as [Hn1 Hn2].
  destruct (sv_running s) eqn:Hrun; [|by exists [], g, [], s; repeat split].
  destruct (sv_holder s) as [w|] eqn:Hh.
  { eapply (gets_step i g (GShut i)); [apply Nat.eqb_refl| |].
    - unfold g_step. rewrite Hi. cbn [mbind option_bind]. rewrite Hh. cbn [mbind option_bind]. reflexivity.
    - eexists [], _, [], _. split; [constructor|]. split; [done|]. cbn [upd w_servers]. rewrite lookup_insert. done. }
  pose proof (si_worker _ _ _ I) as Hwk. pose proof (si_fn _ _ _ I) as Hfn. rewrite Hh in Hwk. clear I.
  assert (Shut : forall g s w, w_servers g !! i = Some s -> sv_holder s = Some w -> gets_stopped i g).
  { clear. intros g s w Hi Hh. eapply (gets_step i g (GShut i)); [apply Nat.eqb_refl| |].
    - unfold g_step. rewrite Hi. cbn [mbind option_bind]. rewrite Hh. cbn [mbind option_bind]. reflexivity.
    - eexists [], _, [], _. split; [constructor|]. split; [done|]. cbn [upd w_servers]. rewrite lookup_insert. done. }
  assert (Want : forall g s, w_servers g !! i = Some s -> sv_fn s = FWant -> sv_holder s = None -> sv_running s = true -> gets_stopped i g).
  { clear -Shut. intros g s Hi Hf Hh Hr. eapply (gets_step i g (GStop i Worker)); [apply Nat.eqb_refl| |].
    - unfold g_step. rewrite Hi. cbn [mbind option_bind]. unfold may_stop. rewrite Hf. rewrite Hh, Hr. reflexivity.
    - eapply Shut; [cbn [upd w_servers]; rewrite lookup_insert; reflexivity|]. reflexivity. }
  assert (Ready : forall g s n, w_servers g !! i = Some s -> c_worker (sv_clo s) = WReady n -> sv_holder s = None -> sv_running s = true -> sv_signalled s = true -> gets_stopped i g).
  { clear -Want. intros g s n Hi Hw Hh Hr Hsig. eapply (gets_step i g (GCall i)); [apply Nat.eqb_refl| |].
    - unfold g_step. rewrite Hi. cbn [mbind option_bind c_step]. rewrite Hw, Hsig. reflexivity.
    - eapply Want; [cbn [upd w_servers]; rewrite lookup_insert; reflexivity|done..]. }
  assert (Woken : forall g s, w_servers g !! i = Some s -> c_worker (sv_clo s) = WWoken -> sv_holder s = None -> sv_running s = true -> sv_signalled s = true -> gets_stopped i g).
  { clear -Ready. intros g s Hi Hw Hh Hr Hsig. eapply (gets_step i g (GNext i)); [apply Nat.eqb_refl| |].
    - unfold g_step. rewrite Hi. cbn [mbind option_bind c_step]. rewrite Hw. reflexivity.
    - eapply Ready; [cbn [upd w_servers]; rewrite lookup_insert; reflexivity|reflexivity|done..]. }
  assert (Wait : forall g s n, w_servers g !! i = Some s -> c_worker (sv_clo s) = WWait n -> c_stopped (sv_clo s) = false -> sv_holder s = None -> sv_running s = true -> sv_signalled s = true -> gets_stopped i g).
  { clear -Woken. intros g s n Hi Hw Hst Hh Hr Hsig. eapply (gets_step i g (GTick i (Z.max 0 (n - c_now (sv_clo s))))); [apply Nat.eqb_refl| |].
    - unfold g_step. rewrite Hi. cbn [mbind option_bind c_step]. rewrite (proj2 (Z.leb_le _ _)) by lia. reflexivity.
    - eapply (gets_step i _ (GWake i)); [apply Nat.eqb_refl| |].
      + unfold g_step. cbn [upd w_servers]. rewrite lookup_insert. cbn [mbind option_bind c_step set_clo sv_clo c_worker c_stopped c_now]. rewrite Hw, Hst.
        rewrite (proj2 (Z.leb_le _ _)) by lia. reflexivity.
      + eapply Woken; [cbn [upd w_servers]; rewrite lookup_insert; reflexivity|reflexivity|done..]. }
  destruct (sv_fn s) eqn:Hf.
  - destruct (c_worker (sv_clo s)) as [| |n| |n|n|] eqn:Hw; [done| | | | | |done].
    + eapply (gets_step i g (GBegin i)); [apply Nat.eqb_refl| |].
      * unfold g_step. rewrite Hi. cbn [mbind option_bind c_step]. rewrite Hw. reflexivity.
      * eapply Wait; [cbn [upd w_servers]; rewrite lookup_insert; reflexivity|reflexivity|done..].
    + by eapply Wait.
    + by eapply Woken.
    + by eapply Ready.
    + destruct Hfn as [_ Hfn]. exfalso. by apply Hfn; [eexists|].
  - by eapply Want.
  - discriminate (proj2 Hwk eq_refl).
  - destruct Hfn as [Hfn _]. destruct Hfn as [n Hw]; [done|]. eapply (gets_step i g (GReturn i)); [apply Nat.eqb_refl| |].
    + unfold g_step. rewrite Hi. cbn [mbind option_bind c_step]. rewrite Hf, Hw. reflexivity.
    + eapply Wait; [cbn [upd w_servers]; rewrite lookup_insert; reflexivity|reflexivity|done..].
Qed.

(** *** Which server a SIGINT reaches *)

Lemma sigint_same g g' o i : g_step g GSigint = Some (g', o) -> w_handler g <> HFn (Some i) ->
  w_servers g' !! i = w_servers g !! i /\ w_handler g' = w_handler g.
Proof.
  unfold g_step. intros Hs Hh. destruct (w_handler g) as [|[j|]] eqn:E; [by injection Hs as <- _| |by injection Hs as <- _].
  destruct (w_servers g !! j); [|done]. injection Hs as <- _. cbn [upd w_servers w_handler]. split; [|done].
  rewrite lookup_insert_ne; [done|]. congruence.
Qed.

(** ** Examples and refutations *)

Lemma c_script_run p c es c' l : c_script p c es = Some (c', l) -> c_run p c l c'.
Proof.
  assert (G : forall es c0 l0 c1 c2 l, c_run p c0 l0 c1 -> c_script p c1 es = Some (c2, l) -> c_run p c0 (l0 ++ l) c2).
  { clear. induction es as [|e es IH]; intros c0 l0 c1 c2 l Hr Hs; cbn [c_script] in Hs.
    - injection Hs as <- <-. by rewrite app_nil_r.
    - destruct (c_step p c1 e) as [| |c3 r] eqn:E; [done|done|]. destruct (c_script p c3 es) as [[c4 l4]|] eqn:E4; [|done].
      cbn [mbind option_bind] in Hs. injection Hs as <- <-. rewrite cons_middle, app_assoc. apply (IH _ _ c3); [|done]. by econstructor. }
  intros H. apply (G es c [] c c' l); [constructor|done].
Qed.
Lemma g_script_run g es g' l : g_script g es = Some (g', l) -> g_run g l g'.
Proof.
  assert (G : forall es g0 l0 g1 g2 l, g_run g0 l0 g1 -> g_script g1 es = Some (g2, l) -> g_run g0 (l0 ++ l) g2).
  { clear. induction es as [|e es IH]; intros g0 l0 g1 g2 l Hr Hs; cbn [g_script] in Hs.
    - injection Hs as <- <-. by rewrite app_nil_r.
    - destruct (g_step g1 e) as [[g3 o]|] eqn:E; [|done]. cbn [mbind option_bind] in Hs. destruct (g_script g3 es) as [[g4 l4]|] eqn:E4; [|done].
      cbn [mbind option_bind] in Hs. injection Hs as <- <-. rewrite app_assoc. apply (IH _ _ g3); [|done]. by econstructor. }
  intros H. apply (G es g [] g g' l); [constructor|done].
Qed.

(** Two calls 10 apart, then Stop while the second runs. *)
Definition cx_events : list cevent :=
  [CStart; CBegin; CTick 10; CWake; CNext; CCall; CReturn; CTick 12; CWake; CNext; CCall; CStart; CStop; CStop; CReturn; CWake; CJoin; CStart].
Example C79_example : exists c l, c_run 10 (new_closure 0) l c /\ count is_call l = 2%nat /\ count is_started l = 1%nat /\
  count is_joined l = 1%nat /\ l_ret <$> drop 11 l = [Some InvalidArgument; None; Some InvalidArgument; None; None; Some Ok; Some InvalidArgument].
Proof.
  destruct (c_script 10 (new_closure 0) cx_events) as [[c l]|] eqn:E; [|vm_compute in E; discriminate E].
  exists c, l. split; [by apply (c_script_run _ _ cx_events)|]. vm_compute in E. injection E as <- <-. vm_compute. done.
Qed.

(** "The minimum duration between calls to fn_" (periodic_closure.h:98) is false
    of the starts of two consecutive calls: the thread may be delayed between
    computing next_run and the call. *)
Theorem C79_gap_refuted : exists c l x y, c_run 10 (new_closure 0) l c /\ filter (fun z => is_call z = true) l = [x; y] /\ l_time y - l_time x = 1.
Proof.
  destruct (c_script 10 (new_closure 0) [CStart; CBegin; CTick 10; CWake; CNext; CTick 9; CCall; CReturn; CTick 1; CWake; CNext; CCall]) as [[c l]|] eqn:E;
    [|vm_compute in E; discriminate E].
  exists c, l. eexists _, _. split; [by eapply c_script_run|]. vm_compute in E. injection E as <- <-. vm_compute. done.
Qed.
(** A second Stop returns at once, and the function runs after that. *)
Theorem C79_second_stop_refuted : exists c l1 x l2, c_run 10 (new_closure 0) (l1 ++ x :: l2) c /\
  l_event x = CStop /\ l_ret x = Some InvalidArgument /\ count is_call l2 = 1%nat.
Proof.
  destruct (c_script 10 (new_closure 0) [CStart; CBegin; CTick 10; CWake; CStop; CStop; CNext; CCall]) as [[c l]|] eqn:E;
    [|vm_compute in E; discriminate E].
  exists c, (take 5 l). destruct (drop 5 l) as [|x l2] eqn:Ed; [vm_compute in E; injection E as <- <-; discriminate Ed|]. exists x, l2.
  rewrite <- Ed, take_drop. split; [by eapply c_script_run|]. vm_compute in E. injection E as <- <-. vm_compute in Ed. injection Ed as <- <-. vm_compute. done.
Qed.
(** Stop called by the function itself ends the process. *)
Theorem C79_inside_refuted : exists l c, c_run 10 (new_closure 0) l c /\ c_step 10 c CStopInside = CCrash.
Proof.
  destruct (c_script 10 (new_closure 0) [CStart; CBegin; CTick 10; CWake; CNext; CCall]) as [[c l]|] eqn:E; [|vm_compute in E; discriminate E].
  exists l, c. split; [by eapply c_script_run|]. vm_compute in E. injection E as <- <-. reflexivity.
Qed.

(** One server, one waiting thread, a SIGINT. *)
Definition gx_events : list gevent :=
  [GNew 0 0; GBegin 0; GWait 0 7; GRegister 0 7; GSigint; GTick 0 250; GWake 0; GNext 0; GCall 0; GStop 0 Worker; GShut 0; GWaitReturn 0 7; GReturn 0; GWait 0 7].
Example C80_example : exists g, g_reach [OSignal (Some 0%nat); OCalled 0; OStopped 0 Worker; OWait 0 7 true; OFnDone 0; OWait 0 7 false] g.
Proof.
  destruct (g_script world0 gx_events) as [[g l]|] eqn:E; [|vm_compute in E; discriminate E].
  exists g. pose proof (g_script_run _ _ _ _ E) as H. vm_compute in E. injection E as <- <-. exact H.
Qed.
(** Between the signal and the stop. *)
Example C80_progress_example : exists l g s, g_reach l g /\ w_servers g !! 0%nat = Some s /\ OSignal (Some 0%nat) ∈ l /\ sv_dtor s = DNone /\ sv_running s = true.
Proof.
  destruct (g_script world0 (take 6 gx_events)) as [[g l]|] eqn:E; [|vm_compute in E; discriminate E].
  pose proof (g_script_run _ _ _ _ E) as H. vm_compute in E. injection E as <- <-. eexists _, _, _. split; [exact H|].
  split; [vm_compute; reflexivity|]. split; [apply elem_of_list_here|]. done.
Qed.

(** "wait returns if a SIGINT is sent to the process" (server.py:309-321) is false
    with two servers.  Threads wait for both; when server 1 is stopped by its
    user, the thread that waited for it clears the callback of the process, and
    from then on no SIGINT reaches server 0, however many are sent. *)
Theorem C80_two_servers_refuted : exists l g s, g_reach l g /\
  w_servers g !! 0%nat = Some s /\ sv_waiters s !! 7%nat = Some PRegistered /\ sv_running s = true /\
  forall l' g', (exists n, g_script g (replicate n GSigint) = Some (g', l')) -> w_servers g' !! 0%nat = Some s.
Proof.
  destruct (g_script world0 [GNew 0 0; GNew 1 0; GWait 0 7; GRegister 0 7; GWait 1 8; GRegister 1 8; GStop 1 (Ext 9); GShut 1; GWaitReturn 1 8]) as [[g l]|] eqn:E;
    [|vm_compute in E; discriminate E].
  pose proof (g_script_run _ _ _ _ E) as H.
  assert (F : w_handler g = HFn None /\ exists s, w_servers g !! 0%nat = Some s /\ sv_waiters s !! 7%nat = Some PRegistered /\ sv_running s = true).
  { vm_compute in E. injection E as <- <-. split; [reflexivity|]. eexists. split; [vm_compute; reflexivity|]. split; vm_compute; reflexivity. }
  clear E. destruct F as (Hh & s & F1 & F2 & F3). exists l, g, s. split; [exact H|]. split; [done|]. split; [done|]. split; [done|].
  clear H F2 F3. intros l' g' [n Hn]. revert g l' Hh F1 Hn. induction n as [|n IH]; intros g l' Hh F1 Hn; cbn [replicate g_script] in Hn.
  - by injection Hn as <- <-.
  - destruct (g_step g GSigint) as [[g1 o1]|] eqn:E1; [|done]. cbn [mbind option_bind] in Hn.
    destruct (g_script g1 (replicate n GSigint)) as [[g2 l2]|] eqn:E2; [|done]. cbn [mbind option_bind] in Hn. injection Hn as <- <-.
    destruct (sigint_same _ _ _ 0%nat E1) as [G1 G2]; [by rewrite Hh|]. apply (IH g1 l2); [by rewrite G2|by rewrite G1|done].
Qed.
(** With both waiting, a SIGINT stops only the one that registered last. *)
Theorem C80_one_server_refuted : exists l g s0 s1, g_reach l g /\ w_servers g !! 0%nat = Some s0 /\ w_servers g !! 1%nat = Some s1 /\
  sv_waiters s0 !! 7%nat = Some PRegistered /\ sv_waiters s1 !! 8%nat = Some PRegistered /\
  exists g' o, g_step g GSigint = Some (g', o) /\ o = [OSignal (Some 1%nat)] /\ w_servers g' !! 0%nat = Some s0.
Proof.
  destruct (g_script world0 [GNew 0 0; GNew 1 0; GWait 0 7; GRegister 0 7; GWait 1 8; GRegister 1 8]) as [[g l]|] eqn:E;
    [|vm_compute in E; discriminate E].
  pose proof (g_script_run _ _ _ _ E) as H. vm_compute in E. injection E as <- <-. eexists _, _, _, _. split; [exact H|].
  split; [vm_compute; reflexivity|]. split; [vm_compute; reflexivity|]. split; [vm_compute; reflexivity|]. split; [vm_compute; reflexivity|].
  eexists _, _. split; [vm_compute; reflexivity|]. split; [reflexivity|]. vm_compute. reflexivity.
Qed.

(** After a Wait the process ignores SIGINT: the handler that was there before is
    never put back. *)
Theorem C80_handler_kept g e g' o : g_step g e = Some (g', o) -> w_handler g <> HOther -> w_handler g' <> HOther.
Proof.
  unfold g_step. intros Hs Hh. destruct e; unfold mbind, option_bind in Hs; repeat case_match; try discriminate Hs; injection Hs as <- <-;
    cbn [upd w_handler]; congruence.
Qed.
Theorem C80_ignored_refuted : exists l g, g_reach l g /\ OWait 0 7 true ∈ l /\
  g_step g GSigint = Some (g, [OSignal None]).
Proof.
  destruct (g_script world0 gx_events) as [[g l]|] eqn:E; [|vm_compute in E; discriminate E].
  pose proof (g_script_run _ _ _ _ E) as H. exists l, g. split; [exact H|]. vm_compute in E. injection E as <- <-. split; [|vm_compute; reflexivity].
  do 3 apply elem_of_list_further. apply elem_of_list_here.
Qed.

Print Assumptions C79_no_overlap.
Print Assumptions C79_start_once.
Print Assumptions C79_stopped.
Print Assumptions C79_stop_bounded.
Print Assumptions C79_stop_returns.
Print Assumptions C79_rate.
Print Assumptions C79_gap_refuted.
Print Assumptions C79_second_stop_refuted.
Print Assumptions C79_inside_refuted.
Print Assumptions C80_stop.
Print Assumptions C80_wait.
Print Assumptions C80_wait_stopped.
Print Assumptions C80_sigint_stops.
Print Assumptions C80_sigint_progress.
Print Assumptions C80_two_servers_refuted.
Print Assumptions C80_one_server_refuted.
Print Assumptions C80_handler_kept.
Print Assumptions C80_ignored_refuted.
