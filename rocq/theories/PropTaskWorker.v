(** C90: the pool of workers and its deadlock checker. *)
From Verif Require Import Base Executor PropExecutor Closure TaskWorker.
From Coq Require Import Sorting.Sorted.
Local Open Scope Z_scope.

(** ** Specification *)

Definition ac (o : Z * tobs) : option nat := match o.2 with OPush t true => Some t | _ => None end.
Definition po (o : Z * tobs) : option nat := match o.2 with OPop _ t => Some t | _ => None end.
Definition ca (o : Z * tobs) : option nat := match o.2 with OCall _ t _ _ => Some t | _ => None end.
Definition ba (o : Z * tobs) : option nat := match o.2 with OBack _ t => Some t | _ => None end.
(** The tasks that were accepted, taken from the queue, whose callback was called, whose
    callback returned. *)
Definition taskq (l : tlog) : list nat := omap ac l.
Definition popped (l : tlog) : list nat := omap po l.
Definition called (l : tlog) : list nat := omap ca l.
Definition returned (l : tlog) : list nat := omap ba l.
(** The number of tasks that wait. *)
Definition waiting (l : tlog) : nat := (length (taskq l) - length (popped l))%nat.
Definition close_begun (l : tlog) : Prop := OCloseStart ∈ l.*2.
(** The tasks whose callback thread [i] called. *)
Definition cb (i : nat) (o : Z * tobs) : option nat :=
  match o.2 with OCall (Some j) t _ _ => if (i =? j)%nat then Some t else None | _ => None end.
Definition called_by (i : nat) (l : tlog) : list nat := omap (cb i) l.
(** Since when thread [i] has been working on a task. *)
Definition busy_step (i : nat) (b : option Z) (o : Z * tobs) : option Z :=
  match o.2 with
  | OTake j _ => if (i =? j)%nat then Some o.1 else b
  | OFinish j _ => if (i =? j)%nat then None else b
  | _ => b
  end.
Definition busy_since (l : tlog) (i : nat) : option Z := foldl (busy_step i) None l.

(** [P] holds of everything that happens and what had happened before it. *)
Definition every (P : tlog -> Z * tobs -> Prop) (l : tlog) : Prop := forall l1 x l2, l = l1 ++ x :: l2 -> P l1 x.

Lemma every_nil P : every P [].
Proof. intros l1 x l2 H. by destruct l1. Qed.
Lemma every_app P l o : every P l -> (forall a x b, o = a ++ x :: b -> P (l ++ a) x) -> every P (l ++ o).
Proof.
  intros H1 H2 l1 x l2 E. apply app_eq_app in E as (m & [[-> E]|[-> E]]).
  - destruct m as [|y m]; cbn in E.
    + specialize (H2 [] x l2). rewrite !app_nil_r in H2. by apply H2.
    + injection E as <- ->. by apply (H1 l1 x m).
  - by apply (H2 m x l2).
Qed.

(** ** Invariants *)

Definition hold (w : tworker) : list nat := match tw_pos w with TTaken t | TReady t => [t] | _ => [] end.
Definition inside (w : tworker) : list nat := match tw_pos w with TRun t => [t] | _ => [] end.
Definition close_inside (c : qphase) : list nat := match c with QRun t => [t] | _ => [] end.
Definition pb (i : nat) (o : Z * tobs) : option nat :=
  match o.2 with OPop (Some j) t => if (i =? j)%nat then Some t else None | _ => None end.
Definition popped_by (i : nat) (l : tlog) : list nat := omap (pb i) l.

Lemma concat_insert {A} (f : A -> list nat) (ws : list A) (i : nat) w w' : ws !! i = Some w ->
  concat (f <$> <[i := w']> ws) ++ f w ≡ₚ concat (f <$> ws) ++ f w'.
Proof.
  revert i. induction ws as [|x ws IH]; intros [|i] H; cbn in H; try done.
  - injection H as ->. change (<[0%nat := w']> (w :: ws)) with (w' :: ws). rewrite !fmap_cons. cbn [concat]. solve_Permutation.
  - specialize (IH i H). change (<[S i := w']> (x :: ws)) with (x :: <[i := w']> ws). rewrite !fmap_cons. cbn [concat].
    rewrite <- !app_assoc, IH. done.
Qed.

Record tinv (n : nat) (l : tlog) (s : pool) : Prop := {
  ti_len : length (tp_workers s) = n;
  ti_pop : taskq l = popped l ++ u_buf (tp_queue s);
  ti_next : StronglySorted lt (taskq l) /\ Forall (fun t => (t < tp_next s)%nat) (taskq l);
  ti_call : popped l ≡ₚ called l ++ concat (hold <$> tp_workers s);
  ti_back : called l ≡ₚ returned l ++ concat (inside <$> tp_workers s) ++ close_inside (tp_close s);
  ti_own i w : tp_workers s !! i = Some w -> popped_by i l = called_by i l ++ hold w;
  ti_closed : u_closed (tp_queue s) = true <-> u_last (tp_queue s) = true /\ u_buf (tp_queue s) = [];
  ti_last : u_last (tp_queue s) = true <-> close_begun l;
  ti_phase : tp_close s <> QNo -> u_last (tp_queue s) = true;
  ti_join : tp_close s = QJoin -> u_closed (tp_queue s) = true;
  ti_exit i w : tp_workers s !! i = Some w -> exited w = true -> u_closed (tp_queue s) = true;
  ti_clo : match tp_close s with QPop | QRun _ | QJoin => c_stopped (tp_clo s) = true /\ c_worker (tp_clo s) = WNone | QChecker => c_joining (tp_clo s) = true /\ c_stopped (tp_clo s) = true | _ => True end;
  ti_joining : c_joining (tp_clo s) = true -> tp_close s = QChecker;
  ti_run : if c_stopped (tp_clo s) then c_joining (tp_clo s) = false -> c_worker (tp_clo s) = WNone else c_worker (tp_clo s) <> WNone /\ c_worker (tp_clo s) <> WExit;
  ti_stopped : c_stopped (tp_clo s) = true -> u_last (tp_queue s) = true;
  ti_end : OCloseEnd ∈ l.*2 -> Forall (fun w => exited w = true) (tp_workers s) /\ c_stopped (tp_clo s) = true /\ c_joining (tp_clo s) = false /\ u_closed (tp_queue s) = true }.

Lemma repeat_lookup {A} (x : A) n i y : repeat x n !! i = Some y -> y = x.
Proof. revert i. induction n as [|n IH]; intros [|i] H; cbn in H; try done; [by injection H|by eapply IH]. Qed.
Lemma concat_repeat_nil {A} (f : A -> list nat) x n : f x = [] -> concat (f <$> repeat x n) = [].
Proof. intros H. induction n as [|n IH]; cbn; [done|]. by rewrite H. Qed.

Lemma tinv_new n now : tinv n [] (tp_new n now).
Proof.
  split; cbn; try done.
  - by rewrite repeat_length.
  - split; constructor.
  - by rewrite concat_repeat_nil.
  - by rewrite concat_repeat_nil.
  - intros i w H. by apply repeat_lookup in H as ->.
  - split; [done|by intros []].
  - split; [done|]. intros H%elem_of_nil. done.
  - intros i w H. by apply repeat_lookup in H as ->.
  - intros H%elem_of_nil. done.
Qed.

Lemma taskq_app a b : taskq (a ++ b) = taskq a ++ taskq b.
Proof. apply omap_app. Qed.
Lemma popped_app a b : popped (a ++ b) = popped a ++ popped b.
Proof. apply omap_app. Qed.
Lemma called_app a b : called (a ++ b) = called a ++ called b.
Proof. apply omap_app. Qed.
Lemma returned_app a b : returned (a ++ b) = returned a ++ returned b.
Proof. apply omap_app. Qed.
Lemma popped_by_app i a b : popped_by i (a ++ b) = popped_by i a ++ popped_by i b.
Proof. apply omap_app. Qed.
Lemma called_by_app i a b : called_by i (a ++ b) = called_by i a ++ called_by i b.
Proof. apply omap_app. Qed.
Lemma close_begun_app a b : close_begun (a ++ b) <-> close_begun a \/ close_begun b.
Proof. unfold close_begun. by rewrite fmap_app, elem_of_app. Qed.

(** A step keeps the parts of the invariant about the closure's thread. *)
Lemma c_step_tick d c c' r : c_step check_period c (CTick d) = CDone c' r ->
  c_stopped c' = c_stopped c /\ c_worker c' = c_worker c /\ c_joining c' = c_joining c /\ c_now c <= c_now c'.
Proof. cbn. destruct (0 <=? d) eqn:E; [|done]. intros H. injection H as <- <-. cbn. repeat split. lia. Qed.
Lemma c_step_own e c c' r : c_step check_period c e = CDone c' r ->
  match e with CBegin | CWake | CNext | CCall | CReturn => True | _ => False end ->
  c_stopped c' = c_stopped c /\ c_joining c' = c_joining c /\ c_now c' = c_now c /\
  c_worker c <> WNone /\ c_worker c <> WExit /\ c_worker c' <> WNone /\ (c_worker c' = WExit -> c_stopped c = true).
Proof.
  destruct c as [st w j now]. destruct e; cbn; try done; intros H _;
    destruct w; try discriminate H; try (injection H as <- <-; cbn; done).
  destruct st; [injection H as <- <-; cbn; done|]. destruct (_ <=? _); [|done]. by injection H as <- <-.
Qed.

Ltac logs := repeat (rewrite ?taskq_app, ?popped_app, ?called_app, ?returned_app, ?popped_by_app, ?called_by_app, ?close_begun_app, ?app_nil_r; cbn [fmap list_fmap taskq popped called returned popped_by called_by omap list_omap ac po ca ba pb cb fst snd mbind option_bind app]).

Lemma not_in_nil {A} (x : A) : x ∈ [] <-> False.
Proof. split; [intros H; by apply elem_of_nil in H|done]. Qed.

(** The log grows by things that none of the lists count. *)
Definition neutral (o : tobs) : Prop :=
  match o with OResult _ _ | OTake _ _ | OFinish _ _ | OCheck | OQuiet | OWarn _ | OPush _ false => True | _ => False end.
Lemma neutral_log t o (l : tlog) : neutral o ->
  taskq (l ++ [(t, o)]) = taskq l /\ popped (l ++ [(t, o)]) = popped l /\ called (l ++ [(t, o)]) = called l /\ returned (l ++ [(t, o)]) = returned l /\
  (forall i, popped_by i (l ++ [(t, o)]) = popped_by i l) /\ (forall i, called_by i (l ++ [(t, o)]) = called_by i l) /\
  (close_begun (l ++ [(t, o)]) <-> close_begun l) /\ (OCloseEnd ∈ (l ++ [(t, o)]).*2 <-> OCloseEnd ∈ l.*2).
Proof.
  intros H. rewrite taskq_app, popped_app, called_app, returned_app, close_begun_app.
  repeat split; try (destruct o as [? []| | | | | | | | | | | ]; try done; cbn; by rewrite app_nil_r).
  - intros i. rewrite popped_by_app. destruct o as [? []| | | | | | | | | | | ]; try done; cbn; by rewrite app_nil_r.
  - intros i. rewrite called_by_app. destruct o as [? []| | | | | | | | | | | ]; try done; cbn; by rewrite app_nil_r.
  - intros [?|Hm]; [done|]. apply elem_of_list_singleton in Hm. cbn in Hm. by rewrite <- Hm in H.
  - by left.
  - rewrite fmap_app. intros [?|Hm]%elem_of_app; [done|]. apply elem_of_list_singleton in Hm. cbn in Hm. by rewrite <- Hm in H.
  - rewrite fmap_app. intros ?. apply elem_of_app. by left.
Qed.
(** Changes of the thread of the checker and of the statistics. *)
Lemma tinv_neutral n l s t os s' : tinv n l s -> Forall neutral os -> (length os <= 1)%nat ->
  tp_queue s' = tp_queue s -> tp_close s' = tp_close s -> (tp_next s <= tp_next s')%nat ->
  length (tp_workers s') = length (tp_workers s) -> (forall i w, tp_workers s' !! i = Some w -> exists w0, tp_workers s !! i = Some w0 /\ hold w = hold w0 /\ exited w = exited w0) ->
  hold <$> tp_workers s' = hold <$> tp_workers s -> inside <$> tp_workers s' = inside <$> tp_workers s ->
  c_stopped (tp_clo s') = c_stopped (tp_clo s) -> c_joining (tp_clo s') = c_joining (tp_clo s) ->
  (c_worker (tp_clo s) = WNone <-> c_worker (tp_clo s') = WNone) -> (c_stopped (tp_clo s) = false -> c_worker (tp_clo s') <> WExit) ->
  tinv n (l ++ ((t,.) <$> os)) s'.
Proof.
  intros I Ho Hlen Eq Ec En Ew Hw Eh Ei Es Ej Ecw Ex.
  assert (L : taskq (l ++ ((t,.) <$> os)) = taskq l /\ popped (l ++ ((t,.) <$> os)) = popped l /\ called (l ++ ((t,.) <$> os)) = called l /\ returned (l ++ ((t,.) <$> os)) = returned l /\
    (forall i, popped_by i (l ++ ((t,.) <$> os)) = popped_by i l) /\ (forall i, called_by i (l ++ ((t,.) <$> os)) = called_by i l) /\
    (close_begun (l ++ ((t,.) <$> os)) <-> close_begun l) /\ (OCloseEnd ∈ (l ++ ((t,.) <$> os)).*2 <-> OCloseEnd ∈ l.*2)).
  { destruct os as [|o [|]]; cbn in Hlen; try lia; cbn [fmap list_fmap].
    - rewrite !app_nil_r. repeat split; auto.
    - apply neutral_log. by inversion_clear Ho. }
  destruct L as (L1 & L2 & L3 & L4 & L5 & L6 & L7 & L8). destruct I.
  split; rewrite ?L1, ?L2, ?L3, ?L4, ?L7, ?L8, ?Eq, ?Ec, ?Eh, ?Ei, ?Es, ?Ej; try done.
  - by rewrite Ew.
  - destruct ti_next0 as [H1 H2]. split; [done|]. eapply Forall_impl; [exact H2|]. cbn. lia.
  - intros i w Hi. rewrite L5, L6. apply Hw in Hi as (w0 & Hi & -> & _). by apply ti_own0.
  - intros i w Hi Hx. apply Hw in Hi as (w0 & Hi & _ & E). apply (ti_exit0 i w0); [done|]. by rewrite <- E.
  - destruct (tp_close s); try done; by rewrite <- Ecw.
  - destruct (c_stopped (tp_clo s)); [by rewrite <- Ecw|]. rewrite <- Ecw. split; [apply ti_run0|]. by apply Ex.
  - intros Hm. apply ti_end0 in Hm as (H1 & H2). split; [|done].
    apply Forall_lookup. intros i w Hi. apply Hw in Hi as (w0 & Hi & _ & ->). rewrite Forall_lookup in H1. by eapply H1.
Qed.

Lemma end_app (a b : tlog) : OCloseEnd ∈ (a ++ b).*2 <-> OCloseEnd ∈ a.*2 \/ OCloseEnd ∈ b.*2.
Proof. by rewrite fmap_app, elem_of_app. Qed.

Lemma insert_same {A B} (f : A -> B) (ws : list A) (i : nat) w w' : ws !! i = Some w -> f w' = f w -> f <$> <[i := w']> ws = f <$> ws.
Proof. intros H E. rewrite list_fmap_insert, E. apply list_insert_id. by rewrite list_lookup_fmap, H. Qed.
Lemma insert_cases {A} (ws : list A) i w' j w : <[i := w']> ws !! j = Some w -> (i = j /\ w = w' /\ is_Some (ws !! i)) \/ (i <> j /\ ws !! j = Some w).
Proof.
  intros H. destruct (decide (i = j)) as [<-|Hn].
  - apply list_lookup_insert_Some in H as [(_ & -> & H)|(? & _)]; [|done]. left. split; [done|]. split; [done|]. by apply lookup_lt_is_Some.
  - rewrite list_lookup_insert_ne in H by done. by right.
Qed.

(** A thread that does something has not returned, so Close has not. *)
Lemma not_ended n l s i w : tinv n l s -> tp_workers s !! i = Some w -> exited w = false -> OCloseEnd ∉ l.*2.
Proof. intros I Hi Hx Hm. apply (ti_end _ _ _ I) in Hm as (H & _). rewrite Forall_lookup in H. apply H in Hi. congruence. Qed.
Lemma not_ended_open n l s : tinv n l s -> u_closed (tp_queue s) = false -> OCloseEnd ∉ l.*2.
Proof. intros I Hc Hm. apply (ti_end _ _ _ I) in Hm as (_ & _ & _ & H). congruence. Qed.

Lemma tinv_worker max n l s i s' o : tinv n l s -> worker_step max s i = TDone s' o -> tinv n (l ++ ((tp_now s',.) <$> o)) s'.
Proof.
  intros I H. unfold worker_step in H. destruct (tp_workers s !! i) as [[p st]|] eqn:Ei; [|done].
  destruct p as [|t|t|t|t|].
  - destruct (uq_pop (tp_queue s)) as [[[t|] q]|] eqn:Eq; [| |done]; injection H as <- <-.
    + destruct (uq_pop_cases _ _ _ Eq (ti_closed _ _ _ I)) as (P1 & P2 & Eb & Ec).
      assert (Hne := not_ended _ _ _ _ _ I Ei eq_refl). destruct I.
      pose proof (concat_insert hold _ _ _ (mkTworker (TTaken t) st) Ei) as Ph. cbn [hold tw_pos] in Ph. rewrite app_nil_r in Ph.
      split; cbn [set_thread set_queue tp_queue tp_workers tp_close tp_clo tp_snap tp_results tp_next]; logs; rewrite ?P1; try done.
      * by rewrite insert_length.
      * rewrite ti_pop0, Eb. by rewrite <- app_assoc.
      * rewrite Ph, ti_call0. solve_Permutation.
      * by rewrite (insert_same inside _ _ _ _ Ei).
      * intros j w [(<- & -> & _)|(Hn & Hj)]%insert_cases; rewrite popped_by_app, called_by_app; cbn; rewrite ?app_nil_r.
        -- rewrite Nat.eqb_refl. cbn. rewrite (ti_own0 _ _ Ei). cbn. by rewrite app_nil_r.
        -- destruct (j =? i)%nat eqn:E; [apply Nat.eqb_eq in E; congruence|]. cbn. rewrite app_nil_r. by apply ti_own0.
      * by rewrite <- P1.
      * rewrite ti_last0. split; [by left|]. intros [?|Hm]; [done|]. by apply elem_of_list_singleton in Hm.
      * intros Hj. specialize (ti_join0 Hj). congruence.
      * intros j w [(<- & -> & _)|(Hn & Hj)]%insert_cases; cbn; [done|]. intros Hx. specialize (ti_exit0 _ _ Hj Hx). congruence.
      * rewrite end_app. intros [?|Hm]; [done|]. by apply elem_of_list_singleton in Hm.
    + destruct (uq_pop_cases _ _ _ Eq (ti_closed _ _ _ I)) as (P1 & P2 & -> & Ec & Eb).
      assert (Hne := not_ended _ _ _ _ _ I Ei eq_refl). destruct I.
      split; cbn [set_thread set_queue tp_queue tp_workers tp_close tp_clo tp_snap tp_results tp_next]; logs; try done.
      * by rewrite insert_length.
      * by rewrite (insert_same hold _ _ _ _ Ei).
      * by rewrite (insert_same inside _ _ _ _ Ei).
      * intros j w [(<- & -> & _)|(Hn & Hj)]%insert_cases; rewrite ?popped_by_app, ?called_by_app; cbn; rewrite ?app_nil_r; [|by apply ti_own0]. rewrite (ti_own0 _ _ Ei). cbn. by rewrite ?app_nil_r.
      * rewrite ti_last0. split; [by left|]. intros [?|Hm]; [done|]. by apply elem_of_nil in Hm.
  - injection H as <- <-. apply (tinv_neutral n l s); try done.
    + by repeat constructor.
    + cbn. by rewrite insert_length.
    + cbn. intros j w [(<- & -> & _)|(Hn & Hj)]%insert_cases; eauto.
    + cbn. by rewrite (insert_same hold _ _ _ _ Ei).
    + cbn. by rewrite (insert_same inside _ _ _ _ Ei).
    + intros Hs. pose proof (ti_run _ _ _ I) as R. rewrite Hs in R. apply R.
  - injection H as <- <-. assert (Hne := not_ended _ _ _ _ _ I Ei eq_refl). destruct I.
    pose proof (concat_insert hold _ _ _ (mkTworker (TRun t) st) Ei) as Ph. cbn [hold tw_pos] in Ph. rewrite app_nil_r in Ph.
    pose proof (concat_insert inside _ _ _ (mkTworker (TRun t) st) Ei) as Pi. cbn [inside tw_pos] in Pi. rewrite app_nil_r in Pi.
    split; cbn [set_thread set_queue tp_queue tp_workers tp_close tp_clo tp_snap tp_results tp_next]; logs; try done.
    + by rewrite insert_length.
    + rewrite ti_call0, <- Ph. solve_Permutation.
    + rewrite ti_back0, Pi. solve_Permutation.
    + intros j w [(<- & -> & _)|(Hn & Hj)]%insert_cases; rewrite popped_by_app, called_by_app; cbn; rewrite ?app_nil_r.
      * rewrite Nat.eqb_refl. cbn. rewrite (ti_own0 _ _ Ei). cbn. by rewrite ?app_nil_r.
      * destruct (j =? i)%nat eqn:E; [apply Nat.eqb_eq in E; congruence|]. cbn. rewrite app_nil_r. by apply ti_own0.
    + rewrite ti_last0. split; [by left|]. intros [?|Hm]; [done|]. by apply elem_of_list_singleton in Hm.
    + intros j w [(<- & -> & _)|(Hn & Hj)]%insert_cases; cbn; [done|]. by apply (ti_exit0 j).
    + rewrite end_app. intros [?|Hm]; [done|]. by apply elem_of_list_singleton in Hm.
  - injection H as <- <-. assert (Hne := not_ended _ _ _ _ _ I Ei eq_refl). destruct I.
    pose proof (concat_insert inside _ _ _ (mkTworker (TAfter t) st) Ei) as Pi. cbn [inside tw_pos] in Pi. rewrite app_nil_r in Pi.
    split; cbn [set_thread set_queue tp_queue tp_workers tp_close tp_clo tp_snap tp_results tp_next]; logs; try done.
    + by rewrite insert_length.
    + by rewrite (insert_same hold _ _ _ _ Ei).
    + rewrite ti_back0, <- Pi. solve_Permutation.
    + intros j w [(<- & -> & _)|(Hn & Hj)]%insert_cases; rewrite ?popped_by_app, ?called_by_app; cbn; rewrite ?app_nil_r; [|by apply ti_own0]. rewrite (ti_own0 _ _ Ei). cbn. by rewrite ?app_nil_r.
    + rewrite ti_last0. split; [by left|]. intros [?|Hm]; [done|]. by apply elem_of_list_singleton in Hm.
    + intros j w [(<- & -> & _)|(Hn & Hj)]%insert_cases; cbn; [done|]. by apply (ti_exit0 j).
    + rewrite end_app. intros [?|Hm]; [done|]. by apply elem_of_list_singleton in Hm.
  - injection H as <- <-. apply (tinv_neutral n l s); try done.
    + by repeat constructor.
    + cbn. by rewrite insert_length.
    + cbn. intros j w [(<- & -> & _)|(Hn & Hj)]%insert_cases; eauto.
    + cbn. by rewrite (insert_same hold _ _ _ _ Ei).
    + cbn. by rewrite (insert_same inside _ _ _ _ Ei).
    + intros Hs. pose proof (ti_run _ _ _ I) as R. rewrite Hs in R. apply R.
  - done.
Qed.


Lemma tinv_close n l s s' o : tinv n l s -> close_step s = TDone s' o -> tinv n (l ++ ((tp_now s',.) <$> o)) s'.
Proof.
  intros I H. unfold close_step in H. destruct (tp_close s) as [| | | |t|] eqn:Ec.
  - injection H as <- <-. destruct I. rewrite Ec in *; cbn [close_inside] in ti_back0; rewrite ?app_nil_r in ti_back0.
    split; cbn [set_close set_queue uq_set_last u_buf u_closed u_last tp_queue tp_workers tp_close tp_clo tp_snap tp_results tp_next]; logs; try done.
    + intros i w Hi. rewrite popped_by_app, called_by_app. cbn. rewrite !app_nil_r. by apply ti_own0.
    + destruct (u_buf (tp_queue s)); [done|]. split; [|by intros [_ ?]]. intros Hc. by apply ti_closed0 in Hc as [_ ?].
    + split; [|done]. intros _. right. by apply elem_of_list_singleton.
    + intros i w Hi Hx. specialize (ti_exit0 _ _ Hi Hx). by destruct (u_buf (tp_queue s)).
    + intros Hj. by specialize (ti_joining0 Hj).
    + rewrite end_app. intros [Hm|Hm]; [|by apply elem_of_list_singleton in Hm].
      apply ti_end0 in Hm as (? & ? & ? & Hu). split; [done|]. split; [done|]. split; [done|]. by destruct (u_buf (tp_queue s)).
  - cbn in H. destruct (c_stopped (tp_clo s)) eqn:Es; injection H as <- <-; destruct I; rewrite Ec in *; cbn [close_inside] in ti_back0; rewrite ?app_nil_r in ti_back0.
    + split; cbn [set_close set_clock tp_queue tp_workers tp_close tp_clo tp_snap tp_results tp_next]; logs; try done.
      * rewrite ti_last0. split; [by left|]. intros [?|Hm]; [done|]. by apply elem_of_nil in Hm.
      * intros _. by apply ti_phase0.
      * split; [done|]. rewrite Es in ti_run0. apply ti_run0. destruct (c_joining (tp_clo s)); [|done]. by specialize (ti_joining0 eq_refl).
      * intros Hj. by specialize (ti_joining0 Hj).
    + split; cbn [set_close set_clock tp_queue tp_workers tp_close tp_clo tp_snap tp_results tp_next c_stopped c_worker c_joining]; logs; try done.
      * rewrite ti_last0. split; [by left|]. intros [?|Hm]; [done|]. by apply elem_of_nil in Hm.
      * intros _. by apply ti_phase0.
      * intros _. by apply ti_phase0.
      * intros Hm. apply ti_end0 in Hm as (_ & ? & _). congruence.
  - cbn in H. destruct (c_joining (tp_clo s)) eqn:Ej; [|done].
    assert (Hw : (c_worker (tp_clo s) = WNone \/ c_worker (tp_clo s) = WExit) /\ s' = set_close (set_clock s (mkClosure (c_stopped (tp_clo s)) WNone false (c_now (tp_clo s)))) QPop /\ o = []).
    { destruct (c_worker (tp_clo s)); try done; injection H as <- <-; auto. }
    destruct Hw as (Hw & -> & ->). clear H. destruct I. rewrite Ec in *; cbn [close_inside] in ti_back0; rewrite ?app_nil_r in ti_back0. destruct ti_clo0 as [_ Es].
    split; cbn [set_close set_clock tp_queue tp_workers tp_close tp_clo tp_snap tp_results tp_next c_stopped c_worker c_joining]; logs; try done.
    + rewrite ti_last0. split; [by left|]. intros [?|Hm]; [done|]. by apply elem_of_nil in Hm.
    + intros _. by apply ti_phase0.
    + by rewrite Es.
    + intros Hm. apply ti_end0 in Hm as (_ & _ & ? & _). congruence.
  - destruct (uq_pop (tp_queue s)) as [[[t|] q]|] eqn:Eq; [| |done]; injection H as <- <-.
    + destruct (uq_pop_cases _ _ _ Eq (ti_closed _ _ _ I)) as (P1 & P2 & Eb & Eu).
      assert (Hne := not_ended_open _ _ _ I Eu). destruct I. rewrite Ec in *; cbn [close_inside] in ti_back0; rewrite ?app_nil_r in ti_back0.
      split; cbn [set_close set_queue tp_queue tp_workers tp_close tp_clo tp_snap tp_results tp_next]; logs; rewrite ?P1; try done.
      * rewrite ti_pop0, Eb. by rewrite <- app_assoc.
      * rewrite ti_call0. solve_Permutation.
      * rewrite ti_back0. cbn [close_inside]. solve_Permutation.
      * intros i w Hi. rewrite popped_by_app, called_by_app. cbn. rewrite !app_nil_r. by apply ti_own0.
      * by rewrite <- P1.
      * rewrite ti_last0. split; [by left|]. intros [?|Hm]; [done|]. cbn in Hm. unfold close_begun in Hm. cbn in Hm. set_solver.
      * intros _. by apply ti_phase0.
      * intros i w Hi Hx. specialize (ti_exit0 _ _ Hi Hx). congruence.
      * intros Hj. by specialize (ti_joining0 Hj).
      * rewrite end_app. intros [?|Hm]; [done|]. cbn in Hm. set_solver.
    + destruct (uq_pop_cases _ _ _ Eq (ti_closed _ _ _ I)) as (P1 & P2 & -> & Eu & Eb).
      destruct I. rewrite Ec in *; cbn [close_inside] in ti_back0; rewrite ?app_nil_r in ti_back0.
      split; cbn [set_close set_queue tp_queue tp_workers tp_close tp_clo tp_snap tp_results tp_next]; logs; try done.
      * rewrite ti_last0. split; [by left|]. intros [?|Hm]; [done|]. by apply elem_of_nil in Hm.
      * intros _. by apply ti_phase0.
      * intros Hj. by specialize (ti_joining0 Hj).
  - injection H as <- <-. destruct I. rewrite Ec in *; cbn [close_inside] in ti_back0; rewrite ?app_nil_r in ti_back0.
    split; cbn [set_close set_queue tp_queue tp_workers tp_close tp_clo tp_snap tp_results tp_next]; logs; try done.
    + rewrite ti_back0. cbn [close_inside]. solve_Permutation.
    + intros i w Hi. rewrite popped_by_app, called_by_app. cbn. rewrite !app_nil_r. by apply ti_own0.
    + rewrite ti_last0. split; [by left|]. intros [?|Hm]; [done|]. by apply elem_of_list_singleton in Hm.
    + intros _. by apply ti_phase0.
    + intros Hj. by specialize (ti_joining0 Hj).
    + rewrite end_app. intros [Hm|Hm]; [by apply ti_end0|]. by apply elem_of_list_singleton in Hm.
  - destruct (forallb exited (tp_workers s)) eqn:Ew; [|done]. injection H as <- <-. destruct I. rewrite Ec in *; cbn [close_inside] in ti_back0; rewrite ?app_nil_r in ti_back0.
    split; cbn [set_close set_queue tp_queue tp_workers tp_close tp_clo tp_snap tp_results tp_next]; logs; try done.
    + intros i w Hi. rewrite popped_by_app, called_by_app. cbn. rewrite !app_nil_r. by apply ti_own0.
    + rewrite ti_last0. split; [by left|]. intros [?|Hm]; [done|]. by apply elem_of_list_singleton in Hm.
    + intros Hj. by specialize (ti_joining0 Hj).
    + intros _. split; [|split; [apply ti_clo0|split; [|by apply ti_join0]]].
      * apply Forall_forall. intros w Hi%elem_of_list_In. rewrite forallb_forall in Ew. by apply Ew.
      * destruct (c_joining (tp_clo s)); [|done]. by specialize (ti_joining0 eq_refl).
Qed.

Lemma tinv_clock n l s e s' os : tinv n l s -> closure_step s e = Some s' -> Forall neutral os -> (length os <= 1)%nat ->
  match e with CBegin | CWake | CNext | CCall | CReturn | CTick _ => True | _ => False end -> forall sn t, tinv n (l ++ ((t,.) <$> os)) (set_snap s' sn).
Proof.
  intros I H Ho Hl He sn t. unfold closure_step in H. destruct (c_step check_period (tp_clo s) e) as [| |c r] eqn:E; try done. injection H as <-.
  assert (C : c_stopped c = c_stopped (tp_clo s) /\ c_joining c = c_joining (tp_clo s) /\ (c_worker (tp_clo s) = WNone <-> c_worker c = WNone) /\ (c_stopped (tp_clo s) = false -> c_worker c <> WExit)).
  { assert (D : (exists d, e = CTick d) \/ match e with CBegin | CWake | CNext | CCall | CReturn => True | _ => False end) by (destruct e; eauto).
    destruct D as [[d ->]|D].
    - apply c_step_tick in E as (-> & -> & -> & _). split; [done|]. split; [done|]. split; [done|]. intros Hs. pose proof (ti_run _ _ _ I) as R. rewrite Hs in R. apply R.
    - apply c_step_own in E as (-> & -> & _ & ? & ? & ? & Hx); [|done]. split; [done|]. split; [done|]. split; [done|]. intros Hs Hw. apply Hx in Hw. congruence. }
  destruct C as (C1 & C2 & C3 & C4). apply (tinv_neutral n l s); try done.
  cbn. intros i w Hi. eauto.
Qed.

Lemma set_snap_id s : set_snap s (tp_snap s) = s.
Proof. by destruct s. Qed.
Lemma tinv_snap n l s sn os t : tinv n l s -> Forall neutral os -> (length os <= 1)%nat -> tinv n (l ++ ((t,.) <$> os)) (set_snap s sn).
Proof.
  intros I Ho Hl. apply (tinv_neutral n l s); try done.
  - cbn. intros i w Hi. eauto.
  - intros Hs. pose proof (ti_run _ _ _ I) as R. rewrite Hs in R. apply R.
Qed.

Lemma tinv_step max n l s e s' o : tinv n l s -> tp_step max s e = TDone s' o -> tinv n (l ++ ((tp_now s',.) <$> o)) s'.
Proof.
  intros I H. destruct e as [|t|i| | |d].
  - cbn [tp_step] in H. unfold uq_push in H. destruct (u_closed (tp_queue s) || u_last (tp_queue s)) eqn:Eu; injection H as <- <-.
    + apply (tinv_neutral n l s); try done; cbn; [by repeat constructor|lia|eauto|].
      intros Hs. pose proof (ti_run _ _ _ I) as R. rewrite Hs in R. apply R.
    + apply orb_false_iff in Eu as [E1 E2]. assert (Hne := not_ended_open _ _ _ I E1). destruct I.
      split; cbn [tp_queue tp_workers tp_close tp_clo tp_snap tp_results tp_next u_buf u_closed u_last]; logs; try done.
      * by rewrite ti_pop0, <- app_assoc.
      * destruct ti_next0 as [N1 N2]. split.
        -- clear -N1 N2. induction N1 as [|a k N1 IH N3]; cbn; [by repeat constructor|]. inversion_clear N2. constructor; [by apply IH|].
           apply Forall_app. split; [done|]. by constructor.
        -- apply Forall_app. split; [eapply Forall_impl; [exact N2|]; cbn; lia|]. constructor; [lia|constructor].
      * intros i w Hi. rewrite popped_by_app, called_by_app. cbn. rewrite !app_nil_r. by apply ti_own0.
      * rewrite E1, E2. split; [done|by intros []].
      * rewrite ti_last0. split; [by left|]. intros [?|Hm]; [done|]. by apply elem_of_list_singleton in Hm.
      * rewrite end_app. intros [?|Hm]; [done|]. by apply elem_of_list_singleton in Hm.
  - cbn [tp_step] in H. destruct (bool_decide _); [|done]. injection H as <- <-.
    apply (tinv_neutral n l s); try done; cbn; [by repeat constructor|eauto|].
    intros Hs. pose proof (ti_run _ _ _ I) as R. rewrite Hs in R. apply R.
  - by eapply tinv_worker.
  - by eapply tinv_close.
  - cbn [tp_step] in H. unfold checker_step in H.
    assert (G : forall e0 o0, match e0 with CBegin | CWake | CNext | CCall | CReturn => True | _ => False end -> Forall neutral o0 -> (length o0 <= 1)%nat ->
      match closure_step s e0 with Some s => TDone s o0 | None => TNot end = TDone s' o -> tinv n (l ++ ((tp_now s',.) <$> o)) s').
    { intros e0 o0 He Ho Hl Hd. destruct (closure_step s e0) as [s1|] eqn:E1; [|done]. injection Hd as -> ->.
      rewrite <- (set_snap_id s') at 2. eapply tinv_clock; try done. by destruct e0. }
    destruct (c_worker (tp_clo s)); try done; try (by eapply G; [| | |exact H]; [done|constructor|cbn; lia]).
    + destruct (closure_step s CCall) as [s1|] eqn:E1; [|done]. injection H as <- <-. eapply tinv_clock; try done. by repeat constructor.
    + destruct (tp_snap s) as [k|]; [|by eapply G; [| | |exact H]; [done|constructor|cbn; lia]].
      destruct (tp_workers s !! length k) as [w|]; [injection H as <- <-; apply tinv_snap; [done|constructor|cbn; lia]|].
      unfold check_end in H. destruct (_ =? -1); [injection H as <- <-; apply tinv_snap; [done|by repeat constructor|cbn; lia]|].
      destruct (k !! _) as [st|]; [|done]. injection H as <- <-. apply tinv_snap; [done| |cbn; lia]. constructor; [|constructor]. by destruct (_ <=? _).
  - cbn [tp_step] in H. destruct (closure_step s (CTick d)) as [s1|] eqn:E1; [|done]. injection H as <- <-.
    rewrite <- (set_snap_id s1) at 2. by eapply tinv_clock; [exact I|exact E1|constructor|cbn; lia|].
Qed.

Lemma tinv_run max n now l s : tp_run max (tp_new n now) l s -> tinv n l s.
Proof. induction 1; [apply tinv_new|by eapply tinv_step]. Qed.

(** ** The statistics and the deadlock checker *)

Definition is_take (i : nat) (o : tobs) : bool := match o with OTake j _ => (i =? j)%nat | _ => false end.
Definition is_finish (i : nat) (o : tobs) : bool := match o with OFinish j _ => (i =? j)%nat | _ => false end.
(** How many tasks thread [i] has noted as started, as finished. *)
Definition takes (i : nat) (l : tlog) : nat := length (List.filter (fun o => is_take i o.2) l).
Definition finishes (i : nat) (l : tlog) : nat := length (List.filter (fun o => is_finish i o.2) l).

(** A moment since the last check began. *)
Definition during (l m : tlog) : Prop :=
  exists a t b c, l = m ++ c /\ m = a ++ (t, OCheck) :: b /\ OCheck ∉ (b ++ c).*2.

Definition unnoted (o : tobs) : Prop := match o with OTake _ _ | OFinish _ _ => False | _ => True end.
Definition busyp (w : tworker) : bool := match tw_pos w with TReady _ | TRun _ | TAfter _ => true | _ => false end.

Lemma stat_step max s e s' o : tp_step max s e = TDone s' o ->
  (exists i t st, e = PWorker i /\ tp_workers s !! i = Some (mkTworker (TTaken t) st) /\ o = [OTake i t] /\ tp_now s' = tp_now s /\
     s' = set_thread s i (mkTworker (TReady t) (mkTstats (st_current st + 1) (tp_now s) (st_processed st)))) \/
  (exists i t st, e = PWorker i /\ tp_workers s !! i = Some (mkTworker (TAfter t) st) /\ o = [OFinish i t] /\ tp_now s' = tp_now s /\
     s' = set_thread s i (mkTworker TPop (mkTstats (st_current st) (st_started st) (st_processed st + 1)))) \/
  (Forall unnoted o /\ forall i w', tp_workers s' !! i = Some w' -> exists w, tp_workers s !! i = Some w /\ tw_stats w' = tw_stats w /\ busyp w' = busyp w).
Proof.
  intros H. destruct e as [|t|i| | |d].
  - right; right. cbn in H. destruct (uq_push _ _). injection H as <- <-. split; [by repeat constructor|cbn; eauto].
  - right; right. cbn in H. destruct (bool_decide _); [|done]. injection H as <- <-. split; [by repeat constructor|cbn; eauto].
  - cbn in H. unfold worker_step in H. destruct (tp_workers s !! i) as [[p st]|] eqn:Ei; [|done].
    destruct p as [|t|t|t|t|]; try done.
    + destruct (uq_pop _) as [[[t|] q]|]; [| |done]; injection H as <- <-; right; right; (split; [by repeat constructor|]); cbn;
        intros j w [(<- & -> & _)|(Hn & Hj)]%insert_cases; eauto.
    + injection H as <- <-. left. exists i, t, st. auto.
    + injection H as <- <-; right; right; (split; [by repeat constructor|]); cbn; intros j w [(<- & -> & _)|(Hn & Hj)]%insert_cases; eauto.
    + injection H as <- <-; right; right; (split; [by repeat constructor|]); cbn; intros j w [(<- & -> & _)|(Hn & Hj)]%insert_cases; eauto.
    + injection H as <- <-. right; left. exists i, t, st. auto.
  - right; right. cbn [tp_step] in H. unfold close_step in H. destruct (tp_close s).
    + injection H as <- <-. split; [by repeat constructor|cbn; eauto].
    + destruct (c_step _ _ _) as [| |c [r|]]; try done; injection H as <- <-; (split; [by repeat constructor|cbn; eauto]).
    + destruct (c_step _ _ _) as [| |c r]; try done; injection H as <- <-; (split; [by repeat constructor|cbn; eauto]).
    + destruct (uq_pop _) as [[[t|] q]|]; [| |done]; injection H as <- <-; (split; [by repeat constructor|cbn; eauto]).
    + injection H as <- <-. split; [by repeat constructor|cbn; eauto].
    + destruct (forallb _ _); [|done]. injection H as <- <-. split; [by repeat constructor|cbn; eauto].
  - right; right. cbn [tp_step] in H. unfold checker_step, closure_step in H. destruct (c_worker (tp_clo s)); try done.
    + destruct (c_step _ _ _) as [| |c r]; try done; injection H as <- <-; (split; [by repeat constructor|cbn; eauto]).
    + destruct (c_step _ _ _) as [| |c r]; try done; injection H as <- <-; (split; [by repeat constructor|cbn; eauto]).
    + destruct (c_step _ _ _) as [| |c r]; try done; injection H as <- <-; (split; [by repeat constructor|cbn; eauto]).
    + destruct (c_step _ _ _) as [| |c r]; try done; injection H as <- <-; (split; [by repeat constructor|cbn; eauto]).
    + destruct (tp_snap s) as [k|].
      * destruct (tp_workers s !! length k); [injection H as <- <-; (split; [by repeat constructor|cbn; eauto])|].
        unfold check_end in H. destruct (_ =? -1); [injection H as <- <-; (split; [by repeat constructor|cbn; eauto])|].
        destruct (k !! _); [|done]. injection H as <- <-. split; [|cbn; eauto]. constructor; [|constructor]. by destruct (_ <=? _).
      * destruct (c_step _ _ _) as [| |c r]; try done; injection H as <- <-; (split; [by repeat constructor|cbn; eauto]).
  - right; right. cbn [tp_step] in H. unfold closure_step in H. destruct (c_step _ _ _) as [| |c r]; try done; injection H as <- <-. split; [by repeat constructor|cbn; eauto].
Qed.

Lemma busy_app l o i : busy_since (l ++ o) i = foldl (busy_step i) (busy_since l i) o.
Proof. apply foldl_app. Qed.
Lemma takes_app i a b : takes i (a ++ b) = (takes i a + takes i b)%nat.
Proof. unfold takes. by rewrite List.filter_app, app_length. Qed.
Lemma finishes_app i a b : finishes i (a ++ b) = (finishes i a + finishes i b)%nat.
Proof. unfold finishes. by rewrite List.filter_app, app_length. Qed.
Lemma unnoted_log l t o i : Forall unnoted o ->
  busy_since (l ++ ((t,.) <$> o)) i = busy_since l i /\ takes i (l ++ ((t,.) <$> o)) = takes i l /\ finishes i (l ++ ((t,.) <$> o)) = finishes i l.
Proof.
  intros H. rewrite busy_app, takes_app, finishes_app. generalize (busy_since l i). induction H as [|x o Hx H IH]; intros b; [cbn; repeat split; lia|].
  rewrite fmap_cons. specialize (IH b) as (I1 & I2 & I3).
  assert (E : busy_step i b (t, x) = b) by (by destruct x). cbn [foldl]. rewrite E. split; [done|].
  unfold takes, finishes in *. cbn [List.filter snd]. by destruct x.
Qed.

Record wok (l : tlog) (i : nat) (w : tworker) : Prop := {
  wo_busy : busy_since l i = if busyp w then Some (st_started (tw_stats w)) else None;
  wo_current : st_current (tw_stats w) = st_processed (tw_stats w) - if busyp w then 0 else 1;
  wo_takes : st_current (tw_stats w) + 1 = Z.of_nat (takes i l);
  wo_finishes : st_processed (tw_stats w) = Z.of_nat (finishes i l) }.

Lemma wok_step max n now l s i w : tp_run max (tp_new n now) l s -> tp_workers s !! i = Some w -> wok l i w.
Proof.
  intros H. revert i w. induction H as [|l s e s' o H IH Hs]; intros i w Hi.
  - cbn in Hi. apply repeat_lookup in Hi as ->. by split.
  - destruct (stat_step _ _ _ _ _ Hs) as [(j & t & st & -> & Ej & -> & En & ->)|[(j & t & st & -> & Ej & -> & En & ->)|[Ho Hw]]].
    + cbn [set_thread tp_workers] in Hi. cbn [fmap list_fmap]. apply insert_cases in Hi as [(-> & -> & _)|(Hn & Hi)].
      * destruct (IH _ _ Ej) as [B1 B2 B3 B4]. cbn in B1, B2, B3, B4.
        split; cbn [busyp tw_pos tw_stats st_started st_current st_processed]; rewrite ?busy_app, ?takes_app, ?finishes_app; unfold takes, finishes in *; cbn; rewrite ?Nat.eqb_refl; cbn; try lia. done.
      * destruct (IH _ _ Hi) as [B1 B2 B3 B4]. assert (E : (i =? j)%nat = false) by (apply Nat.eqb_neq; congruence).
        split; rewrite ?busy_app, ?takes_app, ?finishes_app; unfold takes, finishes in *; cbn; rewrite ?E; cbn; try lia; done.
    + cbn [set_thread tp_workers] in Hi. cbn [fmap list_fmap]. apply insert_cases in Hi as [(-> & -> & _)|(Hn & Hi)].
      * destruct (IH _ _ Ej) as [B1 B2 B3 B4]. cbn in B1, B2, B3, B4.
        split; cbn [busyp tw_pos tw_stats st_started st_current st_processed]; rewrite ?busy_app, ?takes_app, ?finishes_app; unfold takes, finishes in *; cbn; rewrite ?Nat.eqb_refl; cbn; try lia. done.
      * destruct (IH _ _ Hi) as [B1 B2 B3 B4]. assert (E : (i =? j)%nat = false) by (apply Nat.eqb_neq; congruence).
        split; rewrite ?busy_app, ?takes_app, ?finishes_app; unfold takes, finishes in *; cbn; rewrite ?E; cbn; try lia; done.
    + apply Hw in Hi as (w0 & Hi & E1 & E2). destruct (IH _ _ Hi) as [B1 B2 B3 B4].
      destruct (unnoted_log l (tp_now s') o i Ho) as (U1 & U2 & U3).
      split; rewrite ?U1, ?U2, ?U3, E1, ?E2; done.
Qed.

Definition idle (st : tstats) : bool := (st_current st <? st_processed st) || (st_current st =? -1).
Definition reads (l : tlog) (i : nat) (st : tstats) : Prop :=
  if idle st then busy_since l i = None else busy_since l i = Some (st_started st).
Lemma wok_reads l i w : wok l i w -> reads l i (tw_stats w).
Proof.
  intros [B1 B2 B3 B4]. unfold reads, idle. destruct (busyp w).
  - destruct (st_current _ <? _) eqn:E1; [lia|]. destruct (_ =? -1) eqn:E2; [lia|]. done.
  - destruct (st_current _ <? _) eqn:E1; [done|lia].
Qed.

Definition snap_ok (n : nat) (l : tlog) (k : list tstats) : Prop :=
  (length k <= n)%nat /\ during l l /\ forall j st, k !! j = Some st -> exists m, during l m /\ reads m j st.

Lemma during_app l m o : during l m -> OCheck ∉ o.*2 -> during (l ++ o) m.
Proof.
  intros (a & t & b & c & -> & -> & H) Ho. exists a, t, b, (c ++ o). split; [by rewrite <- !app_assoc|]. split; [done|].
  rewrite app_assoc, fmap_app, elem_of_app. tauto.
Qed.
Lemma during_self l o m : during l m -> OCheck ∉ o.*2 -> during (l ++ o) (l ++ o).
Proof.
  intros (a & t & b & c & -> & -> & H) Ho. exists a, t, (b ++ c ++ o), []. split; [by rewrite app_nil_r|]. split; [by rewrite <- !app_assoc|].
  rewrite app_nil_r, app_assoc, fmap_app, elem_of_app. tauto.
Qed.
Lemma snap_app n l k o : snap_ok n l k -> OCheck ∉ o.*2 -> snap_ok n (l ++ o) k.
Proof.
  intros (H1 & H2 & H3) Ho. split; [done|]. split; [by eapply during_self|]. intros j st Hj. destruct (H3 _ _ Hj) as (m & Hm & Hr). exists m. split; [by apply during_app|done].
Qed.

Definition in_check (s : pool) : bool := match c_worker (tp_clo s) with WRun _ => true | _ => false end.
Lemma stamp_elem (t : Z) (o : list tobs) x : x ∈ ((t,.) <$> o).*2 <-> x ∈ o.
Proof. rewrite <- list_fmap_compose. induction o as [|y o IH]; [done|]. rewrite fmap_cons, !elem_of_cons, IH. done. Qed.

(** What the steps outside of the checker do with it. *)
Lemma check_step max s e s' o : tp_step max s e = TDone s' o -> e <> PChecker ->
  tp_snap s' = tp_snap s /\ (in_check s' = true -> in_check s = true) /\ (OCheck ∉ o /\ OQuiet ∉ o /\ forall x, OWarn x ∉ o).
Proof.
  intros H He. destruct e as [|t|i| | |d]; try done.
  - cbn in H. destruct (uq_push _ _). injection H as <- <-. cbn. repeat split; try done; intros; set_solver.
  - cbn in H. destruct (bool_decide _); [|done]. injection H as <- <-. cbn. repeat split; try done; intros; set_solver.
  - cbn in H. unfold worker_step in H. destruct (tp_workers s !! i) as [[p st]|] eqn:Ei; [|done].
    destruct p as [|t|t|t|t|]; try done; try (injection H as <- <-; cbn; repeat split; try done; intros; set_solver).
    destruct (uq_pop _) as [[[t|] q]|]; [| |done]; injection H as <- <-; cbn; repeat split; try done; intros; set_solver.
  - cbn [tp_step] in H. unfold close_step in H. destruct (tp_close s).
    + injection H as <- <-. cbn; repeat split; try done; intros; set_solver.
    + cbn in H. destruct (c_stopped _); injection H as <- <-; cbn; repeat split; try done; intros; set_solver.
    + cbn in H. destruct (c_joining _); [|done]. destruct (c_worker _); try done; injection H as <- <-; cbn; repeat split; try done; intros; set_solver.
    + destruct (uq_pop _) as [[[t|] q]|]; [| |done]; injection H as <- <-; cbn; repeat split; try done; intros; set_solver.
    + injection H as <- <-. cbn; repeat split; try done; intros; set_solver.
    + destruct (forallb _ _); [|done]. injection H as <- <-. cbn; repeat split; try done; intros; set_solver.
  - cbn [tp_step] in H. unfold closure_step in H. destruct (c_step _ _ _) as [| |c r] eqn:E; try done; injection H as <- <-.
    apply c_step_tick in E as (_ & E & _ & _). unfold in_check. cbn. rewrite E. repeat split; try done; intros; set_solver.
Qed.

(** LastThreadId. *)
Lemma last_thread_idle l : forall i last index, Exists (fun st => idle st = true) l -> last_thread l i last index = -1.
Proof.
  induction l as [|st l IH]; intros i last index H; [by inversion H|]. cbn. fold (idle st). destruct (idle st) eqn:E; [done|].
  inversion_clear H as [? ? Hx|? ? Hx]; [congruence|]. destruct (match last with None => true | Some t => t <? st_started st end); by apply IH.
Qed.
Lemma last_thread_busy l : forall i last index, Forall (fun st => idle st = false) l ->
  (last_thread l i last index = index /\ Forall (fun st => exists t, last = Some t /\ st_started st <= t) l) \/
  (exists j st, last_thread l i last index = i + Z.of_nat j /\ l !! j = Some st /\ Forall (fun x => st_started x <= st_started st) l /\ forall t, last = Some t -> t <= st_started st).
Proof.
  induction l as [|st l IH]; intros i last index H; [left; by split|]. inversion_clear H as [|? ? Hi Hl]. cbn. fold (idle st). rewrite Hi.
  destruct (match last with None => true | Some t => t <? st_started st end) eqn:E.
  - right. destruct (IH (i + 1) (Some (st_started st)) i Hl) as [(-> & F)|(j & x & -> & Hj & F & Hx)].
    + exists 0%nat, st. split; [lia|]. split; [done|]. split.
      * constructor; [lia|]. eapply Forall_impl; [exact F|]. cbn. intros y (t & Et & Hy). by injection Et as <-.
      * intros t ->. lia.
    + exists (S j), x. split; [lia|]. split; [done|]. specialize (Hx _ eq_refl). split; [by constructor|]. intros t ->. lia.
  - destruct last as [t|]; [|done]. destruct (IH (i + 1) (Some t) index Hl) as [(-> & F)|(j & x & -> & Hj & F & Hx)].
    + left. split; [done|]. constructor; [|done]. exists t. split; [done|lia].
    + right. exists (S j), x. specialize (Hx _ eq_refl). split; [lia|]. split; [done|]. split; [constructor; [lia|done]|]. intros t' Et. by injection Et as <-.
Qed.
Lemma last_thread_id_spec l : l <> [] ->
  (last_thread_id l = -1 /\ exists j st, l !! j = Some st /\ idle st = true) \/
  (exists j st, last_thread_id l = Z.of_nat j /\ l !! j = Some st /\ forall i x, l !! i = Some x -> idle x = false /\ st_started x <= st_started st).
Proof.
  intros Hl. unfold last_thread_id. destruct (Exists_dec (fun st => idle st = true) l) as [H|H].
  - left. split; [by apply last_thread_idle|]. apply Exists_exists in H as (st & [j Hj]%elem_of_list_lookup & Hs). eauto.
  - assert (F : Forall (fun st => idle st = false) l).
    { apply Forall_forall. intros st Hs. destruct (idle st) eqn:E; [|done]. destruct H. apply Exists_exists. eauto. }
    right. destruct (last_thread_busy l 0 None 0 F) as [(_ & G)|(j & st & -> & Hj & G & _)].
    + destruct l as [|x l]; [done|]. inversion_clear G as [|? ? Hx _]. destruct Hx as (t & Ht & _). done.
    + exists j, st. split; [lia|]. split; [done|]. intros i x Hx. rewrite Forall_lookup in F, G. split; [by eapply F|by eapply G].
Qed.

(** What a check has found when it ends at time [t]. *)
Definition check_found (n : nat) (l : tlog) (t : Z) (o : tobs) : Prop :=
  match o with
  | OWarn e =>
    time_to_warn <= e /\
    (forall i, (i < n)%nat -> exists m b, during l m /\ busy_since m i = Some b /\ b <= t - e) /\
    (exists i m, (i < n)%nat /\ during l m /\ busy_since m i = Some (t - e))
  | OQuiet =>
    exists i m, (i < n)%nat /\ during l m /\ match busy_since m i with None => True | Some b => t - b < time_to_warn end
  | _ => True
  end.

Lemma check_end_spec n l s k : (0 < n)%nat -> snap_ok n l k -> length k = n ->
  exists x, check_end s k = TDone (set_snap s None) [x] /\ check_found n l (tp_now s) x /\ (x = OQuiet \/ exists e, x = OWarn e).
Proof.
  intros Hn (_ & _ & Hk) Hl. unfold check_end.
  destruct (last_thread_id_spec k) as [(-> & j & st & Hj & Hi)|(j & st & -> & Hj & Hm)]; [by intros ->; cbn in Hl; lia| |].
  - exists OQuiet. split; [done|]. split; [|by left]. destruct (Hk _ _ Hj) as (m & Hd & Hr). unfold reads in Hr. rewrite Hi in Hr.
    exists j, m. split; [rewrite <- Hl; by eapply lookup_lt_Some|]. split; [done|]. by rewrite Hr.
  - destruct (Z.of_nat j =? -1) eqn:E; [apply Z.eqb_eq in E; clear -E; lia|]. rewrite Nat2Z.id, Hj. destruct (time_to_warn <=? tp_now s - st_started st) eqn:Ew.
    + eexists. split; [done|]. split; [|right; eauto]. split; [lia|]. split.
      * intros i Hi. destruct (lookup_lt_is_Some_2 k i) as [x Hx]; [lia|]. destruct (Hk _ _ Hx) as (m & Hd & Hr). destruct (Hm _ _ Hx) as [Hx1 Hx2].
        unfold reads in Hr. rewrite Hx1 in Hr. exists m, (st_started x). split; [done|]. split; [done|lia].
      * destruct (Hk _ _ Hj) as (m & Hd & Hr). destruct (Hm _ _ Hj) as [Hx1 _]. unfold reads in Hr. rewrite Hx1 in Hr.
        exists j, m. split; [rewrite <- Hl; by eapply lookup_lt_Some|]. split; [done|]. rewrite Hr. f_equal. lia.
    + eexists. split; [done|]. split; [|by left]. destruct (Hk _ _ Hj) as (m & Hd & Hr). destruct (Hm _ _ Hj) as [Hx1 _]. unfold reads in Hr. rewrite Hx1 in Hr.
      exists j, m. split; [rewrite <- Hl; by eapply lookup_lt_Some|]. split; [done|]. rewrite Hr. lia.
Qed.

Lemma checker_step_cases s s' o : checker_step s = TDone s' o ->
  (o = [] /\ in_check s' = false) \/
  (o = [OCheck] /\ tp_snap s' = Some []) \/
  (exists k w, tp_snap s = Some k /\ in_check s = true /\ tp_workers s !! length k = Some w /\ s' = set_snap s (Some (k ++ [tw_stats w])) /\ o = []) \/
  (exists k, tp_snap s = Some k /\ in_check s = true /\ tp_workers s !! length k = None /\ check_end s k = TDone s' o).
Proof.
  intros H. unfold checker_step, closure_step in H. destruct (c_worker (tp_clo s)) eqn:Ew; try done; cbn [c_step] in H; rewrite Ew in H.
  - injection H as <- <-. by left.
  - destruct (c_stopped _); [injection H as <- <-; by left|]. destruct (_ <=? _); [|done]. injection H as <- <-. by left.
  - injection H as <- <-. by left.
  - injection H as <- <-. right; left. done.
  - assert (Hc : in_check s = true) by (unfold in_check; by rewrite Ew). destruct (tp_snap s) as [k|] eqn:Ek.
    + destruct (tp_workers s !! length k) as [w|] eqn:El; [injection H as <- <-|]; eauto 10.
    + injection H as <- <-. by left.
Qed.

Lemma snap_inv max n now l s : (0 < n)%nat -> tp_run max (tp_new n now) l s ->
  (forall k, in_check s = true -> tp_snap s = Some k -> snap_ok n l k) /\ every (fun l1 x => check_found n l1 x.1 x.2) l.
Proof.
  intros Hn H. induction H as [|l s e s' o H [IH1 IH2] Hs]; [split; [done|apply every_nil]|].
  assert (Hlen : length (tp_workers s) = n) by (by apply (tinv_run _ _ _ _ _ H)).
  assert (D : e = PChecker \/ e <> PChecker) by (destruct e; (by left) || by right).
  destruct D as [->|He].
  - cbn [tp_step] in Hs. apply checker_step_cases in Hs as [(-> & Hc)|[(-> & Hk)|[(k & w & Ek & Hc & Hw & -> & ->)|(k & Ek & Hc & Hw & He)]]].
    + cbn [fmap list_fmap]. rewrite app_nil_r. split; [|done]. intros k Hc'. congruence.
    + split.
      * intros k _ Ek. rewrite Hk in Ek. injection Ek as <-. split; [cbn; lia|]. split; [|done].
        exists l, (tp_now s'), [], []. cbn. split; [by rewrite app_nil_r|]. split; [done|]. apply not_elem_of_nil.
      * apply every_app; [done|]. intros a x b E. destruct a as [|? a]; [|by destruct a]. injection E as <- _. done.
    + cbn [fmap list_fmap]. rewrite app_nil_r. split; [|done]. intros k' _ Ek'. cbn in Ek'. injection Ek' as <-.
      destruct (IH1 k Hc Ek) as (S1 & S2 & S3). assert (Hlt := lookup_lt_Some _ _ _ Hw). rewrite Hlen in Hlt.
      split; [rewrite app_length; cbn; lia|]. split; [done|]. intros j st [Hj|(Hj & Hst)]%lookup_app_Some; [by apply S3|].
      destruct (j - length k)%nat as [|] eqn:Ej; [|done]. cbn in Hst. injection Hst as <-. assert (j = length k) as -> by lia.
      exists l. split; [done|]. apply wok_reads. by eapply wok_step.
    + assert (S := IH1 k Hc Ek). apply lookup_ge_None in Hw. rewrite Hlen in Hw.
      destruct (check_end_spec n l s k Hn S) as (x & Ex & Hf & Hx); [destruct S; lia|]. rewrite Ex in He. injection He as <- <-. split; [done|].
      apply every_app; [done|]. intros a y b E. destruct a as [|? a]; [|by destruct a]. injection E as <- _. rewrite app_nil_r. done.
  - destruct (check_step _ _ _ _ _ Hs He) as (E1 & E2 & E3 & E4 & E5). split.
    + intros k Hc Ek. rewrite E1 in Ek. apply snap_app; [auto|]. by rewrite stamp_elem.
    + apply every_app; [done|]. intros a x b E. assert (Hx : x.2 ∈ o).
      { rewrite <- (stamp_elem (tp_now s')), E. rewrite fmap_app, fmap_cons. apply elem_of_app. right. by left. }
      destruct x as [t x]. cbn in *. destruct x; try done. by destruct (E5 elapsed).
Qed.

Lemma checker_step_eff s s' o : checker_step s = TDone s' o ->
  match o with [] | [OCheck] | [OQuiet] | [OWarn _] => True | _ => False end /\ tp_close s' = tp_close s /\ OCloseEnd ∉ o.
Proof.
  intros H. unfold checker_step, closure_step in H. destruct (c_worker (tp_clo s)); try done.
  1-4: destruct (c_step _ _ _) as [| |c r]; try done; injection H as <- <-; cbn; (split; [done|]); split; [done|set_solver].
  destruct (tp_snap s) as [k|].
  - destruct (tp_workers s !! length k); [injection H as <- <-; cbn; (split; [done|]); split; [done|set_solver]|].
    unfold check_end in H. destruct (_ =? -1); [injection H as <- <-; cbn; (split; [done|]); split; [done|set_solver]|].
    destruct (k !! _); [|done]. injection H as <- <-. destruct (_ <=? _); cbn; (split; [done|]); split; try done; set_solver.
  - destruct (c_step _ _ _) as [| |c r]; try done; injection H as <- <-; cbn; (split; [done|]); split; [done|set_solver].
Qed.

(** ** What is true of everything that happens *)

Definition fine (max : nat) (l : tlog) (o : tobs) : Prop :=
  match o with
  | OPush t ok => ok = true <-> ~ close_begun l
  | OResult t r => r = bool_decide (waiting l <= max)%nat
  | OCall (Some i) t st e => st = Ok /\ e = bool_decide (waiting l <= max)%nat /\ is_Some (busy_since l i) /\ OCloseEnd ∉ l.*2
  | OCall None t st e => st = Cancelled /\ e = false /\ close_begun l /\ OCloseEnd ∉ l.*2
  | OPop _ _ | OBack _ _ | OCheck | OTake _ _ | OFinish _ _ => OCloseEnd ∉ l.*2
  | OCloseEnd => close_begun l /\ returned l ≡ₚ taskq l
  | _ => True
  end.

Lemma every_one P l x : every P l -> P l x -> every P (l ++ [x]).
Proof. intros H Hx. apply every_app; [done|]. intros a y b E. destruct a as [|? a]; [|by destruct a]. injection E as <- _. by rewrite app_nil_r. Qed.
Lemma every_two P l x y : every P l -> P l x -> P (l ++ [x]) y -> every P (l ++ [x; y]).
Proof. intros H Hx Hy. change [x; y] with ([x] ++ [y]). rewrite app_assoc. apply every_one; [|done]. by apply every_one. Qed.

Lemma waiting_queue n l s : tinv n l s -> waiting l = length (u_buf (tp_queue s)).
Proof. intros I. unfold waiting. rewrite (ti_pop _ _ _ I), app_length. lia. Qed.
Lemma almost_full max n l s : tinv n l s -> not_almost_full max s = bool_decide (waiting l <= max)%nat.
Proof. intros I. unfold not_almost_full. rewrite (waiting_queue _ _ _ I). destruct (Nat.leb_spec (length (u_buf (tp_queue s))) max); [by rewrite bool_decide_true|rewrite bool_decide_false by lia; done]. Qed.
Lemma begun_open n l s : tinv n l s -> (u_closed (tp_queue s) || u_last (tp_queue s) = true <-> close_begun l).
Proof.
  intros I. rewrite <- (ti_last _ _ _ I), orb_true_iff. split; [|by right]. intros [H|H]; [|done]. by apply (ti_closed _ _ _ I) in H as [].
Qed.

Lemma fine_step max n now l s : tp_run max (tp_new n now) l s -> every (fun l1 x => fine max l1 x.2) l.
Proof.
  intros H. induction H as [|l s e s' o H IH Hs]; [apply every_nil|]. assert (I := tinv_run _ _ _ _ _ H).
  destruct e as [|t|i| | |d].
  - cbn in Hs. pose proof (begun_open _ _ _ I) as Hb. unfold uq_push in Hs. destruct (u_closed (tp_queue s) || u_last (tp_queue s)); injection Hs as <- <-; apply every_one; try done; cbn.
    + split; [done|]. intros Hn. destruct Hn. by apply Hb.
    + split; [|done]. intros _ Hn. by apply Hb in Hn.
  - cbn in Hs. destruct (bool_decide _); [|done]. injection Hs as <- <-. apply every_one; [done|]. cbn. by eapply almost_full.
  - cbn in Hs. unfold worker_step in Hs. destruct (tp_workers s !! i) as [[p st]|] eqn:Ei; [|done].
    assert (W := wok_step _ _ _ _ _ _ _ H Ei).
    destruct p as [|t|t|t|t|]; try done; try (assert (Hne := not_ended _ _ _ _ _ I Ei eq_refl)).
    + destruct (uq_pop _) as [[[t|] q]|]; [| |done]; injection Hs as <- <-; [by apply every_one|cbn; by rewrite app_nil_r].
    + injection Hs as <- <-. by apply every_one.
    + injection Hs as <- <-. apply every_one; [done|]. cbn. split; [done|]. split; [by eapply almost_full|]. split; [|done]. rewrite (wo_busy _ _ _ W). cbn. by eexists.
    + injection Hs as <- <-. by apply every_one.
    + injection Hs as <- <-. by apply every_one.
  - cbn [tp_step] in Hs. unfold close_step in Hs. destruct (tp_close s) as [| | | |t|] eqn:Ec.
    + injection Hs as <- <-. by apply every_one.
    + destruct (c_step _ _ _) as [| |c [r|]]; try done; injection Hs as <- <-; cbn; by rewrite app_nil_r.
    + destruct (c_step _ _ _) as [| |c r]; try done; injection Hs as <- <-; cbn; by rewrite app_nil_r.
    + destruct (uq_pop _) as [[[t|] q]|] eqn:Eq; [| |done]; injection Hs as <- <-; [|cbn; by rewrite app_nil_r].
      destruct (uq_pop_cases _ _ _ Eq (ti_closed _ _ _ I)) as (P1 & P2 & Eb & Eu). assert (Hne := not_ended_open _ _ _ I Eu).
      apply every_two; [done|done|]. cbn. split; [done|]. split; [done|].
      assert (Hb : close_begun l) by (apply (ti_last _ _ _ I), (ti_phase _ _ _ I); congruence). split; [apply close_begun_app; by left|].
      rewrite end_app. intros [?|Hm]; [done|]. by apply elem_of_list_singleton in Hm.
    + injection Hs as <- <-. apply every_one; [done|]. cbn. intros Hm.
      pose proof (ti_clo _ _ _ I) as Hc. rewrite Ec in Hc.
      (* a later Close finds no task *)
      exfalso. revert t Ec Hm. clear -H. remember (tp_new n now) as s0. intros t Ec Hm.
      assert (G : OCloseEnd ∈ l.*2 -> close_inside (tp_close s) = []); [|apply G in Hm; by rewrite Ec in Hm].
      clear t Ec Hm. subst s0. induction H as [|l s e s' o H IH Hs]; intros Hm; [done|]. assert (I := tinv_run _ _ _ _ _ H).
      rewrite end_app, stamp_elem in Hm.
      destruct e as [|t|i| | |d].
      * cbn in Hs. destruct (uq_push _ _). injection Hs as <- <-. apply IH. destruct Hm as [?|Hm]; [done|]. by apply elem_of_list_singleton in Hm.
      * cbn in Hs. destruct (bool_decide _); [|done]. injection Hs as <- <-. apply IH. destruct Hm as [?|Hm]; [done|]. by apply elem_of_list_singleton in Hm.
      * assert (E : tp_close s' = tp_close s /\ OCloseEnd ∉ o).
        { cbn in Hs. unfold worker_step in Hs. destruct (tp_workers s !! i) as [[p st]|]; [|done].
          destruct p; try done; try (destruct (uq_pop _) as [[[t|] q]|]; [| |done]); injection Hs as <- <-; (split; [done|]); set_solver. }
        destruct E as [-> E]. apply IH. tauto.
      * cbn [tp_step] in Hs. unfold close_step in Hs. destruct (tp_close s) as [| | | |t|] eqn:Ec.
        -- by injection Hs as <- <-.
        -- destruct (c_step _ _ _) as [| |c [r|]]; try done; by injection Hs as <- <-.
        -- destruct (c_step _ _ _) as [| |c r]; try done; by injection Hs as <- <-.
        -- destruct (uq_pop _) as [[[t|] q]|] eqn:Eq; [| |done]; injection Hs as <- <-; [|done].
           destruct (uq_pop_cases _ _ _ Eq (ti_closed _ _ _ I)) as (P1 & P2 & Eb & Eu). destruct (not_ended_open _ _ _ I Eu). destruct Hm as [?|Hm]; [done|]. set_solver.
        -- by injection Hs as <- <-.
        -- destruct (forallb _ _); [|done]. by injection Hs as <- <-.
      * cbn [tp_step] in Hs. assert (E : tp_close s' = tp_close s /\ OCloseEnd ∉ o).
        { apply checker_step_eff in Hs. destruct Hs as (_ & -> & E). split; [done|]. by apply E. }
        destruct E as [-> E]. apply IH. tauto.
      * cbn [tp_step] in Hs. unfold closure_step in Hs. destruct (c_step _ _ _) as [| |c r]; try done. injection Hs as <- <-. apply IH. destruct Hm as [?|Hm]; [done|]. by apply elem_of_nil in Hm.
    + destruct (forallb _ _) eqn:Ew; [|done]. injection Hs as <- <-. apply every_one; [done|]. cbn. split; [apply (ti_last _ _ _ I), (ti_phase _ _ _ I); congruence|].
      assert (F : forall f : tworker -> list nat, (forall w, exited w = true -> f w = []) -> concat (f <$> tp_workers s) = []).
      { intros f Hf. clear -Hf Ew. induction (tp_workers s) as [|w ws IH]; [done|]. cbn in Ew. apply andb_true_iff in Ew as [E1 E2]. cbn. rewrite Hf by done. by apply IH. }
      assert (Eb : u_buf (tp_queue s) = []) by (apply (ti_closed _ _ _ I), (ti_join _ _ _ I); done).
      rewrite (ti_pop _ _ _ I), Eb, app_nil_r, (ti_call _ _ _ I), (ti_back _ _ _ I), Ec.
      rewrite !F by (intros [[]]; cbn; done). cbn. by rewrite !app_nil_r.
  - cbn [tp_step] in Hs. assert (Hne : OCheck ∈ o -> OCloseEnd ∉ l.*2).
    { intros _ Hm. apply (ti_end _ _ _ I) in Hm as (_ & E1 & E2 & _). pose proof (ti_run _ _ _ I) as R. rewrite E1 in R. specialize (R E2).
      unfold checker_step in Hs. by rewrite R in Hs. }
    apply checker_step_eff in Hs as (Ho & _ & _). destruct o as [|x [|]]; cbn in Ho; [cbn; by rewrite app_nil_r| |by destruct x].
    apply every_one; [done|]. cbn. destruct x; try done. apply Hne. by left.
  - cbn [tp_step] in Hs. unfold closure_step in Hs. destruct (c_step _ _ _) as [| |c r]; try done. injection Hs as <- <-. cbn. by rewrite app_nil_r.
Qed.

(** ** C90 *)

Lemma sorted_sublist (l k : list nat) : l `sublist_of` k -> StronglySorted lt k -> StronglySorted lt l.
Proof.
  induction 1 as [|x l k Hs IH|x l k Hs IH]; intros H; [done| |]; inversion_clear H as [|? ? H1 H2]; [|by apply IH].
  constructor; [by apply IH|]. apply Forall_forall. intros y Hy. rewrite Forall_forall in H2. apply H2. by eapply elem_of_submseteq; [|apply sublist_submseteq].
Qed.
Lemma sorted_nodup (l : list nat) : StronglySorted lt l -> NoDup l.
Proof. induction 1 as [|x l H IH Hx]; constructor; [|done]. intros Hi. rewrite Forall_forall in Hx. apply Hx in Hi. lia. Qed.
Lemma popped_by_sublist i l : popped_by i l `sublist_of` popped l.
Proof.
  induction l as [|[t o] l IH]; [constructor|]. unfold popped_by, popped in *. cbn. destruct o as [| |[j|] x| | | | | | | | |]; cbn; try exact IH.
  - destruct (i =? j)%nat; by constructor.
  - by constructor.
Qed.

(** Tasks are taken from the queue in the order of the calls of Schedule; no callback is
    called twice; the callbacks that one thread calls are in that order too. *)
Theorem C90_once max n now l s : tp_run max (tp_new n now) l s ->
  popped l `prefix_of` taskq l /\ StronglySorted lt (taskq l) /\
  NoDup (called l) /\ called l ⊆ popped l /\ NoDup (returned l) /\ returned l ⊆ called l /\
  forall i, StronglySorted lt (called_by i l).
Proof.
  intros H. pose proof (tinv_run _ _ _ _ _ H) as I. destruct (ti_next _ _ _ I) as [N _].
  assert (Hp : popped l `prefix_of` taskq l) by (rewrite (ti_pop _ _ _ I); by apply prefix_app_r).
  assert (Np : StronglySorted lt (popped l)) by (eapply sorted_sublist; [|exact N]; destruct Hp as [k ->]; by apply sublist_inserts_r).
  assert (Nc : NoDup (called l)). { pose proof (sorted_nodup _ Np) as D. rewrite (ti_call _ _ _ I) in D. by apply NoDup_app in D as (? & _). }
  split; [done|]. split; [done|]. split; [done|]. split.
  { intros t Ht. rewrite (ti_call _ _ _ I). apply elem_of_app. by left. }
  split. { pose proof Nc as D. rewrite (ti_back _ _ _ I) in D. by apply NoDup_app in D as (? & _). }
  split. { intros t Ht. rewrite (ti_back _ _ _ I). apply elem_of_app. by left. }
  intros i. assert (S : StronglySorted lt (popped_by i l)) by (eapply sorted_sublist; [apply popped_by_sublist|done]).
  destruct (tp_workers s !! i) as [w|] eqn:Ei.
  - eapply sorted_sublist; [|exact S]. rewrite (ti_own _ _ _ I i w Ei). by apply sublist_inserts_r.
  - (* no such thread *)
    assert (E : called_by i l = []); [|rewrite E; constructor].
    clear -H Ei. induction H as [|l s e s' o H IH Hs]; [done|].
    assert (Ei' : tp_workers s !! i = None).
    { apply lookup_ge_None. apply lookup_ge_None in Ei. pose proof (ti_len _ _ _ (tinv_run _ _ _ _ _ (tr_snoc _ _ _ _ _ _ _ H Hs))). pose proof (ti_len _ _ _ (tinv_run _ _ _ _ _ H)). lia. }
    specialize (IH Ei'). rewrite called_by_app, IH. cbn.
    destruct e as [|t|j| | |d].
    + cbn in Hs. destruct (uq_push _ _). by injection Hs as <- <-.
    + cbn in Hs. destruct (bool_decide _); [|done]. by injection Hs as <- <-.
    + cbn in Hs. unfold worker_step in Hs. destruct (tp_workers s !! j) as [[p st]|] eqn:Ej; [|done].
      destruct p; try done; try (destruct (uq_pop _) as [[[t|] q]|]; [| |done]); injection Hs as <- <-; cbn; try done.
      destruct (i =? j)%nat eqn:E; [|done]. apply Nat.eqb_eq in E as ->. congruence.
    + cbn [tp_step] in Hs. unfold close_step in Hs. destruct (tp_close s).
      * by injection Hs as <- <-.
      * destruct (c_step _ _ _) as [| |c [r|]]; try done; by injection Hs as <- <-.
      * destruct (c_step _ _ _) as [| |c r]; try done; by injection Hs as <- <-.
      * destruct (uq_pop _) as [[[t|] q]|]; [| |done]; by injection Hs as <- <-.
      * by injection Hs as <- <-.
      * destruct (forallb _ _); [|done]. by injection Hs as <- <-.
    + cbn [tp_step] in Hs. apply checker_step_eff in Hs as (Ho & _). destruct o as [|x [|]]; [done| |by destruct x]. by destruct x.
    + cbn [tp_step] in Hs. unfold closure_step in Hs. destruct (c_step _ _ _) as [| |c r]; try done. by injection Hs as <- <-.
Qed.

(** Whether a task is accepted, what Schedule returns and what the callbacks are called
    with.  A thread calls a callback while its statistics say that it is busy. *)
Theorem C90_arguments max n now l s : tp_run max (tp_new n now) l s ->
  every (fun l1 x =>
    match x.2 with
    | OPush t ok => ok = true <-> ~ close_begun l1
    | OResult t r => r = bool_decide (waiting l1 <= max)%nat
    | OCall (Some i) t st e => st = Ok /\ e = bool_decide (waiting l1 <= max)%nat /\ is_Some (busy_since l1 i)
    | OCall None t st e => st = Cancelled /\ e = false /\ close_begun l1
    | _ => True
    end) l.
Proof.
  intros H l1 x l2 E. pose proof (fine_step _ _ _ _ _ H _ _ _ E) as F. destruct x as [t x]. cbn in *. destruct x as [| | | | |[i|]| | | | | |]; first [exact Logic.I|exact F|by destruct F as (? & ? & ? & ?)].
Qed.

(** When Close returns the callbacks of all accepted tasks have returned; nothing runs
    after that. *)
Theorem C90_close max n now l s : tp_run max (tp_new n now) l s ->
  every (fun l1 x =>
    match x.2 with
    | OCloseEnd => close_begun l1 /\ returned l1 ≡ₚ taskq l1
    | OPop _ _ | OCall _ _ _ _ | OBack _ _ | OCheck => OCloseEnd ∉ l1.*2
    | _ => True
    end) l.
Proof.
  intros H l1 x l2 E. pose proof (fine_step _ _ _ _ _ H _ _ _ E) as F. destruct x as [t x]. cbn in *. destruct x as [| | | | |[i|]| | | | | |]; first [exact Logic.I|exact F|by destruct F as (? & ? & ? & ?)].
Qed.

(** The callback of a task that was not accepted is never called. *)
Theorem C90_refused max n now l s t : tp_run max (tp_new n now) l s -> OPush t false ∈ l.*2 -> t ∉ called l.
Proof.
  intros H Hm Hc.
  assert (G : (t < tp_next s)%nat /\ t ∉ taskq l).
  { clear Hc. revert t Hm. induction H as [|l s e s' o H IH Hs]; intros t Hm; [by apply elem_of_nil in Hm|].
    assert (D : (tp_next s' = tp_next s /\ taskq ((tp_now s',.) <$> o) = [] /\ forall t, OPush t false ∉ o) \/
      (tp_next s' = S (tp_next s) /\ exists b, o = [OPush (tp_next s) b])).
    { destruct e as [|u|j| | |d].
      - right. cbn in Hs. destruct (uq_push _ _) as [b q]. injection Hs as <- <-. cbn. eauto.
      - left. cbn in Hs. destruct (bool_decide _); [|done]. injection Hs as <- <-. cbn. split; [done|]. split; [done|]. intros; set_solver.
      - left. cbn in Hs. unfold worker_step in Hs. destruct (tp_workers s !! j) as [[p st]|] eqn:Ej; [|done].
        destruct p; try done; try (destruct (uq_pop _) as [[[u|] q]|]; [| |done]); injection Hs as <- <-; cbn; (split; [done|]); (split; [done|]); intros; set_solver.
      - left. cbn [tp_step] in Hs. unfold close_step in Hs. destruct (tp_close s).
        + injection Hs as <- <-; cbn; (split; [done|]); (split; [done|]); intros; set_solver.
        + destruct (c_step _ _ _) as [| |c [r|]]; try done; injection Hs as <- <-; cbn; (split; [done|]); (split; [done|]); intros; set_solver.
        + destruct (c_step _ _ _) as [| |c r]; try done; injection Hs as <- <-; cbn; (split; [done|]); (split; [done|]); intros; set_solver.
        + destruct (uq_pop _) as [[[u|] q]|]; [| |done]; injection Hs as <- <-; cbn; (split; [done|]); (split; [done|]); intros; set_solver.
        + injection Hs as <- <-; cbn; (split; [done|]); (split; [done|]); intros; set_solver.
        + destruct (forallb _ _); [|done]. injection Hs as <- <-; cbn; (split; [done|]); (split; [done|]); intros; set_solver.
      - left. cbn [tp_step] in Hs. pose proof (checker_step_eff _ _ _ Hs) as (Ho & _). split.
        + unfold checker_step, closure_step in Hs. destruct (c_worker (tp_clo s)); try done.
          1-4: destruct (c_step _ _ _) as [| |c r]; try done; by injection Hs as <- <-.
          destruct (tp_snap s) as [k|]; [|destruct (c_step _ _ _) as [| |c r]; try done; by injection Hs as <- <-].
          destruct (tp_workers s !! length k); [by injection Hs as <- <-|]. unfold check_end in Hs. destruct (_ =? -1); [by injection Hs as <- <-|].
          destruct (k !! _); [|done]. by injection Hs as <- <-.
        + destruct o as [|x [|]]; [split; [done|set_solver]| |by destruct x]. split; [by destruct x|]. intros u Hu. apply elem_of_list_singleton in Hu. by subst x.
      - left. cbn [tp_step] in Hs. unfold closure_step in Hs. destruct (c_step _ _ _) as [| |c r]; try done. injection Hs as <- <-; cbn; (split; [done|]); (split; [done|]); intros; set_solver. }
    rewrite fmap_app, elem_of_app, stamp_elem in Hm. destruct D as [(-> & E & Hn)|(-> & b & ->)].
    - rewrite taskq_app, E, app_nil_r. destruct Hm as [Hm|Hm]; [by apply IH|by apply Hn in Hm].
    - assert (Hlt := proj2 (ti_next _ _ _ (tinv_run _ _ _ _ _ H))). rewrite Forall_forall in Hlt.
      destruct Hm as [Hm|Hm].
      + destruct (IH _ Hm) as [H1 H2]. split; [lia|]. rewrite taskq_app, elem_of_app. intros [?|Hx]; [done|].
        destruct b; [|by apply elem_of_nil in Hx]. apply elem_of_list_singleton in Hx. lia.
      + apply elem_of_list_singleton in Hm. injection Hm as -> <-. split; [lia|]. rewrite taskq_app. cbn. rewrite app_nil_r. intros Hx. apply Hlt in Hx. lia. }
  destruct (C90_once _ _ _ _ _ H) as ([k E] & _ & _ & Hp & _). apply G. rewrite E. apply elem_of_app. left. by apply Hp.
Qed.

(** The statistics count the tasks that a thread has taken and finished, and
    tell since when it has been busy. *)
Theorem C90_stats max n now l s i w : tp_run max (tp_new n now) l s -> tp_workers s !! i = Some w ->
  st_current (tw_stats w) + 1 = Z.of_nat (takes i l) /\ st_processed (tw_stats w) = Z.of_nat (finishes i l) /\
  (forall b, busy_since l i = Some b -> st_started (tw_stats w) = b).
Proof. intros H Hi. destruct (wok_step _ _ _ _ _ _ _ H Hi) as [B1 B2 B3 B4]. split; [done|]. split; [done|]. intros b Hb. rewrite Hb in B1. destruct (busyp w); congruence. Qed.

(** The deadlock checker: a check that warns has found every thread busy for as long
    as it says, at least a minute; one that does not has found a thread idle, or one
    that had been busy for less. *)
Theorem C90_deadlock max n now l s : (0 < n)%nat -> tp_run max (tp_new n now) l s ->
  every (fun l1 x =>
    match x.2 with
    | OWarn e =>
      60000 <= e /\ (forall i, (i < n)%nat -> exists m b, during l1 m /\ busy_since m i = Some b /\ b <= x.1 - e) /\
      (exists i m, (i < n)%nat /\ during l1 m /\ busy_since m i = Some (x.1 - e))
    | OQuiet => exists i m, (i < n)%nat /\ during l1 m /\ match busy_since m i with None => True | Some b => x.1 - b < 60000 end
    | _ => True
    end) l.
Proof. intros Hn H l1 x l2 E. by apply (proj2 (snap_inv _ _ _ _ _ Hn H) _ _ _ E). Qed.

(** With threads a check never reads beyond the statistics. *)
Theorem C90_no_crash max n now l s e : (0 < n)%nat -> tp_run max (tp_new n now) l s -> tp_step max s e <> TCrash.
Proof.
  intros Hn H Hs. pose proof (tinv_run _ _ _ _ _ H) as I. destruct e as [|t|i| | |d].
  - cbn in Hs. by destruct (uq_push _ _).
  - cbn in Hs. by destruct (bool_decide _).
  - cbn in Hs. unfold worker_step in Hs. destruct (tp_workers s !! i) as [[p st]|]; [|done]. destruct p; try done. by destruct (uq_pop _) as [[[t|] q]|].
  - cbn [tp_step] in Hs. unfold close_step in Hs. destruct (tp_close s); try done.
    + by destruct (c_step _ _ _) as [| |c [r|]].
    + by destruct (c_step _ _ _).
    + by destruct (uq_pop _) as [[[t|] q]|].
    + by destruct (forallb _ _).
  - cbn [tp_step] in Hs. unfold checker_step, closure_step in Hs. destruct (c_worker (tp_clo s)) eqn:Ew; try done.
    1-4: by destruct (c_step _ _ _).
    destruct (tp_snap s) as [k|] eqn:Ek; [|by destruct (c_step _ _ _)]. destruct (tp_workers s !! length k) eqn:El; [done|].
    assert (S : snap_ok n l k) by (apply (snap_inv _ _ _ _ _ Hn H); [unfold in_check; by rewrite Ew|done]).
    apply lookup_ge_None in El. rewrite (ti_len _ _ _ I) in El.
    destruct (check_end_spec n l s k Hn S) as (x & Ex & _); [destruct S; lia|]. congruence.
  - cbn in Hs. unfold closure_step in Hs. by destruct (c_step _ _ _).
Qed.

(** Close returns.  A step of one of the threads, or of a call of Close that has
    begun. *)
Definition own (s : pool) (e : pev) : Prop := match e with PWorker _ | PChecker => True | PClose => tp_close s <> QNo | _ => False end.
(** [k] such steps among any others. *)
Inductive tp_steps (max : nat) (s0 : pool) : nat -> pool -> Prop :=
| ts_nil : tp_steps max s0 0 s0
| ts_own k s e s' o : tp_steps max s0 k s -> own s e -> tp_step max s e = TDone s' o -> tp_steps max s0 (S k) s'
| ts_other k s e s' o : tp_steps max s0 k s -> ~ own s e -> e <> PClose -> tp_step max s e = TDone s' o -> tp_steps max s0 k s'.

Definition thread_work (w : tworker) : nat := match tw_pos w with TPop => 1 | TTaken _ => 5 | TReady _ => 4 | TRun _ => 3 | TAfter _ => 2 | TExit => 0 end.
Definition close_work (c : qphase) : nat := match c with QNo => 0 | QStop => 6 | QChecker => 4 | QPop => 2 | QRun _ => 3 | QJoin => 1 end.
Definition checker_work (n : nat) (s : pool) : nat :=
  match c_worker (tp_clo s) with
  | WNone => 0 | WExit => 1 | WWait _ => 2 | WBegin => 3
  | WRun _ => match tp_snap s with Some k => (n - length k) + 5 | None => 4 end
  | WReady _ => n + 6 | WWoken => n + 7
  end.
Definition pool_work (n : nat) (s : pool) : nat :=
  (6 * length (u_buf (tp_queue s)) + foldr Nat.add 0 (thread_work <$> tp_workers s) + close_work (tp_close s) + checker_work n s)%nat.

Lemma begun_or_ended max n now l s : tp_run max (tp_new n now) l s -> close_begun l -> tp_close s <> QNo \/ OCloseEnd ∈ l.*2.
Proof.
  induction 1 as [|l s e s' o H IH Hs]; intros Hb; [by apply elem_of_nil in Hb|]. rewrite end_app, stamp_elem.
  apply close_begun_app in Hb. unfold close_begun in Hb at 2. rewrite stamp_elem in Hb.
  assert (D : e = PClose \/ (tp_close s' = tp_close s /\ OCloseStart ∉ o)).
  { destruct e as [|t|j| | |d]; [right|right|right|by left|right|right].
    - cbn in Hs. destruct (uq_push _ _). injection Hs as <- <-. split; [done|set_solver].
    - cbn in Hs. destruct (bool_decide _); [|done]. injection Hs as <- <-. split; [done|set_solver].
    - cbn in Hs. unfold worker_step in Hs. destruct (tp_workers s !! j) as [[p st]|]; [|done].
      destruct p; try done; try (destruct (uq_pop _) as [[[t|] q]|]; [| |done]); injection Hs as <- <-; (split; [done|]); set_solver.
    - cbn [tp_step] in Hs. apply checker_step_eff in Hs as (Ho & -> & _). split; [done|]. destruct o as [|x [|]]; [set_solver| |by destruct x].
      intros Hx%elem_of_list_singleton. by subst x.
    - cbn [tp_step] in Hs. unfold closure_step in Hs. destruct (c_step _ _ _) as [| |c r]; try done. injection Hs as <- <-. split; [done|set_solver]. }
  destruct D as [->|[-> D]]; [|destruct Hb as [Hb|Hb]; [destruct (IH Hb); auto|done]].
  cbn [tp_step] in Hs. unfold close_step in Hs. destruct (tp_close s) eqn:Ec.
  - injection Hs as <- <-. by left.
  - destruct (c_step _ _ _) as [| |c [r|]]; try done; injection Hs as <- <-; by left.
  - destruct (c_step _ _ _) as [| |c r]; try done; injection Hs as <- <-; by left.
  - destruct (uq_pop _) as [[[t|] q]|]; [| |done]; injection Hs as <- <-; by left.
  - injection Hs as <- <-. by left.
  - destruct (forallb _ _); [|done]. injection Hs as <- <-. right. right. by left.
Qed.

Lemma worker_work max n l s i s' o : tinv n l s -> worker_step max s i = TDone s' o -> (pool_work n s' + 1 <= pool_work n s)%nat.
Proof.
  intros I H. unfold worker_step in H. destruct (tp_workers s !! i) as [[p st]|] eqn:Ei; [|done]. unfold pool_work.
  destruct p as [|t|t|t|t|]; try done.
  1: { destruct (uq_pop (tp_queue s)) as [[[t|] q]|] eqn:Eq; [| |done]; injection H as <- <-; destruct (uq_pop_cases _ _ _ Eq (ti_closed _ _ _ I)) as (P1 & P2 & P3);
       cbn [set_thread set_queue tp_queue tp_workers tp_close]; unfold checker_work; cbn [tp_clo tp_snap set_thread set_queue].
       - pose proof (sum_insert thread_work _ _ _ (mkTworker (TTaken t) st) Ei) as W. cbn [thread_work tw_pos] in W. destruct P3 as [-> _]. cbn [length]. lia.
       - pose proof (sum_insert thread_work _ _ _ (mkTworker TExit st) Ei) as W. cbn [thread_work tw_pos] in W. destruct P3 as [-> _]. lia. }
  all: injection H as <- <-; cbn [set_thread set_queue tp_queue tp_workers tp_close]; unfold checker_work; cbn [tp_clo tp_snap set_thread set_queue].
  all: match goal with |- context [<[_ := ?w]> _] => pose proof (sum_insert thread_work _ _ _ w Ei) as W end; cbn [thread_work tw_pos] in W; lia.
Qed.

Lemma close_decr n l s s' o : tinv n l s -> close_step s = TDone s' o -> tp_close s <> QNo -> (pool_work n s' + 1 <= pool_work n s)%nat.
Proof.
  intros I H Hc. unfold close_step in H. unfold pool_work. destruct (tp_close s) as [| | | |t|] eqn:Ec; [done| | | | |].
  - cbn in H. destruct (c_stopped (tp_clo s)); injection H as <- <-; cbn [set_close set_clock tp_queue tp_workers tp_close close_work]; unfold checker_work; cbn [tp_clo tp_snap set_close set_clock c_worker]; lia.
  - cbn in H. destruct (c_joining (tp_clo s)); [|done].
    assert (E : s' = set_close (set_clock s (mkClosure (c_stopped (tp_clo s)) WNone false (c_now (tp_clo s)))) QPop) by (destruct (c_worker (tp_clo s)); try done; by injection H as <- <-).
    rewrite E. cbn [set_close set_clock tp_queue tp_workers tp_close close_work]; unfold checker_work at 1; cbn [tp_clo tp_snap set_close set_clock c_worker]. lia.
  - destruct (uq_pop (tp_queue s)) as [[[t|] q]|] eqn:Eq; [| |done]; injection H as <- <-; destruct (uq_pop_cases _ _ _ Eq (ti_closed _ _ _ I)) as (P1 & P2 & P3);
      cbn [set_close set_queue tp_queue tp_workers tp_close close_work]; unfold checker_work; cbn [tp_clo tp_snap set_close set_queue]; destruct P3 as [-> _]; cbn [length]; lia.
  - injection H as <- <-. cbn [set_close tp_queue tp_workers tp_close close_work]; unfold checker_work; cbn [tp_clo tp_snap set_close]. lia.
  - destruct (forallb _ _); [|done]. injection H as <- <-. cbn [set_close tp_queue tp_workers tp_close close_work]; unfold checker_work; cbn [tp_clo tp_snap set_close]. lia.
Qed.

Lemma checker_decr n l s s' o : tinv n l s -> c_stopped (tp_clo s) = true -> checker_step s = TDone s' o -> (pool_work n s' + 1 <= pool_work n s)%nat.
Proof.
  intros I Hst H. unfold checker_step, closure_step in H. unfold pool_work. destruct (c_worker (tp_clo s)) eqn:Ew; try done; cbn [c_step] in H; rewrite Ew, ?Hst in H.
  - injection H as <- <-. cbn [set_clock tp_queue tp_workers tp_close]; unfold checker_work; cbn [tp_clo tp_snap set_clock c_worker set_worker]. rewrite Ew. lia.
  - injection H as <- <-. cbn [set_clock tp_queue tp_workers tp_close]; unfold checker_work; cbn [tp_clo tp_snap set_clock c_worker set_worker]. rewrite Ew. lia.
  - injection H as <- <-. cbn [set_clock tp_queue tp_workers tp_close]; unfold checker_work; cbn [tp_clo tp_snap set_clock c_worker set_worker]. rewrite Ew. lia.
  - injection H as <- <-. cbn [set_clock set_snap tp_queue tp_workers tp_close]; unfold checker_work; cbn [tp_clo tp_snap set_clock set_snap c_worker set_worker length]. rewrite Ew. lia.
  - destruct (tp_snap s) as [k|] eqn:Ek.
    + destruct (tp_workers s !! length k) as [w|] eqn:El.
      * injection H as <- <-. apply lookup_lt_Some in El. rewrite (ti_len _ _ _ I) in El.
        cbn [set_snap tp_queue tp_workers tp_close]; unfold checker_work; cbn [tp_clo tp_snap set_snap]. rewrite Ew, Ek, app_length. cbn [length]. lia.
      * assert (E : s' = set_snap s None). { unfold check_end in H. destruct (_ =? -1); [by injection H as <- <-|]. destruct (k !! _); [|done]. by injection H as <- <-. }
        rewrite E. cbn [set_snap tp_queue tp_workers tp_close]; unfold checker_work; cbn [tp_clo tp_snap set_snap]. rewrite Ew, Ek. lia.
    + injection H as <- <-. cbn [set_clock tp_queue tp_workers tp_close]; unfold checker_work; cbn [tp_clo tp_snap set_clock c_worker set_worker]. rewrite Ew, Ek. lia.
Qed.

Lemma own_decr max n l s e s' o : tinv n l s -> c_stopped (tp_clo s) = true -> tp_step max s e = TDone s' o -> own s e -> (pool_work n s' + 1 <= pool_work n s)%nat.
Proof. intros I Hst H Ho. destruct e; try done; cbn [tp_step] in H; [by eapply worker_work|by eapply close_decr|by eapply checker_decr]. Qed.
Lemma stays_stopped max n l s e s' o : tinv n l s -> c_stopped (tp_clo s) = true -> tp_step max s e = TDone s' o -> c_stopped (tp_clo s') = true.
Proof.
  intros I Hst H. destruct e as [|t|i| | |d].
  - cbn in H. destruct (uq_push _ _). by injection H as <- <-.
  - cbn in H. destruct (bool_decide _); [|done]. by injection H as <- <-.
  - cbn in H. unfold worker_step in H. destruct (tp_workers s !! i) as [[p st]|]; [|done].
    destruct p; try done; try (destruct (uq_pop _) as [[[t|] q]|]; [| |done]); by injection H as <- <-.
  - cbn [tp_step] in H. unfold close_step in H. destruct (tp_close s).
    + by injection H as <- <-.
    + cbn in H. rewrite Hst in H. by injection H as <- <-.
    + cbn in H. destruct (c_joining _); [|done]. destruct (c_worker _); try done; by injection H as <- <-.
    + destruct (uq_pop _) as [[[t|] q]|]; [| |done]; by injection H as <- <-.
    + by injection H as <- <-.
    + destruct (forallb _ _); [|done]. by injection H as <- <-.
  - cbn [tp_step] in H. unfold checker_step, closure_step in H. destruct (c_worker (tp_clo s)) eqn:Ew; try done; cbn [c_step] in H; rewrite Ew, ?Hst in H; try (injection H as <- <-; done).
    destruct (tp_snap s) as [k|]; [|by injection H as <- <-]. destruct (tp_workers s !! length k); [by injection H as <- <-|].
    unfold check_end in H. destruct (_ =? -1); [by injection H as <- <-|]. destruct (k !! _); [|done]. by injection H as <- <-.
  - cbn [tp_step] in H. unfold closure_step in H. destruct (c_step _ _ _) as [| |c r] eqn:E; try done. injection H as <- <-. apply c_step_tick in E as (E & _). cbn. by rewrite E.
Qed.
Lemma other_work max n l s e s' o : tinv n l s -> u_last (tp_queue s) = true -> tp_step max s e = TDone s' o -> ~ own s e -> e <> PClose -> pool_work n s' = pool_work n s.
Proof.
  intros I Hl H Hn Hc. destruct e as [|t|i| | |d]; try done; try (by destruct Hn).
  - cbn in H. unfold uq_push in H. rewrite Hl, orb_true_r in H. by injection H as <- <-.
  - cbn in H. destruct (bool_decide _); [|done]. by injection H as <- <-.
  - cbn [tp_step] in H. unfold closure_step in H. destruct (c_step _ _ _) as [| |c r] eqn:E; try done. injection H as <- <-. apply c_step_tick in E as (_ & E & _).
    unfold pool_work, checker_work. cbn [set_clock tp_queue tp_workers tp_close tp_clo tp_snap]. by rewrite E.
Qed.

(** Once Close has told the checker to stop, which needs no waiting, the threads and Close
    have a bounded number of steps left, whatever happens beside them; and when they
    can do no step, Close has returned. *)
Theorem C90_close_returns max n now l s : (0 < n)%nat -> tp_run max (tp_new n now) l s -> close_begun l ->
  (tp_close s = QStop -> exists s' o, tp_step max s PClose = TDone s' o /\ c_stopped (tp_clo s') = true) /\
  (c_stopped (tp_clo s) = true -> forall k s', tp_steps max s k s' -> (k <= pool_work n s)%nat) /\
  ((forall e s' o, own s e -> tp_step max s e <> TDone s' o) -> tp_close s = QNo /\ OCloseEnd ∈ l.*2).
Proof.
  intros Hn H Hb. pose proof (tinv_run _ _ _ _ _ H) as I. split; [|split].
  - intros Ec. cbn [tp_step]. unfold close_step. rewrite Ec. cbn. destruct (c_stopped (tp_clo s)) eqn:Es; eexists _, _; (split; [done|]); cbn; by rewrite ?Es.
  - intros Hst k s' Hk.
    assert (G : exists l', tp_run max (tp_new n now) l' s' /\ c_stopped (tp_clo s') = true /\ (pool_work n s' + k <= pool_work n s)%nat); [|destruct G as (? & ? & ? & ?); lia].
    induction Hk as [|k s1 e s2 o Hk IH Ho Hs|k s1 e s2 o Hk IH Ho Hc Hs].
    + exists l. split; [done|]. split; [done|lia].
    + destruct IH as (l1 & R & S1 & W). pose proof (tinv_run _ _ _ _ _ R) as I1. exists (l1 ++ ((tp_now s2,.) <$> o)). split; [by econstructor|].
      split; [by eapply stays_stopped|]. pose proof (own_decr _ _ _ _ _ _ _ I1 S1 Hs Ho). lia.
    + destruct IH as (l1 & R & S1 & W). pose proof (tinv_run _ _ _ _ _ R) as I1. exists (l1 ++ ((tp_now s2,.) <$> o)). split; [by econstructor|].
      split; [by eapply stays_stopped|]. rewrite (other_work _ _ _ _ _ _ _ I1 (ti_stopped _ _ _ I1 S1) Hs Ho Hc). lia.
  - intros Hr. assert (Hl : u_last (tp_queue s) = true) by (by apply (ti_last _ _ _ I)).
    assert (Hp : exists r q, uq_pop (tp_queue s) = Some (r, q)).
    { unfold uq_pop. destruct (u_closed (tp_queue s)) eqn:Ec; [eauto|]. destruct (u_buf (tp_queue s)) eqn:Eb; [|eauto].
      rewrite (proj2 (ti_closed _ _ _ I)) in Ec; done. }
    destruct Hp as (r & q & Hp).
    assert (E : tp_close s = QNo).
    { destruct (tp_close s) as [| | | |t|] eqn:Ec; [done| | | | |]; exfalso.
      - specialize (Hr PClose). cbn [own tp_step] in Hr. unfold close_step in Hr. rewrite Ec in Hr. cbn in Hr. destruct (c_stopped _); by eapply Hr.
      - pose proof (ti_clo _ _ _ I) as C. rewrite Ec in C. destruct C as [Cj Cs].
        assert (Hw : c_worker (tp_clo s) <> WNone /\ c_worker (tp_clo s) <> WExit).
        { specialize (Hr PClose). cbn [own tp_step] in Hr. unfold close_step in Hr. rewrite Ec in Hr. cbn in Hr. rewrite Cj in Hr.
          destruct (c_worker (tp_clo s)); split; try done; exfalso; by eapply Hr. }
        pose proof (C90_no_crash max n now l s PChecker Hn H) as Hnc.
        specialize (Hr PChecker). cbn [own tp_step] in Hr, Hnc. unfold checker_step, closure_step in Hr, Hnc. destruct Hw as [W1 W2].
        destruct (c_worker (tp_clo s)) eqn:Ew; try done; cbn [c_step] in Hr, Hnc; rewrite Ew, ?Cs in Hr, Hnc; try (by eapply Hr).
        destruct (tp_snap s) as [k|]; [|by eapply Hr]. destruct (tp_workers s !! length k); [by eapply Hr|].
        destruct (check_end s k) eqn:Ee; [|done|by eapply Hr]. unfold check_end in Ee. destruct (_ =? -1); [done|]. by destruct (k !! _).
      - specialize (Hr PClose). cbn [own tp_step] in Hr. unfold close_step in Hr. rewrite Ec, Hp in Hr. destruct r; by eapply Hr.
      - specialize (Hr PClose). cbn [own tp_step] in Hr. unfold close_step in Hr. rewrite Ec in Hr. by eapply Hr.
      - assert (Hall : forallb exited (tp_workers s) = true).
        { apply forallb_forall. intros w [i Hi]%elem_of_list_In%elem_of_list_lookup. destruct (exited w) eqn:Ex; [done|]. exfalso.
          specialize (Hr (PWorker i)). cbn [own tp_step] in Hr. unfold worker_step in Hr. rewrite Hi in Hr. destruct w as [p st]. destruct p; try done; try (by eapply Hr).
          rewrite Hp in Hr. destruct r; by eapply Hr. }
        specialize (Hr PClose). cbn [own tp_step] in Hr. unfold close_step in Hr. rewrite Ec, Hall in Hr. by eapply Hr. }
    split; [done|]. destruct (begun_or_ended _ _ _ _ _ H Hb) as [?|?]; [congruence|done].
Qed.

(** So a check at the end of which every thread had been busy for a minute, with the same
    task all along, warns. *)
Theorem C90_deadlock_reported max n now l s : (0 < n)%nat -> tp_run max (tp_new n now) l s ->
  every (fun l1 x => (forall i m, (i < n)%nat -> during l1 m -> exists b, busy_since m i = Some b /\ b + 60000 <= x.1) -> x.2 <> OQuiet) l.
Proof.
  intros Hn H l1 x l2 E Hb Hq. pose proof (C90_deadlock _ _ _ _ _ Hn H l1 x l2 E) as D. cbn beta in D. rewrite Hq in D.
  destruct D as (i & m & Hi & Hm & D). destruct (Hb i m Hi Hm) as (b & Eb & Hle). rewrite Eb in D. lia.
Qed.

Lemma script_run max s0 l s es l' s' : tp_run max s0 l s -> tp_script max s es = Some (l', s') -> tp_run max s0 (l ++ l') s'.
Proof.
  revert l s l'. induction es as [|e es IH]; intros l s l' H E; cbn [tp_script] in E.
  - injection E as <- <-. by rewrite app_nil_r.
  - destruct (tp_step max s e) as [| |s1 o] eqn:Es; try done. destruct (tp_script max s1 es) as [[l1 s2]|] eqn:E1; [|done]. cbn in E. injection E as <- <-.
    rewrite app_assoc. eapply IH; [|done]. by econstructor.
Qed.

(** Without threads the first check of the deadlock checker, after twenty seconds, reads
    the statistics of a thread that does not exist. *)
Theorem C90_no_threads_refuted max now : exists l s, tp_run max (tp_new 0 now) l s /\ tp_step max s PChecker = TCrash.
Proof.
  exists ([] ++ [(now + 20000, OCheck)]), (mkPool uq_new [] QNo (mkClosure false (WRun (now + 20000 + 20000)) false (now + 20000)) (Some []) [] 0%nat).
  split; [|reflexivity]. eapply (script_run _ _ [] _ [PChecker; PTick 20000; PChecker; PChecker; PChecker]); [constructor|].
  unfold tp_script, tp_step, checker_step, closure_step, check_period; cbn. rewrite Z.leb_refl. reflexivity.
Qed.

(** What Schedule returns does not say whether the task will be run: it is true for a
    task that is dropped since Close has begun, and false for one that waits behind
    too many others; the comment above Schedule says the opposite of the latter. *)
Theorem C90_schedule_refuted :
  (exists l s, tp_run 10 (tp_new 1 0) l s /\ OPush 0%nat false ∈ l.*2 /\ OResult 0%nat true ∈ l.*2 /\ tp_close s = QNo /\ called l = []) /\
  (exists l s, tp_run 0 (tp_new 1 0) l s /\ OPush 0%nat true ∈ l.*2 /\ OResult 0%nat false ∈ l.*2 /\ 0%nat ∈ returned l).
Proof.
  split.
  - destruct (tp_script 10 (tp_new 1 0) [PClose; PPush; PResult 0; PClose; PChecker; PChecker; PClose; PClose; PWorker 0; PClose]) as [[l s]|] eqn:E; [|vm_compute in E; discriminate].
    exists l, s. split; [by apply (script_run _ _ [] _ _ _ _ (tr_nil _ _) E)|].
    vm_compute in E. injection E as <- <-. split; [right; left|]. split; [right; right; left|]. done.
  - destruct (tp_script 0 (tp_new 1 0) [PPush; PResult 0; PWorker 0; PWorker 0; PWorker 0; PWorker 0]) as [[l s]|] eqn:E; [|vm_compute in E; discriminate].
    exists l, s. split; [by apply (script_run _ _ [] _ _ _ _ (tr_nil _ _) E)|].
    vm_compute in E. injection E as <- <-. split; [left|]. split; [right; left|]. left.
Qed.

(** Two threads and three tasks.  Two of the tasks run for more than a minute: the checks
    after 20 and 40 seconds say nothing, the one after 61 seconds warns.  Then Close cancels the task that
    waits, and returns when the two others have ended. *)
Definition ex_check (d : Z) : list pev := [PTick d; PChecker; PChecker; PChecker; PChecker; PChecker; PChecker; PChecker].
Definition ex_warn : list pev :=
  [PChecker; PPush; PPush; PPush; PResult 0; PResult 2; PResult 1; PWorker 1; PWorker 1; PWorker 0; PWorker 0; PWorker 0; PWorker 1]
  ++ ex_check 20000 ++ ex_check 20000 ++ ex_check 21000
  ++ [PClose; PClose; PChecker; PClose; PClose; PClose; PClose; PPush; PWorker 0; PWorker 0; PWorker 0; PWorker 1; PWorker 1; PWorker 1; PClose].
Example C90_example : exists l s, tp_run 2 (tp_new 2 0) l s /\
  l.*2 = [OPush 0 true; OPush 1 true; OPush 2 true; OResult 0 false; OResult 2 false; OResult 1 false;
          OPop (Some 1) 0; OTake 1 0; OPop (Some 0) 1; OTake 0 1; OCall (Some 0) 1 Ok true; OCall (Some 1) 0 Ok true;
          OCheck; OQuiet; OCheck; OQuiet; OCheck; OWarn 61000;
          OCloseStart; OPop None 2; OCall None 2 Cancelled false; OBack None 2; OPush 3 false;
          OBack (Some 0) 1; OFinish 0 1; OBack (Some 1) 0; OFinish 1 0; OCloseEnd]%nat.
Proof.
  destruct (tp_script 2 (tp_new 2 0) ex_warn) as [[l s]|] eqn:E; [|vm_compute in E; discriminate].
  exists l, s. split; [by apply (script_run _ _ [] _ _ _ _ (tr_nil _ _) E)|].
  vm_compute in E. injection E as <- <-. reflexivity.
Qed.

Print Assumptions C90_once.
Print Assumptions C90_arguments.
Print Assumptions C90_close.
Print Assumptions C90_refused.
Print Assumptions C90_stats.
Print Assumptions C90_deadlock.
Print Assumptions C90_deadlock_reported.
Print Assumptions C90_no_crash.
Print Assumptions C90_close_returns.
Print Assumptions C90_no_threads_refuted.
Print Assumptions C90_schedule_refuted.
